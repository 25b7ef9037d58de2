(** Colouring of the typed line: dsh/src/parser/highlight.rs l.36-118.  Positions count
    characters (the code has bytes). *)
From Verif Require Import Base Peg_Model Grammar_Model Parse_Model.

(** l.8-22 *)
Inductive kind := KCommand | KArgument | KVariable | KSingle | KDouble | KRedirect | KPipe | KOperator | KBackground | KProcSubst | KBareword.
(** l.24-29 *)
Record token := Token { tok_start : nat; tok_end : nat; tok_kind : kind }.
(** l.52-57 *)
Inductive hctx := HNone | HCommand | HArgument.

(** l.110-117 push_token *)
Definition push (p : pair_) (k : kind) : list token :=
  if start_of p =? end_of p then [] else [Token (start_of p) (end_of p) k].
(** l.59-108 collect_highlight_from_pair *)
Fixpoint collect (c : hctx) (p : pair_) : list token :=
  match p with
  | Node r s t inner =>
      let all c := (fix go l := match l with [] => [] | q :: l' => collect c q ++ go l' end) inner in
      match r with
      | argv0 => all HCommand
      | args => all HArgument
      | word | glob_word => push p (match c with HCommand => KCommand | HArgument => KArgument | HNone => KBareword end)
      | variable => push p KVariable
      | s_quoted => push p KSingle
      | d_quoted => push p KDouble
      | stdout_redirect_direction | stderr_redirect_direction | stdouterr_redirect_direction
      | stdin_redirect_direction | stdin_redirect_direction_in => push p KRedirect
      | proc_subst_direction | proc_subst_direction_in => push p KProcSubst
      | pipeline_op => push p KPipe
      | background_op => push p KBackground
      | and_op | or_op | sequential_op => push p KOperator
      | _ => all c
      end
  end.
(** l.36-50 collect_highlight_tokens_from_pairs, on the parse of the line *)
Definition highlight (line : str) : list token :=
  match parse line with Ok ps _ _ => flat_map (collect HNone) ps | _ => [] end.
