(** Which commands of a typed line are dangerous, and what running a list of commands one
    after the other means. *)
From Verif Require Import Base Parse_Model Parse_Spec Safety_Spec.

(** a command, as the program gets it, is one of the listed combinations *)
Definition dangerous_cmd (c : cmdline) : Prop :=
  exists n, known_as (meaning (name c)) n /\ dangerous n (tl (argv c)).

(** typed as it is: no quotes, backslashes, variables or white space inside *)
Definition plain_word (w : word) : Prop :=
  exists t, w = Bare (map (fun c => (false, c)) t) /\ forall c, In c t -> is_whitespace c = false.
(** a command of plain words only, without redirections *)
Definition plain_cmd (c : cmdline) : Prop :=
  plain_word (name c) /\ Forall (fun i => match i with Arg _ w => plain_word w | Redir _ _ _ _ => False end) (items c).

(** the command is the first of a pipeline, with a blank before the bar, and no background
    command stands before it in the same segment; or it is a background command, with a blank
    before the ampersand *)
Definition up_front (g : segment) (c : cmdline) : Prop :=
  (bgs g = [] /\ exists more, pipe g = c :: more /\ (trail c = [] -> more = []))
  \/ (In c (bgs g) /\ trail c <> []).
Definition segments (l : line) : list segment := fst l :: map snd (snd l).

Section Run.
Variable W : Type.
Variable spawn : W -> job -> W * (nat * str).
(** all commands one after the other: the world afterwards, what they wrote, their statuses *)
Fixpoint run_each (w : W) (js : list job) : W * str * list nat :=
  match js with
  | [] => (w, [], [])
  | j :: rest => let '(w1, (st, out)) := spawn w j in
                 let '(w2, outs, sts) := run_each w1 rest in (w2, out ++ outs, st :: sts)
  end.
(** the same with && and ||: a command runs if the operator before it says so *)
Fixpoint run_short (w : W) (gate : list_op) (status : nat) (js : list job) : W * str :=
  match js with
  | [] => (w, [])
  | j :: rest =>
      let runs := match gate with OpNone => true | OpAnd => status =? 0 | OpOr => negb (status =? 0) end in
      if runs then
        let '(w1, (st, out)) := spawn w j in
        let '(w2, outs) := run_short w1 (op j) st rest in (w2, out ++ outs)
      else run_short w (op j) status rest
  end.
End Run.

(** the allowlist has the text, up to blanks before it *)
Definition allowlisted (allow : list str) (t : str) : Prop := exists lead a, gap lead /\ In a allow /\ t = lead ++ a.
