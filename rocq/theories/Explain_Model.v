(** The explanation of the option at the cursor: dsh/src/argument_explainer.rs and
    dsh/src/repl/mod.rs l.442-449. *)
From Verif Require Import Base Token_Model Comp_Model.

(** ** Definitions of commands: dsh/src/completion/command.rs, the fields that are read here *)
Record xoption := Xoption { x_short : option str; x_long : option str; x_text : option str }.
Inductive xsub := Xsub (name : str) (aliases : list str) (options : list xoption) (subs : list xsub).
Definition xs_name (s : xsub) : str := let (n, _, _, _) := s in n.
Definition xs_options (s : xsub) : list xoption := let (_, _, o, _) := s in o.
Definition xs_subs (s : xsub) : list xsub := let (_, _, _, s) := s in s.
Record xcommand := Xcommand { x_globals : list xoption; x_subs : list xsub }.

(** l.60-80 resolve_command_chain, without the root: the options of each level, outermost first *)
Fixpoint levels (subs : list xsub) (names : list str) : list (list xoption) :=
  match names with
  | [] => []
  | n :: r =>
      match find (fun s => str_eqb (xs_name s) n) subs with
      | Some s => xs_options s :: levels (xs_subs s) r
      | None => levels subs r
      end
  end.
Definition chain (c : xcommand) (names : list str) : list (list xoption) := x_globals c :: levels (x_subs c) names.
(** l.143-163 find_long_option, find_short_option *)
Definition find_by (which : xoption -> option str) (name : str) (os : list xoption) : option str :=
  match find (fun o => match which o with Some x => str_eqb x name | None => false end) os with
  | Some o => x_text o
  | None => None
  end.
(** the loops of l.90-94 and l.126-130, over the reversed chain *)
Fixpoint first_found (which : xoption -> option str) (name : str) (levels : list (list xoption)) : option str :=
  match levels with
  | [] => None
  | os :: r => match find_by which name os with Some d => Some d | None => first_found which name r end
  end.
(** l.82-133 explain_option; [offset] is counted in bytes and used as an index of characters *)
Definition explain_option (levels : list (list xoption)) (word : str) (offset : nat) : option str :=
  if starts_with (lit "--") word then
    first_found x_long (match split_once (chr "=") word with Some (n, _) => n | None => word end) (rev levels)
  else if starts_with (lit "-") word then
    if offset =? 0 then None
    else match nth_error word offset with
         | Some c => first_found x_short (lit "-" ++ [c]) (rev levels)
         | None => None
         end
  else None.
(** dsh/src/completion/parser.rs l.143-156 token_at_cursor *)
Definition token_at_cursor (input : str) (pos : nat) : option (str * nat) :=
  let ss := tokenize input Parser in
  let (i, inside) := cursor_token 0 ss pos in
  if inside then match nth_error ss i with Some s => Some (raw s, pos - byte_start s) | None => None end else None.

Section Explain.
Variables alphabetic alphanumeric : char -> bool.
(** the definitions that come with the shell (json_loader.rs l.60-85: no file of the user's is read here) *)
Variable db : str -> option xcommand.
(** l.35-56 get_explanation *)
Definition get_explanation (input : str) (cursor : nat) : option str :=
  match trim input with
  | [] => None
  | _ =>
      let p := parse alphabetic alphanumeric input cursor in
      match db (command p) with
      | None => None
      | Some c =>
          match ctx p with
          | In_short | In_long =>
              match token_at_cursor input cursor with
              | Some (word, offset) => explain_option (chain c (path p)) word offset
              | None => None
              end
          | _ => None
          end
      end
  end.
(** repl/mod.rs l.442-449: what is shown under the line, with the cursor behind the first [cursor]
    CHARACTERS; an explanation by the assistant comes first *)
Definition shown (ai : option str) (input : str) (cursor : nat) : option str :=
  match ai with
  | Some e => Some (10024%N :: 32%N :: e)
  | None => get_explanation input cursor
  end.
End Explain.
