(** Macros recorded from the history: dsh/src/repl/macro_utils.rs and the part of
    dsh/src/repl/key_handlers/auxiliary.rs handle_macro_record that saves one.  The
    choice of the commands and of the name is arbitrary input. *)
From Verif Require Import Base Lread_Model.

(** macro_utils.rs l.5-8: str::replace of one character by two *)
Definition escape (c : str) : str :=
  let doubled := flat_map (fun x => if (x =? 92)%N then [92; 92]%N else [x]) c in
  flat_map (fun x => if (x =? 34)%N then [92; 34]%N else [x]) doubled.

(** l.9: one command *)
Definition entry (c : str) : str := lit "  (sh " ++ 34%N :: escape c ++ 34%N :: lit ")" ++ [10%N].

(** macro_utils.rs l.2-13 generate_macro_lisp *)
Definition generate (name : str) (commands : list str) : str :=
  10%N :: lit "(defun " ++ name ++ lit " ()" ++ 10%N :: flat_map entry commands ++ 10%N :: lit ")" ++ [10%N].

(** auxiliary.rs l.140-162: the name is trimmed; nothing is done for an empty one, and
    otherwise the code and a newline are appended to config.lisp.  The code is also run
    at once (Lread_Model.first says what is read). *)
Definition record (config : str) (typed : str) (commands : list str) : option (str * str) :=
  match commands with
  | [] => None
  | _ =>
      let name := trim typed in
      match name with
      | [] => None
      | _ => let code := generate name commands in Some (code, config ++ code ++ [10%N])
      end
  end.

(** lisp/mod.rs l.95-119 run_config_lisp: what is read of config.lisp at the next start *)
Definition start_reading (unum : char -> bool) (config : str) : option res :=
  first unum (wrapped (trim config)).
