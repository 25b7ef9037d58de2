(** Which task a request means, and what a Taskfile says. *)
From Verif Require Import Base Include_Model Direnv_Model Task_Model.

(** a request by plain name, or by source and name *)
Inductive request := ByName (n : str) | ByBoth (s n : str).
Definition means (r : request) (t : task) : Prop :=
  match r with ByName n => name t = n | ByBoth s n => source t = s /\ name t = n end.
(** as written on the command line *)
Definition written (r : request) : str := match r with ByName n => n | ByBoth s n => s ++ chr ":" :: n end.
(** the request means one task and no other *)
Definition unique (tasks : list task) (r : request) (t : task) : Prop :=
  In t tasks /\ means r t /\ forall u, In u tasks -> means r u -> u = t.

(** names that are read as something else: options, and the words list and help *)
Definition plain_word (w : str) : Prop :=
  starts_with (lit "-") w = false /\ w <> lit "list" /\ w <> lit "help".

(** ** Taskfiles *)
(** a task: its name and the lines of its body, as key and text, or list items *)
Inductive body_line := Key (k v : str) | Item (text : str).
Record entry := Entry { entry_name : str; body : list body_line }.
Definition nl : str := [10%N].
Definition body_text (b : body_line) : str :=
  match b with Key k v => lit "    " ++ k ++ lit ":" ++ v ++ nl | Item s => lit "      - " ++ s ++ nl end.
Definition entry_text (e : entry) : str := lit "  " ++ entry_name e ++ lit ":" ++ nl ++ flat_map body_text (body e).
Definition taskfile (es : list entry) : str := lit "version: '3'" ++ nl ++ lit "tasks:" ++ nl ++ flat_map entry_text es.

(** words such as names and keys: no blanks, colons or line ends, not empty, not starting
    like a comment or a flow mapping *)
Definition simple (w : str) : Prop :=
  match w with c :: _ => c <> chr "#" /\ c <> chr "{" | [] => False end /\
  forall c, In c w -> is_whitespace c = false /\ c <> chr ":".
Definition line_text (s : str) : Prop := ~ In 10%N s /\ ~ In 13%N s.
