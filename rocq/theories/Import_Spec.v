(** The history file of fish. *)
From Verif Require Import Base Import_Model.

(** an item: the command, its time as written, and the paths it mentions *)
Record item := Item { cmd : str; when : str; paths : list str }.
(** fish writes a newline as backslash n and a backslash twice (fish, history_file.cpp
    escape_yaml_fish_2_0) *)
Definition escape1 (c : char) : str :=
  if (c =? 10)%N then lit "\n" else if (c =? chr "\")%N then lit "\\" else [c].
Definition escape (s : str) : str := flat_map escape1 s.
Definition nl : str := [10%N].
Definition path_line (p : str) : str := lit "    - " ++ escape p ++ nl.
Definition item_text (i : item) : str :=
  lit "- cmd: " ++ escape (cmd i) ++ nl ++
  lit "  when: " ++ when i ++ nl ++
  match paths i with [] => [] | ps => lit "  paths:" ++ nl ++ flat_map path_line ps end.
Definition fish_history (l : list item) : str := flat_map item_text l.

(** no blanks at the ends *)
Definition trimmed (v : str) : Prop :=
  match v with c :: _ => is_whitespace c = false | [] => True end /\
  match rev v with c :: _ => is_whitespace c = false | [] => True end.
(** a command fish writes as it is: one line, no backslash *)
Definition plain (s : str) : Prop := ~ In 10%N s /\ ~ In (chr "\") s.
(** a time as written: a number, so no blanks *)
Definition number (parse : str -> option Z) (t : str) : Prop :=
  t <> [] /\ (forall c, In c t -> is_whitespace c = false) /\ parse t <> None.
