(** What the candidate menu and Tab are to do, independently of the program. *)
From Verif Require Import Base Editor_Model Editor_Spec Token_Model Pick_Model.

(** pressing a key; [w] is the width of the terminal at that time *)
Definition press (k : key) (w : nat) : event * option nat := (Pressed k Plain, Some w).
(** the menu opens in a terminal that is [w] wide *)
Definition opens (w : nat) : event * option nat := (NoKey, Some w).
(** the keys that pick the candidate behind as many others as there are widths *)
Definition pick (w : nat) (ws : list nat) (w' : nat) : list (event * option nat) :=
  opens w :: map (press Right) ws ++ [press Enter w'].
(** the keys that close the menu without choosing *)
Definition closing (e : event) : Prop :=
  (exists m, e = Pressed Esc m) \/ (exists m, e = Pressed Backspace m) \/
  e = Pressed (Char 99%N) Control \/ e = Pressed (Char 103%N) Control \/ e = Pressed (Char 113%N) Plain.

(** the line with [v] in the place of the characters from [a] up to [b], the cursor behind [v] *)
Definition replaced (line : str) (a b : nat) (v : str) : zip := Zip (firstn a line ++ v) (skipn b line).

(** the name written in (autocomplete name ...) as it is kept: lisp/interpreter.rs l.189 *)
Definition kept_name (name : str) : str := map (fun c => if (c =? 45)%N then 95%N else c) name.
Definition no_blank (s : str) : Prop := Forall (fun c => is_whitespace c = false) s.
(** a declaration applies to a line *)
Definition applies (d : declared) (line : str) : Prop := exists r, replace_space line = target d ++ r.
