(** What the keys at the prompt promise, without key tables and handlers. *)
From Verif Require Import Base Editor_Spec Keys_Model.

(** the key (pressed plain or with Shift) that has the character on it; a space counts only
    without Shift, see [typed] *)
Inductive typed : str -> list (key * world) -> Prop :=
| typed_nil : typed [] []
| typed_plain c s w l : typed s l -> typed (c :: s) ((Key (KChar c) none, w) :: l)
| typed_shift c s w l : typed s l -> typed (c :: s) ((Key (KChar c) shift, w) :: l).
(** all of them pressed plain *)
Inductive typed_plainly : str -> list (key * world) -> Prop :=
| tp_nil : typed_plainly [] []
| tp_plain c s w l : typed_plainly s l -> typed_plainly (c :: s) ((Key (KChar c) none, w) :: l).

Definition left_bracket (c : char) : Prop := c = chr "(" \/ c = chr "[" \/ c = chr "{".
Definition right_bracket (c : char) : Prop := c = chr ")" \/ c = chr "]" \/ c = chr "}".
Definition quote_mark (c : char) : Prop := c = 39%N \/ c = 34%N.
Inductive matching : char -> char -> Prop :=
| m_round : matching (chr "(") (chr ")")
| m_square : matching (chr "[") (chr "]")
| m_curly : matching (chr "{") (chr "}").
(** text in which every bracket is closed, without quotation marks *)
Inductive balanced : str -> Prop :=
| bal_nil : balanced []
| bal_char c s : ~ left_bracket c -> ~ right_bracket c -> ~ quote_mark c -> balanced s -> balanced (c :: s)
| bal_group o c s1 s2 : matching o c -> balanced s1 -> balanced s2 -> balanced (o :: s1 ++ c :: s2).

(** pasted text with Windows or old Mac line ends made into newlines *)
Inductive unix_lines : str -> str -> Prop :=
| ul_nil : unix_lines [] []
| ul_crlf s t : unix_lines s t -> unix_lines (13%N :: 10%N :: s) (10%N :: t)
| ul_cr s t : hd_error s <> Some 10%N -> unix_lines s t -> unix_lines (13%N :: s) (10%N :: t)
| ul_char c s t : c <> 13%N -> unix_lines s t -> unix_lines (c :: s) (c :: t).

(** the next word of a text, with the blanks before it and one blank behind it; a text of
    blanks only is taken whole *)
Inductive first_word : str -> str -> Prop :=
| fw_blanks b : Forall (fun c => is_whitespace c = true) b -> first_word b b
| fw_last b w : Forall (fun c => is_whitespace c = true) b -> w <> [] -> Forall (fun c => is_whitespace c = false) w ->
    first_word (b ++ w) (b ++ w)
| fw_word b w c r : Forall (fun c => is_whitespace c = true) b -> w <> [] -> Forall (fun c => is_whitespace c = false) w ->
    is_whitespace c = true -> first_word (b ++ w ++ c :: r) (b ++ w ++ [c]).

(** [part] occurs in [s] *)
Definition occurs (part s : str) : Prop := exists a b, s = a ++ part ++ b.

(** the keys that run something *)
Definition running_key (k : key) : Prop :=
  k = Key KEnter none \/ k = Key KEnter alt \/ k = Key (KChar (chr "c")) alt \/ k = Key (KChar (chr "e")) ctrl.

(** [c] and [d] are a pair that automatic pairing inserts *)
Definition pair_of_marks (c d : char) : Prop := matching c d \/ (quote_mark c /\ c = d).
(** what the editing keys do to the text before and after the cursor; [ap]: automatic pairing *)
Definition ctrl_key (c : ascii) : key := Key (KChar (chr c)) ctrl.
Inductive edit_key (ap : bool) : key -> zip -> zip -> Prop :=
| ek_home b a : edit_key ap (ctrl_key "a") (Zip b a) (Zip [] (b ++ a))
| ek_end b a : edit_key ap (ctrl_key "e") (Zip b a) (Zip (b ++ a) [])
| ek_kill b a : edit_key ap (ctrl_key "k") (Zip b a) (Zip b [])
| ek_kill_back b a : edit_key ap (ctrl_key "u") (Zip b a) (Zip [] a)
| ek_kill_word b a : edit_key ap (ctrl_key "w") (Zip b a) (Zip (before_word b) a)
| ek_left b c a : edit_key ap (Key KLeft none) (Zip (b ++ [c]) a) (Zip b (c :: a))
| ek_left_edge a : edit_key ap (Key KLeft none) (Zip [] a) (Zip [] a)
| ek_right b c a : edit_key ap (Key KRight none) (Zip b (c :: a)) (Zip (b ++ [c]) a)
| ek_back b c a : (ap = true -> forall d, hd_error a = Some d -> ~ pair_of_marks c d) -> edit_key ap (Key KBackspace none) (Zip (b ++ [c]) a) (Zip b a)
| ek_back_pair b c d a : ap = true -> pair_of_marks c d -> edit_key ap (Key KBackspace none) (Zip (b ++ [c]) (d :: a)) (Zip b a)
| ek_back_edge a : edit_key ap (Key KBackspace none) (Zip [] a) (Zip [] a).
