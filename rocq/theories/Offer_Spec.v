(** What a line is, as the person at the keyboard sees it: the marks |? and |!, the word before
    the cursor, and ordinary words. *)
From Verif Require Import Base Parse_Spec.
From Verif Require Editor_Spec.

(** the text has the two characters [a], [b] next to each other *)
Definition marked (a b : char) (s : str) : Prop := exists u v, s = u ++ a :: b :: v.
(** it is cut at the last such place *)
Definition cut_at (a b : char) (s u v : str) : Prop := s = u ++ a :: b :: v /\ ~ marked a b v.
Definition blank_text (s : str) : Prop := forall c, In c s -> is_whitespace c = true.

(** [t] is [s] without the white space around it *)
Definition trimmed (s t : str) : Prop :=
  exists l r, s = l ++ t ++ r /\ blank_text l /\ blank_text r /\
    (forall c u, t = c :: u -> is_whitespace c = false) /\ (forall c u, t = u ++ [c] -> is_whitespace c = false).
(** a pair of equal quotation marks around the whole is dropped *)
Definition quoted_pair (q r : str) : Prop := exists d, (d = 34%N \/ d = 39%N) /\ q = d :: r ++ [d].
Definition unquoted (q r : str) : Prop := quoted_pair q r \/ ((forall u, ~ quoted_pair q u) /\ r = q).

(** the line [t] has the form: c |! q, with something on both sides of the last such mark *)
Definition to_model (t c q : str) : Prop :=
  exists u v w, cut_at 124%N 33%N t u v /\ trimmed u c /\ trimmed v w /\ unquoted w q /\ c <> [] /\ q <> [].

(** [w] is the whole word that ends where [before] ends, and [pre] what stands before it; words
    are separated by white space and by | & ; ( ) *)
Definition ends_with_word (before pre w : str) : Prop :=
  before = pre ++ w /\ w <> [] /\ (forall c, In c w -> Editor_Spec.abbr_char c = true) /\
  (forall u c, pre = u ++ [c] -> Editor_Spec.abbr_char c = false).

(** a word of characters that mean nothing special to the shell *)
Definition plain_text (w : str) : Prop := w <> [] /\ forall c, In c w -> ordinary c = true /\ is_whitespace c = false.
