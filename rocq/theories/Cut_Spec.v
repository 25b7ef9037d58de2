(** Shortened text, without byte indices. *)
From Verif Require Import Base.

Definition prefix (a s : str) : Prop := exists b, s = a ++ b.
(** the longest prefix of [s] that has at most [n] bytes *)
Definition longest_within (n : nat) (s a : str) : Prop :=
  prefix a s /\ blen a <= n /\ forall a', prefix a' s -> blen a' <= n -> prefix a' a.
Definition ascii (s : str) : Prop := Forall (fun c => (c < 128)%N) s.
(** byte [n] is inside the character [c] of the text, behind [p] *)
Definition splits (n : nat) (p : str) (c : char) (q s : str) : Prop := s = p ++ c :: q /\ blen p < n < blen p + utf8_len c.
(** text behind the last blank or parenthesis *)
Definition separator (c : char) : Prop := is_whitespace c = true \/ c = chr "(" \/ c = chr ")".
Inductive last_word : str -> option char -> str -> Prop :=
| lw_whole t : Forall (fun c => ~ separator c) t -> last_word t None t
| lw_behind a c t : separator c -> Forall (fun c => ~ separator c) t -> last_word (a ++ c :: t) (Some c) t.
