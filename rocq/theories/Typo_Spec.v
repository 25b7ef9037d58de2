(** Edits of a word, and the words nearest to another. *)
From Verif Require Import Base Frecency_Model.
From Coq Require Import Sorting.Sorted.

(** one edit: a character is put in, taken out, or exchanged *)
Inductive edit : str -> str -> Prop :=
| put_in u c v : edit (u ++ v) (u ++ c :: v)
| take_out u c v : edit (u ++ c :: v) (u ++ v)
| exchange u c d v : edit (u ++ c :: v) (u ++ d :: v).
Inductive edits : nat -> str -> str -> Prop :=
| no_edit a : edits 0 a a
| more_edits n a b c : edit a b -> edits n b c -> edits (S n) a c.
(** the least number of edits *)
Definition apart (n : nat) (a b : str) : Prop := edits n a b /\ forall m, edits m a b -> n <= m.

(** near enough to be meant: at least one edit away and at most two, or at most 30 per cent of the
    length; nothing is near to words of fewer than 2 or more than 30 bytes *)
Definition near (typo : str) (n : nat) (x : str) : Prop :=
  apart n typo x /\ 2 <= blen typo <= 30 /\ 1 <= n /\ (n <= 2 \/ n * 100 <= blen typo * 30).

(** [a] is nearer than [b], or as near and first in the alphabet *)
Definition before (a b : str * nat) : Prop := snd a < snd b \/ (snd a = snd b /\ str_cmp (fst a) (fst b) = Lt).
(** the (at most) three nearest of the words with the property *)
Definition three_nearest (typo : str) (word : str -> Prop) (l : list (str * nat)) : Prop :=
  length l <= 3 /\ StronglySorted before l /\
  (forall x n, In (x, n) l -> word x /\ near typo n x) /\
  (forall x n, word x -> near typo n x -> In (x, n) l \/ (length l = 3 /\ forall y, In y l -> before y (x, n))).
