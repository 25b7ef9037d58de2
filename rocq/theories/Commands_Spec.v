(** What the commands and files offered for a word should be. *)
From Verif Require Import Base Commands_Model.
From Verif Require Frecency_Model.

Section Matching.
Variable fuzzy : str -> str -> bool.
(** the directory [d] has something named [n] that matches [q] and counts as a command *)
Definition Offers (w : world) (q d n : str) : Prop :=
  exists es e, read_dir w d = Some es /\ In e es /\ name e = n /\ (q = [] \/ fuzzy n q = true) /\
               (what e = Regular /\ x_bits e = true \/ what e = Link).
(** the directory [d] has an entry named [n] that matches [q], which is a regular file or is not *)
Definition Has (w : world) (q d n : str) (regular : Prop) : Prop :=
  exists es e, read_dir w d = Some es /\ In e es /\ name e = n /\ (q = [] \/ fuzzy n q = true) /\ (what e = Regular <-> regular).
End Matching.

Definition Before (a b : str) : Prop := Frecency_Model.str_cmp a b = Lt.

(** the first of [l] with [P] *)
Definition First (P : item -> Prop) (l : list item) (x : item) : Prop :=
  exists l1 l2, l = l1 ++ x :: l2 /\ P x /\ Forall (fun y => ~ P y) l1.
(** the text after the last slash *)
Definition Base (t b : str) : Prop := ~ In (chr "/") b /\ (t = b \/ exists p, t = p ++ chr "/" :: b).
(** [x] stands for the name [b] among [l]: the first command if the first candidate is a file and there is
    a command, otherwise the first candidate *)
Definition Stands_for (l : list item) (b : str) (x : item) : Prop :=
  exists y, First (fun z => Base (fst z) b) l y /\
    (snd y = File /\ First (fun z => Base (fst z) b /\ snd z = Command) l x \/
     (snd y <> File \/ ~ exists z, In z l /\ Base (fst z) b /\ snd z = Command) /\ x = y).
(** [out] is [l] with every name but the first of its kind left out *)
Inductive Firsts : list str -> list str -> list str -> Prop :=
| f_nil seen : Firsts seen [] []
| f_skip seen x l out : In x seen -> Firsts seen l out -> Firsts seen (x :: l) out
| f_keep seen x l out : ~ In x seen -> Firsts (x :: seen) l out -> Firsts seen (x :: l) (x :: out).
