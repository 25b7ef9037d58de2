(** What a user expects of the directory history, stated on the names it holds. *)
From Verif Require Import Base Frecency_Model.

(** names in strictly increasing order: no directory listed twice *)
Fixpoint increasing (l : list str) : Prop :=
  match l with
  | [] => True
  | a :: r => (forall b, In b r -> str_cmp a b = Lt) /\ increasing r
  end.

(** the effect of an operation on the set of remembered names; truncation may forget
    names, but only when there are more than it may keep *)
Section Effect.
Variable score : Type.
Definition effect (o : fop) (before after : list str) : Prop :=
  match o with
  | FAdd n _ | FAdjust n => forall x, In x after <-> x = n \/ In x before
  | FDelete n => forall x, In x after <-> In x before /\ x <> n
  | FPrune e => forall x, In x after <-> In x before /\ e x = true
  | FTruncate k => (forall x, In x after -> In x before) /\ length after = Nat.min k (length before)
  end.
End Effect.

Definition names {score} (items : list (item score)) : list str := map name items.

(** a lookup by name, as a plain scan *)
Definition entry {score} (n : str) (items : list (item score)) : option (item score) :=
  find (fun i => str_eqb (name i) n) items.
