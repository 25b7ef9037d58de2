(** What opening a database should keep and bring. *)
From Verif Require Import Base Schema_Model.

(** [b] holds what [a] holds: its columns come first, its rows are there in order with the same values *)
Definition Holds (a b : table) : Prop :=
  (exists more, columns b = columns a ++ more) /\
  Forall2 (fun r q => forall c v, get r c = Some v -> get q c = Some v) (rows a) (rows b).
(** every table is still there with what it held *)
Definition Kept (d e : db) : Prop :=
  (forall t a, tables d t = Some a -> exists b, tables e t = Some b /\ Holds a b) /\
  (forall n i, indexes d n = Some i -> indexes e n = Some i).
(** the same command is there in two places *)
Definition Duplicates (b : table) (c : str) : Prop :=
  exists x r y q z v, rows b = x ++ r :: y ++ q :: z /\ get r c = Some v /\ get q c = Some v /\ v <> Null.
Definition empty : db := Db (fun _ => None) (fun _ => None).
(** an index of this name is there, or can be made *)
Definition Can_index (d : db) (name t c : str) (unique : bool) : Prop :=
  indexes d name <> None \/ tables d t = None \/ exists b, tables d t = Some b /\ In c (columns b) /\ (unique = true -> ~ Duplicates b c).
