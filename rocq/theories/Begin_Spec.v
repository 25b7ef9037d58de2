(** C274, in words of rows and times. *)
From Verif Require Import Base Begin_Model.

(** The table is ordered, newest first. *)
Fixpoint newest_first (d : list row) : Prop :=
  match d with [] => True | x :: r => (forall y, In y r -> (snd y <= snd x)%N) /\ newest_first r end.
(** Of the rows, the first thousand are newer than all others. *)
Definition clear_cut (d : list row) : Prop := forall x y, In x (firstn 1000 d) -> In y (skipn 1000 d) -> (snd y < snd x)%N.
(** No step runs the command [c]. *)
Definition not_run (c : str) (es : list step) : Prop := forall t, ~ In (Run c t) es.
(** The thread has read the first part. *)
Definition ready (s : state) : Prop := at_ s <> Starting.
