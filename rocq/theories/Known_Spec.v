(** Which name should be suggested. *)
From Verif Require Import Base Commands_Model Commands_Spec.

(** [n] is the first, in order, of the names with [P] that begin with [prefix] *)
Definition Least (P : str -> Prop) (prefix n : str) : Prop :=
  (P n /\ exists r, n = prefix ++ r) /\ forall m r, P m -> m = prefix ++ r -> n = m \/ Before n m.
(** the directory [d] has an executable named [n] *)
Definition Executable (w : world) (d n : str) : Prop :=
  exists es e, read_dir w d = Some es /\ In e es /\ name e = n /\ (what e = Regular /\ x_bits e = true \/ what e = Link).
(** … that is no link *)
Definition Own_file (w : world) (d n : str) : Prop :=
  exists es e, read_dir w d = Some es /\ In e es /\ name e = n /\ what e = Regular /\ x_bits e = true.
