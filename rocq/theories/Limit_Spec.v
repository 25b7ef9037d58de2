(** What a time limit should mean.  Only the events and the fields of the state are used. *)
From Verif Require Import Base Limit_Model.

(** All that was written, in order *)
Fixpoint output (es : list event) : list N :=
  match es with [] => [] | Write b :: r => b ++ output r | _ :: r => output r end.
(** The steps of the shell *)
Definition own (e : event) : Prop := e = Read \/ e = Wait \/ e = Join.
Definition over (s : st) : Prop := exists r, stage s = Done r.
