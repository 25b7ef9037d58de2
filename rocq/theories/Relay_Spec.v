(** What should be shown and passed on. *)
From Verif Require Import Base Relay_Model.

(** a return before each newline that does not come after one *)
Fixpoint with_returns (before : option N) (data : list N) : list N :=
  match data with
  | [] => []
  | b :: r => (if (b =? 10)%N then match before with Some 13%N => [b] | _ => [13%N; b] end else [b]) ++ with_returns (Some b) r
  end.
(** every newline comes directly after a return *)
Definition Returned (s : list N) : Prop := forall a b, s = a ++ 10%N :: b -> exists a', a = a' ++ [13%N].
