(** What an answer means. *)
From Verif Require Import Base Asked_Model.
From Verif Require Safety_Model.

(** what pressing a key answers *)
Inductive Says : event -> Safety_Model.answer -> Prop :=
| Says_yes m c : In c [chr "y"; chr "Y"] -> Says (Key (Char c) m Press) Safety_Model.Yes
| Says_always m c : In c [chr "a"; chr "A"] -> Says (Key (Char c) m Press) Safety_Model.AlwaysAllow
| Says_no m c : In c [chr "n"; chr "N"] -> Says (Key (Char c) m Press) Safety_Model.No
| Says_esc m : Says (Key Esc m Press) Safety_Model.No
| Says_enter m : Says (Key Enter m Press) Safety_Model.No
| Says_nothing : Says Fails Safety_Model.AskFailed.
Definition Silent (e : event) : Prop := forall a, ~ Says e a.

(** times that do not go back *)
Fixpoint in_time (from : nat) (ks : list (key * nat)) : Prop :=
  match ks with [] => True | (_, t) :: r => from <= t /\ in_time t r end.
Definition escs (ks : list (key * nat)) : list nat := map snd (filter (fun k => match fst k with PressEsc => true | _ => false end) ks).
(** presses taken in pairs: a press with the next, when that comes in time, else it counts for nothing *)
Inductive Pairs (limit : nat) : list nat -> nat -> Prop :=
| Pairs_none : Pairs limit [] 0
| Pairs_one t : Pairs limit [t] 0
| Pairs_near t u r n : u <= t + limit -> Pairs limit r n -> Pairs limit (t :: u :: r) (S n)
| Pairs_far t u r n : t + limit < u -> Pairs limit (u :: r) n -> Pairs limit (t :: u :: r) n.
