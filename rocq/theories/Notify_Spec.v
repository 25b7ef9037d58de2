(** What the notifications in the prompt should be. *)
From Coq Require Import Permutation.
From Verif Require Import Base Notify_Model.

(** a request for a review of a pull request that is over *)
Definition Over (s : service) (n : notification) : Prop :=
  reason n = Some (lit "review_requested") /\
  exists url p, subject_url n = Some url /\ pull_at s url = Some p /\ (state p = Some (lit "closed") \/ merged p = Some true).
(** it was marked as read *)
Definition Dealt_with (s : service) (n : notification) : Prop :=
  Over s n /\ exists i, id n = Some i /\ marks s i = true.

(** the user wants to hear of a reason: there is no filter "reason:a,b,...", or it names it *)
Definition Wanted (filter : option str) (r : str) : Prop :=
  forall f, filter = Some (lit "reason:" ++ f) -> exists w, In w (split_on (chr ",") f) /\ trim w = r.
Definition reason_text (n : notification) : str := match reason n with Some r => r | None => [] end.

(** [l] is, in some order, the notifications of [ns] that satisfy [P] *)
Inductive Selected (P : notification -> Prop) : list notification -> list notification -> Prop :=
| sel_nil : Selected P [] []
| sel_yes n ns l : P n -> Selected P ns l -> Selected P (n :: ns) (n :: l)
| sel_no n ns l : ~ P n -> Selected P ns l -> Selected P (n :: ns) l.
Definition Number_of (P : notification -> Prop) (ns : list notification) (k : nat) : Prop :=
  exists l, Selected P ns l /\ k = length l.

Definition Review (n : notification) : Prop := reason_text n = lit "review_requested".
Definition Mention (n : notification) : Prop := reason_text n = lit "mention" \/ reason_text n = lit "assign".

(** the counts are those of the notifications [ns] that were not dealt with and are wanted *)
Definition Right (s : service) (filter : option str) (ns : list notification) (st : status) : Prop :=
  let live n := ~ Dealt_with s n /\ Wanted filter (reason_text n) in
  Number_of (fun n => live n /\ Review n) ns (review_count st) /\
  Number_of (fun n => live n /\ Mention n) ns (mention_count st) /\
  Number_of (fun n => live n /\ ~ Review n /\ ~ Mention n) ns (other_count st) /\
  Number_of live ns (total st) /\ has_error st = false.
