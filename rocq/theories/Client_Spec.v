(** What is expected of the settings of the AI service. *)
From Verif Require Import Base Env_Model.

(** the user allowed unencrypted connections *)
Definition opted_in (process : map_) : Prop :=
  exists v, assoc (lit "AI_CHAT_ALLOW_INSECURE_HTTP") process = Some v /\ In (lower (trim v)) [lit "1"; lit "true"; lit "yes"; lit "on"].
(** the value of the first of the names that has one *)
Inductive first_set (get : str -> option str) : list str -> option str -> Prop :=
| none_set : first_set get [] None
| here_set n ns v : get n = Some v -> first_set get (n :: ns) (Some v)
| later_set n ns o : get n = None -> first_set get ns o -> first_set get (n :: ns) o.
Definition white (s : str) : Prop := forall c, In c s -> is_whitespace c = true.
Definition slashes (s : str) : Prop := forall c, In c s -> c = 47%N.
(** an address without blanks or slashes at its ends *)
Definition address (t : str) : Prop := t <> [] /\ (forall c r, t = c :: r -> is_whitespace c = false) /\ (forall b c, t = b ++ [c] -> is_whitespace c = false /\ c <> 47%N).
