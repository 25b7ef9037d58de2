(** What the diagnosis should take from its texts and keys. *)
From Verif Require Import Base Diagnose_Model.
From Verif Require Offer_Spec Safety_Spec.

(** a line that opens or ends a block for the shell: three backquotes, alone or with bash… or sh… *)
Definition Fence (l : str) : Prop :=
  exists t, Offer_Spec.trimmed l t /\ (t = lit "```" \/ (exists r, t = lit "```bash" ++ r) \/ exists r, t = lit "```sh" ++ r).
(** [body] is what stands between the first fence and the next one, or the end *)
Definition First_block (ls body : list str) : Prop :=
  exists pre o rest, ls = pre ++ o :: body ++ rest /\ Forall (fun l => ~ Fence l) pre /\ Fence o /\
    Forall (fun l => ~ Fence l) body /\ (rest = [] \/ exists c r, rest = c :: r /\ Fence c).
(** the text that keys write: plain characters, and Backspace takes one away *)
Definition written (keys : list key) : str :=
  fold_left (fun t k => if pressed k then
                          match what k with
                          | Char c => if ctrl k || alt k then t else t ++ [c]
                          | Backspace => removelast t
                          | _ => t
                          end
                        else t) keys [].
(** [x] is [input] without unwanted characters (see C09), and cut after [n] bytes *)
Definition Shortened (input : str) (n : nat) (x : str) : Prop :=
  exists clean, Safety_Spec.keeps Safety_Spec.unwanted input clean /\ (blen clean <= n -> x = clean) /\
    (n < blen clean -> exists p q, clean = p ++ q /\ blen p = n /\ x = p ++ lit "...(truncated)") /\ blen x <= n + 14.
