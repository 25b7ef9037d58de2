(** C257-C259: questions and keys pressed twice. *)
From Verif Require Import Base Asked_Model Asked_Spec.
From Verif Require Safety_Model Offer_Spec Offer_Props.

(** ** C257: the question before a dangerous command *)
Lemma says_dec e : (exists a, Says e a /\ forall r, confirm (e :: r) = Some (a, r)) \/ (Silent e /\ forall r, confirm (e :: r) = confirm r).
Proof.
  destruct e as [c m k|n|]; [|right; split; [intros a H; inversion H|reflexivity]|left; exists Safety_Model.AskFailed; split; [constructor|reflexivity]].
  destruct k; [|right; split; [intros a H; inversion H|reflexivity]|right; split; [intros a H; inversion H|reflexivity]].
  destruct c as [x| | |n]; [|left; eexists; split; [constructor|reflexivity]|left; eexists; split; [constructor|reflexivity]|right; split; [intros a H; inversion H|reflexivity]].
  destruct ((x =? 121)%N || (x =? 89)%N) eqn:Y.
  - left. exists Safety_Model.Yes. split; [|intros r; cbn; rewrite Y; reflexivity]. constructor. apply orb_true_iff in Y as [Y|Y]; apply N.eqb_eq in Y; subst; cbn; auto.
  - destruct ((x =? 97)%N || (x =? 65)%N) eqn:A.
    + left. exists Safety_Model.AlwaysAllow. split; [|intros r; cbn; rewrite Y, A; reflexivity]. constructor. apply orb_true_iff in A as [A|A]; apply N.eqb_eq in A; subst; cbn; auto.
    + destruct ((x =? 110)%N || (x =? 78)%N) eqn:B.
      * left. exists Safety_Model.No. split; [|intros r; cbn; rewrite Y, A, B; reflexivity]. constructor. apply orb_true_iff in B as [B|B]; apply N.eqb_eq in B; subst; cbn; auto.
      * right. split; [|intros r; cbn; rewrite Y, A, B; reflexivity]. intros a H. inversion H as [m' c H1|m' c H1|m' c H1| | |]; subst; destruct H1 as [<-|[<-|[]]]; cbn in *; discriminate.
Qed.
Lemma says_fun e a b : Says e a -> Says e b -> a = b.
Proof.
  intros A B. destruct (says_dec e) as [(c & C & R)|(S' & _)]; [|elim (S' _ A)].
  assert (G : forall x, Says e x -> x = c).
  { intros x X. specialize (R []). inversion X as [m d H|m d H|m d H|m|m|]; subst; try (destruct H as [<-|[<-|[]]]); cbn in R; injection R as <-; reflexivity. }
  rewrite (G _ A), (G _ B). reflexivity.
Qed.
(** The first key that means something is the answer, and all that comes after it is left. *)
Theorem C257_first : forall es a rest, confirm es = Some (a, rest) <->
  exists before e, es = before ++ e :: rest /\ Forall Silent before /\ Says e a.
Proof.
  induction es as [|e es IH]; intros a rest.
  - split; [discriminate|]. intros ([|x b] & e & E & _); discriminate E.
  - destruct (says_dec e) as [(b & B & R)|(Q & R)]; rewrite R.
    + split.
      * intros H. injection H as <- <-. exists [], e. repeat split; [constructor|exact B].
      * intros ([|x l] & y & E & F & Y); injection E as <- E; [subst; rewrite (says_fun _ _ _ B Y); reflexivity|]. inversion F as [|? ? F1 _]; subst. elim (F1 _ B).
    + rewrite IH. split.
      * intros (l & y & -> & F & Y). exists (e :: l), y. repeat split; [constructor; assumption|exact Y].
      * intros ([|x l] & y & E & F & Y); injection E as <- E; [elim (Q _ Y)|]. inversion F; subst. exists l, y. auto.
Qed.
(** It waits for as long as none does. *)
Theorem C257_waits : forall es, confirm es = None <-> Forall Silent es.
Proof.
  induction es as [|e es IH]; [split; [constructor|reflexivity]|]. destruct (says_dec e) as [(b & B & R)|(Q & R)]; rewrite R.
  - split; [discriminate|]. intros F. inversion F as [|? ? F1 _]; subst. elim (F1 _ B).
  - rewrite IH. split; [intros F; constructor; assumption|]. intros F. inversion F; assumption.
Qed.
(** So a command that needs a yes runs only after y or a was pressed, and is let through for good only after a. *)
Theorem C257_yes : forall es a rest, confirm es = Some (a, rest) -> a = Safety_Model.Yes \/ a = Safety_Model.AlwaysAllow ->
  exists c m, In (Key (Char c) m Press) es /\ In c [chr "y"; chr "Y"; chr "a"; chr "A"] /\ (a = Safety_Model.AlwaysAllow -> In c [chr "a"; chr "A"]).
Proof.
  intros es a rest H A. apply C257_first in H as (l & e & -> & _ & S'). inversion S' as [m c H|m c H|m c H|m|m|]; subst; try (destruct A; discriminate); exists c, m;
    (split; [apply in_or_app; right; left; reflexivity|]).
  - split; [destruct H as [<-|[<-|[]]]; cbn; auto|discriminate].
  - split; [destruct H as [<-|[<-|[]]]; cbn; auto|intros _; exact H].
Qed.
(** Modifiers do not matter: Ctrl+Y says yes, and Ctrl+A, which at the prompt goes to the start of the line, always. *)
Theorem C257_modifiers_refuted : forall m rest, confirm (Key (Char (chr "y")) m Press :: rest) = Some (Safety_Model.Yes, rest) /\
  confirm (Key (Char (chr "a")) m Press :: rest) = Some (Safety_Model.AlwaysAllow, rest).
Proof. split; reflexivity. Qed.
(** Ctrl+C does not say no: it does nothing, however often. *)
Theorem C257_interrupt_refuted : forall n m es, confirm (repeat (Key (Char (chr "c")) m Press) n ++ es) = confirm es.
Proof. intros n m es. induction n as [|n IH]; [reflexivity|]. cbn. exact IH. Qed.
(** Keys typed before the question was asked answer it: what comes later does not matter. *)
Theorem C257_ahead_refuted : forall ahead later a rest, confirm ahead = Some (a, rest) -> confirm (ahead ++ later) = Some (a, rest ++ later).
Proof. intros ahead later a rest H. apply C257_first in H as (l & e & -> & F & Y). apply C257_first. exists l, e. rewrite <- app_assoc. auto. Qed.

(** ** C258: a question answered with a line *)
Lemma lower_y s : lower s = lit "y" <-> s = lit "y" \/ s = lit "Y".
Proof.
  split; [|intros [->| ->]; reflexivity]. destruct s as [|c [|d s]]; cbn; try discriminate. intros H. injection H as H. unfold lower_char in H. destruct ((65 <=? c) && (c <=? 90))%N eqn:B.
  - right. apply andb_true_iff in B as (B1 & B2). apply N.leb_le in B1, B2. assert (c = 89%N) as -> by (unfold char in *; lia). reflexivity.
  - left. subst. reflexivity.
Qed.
(** Yes is a line with y or Y and blanks around it, no more; anything else, and the end of the input, is no; one line is taken. *)
Theorem C258_line : forall line rest, ~ In 10%N line ->
  confirm_line (line ++ 10%N :: rest) = (fst (confirm_line line), rest) /\ snd (confirm_line line) = [] /\
  (fst (confirm_line line) = true <-> Offer_Spec.trimmed line (lit "y") \/ Offer_Spec.trimmed line (lit "Y")).
Proof.
  intros line rest NL.
  assert (R1 : read_line (line ++ 10%N :: rest) = (line ++ [10%N], rest)).
  { induction line as [|c l IH]; [reflexivity|]. cbn. destruct (N.eqb_spec c 10) as [->|_]; [elim NL; left; reflexivity|]. rewrite IH; [reflexivity|]. intros X. apply NL. right. exact X. }
  assert (R2 : read_line line = (line, [])).
  { clear R1. induction line as [|c l IH]; [reflexivity|]. cbn. destruct (N.eqb_spec c 10) as [->|_]; [elim NL; left; reflexivity|]. rewrite IH; [reflexivity|]. intros X. apply NL. right. exact X. }
  assert (T : trim (line ++ [10%N]) = trim line).
  { apply Offer_Props.trim_iff. destruct (Offer_Props.trim_trimmed line) as (l & r & E & L & R & B & F). exists l, (r ++ [10%N]). split; [rewrite E at 1; rewrite <- !app_assoc; reflexivity|].
    split; [exact L|]. split; [|split; assumption]. intros d D. apply in_app_or in D as [D|[<-|[]]]; [exact (R d D)|reflexivity]. }
  unfold confirm_line. rewrite R1, R2, T. cbn [fst snd]. split; [reflexivity|]. split; [reflexivity|]. rewrite str_eqb_eq, lower_y, !Offer_Props.trim_iff. reflexivity.
Qed.
Theorem C258_end : confirm_line [] = (false, []).
Proof. reflexivity. Qed.
(** The word yes is a no. *)
Theorem C258_word_refuted : forall rest, confirm_line (lit "yes" ++ 10%N :: rest) = (false, rest).
Proof. reflexivity. Qed.

(** ** C259: keys pressed twice *)
Lemma press_esc debug s k : exists e n, esc (press debug s k) = e /\ toggled (press debug s k) = n /\
  (fst k <> PressEsc -> e = esc s /\ n = toggled s).
Proof.
  destruct k as [k t]. eexists _, _. split; [reflexivity|]. split; [reflexivity|]. intros X. destruct k; [elim X; reflexivity| |split; reflexivity].
  cbn. destruct debug; [|split; reflexivity]. destruct (on_pressed _ _ _). split; reflexivity.
Qed.
Lemma pairs_run debug ks : forall s from, in_time from ks -> match esc s with Some t => t <= from | None => True end ->
  forall n, Pairs 400 (match esc s with Some t => [t] | None => [] end ++ escs ks) n -> toggled (fold_left (press debug) ks s) = toggled s + n.
Proof.
  induction ks as [|[k t] ks IH]; intros s from T F n P.
  - cbn in *. destruct (esc s); inversion P; lia.
  - destruct T as (T1 & T2). cbn [fold_left]. destruct (press_esc debug s (k, t)) as (e & m & E1 & E2 & X). destruct k.
    + clear X E1 E2 e m. cbn [press]. unfold escs in P. cbn [filter fst map snd] in P. change (map snd (filter _ ks)) with (escs ks) in P. destruct (esc s) as [u|] eqn:U; cbn [on_pressed app] in *.
      * inversion P as [| |? ? ? n' N1 P'|? ? ? ? N1 P']; subst.
        -- replace (t - u <=? 400) with true by (symmetry; apply Nat.leb_le; lia). etransitivity; [apply (IH _ t T2) with (n := n'); [cbn; trivial|exact P']|cbn [toggled]; lia].
        -- replace (t - u <=? 400) with false by (symmetry; apply Nat.leb_gt; lia). etransitivity; [apply (IH _ t T2) with (n := n); [cbn; lia|exact P']|reflexivity].
      * etransitivity; [apply (IH _ t T2) with (n := n); [cbn; lia|exact P]|reflexivity].
    + destruct (X ltac:(discriminate)) as (-> & ->). etransitivity; [apply (IH _ t T2) with (n := n); [rewrite E1; destruct (esc s); [lia|trivial]|rewrite E1; exact P]|rewrite E2; reflexivity].
    + destruct (X ltac:(discriminate)) as (-> & ->). etransitivity; [apply (IH _ t T2) with (n := n); [rewrite E1; destruct (esc s); [lia|trivial]|rewrite E1; exact P]|rewrite E2; reflexivity].
Qed.
(** sudo is put on or taken off once for each pair of presses of Esc within 400 ms. *)
Theorem C259_pairs : forall debug ks n, in_time 0 ks -> Pairs 400 (escs ks) n -> toggled (run debug ks) = n.
Proof. intros debug ks n T P. unfold run. etransitivity; [apply (pairs_run debug ks fresh 0 T) with (n := n); [cbn; trivial|exact P]|reflexivity]. Qed.
(** the pairs are determined by the presses *)
Theorem C259_some : forall l, exists n, Pairs 400 l n.
Proof.
  intros l. assert (G : forall k l, length l <= k -> exists n, Pairs 400 l n).
  { induction k as [|k IH]; intros [|t [|u r]] L; cbn in L; try lia; try (exists 0; constructor; fail).
    destruct (le_lt_dec u (t + 400)) as [C|C].
    - destruct (IH r ltac:(lia)) as (n & P). exists (S n). constructor; assumption.
    - destruct (IH (u :: r) ltac:(cbn; lia)) as (n & P). exists n. constructor; assumption. }
  exact (G (length l) l (le_n _)).
Qed.
(** Presses each more than 400 ms after the last do nothing. *)
Theorem C259_slow : forall debug ks, in_time 0 ks -> (forall a t u b, escs ks = a ++ t :: u :: b -> t + 400 < u) -> toggled (run debug ks) = 0.
Proof.
  intros debug ks T F. apply C259_pairs; [exact T|]. revert F. generalize (escs ks) as l. induction l as [|t [|u r] IH]; intros F; try constructor.
  - exact (F [] t u r eq_refl).
  - apply IH. intros a x y b E. apply (F (t :: a) x y b). cbn. rewrite E. reflexivity.
Qed.
(** Other keys in between do not matter: Esc, anything, Esc changes the line. *)
Theorem C259_between_refuted : forall debug k t u v, t <= u -> u <= v -> v <= t + 400 -> k <> PressEsc ->
  toggled (run debug [(PressEsc, t); (k, u); (PressEsc, v)]) = 1.
Proof.
  intros debug k t u v A B C K. apply C259_pairs; [cbn; lia|]. destruct k; [elim K; reflexivity| |]; cbn; apply (Pairs_near 400 t v [] 0); try lia; constructor.
Qed.
(** Ctrl+C leaves the shell only when the key before it was Ctrl+C, at most three seconds ago, and in a debug build. *)
Lemma held_ctrl debug ks t : ctrl_c (run debug ks) = Some t -> exists ks', ks = ks' ++ [(PressCtrlC, t)].
Proof.
  unfold run. destruct ks as [|[k u] l _] using rev_ind; [discriminate|]. rewrite fold_left_app. cbn [fold_left]. destruct k; cbn [press].
  - destruct (on_pressed _ _ _) as [e []]; discriminate.
  - destruct debug; cbn [ctrl_c].
    + destruct (ctrl_c (fold_left _ l fresh)) as [w|] eqn:W; cbn [on_pressed].
      * destruct (u - w <=? 3 * 1000); cbn [ctrl_c]; intros H; [discriminate H|]. injection H as <-. eauto.
      * cbn [ctrl_c]. intros H. injection H as <-. eauto.
    + intros H. exfalso. revert H. cut (ctrl_c (fold_left (press false) l fresh) = None); [congruence|]. induction l as [|[k' u'] l IH] using rev_ind; [reflexivity|]. rewrite fold_left_app. cbn [fold_left].
      destruct k'; cbn [press]; [destruct (on_pressed _ _ _) as [e []]; reflexivity|exact IH|reflexivity].
  - discriminate.
Qed.
Theorem C259_leave : forall debug ks k t, left_ (run debug ks) = false -> left_ (run debug (ks ++ [(k, t)])) = true ->
  debug = true /\ k = PressCtrlC /\ exists ks' u, ks = ks' ++ [(PressCtrlC, u)] /\ t - u <= 3 * 1000.
Proof.
  intros debug ks k t L H. unfold run in H. rewrite fold_left_app in H. cbn [fold_left] in H. change (fold_left (press debug) ks fresh) with (run debug ks) in H. destruct k; cbn [press] in H.
  - destruct (on_pressed _ _ _) as [e []]; cbn [left_] in H; congruence.
  - destruct debug; [|cbn [left_] in H; congruence]. split; [reflexivity|]. split; [reflexivity|]. destruct (ctrl_c (run true ks)) as [u|] eqn:U; cbn [on_pressed left_] in H; [|congruence].
    destruct (t - u <=? 3 * 1000) eqn:X; cbn [left_] in H; [|congruence]. apply held_ctrl in U as (ks' & ->). exists ks', u. split; [reflexivity|]. apply Nat.leb_le. exact X.
  - cbn [left_] in H. congruence.
Qed.
(** And then it does, when that one was not itself the second. *)
Theorem C259_leaves : forall ks t u, (forall x, last ks x = x \/ fst (last ks x) <> PressCtrlC) -> t <= u -> u <= t + 3 * 1000 ->
  left_ (run true (ks ++ [(PressCtrlC, t); (PressCtrlC, u)])) = true.
Proof.
  intros ks t u F A B. unfold run. rewrite fold_left_app. cbn [fold_left]. change (fold_left (press true) ks fresh) with (run true ks). destruct (ctrl_c (run true ks)) as [w|] eqn:W.
  - exfalso. apply held_ctrl in W as (ks' & ->). destruct (F (PressOther, 0)) as [X|X]; rewrite last_last in X; [discriminate|]. apply X. reflexivity.
  - cbn [press]. rewrite W. cbn [on_pressed ctrl_c]. replace (u - t <=? 3 * 1000) with true by (symmetry; apply Nat.leb_le; lia). reflexivity.
Qed.
Print Assumptions C257_first. Print Assumptions C257_waits. Print Assumptions C257_yes. Print Assumptions C257_modifiers_refuted. Print Assumptions C257_interrupt_refuted. Print Assumptions C257_ahead_refuted.
Print Assumptions C258_line. Print Assumptions C258_end. Print Assumptions C258_word_refuted.
Print Assumptions C259_pairs. Print Assumptions C259_some. Print Assumptions C259_slow. Print Assumptions C259_between_refuted. Print Assumptions C259_leave. Print Assumptions C259_leaves.

Example C257_case : confirm [Key (Char (chr "q")) (Mods false false false) Press; Key (Char (chr "y")) (Mods false false false) Release; Key Enter (Mods false false false) Press; OtherEvent 1] = Some (Safety_Model.No, [OtherEvent 1]).
Proof. reflexivity. Qed.
Example C258_case : confirm_line (lit " Y " ++ 10%N :: lit "ls") = (true, lit "ls").
Proof. reflexivity. Qed.
Example C259_case : toggled (run false [(PressEsc, 100); (PressEsc, 600); (PressOther, 700); (PressEsc, 900); (PressEsc, 950)]) = 1.
Proof. reflexivity. Qed.
Example C259_case_leave : left_ (run true [(PressOther, 0); (PressCtrlC, 10); (PressCtrlC, 500)]) = true /\ left_ (run true [(PressCtrlC, 10); (PressOther, 20); (PressCtrlC, 500)]) = false.
Proof. split; reflexivity. Qed.
