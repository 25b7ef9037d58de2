(** Frames: what define, set, undefine and lookup do to the chain, and which frames an
    evaluation can change. *)
From Verif Require Import Base Lread_Model Lisp_Model Lisp_Spec.

Lemma frame_at_cons fr h i : frame_at (fr :: h) i = if i =? length h then Some fr else frame_at h i.
Proof.
  unfold frame_at. cbn [rev]. destruct (Nat.eqb_spec i (length h)) as [->|Hn].
  - rewrite nth_error_app2; rewrite rev_length; [|lia]. now rewrite Nat.sub_diag.
  - destruct (Nat.lt_ge_cases i (length h)) as [H|H].
    + rewrite nth_error_app1 by (rewrite rev_length; lia). reflexivity.
    + rewrite nth_error_app2 by (rewrite rev_length; lia). rewrite rev_length. destruct (i - length h) as [|d] eqn:E; [lia|].
      cbn. symmetry. rewrite (proj2 (nth_error_None (rev h) i)) by (rewrite rev_length; lia). now destruct d.
Qed.
Lemma frame_at_nil i : frame_at [] i = None.
Proof. unfold frame_at. now destruct i. Qed.
Lemma frame_at_lt h i fr : frame_at h i = Some fr -> i < length h.
Proof. intros H. unfold frame_at in H. rewrite <- (rev_length h). apply nth_error_Some. congruence. Qed.
Lemma frame_at_some h i : i < length h -> exists fr, frame_at h i = Some fr.
Proof. intros H. destruct (frame_at h i) eqn:E; [eauto|]. unfold frame_at in E. apply nth_error_None in E. rewrite rev_length in E. lia. Qed.

Lemma assoc_some k l v : NoDup (map fst l) -> (assoc k l = Some v <-> In (k, v) l).
Proof.
  induction l as [|[x w] l IH]; cbn [assoc map fst]; intros H; [split; [discriminate|intros []]|]. inversion H as [|? ? H1 H2]; subst.
  destruct (str_eqb x k) eqn:E.
  - apply str_eqb_eq in E. subst x. split; [intros [= ->]; now left|]. intros [[= ->]|Hi]; [reflexivity|]. destruct H1. apply in_map_iff. now exists (k, v).
  - rewrite (IH H2). split; [now right|]. intros [[= -> ->]|Hi]; [|exact Hi]. now rewrite str_eqb_refl in E.
Qed.
Lemma assoc_none k l : assoc k l = None <-> ~ In k (map fst l).
Proof.
  induction l as [|[x w] l IH]; cbn [assoc map fst In]; [tauto|]. destruct (str_eqb x k) eqn:E.
  - apply str_eqb_eq in E. subst. split; [discriminate|tauto].
  - rewrite IH. split; [intros H [->|Hi]; [now rewrite str_eqb_refl in E|tauto]|tauto].
Qed.
Lemma assoc_binds fr k v : NoDup (map fst (entries fr)) -> (assoc k (entries fr) = Some v <-> binds fr k v).
Proof. apply assoc_some. Qed.
Lemma put_keys k v l : map fst (put k v l) = map fst l \/ (~ In k (map fst l) /\ map fst (put k v l) = map fst l ++ [k]).
Proof.
  induction l as [|[x w] l IH]; cbn [put map fst In]; [right; tauto|]. destruct (str_eqb x k) eqn:E; [now left|]. cbn [map fst].
  destruct IH as [IH|[IH1 IH2]]; [left; now rewrite IH|right]. rewrite IH2. split; [|reflexivity]. intros [->|Hi]; [now rewrite str_eqb_refl in E|tauto].
Qed.
Lemma put_nodup k v l : NoDup (map fst l) -> NoDup (map fst (put k v l)).
Proof.
  intros H. destruct (put_keys k v l) as [-> |[H1 ->]]; [exact H|]. apply NoDup_Add with (a := k) (l := map fst l); [|split; [exact H|exact H1]].
  rewrite <- (app_nil_r (map fst l)) at 1. apply Add_app.
Qed.
Lemma put_in k v l : In (k, v) (put k v l).
Proof. induction l as [|[x w] l IH]; cbn [put]; [now left|]. destruct (str_eqb x k) eqn:E; [apply str_eqb_eq in E; subst; now left|now right]. Qed.
Lemma put_other k v l k' w : k' <> k -> (In (k', w) (put k v l) <-> In (k', w) l).
Proof.
  intros Hk. induction l as [|[x u] l IH]; cbn [put In]; [split; [intros [[= <- _]|[]]; congruence|intros []]|].
  destruct (str_eqb x k) eqn:E; cbn [In]; [|now rewrite IH]. apply str_eqb_eq in E. subst x. split; (intros [[= <- _]|Hi]; [congruence|now right]).
Qed.
Lemma put_rebound fr k v : rebound fr {| parent := parent fr; entries := put k v (entries fr) |} k v.
Proof. split; [reflexivity|]. split; [apply put_in|]. intros k' w. apply put_other. Qed.
Lemma del_removed fr k : NoDup (map fst (entries fr)) -> removed fr {| parent := parent fr; entries := del k (entries fr) |} k.
Proof.
  intros H. split; [reflexivity|]. unfold unbound, binds. cbn [entries]. induction (entries fr) as [|[x w] l IH]; cbn [del]; [split; [intros []|reflexivity]|].
  inversion H as [|? ? H1 H2]; subst. destruct (str_eqb x k) eqn:E.
  - apply str_eqb_eq in E. subst x. split; [exact H1|]. intros k' u Hk. cbn [In]. split; [now right|]. intros [[= <- _]|Hi]; [congruence|exact Hi].
  - destruct (IH H2) as [IH1 IH2]. split.
    + cbn [map fst In]. intros [->|Hi]; [now rewrite str_eqb_refl in E|now apply IH1].
    + intros k' u Hk. cbn [In]. now rewrite (IH2 k' u Hk).
Qed.
Lemma del_nodup k l : NoDup (map fst l) -> NoDup (map fst (del k l)).
Proof.
  assert (forall x, In x (map fst (del k l)) -> In x (map fst l)) as Hin.
  { induction l as [|[y w] l IH]; cbn [del]; [auto|]. intros x. destruct (str_eqb y k); cbn [map fst In]; [now right|]. intros [->|Hi]; [now left|right; auto]. }
  induction l as [|[y w] l IH]; cbn [del map fst]; intros H; [constructor|]. inversion H as [|? ? H1 H2]; subst. destruct (str_eqb y k) eqn:E; [exact H2|].
  cbn [map fst]. assert (forall x, In x (map fst (del k l)) -> In x (map fst l)) as Hl.
  { clear. induction l as [|[z u] l IH]; cbn [del]; [auto|]. intros x. destruct (str_eqb z k); cbn [map fst In]; [now right|]. intros [->|Hi]; [now left|right; auto]. }
  constructor; [intros Hi; apply H1; now apply Hl|now apply IH].
Qed.

Lemma wf_tail fr h : wf_heap (fr :: h) -> wf_heap h.
Proof. intros H i g E. apply H. rewrite frame_at_cons. apply frame_at_lt in E as Hl. rewrite (proj2 (Nat.eqb_neq i (length h))) by lia. exact E. Qed.
Lemma wf_head fr h : wf_heap (fr :: h) -> NoDup (map fst (entries fr)) /\ forall p, parent fr = Some p -> p < length h.
Proof. intros H. apply H. rewrite frame_at_cons. now rewrite Nat.eqb_refl. Qed.
(** the chain from an older frame lies among the older frames *)
Lemma nearest_tail fr h k i j v : wf_heap (fr :: h) -> i < length h -> (Nearest (fr :: h) k i j v <-> Nearest h k i j v).
Proof.
  intros Hw. assert (forall i, i < length h -> frame_at (fr :: h) i = frame_at h i) as HF.
  { intros x Hx. rewrite frame_at_cons. now rewrite (proj2 (Nat.eqb_neq x (length h))) by lia. }
  intros Hi. split; intros H.
  - induction H as [i g v E B|i g p j v E U P H IH].
    + apply (Near_here _ _ _ g); [rewrite <- HF by exact Hi; exact E|exact B].
    + apply (Near_up _ _ _ g p); [rewrite <- HF by exact Hi; exact E|exact U|exact P|]. apply IH. apply Hw in E as [_ E]. apply E in P. lia.
  - induction H as [i g v E B|i g p j v E U P H IH].
    + apply (Near_here _ _ _ g); [rewrite HF by exact Hi; exact E|exact B].
    + apply (Near_up _ _ _ g p); [rewrite HF by exact Hi; exact E|exact U|exact P|]. apply IH. rewrite <- HF in E by exact Hi. apply Hw in E as [_ E]. apply E in P. lia.
Qed.
Lemma nearest_lt h k i j v : Nearest h k i j v -> i < length h.
Proof. intros H. destruct H as [i g v E B|i g p j v E U P H]; eapply frame_at_lt; exact E. Qed.
Lemma nearest_head fr h k j v : wf_heap (fr :: h) ->
  (Nearest (fr :: h) k (length h) j v <-> (j = length h /\ binds fr k v) \/ (unbound fr k /\ exists p, parent fr = Some p /\ Nearest h k p j v)).
Proof.
  intros Hw. assert (frame_at (fr :: h) (length h) = Some fr) as E0 by (rewrite frame_at_cons; now rewrite Nat.eqb_refl). split.
  - intros H. inversion H as [? g ? E B|? g p ? ? E U P H1]; subst; rewrite E0 in E; injection E as <-; [now left|]. right. split; [exact U|]. exists p. split; [exact P|].
    apply (nearest_tail fr); [exact Hw| |exact H1]. now apply (wf_head _ _ Hw).
  - intros [[-> B]|(U & p & P & H)]; [now apply (Near_here _ _ _ fr)|]. apply (Near_up _ _ _ fr p); [exact E0|exact U|exact P|].
    apply nearest_tail; [exact Hw|now apply (wf_head _ _ Hw)|exact H].
Qed.

Lemma get_nearest h k : wf_heap h -> forall i v, get h i k = Some v <-> exists j, Nearest h k i j v.
Proof.
  induction h as [|fr h IH]; intros Hw i v.
  - cbn [get]. split; [discriminate|]. intros [j H]. apply nearest_lt in H. cbn in H. lia.
  - specialize (IH (wf_tail _ _ Hw)). destruct (wf_head _ _ Hw) as [Hd Hp]. cbn [get]. destruct (Nat.eqb_spec i (length h)) as [->|Hn].
    + destruct (assoc k (entries fr)) as [w|] eqn:E.
      * split.
        -- intros [= ->]. exists (length h). apply nearest_head; [exact Hw|]. left. split; [reflexivity|]. now apply assoc_binds.
        -- intros [j H]. apply nearest_head in H as [[-> B]|(U & _)]; [apply assoc_binds in B; [congruence|exact Hd]| |exact Hw]. apply assoc_none in U. congruence.
      * assert (unbound fr k) as U by (now apply assoc_none). destruct (parent fr) as [p|] eqn:P.
        -- rewrite IH. split; intros [j H]; exists j.
           ++ apply nearest_head; [exact Hw|]. right. split; [exact U|]. now exists p.
           ++ apply nearest_head in H as [[_ B]|(_ & q & Q & H)]; [apply assoc_binds in B; [congruence|exact Hd]|congruence|exact Hw].
        -- split; [discriminate|]. intros [j H]. apply nearest_head in H as [[_ B]|(_ & q & Q & H)]; [apply assoc_binds in B; [congruence|exact Hd]|congruence|exact Hw].
    + rewrite IH. destruct (Nat.lt_ge_cases i (length h)) as [Hl|Hl].
      * split; intros [j H]; exists j; apply (nearest_tail fr h k i j v Hw Hl); exact H.
      * split; intros [j H]; apply nearest_lt in H; cbn in H; lia.
Qed.

Lemma define_length h i k v : length (define h i k v) = length h.
Proof. induction h as [|fr h IH]; cbn [define]; [reflexivity|]. destruct (i =? length h); cbn [length]; congruence. Qed.
Lemma define_frames h i k v j : frame_at (define h i k v) j =
  if j =? i then match frame_at h i with Some fr => Some {| parent := parent fr; entries := put k v (entries fr) |} | None => None end else frame_at h j.
Proof.
  induction h as [|fr h IH]; cbn [define]; [rewrite !frame_at_nil; now destruct (j =? i)|].
  destruct (Nat.eqb_spec i (length h)) as [->|Hn].
  - rewrite !frame_at_cons, Nat.eqb_refl. now destruct (Nat.eqb_spec j (length h)).
  - rewrite !frame_at_cons, define_length. rewrite (proj2 (Nat.eqb_neq i (length h))) by exact Hn. rewrite IH.
    destruct (Nat.eqb_spec j (length h)) as [->|Hj]; [|reflexivity]. now rewrite (proj2 (Nat.eqb_neq (length h) i)) by congruence.
Qed.
Lemma set_spec h k v : wf_heap h -> forall i,
  match set h i k v with
  | Some h' => exists j w fr fr', Nearest h k i j w /\ frame_at h j = Some fr /\ frame_at h' j = Some fr' /\ fr' = {| parent := parent fr; entries := put k v (entries fr) |} /\ same_but j h h'
  | None => forall j w, ~ Nearest h k i j w
  end.
Proof.
  induction h as [|fr h IH]; intros Hw i; cbn [set].
  - intros j w H. apply nearest_lt in H. cbn in H. lia.
  - specialize (IH (wf_tail _ _ Hw)). destruct (wf_head _ _ Hw) as [Hd Hp].
    assert (forall i0 h' j w g g', i0 < length h -> Nearest h k i0 j w -> frame_at h j = Some g -> frame_at h' j = Some g' -> same_but j h h' ->
      frame_at (fr :: h) j = Some g /\ frame_at (fr :: h') j = Some g' /\ same_but j (fr :: h) (fr :: h')) as Hup.
    { intros i0 h' j w g g' Hi HN E1 E2 [L HS]. apply frame_at_lt in E1 as Hj. rewrite !frame_at_cons, L. rewrite (proj2 (Nat.eqb_neq j (length h))) by lia. split; [exact E1|]. split; [exact E2|].
      split; [cbn [length]; now rewrite L|]. intros x Hx. rewrite !frame_at_cons, L. destruct (x =? length h); [reflexivity|now apply HS]. }
    destruct (Nat.eqb_spec i (length h)) as [->|Hn].
    + destruct (assoc k (entries fr)) as [w|] eqn:E.
      * exists (length h), w, fr. eexists. split; [apply nearest_head; [exact Hw|]; left; split; [reflexivity|now apply assoc_binds]|].
        rewrite !frame_at_cons, Nat.eqb_refl. split; [reflexivity|]. split; [reflexivity|]. split; [reflexivity|].
        split; [reflexivity|]. intros x Hx. rewrite !frame_at_cons. now rewrite (proj2 (Nat.eqb_neq x (length h))) by exact Hx.
      * assert (unbound fr k) as U by (now apply assoc_none). destruct (parent fr) as [p|] eqn:P.
        -- specialize (IH p). destruct (set h p k v) as [h'|].
           ++ destruct IH as (j & w & g & g' & HN & E1 & E2 & Eg & HS). exists j, w, g, g'.
              destruct (Hup p h' j w g g' (Hp p eq_refl) HN E1 E2 HS) as (U1 & U2 & U3).
              split; [apply nearest_head; [exact Hw|]; right; split; [exact U|]; now exists p|]. auto.
           ++ intros j w H. apply nearest_head in H as [[_ B]|(_ & q & Q & H)]; [apply assoc_binds in B; [congruence|exact Hd]| |exact Hw].
              rewrite P in Q. injection Q as <-. now apply (IH j w).
        -- intros j w H. apply nearest_head in H as [[_ B]|(_ & q & Q & H)]; [apply assoc_binds in B; [congruence|exact Hd]|congruence|exact Hw].
    + specialize (IH i). destruct (Nat.lt_ge_cases i (length h)) as [Hl|Hl].
      * destruct (set h i k v) as [h'|].
        -- destruct IH as (j & w & g & g' & HN & E1 & E2 & Eg & HS). exists j, w, g, g'. destruct (Hup i h' j w g g' Hl HN E1 E2 HS) as (U1 & U2 & U3).
           split; [now apply nearest_tail|]. auto.
        -- intros j w H. apply nearest_tail in H; [|exact Hw|exact Hl]. now apply (IH j w).
      * destruct (set h i k v) as [h'|].
        -- destruct IH as (j & w & g & g' & HN & _). apply nearest_lt in HN. lia.
        -- intros j w H. apply nearest_lt in H. cbn in H. lia.
Qed.
Lemma undefine_spec h k : wf_heap h -> forall i,
  (undefine h i k = h /\ forall j w, ~ Nearest h k i j w) \/
  (exists j w fr fr', Nearest h k i j w /\ frame_at h j = Some fr /\ frame_at (undefine h i k) j = Some fr' /\ fr' = {| parent := parent fr; entries := del k (entries fr) |} /\ same_but j h (undefine h i k)).
Proof.
  induction h as [|fr h IH]; intros Hw i; cbn [undefine].
  - left. split; [reflexivity|]. intros j w H. apply nearest_lt in H. cbn in H. lia.
  - specialize (IH (wf_tail _ _ Hw)). destruct (wf_head _ _ Hw) as [Hd Hp].
    assert (forall i0 h' j w g g', i0 < length h -> Nearest h k i0 j w -> frame_at h j = Some g -> frame_at h' j = Some g' -> same_but j h h' ->
      frame_at (fr :: h) j = Some g /\ frame_at (fr :: h') j = Some g' /\ same_but j (fr :: h) (fr :: h')) as Hup.
    { intros i0 h' j w g g' Hi HN E1 E2 [L HS]. apply frame_at_lt in E1 as Hj. rewrite !frame_at_cons, L. rewrite (proj2 (Nat.eqb_neq j (length h))) by lia. split; [exact E1|]. split; [exact E2|].
      split; [cbn [length]; now rewrite L|]. intros x Hx. rewrite !frame_at_cons, L. destruct (x =? length h); [reflexivity|now apply HS]. }
    destruct (Nat.eqb_spec i (length h)) as [->|Hn].
    + destruct (assoc k (entries fr)) as [w|] eqn:E.
      * right. exists (length h), w, fr. eexists. split; [apply nearest_head; [exact Hw|]; left; split; [reflexivity|now apply assoc_binds]|].
        rewrite !frame_at_cons, Nat.eqb_refl. split; [reflexivity|]. split; [reflexivity|]. split; [reflexivity|].
        split; [reflexivity|]. intros x Hx. rewrite !frame_at_cons. now rewrite (proj2 (Nat.eqb_neq x (length h))) by exact Hx.
      * assert (unbound fr k) as U by (now apply assoc_none). destruct (parent fr) as [p|] eqn:P.
        -- destruct (IH p) as [[-> IHp]|(j & w & g & g' & HN & E1 & E2 & Eg & HS)].
           ++ left. split; [reflexivity|]. intros j w H. apply nearest_head in H as [[_ B]|(_ & q & Q & H)]; [apply assoc_binds in B; [congruence|exact Hd]| |exact Hw].
              rewrite P in Q. injection Q as <-. now apply (IHp j w).
           ++ right. exists j, w, g, g'. destruct (Hup p _ j w g g' (Hp p eq_refl) HN E1 E2 HS) as (U1 & U2 & U3).
              split; [apply nearest_head; [exact Hw|]; right; split; [exact U|]; now exists p|]. auto.
        -- left. split; [reflexivity|]. intros j w H. apply nearest_head in H as [[_ B]|(_ & q & Q & H)]; [apply assoc_binds in B; [congruence|exact Hd]|congruence|exact Hw].
    + destruct (Nat.lt_ge_cases i (length h)) as [Hl|Hl].
      * destruct (IH i) as [[-> IHi]|(j & w & g & g' & HN & E1 & E2 & Eg & HS)].
        -- left. split; [reflexivity|]. intros j w H. apply nearest_tail in H; [|exact Hw|exact Hl]. now apply (IHi j w).
        -- right. exists j, w, g, g'. destruct (Hup i _ j w g g' Hl HN E1 E2 HS) as (U1 & U2 & U3). split; [now apply nearest_tail|]. auto.
      * destruct (IH i) as [[-> IHi]|(j & w & g & g' & HN & _)]; [|apply nearest_lt in HN; lia].
        left. split; [reflexivity|]. intros j w H. apply nearest_lt in H. cbn in H. lia.
Qed.

Lemma wf_extend h p : wf_heap h -> (forall q, p = Some q -> q < length h) -> wf_heap (snd (extend h p)).
Proof.
  intros H Hp i fr. cbn [extend snd]. rewrite frame_at_cons. destruct (Nat.eqb_spec i (length h)) as [->|Hn]; [|apply H].
  intros [= <-]. cbn. split; [constructor|exact Hp].
Qed.
Lemma wf_change h h' j fr fr' : wf_heap h -> same_but j h h' -> frame_at h j = Some fr -> frame_at h' j = Some fr' ->
  parent fr' = parent fr -> (NoDup (map fst (entries fr)) -> NoDup (map fst (entries fr'))) -> wf_heap h'.
Proof.
  intros H [L HS] E E' P ND i g. destruct (Nat.eq_dec i j) as [->|Hn]; [|rewrite HS by exact Hn; apply H].
  rewrite E'. intros [= <-]. rewrite P. destruct (H _ _ E) as [H1 H2]. split; [now apply ND|exact H2].
Qed.

(** ** which frames an evaluation changes *)
Section Keep.
Variable W : Type.
Variable native : nat -> str -> list lv -> M W lv.
Variable set_variable : W -> str -> lv -> W.
Variable add_autocomplete : W -> list lv -> W.
Hypothesis Hnat : noset_native native.
Notation state := (state W).
Notation M := (M W).

Definition Keeps (env : nat) {A} (m : M A) (P : A -> Prop) : Prop := forall s, noset_heap (hp W s) ->
  match m s with
  | Ok _ _ a s' => P a /\ noset_heap (hp W s') /\ others_kept env (hp W s) (hp W s')
  | Err _ _ s' => noset_heap (hp W s') /\ others_kept env (hp W s) (hp W s')
  | Fuel _ _ => True
  end.
Lemma kept_refl env h : others_kept env h h.
Proof. split; [lia|reflexivity]. Qed.
Lemma kept_trans env h1 h2 h3 : others_kept env h1 h2 -> others_kept env h2 h3 -> others_kept env h1 h3.
Proof. intros [L1 H1] [L2 H2]. split; [lia|]. intros j Hj Hn. rewrite H2 by (lia || exact Hn). now apply H1. Qed.
Lemma K_ret env {A} (a : A) (P : A -> Prop) : P a -> Keeps env (ret W a) P.
Proof. intros H s Hs. split; [exact H|]. split; [exact Hs|apply kept_refl]. Qed.
Lemma K_fail env {A} (P : A -> Prop) : Keeps env (fail W) P.
Proof. intros s Hs. split; [exact Hs|apply kept_refl]. Qed.
Lemma K_bind env {A B} (m : M A) (P : A -> Prop) (k : A -> M B) (Q : B -> Prop) : Keeps env m P -> (forall a, P a -> Keeps env (k a) Q) -> Keeps env (bind W m k) Q.
Proof.
  intros H K s Hs. unfold bind. specialize (H s Hs). destruct (m s) as [a s'|s'|]; [|exact H|exact I]. destruct H as (Ha & Hs' & L).
  specialize (K a Ha s' Hs'). destruct (k a s') as [b s2|s2|]; [| |exact I].
  - destruct K as (Hb & Hs2 & L2). split; [exact Hb|]. split; [exact Hs2|]. eapply kept_trans; [exact L|exact L2].
  - destruct K as (Hs2 & L2). split; [exact Hs2|]. eapply kept_trans; [exact L|exact L2].
Qed.
Lemma K_get env i k : Keeps env (m_get W i k) NoSet.
Proof.
  intros s Hs. unfold m_get. destruct (get (hp W s) i k) as [v|] eqn:E; [|split; [exact Hs|apply kept_refl]]. split; [|split; [exact Hs|apply kept_refl]].
  revert i E. induction Hs as [|fr h H1 H2 IH]; intros i; [discriminate|]. cbn [get]. destruct (i =? length h); [|apply IH].
  destruct (assoc k (entries fr)) as [w|] eqn:E; [|destruct (parent fr); [apply IH|discriminate]]. intros [= <-].
  clear -H1 E. induction (entries fr) as [|[x u] l IHl]; [discriminate|]. cbn [assoc] in E. inversion H1; subst. destruct (str_eqb x k); [injection E as <-; assumption|auto].
Qed.
Lemma K_define env k v : NoSet v -> Keeps env (m_define W env k v) (fun _ => True).
Proof.
  intros Hv s Hs. split; [exact I|]. cbn [m_define hp]. split.
  - clear -Hv Hs. induction Hs as [|fr h H1 H2 IH]; cbn [define]; [constructor|]. destruct (env =? length h); constructor; auto. cbn.
    clear -Hv H1. induction H1 as [|[x u] l H1 H2 IH]; cbn [put]; [repeat constructor; exact Hv|]. destruct (str_eqb x k); constructor; auto.
  - split; [now rewrite define_length|]. intros j Hj Hn. rewrite define_frames. now rewrite (proj2 (Nat.eqb_neq j env)) by exact Hn.
Qed.
Lemma K_world env f : Keeps env (m_world W f) (fun _ => True).
Proof. intros s Hs. split; [exact I|]. split; [exact Hs|apply kept_refl]. Qed.
(** code run in a new frame keeps all older frames *)
Lemma K_extend env p {B} (k : nat -> M B) (Q : B -> Prop) : (forall i, Keeps i (k i) Q) -> Keeps env (bind W (m_extend W p) k) Q.
Proof.
  intros K s Hs. unfold bind, m_extend, extend. set (s1 := Build_state W _ _).
  assert (noset_heap (hp W s1)) as H1 by (constructor; [constructor|exact Hs]).
  assert (forall h', others_kept (length (hp W s)) (hp W s1) h' -> others_kept env (hp W s) h') as HK.
  { intros h' [L H]. cbn [s1 hp length] in L. split; [lia|]. intros j Hj _. rewrite H by (cbn; lia). unfold s1. cbn [hp]. rewrite frame_at_cons. now rewrite (proj2 (Nat.eqb_neq j (length (hp W s)))) by lia. }
  specialize (K (length (hp W s)) s1 H1). destruct (k _ s1) as [b s2|s2|]; [| |exact I]; intuition.
Qed.
Lemma K_weak env {A} (m : M A) (P Q : A -> Prop) : (forall a, P a -> Q a) -> Keeps env m P -> Keeps env m Q.
Proof. intros H K s Hs. specialize (K s Hs). destruct (m s); intuition. Qed.

Lemma noset_cons h t : NoSet (LList (h :: t)) -> NoSet h /\ Forall NoSet t.
Proof. intros H. inversion H as [| | | | | | |? H1| | |]; subst. now inversion H1. Qed.
Lemma noset_nil : NoSet nil_v.
Proof. repeat constructor. Qed.

Section Step.
Variable rec : ctx -> nat -> lv -> M lv.
Hypothesis HR : forall c env e, NoSet e -> Keeps env (rec c env e) NoSet.
Lemma K_map env g l : Forall (fun x => Keeps env (g x) NoSet) l -> Keeps env (map_m W g l) (Forall NoSet).
Proof.
  induction 1 as [|x l H1 H2 IH]; cbn [map_m]; [apply K_ret; constructor|]. eapply K_bind; [exact H1|]. intros v Hv. eapply K_bind; [exact IH|]. intros vs Hvs. apply K_ret. now constructor.
Qed.
Lemma K_filter env g l : Forall (fun x => NoSet x /\ Keeps env (g x) NoSet) l -> Keeps env (filter_m W g l) (Forall NoSet).
Proof.
  induction 1 as [|x l [H0 H1] H2 IH]; cbn [filter_m]; [apply K_ret; constructor|]. eapply K_bind; [exact H1|]. intros v Hv. eapply K_bind; [exact IH|]. intros vs Hvs. apply K_ret.
  destruct (truthy v); [now constructor|exact Hvs].
Qed.
Lemma K_block c env l : Forall NoSet l -> Keeps env (block W rec c env l) NoSet.
Proof.
  induction 1 as [|e l H1 H2 IH]; cbn [block]; [apply K_ret, noset_nil|]. destruct l; [now apply HR|]. eapply K_bind; [now apply HR|]. intros _ _. exact IH.
Qed.
Lemma K_decls after c env l : (forall k v, Keeps env (after k v) (fun _ => True)) -> Forall NoSet l -> Keeps env (decls W rec after c env l) (fun _ => True).
Proof.
  intros HA. induction 1 as [|d l H1 H2 IH]; cbn [decls]; [now apply K_ret|].
  destruct d as [| | | | |[|[| | | |k| | | | | |] [|e r]]| | | | |]; try apply K_fail.
  apply noset_cons in H1 as [_ H1]. inversion H1; subst.
  eapply K_bind; [now apply HR|]. intros v Hv. eapply K_bind; [apply HA|]. intros _ _. eapply K_bind; [now apply K_define|]. intros _ _. exact IH.
Qed.
Lemma K_cond c env l : Forall NoSet l -> Keeps env (cond W rec c env l) NoSet.
Proof.
  induction 1 as [|d l H1 H2 IH]; cbn [cond]; [apply K_ret, noset_nil|]. destruct d as [| | | | |[|t [|a r]]| | | | |]; try apply K_fail.
  apply noset_cons in H1 as [Ht H1]. inversion H1; subst. eapply K_bind; [now apply HR|]. intros v _. destruct (truthy v); [now apply HR|exact IH].
Qed.
Lemma K_and_or b c env l : Forall NoSet l -> forall last, NoSet last -> Keeps env (and_or W rec b c env last l) NoSet.
Proof.
  induction 1 as [|e l H1 H2 IH]; intros last HL; cbn [and_or]; [now apply K_ret|]. eapply K_bind; [now apply HR|]. intros v Hv. destruct (eqb b (truthy v)); [now apply K_ret|now apply IH].
Qed.
Lemma K_bind_args i ns : forall args, Forall NoSet args -> Keeps i (bind_args W i ns args) (fun _ => True).
Proof.
  induction ns as [|n ns IH]; intros args H; cbn [bind_args]; [now apply K_ret|]. destruct (str_eqb n (lit "...")); [apply K_define; now constructor|].
  destruct H as [|v args H1 H2]; [apply IH; constructor|]. eapply K_bind; [now apply K_define|]. intros _ _. now apply IH.
Qed.
Lemma K_call env fn args : NoSet fn -> Forall NoSet args -> Keeps env (call W native rec env fn args) NoSet.
Proof.
  intros H1 H2. destruct fn as [| | | | | | |n|cl ns body|cl ns body|]; cbn [call]; try apply K_fail.
  - assert (forall f v, NoSet f -> NoSet v -> Keeps env (rec top env (LList [f; quoted v])) NoSet) as Hq.
    { intros f v Hf Hv. apply HR. constructor. repeat (constructor; [exact Hf || idtac|]); [|constructor]. constructor. constructor; [constructor; vm_compute; discriminate|]. constructor; [exact Hv|constructor]. }
    assert (forall f l, Forall NoSet (f :: LList l :: nil) -> NoSet f /\ Forall NoSet l) as Hl.
    { intros f l H. inversion H as [|? ? H3 H4]; subst. inversion H4 as [|? ? H5 _]; subst. split; [exact H3|]. now inversion H5. }
    destruct (str_eqb n (lit "eval")); [destruct H2; [apply K_fail|now apply HR]|].
    destruct (str_eqb n (lit "apply")).
    { destruct H2 as [|f r Hf H2]; [apply K_fail|]. destruct H2 as [|x r Hx H2]; [apply K_fail|]. destruct x; try apply K_fail. apply HR. constructor. constructor; [exact Hf|]. now inversion Hx. }
    destruct (str_eqb n (lit "map")).
    { destruct H2 as [|f r Hf H2]; [apply K_fail|]. destruct H2 as [|x r Hx H2]; [apply K_fail|]. destruct x; try apply K_fail. assert (Forall NoSet l) as Hx' by now inversion Hx.
      eapply K_bind; [apply K_map|intros vs Hvs; apply K_ret; now constructor]. eapply Forall_impl; [|exact Hx']. intros v Hv. now apply Hq. }
    destruct (str_eqb n (lit "filter")).
    { destruct H2 as [|f r Hf H2]; [apply K_fail|]. destruct H2 as [|x r Hx H2]; [apply K_fail|]. destruct x; try apply K_fail. assert (Forall NoSet l) as Hx' by now inversion Hx.
      eapply K_bind; [apply K_filter|intros vs Hvs; apply K_ret; now constructor]. eapply Forall_impl; [|exact Hx']. intros v Hv. split; [exact Hv|]. now apply Hq. }
    intros s Hs. exact (Hnat env n args s H2 Hs).
  - apply K_extend. intros i. eapply K_bind; [now apply K_bind_args|]. intros _ _. apply K_block. now inversion H1.
  - apply K_extend. intros i. eapply K_bind; [now apply K_bind_args|]. intros _ _. apply K_block. now inversion H1.
Qed.
Lemma K_settle env n : forall m, Keeps env m NoSet -> Keeps env (settle W native rec n env m) NoSet.
Proof.
  induction n as [|n IH]; intros m Hm s Hs; cbn [settle]; specialize (Hm s Hs); destruct (m s) as [v s'|s'|]; try exact Hm.
  - destruct v; try exact Hm. exact I.
  - destruct v; try exact Hm. destruct Hm as (H1 & H2 & H3). inversion H1; subst.
    pose proof (IH _ (K_call env v args ltac:(assumption) ltac:(assumption)) s' H2) as K. destruct (settle W native rec n env _ s') as [b s2|s2|]; [| |exact I].
    + destruct K as (K1 & K2 & K3). split; [exact K1|]. split; [exact K2|]. eapply kept_trans; [exact H3|exact K3].
    + destruct K as (K2 & K3). split; [exact K2|]. eapply kept_trans; [exact H3|exact K3].
Qed.
Lemma form_set h : form_of h = Some FSet -> h = LSym (lit "set").
Proof.
  destruct h as [| | | |s| | | | | |]; try discriminate. unfold form_of, forms. cbn [find fst].
  repeat match goal with
  | |- context [if str_eqb (lit "set") ?b then _ else _] => destruct (str_eqb (lit "set") b) eqn:E; [intros _; apply str_eqb_eq in E; now subst|]
  | |- context [if ?b then _ else _] => destruct b; [discriminate|] end. discriminate.
Qed.
Lemma K_step tco n c env e : NoSet e -> Keeps env (step W native set_variable add_autocomplete rec tco n c env e) NoSet.
Proof.
  intros H. destruct e as [| | | |s|[|h t]| | | | |]; cbn [step]; try (now apply K_ret).
  - destruct (quoting c); [now apply K_ret|apply K_get].
  - destruct (noset_cons _ _ H) as [Hh Ht]. destruct (quoting c && _).
    { eapply K_bind; [apply (K_map env (rec c env) (h :: t))|intros vs Hvs; apply K_ret; now constructor]. constructor; [now apply HR|]. eapply Forall_impl; [|exact Ht]. intros x Hx. now apply HR. }
    destruct (form_of h) as [[]|] eqn:EF.
    + destruct Ht; [apply K_fail|now apply HR].
    + destruct Ht; [apply K_fail|now apply HR].
    + destruct Ht as [|k t Hk Ht]; [apply K_fail|]. destruct k; try apply K_fail. destruct Ht; [apply K_fail|].
      eapply K_bind; [now apply HR|]. intros v Hv. eapply K_bind; [now apply K_define|]. intros _ _. now apply K_ret.
    + exfalso. apply form_set in EF. subst h. inversion Hh; subst. congruence.
    + destruct Ht as [|k t Hk Ht]; [apply K_fail|]. destruct k; try apply K_fail. destruct Ht as [|x t Hx Ht]; [apply K_fail|]. destruct x; try apply K_fail. destruct (argnames l); [|apply K_fail].
      eapply K_bind; [apply K_define; now constructor|]. intros _ _. apply K_ret, noset_nil.
    + destruct Ht as [|k t Hk Ht]; [apply K_fail|]. destruct k; try apply K_fail. destruct Ht as [|x t Hx Ht]; [apply K_fail|]. destruct x; try apply K_fail. destruct (argnames l); [|apply K_fail].
      eapply K_bind; [apply K_define; now constructor|]. intros _ _. apply K_ret, noset_nil.
    + destruct Ht as [|k t Hk Ht]; [apply K_fail|]. destruct k; try apply K_fail. destruct Ht as [|x t Hx Ht]; [apply K_fail|].
      eapply K_bind; [apply K_world|]. intros _ _. apply K_ret, noset_nil.
    + destruct Ht as [|x t Hx Ht]; [apply K_fail|]. destruct x; try apply K_fail. destruct (argnames l); [|apply K_fail]. apply K_ret. now constructor.
    + destruct Ht as [|x t Hx Ht]; [apply K_fail|]. destruct x; try apply K_fail. apply K_extend. intros i. eapply K_bind; [apply K_decls; [intros; now apply K_ret|now inversion Hx]|]. intros _ _. now apply K_block.
    + destruct Ht as [|x t Hx Ht]; [apply K_fail|]. destruct x; try apply K_fail. apply K_extend. intros i. eapply K_bind; [apply K_decls; [intros; apply K_world|now inversion Hx]|]. intros _ _. now apply K_block.
    + now apply K_block.
    + now apply K_cond.
    + destruct Ht as [|x t Hx Ht]; [apply K_fail|]. eapply K_bind; [now apply HR|]. intros v _. destruct (truthy v); [now apply K_block|apply K_ret, noset_nil].
    + destruct Ht as [|x t Hx Ht]; [apply K_fail|]. destruct Ht as [|a r Ha Hr]; [apply K_fail|]. eapply K_bind; [now apply HR|]. intros v _. destruct (truthy v); [now apply HR|].
      destruct Hr; [apply K_ret, noset_nil|now apply HR].
    + apply K_and_or; [exact Ht|constructor].
    + apply K_and_or; [exact Ht|constructor].
    + eapply K_bind; [now apply HR|]. intros fn Hfn. destruct (is_macro fn).
      * eapply K_bind; [now apply K_call|]. intros x Hx. now apply HR.
      * eapply (K_bind _ _ (Forall NoSet)); [apply K_map; eapply Forall_impl; [|exact Ht]; intros x Hx; now apply HR|]. intros args Ha.
        destruct (tco && _ && _); [apply K_ret; now constructor|]. apply K_settle. now apply K_call.
Qed.
End Step.
Theorem eval_keeps tco n : forall c env e, NoSet e -> Keeps env (eval W native set_variable add_autocomplete tco n c env e) NoSet.
Proof.
  induction n as [|n IH]; intros c env e He; cbn [eval]; [intros s Hs; exact I|]. now apply K_step.
Qed.
End Keep.
