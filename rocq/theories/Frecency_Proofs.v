(** Lemmas about the string order, binary search and sorting. *)
From Verif Require Import Base Frecency_Model Frecency_Spec.
From Coq Require Import Permutation.

(** ** the order on strings *)
Lemma str_cmp_eq a b : str_cmp a b = Eq <-> a = b.
Proof.
  revert b; induction a as [|x a IH]; intros [|y b]; simpl; split; try congruence; auto.
  - destruct (N.compare_spec x y) as [-> | |]; try discriminate. intros H. apply IH in H. congruence.
  - intros [= -> ->]. rewrite N.compare_refl. apply IH. reflexivity.
Qed.
Lemma str_cmp_refl a : str_cmp a a = Eq.
Proof. apply str_cmp_eq. reflexivity. Qed.
Lemma str_cmp_sym a b : str_cmp b a = CompOpp (str_cmp a b).
Proof.
  revert b; induction a as [|x a IH]; intros [|y b]; simpl; auto.
  rewrite (N.compare_antisym x y). destruct (x ?= y)%N; simpl; auto.
Qed.
Lemma str_cmp_gt a b : str_cmp a b = Gt <-> str_cmp b a = Lt.
Proof. rewrite (str_cmp_sym a b). destruct (str_cmp a b); simpl; split; congruence. Qed.
Lemma str_lt_trans a b c : str_cmp a b = Lt -> str_cmp b c = Lt -> str_cmp a c = Lt.
Proof.
  revert b c; induction a as [|x a IH]; intros [|y b] [|z c]; simpl; try congruence.
  destruct (N.compare_spec x y) as [-> | H1|H1]; try discriminate;
  destruct (N.compare_spec y z) as [E | H2|H2]; try discriminate; intros P Q.
  - eapply IH; eauto.
  - reflexivity.
  - subst. rewrite (proj2 (N.compare_lt_iff x z)); auto.
  - rewrite (proj2 (N.compare_lt_iff x z)); auto. lia.
Qed.
Lemma str_lt_irrefl a : str_cmp a a <> Lt.
Proof. rewrite str_cmp_refl. discriminate. Qed.

(** names not below a prefix and starting with it come first *)
Lemma prefix_not_lt p s : starts_with p s = true -> str_cmp s p <> Lt.
Proof.
  revert s; induction p as [|x p IH]; intros [|y s]; simpl; try congruence.
  intros H. apply andb_true_iff in H as [H1 H2]. apply N.eqb_eq in H1. subst.
  rewrite N.compare_refl. apply IH. exact H2.
Qed.
Lemma prefix_convex p a b : str_cmp a p <> Lt -> str_cmp a b = Lt -> starts_with p b = true -> starts_with p a = true.
Proof.
  revert a b; induction p as [|x p IH]; intros [|y a] [|z b]; simpl; try congruence.
  intros H1 H2 H3. apply andb_true_iff in H3 as [E H3]. apply N.eqb_eq in E. subst z.
  destruct (N.compare_spec y x) as [-> | L|L]; try congruence.
  rewrite N.eqb_refl. simpl. eapply IH; eauto.
Qed.

(** ** binary search *)
Definition rank (c : comparison) : nat := match c with Lt => 0 | Eq => 1 | Gt => 2 end.
Definition mono {A} (f : A -> comparison) (l : list A) : Prop :=
  forall i j x y, i < j -> nth_error l i = Some x -> nth_error l j = Some y -> rank (f x) <= rank (f y).

Lemma bs_loop_spec {A} (f : A -> comparison) l : mono f l -> forall fuel base size,
  size <= S fuel -> base + size <= length l -> 1 <= size ->
  (base = 0 \/ exists x, nth_error l base = Some x /\ f x <> Gt) ->
  (forall j x, base + size <= j -> nth_error l j = Some x -> f x = Gt) ->
  let b := bs_loop fuel f l base size in
  b < length l /\ (b = 0 \/ exists x, nth_error l b = Some x /\ f x <> Gt) /\
  (forall j x, b < j -> nth_error l j = Some x -> f x = Gt).
Proof.
  intros M. induction fuel as [|fu IH]; intros base size Hf Hl H1 Hb Ha.
  - simpl. split; [lia|]. split; [exact Hb|]. intros j x Hj. apply Ha. lia.
  - cbn [bs_loop]. destruct (size <=? 1) eqn:E.
    { apply Nat.leb_le in E. split; [lia|]. split; [exact Hb|]. intros j x Hj. apply Ha. lia. }
    apply Nat.leb_gt in E.
    assert (Hh : 1 <= size / 2 /\ size / 2 < size).
    { split; [apply Nat.div_le_lower_bound; lia | apply Nat.div_lt; lia]. }
    set (half := size / 2) in *. cbv zeta.
    destruct (nth_error l (base + half)) as [m|] eqn:Em.
    2:{ apply nth_error_None in Em. lia. }
    destruct (f m) eqn:Fm.
    + apply IH; try lia. * right. exists m. split; [exact Em|congruence]. * intros j x Hj. apply Ha. lia.
    + apply IH; try lia. * right. exists m. split; [exact Em|congruence]. * intros j x Hj. apply Ha. lia.
    + apply IH; try lia. * exact Hb.
      * intros j x Hj Hx. assert (half <= size - half) by (pose proof (Nat.div_mod size 2 ltac:(lia)) as D; fold half in D; lia).
        destruct (Nat.eq_dec j (base + half)) as [-> | Hne]; [congruence|].
        assert (R : rank (f m) <= rank (f x)).
        { destruct (Nat.lt_ge_cases (base + half) j) as [L|L]; [eapply M; eauto|].
          exfalso. lia. }
        rewrite Fm in R. destruct (f x); simpl in R; auto; lia.
Qed.

Lemma bs_spec {A} (f : A -> comparison) l : mono f l ->
  match binary_search f l with
  | inl i => exists x, nth_error l i = Some x /\ f x = Eq
  | inr i => i <= length l /\ (forall j x, j < i -> nth_error l j = Some x -> f x = Lt)
             /\ (forall j x, i <= j -> nth_error l j = Some x -> f x = Gt)
  end.
Proof.
  intros M. unfold binary_search. destruct l as [|a l0].
  { split; [simpl; lia|]. split; intros j x; [lia|]. destruct j; discriminate. }
  set (l := a :: l0) in *.
  destruct (bs_loop_spec f l M (length l) 0 (length l)) as (B1 & B2 & B3); try lia.
  { subst l. simpl. lia. } { intros j x Hj Hx. exfalso. assert (j < length l) by (apply nth_error_Some; congruence). lia. }
  set (b := bs_loop (length l) f l 0 (length l)) in *. clearbody b.
  destruct (nth_error l b) as [x|] eqn:Ex; [|apply nth_error_None in Ex; lia].
  destruct (f x) eqn:Fx.
  - exists x. auto.
  - split; [lia|]. split.
    + intros j y Hj Hy. destruct (Nat.eq_dec j b) as [-> | N]; [congruence|].
      assert (R : rank (f y) <= rank (f x)) by (eapply (M j b); eauto; lia).
      rewrite Fx in R. destruct (f y); simpl in R; auto; lia.
    + intros j y Hj. apply B3. lia.
  - destruct B2 as [-> | (y & Hy & Hn)]; [|congruence].
    split; [lia|]. split; [intros; lia|].
    intros j y Hj Hy. destruct j; [congruence|]. apply (B3 (S j)); [lia|exact Hy].
Qed.

Lemma pp_spec {A} (p : A -> bool) l :
  (forall i j x y, i < j -> nth_error l i = Some x -> nth_error l j = Some y -> p y = true -> p x = true) ->
  let i := partition_point p l in
  i <= length l /\ Forall (fun x => p x = true) (firstn i l) /\ Forall (fun x => p x = false) (skipn i l).
Proof.
  intros Hm. unfold partition_point.
  assert (M : mono (fun x => if p x then Lt else Gt) l).
  { intros i j x y Hij Hx Hy. destruct (p y) eqn:Py; [rewrite (Hm i j x y); auto|].
    destruct (p x); simpl; lia. }
  pose proof (bs_spec _ l M) as B. destruct (binary_search _ l) as [i|i].
  - destruct B as (x & _ & E). destruct (p x); discriminate.
  - destruct B as (L & B1 & B2). cbv zeta. split; [exact L|]. split; apply Forall_forall; intros x Hx.
    + apply In_nth_error in Hx as (j & Hj).
      assert (j < length (firstn i l)) by (apply nth_error_Some; congruence).
      assert (j < i) by (rewrite firstn_length in H; lia).
      assert (nth_error l j = Some x).
      { rewrite <- (firstn_skipn i l), nth_error_app1 by exact H. exact Hj. }
      specialize (B1 j x H0 H1). destruct (p x); auto; discriminate.
    + apply In_nth_error in Hx as (j & Hj).
      assert (nth_error l (i + j) = Some x).
      { rewrite <- (firstn_skipn i l). rewrite nth_error_app2; rewrite firstn_length; [|lia].
        replace (i + j - Nat.min i (length l)) with j by lia. exact Hj. }
      specialize (B2 (i + j) x ltac:(lia) H). destruct (p x); auto; discriminate.
Qed.

(** ** increasing lists *)
Lemma increasing_app l1 l2 : increasing (l1 ++ l2) <->
  increasing l1 /\ increasing l2 /\ (forall a b, In a l1 -> In b l2 -> str_cmp a b = Lt).
Proof.
  induction l1 as [|x l1 IH]; simpl.
  - split; [intros H; repeat split; auto; intros a b [] | tauto].
  - rewrite IH. setoid_rewrite in_app_iff. split.
    + intros (H1 & H2 & H3 & H4). repeat split; auto. intros a b [<- | Ha] Hb; auto.
    + intros ((H1 & H2) & H3 & H4). repeat split; auto. intros b [Hb|Hb]; auto.
Qed.
Lemma increasing_nth l : increasing l -> forall i j a b, i < j -> nth_error l i = Some a -> nth_error l j = Some b -> str_cmp a b = Lt.
Proof.
  induction l as [|x l IH]; simpl; [intros _ [|i] j a b _ H; discriminate|].
  intros (H1 & H2) [|i] [|j] a b L Ha Hb; try lia.
  - injection Ha as <-. apply H1. eapply nth_error_In; eauto.
  - eapply (IH H2 i j); eauto. lia.
Qed.
Lemma increasing_filter {A} (g : A -> str) (p : A -> bool) l : increasing (map g l) -> increasing (map g (filter p l)).
Proof.
  induction l as [|x l IH]; simpl; auto. intros (H1 & H2). destruct (p x); simpl; auto.
  split; auto. intros b Hb. apply H1. apply in_map_iff in Hb as (y & <- & Hy).
  apply in_map. apply filter_In in Hy. tauto.
Qed.
Lemma increasing_NoDup l : increasing l -> NoDup l.
Proof.
  induction l as [|x l IH]; constructor.
  - destruct H as (H & _). intros Hin. apply H in Hin. exact (str_lt_irrefl _ Hin).
  - apply IH, H.
Qed.

(** ** sorting *)
Lemma insert_sorted_perm {A} leb (x : A) l : Permutation (x :: l) (insert_sorted leb x l).
Proof.
  induction l as [|y l IH]; simpl; auto. destruct (leb x y); auto.
  transitivity (y :: x :: l); [apply perm_swap|]. apply perm_skip, IH.
Qed.
Lemma sort_perm {A} leb (l : list A) : Permutation l (sort leb l).
Proof.
  induction l as [|x l IH]; simpl; auto. rewrite <- insert_sorted_perm. apply perm_skip, IH.
Qed.

Fixpoint ordered {A} (leb : A -> A -> bool) (l : list A) : Prop :=
  match l with [] => True | x :: r => (forall y, In y r -> leb x y = true) /\ ordered leb r end.
Lemma sort_ordered {A} (leb : A -> A -> bool) :
  (forall x y, leb x y = false -> leb y x = true) ->
  (forall x y z, leb x y = true -> leb y z = true -> leb x z = true) ->
  forall l, ordered leb (sort leb l).
Proof.
  intros Tot Tr l. induction l as [|x l IH]; simpl; auto.
  change (fold_right (insert_sorted leb) [] l) with (sort leb l).
  generalize dependent (sort leb l). clear l. intros l. induction l as [|y l IHl]; simpl.
  - split; [intros y []|exact I].
  - intros (H1 & H2). destruct (leb x y) eqn:E; simpl.
    + repeat split; auto. intros z [<- | Hz]; auto. eapply Tr; eauto.
    + split; auto. intros z Hz. apply (Permutation_in _ (Permutation_sym (insert_sorted_perm leb x l))) in Hz.
      destruct Hz as [<- | Hz]; auto.
Qed.
Lemma ordered_split {A} (leb : A -> A -> bool) l k : ordered leb l ->
  forall x y, In x (firstn k l) -> In y (skipn k l) -> leb x y = true.
Proof.
  revert k. induction l as [|a l IH]; intros [|k]; simpl; try tauto.
  intros (H1 & H2) x y [<- | Hx] Hy; [|eapply IH; eauto].
  apply H1. rewrite <- (firstn_skipn k l). apply in_or_app. auto.
Qed.
