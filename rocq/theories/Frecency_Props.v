(** Properties of the directory history (C27, C55, C56). *)
From Verif Require Import Base Frecency_Model Frecency_Spec Frecency_Proofs.
From Coq Require Import Permutation SpecFloat.

Section P.
Context {score : Type} (fresh : score) (visit weigh : score -> score) (at_least : score -> score -> bool).
Notation item := (item score).
Notation fstep := (fstep score fresh visit weigh at_least).
Notation frun := (frun score fresh visit weigh at_least).

Lemma mono_names n (items : list item) : increasing (names items) -> mono (fun i => str_cmp (name i) n) items.
Proof using Type.
  intros H i j x y L Hx Hy.
  assert (C : str_cmp (name x) (name y) = Lt).
  { eapply (increasing_nth (names items)); eauto; unfold names; erewrite map_nth_error; eauto. }
  destruct (str_cmp (name y) n) eqn:E.
  - apply str_cmp_eq in E. subst n. rewrite C. simpl. lia.
  - rewrite (str_lt_trans _ _ _ C E). simpl. lia.
  - destruct (str_cmp (name x) n); simpl; lia.
Qed.

(** what a lookup finds, on a store in order *)
Lemma search_cases n (items : list item) : increasing (names items) ->
  match binary_search (fun i => str_cmp (name i) n) items with
  | inl idx => exists a x b, items = a ++ x :: b /\ length a = idx /\ name x = n
  | inr idx => exists a b, items = a ++ b /\ length a = idx
       /\ (forall y, In y a -> str_cmp (name y) n = Lt) /\ (forall y, In y b -> str_cmp n (name y) = Lt)
  end.
Proof using Type.
  intros H. pose proof (bs_spec _ items (mono_names n items H)) as B.
  destruct (binary_search _ items) as [i|i].
  - destruct B as (x & Hx & E). apply str_cmp_eq in E.
    apply nth_error_split in Hx as (a & b & -> & L). exists a, x, b. auto.
  - destruct B as (L & B1 & B2). exists (firstn i items), (skipn i items).
    split; [symmetry; apply firstn_skipn|]. split; [apply firstn_length_le; exact L|]. split; intros y Hy.
    + apply In_nth_error in Hy as (j & Hj).
      assert (J : j < length (firstn i items)) by (apply nth_error_Some; congruence).
      rewrite firstn_length in J. apply (B1 j); [lia|].
      rewrite <- (firstn_skipn i items), nth_error_app1 by (rewrite firstn_length; lia). exact Hj.
    + apply In_nth_error in Hy as (j & Hj). apply str_cmp_gt. apply (B2 (i + j)); [lia|].
      rewrite <- (firstn_skipn i items), nth_error_app2; rewrite firstn_length; [|lia].
      replace (i + j - Nat.min i (length items)) with j by lia. exact Hj.
Qed.

Lemma update_at_mid {A} (f : A -> A) a x b : update_at (length a) f (a ++ x :: b) = a ++ f x :: b.
Proof using Type. induction a as [|y a IH]; simpl; [reflexivity|]. rewrite IH. reflexivity. Qed.
Lemma insert_at_mid {A} (x : A) a b : insert_at (length a) x (a ++ b) = a ++ x :: b.
Proof using Type.
  unfold insert_at. f_equal.
  - rewrite firstn_app, Nat.sub_diag, firstn_all. simpl. apply app_nil_r.
  - rewrite skipn_app, Nat.sub_diag, skipn_all. reflexivity.
Qed.

Lemma increasing_mid a n b : increasing a -> increasing b ->
  (forall y, In y a -> str_cmp y n = Lt) -> (forall y, In y b -> str_cmp n y = Lt) -> increasing (a ++ n :: b).
Proof using Type.
  intros Ha Hb Pa Pb. apply increasing_app. split; [exact Ha|]. split; [simpl; auto|].
  intros y z Hy [<- | Hz]; auto. eapply str_lt_trans; eauto.
Qed.

Lemma get_update_order upd n c (items : list item) : increasing (names items) ->
  increasing (names (get_update score fresh upd n c items)) /\
  forall x, In x (names (get_update score fresh upd n c items)) <-> x = n \/ In x (names items).
Proof using Type. clear visit weigh at_least.
  intros H. unfold get_update. pose proof (search_cases n items H) as S.
  destruct (binary_search _ items) as [i|i].
  - destruct S as (a & x & b & -> & <- & Hn). rewrite update_at_mid.
    unfold names in *. rewrite !map_app in *. simpl in *. split; [exact H|].
    intros y. rewrite !in_app_iff. simpl. intuition congruence.
  - destruct S as (a & b & -> & <- & Ha & Hb). rewrite insert_at_mid.
    unfold names in *. rewrite map_app in H. rewrite !map_app. simpl.
    apply increasing_app in H as (H1 & H2 & _). split.
    + apply increasing_mid; auto; intros y Hy; apply in_map_iff in Hy as (z & <- & Hz); auto.
    + intros y. rewrite !in_app_iff. simpl. intuition congruence.
Qed.

Lemma delete_order n (items : list item) : increasing (names items) ->
  increasing (names (delete score n items)) /\
  forall x, In x (names (delete score n items)) <-> In x (names items) /\ x <> n.
Proof using Type. clear weigh visit fresh at_least.
  induction items as [|i items IH]; simpl; [intuition|].
  intros (H1 & H2). destruct (IH H2) as (I1 & I2). destruct (str_eqb_spec (name i) n) as [E|E].
  - split; [exact H2|]. intros x. split.
    + intros Hx. split; auto. intros ->. apply H1 in Hx. rewrite E in Hx. exact (str_lt_irrefl _ Hx).
    + intros ([E2 | Hx] & N); [exfalso; apply N; congruence|exact Hx].
  - simpl. split.
    + split; [|exact I1]. intros b Hb. apply H1. apply I2 in Hb. tauto.
    + intros x. rewrite I2. split; [|intuition]. intros [<- | Hx]; [split; auto|tauto].
Qed.

Lemma sort_names_increasing (l : list item) : NoDup (names l) ->
  increasing (names (sort (fun a b => match str_cmp (name a) (name b) with Gt => false | _ => true end) l)).
Proof using Type.
  intros ND. set (lei := fun a b : item => match str_cmp (name a) (name b) with Gt => false | _ => true end).
  assert (O : ordered lei (sort lei l)).
  { apply sort_ordered; unfold lei.
    - intros x y. rewrite (str_cmp_sym (name x) (name y)). destruct (str_cmp (name x) (name y)); simpl; congruence.
    - intros x y z. destruct (str_cmp (name x) (name y)) eqn:E1; try discriminate;
      destruct (str_cmp (name y) (name z)) eqn:E2; try discriminate; intros _ _.
      + apply str_cmp_eq in E1, E2. rewrite E1, E2, str_cmp_refl. reflexivity.
      + apply str_cmp_eq in E1. rewrite E1, E2. reflexivity.
      + apply str_cmp_eq in E2. rewrite <- E2, E1. reflexivity.
      + rewrite (str_lt_trans _ _ _ E1 E2). reflexivity. }
  assert (ND' : NoDup (names (sort lei l))).
  { eapply Permutation_NoDup; [|exact ND]. apply Permutation_map, sort_perm. }
  generalize dependent (sort lei l). intros s. induction s as [|x s IH]; simpl; auto.
  intros (O1 & O2) ND'. inversion ND'; subst. split; [|apply IH; auto].
  intros b Hb. apply in_map_iff in Hb as (y & <- & Hy). specialize (O1 y Hy). unfold lei in O1.
  destruct (str_cmp (name x) (name y)) eqn:E; auto; try discriminate.
  apply str_cmp_eq in E. exfalso. apply H1. rewrite E. apply in_map, Hy.
Qed.

Lemma firstn_NoDup {A} k (l : list A) : NoDup l -> NoDup (firstn k l).
Proof using Type.
  revert k; induction l as [|x l IH]; intros [|k] H; simpl; try constructor; inversion H; subst.
  - intros Hin. apply H2. rewrite <- (firstn_skipn k l). apply in_or_app. auto.
  - apply IH. assumption.
Qed.

Lemma truncate_order k (items : list item) : increasing (names items) ->
  increasing (names (truncate score at_least k items)) /\
  (forall x, In x (names (truncate score at_least k items)) -> In x (names items)) /\
  length (names (truncate score at_least k items)) = Nat.min k (length (names items)).
Proof using Type.
  intros H. unfold truncate. set (s := sort (fun a b => at_least (stats a) (stats b)) items).
  assert (P : Permutation items s) by apply sort_perm. split; [|split].
  - apply sort_names_increasing. unfold names. rewrite <- firstn_map. apply firstn_NoDup.
    eapply Permutation_NoDup; [apply Permutation_map, P|]. apply increasing_NoDup, H.
  - intros x Hx. unfold names in *. apply (Permutation_in (l' := map name (firstn k s))) in Hx.
    2:{ apply Permutation_map, Permutation_sym, sort_perm. }
    apply (Permutation_in (l := map name s)); [apply Permutation_map, Permutation_sym, P|].
    rewrite <- (firstn_skipn k s), map_app. apply in_or_app. auto.
  - unfold names. rewrite !map_length. rewrite <- (Permutation_length (sort_perm _ (firstn k s))).
    rewrite firstn_length. rewrite (Permutation_length P). reflexivity.
Qed.

(** C27: whatever visits, adjustments, deletions, prunings and truncations are made, no
    directory is listed twice, the list stays in order ... *)
Theorem directories_stay_ordered_and_unique : forall items ops,
  increasing (names items) -> increasing (names (frun items ops)).
Proof using Type.
  intros items ops. revert items. induction ops as [|o ops IH]; intros items H; [exact H|].
  apply IH. destruct o; simpl.
  - apply get_update_order, H. - apply get_update_order, H. - apply delete_order, H.
  - apply increasing_filter, H. - apply truncate_order, H.
Qed.

(** ... and each operation changes the remembered set exactly as it says. *)
Theorem directory_operations_have_their_effect : forall items ops o,
  increasing (names items) ->
  effect o (names (frun items ops)) (names (fstep (frun items ops) o)).
Proof using Type.
  intros items ops o H. apply (directories_stay_ordered_and_unique items ops) in H.
  generalize dependent (frun items ops). clear. intros items H. destruct o; simpl.
  - apply get_update_order, H. - apply get_update_order, H. - apply delete_order, H.
  - intros x. unfold prune, names. rewrite !in_map_iff. split.
    + intros (i & <- & Hi). apply filter_In in Hi as (Hi & E). split; eauto.
    + intros ((i & <- & Hi) & E). exists i. split; auto. apply filter_In. auto.
  - apply truncate_order, H.
Qed.

Lemma entry_mid n (a : list item) x b : increasing (names (a ++ x :: b)) -> name x = n -> entry n (a ++ x :: b) = Some x.
Proof using Type.
  intros H E. induction a as [|y a IH]; simpl.
  - rewrite E, str_eqb_refl. reflexivity.
  - simpl in H. destruct H as (H1 & H2). destruct (str_eqb_spec (name y) n) as [E'|E']; [|apply IH; exact H2].
    exfalso. assert (L : str_cmp (name y) n = Lt).
    { apply H1. unfold names. rewrite map_app. apply in_or_app. right. left. exact E. }
    rewrite E' in L. exact (str_lt_irrefl _ L).
Qed.
Lemma entry_none n (l : list item) : ~ In n (names l) -> entry n l = None.
Proof using Type. clear weigh visit fresh at_least.
  induction l as [|y l IH]; simpl; auto. intros H. destruct (str_eqb_spec (name y) n); [exfalso; apply H; auto|].
  apply IH. tauto.
Qed.
Lemma entry_skip n (a : list item) x b : name x <> n -> entry n (a ++ x :: b) = entry n (a ++ b).
Proof using Type.
  intros E. induction a as [|y a IH]; simpl.
  - destruct (str_eqb_spec (name x) n); [contradiction|reflexivity].
  - rewrite IH. reflexivity.
Qed.

(** A visit counts on the directory's own record, whether it was known or not, and on no
    other. *)
Theorem visit_counts_on_that_directory_only : forall items n c,
  increasing (names items) ->
  let items' := add score fresh visit n c items in
  entry n items' = Some (match entry n items with
                         | Some i => Item n (visit (stats i)) (match c with Some _ => c | None => ctx i end)
                         | None => Item n (visit fresh) c
                         end) /\
  (forall m, m <> n -> entry m items' = entry m items).
Proof using Type.
  intros items n c H. cbv zeta. pose proof (get_update_order visit n c items H) as (O & _).
  unfold add, get_update in *. pose proof (search_cases n items H) as S.
  destruct (binary_search _ items) as [i|i].
  - destruct S as (a & x & b & -> & <- & Hn). rewrite update_at_mid in *. split.
    + rewrite (entry_mid n a x b H Hn). rewrite (entry_mid n a _ b O Hn). simpl. rewrite Hn. reflexivity.
    + intros m Hm. rewrite !entry_skip; simpl; congruence.
  - destruct S as (a & b & -> & <- & Ha & Hb). rewrite insert_at_mid in *. split.
    + rewrite (entry_mid n a _ b O eq_refl). rewrite entry_none; [reflexivity|].
      unfold names. rewrite map_app, in_app_iff, !in_map_iff. intros [(y & E & Hy)|(y & E & Hy)].
      * apply Ha in Hy. rewrite E in Hy. exact (str_lt_irrefl _ Hy).
      * apply Hb in Hy. rewrite E in Hy. exact (str_lt_irrefl _ Hy).
    + intros m Hm. rewrite entry_skip; simpl; congruence.
Qed.

(** Truncation keeps the best: nothing forgotten ranks strictly above something kept. *)
Theorem truncation_keeps_the_best : forall items k,
  (forall a b, at_least a b = false -> at_least b a = true) ->
  (forall a b c, at_least a b = true -> at_least b c = true -> at_least a c = true) ->
  exists dropped, Permutation items (truncate score at_least k items ++ dropped) /\
    forall x y, In x (truncate score at_least k items) -> In y dropped -> at_least (stats x) (stats y) = true.
Proof using Type.
  intros items k Tot Tr. unfold truncate. set (lei := fun a b : item => at_least (stats a) (stats b)).
  set (by_name := fun a b : item => _).
  exists (skipn k (sort lei items)). split.
  - rewrite <- (sort_perm by_name). rewrite firstn_skipn. apply sort_perm.
  - intros x y Hx Hy. apply (Permutation_in _ (Permutation_sym (sort_perm by_name _))) in Hx.
    apply (ordered_split lei (sort lei items) k) with (x := x) (y := y); auto.
    apply sort_ordered; unfold lei; eauto.
Qed.

Lemma filter_all {A} (p : A -> bool) l : Forall (fun x => p x = true) l -> filter p l = l.
Proof using Type. induction 1 as [|x l E H IH]; simpl; [reflexivity|]. rewrite E, IH. reflexivity. Qed.
Lemma filter_none {A} (p : A -> bool) l : Forall (fun x => p x = false) l -> filter p l = [].
Proof using Type. induction 1 as [|x l E H IH]; simpl; [reflexivity|]. rewrite E, IH. reflexivity. Qed.

(** Looking up a prefix finds exactly the directories that start with it. *)
Theorem prefix_search_is_exact : forall (items : list item) p,
  increasing (names items) ->
  prefix_items score p items = filter (fun i => starts_with p (name i)) items.
Proof using Type. clear weigh visit fresh at_least.
  intros items p H. unfold prefix_items, search_prefix_range.
  set (below := fun i : item => match str_cmp (name i) p with Lt => true | _ => false end).
  assert (NT : forall l : list item, increasing (names l) -> forall i j x y, i < j -> nth_error l i = Some x -> nth_error l j = Some y -> str_cmp (name x) (name y) = Lt).
  { intros l Hl i j x y L Hx Hy. eapply (increasing_nth (names l)); eauto; unfold names; erewrite map_nth_error; eauto. }
  destruct (pp_spec below items) as (L1 & A1 & A2).
  { intros i j x y L Hx Hy. unfold below. pose proof (NT items H i j x y L Hx Hy) as C.
    destruct (str_cmp (name y) p) eqn:E; try discriminate. rewrite (str_lt_trans _ _ _ C E). reflexivity. }
  set (s := partition_point below items) in *. clearbody s.
  assert (Hs : increasing (names (skipn s items))).
  { unfold names in *. rewrite <- (firstn_skipn s items), map_app in H. apply increasing_app in H. tauto. }
  destruct (pp_spec (fun i : item => starts_with p (name i)) (skipn s items)) as (L2 & B1 & B2).
  { intros i j x y L Hx Hy P. apply (prefix_convex p (name x) (name y)); auto.
    - rewrite Forall_forall in A2. apply nth_error_In in Hx. specialize (A2 x Hx). unfold below in A2.
      destruct (str_cmp (name x) p); congruence.
    - eapply NT; eauto. }
  set (e := partition_point _ (skipn s items)) in *. clearbody e.
  replace (s + e - s) with e by lia.
  rewrite <- (firstn_skipn s items) at 2. rewrite filter_app.
  rewrite (filter_none _ (firstn s items)).
  2:{ eapply Forall_impl; [|exact A1]. intros i Hi. unfold below in Hi.
      destruct (starts_with p (name i)) eqn:P; auto. apply prefix_not_lt in P.
      destruct (str_cmp (name i) p); congruence. }
  rewrite <- (firstn_skipn e (skipn s items)) at 2. rewrite filter_app.
  rewrite (filter_all _ (firstn e (skipn s items))) by exact B1.
  rewrite (filter_none _ (skipn e (skipn s items))) by exact B2.
  rewrite app_nil_r. reflexivity.
Qed.

Lemma max_fold {A} (cmp : A -> A -> comparison) :
  (forall a b c, cmp a b <> Gt -> cmp b c <> Gt -> cmp a c <> Gt) -> (forall a b, cmp a b = Gt -> cmp b a <> Gt) -> (forall a, cmp a a <> Gt) ->
  forall r x, let m := fold_left (fun best y => match cmp best y with Gt => best | _ => y end) r x in
    In m (x :: r) /\ forall y, In y (x :: r) -> cmp y m <> Gt.
Proof using Type.
  intros Tr An Rf. induction r as [|y r IH]; intros x; cbv zeta.
  - simpl. split; auto. intros z [<- | []]. apply Rf.
  - cbn [fold_left]. specialize (IH (match cmp x y with Gt => x | _ => y end)). cbv zeta in IH.
    set (m := fold_left _ r _) in *. clearbody m. destruct IH as (I1 & I2). split.
    + destruct I1 as [E|I1]; [|right; right; exact I1]. subst m. destruct (cmp x y); simpl; auto.
    + assert (Hx : cmp x (match cmp x y with Gt => x | _ => y end) <> Gt) by (destruct (cmp x y) eqn:E; auto; congruence).
      assert (Hy : cmp y (match cmp x y with Gt => x | _ => y end) <> Gt) by (destruct (cmp x y) eqn:E; auto).
      intros z [<- | [<- | Hz]].
      * eapply Tr; [exact Hx|]. apply I2. left. reflexivity.
      * eapply Tr; [exact Hy|]. apply I2. left. reflexivity.
      * apply I2. right. exact Hz.
Qed.

(** The directory proposed for a typed prefix starts with it and no remembered directory
    with that prefix ranks strictly higher; there is a proposal as soon as one exists. *)
Theorem proposal_is_the_best_match : forall (items : list item) cmp p,
  increasing (names items) ->
  (forall a b c, cmp a b <> Gt -> cmp b c <> Gt -> cmp a c <> Gt) -> (forall a b, cmp a b = Gt -> cmp b a <> Gt) -> (forall a, cmp a a <> Gt) ->
  match search_prefix score cmp p items with
  | Some n => exists i, In i items /\ name i = n /\ starts_with p n = true /\
                forall j, In j items -> starts_with p (name j) = true -> cmp j i <> Gt
  | None => forall j, In j items -> starts_with p (name j) = false
  end.
Proof using Type.
  intros items cmp p H Tr An Rf. unfold search_prefix. rewrite prefix_search_is_exact by exact H.
  set (fp := fun i : item => starts_with p (name i)).
  assert (FI : forall j, In j (filter fp items) <-> In j items /\ fp j = true) by (intros; apply filter_In).
  destruct (filter fp items) as [|x r]; simpl.
  - intros j Hj. destruct (starts_with p (name j)) eqn:E; auto. exfalso. apply (proj2 (FI j)). auto.
  - pose proof (max_fold cmp Tr An Rf r x) as M. cbv zeta in M. destruct M as (M1 & M2).
    set (m := fold_left _ r x) in *. clearbody m. exists m. apply FI in M1 as (M1 & M3). repeat split; auto.
    intros j Hj Pj. apply M2. apply FI. auto.
Qed.

(** ** the table *)
Section Table.
Variable loaded : score -> score.
Variable is_whole : score -> bool.

(** reloading from the table brings in every missing row, in order, without touching
    what is already known *)
Theorem reload_adds_missing_directories : forall rows (items : list item),
  increasing (names items) ->
  increasing (names (reload score loaded rows items)) /\
  (forall x, In x (names (reload score loaded rows items)) <-> In x (names items) \/ In x (map path rows)) /\
  (forall n i, entry n items = Some i -> entry n (reload score loaded rows items) = Some i).
Proof using Type. clear weigh visit is_whole fresh at_least.
  unfold reload. induction rows as [|r rows IH]; intros items H; cbn [fold_left].
  { simpl. intuition. }
  assert (S : increasing (names (reload_row score loaded items r)) /\
    (forall x, In x (names (reload_row score loaded items r)) <-> In x (names items) \/ x = path r) /\
    (forall n i, entry n items = Some i -> entry n (reload_row score loaded items r) = Some i)).
  { unfold reload_row. pose proof (search_cases (path r) items H) as S.
    destruct (binary_search _ items) as [i|i].
    - destruct S as (a & x & b & -> & <- & Hn). split; [exact H|]. split; auto.
      intros y. split; auto. intros [Hy| ->]; auto. unfold names. rewrite map_app. apply in_or_app. right. left. exact Hn.
    - destruct S as (a & b & -> & <- & Ha & Hb). rewrite insert_at_mid. unfold names in *.
      rewrite map_app in H. rewrite !map_app. cbn [map]. apply increasing_app in H as (H1 & H2 & _).
      split; [|split].
      + apply increasing_mid; auto; intros y Hy; apply in_map_iff in Hy as (z & <- & Hz); auto.
      + intros y. rewrite !in_app_iff. simpl. intuition congruence.
      + intros n i E. cbn [name].
        rewrite entry_skip; auto. simpl. intros <-.
        apply find_some in E as (E1 & E2). apply str_eqb_eq in E2.
        apply in_app_iff in E1 as [E1|E1]; [apply Ha in E1|apply Hb in E1]; rewrite E2 in E1; exact (str_lt_irrefl _ E1). }
  destruct S as (S1 & S2 & S3). destruct (IH _ S1) as (I1 & I2 & I3). split; [exact I1|]. split.
  - intros x. rewrite I2, S2. simpl. intuition.
  - intros n i E. apply I3, S3, E.
Qed.

(** saving writes a row for every directory held *)
Theorem save_writes_every_directory : forall (items : list item) rows,
  NoDup (names items) ->
  forall i, In i items -> In (Row (name i) (stats i) (is_whole (stats i)) (ctx i)) (save score is_whole items rows).
Proof using Type. clear weigh visit loaded fresh at_least.
  unfold save. intros items. induction items as [|a items IH]; intros rows ND i Hi; [destruct Hi|].
  inversion ND; subst. cbn [fold_left]. destruct Hi as [<- | Hi]; [|apply IH; auto].
  assert (K : forall l rows0, ~ In (name a) (names l) ->
    In (Row (name a) (stats a) (is_whole (stats a)) (ctx a)) rows0 ->
    In (Row (name a) (stats a) (is_whole (stats a)) (ctx a))
       (fold_left (fun rows i => replace_row score (Row (name i) (stats i) (is_whole (stats i)) (ctx i)) rows) l rows0)).
  { induction l as [|b l IHl]; intros rows0 N Hin; [exact Hin|]. cbn [fold_left]. simpl in N.
    apply IHl; [tauto|]. unfold replace_row. apply in_or_app. left. apply filter_In. split; auto.
    simpl. apply negb_true_iff, str_eqb_neq. intros E. apply N. left. congruence. }
  apply K; auto. unfold replace_row. apply in_or_app. right. left. reflexivity.
Qed.
End Table.
End P.

Definition st0 (l : list (string * nat)) : list (item nat) := map (fun '(s, n) => Item (lit s) n None) l.
Example ordered_case :
  let items := frun nat 0 S S Nat.leb [] [FAdd (lit "/b") None; FAdd (lit "/a") None; FAdd (lit "/b") None; FAdjust (lit "/c"); FDelete (lit "/a")] in
  map (fun i => (name i, stats i)) items = [(lit "/b", 2); (lit "/c", 1)] /\ increasing (names items).
Proof.
  split; [vm_compute; reflexivity|].
  apply (directories_stay_ordered_and_unique 0 S S Nat.leb []). exact I.
Qed.
Example prefix_case : prefix_items nat (lit "/a/") (st0 [("/a", 1); ("/a/b", 2); ("/a/c", 3); ("/b", 1)]) = st0 [("/a/b", 2); ("/a/c", 3)].
Proof. vm_compute. reflexivity. Qed.

(** ** C55: what a restart loses or brings back *)
(** A directory last visited at a fractional second is not loaded at start. *)
Theorem fractional_visit_lost_at_start_refuted :
  ~ forall (whole_ : nat -> bool) (items : list (item nat)),
      increasing (names items) -> names (from_file nat id (save nat whole_ items [])) = names items.
Proof.
  intros H. specialize (H (fun n => Nat.eqb n 3) (st0 [("/a", 1); ("/b", 3)])).
  assert (O : increasing (names (st0 [("/a", 1); ("/b", 3)]))).
  { cbn. repeat split; intros b Hb; repeat destruct Hb as [<- | Hb]; try reflexivity; destruct Hb. }
  specialize (H O). vm_compute in H. discriminate.
Qed.
(** What holds: when every last visit fell on a whole second, everything saved to an
    empty table is loaded again, in the same order. *)
Theorem whole_second_visits_survive_restart_partial : forall {score} (whole_ : score -> bool) loaded (items : list (item score)),
  NoDup (names items) -> Forall (fun i => whole_ (stats i) = true) items ->
  from_file score loaded (save score whole_ items []) = map (fun i => Item (name i) (loaded (stats i)) (ctx i)) items.
Proof.
  intros score whole_ loaded items ND W.
  assert (E : forall l rows, NoDup (map path rows ++ names l) ->
    save score whole_ l rows = rows ++ map (fun i => Row (name i) (stats i) (whole_ (stats i)) (ctx i)) l).
  { unfold save. induction l as [|i l IH]; intros rows N; cbn [fold_left map]; [symmetry; apply app_nil_r|].
    simpl in N. pose proof (NoDup_remove_2 _ _ _ N) as N2.
    assert (R : replace_row score (Row (name i) (stats i) (whole_ (stats i)) (ctx i)) rows = rows ++ [Row (name i) (stats i) (whole_ (stats i)) (ctx i)]).
    { unfold replace_row. f_equal. apply filter_all. apply Forall_forall. intros x Hx. apply negb_true_iff, str_eqb_neq.
      simpl. intros E. apply N2. apply in_or_app. left. rewrite <- E. apply in_map, Hx. }
    rewrite R, IH.
    - rewrite <- app_assoc. reflexivity.
    - rewrite map_app. simpl. rewrite <- app_assoc. exact N. }
  rewrite E by exact ND. unfold from_file. cbn [app].
  induction W as [|i items Wi W IH]; [reflexivity|]. simpl. rewrite Wi. simpl. f_equal. apply IH. inversion ND; assumption.
Qed.

(** A directory deleted or pruned from the history and saved is back after a restart. *)
Theorem forgotten_directory_stays_forgotten_refuted :
  ~ forall (items : list (item nat)) n rows,
      increasing (names items) ->
      let rows' := save nat (fun _ => true) (delete nat n items) (save nat (fun _ => true) items rows) in
      ~ In n (names (from_file nat id rows')).
Proof.
  intros H. specialize (H (st0 [("/gone", 1)]) (lit "/gone") []).
  apply H; [simpl; split; [intros b []|exact I]|]. vm_compute. left. reflexivity.
Qed.
(** Rows left over by a deletion put the loaded list out of order; the next visit to a
    directory already in it then adds it a second time. *)
Theorem restart_keeps_directories_unique_refuted :
  ~ forall (items : list (item nat)) n m,
      increasing (names items) ->
      let rows := save nat (fun _ => true) (delete nat n items) (save nat (fun _ => true) items []) in
      NoDup (names (add nat 0 S m None (from_file nat id rows))).
Proof.
  intros H. specialize (H (st0 [("/a", 1); ("/b", 1); ("/c", 1)]) (lit "/c") (lit "/c")).
  assert (O : increasing (names (st0 [("/a", 1); ("/b", 1); ("/c", 1)]))).
  { cbn. repeat split; intros b Hb; repeat destruct Hb as [<- | Hb]; try reflexivity; destruct Hb. }
  specialize (H O). vm_compute in H. inversion H as [|x l N1 N2]; subst.
  apply N1. simpl. tauto.
Qed.

(** ** C56: the scores of loaded directories.  Loaded items count time from 1970, so more
    than 128 half-lives have passed and 2^(elapsed / half-life) overflows to infinity. *)
Definition overflow : f32 := S754_infinity false.

(** no stored score, whatever it is, is readable after loading *)
Theorem loaded_score_is_readable_refuted : forall stored, get_frecency overflow (set_frecency overflow stored) = S754_nan.
Proof. intros [s|s| |s m e]; try destruct s; reflexivity. Qed.

(** a visit to a loaded directory makes its record unstorable, so that saving (one
    transaction for all directories) fails from then on *)
Theorem visited_loaded_directory_is_storable_refuted : forall stored, storable (update_frecency overflow (set_frecency overflow stored)) = false.
Proof. intros [s|s| |s m e]; try destruct s; reflexivity. Qed.

(** and among loaded directories the proposal for a prefix does not depend on how often
    or when they were visited: it is always the last in alphabetical order *)
Theorem proposal_after_restart_ignores_visits_refuted : forall (items : list (item f32)) p,
  increasing (names items) ->
  search_prefix f32 (fun a b => cmp_scores (get_frecency overflow (stats a)) (get_frecency overflow (stats b))) p
    (map (fun i => Item (name i) (set_frecency overflow (stats i)) (ctx i)) items)
  = option_map name (last (map Some (filter (fun i => starts_with p (name i)) items)) None).
Proof.
  intros items p H. unfold search_prefix. set (cmp := fun a b : item f32 => cmp_scores (get_frecency overflow (stats a)) (get_frecency overflow (stats b))).
  set (g := fun i : item f32 => Item (name i) (set_frecency overflow (stats i)) (ctx i)).
  assert (N : names (map g items) = names items) by (unfold names; rewrite map_map; reflexivity).
  rewrite (prefix_search_is_exact (map g items) p) by (rewrite N; exact H).
  assert (F : filter (fun i => starts_with p (name i)) (map g items) = map g (filter (fun i => starts_with p (name i)) items)).
  { clear. induction items as [|i items IH]; simpl; auto. destruct (starts_with p (name i)); simpl; rewrite IH; reflexivity. }
  rewrite F. generalize (filter (fun i => starts_with p (name i)) items). clear. intros l.
  destruct l as [|x l]; [reflexivity|]. cbn [map max_by]. 
  assert (C : forall a b, cmp (g a) b = Lt).
  { intros a b. unfold cmp, cmp_scores. cbn [stats g]. subst g. cbn [stats].
    rewrite loaded_score_is_readable_refuted. reflexivity. }
  revert x. induction l as [|y l IH]; intros x; [reflexivity|].
  cbn [map fold_left]. rewrite C. rewrite IH. reflexivity.
Qed.
(** What holds: within the session that recorded it (no overflow), e.g. one half-life
    after a visit, the score reads as half. *)
Example score_half : get_frecency (S754_finite false 8388608 (-22)) one = S754_finite false 8388608 (-24).
Proof. vm_compute. reflexivity. Qed.

Print Assumptions directories_stay_ordered_and_unique.
Print Assumptions directory_operations_have_their_effect.
Print Assumptions visit_counts_on_that_directory_only.
Print Assumptions truncation_keeps_the_best.
Print Assumptions prefix_search_is_exact.
Print Assumptions proposal_is_the_best_match.
Print Assumptions reload_adds_missing_directories.
Print Assumptions save_writes_every_directory.
Print Assumptions fractional_visit_lost_at_start_refuted.
Print Assumptions whole_second_visits_survive_restart_partial.
Print Assumptions forgotten_directory_stays_forgotten_refuted.
Print Assumptions restart_keeps_directories_unique_refuted.
Print Assumptions loaded_score_is_readable_refuted.
Print Assumptions visited_loaded_directory_is_storable_refuted.
Print Assumptions proposal_after_restart_ignores_visits_refuted.
