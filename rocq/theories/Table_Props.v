(** Tables: C130 - C135. *)
From Verif Require Import Base Frecency_Model Frecency_Proofs Lread_Model Lread_Spec Lread_Proofs Lread_Props Parse_Model Table_Model Table_Spec.
From Coq Require Import ZArith Sorting.Sorted Sorting.Permutation.

(** ** maps with ordered keys *)
Section BTree.
Context {A : Type}.
Notation keys l := (map fst (l : list (str * A))).
Lemma insert_keys (k : str) (a : A) l x : In x (btree_insert k a l) -> x = (k, a) \/ In x l.
Proof.
  induction l as [|[k' a'] l IH]; cbn; [intros [<-|[]]; auto|]. destruct (str_cmp k k') eqn:E; cbn.
  - intros [<-|H]; auto.
  - intros [<-|H]; auto.
  - intros [<-|H]; [auto|]. destruct (IH H) as [->|H']; auto.
Qed.
Lemma insert_new (k : str) (a : A) l : ~ In k (keys l) -> Permutation ((k, a) :: l) (btree_insert k a l).
Proof.
  induction l as [|[k' a'] l IH]; cbn; intros N; [constructor; constructor|]. destruct (str_cmp k k') eqn:E.
  - apply str_cmp_eq in E. subst. exfalso. apply N. left. reflexivity.
  - reflexivity.
  - etransitivity; [apply perm_swap|]. constructor. apply IH. intros H. apply N. right. exact H.
Qed.
Lemma insert_increasing (k : str) (a : A) l : StronglySorted key_lt (keys l) -> StronglySorted key_lt (keys (btree_insert k a l)).
Proof.
  induction l as [|[k' a'] l IH]; cbn; intros H; [constructor; constructor|]. inversion H as [|? ? H1 H2]; subst. destruct (str_cmp k k') eqn:E; cbn.
  - apply str_cmp_eq in E. subst. constructor; assumption.
  - constructor; [exact H|]. constructor; [exact E|]. eapply Forall_impl; [|exact H2]. intros x Hx. exact (str_lt_trans _ _ _ E Hx).
  - constructor; [apply IH, H1|]. apply Forall_forall. intros x Hx. apply in_map_iff in Hx as ([y b] & <- & Hy). apply insert_keys in Hy as [Hy|Hy].
    + injection Hy as -> ->. apply str_cmp_gt. exact E.
    + rewrite Forall_forall in H2. apply H2. apply in_map_iff. exists (y, b). auto.
Qed.
Lemma btree_perm l : NoDup (keys l) -> Permutation l (btree l) /\ StronglySorted key_lt (keys (btree l)).
Proof.
  unfold btree. assert (G : forall l m, NoDup (keys (m ++ l)) -> StronglySorted key_lt (keys m) ->
    Permutation (m ++ l) (fold_left (fun m ka => btree_insert (fst ka) (snd ka) m) l m) /\ StronglySorted key_lt (keys (fold_left (fun m ka => btree_insert (fst ka) (snd ka) m) l m))).
  { clear. induction l as [|[k a] l IH]; intros m N S; cbn [fold_left]; [rewrite app_nil_r; split; [reflexivity|exact S]|]. cbn [fst snd].
    assert (P : Permutation (m ++ (k, a) :: l) (btree_insert k a m ++ l)).
    { etransitivity; [symmetry; apply Permutation_middle|]. change ((k, a) :: m ++ l) with (((k, a) :: m) ++ l). apply Permutation_app_tail. apply insert_new.
      rewrite map_app in N. cbn [map fst] in N. apply NoDup_remove_2 in N. intros H. apply N, in_or_app. left. exact H. }
    destruct (IH (btree_insert k a m)) as [P1 S1].
    - eapply Permutation_NoDup; [apply Permutation_map, P|exact N].
    - apply insert_increasing, S.
    - split; [etransitivity; [exact P|exact P1]|exact S1]. }
  intros N. apply (G l []); [exact N|constructor].
Qed.
Lemma increasing_NoDup (l : list str) : StronglySorted key_lt l -> NoDup l.
Proof.
  intros H. induction H as [|x l H IH F]; constructor; [|exact IH]. intros I. rewrite Forall_forall in F. exact (str_lt_irrefl x (F x I)).
Qed.
Lemma increasing_unique (l l' : list (str * A)) : StronglySorted key_lt (keys l) -> StronglySorted key_lt (keys l') -> Permutation l l' -> l = l'.
Proof.
  revert l'. induction l as [|[k a] l IH]; intros l' S S' P.
  - apply Permutation_nil in P. auto.
  - destruct l' as [|[k' a'] l']; [symmetry in P; apply Permutation_nil in P; discriminate P|].
    cbn in S, S'. inversion S as [|? ? S1 F1]; inversion S' as [|? ? S1' F1']; subst. rewrite Forall_forall in F1, F1'.
    assert (E : (k, a) = (k', a')).
    { assert (I : In (k, a) ((k', a') :: l')) by (eapply Permutation_in; [exact P|left; reflexivity]).
      assert (I' : In (k', a') ((k, a) :: l)) by (eapply Permutation_in; [symmetry; exact P|left; reflexivity]).
      destruct I as [I|I]; [auto|]. destruct I' as [I'|I']; [auto|]. exfalso.
      assert (L : key_lt k' k) by (apply F1'; apply in_map_iff; exists (k, a); auto).
      assert (L' : key_lt k k') by (apply F1; apply in_map_iff; exists (k', a'); auto).
      exact (str_lt_irrefl k (str_lt_trans _ _ _ L' L)). }
    injection E as <- <-. f_equal. apply IH; [exact S1|exact S1'|]. eapply Permutation_cons_inv. exact P.
Qed.
Lemma btree_of_sorted l l' : StronglySorted key_lt (keys l) -> Permutation l l' -> btree l' = l.
Proof.
  intros S P. assert (N : NoDup (keys l')) by (eapply Permutation_NoDup; [apply Permutation_map, P|apply increasing_NoDup, S]).
  destruct (btree_perm l' N) as [Q S']. symmetry. apply increasing_unique; [exact S|exact S'|]. etransitivity; eassumption.
Qed.
End BTree.
Arguments btree_of_sorted {A} _ _ _ _.

Section Records.
Variable F : Type.
Notation record := (record F).
Notation get := (get F).
Notation set := (set F).
Lemma set_new (r : record) k v : ~ In k (map fst r) -> set r k v = r ++ [(k, v)].
Proof.
  induction r as [|[k' v'] r IH]; cbn; intros N; [reflexivity|]. destruct (str_eqb_spec k' k) as [->|]; [exfalso; apply N; left; reflexivity|].
  f_equal. apply IH. intros H. apply N. right. exact H.
Qed.
Lemma set_all_distinct (l : list (str * value F)) : NoDup (map fst l) -> set_all F l = l.
Proof.
  unfold set_all. assert (G : forall (l : list (str * value F)) m, NoDup (map fst (m ++ l)) -> fold_left (fun r kv => set r (fst kv) (snd kv)) l m = m ++ l).
  { clear. induction l as [|[k v] l IH]; intros m N; cbn [fold_left]; [rewrite app_nil_r; reflexivity|]. cbn [fst snd]. rewrite set_new.
    - rewrite IH; rewrite <- app_assoc; [reflexivity|exact N].
    - rewrite map_app in N. cbn [map fst] in N. apply NoDup_remove_2 in N. intros H. apply N, in_or_app. left. exact H. }
  intros N. apply (G l []). exact N.
Qed.
Lemma get_in r k v : get r k = Some v -> In (k, v) r.
Proof. induction r as [|[k' v'] r IH]; cbn; [discriminate|]. destruct (str_eqb_spec k' k) as [->|]; [intros H; injection H as ->; auto|auto]. Qed.
Lemma get_iff r k v : get r k = Some v <-> cell_is F r k v.
Proof.
  induction r as [|[k' v'] r IH]; cbn.
  - split; [discriminate|]. intros (a & b & E & _). destruct a; discriminate E.
  - destruct (str_eqb_spec k' k) as [->|Nk].
    + split.
      * intros H. injection H as ->. exists [], r. split; [reflexivity|intros []].
      * intros (a & b & E & N). destruct a as [|[x y] a]; cbn in E; [injection E as -> _; reflexivity|]. injection E as <- _ _. exfalso. apply N. left. reflexivity.
    + rewrite IH. split; intros (a & b & E & N).
      * exists ((k', v') :: a), b. split; [cbn; f_equal; exact E|]. intros [H|H]; [exact (Nk H)|exact (N H)].
      * destruct a as [|[x y] a]; cbn in E; [injection E as E _ _; exfalso; exact (Nk E)|]. injection E as <- <- E. exists a, b. split; [exact E|]. intros H. apply N. right. exact H.
Qed.
End Records.

(** ** C130: JSON read and written again *)
Section Json.
Variable F : Type.
Variable of_big : N -> F.
Variable walk : list (str * json F) -> list (str * json F).
Notation json := (json F).
Notation to_value := (json_to_value F of_big).
Notation of_value := (value_to_json F walk).
Notation from_json := (from_json F of_big).
Notation to_json := (to_json F walk).

Lemma value_back (Hw : forall l, Permutation l (walk l)) : forall j, sound F j -> of_value (to_value j) = j.
Proof.
  fix IH 1. intros j. destruct j as [|b|z|n|f|s|l|l]; intros H; try reflexivity.
  - destruct b; reflexivity.
  - inversion H.
  - inversion H as [| | | | |? Hn Hl|]; subst. clear H.
    assert (E : map of_value (map to_value l) = l).
    { clear Hn. revert Hl. induction l as [|a l IHl]; intros Hl; [reflexivity|]. cbn [map]. inversion Hl; subst. f_equal; [apply IH; assumption|apply IHl; assumption]. }
    clear IH. destruct l as [|a l]; [congruence|]. cbn [json_to_value map] in *. cbn [value_to_json]. f_equal. exact E.
  - inversion H as [| | | | | |? Hn Hl]; subst. clear H.
    assert (E : map (fun ka => (fst ka, of_value (snd ka))) (map (fun ka => (fst ka, to_value (snd ka))) l) = l).
    { clear Hn. revert Hl. induction l as [|[k a] l IHl]; intros Hl; [reflexivity|]. cbn [map fst snd]. inversion Hl; subst. f_equal; [f_equal; apply IH; assumption|apply IHl; assumption]. }
    clear IH. cbn [json_to_value value_to_json]. f_equal. rewrite E. apply btree_of_sorted; [exact Hn|apply Hw].
Qed.

Lemma row_back (Hw : forall l, Permutation l (walk l)) (l : list (str * json)) : sound F (JObject F l) ->
  btree (map (fun kv => (fst kv, of_value (snd kv))) (set_all F (map (fun ka => (fst ka, to_value (snd ka))) l))) = l.
Proof.
  intros H. inversion H as [| | | | | |? Hn Hl]; subst. rewrite set_all_distinct.
  - rewrite map_map. cbn [fst snd]. replace (map (fun x => (fst x, of_value (to_value (snd x)))) l) with l.
    + apply btree_of_sorted; [exact Hn|reflexivity].
    + clear Hn H. induction l as [|[k a] l IH]; [reflexivity|]. cbn [map fst snd]. inversion Hl; subst. f_equal; [f_equal; symmetry; apply value_back; assumption|apply IH; assumption].
  - rewrite map_map. cbn [fst]. apply increasing_NoDup, Hn.
Qed.

Theorem C130_json_round_trip_partial (objs : list json) :
  (forall l, Permutation l (walk l)) -> Forall (object F) objs -> Forall (sound F) objs ->
  to_json (from_json (JArray F objs)) = JArray F objs.
Proof.
  intros Hw Ho Hs. destruct objs as [|o objs]; [reflexivity|]. unfold Table_Model.from_json.
  assert (A : forallb (is_object F) (o :: objs) = true).
  { apply forallb_forall. intros j Hj. rewrite Forall_forall in Ho. destruct (Ho j Hj) as [l ->]. reflexivity. }
  rewrite A. unfold from_json_objects, Table_Model.to_json. cbn [rows]. f_equal.
  clear A. revert Ho Hs. generalize (o :: objs). intros l Ho Hs. induction l as [|j l IH]; [reflexivity|]. inversion Ho as [|? ? [m ->] Ho']; inversion Hs as [|? ? Hm Hs']; subst.
  cbn [filter is_object map entries]. f_equal; [|apply IH; assumption]. f_equal. apply row_back; assumption.
Qed.

(** what is not given back *)
Theorem C130_empty_array_becomes_null_refuted (k : str) : to_json (from_json (JArray F [JObject F [(k, JArray F [])]])) = JArray F [JObject F [(k, JNull F)]].
Proof. reflexivity. Qed.
Theorem C130_large_number_becomes_float_refuted (k : str) (n : N) : to_json (from_json (JArray F [JObject F [(k, JBig F n)]])) = JArray F [JObject F [(k, JFloat F (of_big n))]].
Proof. reflexivity. Qed.
Theorem C130_single_object_becomes_array_refuted (l : list (str * json)) :
  (forall l, Permutation l (walk l)) -> sound F (JObject F l) -> to_json (from_json (JObject F l)) = JArray F [JObject F l].
Proof. intros Hw H. unfold Table_Model.from_json, from_json_objects, Table_Model.to_json. cbn [filter is_object rows map entries]. f_equal. f_equal. f_equal. apply row_back; assumption. Qed.
Theorem C130_other_arrays_become_objects_refuted (l : list json) :
  (forall l, Permutation l (walk l)) -> Forall (sound F) l -> Exists (fun j => ~ object F j) l ->
  to_json (from_json (JArray F l)) = JArray F (map (fun j => JObject F [(lit "value", j)]) l).
Proof.
  intros Hw Hs He. unfold Table_Model.from_json. destruct l as [|a l]; [inversion He|]. assert (A : forallb (is_object F) (a :: l) = false).
  { destruct (forallb (is_object F) (a :: l)) eqn:E; [|reflexivity]. exfalso. rewrite forallb_forall in E. apply Exists_exists in He as (j & Hj & Hn). specialize (E j Hj).
    apply Hn. destruct j; try discriminate E. eexists. reflexivity. }
  rewrite A. unfold Table_Model.to_json. cbn [rows]. f_equal. rewrite map_map. apply map_ext_in. intros j Hj. unfold cell. cbn [set map fst snd].
  rewrite value_back; [reflexivity|exact Hw|]. rewrite Forall_forall in Hs. apply Hs, Hj.
Qed.
End Json.
Print Assumptions C130_json_round_trip_partial.
Print Assumptions C130_empty_array_becomes_null_refuted.
Print Assumptions C130_large_number_becomes_float_refuted.
Print Assumptions C130_single_object_becomes_array_refuted.
Print Assumptions C130_other_arrays_become_objects_refuted.

Example C130_case : let j := JArray unit [JObject unit [(lit "name", JString unit (lit "x")); (lit "size", JInt unit 3)]; JObject unit [(lit "inner", JObject unit [(lit "a", JArray unit [JNull unit])])]] in
  to_json unit (@rev _) (from_json unit (fun _ => tt) j) = j.
Proof.
  cbn zeta. apply C130_json_round_trip_partial.
  - intros l. apply Permutation_rev.
  - repeat (apply Forall_cons; [eexists; reflexivity|]). apply Forall_nil.
  - apply Forall_cons; [|apply Forall_cons; [|apply Forall_nil]].
    + apply s_object; [repeat constructor|]. apply Forall_cons; [constructor|]. apply Forall_cons; [constructor|]. apply Forall_nil.
    + apply s_object; [repeat constructor|]. apply Forall_cons; [|apply Forall_nil]. apply s_object; [repeat constructor|]. apply Forall_cons; [|apply Forall_nil].
      apply s_array; [discriminate|]. apply Forall_cons; [constructor|apply Forall_nil].
Qed.

(** ** C131: ordering *)
Lemma sorted_snoc {A} (R : A -> A -> Prop) m x : StronglySorted R m -> Forall (fun y => R y x) m -> StronglySorted R (m ++ [x]).
Proof.
  intros S. induction S as [|a m S IH H]; intros G; [constructor; constructor|]. inversion G; subst. cbn. constructor; [apply IH; assumption|].
  apply Forall_app. split; [exact H|]. constructor; [assumption|constructor].
Qed.
Lemma sorted_rev {A} (R : A -> A -> Prop) l : StronglySorted R l -> StronglySorted (fun a b => R b a) (rev l).
Proof. intros S. induction S as [|a m S IH H]; [constructor|]. cbn [rev]. apply sorted_snoc; [exact IH|]. apply Forall_rev. exact H. Qed.
Section Sort.
Context {A : Type}.
Variable cmp : A -> A -> comparison.
Variable D : A -> Prop.
Hypothesis anti : forall x y, D x -> D y -> cmp y x = CompOpp (cmp x y).
Hypothesis trans : forall x y z, D x -> D y -> D z -> cmp x y <> Gt -> cmp y z <> Gt -> cmp x z <> Gt.
(** the last first *)
Notation down := (StronglySorted (fun a b => cmp b a <> Gt)).
Lemma ins_perm x l : Permutation (x :: l) (insert_from_right cmp x l).
Proof using Type.
  induction l as [|y l IH]; cbn; [reflexivity|]. destruct (cmp x y); [reflexivity| |reflexivity]. etransitivity; [apply perm_swap|]. constructor. exact IH.
Qed.
Lemma ins_down x l : D x -> Forall D l -> down l -> down (insert_from_right cmp x l).
Proof using anti trans.
  intros Dx Dl S. induction l as [|y l IH]; cbn; [constructor; constructor|].
  inversion S as [|? ? S1 F1]; inversion Dl as [|? ? Dy Dl']; subst.
  assert (K : cmp y x <> Gt -> down (x :: y :: l)).
  { intros L. constructor; [exact S|]. constructor; [exact L|]. apply Forall_forall. intros z Hz. rewrite Forall_forall in F1, Dl'. apply (trans z y x); auto. }
  destruct (cmp x y) eqn:E.
  - apply K. rewrite anti, E by assumption. discriminate.
  - constructor; [apply IH; assumption|]. eapply Permutation_Forall; [apply ins_perm|]. constructor; [rewrite E; discriminate|exact F1].
  - apply K. rewrite anti, E by assumption. discriminate.
Qed.
Lemma ins_filter p x l : (forall x y, D x -> D y -> p x = true -> p y = true -> cmp x y = Eq) -> D x -> Forall D l ->
  filter p (insert_from_right cmp x l) = filter p (x :: l).
Proof using Type.
  intros Hp Dx Dl. induction l as [|y l IH]; [reflexivity|]. cbn [insert_from_right]. inversion Dl as [|? ? Dy Dl']; subst. destruct (cmp x y) eqn:E; [reflexivity| |reflexivity].
  cbn [filter]. rewrite IH by assumption. cbn [filter]. destruct (p x) eqn:Px; [|reflexivity]. destruct (p y) eqn:Py; [|reflexivity].
  rewrite (Hp x y) in E by assumption. discriminate E.
Qed.
Lemma sort_all l : Forall D l ->
  Permutation l (sort_by cmp l) /\ StronglySorted (fun a b => cmp a b <> Gt) (sort_by cmp l) /\
  forall p, (forall x y, D x -> D y -> p x = true -> p y = true -> cmp x y = Eq) -> filter p (sort_by cmp l) = filter p l.
Proof using anti trans.
  unfold sort_by. assert (G : forall l acc, Forall D acc -> Forall D l -> down acc ->
    let r := fold_left (fun acc x => insert_from_right cmp x acc) l acc in Permutation (rev acc ++ l) (rev r) /\ down r /\
    forall p, (forall x y, D x -> D y -> p x = true -> p y = true -> cmp x y = Eq) -> filter p (rev r) = filter p (rev acc ++ l)).
  { clear l. induction l as [|x l IH]; intros acc Da Dl S; cbn [fold_left]; cbn zeta.
    - rewrite app_nil_r. split; [reflexivity|]. split; [exact S|reflexivity].
    - inversion Dl as [|? ? Dx Dl']; subst. destruct (IH (insert_from_right cmp x acc)) as (P & S' & K).
      + eapply Permutation_Forall; [apply ins_perm|]. constructor; assumption.
      + exact Dl'.
      + apply ins_down; assumption.
      + cbn zeta in P. split; [|split; [exact S'|]].
        * etransitivity; [|exact P]. change (x :: l) with ([x] ++ l). rewrite app_assoc. apply Permutation_app_tail.
          etransitivity; [|apply Permutation_rev]. etransitivity; [|apply ins_perm]. etransitivity; [apply Permutation_app_comm|]. cbn. constructor. symmetry. apply Permutation_rev.
        * intros p Hp. rewrite (K p Hp). rewrite !filter_app. cbn [filter].
          assert (R : forall l : list A, filter p (rev l) = rev (filter p l)).
          { clear. induction l as [|a l IH]; [reflexivity|]. cbn [rev filter]. rewrite filter_app, IH. cbn [filter]. destruct (p a); [reflexivity|rewrite app_nil_r; reflexivity]. }
          rewrite !R, (ins_filter p x acc Hp Dx Da). cbn [filter]. destruct (p x); cbn [rev]; [rewrite <- app_assoc|]; reflexivity. }
  intros Dl. destruct (G l [] (Forall_nil _) Dl (SSorted_nil _)) as (P & S & K). cbn zeta in *. cbn [rev app] in *. split; [exact P|]. split; [|exact K].
  apply (sorted_rev (fun a b => cmp b a <> Gt)). exact S.
Qed.
End Sort.

Section Order.
Variable F : Type.
Variable fcmp : F -> F -> option comparison.
Notation get := (get F).
Notation cell_cmp := (cell_cmp F fcmp).
Notation cell_le := (cell_le F fcmp).

(** cells of one kind *)
Definition fine (ok : F -> Prop) (k : nat) (c : option (value F)) : Prop :=
  match c with
  | None => True
  | Some (VInt _ _) => k = 0
  | Some (VString _ _) => k = 1
  | Some (VFloat _ f) => k = 2 /\ ok f
  | _ => False
  end.
Lemma str_le_trans (x y z : str) : str_cmp x y <> Gt -> str_cmp y z <> Gt -> str_cmp x z <> Gt.
Proof.
  intros H1 H2. destruct (str_cmp x y) eqn:E1; [apply str_cmp_eq in E1; subst; exact H2| |congruence].
  destruct (str_cmp y z) eqn:E2; [apply str_cmp_eq in E2; subst; rewrite E1; discriminate| |congruence].
  rewrite (str_lt_trans _ _ _ E1 E2). discriminate.
Qed.
Lemma cell_anti ok (H : float_order F fcmp ok) k a b : fine ok k a -> fine ok k b -> cell_cmp b a = CompOpp (cell_cmp a b).
Proof.
  destruct a as [[ | |x|x|x|x|x]|], b as [[ | |y|y|y|y|y]|]; cbn; intros Ha Hb; try contradiction; try reflexivity; try lia.
  - apply Z.compare_antisym.
  - destruct H as [H _]. destruct (H x y) as (c & E & E'); [tauto|tauto|]. rewrite E, E'. reflexivity.
  - apply str_cmp_sym.
Qed.
Lemma cell_trans ok (H : float_order F fcmp ok) k a b c : fine ok k a -> fine ok k b -> fine ok k c -> cell_cmp a b <> Gt -> cell_cmp b c <> Gt -> cell_cmp a c <> Gt.
Proof.
  destruct a as [[ | |x|x|x|x|x]|], b as [[ | |y|y|y|y|y]|], c as [[ | |z|z|z|z|z]|]; cbn; intros Ha Hb Hc; try contradiction; try lia; try congruence; try tauto.
  - intros H1 H2. apply (proj1 (Z.compare_le_iff _ _)) in H1, H2. apply Z.compare_le_iff. lia.
  - destruct H as [_ H]. intros H1 H2 H3. specialize (H x y z). destruct (fcmp x z) as [[]|] eqn:E; try discriminate H3. apply H; try tauto; intros G; [apply H1; rewrite G; reflexivity|apply H2; rewrite G; reflexivity].
  - apply str_le_trans.
Qed.
Lemma cell_le_iff ok (H : float_order F fcmp ok) k a b : fine ok k a -> fine ok k b -> cell_cmp a b <> Gt <-> cell_le a b.
Proof.
  intros Ha Hb. split.
  - destruct a as [[ | |x|x|x|x|x]|], b as [[ | |y|y|y|y|y]|]; cbn in *; intros L; try contradiction; try congruence; try (constructor; fail).
    + constructor. apply (proj1 (Z.compare_le_iff _ _)). exact L.
    + exfalso. lia.
    + exfalso. lia.
    + constructor. destruct H as [H _]. destruct (H x y) as (c & E & _); [tauto|tauto|]. rewrite E in *. destruct c; auto; contradiction.
    + exfalso. lia.
    + exfalso. lia.
    + constructor. exact L.
  - intros L. destruct L as [x y L|x y L|x y L|x]; cbn.
    + apply Z.compare_le_iff. exact L.
    + exact L.
    + destruct L as [->| ->]; discriminate.
    + destruct x as [[]|]; discriminate.
Qed.

Theorem C131_order_by_partial (ok : F -> Prop) (t : table F) (c : str) (ascending : bool) :
  float_order F fcmp ok -> one_kind F ok c (rows F t) ->
  let out := order_by F fcmp t c ascending in
  columns F out = columns F t /\ Permutation (rows F t) (rows F out) /\
  StronglySorted (fun a b => if ascending then cell_le (get a c) (get b c) else cell_le (get b c) (get a c)) (rows F out) /\
  (** rows with equal cells keep their order *)
  (forall p, (forall a b, In a (rows F t) -> In b (rows F t) -> p a = true -> p b = true -> cell_le (get a c) (get b c) /\ cell_le (get b c) (get a c)) ->
    filter p (rows F out) = filter p (rows F t)).
Proof.
  intros Hf Hk. cbn zeta.
  assert (K : exists k, forall r, In r (rows F t) -> fine ok k (get r c)).
  { destruct Hk as [Hk|[Hk|Hk]]; [exists 0|exists 1|exists 2]; intros r Hr; destruct (get r c) as [v|] eqn:E; cbn; auto.
    - destruct (Hk r v Hr E) as [z ->]. reflexivity.
    - destruct (Hk r v Hr E) as [z ->]. reflexivity.
    - destruct (Hk r v Hr E) as (f & -> & H). auto. }
  destruct K as [k K]. unfold order_by. cbn [columns rows]. split; [reflexivity|].
  destruct (sort_all (row_cmp F fcmp c ascending) (fun r => In r (rows F t))) with (l := rows F t) as (P & S & Q).
  - intros x y Hx Hy. unfold row_cmp. pose proof (cell_anti ok Hf k (get x c) (get y c) (K _ Hx) (K _ Hy)) as E. destruct ascending; rewrite E; [reflexivity|]. destruct (cell_cmp (get x c) (get y c)); reflexivity.
  - intros x y z Hx Hy Hz. unfold row_cmp. destruct ascending; [apply (cell_trans ok Hf k); auto|].
    rewrite <- !(cell_anti ok Hf k) by auto. intros H1 H2. apply (cell_trans ok Hf k _ (get y c)); auto.
  - apply Forall_forall. auto.
  - split; [exact P|]. split.
    + assert (I : forall r, In r (sort_by (row_cmp F fcmp c ascending) (rows F t)) -> In r (rows F t)) by (intros r Hr; eapply Permutation_in; [symmetry; exact P|exact Hr]).
      revert S I. generalize (sort_by (row_cmp F fcmp c ascending) (rows F t)). intros l S I. induction S as [|x l S IH H]; [constructor|].
      constructor; [apply IH; intros r Hr; apply I; right; exact Hr|]. apply Forall_forall. intros y Hy. rewrite Forall_forall in H. specialize (H y Hy). unfold row_cmp in H.
      assert (Hx : In x (rows F t)) by (apply I; left; reflexivity). assert (Hy' : In y (rows F t)) by (apply I; right; exact Hy).
      destruct ascending; [apply (cell_le_iff ok Hf k); auto|]. rewrite <- (cell_anti ok Hf k) in H by auto. apply (cell_le_iff ok Hf k); auto.
    + intros p Hp. apply Q. intros x y Hx Hy Px Py. destruct (Hp x y Hx Hy Px Py) as [L1 L2]. apply (cell_le_iff ok Hf k) in L1; auto. apply (cell_le_iff ok Hf k) in L2; auto.
      pose proof (cell_anti ok Hf k (get x c) (get y c) (K _ Hx) (K _ Hy)) as E. unfold row_cmp. rewrite E in L2. destruct (cell_cmp (get x c) (get y c)); cbn in *; try congruence. destruct ascending; reflexivity.
Qed.

(** numbers of both kinds, or a number and a text, in one column: the larger number stays first *)
Theorem C131_mixed_column_refuted (c : str) (a b : Z) (v : value F) (cols : list str) :
  (b < a)%Z -> (forall z, v <> VInt F z) ->
  let t := Table F cols [[(c, VInt F a)]; [(c, v)]; [(c, VInt F b)]] in rows F (order_by F fcmp t c true) = rows F t.
Proof.
  intros L Hv. cbn zeta. unfold order_by. cbn [rows]. unfold sort_by. cbn [fold_left insert_from_right]. unfold row_cmp. cbn [Table_Model.get]. rewrite str_eqb_refl.
  assert (E1 : cell_cmp (Some v) (Some (VInt F a)) = Eq) by (destruct v as [ | |z| | | |]; try reflexivity; exfalso; exact (Hv z eq_refl)).
  assert (E2 : cell_cmp (Some (VInt F b)) (Some v) = Eq) by (destruct v as [ | |z| | | |]; try reflexivity; exfalso; exact (Hv z eq_refl)).
  rewrite E1. cbn [insert_from_right]. cbn [Table_Model.get]. rewrite str_eqb_refl. rewrite E2. reflexivity.
Qed.
End Order.
Print Assumptions C131_order_by_partial.
Print Assumptions C131_mixed_column_refuted.

Example C131_case : float_order Z (fun x y => Some (x ?= y)%Z) (fun _ => True) /\
  let r n s := [(lit "n", VInt Z n); (lit "s", VString Z (lit s))] in let t := Table Z [lit "n"; lit "s"] [r 3%Z "x"; [(lit "s", VString Z (lit "none"))]; r 1%Z "y"; r 3%Z "z"] in
  one_kind Z (fun _ => True) (lit "n") (rows Z t) /\
  rows Z (order_by Z (fun x y => Some (x ?= y)%Z) t (lit "n") true) = [r 1%Z "y"; r 3%Z "x"; r 3%Z "z"; [(lit "s", VString Z (lit "none"))]].
Proof.
  split; [split|].
  - intros x y _ _. exists (x ?= y)%Z. split; [reflexivity|]. f_equal. apply Z.compare_antisym.
  - intros x y z _ _ _ H1 H2 H3. injection H3 as H3. apply Z.compare_gt_iff in H3. assert (x <= y)%Z by (apply Z.compare_le_iff; congruence). assert (y <= z)%Z by (apply Z.compare_le_iff; congruence). lia.
  - cbn zeta. split; [|vm_compute; reflexivity]. left. intros r v Hr E. cbn in Hr.
    repeat (destruct Hr as [Hr|Hr]; [subst r; vm_compute in E; try discriminate E; injection E as <-; eexists; reflexivity|]). destruct Hr.
Qed.

(** ** C132: CSV read and written again *)
Section Csv.
Variable F : Type.
Variable float_of : str -> option F.
Variable show_float : F -> str.
Variable show : value F -> str.
Notation csv_value := (csv_value F float_of).
Notation csv_text := (csv_text F show_float show).
Notation from_csv := (from_csv F float_of).
Notation to_csv := (to_csv F show_float show).

Lemma int_of_show z : i64 z -> int_of (show_int z) = Some z.
Proof.
  intros Hz. unfold int_of, show_int. destruct (z <? 0)%Z eqn:E.
  - apply Z.ltb_lt in E. change ((chr "-" =? chr "+")%N) with false. cbv iota. rewrite (parse_i64_neg (fun _ => false) _ _ (show_nat_Dec (Z.abs_N z))); [f_equal; lia|]. replace (- Z.of_N (Z.abs_N z))%Z with z by lia. exact Hz.
  - apply Z.ltb_ge in E. pose proof (show_nat_Dec (Z.abs_N z)) as D. assert (P : parse_i64 (show_nat (Z.abs_N z)) = Some z).
    { rewrite (parse_i64_nat (fun _ => false) _ _ D); [f_equal; lia|]. replace (Z.of_N (Z.abs_N z)) with z by lia. exact Hz. }
    apply Dec_digits in D as (A & B & _). destruct (show_nat (Z.abs_N z)) as [|c r]; [congruence|]. inversion B as [|? ? Hc _]; subst.
    assert (K : (c =? chr "+")%N = false) by (apply N.eqb_neq; intros ->; discriminate Hc). rewrite K. exact P.
Qed.
(** fields that are no numbers, or numbers written the way they are shown *)
Definition faithful (f : str) : Prop :=
  (exists z, i64 z /\ f = show_int z) \/ (int_of f = None /\ exists x, float_of f = Some x /\ f = show_float x) \/ (int_of f = None /\ float_of f = None).
Lemma field_back f : faithful f -> csv_text (csv_value f) = f.
Proof.
  unfold Table_Model.csv_value. intros [(z & Hz & ->)|[(E & x & E' & K)|[E E']]].
  - rewrite (int_of_show z Hz). reflexivity.
  - rewrite E, E'. cbn. symmetry. exact K.
  - rewrite E, E'. reflexivity.
Qed.
Lemma get_combine (h : list str) : forall (rec : list str) m, NoDup h -> length rec = length h -> (forall c, In c h -> ~ In c (map fst m)) ->
  map (fun c => match get F (m ++ map (fun hf => (fst hf, csv_value (snd hf))) (combine h rec)) c with Some v => csv_text v | None => [] end) h = map (fun f => csv_text (csv_value f)) rec.
Proof.
  induction h as [|c h IH]; intros rec m N L D; destruct rec as [|f rec]; cbn in L; try lia; [reflexivity|].
  inversion N as [|? ? Nc Nh]; subst. cbn [combine map fst snd]. f_equal.
  - replace (get F (m ++ (c, csv_value f) :: map (fun hf => (fst hf, csv_value (snd hf))) (combine h rec)) c) with (Some (csv_value f)); [reflexivity|].
    symmetry. apply get_iff. exists m, (map (fun hf => (fst hf, csv_value (snd hf))) (combine h rec)). split; [reflexivity|]. apply D. left. reflexivity.
  - specialize (IH rec (m ++ [(c, csv_value f)]) Nh). rewrite <- app_assoc in IH. cbn [app] in IH. apply IH; [lia|].
    intros d Hd. rewrite map_app. cbn. intros H. apply in_app_iff in H as [H|[->|[]]]; [exact (D d (or_intror Hd) H)|exact (Nc Hd)].
Qed.
Lemma keys_combine (h rec : list str) : length rec = length h -> map fst (map (fun hf : str * str => (fst hf, csv_value (snd hf))) (combine h rec)) = h.
Proof. revert rec. induction h as [|c h IH]; intros [|f rec] L; cbn in *; try lia; [reflexivity|]. f_equal. apply IH. lia. Qed.

Theorem C132_csv_round_trip_partial (header : list str) (records : list (list str)) :
  NoDup header -> Forall (fun rec => length rec = length header) records -> Forall (Forall faithful) records ->
  to_csv (from_csv header records) = (header, records).
Proof.
  intros N L Hf. unfold Table_Model.to_csv, Table_Model.from_csv. cbn [columns rows]. f_equal. rewrite map_map. induction records as [|rec records IH]; [reflexivity|].
  inversion L as [|? ? L1 L2]; inversion Hf as [|? ? F1 F2]; subst. cbn [map]. f_equal; [|apply IH; assumption].
  rewrite set_all_distinct by (rewrite keys_combine by exact L1; exact N).
  etransitivity; [exact (get_combine header rec [] N L1 (fun _ _ H => H))|]. clear -F1. induction F1 as [|f l Hf Fl IH]; [reflexivity|]. cbn [map]. f_equal; [apply field_back, Hf|exact IH].
Qed.

(** numbers written otherwise: 007 is read as 7 and +7 as 7 *)
Theorem C132_leading_zero_refuted (s : str) : all_digits s = true -> int_of s <> None -> csv_value (chr "0" :: s) = csv_value s.
Proof.
  intros D P. unfold Table_Model.csv_value. replace (int_of (chr "0" :: s)) with (int_of s); [destruct (int_of s); [reflexivity|congruence]|].
  destruct s as [|c r]; [discriminate D|]. assert (Hc : Numerals.is_digit c = true) by (unfold all_digits in D; cbn [forallb] in D; destruct (Numerals.is_digit c); [reflexivity|discriminate D]).
  assert (K1 : (c =? chr "+")%N = false) by (apply N.eqb_neq; intros ->; discriminate Hc). assert (K2 : (c =? chr "-")%N = false) by (apply N.eqb_neq; intros ->; discriminate Hc).
  assert (D0 : all_digits (chr "0" :: c :: r) = true).
  { unfold all_digits in *. cbn [forallb] in *. change (Numerals.is_digit (chr "0")) with true. cbn [andb]. exact D. }
  unfold int_of. change ((chr "0" =? chr "+")%N) with false. cbv iota. rewrite K1. unfold parse_i64. change ((chr "0" =? chr "-")%N) with false. cbv iota. rewrite K2, D, D0. reflexivity.
Qed.
Theorem C132_plus_sign_refuted (s : str) : all_digits s = true -> int_of s <> None -> csv_value (chr "+" :: s) = csv_value s.
Proof.
  intros D P. unfold Table_Model.csv_value. replace (int_of (chr "+" :: s)) with (int_of s); [destruct (int_of s); [reflexivity|congruence]|]. destruct s as [|c r]; [discriminate D|].
  assert (Hc : Numerals.is_digit c = true) by (unfold all_digits in D; cbn [forallb] in D; destruct (Numerals.is_digit c); [reflexivity|discriminate D]).
  assert (K1 : (c =? chr "+")%N = false) by (apply N.eqb_neq; intros ->; discriminate Hc).
  cbn [int_of]. rewrite N.eqb_refl, D, K1. reflexivity.
Qed.
(** two columns of one name: both show what stands in the last *)
Theorem C132_same_name_twice_refuted (h a b : str) :
  to_csv (from_csv [h; h] [[a; b]]) = ([h; h], [[csv_text (csv_value b); csv_text (csv_value b)]]).
Proof.
  unfold Table_Model.to_csv, Table_Model.from_csv. cbn [columns rows map combine fst snd]. unfold set_all. cbn [fold_left fst snd set]. rewrite str_eqb_refl. cbn [get]. rewrite str_eqb_refl. reflexivity.
Qed.
End Csv.
Print Assumptions C132_csv_round_trip_partial.
Print Assumptions C132_leading_zero_refuted.
Print Assumptions C132_plus_sign_refuted.
Print Assumptions C132_same_name_twice_refuted.

Example C132_case :
  faithful unit (fun _ => None) (fun _ => []) (lit "-12") /\ faithful unit (fun _ => None) (fun _ => []) (lit "x y") /\
  to_csv unit (fun _ => []) (fun _ => []) (from_csv unit (fun _ => None) [lit "id"] [[lit "007"]]) = ([lit "id"], [[lit "7"]]) /\
  to_csv unit (fun _ => []) (fun _ => []) (from_csv unit (fun _ => None) [lit "a"; lit "b"] [[lit "-12"; lit "x y"]]) = ([lit "a"; lit "b"], [[lit "-12"; lit "x y"]]).
Proof.
  split; [left; exists (-12)%Z; split; [unfold i64; lia|vm_compute; reflexivity]|]. split; [right; right; split; vm_compute; reflexivity|]. split; vm_compute; reflexivity.
Qed.

(** ** C133: choosing rows and columns *)
Section Choose.
Variable F : Type.
Variable feq : F -> F -> bool.
Notation cell_is := (cell_is F).
Lemma kept_filter {A} (p : A -> bool) (P : A -> Prop) l : (forall x, In x l -> p x = true <-> P x) -> kept P l (filter p l).
Proof.
  induction l as [|x l IH]; intros H; [constructor|]. cbn [filter]. destruct (p x) eqn:E.
  - constructor; [apply H; [left; reflexivity|exact E]|]. apply IH. intros y Hy. apply H. right. exact Hy.
  - constructor; [intros Hx; apply H in Hx; [congruence|left; reflexivity]|]. apply IH. intros y Hy. apply H. right. exact Hy.
Qed.
Lemma get_cases r c : (exists v, get F r c = Some v /\ cell_is r c v) \/ (get F r c = None /\ forall v, ~ cell_is r c v).
Proof.
  destruct (get F r c) as [v|] eqn:E; [left; exists v; split; [reflexivity|apply get_iff, E]|right; split; [reflexivity|]].
  intros v Hv. apply get_iff in Hv. congruence.
Qed.
Lemma cell_unique r c v w : cell_is r c v -> cell_is r c w -> v = w.
Proof. rewrite <- !get_iff. congruence. Qed.

(** numbers and texts: the rows whose cell is the value asked for *)
Theorem C133_where_eq_partial (t : table F) (c : str) (v : value F) :
  (exists z, v = VInt F z) \/ (exists s, v = VString F s) \/ v = VTrue F \/ v = VFalse F \/ v = VList F [] ->
  let out := where_eq F feq t c v in columns F out = columns F t /\ kept (fun r => cell_is r c v) (rows F t) (rows F out).
Proof.
  intros Hv. cbn zeta. split; [reflexivity|]. unfold where_eq. cbn [rows]. apply kept_filter. intros r _.
  assert (E : forall x, value_eqb F feq x v = true <-> x = v).
  { intros x. destruct Hv as [[z ->]|[[s ->]|[->|[->| ->]]]]; destruct x as [ | | | | |[|]|]; cbn; try (split; [discriminate|congruence]); try tauto.
    - rewrite Z.eqb_eq. split; congruence.
    - rewrite str_eqb_eq. split; congruence. }
  destruct (get_cases r c) as [(x & -> & Hx)|[-> N]].
  - rewrite E. split; [intros ->; exact Hx|intros H; exact (cell_unique _ _ _ _ Hx H)].
  - split; [discriminate|intros H; exfalso; exact (N v H)].
Qed.
(** a map is never found, not even one written the same *)
Theorem C133_where_eq_map_refuted (t : table F) (c : str) (l : list (str * value F)) : rows F (where_eq F feq t c (VMap F l)) = [].
Proof.
  unfold where_eq. cbn [rows]. induction (rows F t) as [|r rs IH]; [reflexivity|]. cbn [filter]. destruct (get F r c) as [x|]; [|exact IH]. destruct x as [ | | | | |[|? ?]|]; exact IH.
Qed.

Theorem C133_where_contains (t : table F) (c sub : str) :
  let out := where_contains F t c sub in columns F out = columns F t /\
  kept (fun r => exists a b, cell_is r c (VString F (a ++ sub ++ b))) (rows F t) (rows F out).
Proof.
  cbn zeta. split; [reflexivity|]. unfold where_contains. cbn [rows]. apply kept_filter. intros r _. destruct (get_cases r c) as [(x & -> & Hx)|[-> N]].
  - split.
    + destruct x as [ | | | |s| |]; intros H; try discriminate H. apply contains_iff in H as (a & b & ->). exists a, b. exact Hx.
    + intros (a & b & H). pose proof (cell_unique _ _ _ _ Hx H) as ->. apply contains_iff. exists a, b. reflexivity.
  - split; [discriminate|]. intros (a & b & H). exfalso. exact (N _ H).
Qed.

(** the comparisons a user can write *)
Inductive holds : str -> Z -> Z -> Prop :=
| h_gt n v : (n > v)%Z -> holds (lit ">") n v
| h_lt n v : (n < v)%Z -> holds (lit "<") n v
| h_ge n v : (n >= v)%Z -> holds (lit ">=") n v
| h_le n v : (n <= v)%Z -> holds (lit "<=") n v
| h_eq n : holds (lit "=") n n
| h_eq2 n : holds (lit "==") n n
| h_ne n v : n <> v -> holds (lit "!=") n v.
Lemma compares_iff op n v : compares op n v = true <-> holds op n v.
Proof.
  unfold compares. split.
  - destruct (str_eqb_spec op (lit ">")) as [->|]; [intros H; constructor; lia|]. destruct (str_eqb_spec op (lit "<")) as [->|]; [intros H; constructor; lia|].
    destruct (str_eqb_spec op (lit ">=")) as [->|]; [intros H; constructor; lia|]. destruct (str_eqb_spec op (lit "<=")) as [->|]; [intros H; constructor; lia|].
    destruct (str_eqb_spec op (lit "=")) as [->|]; [cbn; intros H; apply Z.eqb_eq in H; subst; constructor|].
    destruct (str_eqb_spec op (lit "==")) as [->|]; [cbn; intros H; apply Z.eqb_eq in H; subst; constructor|]. cbn [orb].
    destruct (str_eqb_spec op (lit "!=")) as [->|]; [intros H; constructor; lia|discriminate].
  - intros H. destruct H; cbv -[Z.ltb Z.leb Z.eqb negb Z.gt Z.lt Z.ge Z.le]; lia.
Qed.
Theorem C133_where_cmp_partial (t : table F) (c op : str) (v : Z) :
  let out := where_cmp F t c op v in columns F out = columns F t /\ kept (fun r => exists n, cell_is r c (VInt F n) /\ holds op n v) (rows F t) (rows F out).
Proof.
  cbn zeta. split; [reflexivity|]. unfold where_cmp. cbn [rows]. apply kept_filter. intros r _. destruct (get_cases r c) as [(x & -> & Hx)|[-> N]].
  - split.
    + destruct x as [ | |n| | | |]; intros H; try discriminate H. exists n. split; [exact Hx|apply compares_iff, H].
    + intros (n & H & K). pose proof (cell_unique _ _ _ _ Hx H) as ->. apply compares_iff, K.
  - split; [discriminate|]. intros (n & H & _). exfalso. exact (N _ H).
Qed.
(** a float is neither more nor less than any number, nor different from it *)
Theorem C133_floats_are_dropped_refuted (t : table F) (c op : str) (v : Z) :
  (forall r, In r (rows F t) -> exists f, cell_is r c (VFloat F f)) -> rows F (where_cmp F t c op v) = [].
Proof.
  intros H. unfold where_cmp. cbn [rows]. induction (rows F t) as [|r rs IH]; [reflexivity|]. cbn [filter]. destruct (H r (or_introl eq_refl)) as [f Hf]. apply get_iff in Hf. rewrite Hf. apply IH. intros q Hq. apply H. right. exact Hq.
Qed.

Theorem C133_head_tail (t : table F) (n : nat) :
  let h := head F t n in let l := tail F t n in
  columns F h = columns F t /\ columns F l = columns F t /\
  (exists rest, rows F t = rows F h ++ rest) /\ length (rows F h) = Nat.min n (length (rows F t)) /\
  (exists rest, rows F t = rest ++ rows F l) /\ length (rows F l) = Nat.min n (length (rows F t)).
Proof.
  cbn zeta. unfold head, tail. cbn [columns rows]. split; [reflexivity|]. split; [reflexivity|]. split; [eexists; symmetry; apply firstn_skipn|]. split; [apply firstn_length|].
  split; [eexists; symmetry; apply firstn_skipn|]. rewrite skipn_length. lia.
Qed.

(** a row after select has the cells of the columns named and no others *)
Lemma get_set r k v c : get F (set F r k v) c = if str_eqb k c then Some v else get F r c.
Proof.
  induction r as [|[k' v'] r IH]; cbn; [reflexivity|]. destruct (str_eqb_spec k' k) as [->|Nk]; cbn; [destruct (str_eqb k c); reflexivity|].
  rewrite IH. destruct (str_eqb_spec k' c) as [->|]; [|reflexivity]. destruct (str_eqb_spec k c) as [->|]; [congruence|reflexivity].
Qed.
Lemma get_select r c cols : forall n, get F (fold_left (fun n c => match get F r c with Some v => set F n c v | None => n end) cols n) c =
  if mem_str c cols then match get F r c with Some v => Some v | None => get F n c end else get F n c.
Proof.
  induction cols as [|d cols IH]; intros n; [reflexivity|]. cbn [fold_left]. rewrite IH. unfold mem_str. cbn [existsb]. fold (mem_str c cols).
  destruct (get F r d) as [v|] eqn:E.
  - rewrite get_set. destruct (str_eqb_spec c d) as [->|N]; cbn [orb].
    + rewrite E, str_eqb_refl. destruct (mem_str d cols); reflexivity.
    + destruct (str_eqb_spec d c) as [->|]; [congruence|reflexivity].
  - destruct (str_eqb_spec c d) as [->|N]; cbn [orb]; [rewrite E; destruct (mem_str d cols); reflexivity|reflexivity].
Qed.
Theorem C133_select (t : table F) (cols : list str) :
  let out := select F t cols in columns F out = cols /\
  Forall2 (fun r r' => forall c v, cell_is r' c v <-> In c cols /\ cell_is r c v) (rows F t) (rows F out).
Proof.
  cbn zeta. unfold select. cbn [columns rows]. split; [reflexivity|]. induction (rows F t) as [|r rs IH]; [constructor|]. cbn [map]. constructor; [|exact IH].
  intros c v. rewrite <- !get_iff, get_select. cbn [get]. destruct (mem_str c cols) eqn:M.
  - apply mem_str_iff in M. destruct (get F r c); split; intros H; try tauto; try (split; [exact M|exact H]); destruct H; congruence.
  - split; [discriminate|]. intros [H _]. apply mem_str_iff in H. congruence.
Qed.
End Choose.
Print Assumptions C133_where_eq_partial.
Print Assumptions C133_where_eq_map_refuted.
Print Assumptions C133_where_contains.
Print Assumptions C133_where_cmp_partial.
Print Assumptions C133_floats_are_dropped_refuted.
Print Assumptions C133_head_tail.
Print Assumptions C133_select.

Example C133_case :
  let r n := [(lit "n", VInt unit n); (lit "s", VString unit (lit "abc"))] in let t := Table unit [lit "n"; lit "s"] [r 3%Z; [(lit "n", VFloat unit tt)]; r 1%Z; r 5%Z] in
  rows unit (where_cmp unit t (lit "n") (lit ">=") 3) = [r 3%Z; r 5%Z] /\ rows unit (where_contains unit t (lit "s") (lit "b")) = [r 3%Z; r 1%Z; r 5%Z] /\
  rows unit (select unit (tail unit t 2) [lit "n"]) = [[(lit "n", VInt unit 1)]; [(lit "n", VInt unit 5)]].
Proof. vm_compute. repeat split. Qed.

(** ** C134: nothing of a table is hidden *)
Section Shown.
Variable F : Type.
Variable feq : F -> F -> bool.
Variable fcmp : F -> F -> option comparison.
Variable of_big : N -> F.
Variable float_of : str -> option F.
(** the tables the functions of the language make *)
Inductive made : table F -> Prop :=
| m_json j : made (from_json F of_big j)
| m_csv h rs : made (from_csv F float_of h rs)
| m_select t cols : made t -> made (select F t cols)
| m_head t n : made t -> made (head F t n)
| m_tail t n : made t -> made (tail F t n)
| m_eq t c v : made t -> made (where_eq F feq t c v)
| m_contains t c s : made t -> made (where_contains F t c s)
| m_cmp t c op v : made t -> made (where_cmp F t c op v)
| m_order t c asc : made t -> made (order_by F fcmp t c asc).

Lemma set_keys r k v x : In x (map fst (set F r k v)) -> x = k \/ In x (map fst r).
Proof using Type. induction r as [|[k' v'] r IH]; cbn; [intros [<-|[]]; left; reflexivity|]. destruct (str_eqb_spec k' k) as [->|]; cbn; [intros H; right; exact H|]. intros [<-|H]; [right; left; reflexivity|]. destruct (IH H) as [K|K]; [left; exact K|right; right; exact K]. Qed.
Lemma set_all_keys l x : In x (map fst (set_all F l)) -> In x (map fst l).
Proof.
  unfold set_all. assert (G : forall l m, In x (map fst (fold_left (fun r kv => set F r (fst kv) (snd kv)) l m)) -> In x (map fst m) \/ In x (map fst l)).
  { clear l. induction l as [|[k v] l IH]; intros m H; cbn [fold_left] in H; [auto|]. apply IH in H as [H|H]; [|cbn; auto]. cbn [fst snd] in H. apply set_keys in H as [->|H]; cbn; auto. }
  intros H. apply G in H as [[]|H]. exact H.
Qed.
Lemma add_all_in ks : forall cols x, In x (fold_left add_new ks cols) <-> In x cols \/ In x ks.
Proof.
  induction ks as [|k ks IH]; intros cols x; cbn [fold_left In]; [tauto|]. rewrite IH. unfold add_new. destruct (mem_str k cols) eqn:E.
  - apply mem_str_iff in E. split; [tauto|]. intros [H|[<-|H]]; auto.
  - rewrite in_app_iff. cbn. tauto.
Qed.
Lemma object_columns objs : forall cols x, In x (fold_left (fun cols j => fold_left add_new (map fst (entries F j)) cols) objs cols) <-> In x cols \/ exists j, In j objs /\ In x (map fst (entries F j)).
Proof.
  induction objs as [|j objs IH]; intros cols x; cbn [fold_left]; [split; [auto|intros [H|(? & [] & _)]; exact H]|]. rewrite IH, add_all_in. split.
  - intros [[H|H]|(i & Hi & H)]; [auto|right; exists j; split; [left; reflexivity|exact H]|right; exists i; split; [right; exact Hi|exact H]].
  - intros [H|(i & [<-|Hi] & H)]; [auto|auto|right; exists i; auto].
Qed.
Lemma objects_complete objs : complete_table F (from_json_objects F of_big objs).
Proof.
  intros r c v Hr Hc. unfold from_json_objects in *. cbn [rows columns] in *. apply in_map_iff in Hr as (j & <- & Hj). apply filter_In in Hj as [Hj _]. apply object_columns. right. exists j. split; [exact Hj|].
  apply (in_map fst) in Hc. cbn [fst] in Hc. apply set_all_keys in Hc. rewrite map_map in Hc. exact Hc.
Qed.
Lemma cell_complete j c v : In (c, v) (cell F of_big j) -> In c [value_column].
Proof. cbn. intros [H|[]]. injection H as <- _. auto. Qed.
Lemma sub_complete t t' : complete_table F t -> columns F t' = columns F t -> (forall r, In r (rows F t') -> In r (rows F t)) -> complete_table F t'.
Proof. intros H E S r c v Hr Hc. rewrite E. exact (H r c v (S r Hr) Hc). Qed.
Lemma sort_perm_any {A} (cmp : A -> A -> comparison) l : Permutation l (sort_by cmp l).
Proof.
  unfold sort_by. assert (G : forall l acc, Permutation (acc ++ l) (fold_left (fun acc x => insert_from_right cmp x acc) l acc)).
  { clear. induction l as [|x l IH]; intros acc; cbn [fold_left]; [rewrite app_nil_r; reflexivity|]. etransitivity; [|apply IH]. etransitivity; [symmetry; apply Permutation_middle|].
    change (x :: acc ++ l) with ((x :: acc) ++ l). apply Permutation_app_tail, ins_perm. }
  etransitivity; [apply (G l [])|]. apply Permutation_rev.
Qed.
Lemma made_complete t : made t -> complete_table F t.
Proof.
  intros M. induction M as [j|h rs|t cols M IH|t n M IH|t n M IH|t c v M IH|t c s M IH|t c op v M IH|t c asc M IH].
  - assert (P : forall j, complete_table F (Table F [value_column] [cell F of_big j])) by (intros i r c v [<-|[]]; apply cell_complete).
    destruct j as [ | | | | | |l|l]; try apply P.
    + unfold from_json. destruct l as [|a l]; [intros r c v []|]. destruct (forallb (is_object F) (a :: l)); [apply objects_complete|].
      intros r c v Hr. cbn [rows] in Hr. apply in_map_iff in Hr as (j & <- & _). apply cell_complete.
    + apply objects_complete.
  - intros r c v Hr Hc. unfold from_csv in *. cbn [rows columns] in *. apply in_map_iff in Hr as (rec & <- & _). apply (in_map fst) in Hc. cbn [fst] in Hc. apply set_all_keys in Hc. rewrite map_map in Hc. cbn [fst] in Hc.
    apply in_map_iff in Hc as ([x y] & <- & Hi). exact (in_combine_l _ _ _ _ Hi).
  - intros r c v Hr Hc. unfold select in *. cbn [rows columns] in *. apply in_map_iff in Hr as (r0 & <- & _).
    assert (G : forall cols m, In c (map fst (fold_left (fun n c => match get F r0 c with Some v => set F n c v | None => n end) cols m)) -> In c (map fst m) \/ In c cols).
    { clear. induction cols as [|d cols IH]; intros m H; cbn [fold_left] in H; [auto|]. apply IH in H as [H|H]; [|cbn; auto]. destruct (get F r0 d); [apply set_keys in H as [->|H]; cbn; auto|cbn; auto]. }
    apply (in_map fst) in Hc. apply G in Hc as [[]|Hc]. exact Hc.
  - apply (sub_complete t); [exact IH|reflexivity|]. intros r Hr. cbn [rows head] in Hr. rewrite <- (firstn_skipn n). apply in_or_app. left. exact Hr.
  - apply (sub_complete t); [exact IH|reflexivity|]. intros r Hr. cbn [rows tail] in Hr. rewrite <- (firstn_skipn (length (rows F t) - n)). apply in_or_app. right. exact Hr.
  - apply (sub_complete t); [exact IH|reflexivity|]. intros r Hr. cbn [rows where_eq] in Hr. apply filter_In in Hr. tauto.
  - apply (sub_complete t); [exact IH|reflexivity|]. intros r Hr. cbn [rows where_contains] in Hr. apply filter_In in Hr. tauto.
  - apply (sub_complete t); [exact IH|reflexivity|]. intros r Hr. cbn [rows where_cmp] in Hr. apply filter_In in Hr. tauto.
  - apply (sub_complete t); [exact IH|reflexivity|]. intros r Hr. cbn [rows order_by] in Hr. eapply Permutation_in; [symmetry; apply sort_perm_any|exact Hr].
Qed.

(** the first line of the display is the header; line i below it is row i, and the cell of column
    c of that row stands where c stands in the header *)
Theorem C134_everything_is_shown (shown : value F -> str) (t : table F) : made t ->
  exists header lines, display F shown t = header :: lines /\ length lines = length (rows F t) /\
  forall i r c v, nth_error (rows F t) i = Some r -> cell_is F r c v ->
    exists line k, nth_error lines i = Some line /\ nth_error header k = Some c /\ nth_error line k = Some (shown v).
Proof.
  intros M. unfold display. eexists _, _. split; [reflexivity|]. split; [apply map_length|]. intros i r c v Hr Hc.
  assert (Ic : In c (columns F t)).
  { destruct Hc as (a & b & E & _). apply (made_complete t M r c v); [apply nth_error_In in Hr; exact Hr|]. rewrite E. apply in_or_app. right. left. reflexivity. }
  apply In_nth_error in Ic as [k Hk]. apply get_iff in Hc.
  exists (map (fun c => match get F r c with Some v => shown v | None => [] end) (columns F t)), k. split; [|split; [exact Hk|]].
  - rewrite nth_error_map, Hr. reflexivity.
  - rewrite nth_error_map, Hk. cbn. rewrite Hc. reflexivity.
Qed.
End Shown.
Print Assumptions C134_everything_is_shown.

Example C134_case : let t := from_json unit (fun _ => tt) (JArray unit [JObject unit [(lit "a", JInt unit 1)]; JObject unit [(lit "b", JInt unit 2)]]) in
  made unit (fun _ _ => true) (fun _ _ => None) (fun _ => tt) (fun _ => None) t /\
  display unit (fun v => match v with VInt _ z => show_int z | _ => [] end) t = [[lit "a"; lit "b"]; [lit "1"; []]; [[]; lit "2"]].
Proof. split; [apply m_json|vm_compute; reflexivity]. Qed.

(** ** C135: |: *)
Section Pipe.
Variable V W : Type.
Variable of_text : str -> V.
Variable is_nil : V -> bool.
Variable lisp : W -> V -> str -> W * option V.
(** each expression is evaluated once, in order, with the value of the one before *)
Inductive chain : W -> V -> list str -> W -> V -> Prop :=
| c_none w v : chain w v [] w v
| c_some w v e r w1 v1 w2 v2 : lisp w v e = (w1, Some v1) -> chain w1 v1 r w2 v2 -> chain w v (e :: r) w2 v2.
Notation struct_pipe := (struct_pipe V W of_text is_nil lisp).
Notation stages := (stages V W lisp).

Theorem C135_stages_in_order (w : W) (status : Z) (output : str) (exprs : list str) w' v :
  (status = 0%Z \/ output <> []) -> chain w (of_text output) exprs w' v ->
  struct_pipe w status output exprs = (w', status, if is_nil v then None else Some v).
Proof.
  intros Hs H. unfold Table_Model.struct_pipe.
  assert (K : (negb (status =? 0)%Z && match output with [] => true | _ => false end)%bool = false).
  { destruct Hs as [->|Hs]; [reflexivity|]. destruct output; [congruence|]. apply andb_false_r. }
  rewrite K. assert (G : stages w (of_text output) status exprs = (w', v, status)).
  { clear K Hs. induction H as [w v|w v e r w1 v1 w2 v2 E H IH]; [reflexivity|]. cbn [Table_Model.stages]. rewrite E. exact IH. }
  rewrite G. reflexivity.
Qed.
Theorem C135_failed_command (w : W) (status : Z) (exprs : list str) : status <> 0%Z -> struct_pipe w status [] exprs = (w, status, None).
Proof. intros H. unfold Table_Model.struct_pipe. apply Z.eqb_neq in H. rewrite H. reflexivity. Qed.
(** an expression fails: those after it are not evaluated and the status is 1, but the value
    before it is printed as the result *)
Theorem C135_error_prints_previous_refuted (w : W) (status : Z) (output : str) (before : list str) (e : str) (after : list str) w1 v w2 :
  (status = 0%Z \/ output <> []) -> chain w (of_text output) before w1 v -> lisp w1 v e = (w2, None) -> is_nil v = false ->
  struct_pipe w status output (before ++ e :: after) = (w2, 1%Z, Some v).
Proof.
  intros Hs H E Nv. unfold Table_Model.struct_pipe.
  assert (K : (negb (status =? 0)%Z && match output with [] => true | _ => false end)%bool = false).
  { destruct Hs as [->|Hs]; [reflexivity|]. destruct output; [congruence|]. apply andb_false_r. }
  rewrite K. assert (G : stages w (of_text output) status (before ++ e :: after) = (w2, v, 1%Z)).
  { clear K Hs. induction H as [w v|w v e' r w1 v1 w3 v2 E' H IH]; cbn [app Table_Model.stages]; [rewrite E; reflexivity|]. rewrite E'. apply IH; assumption. }
  rewrite G, Nv. reflexivity.
Qed.
(** the status of a command that failed but wrote something is kept *)
End Pipe.
Print Assumptions C135_stages_in_order.
Print Assumptions C135_failed_command.
Print Assumptions C135_error_prints_previous_refuted.

(** what stands around |: on the line: a pipe after an expression is put before it; a closing
    parenthesis in a text ends the expression; with |> the expressions are not evaluated *)
Definition read (line : string) : option (list (list Parse_Model.process * bool * list str)) :=
  match Parse_Model.jobs_of (fun _ => Parse_Model.IsProgram (lit "/bin/x")) (fun _ _ => []) (lit line) with
  | Some js => Some (map (fun j => (Parse_Model.procs j, Parse_Model.capture j, Parse_Model.struct_exprs j)) js)
  | None => None
  end.
Definition prog (w : string) : Parse_Model.process := Parse_Model.Program (lit "/bin/x") [lit w].
Theorem C135_reading_refuted :
  read "ls |: (a) |: (b (c))" = Some [([prog "ls"], false, [lit "(a)"; lit "(b (c))"])] /\
  read "ls |: (a) | wc" = Some [([prog "ls"; prog "wc"], false, [lit "(a)"])] /\
  read "ls |: (a "")"" b)" = Some [([prog "ls"], false, [lit "(a "")"])] /\
  read "ls |: (a) |>" = Some [([prog "ls"], true, [lit "(a)"])].
Proof. split; [vm_compute; reflexivity|]. split; [vm_compute; reflexivity|]. split; vm_compute; reflexivity. Qed.
Print Assumptions C135_reading_refuted.

Example C135_case : chain Z Z (fun w v e => (w + 1, Some (v + Z.of_nat (length e)))%Z) 0%Z 5%Z [lit "(a)"; lit "(bb)"] 2%Z 12%Z.
Proof. eapply c_some; [reflexivity|]. eapply c_some; [reflexivity|]. apply c_none. Qed.
