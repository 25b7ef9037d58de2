(** C237-C240: the commands and files offered for a word. *)
From Coq Require Import Permutation Sorting.Sorted.
From Verif Require Import Base Commands_Model Commands_Spec.
From Verif Require Frecency_Model Frecency_Proofs Menu_Model Views_Props.

(** ** the order *)
Lemma leb_total a b : text_leb a b = false -> text_leb b a = true.
Proof.
  unfold text_leb. rewrite (Frecency_Proofs.str_cmp_sym a b). destruct (Frecency_Model.str_cmp a b); cbn; congruence.
Qed.
Lemma leb_trans a b c : text_leb a b = true -> text_leb b c = true -> text_leb a c = true.
Proof.
  unfold text_leb. destruct (Frecency_Model.str_cmp a b) eqn:E1; [|destruct (Frecency_Model.str_cmp b c) eqn:E2|discriminate].
  - apply Frecency_Proofs.str_cmp_eq in E1. subst. auto.
  - intros _ _. apply Frecency_Proofs.str_cmp_eq in E2. subst. rewrite E1. reflexivity.
  - intros _ _. rewrite (Frecency_Proofs.str_lt_trans _ _ _ E1 E2). reflexivity.
  - discriminate.
Qed.
Lemma leb_before a b : text_leb a b = true -> a <> b -> Before a b.
Proof.
  unfold text_leb, Before. destruct (Frecency_Model.str_cmp a b) eqn:E; [|reflexivity|discriminate].
  apply Frecency_Proofs.str_cmp_eq in E. contradiction.
Qed.

Lemma nodup_app {A} (a b : list A) : NoDup a -> NoDup b -> (forall x, In x a -> ~ In x b) -> NoDup (a ++ b).
Proof.
  induction a as [|x a IH]; intros Na Nb D; [exact Nb|]. inversion Na; subst. cbn. constructor.
  - rewrite in_app_iff. intros [X|X]; [contradiction|]. apply (D x); [left; reflexivity|exact X].
  - apply IH; auto. intros y Y. apply D. right. exact Y.
Qed.
Section Matching.
Variable fuzzy : str -> str -> bool.
Notation matches := (matches fuzzy).
Notation get_commands := (get_commands fuzzy).
Notation from_paths := (from_paths fuzzy).
Notation Offers := (Offers fuzzy).
Notation files := (files fuzzy).
Notation Has := (Has fuzzy).

Lemma matches_iff q n : matches q n = true <-> q = [] \/ fuzzy n q = true.
Proof. destruct q as [|c q]; cbn; [tauto|]. split; [auto|]. intros [X|X]; [discriminate|exact X]. Qed.
Lemma taken_iff q e : taken fuzzy q e = true <-> (q = [] \/ fuzzy (name e) q = true) /\ (what e = Regular /\ x_bits e = true \/ what e = Link).
Proof.
  unfold taken. rewrite !andb_true_iff, matches_iff. unfold executable. destruct (what e); split; intros X; intuition (try discriminate; auto).
Qed.

(** ** C237: the commands *)

Lemma push_spec ns : forall seen l s, push ns seen = (l, s) ->
  (forall x, In x l <-> snd x = Command /\ In (fst x) ns /\ ~ In (fst x) seen) /\ (forall n, In n s <-> In n seen \/ In n ns) /\
  (StronglySorted (fun a b => text_leb a b = true) ns -> StronglySorted Before (map fst l)).
Proof.
  induction ns as [|n ns IH]; intros seen l s E; cbn [push] in E.
  - injection E as <- <-. split; [intros x; split; [intros []|intros (_ & [] & _)]|]. split; [intros n; cbn; tauto|]. constructor.
  - destruct (mem_str n seen) eqn:M.
    + apply mem_str_iff in M. destruct (IH _ _ _ E) as (A & B & C). split; [|split].
      * intros x. rewrite A. cbn [In]. split; [tauto|]. intros (X & [<-|Y] & Z); [contradiction|auto].
      * intros m. rewrite B. cbn [In]. split; [tauto|]. intros [X|[<-|X]]; auto.
      * intros Q. apply C. inversion Q; assumption.
    + assert (NM : ~ In n seen) by (intros X; apply mem_str_iff in X; congruence).
      destruct (push ns (n :: seen)) as [l' s'] eqn:P. injection E as <- <-. destruct (IH _ _ _ P) as (A & B & C). split; [|split].
      * intros [m k]. cbn [In fst snd]. rewrite A. cbn [In fst snd]. split.
        -- intros [[= <- <-]|X]; [auto|tauto].
        -- intros (-> & X & Y). destruct (str_eq_dec n m) as [<-|D]; [left; reflexivity|right]. intuition.
      * intros m. rewrite B. cbn [In]. tauto.
      * intros Q. inversion Q as [|? ? Q1 Q2]; subst. cbn [map fst]. constructor; [apply C; exact Q1|]. apply Forall_forall. intros m I.
        apply in_map_iff in I as ([m' k] & <- & I). apply A in I as (_ & I & J). cbn [fst In] in *. apply leb_before; [|intros ->; tauto].
        rewrite Forall_forall in Q2. apply Q2. exact I.
Qed.
Lemma executables_spec w d q seen l s : get_executables fuzzy w d q seen = (l, s) ->
  (forall x, In x l <-> snd x = Command /\ Offers w q d (fst x) /\ ~ In (fst x) seen) /\
  (forall n, In n s <-> In n seen \/ Offers w q d n) /\ StronglySorted Before (map fst l).
Proof.
  unfold get_executables, Commands_Spec.Offers. destruct (read_dir w d) as [es|] eqn:R; intros E.
  - destruct (push_spec _ _ _ _ E) as (A & B & C).
    assert (Q : forall n, In n (Frecency_Model.sort text_leb (map name (filter (fun e => negb (mem_str (name e) seen) && taken fuzzy q e) es))) <->
      ~ In n seen /\ exists es' e, Some es = Some es' /\ In e es' /\ name e = n /\ (q = [] \/ fuzzy n q = true) /\ (what e = Regular /\ x_bits e = true \/ what e = Link)).
    { intros n. rewrite <- (Frecency_Proofs.sort_perm text_leb), in_map_iff. split.
      - intros (e & <- & I). apply filter_In in I as (I & T). apply andb_true_iff in T as (T1 & T2). apply taken_iff in T2 as (T2 & T3).
        split; [|eauto 10]. intros X. apply mem_str_iff in X. rewrite X in T1. discriminate.
      - intros (NI & es' & e & [= <-] & I & <- & T2 & T3). exists e. split; [reflexivity|]. apply filter_In. split; [exact I|].
        apply andb_true_iff. split; [|apply taken_iff; auto]. rewrite negb_true_iff. destruct (mem_str (name e) seen) eqn:M; [|reflexivity].
        apply mem_str_iff in M. contradiction. }
    split; [|split].
    + intros x. rewrite A, Q. tauto.
    + intros n. rewrite B, Q. destruct (in_dec str_eq_dec n seen); tauto.
    + apply C. apply (Views_Props.ordered_sorted text_leb); [auto|]. apply Frecency_Proofs.sort_ordered; [exact leb_total|exact leb_trans].
  - injection E as <- <-. split; [intros x; split; [intros []|intros (_ & (es & e & X & _) & _); discriminate]|]. split; [|constructor].
    intros n. split; [auto|]. intros [X|(es & e & X & _)]; [exact X|discriminate].
Qed.

Definition grouped (w : world) (q : str) (paths seen : list str) (groups : list (list str)) : Prop :=
  length groups = length paths /\
  forall i g d, nth_error groups i = Some g -> nth_error paths i = Some d ->
    StronglySorted Before g /\
    forall n, In n g <-> Offers w q d n /\ ~ In n seen /\ forall j d', j < i -> nth_error paths j = Some d' -> ~ Offers w q d' n.
Lemma paths_grouped w q paths : forall seen, exists groups,
  map fst (from_paths w q paths seen) = concat groups /\ Forall (fun x => snd x = Command) (from_paths w q paths seen) /\ grouped w q paths seen groups.
Proof.
  induction paths as [|d paths IH]; intros seen.
  - exists []. cbn. repeat split; auto; intros; destruct i; discriminate.
  - cbn [Commands_Model.from_paths]. destruct (get_executables fuzzy w d q seen) as [l s] eqn:E. destruct (executables_spec _ _ _ _ _ _ E) as (A & B & C).
    destruct (IH s) as (gs & G1 & G2 & G3 & G4). exists (map fst l :: gs). split; [rewrite map_app; cbn [concat]; f_equal; exact G1|]. split; [|split].
    + apply Forall_app. split; [|exact G2]. apply Forall_forall. intros x I. apply A in I. tauto.
    + cbn [length]. congruence.
    + intros [|i] g d' X Y; cbn [nth_error] in X, Y.
      * injection X as <-. injection Y as <-. split; [exact C|]. intros n. rewrite in_map_iff. split.
        -- intros ([m k] & <- & I). apply A in I as (_ & I & J). split; [exact I|]. split; [exact J|]. intros j d' L. lia.
        -- intros (O1 & O2 & _). exists (n, Command). split; [reflexivity|]. apply A. auto.
      * destruct (G4 i g d' X Y) as (S1 & S2). split; [exact S1|]. intros n. rewrite S2, B. split.
        -- intros (O1 & O2 & O3). split; [exact O1|]. split; [tauto|]. intros [|j] d'' L Z; cbn in Z; [injection Z as <-; tauto|].
           apply (O3 j d''); [lia|exact Z].
        -- intros (O1 & O2 & O3). split; [exact O1|]. split.
           ++ intros [Z|Z]; [tauto|]. apply (O3 0 d); [lia|reflexivity|exact Z].
           ++ intros j d'' L Z. apply (O3 (S j) d''); [lia|exact Z].
Qed.
Definition Named (q : str) : Prop := starts_with (lit "/") q = true \/ starts_with (lit "./") q = true.
Lemma commands_plain w paths q : ~ Named q -> get_commands w paths q = from_paths w q paths [].
Proof.
  unfold Named, Commands_Model.get_commands. intros Q. destruct (starts_with (lit "/") q) eqn:A; [tauto|]. destruct (starts_with (lit "./") q); [tauto|]. reflexivity.
Qed.

(** For a word that names no file the commands offered are, directory of PATH after directory, the matching
    executables, in the order of their names, without those an earlier directory has. *)
Theorem C237_offered : forall w paths q, ~ Named q ->
  Forall (fun x => snd x = Command) (get_commands w paths q) /\
  exists groups, map fst (get_commands w paths q) = concat groups /\ length groups = length paths /\
    forall i g d, nth_error groups i = Some g -> nth_error paths i = Some d ->
      StronglySorted Before g /\
      forall n, In n g <-> Offers w q d n /\ forall j d', j < i -> nth_error paths j = Some d' -> ~ Offers w q d' n.
Proof.
  intros w paths q Q. rewrite commands_plain by exact Q. destruct (paths_grouped w q paths []) as (gs & A & B & C & D). split; [exact B|].
  exists gs. split; [exact A|]. split; [exact C|]. intros i g d X Y. destruct (D i g d X Y) as (S1 & S2). split; [exact S1|].
  intros n. rewrite S2. cbn [In]. tauto.
Qed.
Lemma from_iff w q paths : forall seen n, In n (map fst (from_paths w q paths seen)) <-> ~ In n seen /\ exists d, In d paths /\ Offers w q d n.
Proof.
  induction paths as [|d paths IH]; intros seen n; cbn [Commands_Model.from_paths map]; [split; [intros []|intros (_ & d & [] & _)]|].
  destruct (get_executables fuzzy w d q seen) as [l s] eqn:E. destruct (executables_spec _ _ _ _ _ _ E) as (A & B & _).
  rewrite map_app, in_app_iff, IH, in_map_iff, B. cbn [In]. split.
  - intros [([m k] & <- & I)|(X & d' & Y & Z)].
    + apply A in I as (_ & I & J). cbn [fst] in *. split; [exact J|]. exists d. auto.
    + split; [tauto|]. exists d'. auto.
  - intros (X & d' & [<-|Y] & Z).
    + left. exists (n, Command). split; [reflexivity|]. apply A. auto.
    + destruct (in_dec str_eq_dec n (map fst l)) as [J|J].
      * left. apply in_map_iff in J. exact J.
      * right. split; [|eauto]. intros [W|W]; [tauto|]. apply J. apply in_map_iff. exists (n, Command). split; [reflexivity|]. apply A. auto.
Qed.
(** Each is offered, and offered once. *)
Theorem C237_once : forall w paths q, ~ Named q -> NoDup (map fst (get_commands w paths q)) /\
  forall n l, In (n, l) (get_commands w paths q) <-> l = Command /\ exists d, In d paths /\ Offers w q d n.
Proof.
  intros w paths q Q. rewrite commands_plain by exact Q. split.
  - generalize (@nil str). induction paths as [|d paths IH]; intros seen; [constructor|]. cbn [Commands_Model.from_paths].
    destruct (get_executables fuzzy w d q seen) as [l s] eqn:E. destruct (executables_spec _ _ _ _ _ _ E) as (A & B & C). rewrite map_app.
    assert (ND : NoDup (map fst l)).
    { clear -C. induction C as [|a g S' IH' F]; [constructor|]. constructor; [|exact IH']. intros I. rewrite Forall_forall in F.
      exact (Frecency_Proofs.str_lt_irrefl _ (F a I)). }
    specialize (IH s). revert ND IH. generalize (fun n => proj1 (from_iff w q paths s n)). intros Z ND IH.
    assert (DJ : forall n, In n (map fst l) -> ~ In n (map fst (from_paths w q paths s))).
    { intros n I J. apply Z in J as (J & _). apply J. apply B. right. apply in_map_iff in I as ([m k] & <- & I). apply A in I. tauto. }
    apply nodup_app; assumption.
  - intros n l. destruct (paths_grouped w q paths []) as (gs & _ & B & _). rewrite Forall_forall in B. split.
    + intros I. pose proof (B _ I) as L. cbn in L. split; [exact L|]. apply (in_map fst) in I. apply from_iff in I. apply I.
    + intros (-> & X). assert (I : In n (map fst (from_paths w q paths []))) by (apply from_iff; auto).
      apply in_map_iff in I as ([m k] & <- & I). pose proof (B _ I) as L. cbn in L. subst. exact I.
Qed.
(** A file named by its path is offered first, as a command, whether or not it can be executed. *)
Theorem C237_named_refuted : forall w paths q, Named q -> is_file w q = true -> hd_error (get_commands w paths q) = Some (q, Command).
Proof.
  intros w paths q [Q|Q] F; unfold Commands_Model.get_commands; rewrite Q, F; cbn [andb app hd_error]; [reflexivity|].
  rewrite andb_true_r. destruct (starts_with (lit "/") q); reflexivity.
Qed.
(** Any link in a directory of PATH is offered as a command, wherever it leads. *)
Theorem C237_link_refuted : forall w paths q d es e, ~ Named q -> In d paths -> read_dir w d = Some es -> In e es -> what e = Link ->
  q = [] \/ fuzzy (name e) q = true -> In (name e, Command) (get_commands w paths q).
Proof.
  intros w paths q d es e Q I R J L M. apply (proj2 (C237_once w paths q Q)). split; [reflexivity|]. exists d. split; [exact I|].
  exists es, e. repeat split; auto.
Qed.

(** ** C238: one candidate for a name *)
End Matching.

Lemma base_iff t b : base t = b <-> Base t b.
Proof.
  unfold base, Base. split.
  - intros <-. split.
    + apply (split_on_no_sep (chr "/") t). destruct (exists_last (split_on_nonempty (chr "/") t)) as (l & x & ->). rewrite last_last, in_app_iff. right. left. reflexivity.
    + pose proof (split_on_join (chr "/") t) as J. destruct (exists_last (split_on_nonempty (chr "/") t)) as (l & x & E). rewrite E in J |- *. rewrite last_last.
      destruct l as [|y l]; [left; cbn in J; congruence|]. right. exists (join_with [chr "/"] (y :: l)). rewrite <- J.
      clear. revert y. induction l as [|z l IH]; intros y; [reflexivity|].
      change (join_with [chr "/"] ((y :: z :: l) ++ [x])) with (y ++ [chr "/"] ++ join_with [chr "/"] ((z :: l) ++ [x])).
      rewrite IH. change (join_with [chr "/"] (y :: z :: l)) with (y ++ [chr "/"] ++ join_with [chr "/"] (z :: l)). rewrite <- !app_assoc. reflexivity.
  - intros (N1 & [->|(p & ->)]).
    + rewrite split_on_none by exact N1. reflexivity.
    + rewrite split_on_app, (split_on_none (chr "/") b) by exact N1. apply last_last.
Qed.
Lemma base_plain n : ~ In (chr "/") n -> base n = n.
Proof. intros NI. apply base_iff. split; auto. Qed.

Definition bases (l : list item) : list str := map (fun x => base (fst x)) l.
Lemma put_bases x res : bases (put x res) = if in_dec str_eq_dec (base (fst x)) (bases res) then bases res else bases res ++ [base (fst x)].
Proof.
  induction res as [|y res IH]; [reflexivity|]. cbn [put]. destruct (str_eqb_spec (base (fst y)) (base (fst x))) as [E|E].
  - clear IH. destruct (in_dec _ _ _) as [I|I]; [|exfalso; apply I; cbn [bases map]; apply in_eq || (rewrite <- E; apply in_eq)]. destruct (snd y), (snd x); cbn [bases map]; congruence.
  - cbn [bases map] in *. fold (bases (put x res)) (bases res) in *. rewrite IH.
    destruct (in_dec str_eq_dec (base (fst x)) (bases res)) as [I|I], (in_dec str_eq_dec (base (fst x)) (base (fst y) :: bases res)) as [J|J]; try reflexivity.
    + destruct J. right. exact I.
    + destruct J as [J|J]; contradiction.
Qed.
Definition Inv (l res : list item) : Prop :=
  NoDup (bases res) /\ (forall b, In b (bases res) <-> In b (bases l)) /\
  (forall x, In x res -> Stands_for l (base (fst x)) x).
Lemma first_snoc (P : item -> Prop) l x y : First P l x -> First P (l ++ [y]) x.
Proof. intros (l1 & l2 & -> & A & B). exists l1, (l2 ++ [y]). rewrite <- app_assoc. auto. Qed.
Lemma first_new (P : item -> Prop) l y : P y -> (forall z, In z l -> ~ P z) -> First P (l ++ [y]) y.
Proof. intros A B. exists l, []. split; [reflexivity|]. split; [exact A|]. apply Forall_forall. exact B. Qed.
Lemma first_in (P : item -> Prop) l x : First P l x -> In x l /\ P x.
Proof. intros (l1 & l2 & -> & A & _). rewrite in_app_iff. cbn. auto. Qed.
Lemma first_left (P : item -> Prop) fs cs x y : In x fs -> P x -> First P (fs ++ cs) y -> In y fs.
Proof.
  intros I H (l1 & l2 & E & A & B). revert l1 E B. induction fs as [|z fs IH]; intros l1 E B; [destruct I|].
  destruct l1 as [|u l1]; cbn in E; injection E as -> E; [left; reflexivity|]. inversion B; subst.
  destruct I as [->|I]; [contradiction|]. right. eapply IH; eassumption.
Qed.
Lemma first_unique (P : item -> Prop) l x y : First P l x -> First P l y -> x = y.
Proof.
  intros (l1 & l2 & -> & A & B) (l3 & l4 & E & C & D). revert l3 E D. induction l1 as [|z l1 IH]; intros [|u l3] E D; cbn in E.
  - congruence.
  - injection E as -> _. inversion D; contradiction.
  - injection E as -> _. inversion B; contradiction.
  - injection E as -> E. inversion B; inversion D; subst. eauto.
Qed.
Lemma in_bases b l : In b (bases l) <-> exists z, In z l /\ Base (fst z) b.
Proof.
  unfold bases. rewrite in_map_iff. split; intros (z & A & B); exists z; [split; [exact B|apply base_iff; exact A]|split; [apply base_iff; exact B|exact A]].
Qed.

Lemma put_cases x z res : NoDup (bases res) -> In z (put x res) ->
  z = x /\ ~ In (base (fst x)) (bases res) \/
  z = x /\ snd x = Command /\ (exists y, In y res /\ base (fst y) = base (fst x) /\ snd y = File) \/
  In z res /\ base (fst z) <> base (fst x) \/
  In z res /\ base (fst z) = base (fst x) /\ ~ (snd z = File /\ snd x = Command).
Proof.
  induction res as [|y res IH]; intros ND I; cbn [put] in I.
  - destruct I as [<-|[]]. left. split; [reflexivity|intros []].
  - cbn [bases map] in ND. fold (bases res) in ND. inversion ND as [|? ? ND1 ND2]; subst.
    destruct (str_eqb_spec (base (fst y)) (base (fst x))) as [E|E].
    + assert (T : forall u, In u res -> base (fst u) <> base (fst x)).
      { intros u U X. apply ND1. rewrite E, <- X. apply (in_map (fun v : item => base (fst v))). exact U. }
      assert (C : (snd y = File /\ snd x = Command) /\ In z (x :: res) \/ ~ (snd y = File /\ snd x = Command) /\ In z (y :: res)).
      { destruct (snd y), (snd x); auto; right; (split; [intros [? ?]; discriminate|exact I]). }
      destruct C as [((C1 & C2) & [<-|J])|(C & [<-|J])].
      * right. left. split; [reflexivity|]. split; [exact C2|]. exists y. split; [left; reflexivity|auto].
      * right. right. left. split; [right; exact J|apply T; exact J].
      * right. right. right. split; [left; reflexivity|auto].
      * right. right. left. split; [right; exact J|apply T; exact J].
    + destruct I as [<-|I]; [right; right; left; split; [left; reflexivity|exact E]|].
      destruct (IH ND2 I) as [(A & B)|[(A & B & u & U & V)|[(A & B)|(A & B)]]].
      * left. split; [exact A|]. cbn [bases map In]. fold (bases res). tauto.
      * right. left. split; [exact A|]. split; [exact B|]. exists u. split; [right; exact U|exact V].
      * right. right. left. split; [right; exact A|exact B].
      * right. right. right. split; [right; exact A|exact B].
Qed.
Lemma inv_step l x res : Inv l res -> Inv (l ++ [x]) (put x res).
Proof.
  intros (ND & B & St). split; [|split].
  - rewrite put_bases. destruct (in_dec _ _ _) as [I|I]; [exact ND|]. apply nodup_app; [exact ND|constructor; [intros []|constructor]|].
    intros b J [<-|[]]. contradiction.
  - intros b. unfold bases at 2. rewrite map_app, in_app_iff. cbn [map In]. fold (bases l). rewrite put_bases, <- B.
    destruct (in_dec _ _ _) as [I|I]; [|rewrite in_app_iff; cbn; tauto]. split; [auto|]. intros [X|[<-|[]]]; assumption.
  - intros z I. destruct (put_cases x z res ND I) as [(-> & C)|[(-> & C & y & Y1 & Y2 & Y3)|[(C & D)|(C & D & F)]]].
    + rewrite B, in_bases in C. set (b := base (fst x)) in *.
      assert (BX : Base (fst x) b) by (apply base_iff; reflexivity). exists x. split; [apply first_new; [exact BX|]; intros u U V; apply C; eauto|].
      right. split; [|reflexivity]. destruct (snd x) eqn:L; [right|left; discriminate|left; discriminate].
      intros (u & U & V & W). apply in_app_iff in U as [U|[<-|[]]]; [apply C; eauto|congruence].
    + pose proof (St y Y1) as (y0 & F & H). rewrite Y2 in F, H. destruct H as [(H1 & H2)|([H|H] & H2)].
      * apply first_in in H2. destruct H2 as (_ & _ & H2). congruence.
      * congruence.
      * subst y0. exists y. split; [apply first_snoc; exact F|]. left. split; [exact Y3|]. apply first_new; [split; [apply base_iff; reflexivity|exact C]|].
        intros u U V. apply H. exists u. split; [exact U|exact V].
    + destruct (St z C) as (y & F & H). exists y. split; [apply first_snoc; exact F|].
      destruct H as [(H1 & H2)|(H & ->)]; [left; split; [exact H1|apply first_snoc; exact H2]|right; split; [|reflexivity]].
      destruct H as [H|H]; [left; exact H|right]. intros (u & U & V & W). apply in_app_iff in U as [U|[<-|[]]]; [apply H; eauto|].
      apply D. symmetry. apply base_iff. exact V.
    + destruct (St z C) as (y & F' & H). exists y. split; [apply first_snoc; exact F'|].
      destruct H as [(H1 & H2)|(H & ->)]; [left; split; [exact H1|apply first_snoc; exact H2]|right; split; [|reflexivity]].
      destruct H as [H|H]; [left; exact H|]. destruct (snd y) eqn:L; [right|left; discriminate|left; discriminate].
      intros (u & U & V & W). apply in_app_iff in U as [U|[<-|[]]]; [apply H; eauto|]. apply F. split; [reflexivity|exact W].
Qed.
Lemma dedup_snoc l x : deduplicate (l ++ [x]) = put x (deduplicate l).
Proof. unfold deduplicate. rewrite fold_left_app. reflexivity. Qed.
Lemma dedup_inv l : Inv l (deduplicate l).
Proof.
  induction l as [|x l IH] using rev_ind; [|rewrite dedup_snoc; apply inv_step; exact IH]. split; [constructor|]. split; [reflexivity|intros x []].
Qed.
Lemma stands_unique l b x y : Stands_for l b x -> Stands_for l b y -> x = y.
Proof.
  intros (u & F & H) (v & G & K). assert (v = u) by (eapply first_unique; eassumption). subst v.
  destruct H as [(H1 & H2)|(H & ->)], K as [(K1 & K2)|(K & ->)]; try reflexivity.
  - eapply first_unique; eassumption.
  - apply first_in in H2 as (A & B & C). destruct K as [K|K]; [congruence|]. destruct K. eauto.
  - apply first_in in K2 as (A & B & C). destruct H as [H|H]; [congruence|]. destruct H. eauto.
Qed.
Lemma stands_base l b x : Stands_for l b x -> Base (fst x) b /\ In x l.
Proof.
  intros (y & F & [(_ & H)|(_ & ->)]); [apply first_in in H; tauto|apply first_in in F; tauto].
Qed.
Lemma firsts_snoc seen l out b : Firsts seen l out ->
  Firsts seen (l ++ [b]) (if in_dec str_eq_dec b (seen ++ out) then out else out ++ [b]).
Proof.
  induction 1 as [seen|seen x l out I F IH|seen x l out I F IH]; cbn [app].
  - rewrite app_nil_r. destruct (in_dec str_eq_dec b seen); [apply f_skip|apply f_keep]; auto; constructor.
  - apply f_skip; assumption.
  - destruct (in_dec str_eq_dec b ((x :: seen) ++ out)) as [J|J], (in_dec str_eq_dec b (seen ++ x :: out)) as [K|K]; cbn [app].
    + apply f_keep; assumption.
    + destruct K. cbn [app] in J. rewrite in_app_iff. cbn. destruct J as [J|J]; [auto|]. apply in_app_iff in J. tauto.
    + destruct J. apply in_app_iff in K. cbn in K. cbn [app]. destruct K as [K|[K|K]]; [right; apply in_app_iff; auto|left; exact K|right; apply in_app_iff; auto].
    + apply f_keep; assumption.
Qed.
(** One candidate is left for every name (the text after the last slash), in the order in which the names
    come first: the first one of that name, or the first command instead of a file. *)
Theorem C238_one : forall l,
  Firsts [] (bases l) (bases (deduplicate l)) /\ NoDup (bases (deduplicate l)) /\
  forall x, In x (deduplicate l) <-> exists b, Stands_for l b x.
Proof.
  intros l. destruct (dedup_inv l) as (ND & B & St). split; [|split; [exact ND|]].
  - clear. induction l as [|x l IH] using rev_ind; [constructor|]. rewrite dedup_snoc, put_bases. unfold bases at 1. rewrite map_app. cbn [map].
    apply (firsts_snoc [] (bases l) (bases (deduplicate l)) (base (fst x)) IH).
  - intros x. split; [intros I; eexists; apply St; exact I|]. intros (b & H). destruct (stands_base _ _ _ H) as (H1 & H2).
    assert (I : In b (bases (deduplicate l))) by (apply B, in_bases; eauto). apply in_map_iff in I as (y & Y & I).
    pose proof (St y I) as K. rewrite Y in K. rewrite (stands_unique _ _ _ _ H K). exact I.
Qed.

(** ** C239: a word *)
Section Words.
Variable fuzzy : str -> str -> bool.
Variables (tilde : str -> str) (parent file_name : str -> option str).
Notation collect := (collect fuzzy tilde parent file_name).
Notation Offers := (Offers fuzzy).
Notation Has := (Has fuzzy).

(** a word without slashes that is not the name of a directory here *)
Definition Plain (w : world) (q : str) : Prop :=
  q <> [] /\ ~ In (chr "/") q /\ tilde q = q /\ parent q = Some [] /\ file_name q = Some q /\ is_dir w q = false /\ canonical w [] = None.
(** file names have no slashes, and a directory has every name once *)
Definition Sane (w : world) : Prop :=
  forall d es, read_dir w d = Some es -> NoDup (map name es) /\ forall e, In e es -> ~ In (chr "/") (name e).

Lemma files_iff w dir q n l : In (n, l) (files fuzzy w dir [] q) <->
  (l = File /\ Has w q dir n True \/ l = Dir /\ Has w q dir n False).
Proof.
  unfold files, Commands_Spec.Has. destruct (read_dir w dir) as [es|].
  - rewrite in_map_iff. cbn [app]. split.
    + intros (e & [= <- <-] & I). apply (Permutation_in _ (Permutation_sym (Frecency_Proofs.sort_perm _ _))) in I. apply filter_In in I as (I & M).
      apply matches_iff in M. destruct (what e) eqn:K; [left|right|right|right]; (split; [reflexivity|]); exists es, e; rewrite K; intuition discriminate.
    + intros [(-> & es' & e & [= <-] & I & <- & M & K)|(-> & es' & e & [= <-] & I & <- & M & K)]; exists e; (split;
        [|apply (Permutation_in _ (Frecency_Proofs.sort_perm _ _)); apply filter_In; split; [exact I|apply matches_iff; exact M]]).
      * rewrite (proj2 K Logic.I). reflexivity.
      * destruct (what e); try reflexivity. destruct (proj1 K eq_refl).
  - split; [intros []|]. intros [(_ & es & e & X & _)|(_ & es & e & X & _)]; discriminate.
Qed.
Lemma plain_collect w paths cwd q : Plain w q ->
  collect w paths cwd q = deduplicate (files fuzzy w cwd [] q ++ get_commands fuzzy w paths q) /\ ~ Named q.
Proof.
  intros (P0 & P1 & P2 & P3 & P4 & P5 & P6). split.
  - unfold Commands_Model.collect, place. rewrite P2, P5, P3, P4, P6. reflexivity.
  - assert (X : forall p, starts_with (p ++ lit "/") q = true -> False).
    { intros p E. apply starts_with_iff in E as (r & ->). apply P1. rewrite !in_app_iff. left. right. left. reflexivity. }
    intros [E|E]; [exact (X [] E)|exact (X (lit ".") E)].
Qed.
(** What is offered for such a word: the entries of the directory and the commands of PATH that match; a file
    gives way to the command of its name, and a command to what is here and no regular file. *)
Theorem C239_word_partial : forall w paths cwd q, Plain w q -> Sane w -> forall n,
  let command := exists d, In d paths /\ Offers w q d n in
  (In (n, Command) (collect w paths cwd q) <-> command /\ ~ Has w q cwd n False) /\
  (In (n, File) (collect w paths cwd q) <-> Has w q cwd n True /\ ~ command) /\
  (In (n, Dir) (collect w paths cwd q) <-> Has w q cwd n False).
Proof.
  intros w paths cwd q P Q n command. destruct (plain_collect w paths cwd q P) as (-> & NN).
  destruct (C237_once fuzzy w paths q NN) as (_ & CI).
  set (fs := files fuzzy w cwd [] q). set (cs := get_commands fuzzy w paths q) in *.
  assert (FN : forall m l, In (m, l) (fs ++ cs) -> ~ In (chr "/") m).
  { intros m l I. apply in_app_iff in I as [I|I].
    - apply files_iff in I as [(_ & es & e & R & J & <- & _)|(_ & es & e & R & J & <- & _)]; apply (proj2 (Q _ _ R)); exact J.
    - apply CI in I as (_ & d & _ & es & e & R & J & <- & _). apply (proj2 (Q _ _ R)). exact J. }
  assert (BN : forall m l b, In (m, l) (fs ++ cs) -> (Base m b <-> m = b)).
  { intros m l b I. rewrite <- base_iff, base_plain; [reflexivity|]. eapply FN; exact I. }
  assert (ONE : Has w q cwd n True -> Has w q cwd n False -> False).
  { intros (es & e & R & J & E & _ & K) (es' & e' & R' & J' & E' & _ & K'). rewrite R in R'. injection R' as <-.
    destruct (Q _ _ R) as (ND & _). assert (X : e = e').
    { rewrite <- E in E'. clear -ND J J' E'. induction es as [|y es IH]; [destruct J|]. cbn in ND. inversion ND; subst.
      destruct J as [->|J], J' as [->|J']; [reflexivity| | |auto]; exfalso; apply H1; [rewrite <- E'|rewrite E']; apply in_map; assumption. }
    subst. tauto. }
  assert (IN : forall l, In (n, l) (deduplicate (fs ++ cs)) <-> Stands_for (fs ++ cs) n (n, l)).
  { intros l. rewrite (proj2 (proj2 (C238_one (fs ++ cs)))). split; [|eauto]. intros (b & H). destruct (stands_base _ _ _ H) as (A & B).
    apply (BN _ _ _ B) in A. subst. exact H. }
  assert (DEC : forall P' : item -> Prop, (forall x, {P' x} + {~ P' x}) -> forall l : list item, (exists x, In x l /\ P' x) -> exists x, First P' l x).
  { intros P' D l (x & I & H). induction l as [|y l IH]; [destruct I|]. destruct (D y) as [Y|Y].
    - exists y, [], l. repeat split; auto.
    - destruct I as [->|I]; [contradiction|]. destruct (IH I) as (z & l1 & l2 & -> & A & B). exists z, (y :: l1), l2. repeat split; auto. }
  assert (DB : forall x : item, {Base (fst x) n} + {~ Base (fst x) n}).
  { intros x. destruct (str_eq_dec (base (fst x)) n) as [E|E]; [left; apply base_iff; exact E|right; intros X; apply base_iff in X; contradiction]. }
  assert (DC : forall x : item, {Base (fst x) n /\ snd x = Command} + {~ (Base (fst x) n /\ snd x = Command)}).
  { intros x. destruct (DB x); [|right; tauto]. destruct (snd x); [right|right|left]; try (intros [_ ?]; discriminate). auto. }
  assert (FS : forall m l, In (m, l) fs <-> (l = File /\ Has w q cwd m True \/ l = Dir /\ Has w q cwd m False)) by (intros m l; apply files_iff).
  (* the first candidate of the name *)
  assert (HD : Has w q cwd n False -> First (fun z => Base (fst z) n) (fs ++ cs) (n, Dir)).
  { intros H. assert (I : In (n, Dir) fs) by (apply FS; auto).
    destruct (DEC (fun z => Base (fst z) n) DB (fs ++ cs)) as ((m, l) & FF).
    { exists (n, Dir). split; [apply in_app_iff; auto|]. apply base_iff, base_plain. eapply FN. apply in_app_iff. left. exact I. }
    destruct (first_in _ _ _ FF) as (FI & FB). apply (BN _ _ _ FI) in FB. subst m.
    assert (X : l = Dir).
    { assert (IF : In (n, l) fs).
      { apply (first_left (fun z => Base (fst z) n) fs cs (n, Dir) (n, l) I); [|exact FF]. apply base_iff, base_plain. eapply FN. apply in_app_iff. left. exact I. }
      apply FS in IF as [(-> & K)|(-> & _)]; [destruct (ONE K H)|reflexivity]. }
    subst l. exact FF. }
  assert (HF : Has w q cwd n True -> First (fun z => Base (fst z) n) (fs ++ cs) (n, File)).
  { intros H. assert (I : In (n, File) fs) by (apply FS; auto).
    destruct (DEC (fun z => Base (fst z) n) DB (fs ++ cs)) as ((m, l) & FF).
    { exists (n, File). split; [apply in_app_iff; auto|]. apply base_iff, base_plain. eapply FN. apply in_app_iff. left. exact I. }
    destruct (first_in _ _ _ FF) as (FI & FB). apply (BN _ _ _ FI) in FB. subst m.
    assert (X : l = File).
    { assert (IF : In (n, l) fs).
      { apply (first_left (fun z => Base (fst z) n) fs cs (n, File) (n, l) I); [|exact FF]. apply base_iff, base_plain. eapply FN. apply in_app_iff. left. exact I. }
      apply FS in IF as [(-> & _)|(-> & K)]; [reflexivity|destruct (ONE H K)]. }
    subst l. exact FF. }
  assert (CM : (exists z, In z (fs ++ cs) /\ Base (fst z) n /\ snd z = Command) <-> command).
  { split.
    - intros ((m, l) & I & B & L). cbn [fst snd] in *. subst l. apply (BN _ _ _ I) in B. subst m. apply in_app_iff in I as [I|I].
      + apply FS in I as [(? & _)|(? & _)]; discriminate.
      + apply CI in I. apply I.
    - intros H. assert (J : In (n, Command) cs) by (apply CI; auto). exists (n, Command). split; [apply in_app_iff; auto|]. split; [|reflexivity].
      apply base_iff, base_plain. eapply FN. apply in_app_iff. right. exact J. }
  assert (FC : command -> First (fun z => Base (fst z) n /\ snd z = Command) (fs ++ cs) (n, Command)).
  { intros H. destruct (DEC _ DC (fs ++ cs) (proj2 CM H)) as ((m, l) & FF). destruct (first_in _ _ _ FF) as (FI & FB & FL). cbn in FL. subst l.
    apply (BN _ _ _ FI) in FB. subst m. exact FF. }
  rewrite !IN. split; [|split].
  - split.
    + intros ST. destruct (stands_base _ _ _ ST) as (B & I). split.
      * apply CM. exists (n, Command). auto.
      * intros H. destruct ST as (y & F & [(L & _)|(_ & E)]); pose proof (first_unique _ _ _ _ F (HD H)); subst; discriminate.
    + intros (C & ND). destruct (DEC (fun z => Base (fst z) n) DB (fs ++ cs)) as ((m, l) & FF).
      { destruct (proj2 CM C) as (z & Z1 & Z2 & _). eauto. }
      destruct (first_in _ _ _ FF) as (FI & FB). cbn [fst] in FB. apply (BN _ _ _ FI) in FB. subst m.
      exists (n, l). split; [exact FF|]. destruct l.
      * left. split; [reflexivity|apply FC; exact C].
      * apply in_app_iff in FI as [FI|FI]; [apply FS in FI as [(? & _)|(_ & K)]; [discriminate|contradiction]|apply CI in FI as (? & _); discriminate].
      * right. split; [left; discriminate|reflexivity].
  - split.
    + intros ST. destruct (stands_base _ _ _ ST) as (B & I). assert (K : Has w q cwd n True).
      { apply in_app_iff in I as [I|I]; [apply FS in I as [(_ & K)|(? & _)]; [exact K|discriminate]|apply CI in I as (? & _); discriminate]. }
      split; [exact K|]. intros C. destruct ST as (y & F & [(L & FX)|(L & <-)]).
      * apply first_in in FX. destruct FX as (_ & _ & X). discriminate.
      * destruct L as [L|L]; [destruct L; reflexivity|]. apply L, CM, C.
    + intros (K & NC). exists (n, File). split; [apply HF; exact K|]. right. split; [right; rewrite CM; exact NC|reflexivity].
  - split.
    + intros ST. destruct (stands_base _ _ _ ST) as (B & I). apply in_app_iff in I as [I|I]; [apply FS in I as [(? & _)|(_ & K)]; [discriminate|exact K]|apply CI in I as (? & _); discriminate].
    + intros H. exists (n, Dir). split; [apply HD; exact H|]. right. split; [left; discriminate|reflexivity].
Qed.
(** A command is not offered where something of its name is that is no regular file. *)
Theorem C239_hidden_refuted : forall w paths cwd q n es e, Plain w q -> Sane w ->
  read_dir w cwd = Some es -> In e es -> name e = n -> fuzzy n q = true -> what e <> Regular -> ~ In (n, Command) (collect w paths cwd q).
Proof.
  intros w paths cwd q n es e P Q R I E M K H. destruct (C239_word_partial w paths cwd q P Q n) as (A & _). apply A in H as (_ & H).
  apply H. exists es, e. intuition.
Qed.
(** A link to a file is offered as a directory. *)
Theorem C239_link_refuted : forall w paths cwd q es e, Plain w q -> Sane w ->
  read_dir w cwd = Some es -> In e es -> fuzzy (name e) q = true -> what e = Link -> In (name e, Dir) (collect w paths cwd q).
Proof.
  intros w paths cwd q es e P Q R I M K. destruct (C239_word_partial w paths cwd q P Q (name e)) as (_ & _ & A). apply A.
  exists es, e. rewrite K. intuition discriminate.
Qed.
(** For a word that is the name of a directory its entries are offered, and no command, not even one of that
    very name. *)
Theorem C239_directory : forall w paths cwd q es, is_dir w (tilde q) = true -> canonical w (tilde q) = Some (tilde q) ->
  read_dir w (tilde q) = Some es -> ends_with (lit "/") (tilde q) = false -> tilde q <> [] ->
  (exists es', Permutation es es' /\ StronglySorted (fun a b => ~ Before (name b) (name a)) es' /\
     collect w paths cwd q = map (fun e => (tilde q ++ lit "/" ++ name e, match what e with Regular => File | _ => Dir end)) es') /\
  forall n, ~ In (n, Command) (collect w paths cwd q).
Proof.
  intros w paths cwd q es D C R N1 N2.
  assert (E : collect w paths cwd q = map (fun e => (tilde q ++ lit "/" ++ name e, match what e with Regular => File | _ => Dir end)) (Frecency_Model.sort by_name es)).
  { unfold Commands_Model.collect, place. rewrite D, C. unfold files. rewrite R, N1. destruct (tilde q) as [|c t]; [congruence|].
    assert (F : filter (fun e => matches fuzzy [] (name e)) es = es) by (induction es as [|x es IH]; [reflexivity|]; cbn; f_equal; clear; induction es; cbn; congruence).
    rewrite F. apply map_ext. intros e. rewrite <- app_assoc. reflexivity. }
  split; [|intros n I; rewrite E in I; apply in_map_iff in I as (e & X & _); destruct (what e); discriminate].
  exists (Frecency_Model.sort by_name es). split; [apply Frecency_Proofs.sort_perm|]. split; [|exact E].
  apply (Views_Props.ordered_sorted by_name).
  - unfold by_name, text_leb, Before. intros x y H X. apply Frecency_Proofs.str_cmp_gt in X. rewrite X in H. discriminate.
  - apply Frecency_Proofs.sort_ordered; unfold by_name; [intros x y; apply leb_total|intros x y z; apply leb_trans].
Qed.
End Words.

(** ** C240: the cache in front *)

(** Without anything kept for the word or a beginning of it, what is shown is what there is. *)
Theorem C240_fresh_partial : forall now q fresh c, Menu_Model.lookup fst now q c = None -> fst (current now q fresh c) = fresh.
Proof. intros now q fresh c E. unfold current. rewrite E. reflexivity. Qed.
(** When nothing was found, nothing is kept: every later answer is as if it had not been asked. *)
Theorem C240_nothing_kept : forall now q c now' q' fresh, Menu_Model.lookup fst now q c = None ->
  current now' q' fresh (snd (current now q [] c)) = current now' q' fresh c.
Proof. intros now q c now' q' fresh E. unfold current at 2. rewrite E. reflexivity. Qed.
(** Within three seconds the same word shows the same candidates, in whatever directory the shell is by then and
    whatever has happened there. *)
Theorem C240_stale_refuted : forall now now' q fresh fresh' c, fresh <> [] -> Menu_Model.lookup fst now q c = None -> now' < now + 3000 ->
  fst (current now' q fresh' (snd (current now q fresh c))) = fresh.
Proof.
  intros now now' q fresh fresh' c N1 E L. unfold current at 2. rewrite E. cbn [snd]. destruct fresh as [|x fresh]; [congruence|].
  set (l := x :: fresh). unfold current. assert (K : Menu_Model.lookup fst now' q (Menu_Model.set ttl now q l c) = Some (q, l, true)).
  { unfold Menu_Model.lookup, Menu_Model.longest_live. unfold Menu_Model.get, Menu_Model.set. cbn [find fst option_map snd].
    rewrite str_eqb_refl. cbn [option_map snd]. unfold Menu_Model.live. cbn [Menu_Model.expires]. unfold ttl.
    apply Nat.ltb_lt in L. rewrite L. cbn [find fst]. rewrite str_eqb_refl. reflexivity. }
  rewrite K. reflexivity.
Qed.
(** Pressing again renews it: what is kept is shown for as long as the presses are less than three seconds apart. *)
Fixpoint presses (q : str) (times : list (nat * list item)) (c : Menu_Model.cache item) : list (list item) :=
  match times with
  | [] => []
  | (now, fresh) :: r => fst (current now q fresh c) :: presses q r (snd (current now q fresh c))
  end.
Fixpoint close_together (now : nat) (times : list (nat * list item)) : Prop :=
  match times with [] => True | (t, _) :: r => now <= t /\ t < now + 3000 /\ close_together t r end.
Theorem C240_renewed_refuted : forall times now q fresh c, fresh <> [] -> Menu_Model.lookup fst now q c = None -> close_together now times ->
  presses q ((now, fresh) :: times) c = fresh :: map (fun _ => fresh) times.
Proof.
  intros times now q fresh c N1 E H. cbn [presses]. unfold current. rewrite E. cbn [fst snd]. f_equal. destruct fresh as [|x fresh]; [congruence|]. set (l := x :: fresh) in *.
  assert (G : forall times now c, Menu_Model.get c q = Some (Menu_Model.Entry l (now + ttl)) -> close_together now times -> presses q times c = map (fun _ => l) times).
  { clear. intros times. induction times as [|(t, f) times IH]; intros now c G H; [reflexivity|]. destruct H as (H1 & H2 & H3). cbn [presses map].
    assert (LV : Menu_Model.live t (Menu_Model.Entry l (now + ttl)) = true) by (unfold Menu_Model.live; cbn; apply Nat.ltb_lt; unfold ttl; exact H2).
    assert (K : Menu_Model.lookup fst t q c = Some (q, l, true)).
    { unfold Menu_Model.lookup, Menu_Model.longest_live. unfold item in *. rewrite G, LV. cbv beta iota. rewrite ?G. reflexivity. }
    unfold current. rewrite K. cbn [fst snd]. f_equal. apply (IH t); [|exact H3]. clear -G LV. unfold Menu_Model.get, Menu_Model.extend, Menu_Model.purge in *.
    induction c as [|(k, e) c IHc]; [discriminate|]. cbn [find filter fst snd] in *. destruct (str_eqb_spec k q) as [->|NE].
    - cbn [option_map snd] in G. injection G as ->. rewrite LV. cbn [map fst snd]. rewrite str_eqb_refl. cbn [find fst]. rewrite str_eqb_refl. reflexivity.
    - destruct (Menu_Model.live t e); [|apply IHc; exact G]. cbn [map fst snd]. destruct (str_eqb_spec k q) as [X|_]; [contradiction|]. cbn [find fst].
      destruct (str_eqb_spec k q) as [X|_]; [contradiction|]. apply IHc. exact G. }
  apply (G times now); [|exact H]. unfold Menu_Model.get, Menu_Model.set. cbn [find fst]. rewrite str_eqb_refl. reflexivity.
Qed.
(** After a beginning of the word was completed, candidates that do not begin with the word are lost, though
    they match it, and nothing at all may be shown. *)
Theorem C240_longer_refuted : exists now c q fresh x, In x fresh /\ fst (current now q fresh c) = [] /\
  c = snd (current 0 (lit "g") fresh []) /\ fst (current now q fresh []) = fresh.
Proof. exists 1000, (snd (current 0 (lit "g") [(lit "config", File); (lit "git", Command)] [])), (lit "gf"), [(lit "config", File); (lit "git", Command)], (lit "config", File).
  split; [left; reflexivity|]. vm_compute. auto. Qed.

Print Assumptions C237_offered. Print Assumptions C237_once. Print Assumptions C237_named_refuted. Print Assumptions C237_link_refuted.
Print Assumptions C238_one. Print Assumptions C239_word_partial. Print Assumptions C239_hidden_refuted. Print Assumptions C239_link_refuted.
Print Assumptions C239_directory. Print Assumptions C240_fresh_partial. Print Assumptions C240_nothing_kept. Print Assumptions C240_stale_refuted. Print Assumptions C240_renewed_refuted.
Print Assumptions C240_longer_refuted.

Definition some_world : world :=
  World (fun d => if str_eqb d (lit "/bin") then Some [Entry (lit "test") Regular true; Entry (lit "make") Regular true; Entry (lit "notes") Regular false]
                  else if str_eqb d (lit "/usr/bin") then Some [Entry (lit "make") Regular true; Entry (lit "gone") Link true]
                  else if str_eqb d (lit "/w") then Some [Entry (lit "test") Directory true; Entry (lit "make") Regular false; Entry (lit "me") Link true] else None)
        (fun _ => false) (fun _ => false) (fun _ => None).
Definition holds (n q : str) : bool := forallb (fun c => mem_char c n) q.
Example C237_case : get_commands holds some_world [lit "/usr/bin"; lit "/bin"] (lit "e") = [(lit "gone", Command); (lit "make", Command); (lit "test", Command)].
Proof. reflexivity. Qed.
Example C239_case :
  Plain (fun q => q) (fun _ => Some []) Some some_world (lit "e") /\ Sane some_world /\
  collect holds (fun q => q) (fun _ => Some []) Some some_world [lit "/usr/bin"; lit "/bin"] (lit "/w") (lit "e") =
    [(lit "make", Command); (lit "me", Dir); (lit "test", Dir); (lit "gone", Command)].
Proof.
  split; [|split; [|reflexivity]].
  - repeat split; try discriminate. intros [X|[]]. discriminate.
  - intros d es. cbn [read_dir some_world]. repeat (destruct (str_eqb d _); [intros [= <-]; split;
      [repeat (constructor; [intros X; apply mem_str_iff in X; vm_compute in X; discriminate X|]); constructor|intros e I; repeat (destruct I as [<-|I]; [intros X; apply mem_char_iff in X; vm_compute in X; discriminate X|]); destruct I]|]). discriminate.
Qed.
Example C240_case : Menu_Model.lookup fst 5 (lit "g") ([] : Menu_Model.cache item) = None /\ close_together 5 [(2000, []); (4500, [])].
Proof. split; [reflexivity|]. cbn. lia. Qed.
