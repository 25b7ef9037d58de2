From Verif Require Import Base Output_Model Output_Spec Output_Props Env_Model Env_Spec.

(** * C22, continued: reading the variables *)

Lemma denotes_head prefix key n : denotes prefix key n ->
  exists r, key = prefix ++ r \/ key = chr "$" :: prefix ++ r.
Proof.
  induction 1 as [|t n H1 H2|name n H [r [-> | ->]] Hno].
  - exists []. rewrite app_nil_r. auto.
  - eauto.
  - eauto.
  - exfalso. eapply Hno. reflexivity.
Qed.

Lemma out_err_disjoint key m n : denotes (lit "OUT") key m -> denotes (lit "ERR") key n -> False.
Proof.
  intros H1 H2. apply denotes_head in H1 as [r1 [H1|H1]], H2 as [r2 [H2|H2]]; subst key; discriminate.
Qed.

Theorem C22_out_and_err_read_captures : forall e key n,
  (denotes (lit "OUT") key n ->
   get_var e key = if (n =? 0)%N then None else option_map out (nth_error (entries (history e)) (N.to_nat n - 1))) /\
  (denotes (lit "ERR") key n ->
   get_var e key = if (n =? 0)%N then None else option_map err (nth_error (entries (history e)) (N.to_nat n - 1))).
Proof.
  assert (G : forall h n, get h (N.to_nat n) = if (n =? 0)%N then None else nth_error (entries h) (N.to_nat n - 1)).
  { intros h n. destruct (N.eqb_spec n 0) as [->|Hn]; [reflexivity|].
    destruct (nth_error (entries h) (N.to_nat n - 1)) eqn:E.
    - apply get_iff. split; [lia|exact E].
    - unfold get. apply nth_error_None in E.
      replace (N.to_nat n =? 0) with false by (symmetry; apply Nat.eqb_neq; lia).
      replace (length (entries h) <? N.to_nat n) with true by (symmetry; apply Nat.ltb_lt; lia). reflexivity. }
  intros e key n. split; intros H; unfold get_var.
  - apply C22_output_names_exact in H; [|auto]. rewrite H, G. destruct (n =? 0)%N; reflexivity.
  - destruct (parse_output_var key (lit "OUT")) as [m|] eqn:E.
    + apply C22_output_names_exact in E; [|auto]. destruct (out_err_disjoint _ _ _ E H).
    + apply C22_output_names_exact in H; [|auto]. rewrite H, G. destruct (n =? 0)%N; reflexivity.
Qed.
Print Assumptions C22_out_and_err_read_captures.

Theorem C22_other_names_not_intercepted : forall e h key,
  (forall n, ~ denotes (lit "OUT") key n) -> (forall n, ~ denotes (lit "ERR") key n) ->
  get_var (Env (variables e) (exported e) (system e) (paths e) (cache e) h (mcp e)) key = get_var e key.
Proof.
  intros e h key H1 H2. unfold get_var.
  destruct (parse_output_var key (lit "OUT")) as [m|] eqn:E1.
  { apply C22_output_names_exact in E1; [|auto]. destruct (H1 _ E1). }
  destruct (parse_output_var key (lit "ERR")) as [m|] eqn:E2; [|reflexivity].
  apply C22_output_names_exact in E2; [|auto]. destruct (H2 _ E2).
Qed.
Print Assumptions C22_other_names_not_intercepted.

Example C22_reading_case :
  let h := History [Entry [] (lit "new") (lit "e1") 0; Entry [] (lit "old") (lit "e2") 0] 10 100 0 100 in
  let e := Env [(lit "OUTER", lit "x")] [] [] [] [] h (fun _ => None) in
  map (get_var e) [lit "$OUT"; lit "OUT[2]"; lit "$ERR[2]"; lit "OUT[3]"; lit "OUT[0]"; lit "OUTER"]
  = [Some (lit "new"); Some (lit "old"); Some (lit "e2"); None; None; Some (lit "x")]
  /\ denotes (lit "OUT") (lit "OUT[2]") 2.
Proof.
  split; [vm_compute; reflexivity|]. apply C22_output_names_exact; [auto|]. vm_compute. reflexivity.
Qed.

(** * C34: the environment of child processes *)

Lemma assoc_remove k k' m : assoc k (remove k' m) = if str_eq_dec k k' then None else assoc k m.
Proof.
  induction m as [|[x v] m IH]; simpl; [destruct (str_eq_dec k k'); reflexivity|].
  destruct (str_eqb_spec k' x) as [->|Hx]; simpl.
  - rewrite IH. destruct (str_eq_dec k x) as [->|Hk]; [reflexivity|].
    destruct (str_eqb_spec k x); [congruence|reflexivity].
  - rewrite IH. destruct (str_eqb_spec k x) as [->|Hk]; destruct (str_eq_dec _ k'); try congruence; reflexivity.
Qed.

Lemma assoc_insert k k' v m : assoc k (insert k' v m) = if str_eq_dec k k' then Some v else assoc k m.
Proof.
  unfold insert. simpl. destruct (str_eqb_spec k k') as [->|H].
  - destruct (str_eq_dec k' k'); congruence.
  - rewrite assoc_remove. destruct (str_eq_dec k k'); congruence.
Qed.

Lemma fold_exported e : forall ks m n,
  assoc n (fold_left (fun m k => match assoc k (variables e) with Some v => insert k v m | None => m end) ks m)
  = if in_dec str_eq_dec n ks then match assoc n (variables e) with Some v => Some v | None => assoc n m end else assoc n m.
Proof.
  induction ks as [|k ks IH]; intros m n; simpl; [reflexivity|]. rewrite IH.
  destruct (in_dec str_eq_dec n ks) as [H|H].
  - destruct (str_eq_dec k n) as [->|Hk].
    + destruct (assoc n (variables e)) eqn:E; [|reflexivity].
      reflexivity.
    + destruct (assoc n (variables e)); [reflexivity|].
      destruct (assoc k (variables e)); [|reflexivity]. rewrite assoc_insert. destruct (str_eq_dec n k); congruence.
  - destruct (str_eq_dec k n) as [->|Hk].
    + destruct (assoc n (variables e)) eqn:E; [|reflexivity]. rewrite assoc_insert. destruct (str_eq_dec n n); congruence.
    + destruct (assoc k (variables e)); [|reflexivity]. rewrite assoc_insert. destruct (str_eq_dec n k); congruence.
Qed.

(** Helper commands (safe-run and the like) get the inherited environment overridden
    by exported variables, in every iteration order. *)
Theorem C34_helper_environment_exact : forall e name,
  assoc name (child_process_env e) = child_sees e name.
Proof.
  intros e name. unfold child_process_env, child_sees.
  assert (E : forall n, assoc n (fold_left (fun m k => match assoc k (variables e) with Some v => insert k v m | None => m end)
                          (exported e) (system e)) = effective e n).
  { intros n. rewrite fold_exported. reflexivity. }
  rewrite E. fold TERM.
  destruct (effective e TERM) as [[|c r]|] eqn:Et;
    rewrite ?assoc_insert, ?E; destruct (str_eq_dec name TERM) as [->|Hn]; rewrite ?Et; try reflexivity;
    destruct (effective e name) as [[|c' r']|]; reflexivity.
Qed.
Print Assumptions C34_helper_environment_exact.

(** `export NAME` for an inherited variable removes it from the environment of every
    external command (while helper commands still see it). *)
Theorem C34_launched_environment_refuted : exists ops vars h m e,
  e = erun (fun _ => Missing) (env_new vars h m) ops /\
  assoc PATH (system e) = Some (lit "/bin") /\
  child_sees e PATH = Some (lit "/bin") /\
  forall v, ~ In (PATH, v) (prepared_env e).
Proof.
  exists [EExport PATH], [(PATH, lit "/bin")], (with_capacity 1 1 1), (fun _ => None). eexists.
  split; [reflexivity|]. split; [vm_compute; reflexivity|]. split; [vm_compute; reflexivity|].
  intros v. vm_compute. intuition discriminate.
Qed.
Print Assumptions C34_launched_environment_refuted.

Lemma assoc_in k v m : assoc k m = Some v -> In (k, v) m.
Proof.
  induction m as [|[x w] m IH]; simpl; [discriminate|]. destruct (str_eqb_spec k x) as [->|H]; [intros [= ->]; auto|auto].
Qed.
Lemma in_assoc k v m : NoDup (map fst m) -> In (k, v) m -> assoc k m = Some v.
Proof.
  induction m as [|[x w] m IH]; simpl; [tauto|]. intros Hn Hi. inversion Hn as [|? ? Hx Hm]; subst.
  destruct Hi as [[= -> ->]|Hi]; [rewrite str_eqb_refl; reflexivity|].
  destruct (str_eqb_spec k x) as [->|H]; [|auto]. exfalso. apply Hx. apply in_map_iff. exists (x, v). auto.
Qed.

Lemma mem_str_dec x l : mem_str x l = if in_dec str_eq_dec x l then true else false.
Proof. destruct (in_dec _ _ _) as [H|H]; [apply mem_str_iff, H|apply mem_str_false, H]. Qed.

Definition nul_free (s : str) : Prop := ~ In 0%N s.

Lemma c_string_ok_iff k v : c_string_ok (k, v) = true <-> nul_free k /\ nul_free v.
Proof.
  unfold c_string_ok, nul_free. simpl. rewrite andb_true_iff, !negb_true_iff, <- !mem_char_iff.
  destruct (mem_char 0%N k), (mem_char 0%N v); intuition congruence.
Qed.

(** External commands see exactly the same, provided every exported name has a value
    as a shell variable; each name occurs once. *)
Theorem C34_launched_environment_partial : forall e,
  well_formed e -> (forall k, In k (exported e) -> assoc k (variables e) <> None) ->
  NoDup (map fst (prepared_env e)) /\
  forall name value, In (name, value) (prepared_env e) <->
    child_sees e name = Some value /\ nul_free name /\ nul_free value.
Proof.
  intros e [W1 W2] Hx. unfold prepared_env.
  set (sys := filter _ (system e)). set (exp := flat_map _ (exported e)).
  set (term_set := existsb _ (exported e) || _).
  assert (S : forall n v, In (n, v) sys <-> assoc n (system e) = Some v /\ ~ In n (exported e) /\
     (n = TERM -> v <> []) /\ nul_free n /\ nul_free v).
  { intros n v. unfold sys. rewrite filter_In. rewrite !andb_true_iff, c_string_ok_iff. simpl.
    rewrite negb_true_iff, mem_str_false. split.
    - intros (A & (B & C) & D). split; [apply in_assoc; auto|]. split; [exact B|]. split; [|exact D].
      intros -> ->. rewrite str_eqb_refl in C. discriminate.
    - intros (A & B & C & D). split; [apply assoc_in, A|]. split; [|exact D]. split; [exact B|].
      destruct (str_eqb_spec n TERM) as [E|E]; [|reflexivity]. destruct v; [|reflexivity]. destruct (C E eq_refl). }
  assert (X : forall n v, In (n, v) exp <-> In n (exported e) /\ assoc n (variables e) = Some v /\
     (n = TERM -> v <> []) /\ nul_free n /\ nul_free v).
  { intros n v. unfold exp. rewrite in_flat_map. split.
    - intros (k & Hk & H). destruct (assoc k (variables e)) as [w|] eqn:E; [|destruct H].
      destruct (str_eqb k TERM && negb (non_empty w)) eqn:Et; [destruct H|].
      destruct (c_string_ok (k, w)) eqn:Ec; [|destruct H]. destruct H as [[= -> ->]|[]].
      apply c_string_ok_iff in Ec. split; [exact Hk|]. split; [exact E|]. split; [|exact Ec].
      intros -> ->. rewrite str_eqb_refl in Et. discriminate.
    - intros (A & B & C & D). exists n. split; [exact A|]. rewrite B.
      replace (str_eqb n TERM && negb (non_empty v)) with false.
      + apply c_string_ok_iff in D. rewrite D. left. reflexivity.
      + symmetry. destruct (str_eqb_spec n TERM) as [E|E]; [|reflexivity]. destruct v; [|reflexivity]. destruct (C E eq_refl). }
  assert (T : term_set = true <-> exists c r, effective e TERM = Some (c :: r)).
  { unfold term_set, effective. rewrite orb_true_iff, existsb_exists, mem_str_dec.
    destruct (in_dec str_eq_dec TERM (exported e)) as [Hi|Hi].
    - specialize (Hx _ Hi). split.
      + intros [(k & Hk & H)|H]; [|discriminate]. apply andb_true_iff in H as [H1 H2]. apply str_eqb_eq in H1. subst k.
        destruct (assoc TERM (variables e)) as [[|c r]|]; try discriminate. eauto.
      + destruct (assoc TERM (variables e)) as [w|] eqn:E; [|congruence]. intros (c & r & [= ->]). left.
        exists TERM. split; [exact Hi|]. rewrite str_eqb_refl, E. reflexivity.
    - split.
      + intros [(k & Hk & H)|H].
        * apply andb_true_iff in H as [H1 H2]. apply str_eqb_eq in H1. subst k. tauto.
        * destruct (assoc TERM (system e)) as [[|c r]|]; try discriminate. eauto.
      + intros (c & r & ->). right. reflexivity. }
  assert (Eff : forall n v, effective e n = Some v <->
     (In n (exported e) /\ assoc n (variables e) = Some v) \/ (~ In n (exported e) /\ assoc n (system e) = Some v)).
  { intros n v. unfold effective. destruct (in_dec str_eq_dec n (exported e)) as [Hi|Hi]; [|tauto].
    specialize (Hx _ Hi). destruct (assoc n (variables e)) as [w|]; [|congruence]. tauto. }
  split.
  - rewrite !map_app. 
    assert (Ns : NoDup (map fst sys)).
    { unfold sys. clear - W1. induction (system e) as [|p m IH]; [constructor|]. simpl in W1. inversion W1 as [|? ? A B]; subst.
      simpl. destruct (_ && _); [|auto]. simpl. constructor; [|auto]. intros H. apply A.
      apply in_map_iff in H as (q & <- & H). apply in_map. apply filter_In in H. tauto. }
    assert (Ne : NoDup (map fst exp)).
    { unfold exp. clear - W2. induction (exported e) as [|k ks IH]; [constructor|]. inversion W2 as [|? ? A B]; subst.
      simpl. rewrite map_app. 
      assert (NoDup (map fst (flat_map (fun k => match assoc k (variables e) with
                       | Some v => if str_eqb k TERM && negb (non_empty v) then []
                                   else if c_string_ok (k, v) then [(k, v)] else []
                       | None => []
                       end) ks)) -> ~ In k (map fst (flat_map (fun k => match assoc k (variables e) with
                       | Some v => if str_eqb k TERM && negb (non_empty v) then []
                                   else if c_string_ok (k, v) then [(k, v)] else []
                       | None => []
                       end) ks))) as Hk.
      { intros _ H. apply in_map_iff in H as ([k' v] & E & H). simpl in E. subst k'. apply in_flat_map in H as (x & Hxx & H).
        destruct (assoc x (variables e)); [|destruct H]. destruct (_ && _); [destruct H|].
        destruct (c_string_ok _); [|destruct H]. destruct H as [[= -> _]|[]]. contradiction. }
      destruct (assoc k (variables e)); [|auto]. destruct (_ && _); [auto|]. destruct (c_string_ok _); [|auto].
      simpl. constructor; auto. }
    assert (Disj : forall n, In n (map fst sys) -> In n (map fst exp) -> False).
    { intros n H1 H2. apply in_map_iff in H1 as ([a v] & <- & H1), H2 as ([b w] & E & H2). simpl in E. subst b.
      apply S in H1 as (_ & H1 & _). apply X in H2 as (H2 & _). contradiction. }
    assert (Nt : term_set = false -> ~ In TERM (map fst sys) /\ ~ In TERM (map fst exp)).
    { intros Ht. split; intros H; apply in_map_iff in H as ([a v] & E & H); simpl in E; subst a.
      - apply S in H as (A & B & C & _). destruct v as [|c r]; [destruct (C eq_refl eq_refl)|].
        assert (term_set = true); [|congruence]. apply T. exists c, r. apply Eff. auto.
      - apply X in H as (A & B & C & _). destruct v as [|c r]; [destruct (C eq_refl eq_refl)|].
        assert (term_set = true); [|congruence]. apply T. exists c, r. apply Eff. auto. }
    assert (App : forall a b : list str, NoDup a -> NoDup b -> (forall n, In n a -> In n b -> False) -> NoDup (a ++ b)).
    { induction a as [|x a IH]; intros b Ha Hb Hd; simpl; [exact Hb|]. inversion Ha; subst. constructor.
      - rewrite in_app_iff. intros [H|H]; [contradiction|]. apply (Hd x); simpl; auto.
      - apply IH; auto. intros n I1 I2. apply (Hd n); simpl; auto. }
    apply App; [exact Ns| |].
    + apply App; [exact Ne|destruct term_set; repeat constructor; simpl; tauto|].
      intros n H1 H2. destruct term_set eqn:Ht; [destruct H2|]. destruct H2 as [<-|[]]. apply (proj2 (Nt eq_refl)), H1.
    + intros n H1 H2. apply in_app_iff in H2 as [H2|H2]; [eauto|].
      destruct term_set eqn:Ht; [destruct H2|]. destruct H2 as [<-|[]]. apply (proj1 (Nt eq_refl)), H1.
  - intros n v. rewrite !in_app_iff, S, X. unfold child_sees. fold TERM. split.
    + intros [(A & B & C & D)|[(A & B & C & D)|H]].
      * assert (E : effective e n = Some v) by (apply Eff; auto). rewrite E.
        destruct v; [destruct (str_eq_dec n TERM) as [En|En]; [destruct (C En eq_refl)|]|]; auto.
      * assert (E : effective e n = Some v) by (apply Eff; auto). rewrite E.
        destruct v; [destruct (str_eq_dec n TERM) as [En|En]; [destruct (C En eq_refl)|]|]; auto.
      * destruct term_set eqn:Ht; [destruct H|]. destruct H as [[= <- <-]|[]].
        destruct (str_eq_dec TERM TERM) as [_|]; [|congruence].
        destruct (effective e TERM) as [[|c r]|] eqn:E.
        -- repeat split; unfold nul_free; vm_compute; intuition discriminate.
        -- assert (false = true) by (apply T; eauto). discriminate.
        -- repeat split; unfold nul_free; vm_compute; intuition discriminate.
    + intros (H & D). destruct (effective e n) as [w|] eqn:E.
      * destruct w as [|c r].
        -- destruct (str_eq_dec n TERM) as [En|En].
           ++ injection H as <-. subst n. right. right. destruct term_set eqn:Ht.
              ** destruct (proj1 T eq_refl) as (c & r & Ht2). congruence.
              ** left. reflexivity.
           ++ injection H as <-. apply Eff in E as [(A & B)|(A & B)]; [right; left|left]; repeat split; auto; try apply D; congruence.
        -- injection H as <-. apply Eff in E as [(A & B)|(A & B)]; [right; left|left]; repeat split; auto; try apply D; discriminate.
      * destruct (str_eq_dec n TERM) as [En|En]; [|discriminate]. injection H as <-. subst n. right. right.
        destruct term_set eqn:Ht; [|left; reflexivity]. destruct (proj1 T eq_refl) as (c & r & Ht2). congruence.
Qed.
Print Assumptions C34_launched_environment_partial.

(** every session keeps names unique, so the theorem applies to reachable states *)
Theorem C34_sessions_are_well_formed : forall fs vars h m ops,
  NoDup (map fst vars) -> well_formed (erun fs (env_new vars h m) ops).
Proof.
  intros fs vars h m ops Hv.
  assert (Rem : forall k l, NoDup (map fst l) -> NoDup (map fst (remove k l)) /\ ~ In k (map fst (remove k l))).
  { intros k l. unfold remove. induction l as [|[x v] l IH]; simpl; [split; [constructor|tauto]|]. intros H.
    inversion H as [|? ? A B]; subst. destruct (IH B) as [C D]. destruct (str_eqb_spec k x) as [->|Hk]; simpl; [auto|].
    split; [constructor; [|exact C]|intros [E|E]; [congruence|contradiction]].
    intros Hin. apply A. apply in_map_iff in Hin as (q & <- & Hq). apply filter_In in Hq. apply in_map. tauto. }
  assert (Ins : forall k v l, NoDup (map fst l) -> NoDup (map fst (insert k v l))).
  { intros k v l H. unfold insert. simpl. destruct (Rem k l H). constructor; auto. }
  assert (Add : forall k l, NoDup l -> NoDup (add k l)).
  { intros k l H. unfold add. destruct (mem_str k l) eqn:E; [exact H|]. constructor; [apply mem_str_false, E|exact H]. }
  unfold erun. assert (W : well_formed (env_new vars h m)).
  { split; simpl; [exact Hv|constructor]. }
  revert W. generalize (env_new vars h m). induction ops as [|o ops IH]; intros e W; cbn [fold_left]; [exact W|].
  apply IH. destruct W as [W1 W2]. destruct o; simpl.
  - unfold set_env_var. destruct (str_eqb k PATH); split; cbn; auto; apply (Ins k v _ W1).
  - unfold unset_env_var. destruct (str_eqb k PATH); split; cbn; auto; apply Rem, W1.
  - split; simpl; auto.
  - split; simpl; auto.
  - split; simpl; auto.
  - split; simpl; auto.
  - unfold lookup. destruct (_ || _); [split; auto|]. destruct (cached _ _); split; auto.
Qed.
Print Assumptions C34_sessions_are_well_formed.

Example C34_case :
  let e := Env [(lit "A", lit "1"); (lit "B", lit "2")] [lit "A"] [(lit "A", lit "0"); (lit "TERM", lit "")] [] [] (with_capacity 1 1 1) (fun _ => None) in
  well_formed e /\ prepared_env e = [(lit "A", lit "1"); (TERM, default_term)].
Proof.
  simpl. split; [|vm_compute; reflexivity]. split; simpl; repeat constructor; simpl; intuition discriminate.
Qed.

(** * C35: command lookup *)

Lemma search_path_first fs dirs cmd : first_file fs dirs cmd (search_path fs dirs cmd).
Proof.
  unfold first_file. induction dirs as [|d dirs IH]; simpl; [tauto|].
  destruct (fs (join d cmd)) as [| |x] eqn:E; simpl.
  3: { exists [], d, dirs. repeat split; eauto. }
  all: destruct (search_path fs dirs cmd) as [p|];
    [ destruct IH as (b & d' & a & -> & -> & Hx & Hb); exists (d :: b), d', a; repeat split; auto;
      intros y [<-|Hy] x; [congruence|auto]
    | intros y [<-|Hy] x; [congruence|auto] ].
Qed.

Definition no_add_path (o : eop) : Prop := match o with EAddPath _ => False | _ => True end.

(** In any session without add_path: a name without leading / or ./ resolves to the
    first directory of the current PATH holding a file of that name, however often and
    in whatever order lookups were made before. *)
Theorem C35_lookup_follows_path_partial : forall fs vars h m ops cmd,
  Forall no_add_path ops ->
  starts_with (lit "/") cmd = false -> starts_with (lit "./") cmd = false ->
  let e := erun fs (env_new vars h m) ops in
  first_file fs (search_dirs e) cmd (fst (lookup fs e cmd)).
Proof.
  intros fs vars h m ops cmd Hops H1 H2 e.
  assert (Inv : paths e = search_dirs e /\ forall c r, cached c (cache e) = Some r -> r = search_path fs (paths e) c).
  { unfold e, erun. assert (I0 : paths (env_new vars h m) = search_dirs (env_new vars h m) /\
      forall c r, cached c (cache (env_new vars h m)) = Some r -> r = search_path fs (paths (env_new vars h m)) c).
    { split; [reflexivity|]. simpl. discriminate. }
    clear e. revert I0 Hops. generalize (env_new vars h m). induction ops as [|o ops IH]; intros e I0 Hops; cbn [fold_left]; [exact I0|].
    inversion Hops; subst. apply IH; [|assumption]. destruct I0 as [I1 I2]. destruct o; cbn [estep no_add_path] in *; try contradiction; auto.
    - unfold set_env_var. destruct (str_eqb_spec k PATH) as [->|Hk].
      + split; [reflexivity|]. simpl. discriminate.
      + split; [|exact I2]. cbn [paths set_system]. rewrite I1. unfold search_dirs. cbn [system set_system]. fold PATH.
        rewrite assoc_insert. destruct (str_eq_dec PATH k); [congruence|reflexivity].
    - unfold unset_env_var. destruct (str_eqb_spec k PATH) as [->|Hk].
      + split; [reflexivity|]. simpl. discriminate.
      + split; [|exact I2]. cbn [paths set_system]. rewrite I1. unfold search_dirs. cbn [system set_system]. fold PATH.
        rewrite assoc_remove. destruct (str_eq_dec PATH k); [congruence|reflexivity].
    - unfold lookup. destruct (_ || _); [auto|]. destruct (cached cmd0 (cache e)) eqn:Ec; [auto|].
      split; [exact I1|]. simpl. intros c r. destruct (str_eqb_spec c cmd0) as [->|Hc]; [intros [= <-]; reflexivity|apply I2]. }
  destruct Inv as [I1 I2]. unfold lookup. rewrite H1, H2. cbn [orb].
  destruct (cached cmd (cache e)) as [r|] eqn:Ec; cbn [fst].
  - rewrite (I2 _ _ Ec), I1. apply search_path_first.
  - rewrite I1. apply search_path_first.
Qed.
Print Assumptions C35_lookup_follows_path_partial.

Example C35_case :
  let fs := fun p => if str_eqb p (lit "/b/ls") then File true else Missing in
  let e := erun fs (env_new [(PATH, lit "/a:/b")] (with_capacity 1 1 1) (fun _ => None)) [ELookup (lit "cat"); ELookup (lit "ls")] in
  fst (lookup fs e (lit "ls")) = Some (lit "/b/ls") /\ search_dirs e = [lit "/a"; lit "/b"].
Proof. vm_compute. auto. Qed.

(** explicit paths name themselves *)
Theorem C35_explicit_paths : forall fs e cmd,
  starts_with (lit "/") cmd = true \/ starts_with (lit "./") cmd = true ->
  lookup fs e cmd = ((if is_file (fs cmd) then Some cmd else None), e).
Proof.
  intros fs e cmd H. unfold lookup. replace (starts_with (lit "/") cmd || starts_with (lit "./") cmd) with true; [reflexivity|].
  symmetry. apply orb_true_iff. exact H.
Qed.
Print Assumptions C35_explicit_paths.

(** add_path does not forget what was looked up before: the directory put first is
    not searched for names already used (found or not). *)
Theorem C35_add_path_takes_effect_refuted : exists fs vars h m,
  let e := erun fs (env_new vars h m) [ELookup (lit "ls"); EAddPath (lit "/new")] in
  paths e = [lit "/new"; lit "/bin"] /\ fs (lit "/new/ls") = File true /\
  fst (lookup fs e (lit "ls")) = Some (lit "/bin/ls").
Proof.
  exists (fun _ => File true), [(PATH, lit "/bin")], (with_capacity 1 1 1), (fun _ => None).
  vm_compute. auto.
Qed.
Print Assumptions C35_add_path_takes_effect_refuted.

(** `export PATH=dir` changes the PATH children get but not the shell's own lookup. *)
Theorem C35_exported_path_is_searched_refuted : exists fs vars h m,
  let e := erun fs (env_new vars h m) [EExportValue PATH (lit "/new")] in
  child_sees e PATH = Some (lit "/new") /\ fs (lit "/new/tool") = File true /\
  fst (lookup fs e (lit "tool")) = None.
Proof.
  exists (fun p => if str_eqb p (lit "/new/tool") then File true else Missing), [(PATH, lit "/bin")], (with_capacity 1 1 1), (fun _ => None).
  vm_compute. auto.
Qed.
Print Assumptions C35_exported_path_is_searched_refuted.

(** A file without execute permission in an earlier directory hides the program. *)
Theorem C35_only_executables_found_refuted : exists fs vars h m,
  let e := erun fs (env_new vars h m) [] in
  fst (lookup fs e (lit "tool")) = Some (lit "/a/tool") /\ fs (lit "/a/tool") = File false /\
  fs (lit "/b/tool") = File true /\ search_dirs e = [lit "/a"; lit "/b"].
Proof.
  exists (fun p => if str_eqb p (lit "/a/tool") then File false else File true), [(PATH, lit "/a:/b")], (with_capacity 1 1 1), (fun _ => None).
  vm_compute. auto.
Qed.
Print Assumptions C35_only_executables_found_refuted.
