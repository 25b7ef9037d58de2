(** C227-C230: what the chat's tools show of the files. *)
From Verif Require Import Base.
From Verif Require Direnv_Model Direnv_Proofs Lread_Model Frecency_Model Frecency_Proofs Views_Props.
From Verif Require Import Search_Model Search_Spec.
From Coq Require Import Sorting.Permutation Sorting.Sorted.

Lemma path_eqb_iff a b : path_eqb a b = true <-> a = b.
Proof.
  revert b. induction a as [|x a IH]; intros [|y b]; cbn [path_eqb]; try (split; [discriminate|congruence]); [split; reflexivity|].
  rewrite andb_true_iff, str_eqb_eq, IH. split; [intros [-> ->]; reflexivity|intros E; injection E as -> ->; split; reflexivity].
Qed.
Lemma strip_iff base p r : strip_prefix base p = Some r <-> p = base ++ r.
Proof.
  revert p. induction base as [|b base IH]; intros p; cbn [strip_prefix app]; [split; [intros E; injection E as ->; reflexivity|intros ->; reflexivity]|].
  destruct p as [|c p]; [split; discriminate|]. destruct (str_eqb b c) eqn:E.
  - apply str_eqb_eq in E. subst c. rewrite IH. split; [intros ->; reflexivity|intros E; injection E as ->; reflexivity].
  - split; [discriminate|]. intros X. injection X as -> _. rewrite str_eqb_refl in E. discriminate.
Qed.
Lemma matched_last rs x p d : matched (rs ++ [x]) p d = match x p d with Some b => Some b | None => matched rs p d end.
Proof. unfold matched. rewrite fold_left_app. reflexivity. Qed.
Lemma ignores_iff rs p d : ignores rs p d = true <-> Told_to_ignore rs p d.
Proof.
  unfold ignores. induction rs as [|x rs IH] using rev_ind.
  - split; [discriminate|]. intros (a & r & b & E & _). destruct a; discriminate.
  - rewrite matched_last. destruct (x p d) as [v|] eqn:X.
    + split.
      * destruct v; [|discriminate]. intros _. exists rs, x, []. split; [reflexivity|]. split; [exact X|intros r' []].
      * intros (a & r & b & E & T & N). destruct (exists_last (l := r :: b) ltac:(discriminate)) as (m & y & Em). rewrite Em, app_assoc in E. apply app_inj_tail in E. destruct E as [_ <-].
        destruct b as [|z b]; [apply (app_inj_tail [] m) in Em; destruct Em as [_ ->]; rewrite X in T; injection T as ->; reflexivity|].
        destruct m as [|m0 m]; [discriminate|]. injection Em as _ Em. rewrite N in X by (rewrite Em; apply in_app_iff; right; left; reflexivity). discriminate.
    + rewrite IH. split.
      * intros (a & r & b & -> & T & N). exists a, r, (b ++ [x]). split; [rewrite <- app_assoc; reflexivity|]. split; [exact T|]. intros r' I. apply in_app_iff in I. destruct I as [I|[<-|[]]]; [apply N; exact I|exact X].
      * intros (a & r & b & E & T & N). destruct (exists_last (l := r :: b) ltac:(discriminate)) as (m & y & Em). rewrite Em, app_assoc in E. apply app_inj_tail in E. destruct E as [-> <-].
        destruct b as [|z b]; [apply (app_inj_tail [] m) in Em; destruct Em as [_ ->]; congruence|].
        destruct m as [|m0 m]; [discriminate|]. injection Em as -> Em. exists a, m0, m. split; [reflexivity|]. split; [exact T|]. intros r' I. apply N. rewrite Em, in_app_iff. left. exact I.
Qed.
Lemma passed_iff base rest q : In q (passed base rest) <-> exists m r, rest = m ++ r /\ m <> [] /\ q = base ++ m.
Proof.
  revert base. induction rest as [|c rest IH]; intros base; cbn [passed In].
  - split; [intros []|]. intros (m & r & E & N & _). destruct m; [congruence|discriminate].
  - rewrite IH. split.
    + intros [<-|(m & r & -> & N & ->)]; [exists [c], rest; repeat split; discriminate|]. exists (c :: m), r. split; [reflexivity|]. split; [discriminate|]. rewrite <- app_assoc. reflexivity.
    + intros (m & r & E & N & ->). destruct m as [|c' m]; [congruence|]. injection E as <- ->. destruct m as [|x m]; [left; reflexivity|]. right. exists (x :: m), r. split; [reflexivity|]. split; [discriminate|]. rewrite <- app_assoc. reflexivity.
Qed.

Section Git.
Variable rule_of : str -> option rule.
Variable is_dir : path -> bool.
Notation is_ignored := (is_ignored rule_of is_dir).
Notation rules := (rules rule_of).

Lemma rules_some ls rs : rules ls = Some rs <-> map rule_of ls = map Some rs.
Proof.
  revert rs. induction ls as [|l ls IH]; intros rs; cbn [Search_Model.rules map].
  - destruct rs as [|y rs]; [split; reflexivity|split; intros X; [injection X as X; discriminate X|discriminate X]].
  - destruct (rule_of l) as [x|]; [|destruct rs; split; discriminate]. destruct (rules ls) as [xs|].
    + destruct rs as [|y rs]; [split; discriminate|]. cbn [map]. split.
      * intros E. injection E as -> ->. f_equal. apply IH. reflexivity.
      * intros E. injection E as -> E. apply IH in E. congruence.
    + split; [discriminate|]. destruct rs as [|y rs]; [discriminate|]. cbn [map]. intros E. injection E as _ E. apply IH in E. discriminate.
Qed.
(** ** C227 *)
(** when every line of the current folder's .gitignore is well formed, a path is refused exactly
    when it or a folder on the way to it is ignored *)
Theorem C227_refused_partial : forall git base ls rs p, git base = Lines ls -> map rule_of ls = map Some rs ->
  (is_ignored git p base = true <-> Ignored rs is_dir base p).
Proof.
  intros git base ls rs p G R. apply rules_some in R. unfold Search_Model.is_ignored. rewrite G, R, orb_true_iff, ignores_iff. unfold Ignored. split; (intros [H|H]; [left; exact H|right]).
  - destruct (strip_prefix base p) as [r|] eqn:Sp; [|discriminate]. apply strip_iff in Sp. apply existsb_exists in H. destruct H as (q & I & Q). apply andb_true_iff in Q. destruct Q as [N T]. apply passed_iff in I. destruct I as (m & t & E & Nm & ->). apply ignores_iff in T.
    exists m, t. split; [rewrite Sp, E; reflexivity|]. split; [exact Nm|]. split; [|exact T]. intros ->. rewrite app_nil_r in E. subst r. assert (X : path_eqb (base ++ m) p = true) by (apply path_eqb_iff; symmetry; exact Sp). rewrite X in N. discriminate.
  - destruct H as (m & r & E & Nm & Nr & T). rewrite (proj2 (strip_iff base p (m ++ r)) E). apply existsb_exists. exists (base ++ m). split; [apply passed_iff; exists m, r; repeat split; assumption|]. rewrite (proj2 (ignores_iff _ _ _) T), andb_true_r. apply negb_true_iff. destruct (path_eqb (base ++ m) p) eqn:Q; [|reflexivity]. apply path_eqb_iff in Q. exfalso. apply Nr. rewrite E, app_assoc in Q. symmetry in Q. rewrite <- (app_nil_r (base ++ m)) in Q at 2. apply app_inv_head in Q. exact Q.
Qed.
(** one malformed line anywhere in the file, and nothing is refused any more *)
Theorem C227_one_bad_line_refuted : forall git base a l b p, git base = Lines (a ++ l :: b) -> rule_of l = None -> is_ignored git p base = false.
Proof.
  intros git base a l b p G B. unfold Search_Model.is_ignored. rewrite G. assert (R : rules (a ++ l :: b) = None) by (clear G; induction a as [|x a IH]; cbn [app Search_Model.rules]; [rewrite B; reflexivity|rewrite IH; destruct (rule_of x); reflexivity]). rewrite R. reflexivity.
Qed.
(** only the file in the current folder counts: no other one, not the repository's, changes anything *)
Theorem C227_other_files_refuted : forall git git' base p, git base = git' base -> is_ignored git p base = is_ignored git' p base.
Proof. intros git git' base p E. unfold Search_Model.is_ignored. rewrite E. reflexivity. Qed.
(** what is refused is not read, and what is not is read *)
Theorem C227_read : forall git content p base,
  (is_ignored git p base = true -> read_text rule_of is_dir git content p base = None) /\
  (is_ignored git p base = false -> read_text rule_of is_dir git content p base = content p).
Proof. intros git content p base. unfold read_text. split; intros ->; reflexivity. Qed.

(** ** C228 *)
(** the listing has a line for every entry that is not refused, and for no other, in the order of names *)
Lemma before_total a b : before a b = false -> before b a = true.
Proof. unfold before. rewrite (Frecency_Proofs.str_cmp_sym (name a) (name b)). destruct (Frecency_Model.str_cmp (name a) (name b)); cbn; congruence. Qed.
Lemma before_spec a b : before a b = true <-> Frecency_Model.str_cmp (name a) (name b) <> Gt.
Proof. unfold before. destruct (Frecency_Model.str_cmp (name a) (name b)); split; congruence. Qed.
Lemma before_trans a b c : before a b = true -> before b c = true -> before a c = true.
Proof.
  rewrite !before_spec. intros A B H. destruct (Frecency_Model.str_cmp (name a) (name b)) eqn:E1; [apply Frecency_Proofs.str_cmp_eq in E1; rewrite E1 in H; contradiction| |contradiction].
  destruct (Frecency_Model.str_cmp (name b) (name c)) eqn:E2; [apply Frecency_Proofs.str_cmp_eq in E2; rewrite <- E2 in H; congruence| |contradiction]. assert (X := Frecency_Proofs.str_lt_trans _ _ _ E1 E2). congruence.
Qed.
Definition ent_line (e : dirent) (l : str) : Prop :=
  exists t sz sp, l = t ++ lit " " ++ sp ++ sz ++ lit " " ++ name e ++ [10%N] /\ Forall (fun c => c = 32%N) sp /\ length sp = 8 - length sz /\
    ((exists n, meta e = Some (true, n)) /\ t = lit "d" /\ sz = lit "-" \/ (exists n, meta e = Some (false, n) /\ sz = Lread_Model.show_nat n) /\ t = lit "-" \/ meta e = None /\ t = lit "?" /\ sz = lit "?").
Lemma blanks8 n : Forall (fun c => c = 32%N) (repeat 32%N n).
Proof. apply Forall_forall. intros x I. apply repeat_spec in I. exact I. Qed.
Lemma entry_line_spec e : ent_line e (entry_line e).
Proof.
  unfold ent_line, entry_line, pad8. destruct (meta e) as [[[] n]|].
  - exists (lit "d"), (lit "-"), (repeat 32%N 7). split; [rewrite <- !app_assoc; reflexivity|]. split; [apply blanks8|]. split; [reflexivity|]. left. split; [exists n; reflexivity|]. split; reflexivity.
  - exists (lit "-"), (Lread_Model.show_nat n), (repeat 32%N (8 - length (Lread_Model.show_nat n))). split; [change (lit "- ") with (lit "-" ++ lit " "); rewrite <- !app_assoc; reflexivity|]. split; [apply blanks8|]. split; [apply repeat_length|]. right. left. split; [exists n; split; reflexivity|reflexivity].
  - exists (lit "?"), (lit "?"), (repeat 32%N 7). split; [rewrite <- !app_assoc; reflexivity|]. split; [apply blanks8|]. split; [reflexivity|]. right. right. repeat split.
Qed.
Theorem C228_listed : forall git said dir base es out, list_folder rule_of is_dir git said dir base (Some es) = Some out ->
  exists es' ls, Permutation es' (filter (fun e => negb (is_ignored git (dir ++ [name e]) base)) es) /\
    StronglySorted (fun a b => Frecency_Model.str_cmp (name a) (name b) <> Gt) es' /\ Forall2 ent_line es' ls /\
    out = lit "Directory listing for `" ++ said ++ lit "`:" ++ [10%N] ++ (match es' with [] => lit "(empty directory)" | _ => concat ls end).
Proof.
  intros git said dir base es out H. unfold list_folder in H. destruct (is_ignored git dir base); [discriminate|]. injection H as <-. unfold shown_entries. set (v := filter _ es).
  exists (Frecency_Model.sort before v), (map entry_line (Frecency_Model.sort before v)). split; [symmetry; apply Frecency_Proofs.sort_perm|]. split.
  - apply (Views_Props.ordered_sorted before); [intros x y X; apply before_spec; exact X|]. apply Frecency_Proofs.sort_ordered; [exact before_total|exact before_trans].
  - split; [induction (Frecency_Model.sort before v) as [|e l IH]; constructor; [apply entry_line_spec|exact IH]|]. rewrite <- flat_map_concat_map. destruct (Frecency_Model.sort before v); reflexivity.
Qed.
(** a folder that is refused is not listed *)
Theorem C228_refused : forall git said dir base es, is_ignored git dir base = true -> list_folder rule_of is_dir git said dir base es = None.
Proof. intros git said dir base es I. unfold list_folder. rewrite I. reflexivity. Qed.
(** a folder of which every entry is refused is called empty *)
Theorem C228_empty_refuted : forall git said dir base es, is_ignored git dir base = false -> (forall e, In e es -> is_ignored git (dir ++ [name e]) base = true) ->
  list_folder rule_of is_dir git said dir base (Some es) = Some (lit "Directory listing for `" ++ said ++ lit "`:" ++ [10%N] ++ lit "(empty directory)").
Proof.
  intros git said dir base es I A. unfold list_folder. rewrite I. unfold shown_entries. assert (F : filter (fun e => negb (is_ignored git (dir ++ [name e]) base)) es = []).
  { induction es as [|e es IH]; [reflexivity|]. cbn [filter]. rewrite (A e (or_introl eq_refl)). cbn [negb]. apply IH. intros x X. apply A. right. exact X. }
  rewrite F. reflexivity.
Qed.
End Git.

(** ** C229 *)
Section Walked.
Variable repository : bool.
Variable rs : list rule.
Notation walk := (walk repository rs).
Notation Reached := (Reached repository rs).
Lemma skips_false p nm m : skips repository rs p nm m = false <-> (forall r, nm <> chr "." :: r) /\ (repository = true -> ~ Told_to_ignore rs (p ++ [nm]) m).
Proof.
  unfold skips. rewrite orb_false_iff, andb_false_iff. split.
  - intros [H K]. split.
    + intros r ->. discriminate.
    + intros R T. destruct K as [K|K]; [congruence|]. apply ignores_iff in T. congruence.
  - intros [H K]. split.
    + destruct (hidden nm) eqn:E; [|reflexivity]. apply starts_with_iff in E. destruct E as [r E]. destruct (H r E).
    + destruct repository; [|left; reflexivity]. right. destruct (ignores rs (p ++ [nm]) m) eqn:E; [|reflexivity]. apply ignores_iff in E. destruct (K eq_refl E).
Qed.
Definition below (p : path) := (fix go l := match l with (nm, m) :: r => (if skips repository rs p nm (is_folder m) then [] else walk (p ++ [nm]) m) ++ go r | [] => [] end).
Lemma walk_folder p l : walk p (Folder l) = (p, Folder l) :: below p l.
Proof. reflexivity. Qed.
Lemma below_in p l x : In x (below p l) <-> exists nm m, In (nm, m) l /\ skips repository rs p nm (is_folder m) = false /\ In x (walk (p ++ [nm]) m).
Proof.
  induction l as [|[nm m] l IH]; cbn [below].
  - split; [intros []|]. intros (nm & m & [] & _).
  - fold (below p). rewrite in_app_iff, IH. split.
    + intros [H|(nm' & m' & I & S & H)]; [|exists nm', m'; split; [right; exact I|split; assumption]]. destruct (skips repository rs p nm (is_folder m)) eqn:S; [destruct H|]. exists nm, m. split; [left; reflexivity|split; assumption].
    + intros (nm' & m' & [E|I] & S & H); [injection E as -> ->; left; rewrite S; exact H|]. right. exists nm', m'. repeat split; assumption.
Qed.
Fixpoint depth (n : node) : nat := match n with Folder l => S ((fix go l := match l with (_, m) :: r => Nat.max (depth m) (go r) | [] => 0 end) l) | _ => 0 end.
Lemma depth_in l nm m : In (nm, m) l -> depth m < depth (Folder l).
Proof.
  induction l as [|[k x] l IH]; [intros []|]. intros [E|I]; [injection E as -> ->; cbn [depth]; lia|]. specialize (IH I). cbn [depth] in *. lia.
Qed.
Lemma reached_under root n : forall p m, Reached root n p m -> forall k q, Reached q k root n -> Reached q k p m.
Proof. intros p m H k q R. induction H as [|p l nm' m H IH I A B]; [exact R|]. exact (Down _ _ _ _ p l nm' m IH I A B). Qed.
Lemma walk_iff root n p m : In (p, m) (walk root n) <-> Reached root n p m.
Proof.
  split.
  - remember (depth n) as k eqn:K. revert n root K p m. induction k as [k IH] using lt_wf_ind. intros n root K p m H.
    destruct n as [ls| |l]; [destruct H as [H|[]]; injection H as <- <-; constructor|destruct H as [H|[]]; injection H as <- <-; constructor|].
    rewrite walk_folder in H. destruct H as [H|H]; [injection H as <- <-; constructor|]. apply below_in in H. destruct H as (nm & m' & I & S & H). apply skips_false in S. destruct S as [S1 S2].
    specialize (IH (depth m') ltac:(rewrite K; apply (depth_in l nm); exact I) m' (root ++ [nm]) eq_refl p m H).
    apply (reached_under (root ++ [nm]) m' p m IH (Folder l) root). apply (Down _ _ root (Folder l) root l nm m'); [constructor|exact I|exact S1|exact S2].
  - assert (T : forall k root n p l nm c, depth n = k -> In (p, Folder l) (walk root n) -> In (nm, c) l -> skips repository rs p nm (is_folder c) = false -> In (p ++ [nm], c) (walk root n)).
    { clear. induction k as [k IH] using lt_wf_ind. intros root n p l nm c K H I S. destruct n as [ls| |l0]; [destruct H as [H|[]]; discriminate|destruct H as [H|[]]; discriminate|].
      rewrite walk_folder in H |- *. destruct H as [H|H].
      - injection H as <- <-. right. apply below_in. exists nm, c. split; [exact I|]. split; [exact S|]. destruct c; left; reflexivity.
      - right. apply below_in in H. destruct H as (nm' & m' & I' & S' & H). apply below_in. exists nm', m'. split; [exact I'|]. split; [exact S'|]. apply (IH (depth m') ltac:(rewrite <- K; apply (depth_in l0 nm'); exact I') _ _ p l nm c eq_refl H I S). }
    intros H. induction H as [|p l nm m H IH I A B]; [destruct n; left; reflexivity|]. apply (T (depth n) root n p l nm m eq_refl IH I). apply skips_false. split; assumption.
Qed.
End Walked.
Definition hits (hit : path * node -> option str) (es : list (path * node)) : list str := flat_map (fun e => match hit e with Some x => [x] | None => [] end) es.
Lemma collect_hits hit n es : collect hit n es = firstn (50 - n) (hits hit es).
Proof.
  revert n. induction es as [|e es IH]; intros n; cbn [collect hits flat_map]; [rewrite firstn_nil; reflexivity|]. unfold max_results. destruct (Nat.leb_spec 50 n) as [L|L].
  - replace (50 - n) with 0 by lia. reflexivity.
  - replace (50 - n) with (S (50 - S n)) by lia. destruct (hit e) as [x|]; cbn [app].
    + cbn [firstn]. rewrite IH. reflexivity.
    + rewrite IH. fold (hits hit es). replace (S (50 - S n)) with (50 - n) by lia. reflexivity.
Qed.
Lemma first_line_iff query i ls k l : first_line query i ls = Some (k, l) <->
  exists j, k = i + j /\ nth_error ls j = Some (Some l) /\ contains query l = true /\ forall j' l', j' < j -> nth_error ls j' = Some (Some l') -> contains query l' = false.
Proof.
  revert i. induction ls as [|o ls IH]; intros i; cbn [first_line].
  - split; [discriminate|]. intros (j & _ & H & _). destruct j; discriminate.
  - assert (Z : (exists j, k = S i + j /\ nth_error ls j = Some (Some l) /\ contains query l = true /\ forall j' l', j' < j -> nth_error ls j' = Some (Some l') -> contains query l' = false) /\ (forall l', o = Some l' -> contains query l' = false) <->
      exists j, j <> 0 /\ k = i + j /\ nth_error (o :: ls) j = Some (Some l) /\ contains query l = true /\ forall j' l', j' < j -> nth_error (o :: ls) j' = Some (Some l') -> contains query l' = false).
    { split.
      - intros [(j & -> & A & B & C) O]. exists (S j). split; [discriminate|]. split; [lia|]. split; [exact A|]. split; [exact B|]. intros [|j'] l' L X; [apply O; injection X as ->; reflexivity|]. apply (C j' l'); [lia|exact X].
      - intros ([|j] & N & -> & A & B & C); [congruence|]. split; [exists j; split; [lia|]; split; [exact A|]; split; [exact B|]; intros j' l' L X; apply (C (S j') l'); [lia|exact X]|]. intros l' ->. apply (C 0 l'); [lia|reflexivity]. }
    destruct o as [x|].
    + destruct (contains query x) eqn:Q.
      * split; [intros E; injection E as <- <-; exists 0; split; [lia|]; split; [reflexivity|]; split; [exact Q|]; intros j' l' L; lia|]. intros ([|j] & -> & A & B & C); [injection A as ->; rewrite Nat.add_0_r; reflexivity|]. rewrite (C 0 x) in Q by (lia || reflexivity). discriminate.
      * rewrite IH. split.
        -- intros H. assert (O : forall l', Some x = Some l' -> contains query l' = false) by (intros l' E; injection E as <-; exact Q). assert (H' := proj1 Z (conj H O)). destruct H' as (j & _ & H'). exists j. exact H'.
        -- intros (j & E & A & B & C). apply Z. exists j. split; [intros ->; injection A as ->; congruence|]. split; [exact E|]. split; [exact A|]. split; [exact B|exact C].
    + rewrite IH. split.
      * intros H. assert (O : forall l' : str, None = Some l' -> contains query l' = false) by (intros l' E; discriminate E). assert (H' := proj1 Z (conj H O)). destruct H' as (j & _ & H'). exists j. exact H'.
      * intros (j & E & A & B & C). apply Z. exists j. split; [intros ->; discriminate|]. split; [exact E|]. split; [exact A|]. split; [exact B|exact C].
Qed.
Lemma content_iff query cwd p n x : content_hit query cwd (p, n) = Some x <-> First_with query cwd p n x.
Proof.
  unfold content_hit, First_with. cbn [fst snd]. split.
  - destruct n as [[ls|]| |l0]; try discriminate. destruct (first_line query 0 ls) as [[i l]|] eqn:F; [|discriminate]. destruct (strip_prefix cwd p) as [r|] eqn:Sp; [|discriminate]. intros E. injection E as <-. apply strip_iff in Sp. apply first_line_iff in F. destruct F as (j & -> & A & B & C).
    exists ls, j, l, r. split; [reflexivity|]. split; [exact A|]. split; [apply contains_iff; exact B|]. split; [|split; [exact Sp|reflexivity]]. intros j' l' L X Y. apply contains_iff in Y. rewrite (C j' l' L X) in Y. discriminate.
  - intros (ls & i & l & r & -> & A & B & C & -> & ->). assert (F : first_line query 0 ls = Some (i, l)).
    { apply first_line_iff. exists i. split; [reflexivity|]. split; [exact A|]. split; [apply contains_iff; exact B|]. intros j' l' L X. destruct (contains query l') eqn:Y; [|reflexivity]. apply contains_iff in Y. destruct (C j' l' L X Y). }
    rewrite F, (proj2 (strip_iff cwd (cwd ++ r) r) eq_refl). reflexivity.
Qed.
Lemma results_some repository rs k query cwd root n x : In x (results repository rs k query cwd root n) -> exists p m, Reached repository rs root n p m /\ hit_of k query cwd (p, m) = Some x.
Proof.
  unfold results. rewrite collect_hits. intros H. assert (I : In x (hits (hit_of k query cwd) (walk repository rs root n))) by (rewrite <- (firstn_skipn (50 - 0)); apply in_app_iff; left; exact H).
  apply in_flat_map in I. destruct I as ([p m] & I & J). apply walk_iff in I. exists p, m. split; [exact I|]. destruct (hit_of k query cwd (p, m)); [destruct J as [->|[]]; reflexivity|destruct J].
Qed.
Lemma results_all repository rs k query cwd root n : length (results repository rs k query cwd root n) < 50 -> forall p m x, Reached repository rs root n p m -> hit_of k query cwd (p, m) = Some x -> In x (results repository rs k query cwd root n).
Proof.
  unfold results. rewrite collect_hits. intros L p m x R H. assert (I : In x (hits (hit_of k query cwd) (walk repository rs root n))) by (apply in_flat_map; exists (p, m); split; [apply walk_iff; exact R|rewrite H; left; reflexivity]).
  rewrite firstn_length in L. rewrite firstn_all2 by lia. exact I.
Qed.
(** what is shown of a search for text: of files the walk reaches, the first line that has it; all of them
    when fewer than fifty are shown, and never more than fifty *)
Theorem C229_found : forall repository rs query cwd root n, let found := results repository rs By_content query cwd root n in
  length found <= 50 /\
  (forall x, In x found -> exists p m, Reached repository rs root n p m /\ First_with query cwd p m x) /\
  (length found < 50 -> forall p m x, Reached repository rs root n p m -> First_with query cwd p m x -> In x found).
Proof.
  intros repository rs query cwd root n found. split; [unfold found, results; rewrite collect_hits, firstn_length; lia|]. split.
  - intros x I. apply results_some in I. destruct I as (p & m & R & H). exists p, m. split; [exact R|]. apply content_iff. exact H.
  - intros L p m x R H. apply (results_all _ _ By_content _ _ _ _ L p m x R). apply content_iff. exact H.
Qed.
Lemma count_lines found : Forall (fun r : str => ~ In 10%N r) found -> length (Direnv_Model.lines (flat_map (fun r => lit "- " ++ r ++ [10%N]) found)) = length found.
Proof.
  set (F := fun r : str => lit "- " ++ r ++ [10%N]). induction 1 as [|r found N _ IH]; [reflexivity|].
  assert (E : flat_map F (r :: found) = (lit "- " ++ r) ++ 10%N :: flat_map F found) by (change (flat_map F (r :: found)) with (F r ++ flat_map F found); unfold F at 1; rewrite <- !app_assoc; reflexivity).
  etransitivity; [exact (f_equal (fun x => length (Direnv_Model.lines x)) E)|]. cbv beta. rewrite Direnv_Proofs.lines_nl; [cbn [length]; exact (f_equal S IH)|]. intros I. apply in_app_iff in I. destruct I as [I|I]; [vm_compute in I; intuition discriminate|exact (N I)].
Qed.
(** the note that results are missing is there exactly when fifty or more are shown *)
Theorem C229_note_partial : forall query said found, ~ In 10%N query -> ~ In 10%N said -> Forall (fun r : str => ~ In 10%N r) found -> found <> [] ->
  answer query said found = lit "Search results for `" ++ query ++ lit "` in `" ++ said ++ lit "`:" ++ [10%N] ++ flat_map (fun r => lit "- " ++ r ++ [10%N]) found ++ (if 50 <=? length found then lit "... (results truncated)" else []).
Proof.
  intros query said found Q P F N. set (body := flat_map (fun r : str => lit "- " ++ r ++ [10%N]) found). set (head := lit "Search results for `" ++ query ++ lit "` in `" ++ said ++ lit "`:" ++ [10%N]).
  assert (L : length (Direnv_Model.lines (head ++ body)) = S (length found)).
  { assert (E : head ++ body = (lit "Search results for `" ++ query ++ lit "` in `" ++ said ++ lit "`:") ++ 10%N :: body) by (unfold head; rewrite <- !app_assoc; reflexivity).
    rewrite E, Direnv_Proofs.lines_nl; [cbn [length]; exact (f_equal S (count_lines found F))|]. intros I. repeat (apply in_app_iff in I; destruct I as [I|I]); try exact (Q I); try exact (P I); vm_compute in I; intuition discriminate. }
  assert (A : answer query said found = (head ++ body) ++ if 50 <? length (Direnv_Model.lines (head ++ body)) then lit "... (results truncated)" else []) by (destruct found as [|f found]; [congruence|reflexivity]).
  rewrite A, L. change (50 <? S (length found)) with (50 <=? length found). unfold head. rewrite <- !app_assoc. reflexivity.
Qed.
(** so with exactly fifty hits the answer claims that more were left out *)
Theorem C229_note_refuted : forall repository rs k query said cwd root n, let all := hits (hit_of k query cwd) (walk repository rs root n) in
  length all = 50 -> ~ In 10%N query -> ~ In 10%N said -> Forall (fun r : str => ~ In 10%N r) all ->
  results repository rs k query cwd root n = all /\ exists a, answer query said (results repository rs k query cwd root n) = a ++ lit "... (results truncated)".
Proof.
  intros repository rs k query said cwd root n all L Q P F. assert (E : results repository rs k query cwd root n = all) by (unfold results; rewrite collect_hits; apply firstn_all2; fold all; lia). split; [exact E|]. rewrite E.
  rewrite C229_note_partial by (try assumption; intros X; rewrite X in L; discriminate). rewrite L. cbn [Nat.leb]. rewrite !app_assoc. eexists. reflexivity.
Qed.
(** nothing outside the current folder is shown: a search in the folder of skills finds nothing *)
Theorem C229_skills_refuted : forall repository rs k query cwd root n, (forall r r', root ++ r <> cwd ++ r') -> results repository rs k query cwd root n = [].
Proof.
  intros repository rs k query cwd root n D. destruct (results repository rs k query cwd root n) as [|x xs] eqn:E; [reflexivity|]. exfalso. destruct (results_some repository rs k query cwd root n x) as (p & m & R & H); [rewrite E; left; reflexivity|].
  assert (U : exists r, p = root ++ r) by (clear H; induction R as [|p l nm m R IH I A B]; [exists []; rewrite app_nil_r; reflexivity|destruct IH as [r ->]; exists (r ++ [nm]); rewrite app_assoc; reflexivity]).
  destruct U as [r ->]. assert (S : exists r', strip_prefix cwd (root ++ r) = Some r').
  { destruct k; cbn [hit_of] in H; [unfold name_hit in H|unfold content_hit in H]; cbn [fst snd] in H.
    - destruct (is_folder m); [discriminate|]. destruct (_ || _); [|discriminate]. destruct (strip_prefix cwd (root ++ r)) as [r'|]; [exists r'; reflexivity|discriminate].
    - destruct m as [[ls|]| |l]; try discriminate. destruct (first_line query 0 ls) as [[i l]|]; [|discriminate]. destruct (strip_prefix cwd (root ++ r)) as [r'|]; [exists r'; reflexivity|discriminate]. }
  destruct S as [r' S]. apply strip_iff in S. exact (D r r' S).
Qed.
(** a file in an ignored folder: reading it is refused, and so is listing the folder, but a search that
    starts in the folder shows its lines, as long as the rules do not name the file itself *)
Theorem C229_ignored_folder_refuted : forall rule_of is_dir git base ls rs m nm lines content query i l,
  git base = Lines ls -> map rule_of ls = map Some rs -> m <> [] -> Told_to_ignore rs (base ++ m) true -> ~ Told_to_ignore rs (base ++ m ++ [nm]) false -> (forall r, nm <> chr "." :: r) ->
  nth_error lines i = Some (Some l) -> (exists a b, l = a ++ query ++ b) -> (forall j l', j < i -> nth_error lines j = Some (Some l') -> ~ exists a b, l' = a ++ query ++ b) ->
  read_text rule_of is_dir git content (base ++ m ++ [nm]) base = None /\
  results true rs By_content query base (base ++ m) (Folder [(nm, File (Some lines))]) = [join_with (lit "/") (m ++ [nm]) ++ lit ":" ++ Lread_Model.show_nat (N.of_nat (i + 1)) ++ lit ": " ++ trim l].
Proof.
  intros rule_of is_dir git base ls rs m nm lines content query i l G R Nm T NT Hd A B C. split.
  - apply C227_read. apply (C227_refused_partial rule_of is_dir git base ls rs _ G R). right. exists m, [nm]. split; [reflexivity|]. split; [exact Nm|]. split; [discriminate|exact T].
  - unfold results. rewrite collect_hits. rewrite walk_folder. cbn [below is_folder]. assert (Sk : skips true rs (base ++ m) nm false = false) by (apply skips_false; split; [exact Hd|]; intros _; rewrite <- app_assoc; exact NT). rewrite Sk, app_nil_r. cbn [walk hits flat_map hit_of]. rewrite app_nil_r.
    assert (H : content_hit query base ((base ++ m) ++ [nm], File (Some lines)) = Some (join_with (lit "/") (m ++ [nm]) ++ lit ":" ++ Lread_Model.show_nat (N.of_nat (i + 1)) ++ lit ": " ++ trim l)).
    { apply content_iff. exists lines, i, l, (m ++ [nm]). split; [reflexivity|]. split; [exact A|]. split; [exact B|]. split; [exact C|]. split; [rewrite <- app_assoc; reflexivity|reflexivity]. }
    exact (f_equal (fun o : option str => firstn 50 ([] ++ match o with Some x => [x] | None => [] end)) H).
Qed.
(** outside a git repository a search heeds no .gitignore at all: an ignored file is not read but its lines are shown *)
Theorem C229_no_repository_refuted : forall rule_of is_dir git base ls rs nm lines content query i l,
  git base = Lines ls -> map rule_of ls = map Some rs -> Told_to_ignore rs (base ++ [nm]) (is_dir (base ++ [nm])) -> (forall r, nm <> chr "." :: r) ->
  nth_error lines i = Some (Some l) -> (exists a b, l = a ++ query ++ b) -> (forall j l', j < i -> nth_error lines j = Some (Some l') -> ~ exists a b, l' = a ++ query ++ b) ->
  read_text rule_of is_dir git content (base ++ [nm]) base = None /\
  results false rs By_content query base base (Folder [(nm, File (Some lines))]) = [nm ++ lit ":" ++ Lread_Model.show_nat (N.of_nat (i + 1)) ++ lit ": " ++ trim l].
Proof.
  intros rule_of is_dir git base ls rs nm lines content query i l G R T Hd A B C. split.
  - apply C227_read. apply (C227_refused_partial rule_of is_dir git base ls rs _ G R). left. exact T.
  - unfold results. rewrite collect_hits. rewrite walk_folder. cbn [below is_folder]. assert (Sk : skips false rs base nm false = false) by (apply skips_false; split; [exact Hd|]; discriminate). rewrite Sk, app_nil_r. cbn [walk hits flat_map hit_of]. rewrite app_nil_r.
    assert (H : content_hit query base (base ++ [nm], File (Some lines)) = Some (nm ++ lit ":" ++ Lread_Model.show_nat (N.of_nat (i + 1)) ++ lit ": " ++ trim l)).
    { apply content_iff. exists lines, i, l, [nm]. split; [reflexivity|]. split; [exact A|]. split; [exact B|]. split; [exact C|]. split; reflexivity. }
    exact (f_equal (fun o : option str => firstn 50 ([] ++ match o with Some x => [x] | None => [] end)) H).
Qed.

(** ** C230 *)
Definition toks (q : str) : list token := map token_of q.
Lemma toks_cons c q : toks (c :: q) = token_of c :: toks q.
Proof. reflexivity. Qed.
Lemma token_cases c : (c = chr "*" /\ token_of c = AnySequence) \/ (c = chr "?" /\ token_of c = AnyChar) \/ (c <> chr "*" /\ c <> chr "?" /\ token_of c = Char c).
Proof.
  unfold token_of. destruct (N.eqb_spec c (chr "*")) as [E|E]; [left; split; [exact E|reflexivity]|]. destruct (N.eqb_spec c (chr "?")) as [E'|E']; [right; left; split; [exact E'|reflexivity]|]. right. right. repeat split; assumption.
Qed.
Lemma fits_star q s : Fits (chr "*" :: q) s <-> exists a b, s = a ++ b /\ Fits q b.
Proof.
  split.
  - intros H. remember (chr "*" :: q) as u eqn:U. destruct H as [|q0 a b H|q0 x s H|q0 c s A B H]; [discriminate|injection U as ->; exists a, b; split; [reflexivity|exact H]|discriminate|injection U as E _; congruence].
  - intros (a & b & -> & H). constructor. exact H.
Qed.
Lemma fits_any q s : Fits (chr "?" :: q) s <-> exists x r, s = x :: r /\ Fits q r.
Proof.
  split.
  - intros H. remember (chr "?" :: q) as u eqn:U. destruct H as [|q0 a b H|q0 x s H|q0 c s A B H]; [discriminate|discriminate|injection U as ->; exists x, s; split; [reflexivity|exact H]|injection U as E _; congruence].
  - intros (x & r & -> & H). constructor. exact H.
Qed.
Lemma fits_char q c s : c <> chr "*" -> c <> chr "?" -> Fits (c :: q) s <-> exists r, s = c :: r /\ Fits q r.
Proof.
  intros A B. split.
  - intros H. remember (c :: q) as u eqn:U. destruct H as [|q0 a b H|q0 x s H|q0 c' s A' B' H]; [discriminate|injection U as E _; congruence|injection U as E _; congruence|injection U as -> ->; exists s; split; [reflexivity|exact H]].
  - intros (r & -> & H). constructor; assumption.
Qed.
Lemma fits_nil s : Fits [] s <-> s = [].
Proof. split; [intros H; inversion H; reflexivity|intros ->; constructor]. Qed.
Definition right_outcome (q s : str) (o : outcome) : Prop :=
  match o with Match => Fits q s | Sub => ~ Fits q s | Entire => forall a b, s = a ++ b -> ~ Fits q b end.
Definition star_loop (r : list token) := (fix go (s : str) : outcome := match matches_from r s with Sub => match s with [] => matches_from r [] | _ :: s' => go s' end | m => m end).
Lemma glob_outcome q : forall s, right_outcome q s (matches_from (toks q) s).
Proof.
  induction q as [|c q IH]; intros s.
  - change (matches_from (toks []) s) with (match s with [] => Match | _ => Sub end). destruct s; cbn [right_outcome]; rewrite fits_nil; [reflexivity|discriminate].
  - rewrite toks_cons. destruct (token_cases c) as [[-> ->]|[[-> ->]|(A & B & ->)]].
    + change (matches_from (AnySequence :: toks q) s) with (star_loop (toks q) s). induction s as [|x s IHs].
      * cbn [star_loop]. pose proof (IH []) as H. destruct (matches_from (toks q) []); cbn [right_outcome] in *.
        -- apply fits_star. exists [], []. split; [reflexivity|exact H].
        -- rewrite fits_star. intros (a & b & E & F). symmetry in E. apply app_eq_nil in E. destruct E as [_ ->]. exact (H F).
        -- intros a b E. symmetry in E. apply app_eq_nil in E. destruct E as [-> ->]. rewrite fits_star. intros (a & b & E & F). symmetry in E. apply app_eq_nil in E. destruct E as [_ ->]. exact (H [] [] eq_refl F).
      * pose proof (IH (x :: s)) as H. change (star_loop (toks q) (x :: s)) with (match matches_from (toks q) (x :: s) with Sub => star_loop (toks q) s | m => m end).
        assert (Sp : forall a b, x :: s = a ++ b -> b = x :: s \/ exists a', s = a' ++ b) by (intros [|y a] b E; [left; symmetry; exact E|right; injection E as _ ->; exists a; reflexivity]).
        destruct (matches_from (toks q) (x :: s)); cbn [right_outcome] in H.
        -- cbn [right_outcome]. apply fits_star. exists [], (x :: s). split; [reflexivity|exact H].
        -- destruct (star_loop (toks q) s); cbn [right_outcome] in *.
           ++ apply fits_star in IHs. destruct IHs as (a & b & -> & F). apply fits_star. exists (x :: a), b. split; [reflexivity|exact F].
           ++ rewrite fits_star in *. intros (a & b & E & F). destruct (Sp a b E) as [->|[a' E']]; [exact (H F)|]. apply IHs. exists a', b. split; assumption.
           ++ intros a b E. destruct (Sp a b E) as [->|[a' E']]; [|exact (IHs a' b E')]. rewrite fits_star. intros (a' & b' & E' & F). destruct (Sp a' b' E') as [->|[a2 E2]]; [exact (H F)|]. apply (IHs [] s eq_refl). apply fits_star. exists a2, b'. split; assumption.
        -- cbn [right_outcome]. intros a b E. rewrite fits_star. intros (a' & b' & -> & F). apply (H (a ++ a') b'); [rewrite E, app_assoc; reflexivity|exact F].
    + change (matches_from (AnyChar :: toks q) s) with (match s with [] => Entire | _ :: s' => matches_from (toks q) s' end). destruct s as [|x s].
      * cbn [right_outcome]. intros a b E. symmetry in E. apply app_eq_nil in E. destruct E as [_ ->]. rewrite fits_any. intros (x & r & E & _). discriminate.
      * pose proof (IH s) as H. destruct (matches_from (toks q) s); cbn [right_outcome] in *.
        -- apply fits_any. exists x, s. split; [reflexivity|exact H].
        -- rewrite fits_any. intros (y & r & E & F). injection E as _ <-. exact (H F).
        -- intros a b E. rewrite fits_any. intros (y & r & -> & F). destruct a as [|z a]; [injection E as _ ->; exact (H [] r eq_refl F)|]. injection E as _ E. apply (H (a ++ [y]) r); [rewrite E, <- app_assoc; reflexivity|exact F].
    + change (matches_from (Char c :: toks q) s) with (match s with [] => Entire | x :: s' => if (x =? c)%N then matches_from (toks q) s' else Sub end). destruct s as [|x s].
      * cbn [right_outcome]. intros a b E. symmetry in E. apply app_eq_nil in E. destruct E as [_ ->]. rewrite (fits_char q c _ A B). intros (r & E & _). discriminate.
      * destruct (N.eqb_spec x c) as [->|D]; [|cbn [right_outcome]; rewrite (fits_char q c _ A B); intros (r & E & _); injection E as E _; congruence].
        pose proof (IH s) as H. destruct (matches_from (toks q) s); cbn [right_outcome] in *.
        -- apply (fits_char q c _ A B). exists s. split; [reflexivity|exact H].
        -- rewrite (fits_char q c _ A B). intros (r & E & F). injection E as <-. exact (H F).
        -- intros a b E. rewrite (fits_char q c _ A B). intros (r & -> & F). destruct a as [|z a]; [injection E as ->; exact (H [] r eq_refl F)|]. injection E as _ E. apply (H (a ++ [c]) r); [rewrite E, <- app_assoc; reflexivity|exact F].
Qed.
Definition slash_loop (r : list token) := (fix go (s : str) : outcome := match s with [] => matches_from r [] | c :: s' => if (c =? chr "/")%N then match matches_from r s' with Sub => go s' | m => m end else go s' end).
Lemma fits_empty q s : Fits q [] -> q <> [] -> Fits q s.
Proof.
  revert s. induction q as [|c q IH]; intros s F N; [congruence|]. remember (c :: q) as u eqn:U. remember [] as e eqn:E. destruct F as [|q0 a b F|q0 x s0 F|q0 c' s0 A B F]; try discriminate.
  symmetry in E. symmetry in E. apply app_eq_nil in E. destruct E as [-> ->]. injection U as <- ->. apply fits_star. destruct q as [|c' q]; [exists s, []; split; [rewrite app_nil_r; reflexivity|constructor]|]. exists [], s. split; [reflexivity|]. apply IH; [exact F|discriminate].
Qed.
Lemma slash_iff q s : slash_loop (toks q) s = Match <-> q = [] \/ Fits q [] \/ exists a b, s = a ++ chr "/" :: b /\ Fits q b.
Proof.
  assert (E0 : matches_from (toks q) [] = Match <-> Fits q []).
  { pose proof (glob_outcome q []) as H. destruct (matches_from (toks q) []); cbn [right_outcome] in H; split; try discriminate; try reflexivity; intros X; [exact H|destruct (H X)|destruct (H [] [] eq_refl X)]. }
  assert (N0 : q = [] -> Fits q []) by (intros ->; constructor).
  induction s as [|c s IH].
  - cbn [slash_loop]. rewrite E0. split; [intros H; right; left; exact H|]. intros [H|[H|(a & b & E & _)]]; [apply N0; exact H|exact H|destruct a; discriminate].
  - change (slash_loop (toks q) (c :: s)) with (if (c =? chr "/")%N then match matches_from (toks q) s with Sub => slash_loop (toks q) s | m => m end else slash_loop (toks q) s).
    assert (Sp : (exists a b, c :: s = a ++ chr "/" :: b /\ Fits q b) <-> (c = chr "/" /\ Fits q s) \/ exists a b, s = a ++ chr "/" :: b /\ Fits q b).
    { split.
      - intros (a & b & E & F). destruct a as [|y a]; [injection E as -> ->; left; split; [reflexivity|exact F]|]. injection E as _ ->. right. exists a, b. split; [reflexivity|exact F].
      - intros [[-> F]|(a & b & -> & F)]; [exists [], s; split; [reflexivity|exact F]|exists (c :: a), b; split; [reflexivity|exact F]]. }
    rewrite Sp. destruct (N.eqb_spec c (chr "/")) as [->|D].
    + pose proof (glob_outcome q s) as H. destruct (matches_from (toks q) s); cbn [right_outcome] in H.
      * split; [intros _; right; right; left; split; [reflexivity|exact H]|reflexivity].
      * rewrite IH. tauto.
      * split; [discriminate|]. intros [X|[X|[[_ X]|(a & b & E & X)]]].
        -- exfalso. apply (H s []); [rewrite app_nil_r; reflexivity|apply N0; exact X].
        -- exfalso. apply (H s []); [rewrite app_nil_r; reflexivity|exact X].
        -- destruct (H [] s eq_refl X).
        -- exfalso. apply (H (a ++ [chr "/"]) b); [rewrite E, <- app_assoc; reflexivity|exact X].
    + rewrite IH. tauto.
Qed.
(** the pattern of a query fits a path when the query fits the whole of it or what is behind one of its slashes *)
Theorem C230_glob : forall query s, query <> [] -> (glob query s = true <-> Fits query s \/ exists a b, s = a ++ chr "/" :: b /\ Fits query b).
Proof.
  intros query s N. unfold glob, pattern. change (matches_from (AnyRecursive :: map token_of query) s) with (match matches_from (toks query) s with Sub => slash_loop (toks query) s | m => m end).
  pose proof (glob_outcome query s) as H. destruct (matches_from (toks query) s); cbn [right_outcome] in H.
  - split; [intros _; left; exact H|reflexivity].
  - pose proof (slash_iff query s) as X. assert (Y : slash_loop (toks query) s = Match <-> exists a b, s = a ++ chr "/" :: b /\ Fits query b).
    { rewrite X. split; [|intros Y; right; right; exact Y]. intros [Y|[Y|Y]]; [congruence|destruct H; apply fits_empty; assumption|exact Y]. }
    split.
    + intros E. right. apply Y. destruct (slash_loop (toks query) s); [reflexivity|discriminate|discriminate].
    + intros [Z|Z]; [destruct (H Z)|]. apply Y in Z. rewrite Z. reflexivity.
  - split; [discriminate|]. intros [Y|(a & b & E & Y)]; [destruct (H [] s eq_refl Y)|]. exfalso. apply (H (a ++ [chr "/"]) b); [rewrite E, <- app_assoc; reflexivity|exact Y].
Qed.
Lemma fits_plain q s : ~ In (chr "*") q -> ~ In (chr "?") q -> Fits q s <-> s = q.
Proof.
  revert s. induction q as [|c q IH]; intros s A B; [apply fits_nil|]. assert (A1 : c <> chr "*") by (intros ->; apply A; left; reflexivity). assert (B1 : c <> chr "?") by (intros ->; apply B; left; reflexivity). rewrite (fits_char q c s A1 B1). split.
  - intros (r & -> & F). apply IH in F; [subst; reflexivity| |]; intros X; [apply A|apply B]; right; exact X.
  - intros ->. exists q. split; [reflexivity|]. apply IH; [| |reflexivity]; intros X; [apply A|apply B]; right; exact X.
Qed.
Lemma absolute_snoc p n : absolute (p ++ [n]) = flat_map (fun c => chr "/" :: c) p ++ chr "/" :: n.
Proof. unfold absolute. destruct (p ++ [n]) as [|x r] eqn:E; [destruct p; discriminate|]. rewrite <- E, flat_map_app. cbn [flat_map]. rewrite app_nil_r. reflexivity. Qed.
(** a search for a name without stars and question marks shows the files of that name that the walk reaches in the current folder *)
Theorem C230_exact : forall query cwd p n m, query <> [] -> ~ In (chr "*") query -> ~ In (chr "?") query -> ~ In (chr "/") query -> ~ In (chr "/") n ->
  (exists x, name_hit query cwd (p ++ [n], m) = Some x) <-> n = query /\ is_folder m = false /\ exists r, p ++ [n] = cwd ++ r.
Proof.
  intros query cwd p n m N A B Cq Cn. unfold name_hit. cbn [fst snd].
  assert (G : glob query (absolute (p ++ [n])) || glob query (last (p ++ [n]) []) = true <-> n = query).
  { rewrite orb_true_iff, !C230_glob, last_last, absolute_snoc by exact N. assert (T : forall u w : str, u ++ chr "/" :: query = w ++ chr "/" :: n -> n = query).
    { intros u w E. apply (f_equal (@rev _)) in E. rewrite !rev_app_distr in E. cbn [rev] in E. rewrite <- !app_assoc in E. cbn [app] in E.
      assert (X : forall a b c d : str, ~ In (chr "/") a -> ~ In (chr "/") b -> a ++ chr "/" :: c = b ++ chr "/" :: d -> a = b).
      { induction a as [|y a IHa]; intros [|z b] c d Na Nb E'; [reflexivity|injection E' as <- _; exfalso; apply Nb; left; reflexivity|injection E' as -> _; exfalso; apply Na; left; reflexivity|]. injection E' as <- E'. f_equal. apply (IHa b c d); [intros I; apply Na; right; exact I|intros I; apply Nb; right; exact I|exact E']. }
      apply X in E; [|intros I; apply in_rev in I; exact (Cq I)|intros I; apply in_rev in I; exact (Cn I)]. apply (f_equal (@rev _)) in E. rewrite !rev_involutive in E. symmetry. exact E. }
    split.
    - intros [[H|(a & b & E & H)]|[H|(a & b & E & H)]]; apply (fits_plain query) in H; try assumption.
      + exfalso. apply Cq. rewrite <- H. apply in_app_iff. right. left. reflexivity.
      + subst b. apply (T a (flat_map (fun c => chr "/" :: c) p)). symmetry. exact E.
      + exfalso. apply Cn. rewrite E. apply in_app_iff. right. left. reflexivity.
    - intros ->. right. left. apply fits_plain; [exact A|exact B|reflexivity]. }
  destruct (is_folder m).
  - split; [intros [x H]; discriminate|]. intros (_ & H & _). discriminate.
  - match goal with |- context [if ?b then option_map _ _ else None] => destruct b eqn:Q end.
    + destruct (strip_prefix cwd (p ++ [n])) as [r|] eqn:Sp; cbn [option_map].
      * split; [|intros _; eexists; reflexivity]. intros _. split; [apply G; exact Q|]. split; [reflexivity|]. exists r. apply strip_iff. exact Sp.
      * split; [intros [x H]; discriminate|]. intros (_ & _ & r & E). apply strip_iff in E. congruence.
    + split; [intros [x H]; discriminate|]. intros (E & _). apply G in E. assert (X : true = false) by (etransitivity; [symmetry; exact E|exact Q]). discriminate.
Qed.
(** but a star runs over slashes: every file below a folder whose name begins with [x] (even above the current folder) is a hit for x* *)
Theorem C230_star_refuted : forall x y a b cwd m r, is_folder m = false -> x <> [] -> ~ In (chr "*") x -> ~ In (chr "?") x -> a ++ (x ++ y) :: b = cwd ++ r ->
  name_hit (x ++ lit "*") cwd (a ++ (x ++ y) :: b, m) = Some (join_with (lit "/") r).
Proof.
  intros x y a b cwd m r F Nx A B E. unfold name_hit. cbn [fst snd]. rewrite F. assert (Q : glob (x ++ lit "*") (absolute (a ++ (x ++ y) :: b)) = true).
  { apply C230_glob; [destruct x; discriminate|]. right. exists (flat_map (fun c => chr "/" :: c) a), (x ++ y ++ flat_map (fun c => chr "/" :: c) b). split.
    - unfold absolute. destruct (a ++ (x ++ y) :: b) as [|z t] eqn:Z; [destruct a; discriminate|]. rewrite <- Z, flat_map_app. cbn [flat_map app]. rewrite <- app_assoc. reflexivity.
    - generalize (y ++ flat_map (fun c => chr "/" :: c) b) as t. intros t. clear - A B. induction x as [|c x IH]; cbn [app].
      + change (lit "*") with [chr "*"]. apply fits_star. exists t, []. split; [rewrite app_nil_r; reflexivity|constructor].
      + apply Fit_char; [intros ->; apply A; left; reflexivity|intros ->; apply B; left; reflexivity|]. apply IH; intros I; [apply A|apply B]; right; exact I. }
  rewrite Q. cbn [orb]. rewrite (proj2 (strip_iff cwd _ r) E). reflexivity.
Qed.
(** every file is a hit for the empty name *)
Theorem C230_nothing_refuted : forall s, glob [] s = true.
Proof.
  intros s. unfold glob. change (matches_from (pattern []) s) with (match (match s with [] => Match | _ => Sub end) with Sub => slash_loop (toks []) s | o => o end). destruct s as [|c s]; [reflexivity|]. assert (X : slash_loop (toks []) (c :: s) = Match) by (apply slash_iff; left; reflexivity). rewrite X. reflexivity.
Qed.

(** ** Cases *)
Definition secret_rule : rule := fun p _ => match rev p with n :: _ => if str_eqb n (lit "secret") then Some true else None | [] => None end.
Definition some_rules (l : str) : option rule := if str_eqb l (lit "secret") then Some secret_rule else if starts_with (lit "[") l then None else Some (fun _ _ => None).
Definition a_git (good : bool) (p : path) : ignore_file := if path_eqb p [lit "w"] then Lines (lit "secret" :: if good then [] else [lit "[a"]) else Missing.
Example C227_example : let ig := fun good p => is_ignored some_rules (fun _ => false) (a_git good) p [lit "w"] in
  ig true [lit "w"; lit "secret"; lit "key"] = true /\ ig true [lit "w"; lit "src"] = false /\ ig false [lit "w"; lit "secret"; lit "key"] = false
  /\ is_ignored some_rules (fun _ => false) (a_git true) [lit "w"; lit "sub"; lit "secret"] [lit "w"; lit "sub"] = false.
Proof. vm_compute. repeat split; reflexivity. Qed.
Example C228_example : list_folder some_rules (fun _ => false) (a_git true) (lit ".") [lit "w"] [lit "w"] (Some [Dirent (lit "src") (Some (true, 4096%N)); Dirent (lit "secret") None; Dirent (lit "a.txt") (Some (false, 120%N))])
  = Some (lit "Directory listing for `.`:" ++ [10%N] ++ lit "-      120 a.txt" ++ [10%N] ++ lit "d        - src" ++ [10%N]).
Proof. vm_compute. reflexivity. Qed.
Definition a_tree : node := Folder [(lit "secret", Folder [(lit "key", File (Some [Some (lit "the key")]))]); (lit ".git", Folder []); (lit "src", Folder [(lit "main", File (Some [None; Some (lit " a key ")])); (lit "link", Special)])].
Example C229_example : results true [secret_rule] By_content (lit "key") [lit "w"] [lit "w"] a_tree = [lit "src/main:2: a key"]
  /\ results true [secret_rule] By_content (lit "key") [lit "w"] [lit "w"; lit "secret"] (Folder [(lit "key", File (Some [Some (lit "the key")]))]) = [lit "secret/key:1: the key"].
Proof. vm_compute. split; reflexivity. Qed.
Example C230_example : results true [secret_rule] By_name (lit "ma?n") [lit "w"] [lit "w"] a_tree = [lit "src/main"] /\ results true [] By_name (lit "w*") [lit "w"] [lit "w"] a_tree = [lit "secret/key"; lit "src/main"; lit "src/link"].
Proof. vm_compute. split; reflexivity. Qed.

Print Assumptions C227_refused_partial.
Print Assumptions C227_one_bad_line_refuted.
Print Assumptions C227_other_files_refuted.
Print Assumptions C227_read.
Print Assumptions C228_listed.
Print Assumptions C228_refused.
Print Assumptions C228_empty_refuted.
Print Assumptions C229_found.
Print Assumptions C229_note_partial.
Print Assumptions C229_note_refuted.
Print Assumptions C229_skills_refuted.
Print Assumptions C229_ignored_folder_refuted.
Print Assumptions C229_no_repository_refuted.
Print Assumptions C230_glob.
Print Assumptions C230_exact.
Print Assumptions C230_star_refuted.
Print Assumptions C230_nothing_refuted.
