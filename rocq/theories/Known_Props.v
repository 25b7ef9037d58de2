(** C244-C246: the command name suggested for the first word. *)
From Coq Require Import Permutation Sorting.Sorted.
From Verif Require Import Base Commands_Model Commands_Spec Known_Model Known_Spec.
From Verif Require Frecency_Model Frecency_Proofs Env_Model Sources_Model Sources_Props Commands_Props.
Notation str_cmp := Frecency_Model.str_cmp.

Lemma halve_spec p l : (forall i j x y, i < j -> nth_error l i = Some x -> nth_error l j = Some y -> p y = true -> p x = true) ->
  forall fuel lo hi, hi - lo <= fuel -> lo <= hi <= length l ->
    (forall i x, i < lo -> nth_error l i = Some x -> p x = true) -> (forall i x, hi <= i -> nth_error l i = Some x -> p x = false) ->
    (forall i x, i < halve fuel p l lo hi -> nth_error l i = Some x -> p x = true) /\
    (forall i x, halve fuel p l lo hi <= i -> nth_error l i = Some x -> p x = false).
Proof.
  intros M. induction fuel as [|fuel IH]; intros lo hi F B L H; cbn [halve].
  - assert (lo = hi) by lia. subst. auto.
  - destruct (Nat.ltb_spec lo hi); [|assert (lo = hi) by lia; subst; auto].
    set (mid := (lo + hi) / 2). assert (MID : lo <= mid < hi).
    { unfold mid. pose proof (Nat.div_mod (lo + hi) 2 ltac:(lia)). pose proof (Nat.mod_upper_bound (lo + hi) 2 ltac:(lia)). lia. }
    destruct (nth_error l mid) as [x|] eqn:E; [|apply nth_error_None in E; lia]. destruct (p x) eqn:P.
    + apply IH; [lia|lia| |exact H]. intros i y I Y. destruct (Nat.eq_dec i mid) as [->|].
      * rewrite E in Y. injection Y as <-. exact P.
      * apply (M i mid y x); auto. lia.
    + apply IH; [lia|lia|exact L|]. intros i y I Y. destruct (Nat.eq_dec i mid) as [->|].
      * rewrite E in Y. injection Y as <-. exact P.
      * destruct (p y) eqn:PY; [|reflexivity]. rewrite (M mid i x y) in P; auto. lia.
Qed.
Lemma sorted_nth l : StronglySorted Before l -> forall i j x y, i < j -> nth_error l i = Some x -> nth_error l j = Some y -> Before x y.
Proof.
  induction 1 as [|a l S' IH F]; intros i j x y L X Y; [destruct i; discriminate|].
  destruct j as [|j]; [lia|]. cbn in Y. destruct i as [|i]; cbn in X.
  - injection X as <-. rewrite Forall_forall in F. apply F. apply nth_error_In in Y. exact Y.
  - apply (IH i j); auto. lia.
Qed.
Lemma begins_not_below p r : str_cmp (p ++ r) p <> Lt.
Proof.
  induction p as [|c p IH]; cbn; [destruct r; discriminate|]. rewrite N.compare_refl. exact IH.
Qed.
Lemma between p r m : str_cmp m p <> Lt -> m = p ++ r \/ Before m (p ++ r) -> exists r', m = p ++ r'.
Proof.
  intros A [->|B]; [exists r; reflexivity|]. unfold Before in B. revert m A B. induction p as [|c p IH]; intros m A B; [exists m; reflexivity|].
  destruct m as [|d m]; cbn in A, B; [congruence|]. destruct (N.compare_spec d c) as [->|L|G]; [|congruence|discriminate].
  destruct (IH m A B) as (r' & ->). exists r'. reflexivity.
Qed.

(** When the names are known, the first of them, in order, that begins with the word is suggested. *)
Theorem C244_known : forall w paths names prefix n, names <> [] -> StronglySorted Before names ->
  (search_prefix w paths names prefix = Some n <-> Least (fun m => In m names) prefix n).
Proof.
  intros w paths names prefix n NE ST. unfold search_prefix. destruct names as [|x0 names0]; [congruence|]. set (names := x0 :: names0) in *. clearbody names. clear x0 names0.
  unfold first_known. set (k := partition_point (below prefix) names).
  assert (BL : forall x, below prefix x = true <-> str_cmp x prefix = Lt) by (intros x; unfold below; destruct (str_cmp x prefix); split; congruence).
  assert (P : (forall i x, i < k -> nth_error names i = Some x -> str_cmp x prefix = Lt) /\ (forall i x, k <= i -> nth_error names i = Some x -> str_cmp x prefix <> Lt)).
  { destruct (halve_spec (below prefix) names) with (fuel := length names) (lo := 0) (hi := length names) as (A & B); try lia.
    - intros i j x y L X Y Q. apply BL in Q. apply BL. eapply Frecency_Proofs.str_lt_trans; [|exact Q]. exact (sorted_nth _ ST _ _ _ _ L X Y).
    - intros i x L Y. apply nth_error_Some_length in Y || (assert (i < length names) by (apply nth_error_Some; congruence); lia).
    - split; intros i x L X.
      + apply BL. exact (A i x L X).
      + intros Q. apply BL in Q. rewrite (B i x L X) in Q. discriminate. }
  destruct P as (P1 & P2). unfold Least.
  assert (UP : forall m r, In m names -> m = prefix ++ r -> exists n, nth_error names k = Some n /\ (n = m \/ Before n m)).
  { intros m r I ->. apply In_nth_error in I as (j & J). destruct (Nat.lt_ge_cases j k) as [L|L].
    - exfalso. exact (begins_not_below _ _ (P1 _ _ L J)).
    - destruct (nth_error names k) as [x|] eqn:E.
      + exists x. split; [reflexivity|]. destruct (Nat.eq_dec j k) as [->|]; [left; congruence|right]. apply (sorted_nth _ ST k j); auto. lia.
      + exfalso. apply nth_error_None in E. assert (j < length names) by (apply nth_error_Some; congruence). lia. }
  split.
  - destruct (nth_error names k) as [x|] eqn:E; [|discriminate]. destruct (starts_with prefix x) eqn:SW; [|discriminate]. intros [= <-].
    apply starts_with_iff in SW. split; [split; [exact (nth_error_In _ _ E)|exact SW]|]. intros m r I R. destruct (UP m r I R) as (y & Y & O). congruence.
  - intros ((I & r & R) & LE). destruct (UP n r I R) as (y & Y & O). rewrite Y.
    assert (B : exists r', y = prefix ++ r') by (apply (between prefix r); [apply (P2 k y); [lia|exact Y]|rewrite <- R; exact O]).
    destruct B as (r' & B). assert (SW : starts_with prefix y = true) by (apply starts_with_iff; exists r'; exact B). rewrite SW. f_equal.
    destruct O as [O|O]; [exact O|]. destruct (LE y r' (nth_error_In _ _ Y) B) as [Q|Q]; [symmetry; exact Q|].
    exfalso. apply (Frecency_Proofs.str_lt_irrefl y). eapply Frecency_Proofs.str_lt_trans; eassumption.
Qed.

Lemma collect_iff ps w n : In n (collect ps w) <-> exists d, In d ps /\ Executable w d n.
Proof.
  unfold collect. rewrite Sources_Props.scan_iff. split; intros (d & D & es & e & X); exists d; (split; [exact D|]); exists es, e; tauto.
Qed.
Lemma collect_sorted ps w : StronglySorted Before (collect ps w).
Proof. apply Sources_Props.scan_sorted. Qed.
Lemma run_app s a b : run s (a ++ b) = run (run s a) b.
Proof. unfold run. apply fold_left_app. Qed.
Lemma no_scan es : forall s, scan_of s = None -> scan_of (run s es) = None.
Proof.
  induction es as [|e es IH]; intros s E; [exact E|]. change (run s (e :: es)) with (run (step s e) es). apply IH.
  destruct e; cbn [step]; [rewrite E; exact E|exact E].
Qed.
(** After the scan of a session in which PATH is not set, the suggestion is the first executable of PATH, as they
    were when scanned, that begins with the word, whatever else has happened. *)
Theorem C244_scanned : forall paths m f w m' es w' prefix n,
  Forall (fun e => match e with Path_set _ => False | _ => True end) es -> (exists x d, In d paths /\ Executable w d x) ->
  (suggest (run (begin paths m f) (Scanned w m' :: es)) w' prefix = Some n <-> Least (fun x => exists d, In d paths /\ Executable w d x) prefix n).
Proof.
  intros paths m f w m' es w' prefix n F (x & d & D & X).
  assert (E : names (run (begin paths m f) (Scanned w m' :: es)) = collect paths w).
  { change (run (begin paths m f) (Scanned w m' :: es)) with (run (State (collect paths w) None paths (Some (save paths m' (collect paths w)))) es).
    generalize (Some (save paths m' (collect paths w))). induction es as [|e es IH]; intros k; [reflexivity|]. inversion F; subst. destruct e; [|contradiction].
    exact (IH H2 k). }
  unfold suggest. rewrite E.
  assert (I : In x (collect paths w)) by (apply collect_iff; eauto).
  rewrite C244_known; [|intros Z; rewrite Z in I; destruct I|apply collect_sorted]. unfold Least.
  split; intros ((A & B) & C); (split; [split; [apply collect_iff; exact A|exact B]|]); intros y r Y; apply C; apply collect_iff; exact Y.
Qed.
(** The rest of the line is left alone, and the word is made longer. *)
Theorem C244_line : forall w paths names a word b out, StronglySorted Before names -> names <> [] -> command_word w paths names a word b = Some out ->
  exists r, r <> [] /\ out = a ++ (word ++ r) ++ b /\ In (word ++ r) names.
Proof.
  intros w paths names a word b out ST NE. unfold command_word. destruct (search_prefix w paths names word) as [n|] eqn:E; [|discriminate].
  destruct (Nat.ltb_spec (blen word) (blen n)) as [L|]; [|discriminate]. intros [= <-]. apply C244_known in E as ((I & r & ->) & _); auto.
  exists r. split; [|auto]. intros ->. rewrite app_nil_r in L. lia.
Qed.
(** Nothing is suggested for a word that is itself a known name. *)
Theorem C244_whole : forall w paths names a word b, StronglySorted Before names -> In word names -> command_word w paths names a word b = None.
Proof.
  intros w paths names a word b ST I. unfold command_word. assert (NE : names <> []) by (intros ->; destruct I).
  assert (E : search_prefix w paths names word = Some word).
  { apply C244_known; auto. split; [split; [exact I|exists []; symmetry; apply app_nil_r]|]. intros m r M ->. destruct r as [|c r]; [left; symmetry; apply app_nil_r|right].
    clear. unfold Before. induction word as [|x word IH]; [reflexivity|]. cbn. rewrite N.compare_refl. exact IH. }
  rewrite E, Nat.ltb_irrefl. reflexivity.
Qed.

(** ** before the names are known *)
Lemma best_spec prefix es : forall acc : option str, (forall b, acc = Some b -> (exists r, b = prefix ++ r)) ->
  let P m := exists e, In e es /\ name e = m /\ what e = Regular /\ x_bits e = true in
  match best es prefix acc with
  | Some n => (P n \/ acc = Some n) /\ (exists r, n = prefix ++ r) /\ forall m r, P m \/ acc = Some m -> m = prefix ++ r -> n = m \/ Before n m
  | None => acc = None /\ forall m r, P m -> m <> prefix ++ r
  end.
Proof.
  assert (LEAST : forall r, prefix = prefix ++ r \/ Before prefix (prefix ++ r)).
  { intros [|c r]; [left; symmetry; apply app_nil_r|right]. unfold Before. induction prefix as [|x p IH]; [reflexivity|]. cbn. rewrite N.compare_refl. exact IH. }
  induction es as [|e es IH]; intros acc A; cbn [best].
  - destruct acc as [b|]; [|split; [reflexivity|intros m r (e & [] & _)]]. split; [right; reflexivity|]. split; [apply A; reflexivity|].
    intros m r [(e & [] & _)|[= ->]] _. left. reflexivity.
  - destruct (starts_with prefix (name e) && match what e with Regular => true | _ => false end && executable e) eqn:T.
    + apply andb_true_iff in T as (T & X). apply andb_true_iff in T as (T & R). apply starts_with_iff in T as (r0 & T).
      assert (K : what e = Regular /\ x_bits e = true) by (unfold executable in X; destruct (what e); try discriminate; auto). clear R X.
      destruct (str_eqb (name e) prefix) eqn:Q.
      * apply str_eqb_eq in Q. split; [left; exists e; cbn; tauto|]. split; [exists r0; exact T|]. intros m r _ ->. rewrite Q. apply LEAST.
      * set (acc' := match acc with Some b => if text_leb b (name e) then acc else Some (name e) | None => Some (name e) end).
        assert (A' : exists b, acc' = Some b /\ (exists r, b = prefix ++ r) /\ (acc = Some b \/ b = name e) /\ (b = name e \/ Before b (name e)) /\ (forall c, acc = Some c -> b = c \/ Before b c)).
        { unfold acc'. destruct acc as [b|].
          - destruct (text_leb b (name e)) eqn:L.
            + exists b. split; [reflexivity|]. split; [apply A; reflexivity|]. split; [auto|]. split; [|intros c [= ->]; left; reflexivity].
              destruct (str_eq_dec b (name e)) as [->|NE]; [left; reflexivity|right]. apply (Commands_Props.leb_before _ _ L NE).
            + exists (name e). split; [reflexivity|]. split; [exists r0; exact T|]. split; [auto|]. split; [auto|]. intros c [= <-].
              apply Commands_Props.leb_total in L. destruct (str_eq_dec (name e) b) as [->|NE]; [left; reflexivity|right]. apply (Commands_Props.leb_before _ _ L NE).
          - exists (name e). split; [reflexivity|]. split; [exists r0; exact T|]. split; [auto|]. split; [auto|]. discriminate. }
        destruct A' as (b & EA & B1 & B2 & B3 & B4). specialize (IH acc'). rewrite EA in IH. match goal with |- context [best es prefix ?x] => replace x with (Some b) by (symmetry; exact EA) end. specialize (IH ltac:(intros c [= <-]; exact B1)). cbn zeta in IH.
        assert (TR : forall n x y, n = x \/ Before n x -> x = y \/ Before x y -> n = y \/ Before n y).
        { intros n x y [->|U] [->|V]; auto. right. eapply Frecency_Proofs.str_lt_trans; eassumption. }
        destruct (best es prefix (Some b)) as [n|]; [|destruct IH; discriminate]. destruct IH as (I1 & I2 & I3). split; [|split; [exact I2|]].
        -- destruct I1 as [(e' & I & Y)|[= ->]]; [left; exists e'; cbn; tauto|]. destruct B2 as [B2| ->]; [right; exact B2|left; exists e; cbn; tauto].
        -- intros m r [(e' & [<-|I] & Y & Z)|M] MR.
           ++ subst m. destruct B1 as (rb & B1). apply (TR n b); [apply (I3 b rb); auto|exact B3].
           ++ apply (I3 m r); [left; eauto|exact MR].
           ++ destruct B1 as (rb & B1). apply (TR n b); [apply (I3 b rb); auto|apply B4; exact M].
    + specialize (IH acc A). cbn zeta in IH.
      assert (NO : forall m r, name e = m -> what e = Regular -> x_bits e = true -> m <> prefix ++ r).
      { intros m r <- W X Z. assert (SW : starts_with prefix (name e) = true) by (apply starts_with_iff; exists r; exact Z).
        rewrite SW, W in T. unfold executable in T. rewrite W, X in T. discriminate. }
      destruct (best es prefix acc) as [n|].
      * destruct IH as (I1 & I2 & I3). split; [destruct I1 as [(e' & I & Y)|I1]; [left; exists e'; cbn; tauto|auto]|]. split; [exact I2|].
        intros m r [(e' & [<-|I] & Y & Z & X)|M] MR; [exfalso; exact (NO m r Y Z X MR)| |].
        -- apply (I3 m r); [left; exists e'; tauto|exact MR].
        -- apply (I3 m r); auto.
      * destruct IH as (I1 & I2). split; [exact I1|]. intros m r (e' & [<-|I] & Y & Z & X); [exact (NO m r Y Z X)|]. apply I2. exists e'. tauto.
Qed.
Lemma file_spec w d prefix :
  match search_file w d prefix with
  | Some n => Least (Own_file w d) prefix n
  | None => forall m r, Own_file w d m -> m <> prefix ++ r
  end.
Proof.
  unfold search_file, Least, Own_file. destruct (read_dir w d) as [es|] eqn:R.
  - pose proof (best_spec prefix es None ltac:(discriminate)) as B. cbn zeta in B. destruct (best es prefix None) as [n|].
    + destruct B as ([(e & B1)|B1] & B2 & B3); [|discriminate]. split; [split; [exists es, e; tauto|exact B2]|].
      intros m r (es' & e' & R' & X) M. injection R' as <-. apply (B3 m r); [left; exists e'; exact X|exact M].
    + destruct B as (_ & B). intros m r (es' & e' & R' & X). injection R' as <-. apply B. exists e'. exact X.
  - intros m r (es & e & Z & _). discriminate.
Qed.
(** Before the names are known: the word itself, if a directory of PATH has a file of that name, otherwise the first own
    executable that begins with it, of the first directory of PATH that has one. *)
Theorem C244_unknown : forall w paths prefix n, ~ Commands_Props.Named prefix ->
  (search_prefix w paths [] prefix = Some n <->
   (n = prefix /\ exists d, In d paths /\ is_file w (Env_Model.join d prefix) = true) \/
   ((forall d, In d paths -> is_file w (Env_Model.join d prefix) = false) /\
    exists p1 d p2, paths = p1 ++ d :: p2 /\ Least (Own_file w d) prefix n /\ forall d' m r, In d' p1 -> Own_file w d' m -> m <> prefix ++ r)).
Proof.
  intros w paths prefix n Q. unfold search_prefix, search. unfold Commands_Props.Named in Q.
  destruct (starts_with (lit "/") prefix); [tauto|]. destruct (starts_with (lit "./") prefix); [tauto|]. cbn [orb].
  destruct (existsb (fun d => is_file w (Env_Model.join d prefix)) paths) eqn:X.
  - apply existsb_exists in X as (d & D & X). split; [intros [= <-]; left; eauto|]. intros [(-> & _)|(A & _)]; [reflexivity|]. rewrite (A d D) in X. discriminate.
  - assert (A : forall d, In d paths -> is_file w (Env_Model.join d prefix) = false).
    { intros d D. destruct (is_file w (Env_Model.join d prefix)) eqn:Y; [|reflexivity]. rewrite <- X. symmetry. apply existsb_exists. eauto. }
    transitivity (exists p1 d p2, paths = p1 ++ d :: p2 /\ Least (Own_file w d) prefix n /\ forall d' m r, In d' p1 -> Own_file w d' m -> m <> prefix ++ r).
    + clear X A. assert (U : forall P a b, Least P prefix a -> Least P prefix b -> a = b).
      { intros P a b ((A1 & ra & A2) & A3) ((B1 & rb & B2) & B3). destruct (A3 b rb B1 B2) as [->|L]; [reflexivity|]. destruct (B3 a ra A1 A2) as [->|L']; [reflexivity|].
        exfalso. apply (Frecency_Proofs.str_lt_irrefl a). eapply Frecency_Proofs.str_lt_trans; eassumption. }
      induction paths as [|d paths IH]; cbn [search_dirs].
      * split; [discriminate|]. intros (p1 & d & p2 & E & _). destruct p1; discriminate.
      * pose proof (file_spec w d prefix) as F. destruct (search_file w d prefix) as [m|].
        -- split; [intros [= <-]; exists [], d, paths; split; [reflexivity|]; split; [exact F|intros d' x r []]|].
           intros (p1 & d1 & p2 & E & L & H). destruct p1 as [|d0 p1]; injection E as -> ->; [f_equal; exact (U _ _ _ F L)|].
           exfalso. destruct F as ((F1 & r & F2) & _). exact (H d0 m r (or_introl eq_refl) F1 F2).
        -- rewrite IH. split; intros (p1 & d1 & p2 & E & L & H).
           ++ exists (d :: p1), d1, p2. rewrite E. split; [reflexivity|]. split; [exact L|]. intros d' m r [<-|I]; [apply F|apply H; exact I].
           ++ destruct p1 as [|d0 p1]; injection E as -> ->; [exfalso; destruct L as ((L1 & r & L2) & _); exact (F n r L1 L2)|].
              exists p1, d1, p2. split; [reflexivity|]. split; [exact L|]. intros d' m r I. apply H. right. exact I.
    + split; [auto|]. intros [(_ & d & D & Y)|(_ & H)]; [rewrite (A d D) in Y; discriminate|exact H].
Qed.
(** A word that is a path is suggested itself, if it is a file. *)
Theorem C244_path : forall w paths prefix n, Commands_Props.Named prefix ->
  (search_prefix w paths [] prefix = Some n <-> n = prefix /\ is_file w prefix = true).
Proof.
  intros w paths prefix n Q. unfold Commands_Props.Named in Q. apply orb_true_iff in Q. unfold search_prefix, search. rewrite Q.
  destruct (is_file w prefix); split; intros H; try discriminate; [injection H as <-; auto|destruct H as (-> & _); reflexivity|destruct H; discriminate].
Qed.
(** So the suggestion is another one before the scan than after it, though nothing changes on disk: a link is not suggested, and of
    two directories the first decides. *)
Theorem C244_differs_refuted : exists w paths prefix, search_prefix w paths [] prefix = Some (lit "gzip") /\ search_prefix w paths (collect paths w) prefix = Some (lit "git").
Proof.
  exists (World (fun d => if str_eqb d (lit "/a") then Some [Entry (lit "gzip") Regular true] else Some [Entry (lit "git") Link true]) (fun _ => false) (fun _ => false) (fun _ => None)),
    [lit "/a"; lit "/b"], (lit "g"). split; reflexivity.
Qed.

(** ** C245: the names kept between sessions *)
Lemma opt_eqb_iff a b : opt_eqb a b = true <-> a = b.
Proof. destruct a, b; cbn; rewrite ?N.eqb_eq; split; intros X; try discriminate; try reflexivity; congruence. Qed.
Lemma sign_eqb_iff a b : sign_eqb a b = true <-> a = b.
Proof.
  unfold sign_eqb. rewrite !andb_true_iff, str_eqb_eq, Bool.eqb_true_iff, opt_eqb_iff, N.eqb_eq. destruct a as [p1 e1 m1 l1], b as [p2 e2 m2 l2]. cbn. split.
  - intros (((-> & ->) & ->) & ->). reflexivity.
  - intros [= -> -> -> ->]. auto.
Qed.
Lemma signs_eqb_iff a : forall b, signs_eqb a b = true <-> a = b.
Proof.
  induction a as [|x a IH]; intros [|y b]; cbn; try (split; [discriminate|discriminate]); [tauto|]. rewrite andb_true_iff, sign_eqb_iff, IH.
  split; [intros (-> & ->); reflexivity|intros [= -> ->]; auto].
Qed.
Lemma signature_iff m m' : forall ps ps', signature ps m = signature ps' m' <-> ps = ps' /\ forall d, In d ps -> m d = m' d.
Proof.
  unfold signature. induction ps as [|p ps IH]; intros [|q ps']; cbn [map]; [split; [split; [reflexivity|intros d []]|reflexivity]|split; [discriminate|intros ([=] & _)]|split; [discriminate|intros ([=] & _)]|].
  split.
  - intros E. injection E as E1 E2. apply IH in E2 as (-> & E2).
    assert (Q : p = q /\ m p = m' q) by (destruct (m p) as [[t n]|], (m' q) as [[t' n']|]; injection E1; intros; subst; auto; discriminate).
    destruct Q as (<- & Q). split; [reflexivity|]. intros d [<-|D]; [exact Q|exact (E2 d D)].
  - intros (E & F). injection E as <- <-. f_equal; [rewrite (F p (or_introl eq_refl)); reflexivity|]. apply IH. split; [reflexivity|]. intros d D. apply F. right. exact D.
Qed.
(** What a session saved is taken up by a later one exactly if PATH is the same and each of its directories has
    the same time of change, in seconds, and the same length, or is missing as before. *)
Theorem C245_loaded_partial : forall s w m ps paths m' , scan_of s = Some ps ->
  (names (begin paths m' (file (step s (Scanned w m)))) = collect ps w /\ paths = ps /\ (forall d, In d ps -> m d = m' d)) \/
  (names (begin paths m' (file (step s (Scanned w m)))) = [] /\ ~ (paths = ps /\ (forall d, In d ps -> m d = m' d))).
Proof.
  intros s w m ps paths m' E. cbn [step]. rewrite E. cbn [file]. unfold begin, load, save. cbn [names version signs found].
  change ((1 =? 1)%N) with true. cbn [andb]. destruct (signs_eqb (signature ps m) (signature paths m')) eqn:Q.
  - left. split; [reflexivity|]. apply signs_eqb_iff in Q. apply signature_iff in Q as (-> & Q). auto.
  - right. split; [reflexivity|]. intros (-> & H). assert (X : signs_eqb (signature ps m) (signature ps m') = true) by (apply signs_eqb_iff, signature_iff; auto). congruence.
Qed.
(** A file of another version is not taken up. *)
Theorem C245_version : forall paths m k, version k <> 1%N -> names (begin paths m (Some k)) = [].
Proof. intros paths m k V. unfold begin, load. cbn [names]. apply N.eqb_neq in V. rewrite V. reflexivity. Qed.
(** So a change that leaves the times as they are is not seen: a file made executable or not, or one added in the
    second of the last scan. *)
Theorem C245_changed_refuted : exists ps m w w' n,
  (forall s, scan_of s = Some ps -> suggest (begin ps m (file (step s (Scanned w m)))) w' n = Some n) /\ forall d, In d ps -> ~ Executable w' d n.
Proof.
  exists [lit "/bin"], (fun _ => Some (Some 5%N, 4%N)), (World (fun _ => Some [Entry (lit "run") Regular true]) (fun _ => true) (fun _ => false) (fun _ => None)),
    (World (fun _ => Some [Entry (lit "run") Regular false]) (fun _ => true) (fun _ => false) (fun _ => None)), (lit "run"). split.
  - intros s E. destruct (C245_loaded_partial s (World (fun _ => Some [Entry (lit "run") Regular true]) (fun _ => true) (fun _ => false) (fun _ => None))
      (fun _ => Some (Some 5%N, 4%N)) [lit "/bin"] [lit "/bin"] (fun _ => Some (Some 5%N, 4%N)) E) as [(X & _)|(_ & X)].
    + unfold suggest. rewrite X. reflexivity.
    + exfalso. apply X. auto.
  - intros d _ (es & e & [= <-] & [<-|[]] & _ & [(_ & X)|X]); discriminate.
Qed.
(** And the file is dated after the scan: what changes between the two is not seen by the next session either, though
    the times differ from those at the scan. *)
Theorem C245_dated_refuted : forall s w m ps, scan_of s = Some ps -> names (begin ps m (file (step s (Scanned w m)))) = collect ps w.
Proof.
  intros s w m ps E. destruct (C245_loaded_partial s w m ps ps m E) as [(X & _)|(_ & X)]; [exact X|]. exfalso. apply X. auto.
Qed.

(** ** C246: PATH set in the session *)

(** When the scan has ended before, the suggestion follows the PATH last set, on the disk as it is. *)
Theorem C246_follows_partial : forall s a b ps, scan_of (run s a) = None -> Forall (fun e => match e with Path_set _ => False | _ => True end) b ->
  forall w prefix, suggest (run s (a ++ Path_set ps :: b)) w prefix = search w ps prefix.
Proof.
  intros s a b ps E F w prefix. change (a ++ Path_set ps :: b) with (a ++ [Path_set ps] ++ b). rewrite !run_app.
  change (run (run s a) [Path_set ps]) with (State [] (scan_of (run s a)) ps (file (run s a))). rewrite E. generalize (file (run s a)) as k.
  induction b as [|e b IH]; intros k; [reflexivity|]. inversion F; subst. destruct e; [|contradiction]. exact (IH H2 k).
Qed.
(** A scan that ends after PATH was set brings back the names of the old PATH, for the rest of the session. *)
Theorem C246_race_refuted : forall paths m f ps w m' es, Forall (fun e => match e with Path_set _ => False | _ => True end) es ->
  names (run (begin paths m f) (Path_set ps :: Scanned w m' :: es)) = collect paths w.
Proof.
  intros paths m f ps w m' es F.
  change (run (begin paths m f) (Path_set ps :: Scanned w m' :: es)) with (run (State (collect paths w) None ps (Some (save paths m' (collect paths w)))) es).
  generalize (Some (save paths m' (collect paths w))). induction es as [|e es IH]; intros k; [reflexivity|]. inversion F; subst. destruct e; [|contradiction]. exact (IH H2 k).
Qed.
(** There is one scan in a session: what is installed after it is not suggested, what is removed still is. *)
Theorem C246_installed_refuted : forall paths m f w m' es w1 w2 prefix, collect paths w <> [] -> Forall (fun e => match e with Path_set _ => False | _ => True end) es ->
  suggest (run (begin paths m f) (Scanned w m' :: es)) w1 prefix = suggest (run (begin paths m f) (Scanned w m' :: es)) w2 prefix.
Proof.
  intros paths m f w m' es w1 w2 prefix NE F.
  assert (E : names (run (begin paths m f) (Scanned w m' :: es)) = collect paths w).
  { change (run (begin paths m f) (Scanned w m' :: es)) with (run (State (collect paths w) None paths (Some (save paths m' (collect paths w)))) es).
    generalize (Some (save paths m' (collect paths w))). induction es as [|e es IH]; intros k; [reflexivity|]. inversion F; subst. destruct e; [|contradiction]. exact (IH H2 k). }
  unfold suggest. rewrite E. unfold search_prefix. destruct (collect paths w); [congruence|reflexivity].
Qed.

Print Assumptions C244_known. Print Assumptions C244_scanned. Print Assumptions C244_line. Print Assumptions C244_whole. Print Assumptions C244_unknown. Print Assumptions C244_path.
Print Assumptions C244_differs_refuted. Print Assumptions C245_loaded_partial. Print Assumptions C245_version. Print Assumptions C245_changed_refuted.
Print Assumptions C245_dated_refuted. Print Assumptions C246_follows_partial. Print Assumptions C246_race_refuted. Print Assumptions C246_installed_refuted.

Example C244_case : search_prefix Commands_Props.some_world [lit "/bin"] (collect [lit "/usr/bin"; lit "/bin"] Commands_Props.some_world) (lit "ma") = Some (lit "make") /\
  command_word Commands_Props.some_world [] (collect [lit "/usr/bin"; lit "/bin"] Commands_Props.some_world) (lit "ls; ") (lit "te") (lit " ") = Some (lit "ls; test ").
Proof. split; reflexivity. Qed.
Example C246_case : scan_of (run (begin [lit "/bin"] (fun _ => None) None) [Scanned Commands_Props.some_world (fun _ => None)]) = None /\
  collect [lit "/bin"] Commands_Props.some_world <> [].
Proof. split; [reflexivity|discriminate]. Qed.
