From Verif Require Import Base History_Model History_Spec History_Proofs.

(** * C23: one entry per command, ordered by last use *)

Definition write_all (lower : str -> str) (h : history) (batches : list (option str * list (str * Z))) : history :=
  fold_left (fun h b => write_batch lower (fst b) (snd b) h) batches h.

Definition write_rec (lower : str -> str) (h : history) (r : str * (Z * option str)) : history :=
  write_one lower (snd (snd r)) h (fst r, fst (snd r)).

Lemma write_one_hs_only lower ctx h h' r : hs h = hs h' -> hs (write_one lower ctx h r) = hs (write_one lower ctx h' r).
Proof. intros E. destruct r as [c t]. unfold write_one. rewrite E. destruct (position _ _); reflexivity. Qed.
Lemma write_recs_hs_only lower rs : forall h h', hs h = hs h' -> hs (fold_left (write_rec lower) rs h) = hs (fold_left (write_rec lower) rs h').
Proof. induction rs as [|r rs IH]; intros h h' E; simpl; [exact E|]. apply IH, write_one_hs_only, E. Qed.

Lemma write_all_recs lower batches : forall h,
  hs (write_all lower h batches) = hs (fold_left (write_rec lower) (recorded batches) h).
Proof.
  induction batches as [|[ctx b] batches IH]; intros h; [reflexivity|]. unfold write_all, recorded. cbn [fold_left flat_map fst snd].
  fold (write_all lower (write_batch lower ctx b h) batches). rewrite IH, fold_left_app. fold (recorded batches). apply write_recs_hs_only.
  rewrite write_batch_hs.
  assert (G : forall b h h', hs h = hs h' -> hs (fold_left (write_one lower ctx) b h) =
     hs (fold_left (write_rec lower) (map (fun r => (fst r, (snd r, ctx))) b) h')).
  { clear. induction b as [|[c t] b IH]; intros h h' E; [exact E|]. cbn [fold_left map]. apply IH.
    unfold write_rec. cbn [fst snd]. apply write_one_hs_only, E. }
  apply G. destruct (_ =? _); reflexivity.
Qed.

Lemma last_record_snoc c rs r : last_record c (rs ++ [r]) = if str_eqb (fst r) c then Some (snd r) else last_record c rs.
Proof. unfold last_record. rewrite rev_app_distr. simpl. destruct (str_eqb (fst r) c); reflexivity. Qed.

(** Recording batches on top of a history without repeated commands (in particular the
    empty one, or one loaded from the database): every command once, ordered by last
    use, with its count and the time and context of its last use. *)
Theorem C23_one_entry_per_command_partial : forall lower h batches,
  NoDup (map cmd (hs h)) ->
  let es := hs (write_all lower h batches) in
  let rs := recorded batches in
  map cmd es = by_last_use (map cmd (hs h) ++ map fst rs) /\
  NoDup (map cmd es) /\
  forall e, In e es ->
    count e = (Z.of_nat (times_recorded (cmd e) rs) + match known (cmd e) (hs h) with Some k => count k | None => 0 end)%Z /\
    match last_record (cmd e) rs with
    | Some (t, ctx) => when e = t /\ context e = ctx
    | None => In e (hs h)
    end.
Proof.
  intros lower h batches Hn es rs. unfold es. rewrite write_all_recs. fold rs. clearbody rs. clear es batches.
  assert (G : let h' := fold_left (write_rec lower) rs h in
    map cmd (hs h') = by_last_use (map cmd (hs h) ++ map fst rs) /\ NoDup (map cmd (hs h')) /\
    forall c, match known c (hs h') with
      | Some e => count e = (Z.of_nat (times_recorded c rs) + old_count c (hs h))%Z /\
          match last_record c rs with Some (t, ctx) => when e = t /\ context e = ctx | None => known c (hs h) = Some e end
      | None => times_recorded c rs = 0 /\ known c (hs h) = None
      end).
  { induction rs as [|r rs IH] using rev_ind.
    - cbn. rewrite app_nil_r, blu_nodup by exact Hn. repeat split; auto. intros c. unfold old_count.
      destruct (known c (hs h)) as [e|]; auto.
    - rewrite fold_left_app. cbn [fold_left]. cbn zeta in IH |- *. set (h' := fold_left _ rs h) in *. destruct IH as (I1 & I2 & I3).
      destruct r as [c0 [t0 ctx0]]. unfold write_rec. cbn [fst snd].
      split; [|split].
      + rewrite write_one_nodup by exact I2. rewrite map_app, filter_map_cmd, I1. cbn [map cmd].
        rewrite map_app, app_assoc. cbn [map fst]. rewrite blu_snoc. reflexivity.
      + apply write_one_keeps_nodup, I2.
      + intros c. rewrite known_write_one by exact I2. rewrite last_record_snoc. unfold times_recorded.
        rewrite map_app, count_occ_app. cbn [map fst count_occ snd]. specialize (I3 c).
        destruct (str_eqb_spec c0 c) as [->|Hc].
        * cbn [count when context]. split; [|auto]. destruct (str_eq_dec c c) as [_|]; [|congruence].
          unfold old_count at 1. unfold times_recorded in I3. destruct (known c (hs h')) as [e|].
          -- destruct I3 as [-> _]. lia.
          -- destruct I3 as [-> E]. unfold old_count. rewrite E. lia.
        * destruct (str_eq_dec c0 c) as [|_]; [congruence|]. rewrite Nat.add_0_r. exact I3. }
  cbn zeta in G. destruct G as (G1 & G2 & G3). split; [exact G1|]. split; [exact G2|].
  intros e He. specialize (G3 (cmd e)). rewrite (known_in (cmd e) _ e G2 He eq_refl) in G3.
  destruct G3 as [G3 G4]. split; [exact G3|]. destruct (last_record (cmd e) rs) as [[t ctx]|]; [exact G4|].
  apply known_some in G4. tauto.
Qed.
Print Assumptions C23_one_entry_per_command_partial.

Example C23_case :
  map (fun e => (cmd e, count e)) (hs (write_all (fun s => s) new_history
    [(None, [(lit "ls", 1%Z); (lit "cd", 2%Z)]); (None, [(lit "ls", 3%Z)])]))
  = [(lit "cd", 1%Z); (lit "ls", 2%Z)].
Proof. vm_compute. reflexivity. Qed.

(** The second half of the start-up load puts older rows in front without looking:
    a command used again in between is there twice. *)
Theorem C23_late_load_repeats_command_refuted : exists lower ops,
  ~ NoDup (map cmd (hs (run lower new_history ops))) /\
  ops = [OLoad [Entry (lit "ls") 20 1 None no_meta]; OWrite None [(lit "make", 30%Z)];
         OPrepend [Entry (lit "make") 10 7 None no_meta]].
Proof.
  exists (fun s => s). eexists. split; [|reflexivity]. vm_compute. intros H. inversion H as [|? ? A B]. apply A. right. left. reflexivity.
Qed.
Print Assumptions C23_late_load_repeats_command_refuted.

(** A reload that finds a newer command of another session in the table forgets the
    commands of this session that are not written yet. *)
Theorem C23_reload_forgets_pending_refuted : exists lower ops,
  ops = [OWrite None [(lit "mine", 10%Z)]; OReload [Entry (lit "other") 11 1 None no_meta]] /\
  ~ In (lit "mine") (map cmd (hs (run lower new_history ops))).
Proof.
  exists (fun s => s). eexists. split; [reflexivity|]. vm_compute. intuition discriminate.
Qed.
Print Assumptions C23_reload_forgets_pending_refuted.

(** * C25: suggestions *)

Lemma find_last_iff w l : most_recent w l (find (starts_with w) (rev l)).
Proof.
  induction l as [|c l IH] using rev_ind; [intros d []|]. rewrite rev_app_distr. simpl.
  destruct (starts_with w c) eqn:E.
  - exists l, []. split; [reflexivity|]. split; [apply starts_with_iff, E|]. intros d [].
  - assert (Hc : forall t, c <> w ++ t).
    { intros t ->. assert (starts_with w (w ++ t) = true) by (apply starts_with_iff; eauto). congruence. }
    destruct (find _ _) as [x|]; simpl in *.
    + destruct IH as (a & b & -> & Hx & Hb). exists a, (b ++ [c]). rewrite <- app_assoc. split; [reflexivity|]. split; [exact Hx|].
      intros d Hd. apply in_app_iff in Hd as [Hd|[<-|[]]]; auto.
    + intros d Hd. apply in_app_iff in Hd as [Hd|[<-|[]]]; auto.
Qed.

Lemma most_recent_unique w l r r' : most_recent w l r -> most_recent w l r' -> r = r'.
Proof.
  assert (G : forall c c' a b a' b', a ++ c :: b = a' ++ c' :: b' -> 
     (exists t, c = w ++ t) -> (exists t, c' = w ++ t) -> (forall d, In d b -> forall t, d <> w ++ t) ->
     (forall d, In d b' -> forall t, d <> w ++ t) -> c = c').
  { intros c c' a b a'. revert a. induction a' as [|y a' IH]; intros [|x a] b' E [t Ht] [t' Ht'] Hb Hb'; cbn [app] in E.
    - congruence.
    - injection E as -> <-. exfalso. eapply Hb'; [|exact Ht]. apply in_app_iff. right. left. reflexivity.
    - injection E as -> ->. exfalso. eapply Hb; [|exact Ht']. apply in_app_iff. right. left. reflexivity.
    - injection E as -> E. eapply (IH a b'); eauto. }
  destruct r as [c|], r' as [c'|]; simpl; auto.
  - intros (a & b & -> & H1 & H2) (a' & b' & E & H1' & H2'). f_equal. eapply G; eauto.
  - intros (a & b & -> & [t ->] & _) H. exfalso. eapply H; [|reflexivity]. apply in_app_iff. right. left. reflexivity.
  - intros H (a & b & -> & [t ->] & _). exfalso. eapply H; [|reflexivity]. apply in_app_iff. right. left. reflexivity.
Qed.

(** looking from the right sees only last uses *)
Lemma most_recent_blu w l r : most_recent w (by_last_use l) r -> most_recent w l r.
Proof.
  revert r. induction l as [|x l IH]; intros r H; [exact H|]. cbn [by_last_use] in H.
  destruct (in_dec str_eq_dec x l) as [Hx|Hx].
  - specialize (IH r H). destruct r as [c|].
    + destruct IH as (a & b & -> & H1 & H2). exists (x :: a), b. auto.
    + intros d [<-|Hd]; auto.
  - destruct r as [c|]; simpl in H |- *.
    + destruct H as (a & b & E & H1 & H2). destruct a as [|y a]; cbn [app] in E.
      * injection E as -> E. exists [], l. split; [reflexivity|]. split; [exact H1|]. intros d Hd. apply H2. rewrite <- E. apply blu_in, Hd.
      * injection E as -> E. destruct (IH (Some c)) as (a' & b' & -> & _ & H2'); [exists a, b; auto|].
        exists (y :: a'), b'. auto.
    + intros d Hd. apply H. destruct Hd as [<-|Hd]; [left; reflexivity|right; apply blu_in, Hd].
Qed.

(** invariant: the cache lists the last uses of a suffix of the history *)
Definition cache_ok (h : history) : Prop :=
  exists p q, map cmd (hs h) = p ++ q /\ by_last_use (cache h) = by_last_use q.

Lemma cache_ok_one p q cs c a b :
  p ++ q = a ++ c :: b \/ (p ++ q = a ++ b /\ ~ In c (p ++ q)) ->
  by_last_use cs = by_last_use q ->
  exists p' q', a ++ b ++ [c] = p' ++ q' /\ by_last_use (cache_one cs c) = by_last_use q'.
Proof.
  intros E Hc.
  assert (S1 : exists p1 q1, a ++ b = p1 ++ q1 /\ by_last_use (filter (neq c) q) = by_last_use (filter (neq c) q1)).
  { destruct E as [E|[E _]]; [|exists p, q; rewrite <- E; auto].
    apply app_eq_app in E as (m & [(-> & E)|(-> & E)]).
    - destruct m as [|y m]; cbn [app] in E.
      + exists a, b. split; [reflexivity|]. rewrite <- E. cbn [filter].
        rewrite (proj2 (neq_false c c) eq_refl). reflexivity.
      + injection E as <- ->. exists (a ++ m), q. rewrite app_assoc. auto.
    - exists p, (m ++ b). rewrite app_assoc. split; [reflexivity|]. rewrite E, !filter_app. cbn [filter].
      rewrite (proj2 (neq_false c c) eq_refl). reflexivity. }
  destruct S1 as (p1 & q1 & E1 & F1). unfold cache_one.
  change (filter (fun x => negb (str_eqb x c)) cs) with (filter (neq c) cs).
  assert (L : by_last_use (filter (neq c) cs ++ [c]) = by_last_use (q1 ++ [c])).
  { rewrite !blu_snoc. f_equal. rewrite blu_filter, Hc, <- blu_filter, F1, blu_filter.
    rewrite filter_filter. apply filter_ext. intros x. apply andb_diag. }
  rewrite app_assoc, E1, <- app_assoc. destruct (100 <? _); [|exists p1, (q1 ++ [c]); auto].
  destruct (filter (neq c) cs ++ [c]) as [|x rest] eqn:F; [destruct (filter (neq c) cs); discriminate|]. cbn [tl].
  cbn [by_last_use] in L. destruct (in_dec str_eq_dec x rest).
  - exists p1, (q1 ++ [c]). auto.
  - symmetry in L. apply blu_tail in L as (p2 & q2 & E2 & F2). exists (p1 ++ p2), q2. rewrite <- app_assoc, <- E2. auto.
Qed.

Lemma write_one_cache lower ctx h r : cache (write_one lower ctx h r) = cache h.
Proof. destruct r. unfold write_one. destruct (position _ _); reflexivity. Qed.

Lemma writes_cache lower ctx b : forall h, cache (fold_left (write_one lower ctx) b h) = cache h.
Proof. induction b as [|r b IH]; intros h; simpl; [reflexivity|]. rewrite IH. apply write_one_cache. Qed.

Lemma cache_ok_batch lower ctx batch : forall h cs,
  (exists p q, map cmd (hs h) = p ++ q /\ by_last_use cs = by_last_use q) ->
  exists p q, map cmd (hs (fold_left (write_one lower ctx) batch h)) = p ++ q /\
              by_last_use (fold_left cache_one (map fst batch) cs) = by_last_use q.
Proof.
  induction batch as [|[c t] batch IH]; intros h cs H; [exact H|]. cbn [fold_left map fst]. apply IH.
  destruct H as (p & q & E & F). destruct (write_one_shape lower ctx h c t) as [(a & e & b & Eh & Hc & _ & ->)|[Hn ->]].
  - rewrite Eh, map_app in E. cbn [map] in E. rewrite Hc in E.
    rewrite !map_app. cbn [map cmd]. apply (cache_ok_one p q); auto.
  - rewrite map_app. cbn [map cmd]. rewrite E. 
    destruct (cache_ok_one p q cs c (p ++ q) []) as (p' & q' & E' & F'); [|exact F|eauto].
    right. rewrite app_nil_r. split; [reflexivity|]. rewrite <- E. intros Hi.
    apply in_map_iff in Hi as (y & Ey & Hy). exact (Hn y Hy Ey).
Qed.

Lemma last100_suffix es : exists p, map cmd es = p ++ last100 es.
Proof. exists (map cmd (firstn (length es - 100) es)). unfold last100. rewrite <- map_app, firstn_skipn. reflexivity. Qed.

Lemma update_first_cmd f g l : (forall e, cmd (g e) = cmd e) -> map cmd (update_first f g l) = map cmd l.
Proof. intros H. induction l as [|e l IH]; simpl; [reflexivity|]. destruct (f e); simpl; rewrite ?H, ?IH; reflexivity. Qed.

Lemma record_outcome_cmds ctx c m h : map cmd (hs (record_outcome ctx c m h)) = map cmd (hs h).
Proof. unfold record_outcome. cbn [hs]. rewrite map_rev, update_first_cmd by reflexivity. rewrite map_rev, rev_involutive. reflexivity. Qed.

Lemma step_cache_ok lower h o : cache_ok h -> cache_ok (step lower h o).
Proof.
  unfold cache_ok. intros H. destruct o as [ctx b|ctx c m|rows|rows|rows|i w]; cbn [step].
  - unfold write_batch. cbn [hs cache reset_index set_index].
    set (h0 := if _ =? _ then h else rebuild lower h).
    assert (E0 : hs h0 = hs h /\ cache h0 = cache h) by (unfold h0; destruct (_ =? _); auto).
    assert (Ec : cache (fold_left (write_one lower ctx) b h0) = cache h).
    { rewrite writes_cache. apply E0. }
    rewrite Ec. apply cache_ok_batch. destruct E0 as [-> _]. exact H.
  - rewrite record_outcome_cmds. exact H.
  - unfold load. cbn. destruct (last100_suffix rows) as [p E]. exists p, (last100 rows). auto.
  - unfold prepend. cbn. destruct H as (p & q & E & F). exists (map cmd rows ++ p), q. rewrite map_app, E, app_assoc. auto.
  - unfold reload. destruct (at_end h); [|exact H]. cbn. match goal with |- context [last100 ?m] => destruct (last100_suffix m) as [p E] end.
    eexists p, _. split; [exact E|reflexivity].
  - exact H.
Qed.

(** Whatever the session did before, the suggestion for a prefix is the most recent
    command of the history having it. *)
Theorem C25_suggestion_is_most_recent_match : forall lower ops w,
  let h := run lower new_history ops in
  most_recent w (map cmd (hs h)) (search_first h w).
Proof.
  intros lower ops w h.
  assert (Ok : cache_ok h).
  { unfold h, run. assert (H0 : cache_ok new_history) by (exists [], []; auto). revert H0. generalize new_history.
    induction ops as [|o ops IH]; intros h0 H0; [exact H0|]. cbn [fold_left]. apply IH, step_cache_ok, H0. }
  clearbody h. unfold search_first. destruct Ok as (p & q & E & F).
  destruct (find (starts_with w) (rev (cache h))) as [c|] eqn:Ef.
  - assert (M : most_recent w q (Some c)).
    { apply most_recent_blu. rewrite <- F.
      pose proof (find_last_iff w (by_last_use (cache h))) as M1. pose proof (most_recent_blu _ _ _ M1) as M2.
      pose proof (find_last_iff w (cache h)) as M3. rewrite Ef in M3. rewrite (most_recent_unique _ _ _ _ M2 M3) in M1. exact M1. }
    rewrite E. destruct M as (a & b & -> & H1 & H2). exists (p ++ a), b. rewrite <- app_assoc. auto.
  - rewrite map_rev. apply find_last_iff.
Qed.
Print Assumptions C25_suggestion_is_most_recent_match.

Example C25_case :
  search_first (run (fun s => s) new_history [OWrite None [(lit "git a", 1%Z); (lit "git b", 2%Z); (lit "git a", 3%Z)]]) (lit "git") = Some (lit "git a").
Proof. vm_compute. reflexivity. Qed.

(** * C54: searching the history *)

Lemma step_aligned lower h o : normalized h = map (fun e => lower (cmd e)) (hs h) ->
  normalized (step lower h o) = map (fun e => lower (cmd e)) (hs (step lower h o)).
Proof.
  intros H. destruct o as [ctx b|ctx c m|rows|rows|rows|i w]; cbn [step]; try reflexivity.
  - unfold write_batch. cbn [hs normalized reset_index set_index].
    replace (length (normalized h) =? length (hs h)) with true by (symmetry; apply Nat.eqb_eq; rewrite H, map_length; reflexivity).
    revert h H. induction b as [|[c t] b IH]; intros h H; [exact H|]. cbn [fold_left]. apply IH.
    unfold write_one. destruct (position _ (hs h)) as [pos|]; cbn [hs normalized]; rewrite H, map_app; [|reflexivity].
    f_equal. unfold remove_at. rewrite map_app, firstn_map, skipn_map. reflexivity.
  - unfold record_outcome. cbn [hs normalized]. rewrite H.
    transitivity (map lower (map cmd (hs h))); [rewrite map_map; reflexivity|].
    rewrite <- (record_outcome_cmds ctx c m h). unfold record_outcome. cbn [hs]. rewrite map_map. reflexivity.
  - unfold reload. destruct (at_end h); [reflexivity|exact H].
  - exact H.
Qed.

Lemma search_loop_spec lower q pairs matched :
  (forall n, limit q = Some n -> length matched < n) ->
  search_loop lower q pairs matched =
    match limit q with
    | Some n => firstn n (matched ++ map fst (filter (fun p => passes lower q (snd p) (fst p)) pairs))
    | None => matched ++ map fst (filter (fun p => passes lower q (snd p) (fst p)) pairs)
    end.
Proof.
  revert matched. induction pairs as [|[e low] pairs IH]; intros matched Hl; cbn [search_loop filter fst snd].
  - simpl. rewrite app_nil_r. destruct (limit q) as [n|]; [|reflexivity]. rewrite firstn_all2; [reflexivity|]. specialize (Hl n eq_refl). lia.
  - destruct (passes lower q low e) eqn:E; [|apply IH, Hl]. destruct (limit q) as [n|] eqn:El.
    + specialize (Hl n eq_refl). destruct (n <=? length (matched ++ [e])) eqn:Hn.
      * apply Nat.leb_le in Hn. rewrite app_length in Hn. simpl in Hn. cbn [map fst].
        rewrite firstn_app. replace (n - length matched) with 1 by lia. rewrite firstn_all2 by lia. reflexivity.
      * apply Nat.leb_gt in Hn. rewrite IH by (intros m [= <-]; exact Hn). cbn [map fst]. rewrite <- app_assoc. reflexivity.
    + rewrite IH by discriminate. cbn [map fst]. rewrite <- app_assoc. reflexivity.
Qed.

Lemma opt_eqb_eq a b : opt_eqb a b = true <-> a = b.
Proof. destruct a, b; simpl; try (split; congruence). rewrite str_eqb_eq. split; congruence. Qed.

(** The search returns exactly the entries asked for, newest first, up to the limit. *)
Theorem C54_history_search_exact : forall lower ops q,
  let h := run lower new_history ops in
  exists f, (forall e, f e = true <-> wanted lower q e) /\
    search_entries lower q h =
      match limit q with Some n => firstn n (filter f (rev (hs h))) | None => filter f (rev (hs h)) end.
Proof.
  intros lower ops q h.
  assert (Al : normalized h = map (fun e => lower (cmd e)) (hs h)).
  { unfold h, run. assert (H0 : normalized new_history = map (fun e => lower (cmd e)) (hs new_history)) by reflexivity.
    revert H0. generalize new_history. induction ops as [|o ops IH]; intros h0 H0; [exact H0|]. cbn [fold_left]. apply IH, step_aligned, H0. }
  clearbody h. exists (fun e => passes lower q (lower (cmd e)) e). split.
  - intros e. unfold passes, wanted. rewrite !andb_true_iff.
    assert (A : match text q with Some t => contains (lower t) (lower (cmd e)) | None => true end = true <->
                forall t, text q = Some t -> exists a b, lower (cmd e) = a ++ lower t ++ b).
    { destruct (text q) as [t|]; [|split; congruence]. rewrite contains_iff. split; [intros H t' [= <-]; exact H|auto]. }
    rewrite A. clear A.
    assert (B : match qstatus q with AnyStatus => true
       | Success => match exit_code (outcome e) with Some c => (c =? 0)%Z | None => false end
       | Failure => match exit_code (outcome e) with Some c => negb (c =? 0)%Z | None => false end end = true <->
       (qstatus q = Success -> exit_code (outcome e) = Some 0%Z) /\
       (qstatus q = Failure -> exists c, exit_code (outcome e) = Some c /\ c <> 0%Z)).
    { destruct (qstatus q), (exit_code (outcome e)) as [c|]; try (split; [|reflexivity]; intros _; split; congruence).
      - rewrite Z.eqb_eq. split; [intros ->; split; congruence|]. intros [H _]. specialize (H eq_refl). congruence.
      - split; [discriminate|]. intros [H _]. specialize (H eq_refl). discriminate.
      - rewrite negb_true_iff, Z.eqb_neq. split; [intros H; split; [discriminate|eauto]|].
        intros [_ H]. destruct (H eq_refl) as (x & [= <-] & H'). exact H'.
      - split; [discriminate|]. intros [_ H]. destruct (H eq_refl) as (x & Hx & _). discriminate. }
    rewrite B. clear B.
    assert (C : match min_duration q with
       | Some d => negb (match duration (outcome e) with Some x => x <? d | None => 0 <? d end)%N | None => true end = true <->
       (forall d, min_duration q = Some d -> (d <= match duration (outcome e) with Some x => x | None => 0 end)%N)).
    { destruct (min_duration q) as [d|]; [|split; congruence]. rewrite negb_true_iff.
      replace (match duration (outcome e) with Some x => x <? d | None => 0 <? d end)%N
        with (match duration (outcome e) with Some x => x | None => 0 end <? d)%N by (destruct (duration (outcome e)); reflexivity).
      rewrite N.ltb_ge. split; [intros H d' [= <-]; exact H|auto]. }
    rewrite C. clear C.
    destruct (qscope q); rewrite ?opt_eqb_eq; intuition congruence.
  - unfold search_entries. rewrite Al, map_length, Nat.eqb_refl.
    assert (Cb : forall l, map fst (filter (fun p : entry * str => passes lower q (snd p) (fst p)) (combine l (map (fun e => lower (cmd e)) l)))
      = filter (fun e => passes lower q (lower (cmd e)) e) l).
    { induction l as [|e l IH]; [reflexivity|]. simpl. destruct (passes _ _ _ e); simpl; rewrite IH; reflexivity. }
    assert (Rv : rev (combine (hs h) (map (fun e => lower (cmd e)) (hs h))) = combine (rev (hs h)) (map (fun e => lower (cmd e)) (rev (hs h)))).
    { generalize (fun e => lower (cmd e)) as g. clear. intros g. induction (hs h) as [|e l IH]; [reflexivity|]. cbn [map combine rev]. rewrite IH.
      rewrite map_app. cbn [map]. 
      assert (G : forall (a : list entry) x, combine (a ++ [x]) (map g a ++ [g x]) = combine a (map g a) ++ [(x, g x)]).
      { induction a as [|y a IHa]; intros x; [reflexivity|]. simpl. rewrite IHa. reflexivity. }
      symmetry. apply G. }
    rewrite Rv. destruct (limit q) as [[|n]|] eqn:El; [reflexivity| |];
      rewrite search_loop_spec, El, Cb by (rewrite El; intros m Hm; inversion Hm; simpl; lia); reflexivity.
Qed.
Print Assumptions C54_history_search_exact.

Example C54_case :
  let m := Meta (Some 1%Z) (Some 5%N) None None None in
  let h := run (fun s => s) new_history [OWrite None [(lit "make a", 1%Z); (lit "make b", 2%Z)]; OOutcome None (lit "make a") m] in
  map cmd (search_entries (fun s => s) (Query (Some (lit "ake")) Global Failure (Some 3%N) (Some 1) None None None) h) = [lit "make a"].
Proof. vm_compute. reflexivity. Qed.

(** * C26: memory and database *)

Lemma known_upsert ctx c t rows c' :
  known c' (upsert ctx c t rows) =
    if str_eqb c c' then Some (match known c rows with Some r => Entry c t (count r + 1) ctx (outcome r) | None => Entry c t 1 ctx no_meta end)
    else known c' rows.
Proof.
  unfold known. induction rows as [|r rows IH]; simpl.
  - destruct (str_eqb_spec c c'); reflexivity.
  - destruct (str_eqb_spec (cmd r) c) as [E|E]; simpl.
    + destruct (str_eqb_spec c c') as [->|Hc]; [reflexivity|]. destruct (str_eqb_spec (cmd r) c'); [congruence|reflexivity].
    + rewrite IH. destruct (str_eqb_spec c c') as [->|Hc]; [|reflexivity]. destruct (str_eqb_spec (cmd r) c'); congruence.
Qed.

Lemma known_update_first c c' g l : (forall e, cmd (g e) = cmd e) ->
  known c' (update_first (fun e => str_eqb (cmd e) c) g l) = if str_eqb c c' then option_map g (known c l) else known c' l.
Proof.
  intros Hg. unfold known. induction l as [|e l IH]; simpl; [destruct (str_eqb c c'); reflexivity|].
  destruct (str_eqb_spec (cmd e) c) as [E|E]; simpl; rewrite ?Hg.
  - destruct (str_eqb_spec c c') as [->|Hc].
    + destruct (str_eqb_spec (cmd e) c'); [reflexivity|congruence].
    + destruct (str_eqb_spec (cmd e) c'); [congruence|reflexivity].
  - rewrite IH. destruct (str_eqb_spec c c') as [->|Hc]; [|reflexivity]. destruct (str_eqb_spec (cmd e) c'); congruence.
Qed.

Lemma known_rev c l : NoDup (map cmd l) -> known c (rev l) = known c l.
Proof.
  intros H. destruct (known c l) as [e|] eqn:E.
  - apply known_some in E as [E1 E2]. apply known_in; [|apply in_rev in E1; exact E1|exact E2].
    rewrite map_rev. apply NoDup_rev, H.
  - apply known_none. apply known_none in E. rewrite map_rev. rewrite <- in_rev. exact E.
Qed.

Lemma known_record_outcome ctx c m h c' : NoDup (map cmd (hs h)) ->
  known c' (hs (record_outcome ctx c m h)) =
    if str_eqb c c' then option_map (fun e => Entry (cmd e) (when e) (count e) ctx m) (known c (hs h)) else known c' (hs h).
Proof.
  intros H. unfold record_outcome. cbn [hs].
  rewrite known_rev by (rewrite update_first_cmd by reflexivity; rewrite map_rev; apply NoDup_rev, H).
  rewrite known_update_first by reflexivity. rewrite !known_rev by exact H. reflexivity.
Qed.

Lemma known_db_outcome ctx c m rows c' :
  known c' (db_outcome ctx c m rows) =
    if str_eqb c c' then option_map (fun r => Entry (cmd r) (when r) (count r) (match ctx with Some x => Some x | None => context r end) m) (known c rows)
    else known c' rows.
Proof.
  unfold known, db_outcome. induction rows as [|r rows IH]; simpl; [destruct (str_eqb c c'); reflexivity|].
  destruct (str_eqb_spec (cmd r) c) as [E|E]; simpl.
  - destruct (str_eqb_spec c c') as [->|Hc].
    + destruct (str_eqb_spec (cmd r) c'); [reflexivity|congruence].
    + destruct (str_eqb_spec (cmd r) c'); [congruence|]. exact IH.
  - destruct (str_eqb_spec c c') as [->|Hc].
    + destruct (str_eqb_spec (cmd r) c'); [congruence|]. exact IH.
    + rewrite IH. reflexivity.
Qed.

Definition agree (es rows : list entry) : Prop := forall c, view c es = view c rows.

Lemma agree_write lower ctx batch : forall h rows, NoDup (map cmd (hs h)) -> agree (hs h) rows ->
  NoDup (map cmd (hs (fold_left (write_one lower ctx) batch h))) /\
  agree (hs (fold_left (write_one lower ctx) batch h)) (db_write ctx batch rows).
Proof.
  induction batch as [|[c t] batch IH]; intros h rows Hn Ha; [auto|]. unfold db_write. cbn [fold_left fst snd].
  apply IH; [apply write_one_keeps_nodup, Hn|]. intros c'. unfold view. rewrite known_write_one, known_upsert by exact Hn.
  specialize (Ha c'). unfold view in Ha. destruct (str_eqb_spec c c') as [->|Hc]; [|exact Ha].
  unfold old_count. destruct (known c' (hs h)), (known c' rows); try discriminate; cbn [when count context]; [|reflexivity].
  injection Ha as _ -> _. reflexivity.
Qed.

Definition has_context (o : sop) : Prop := match o with SOutcome None _ _ => False | _ => True end.

(** Memory and table agree on every command, its time, count and context once the
    writer has caught up, in whatever way recording and writing interleave; the
    working directory must exist when an outcome is recorded. *)
Theorem C26_memory_and_table_agree_partial : forall lower h rows ops,
  NoDup (map cmd (hs h)) -> (forall c, view c (hs h) = view c rows) ->
  Forall has_context ops ->
  let s := srun lower (Store h rows []) ops in
  queue s = [] -> forall c, view c (hs (mem s)) = view c (History_Model.rows s).
Proof.
  intros lower h rows ops Hn Ha Hops s Hq.
  assert (G : NoDup (map cmd (hs (mem s))) /\ agree (hs (mem s)) (fold_left apply_msg (queue s) (History_Model.rows s))).
  { unfold s, srun. assert (G0 : NoDup (map cmd (hs (mem (Store h rows [])))) /\
      agree (hs (mem (Store h rows []))) (fold_left apply_msg (queue (Store h rows [])) (History_Model.rows (Store h rows [])))) by (split; assumption).
    clear Hn Ha Hq s. revert G0. generalize (Store h rows []). induction Hops as [|o ops Ho _ IH]; intros s G0; [exact G0|].
    cbn [fold_left]. apply IH. destruct G0 as [Hn Ha]. destruct o as [ctx b|ctx c m|]; cbn [sstep].
    - cbn [mem queue History_Model.rows]. rewrite fold_left_app. cbn [fold_left apply_msg]. rewrite write_batch_hs.
      apply agree_write; destruct (_ =? _); assumption.
    - cbn [mem queue History_Model.rows]. rewrite fold_left_app. cbn [fold_left apply_msg]. split; [rewrite record_outcome_cmds; exact Hn|].
      intros c'. unfold view. rewrite known_record_outcome, known_db_outcome by exact Hn. specialize (Ha c'). unfold view in Ha.
      destruct (str_eqb_spec c c') as [->|Hc]; [|exact Ha]. destruct ctx as [x|]; [|destruct Ho].
      destruct (known c' (hs (mem s))), (known c' (fold_left apply_msg (queue s) _)); simpl; try discriminate; [|reflexivity].
      injection Ha as -> -> _. reflexivity.
    - destruct (queue s) as [|m q] eqn:Eq; [rewrite Eq; auto|]. cbn [mem queue History_Model.rows]. split; [exact Hn|exact Ha]. }
  rewrite Hq in G. apply G.
Qed.
Print Assumptions C26_memory_and_table_agree_partial.

Example C26_case :
  let s := srun (fun s => s) (Store new_history [] [])
    [SWrite (Some (lit "/p")) [(lit "ls", 1%Z)]; SOutcome (Some (lit "/p")) (lit "ls") no_meta; SDrain; SWrite None [(lit "ls", 2%Z)]; SDrain; SDrain] in
  queue s = [] /\ view (lit "ls") (hs (mem s)) = Some (2, 2, None)%Z /\ view (lit "ls") (rows s) = Some (2, 2, None)%Z.
Proof. vm_compute. auto. Qed.

(** An outcome recorded where no working directory can be found: memory forgets the
    context, the table keeps it. *)
Theorem C26_context_agrees_refuted : exists lower ops c,
  let s := srun lower (Store new_history [] []) ops in
  queue s = [] /\ view c (hs (mem s)) <> view c (rows s).
Proof.
  exists (fun s => s), [SWrite (Some (lit "/p")) [(lit "ls", 1%Z)]; SOutcome None (lit "ls") no_meta; SDrain; SDrain], (lit "ls").
  split; [reflexivity|]. vm_compute. discriminate.
Qed.
Print Assumptions C26_context_agrees_refuted.

(** Recording a command again leaves the outcome of its previous run in the table: if
    the shell ends before the outcome is known, the new run shows the old exit code. *)
Theorem C26_outcome_agrees_refuted : exists lower ops c e r,
  let s := srun lower (Store new_history [] []) ops in
  queue s = [] /\ known c (hs (mem s)) = Some e /\ known c (rows s) = Some r /\
  when e = when r /\ exit_code (outcome e) = None /\ exit_code (outcome r) = Some 1%Z.
Proof.
  exists (fun s => s), [SWrite None [(lit "ls", 1%Z)]; SOutcome (Some (lit "/")) (lit "ls") (Meta (Some 1%Z) None None None None);
    SWrite None [(lit "ls", 2%Z)]; SDrain; SDrain; SDrain], (lit "ls").
  do 2 eexists. vm_compute. repeat split; reflexivity.
Qed.
Print Assumptions C26_outcome_agrees_refuted.

(** * C24: walking through the history *)

Definition small (h : history) : Prop := (len h < two64)%N.

Fixpoint backs (checks : bool) (n : nat) (h : history) : option (list (option str) * history) :=
  match n with
  | 0 => Some ([], h)
  | S m => match back checks h with
           | Some (r, h') => match backs checks m h' with Some (rs, h'') => Some (r :: rs, h'') | None => None end
           | None => None
           end
  end.
Fixpoint forwards (checks : bool) (n : nat) (h : history) : option (list (option str) * history) :=
  match n with
  | 0 => Some ([], h)
  | S m => match forward checks h with
           | Some (r, h') => match forwards checks m h' with Some (rs, h'') => Some (r :: rs, h'') | None => None end
           | None => None
           end
  end.

Lemma get_at h j : get h (N.of_nat j) = command_at h j.
Proof.
  unfold get, command_at, len. destruct (N.ltb_spec (N.of_nat j) (N.of_nat (length (hs h)))) as [H|H]; rewrite ?Nat2N.id; [reflexivity|].
  replace (nth_error (hs h) j) with (@None entry); [reflexivity|]. symmetry. apply nth_error_None. lia.
Qed.
Lemma sub1_pos checks i : (0 < i)%N -> sub1 checks i = Some (i - 1)%N.
Proof. intros H. unfold sub1. destruct (N.eqb_spec i 0); [lia|reflexivity]. Qed.
Lemma sub1_S checks j : sub1 checks (N.of_nat (S j)) = Some (N.of_nat j).
Proof. rewrite sub1_pos by lia. f_equal. lia. Qed.
Lemma add1_small checks i : (i < two64 - 1)%N -> add1 checks i = Some (i + 1)%N.
Proof. intros H. unfold add1. destruct (N.eqb_spec i (two64 - 1)); [lia|reflexivity]. Qed.
Lemma add1_nat checks j : (N.of_nat j < two64 - 1)%N -> add1 checks (N.of_nat j) = Some (N.of_nat (S j)).
Proof. intros H. rewrite add1_small by exact H. f_equal. lia. Qed.

Lemma firstn_S_nth {A} (l : list A) j x : nth_error l j = Some x -> firstn (S j) l = firstn j l ++ [x].
Proof. revert j; induction l as [|y l IH]; intros [|j] H; simpl in *; try discriminate; [congruence|]. rewrite <- (IH j H). reflexivity. Qed.
Lemma skipn_S_nth {A} (l : list A) j x : nth_error l j = Some x -> skipn j l = x :: skipn (S j) l.
Proof. revert j; induction l as [|y l IH]; intros [|j] H; simpl in *; try discriminate; [congruence|]. rewrite (IH j H). reflexivity. Qed.

(** Without a search word: walking back from the prompt shows the commands from the
    newest to the oldest and then stays; walking forward shows them in order and stops
    at the newest. *)
Theorem C24_plain_walk : forall checks h n i, word h = None -> small h -> i <= length (hs h) ->
  let cmds := map cmd (hs h) in
  (exists h', backs checks n (set_index h (N.of_nat i)) =
     Some (map Some (firstn n (rev (firstn i cmds))) ++ repeat None (n - i), h') /\ h' = set_index h (N.of_nat (i - n))) /\
  (i < length (hs h) -> exists h', forwards checks n (set_index h (N.of_nat i)) =
     Some (map Some (firstn n (skipn (S i) cmds)) ++ repeat None (n - (length cmds - S i)), h') /\
     h' = set_index h (N.of_nat (Nat.min (i + n) (length (hs h) - 1)))).
Proof.
  intros checks h n i Hw Hs Hi cmds. split.
  - revert i Hi. induction n as [|n IH]; intros i Hi.
    { eexists. cbn. rewrite Nat.sub_0_r. split; reflexivity. }
    cbn [backs]. unfold back. cbn [index set_index word]. destruct i as [|j].
    + change (0 <? N.of_nat 0)%N with false. cbv iota. destruct (IH 0 Hi) as (h' & E & Eh). rewrite E. eexists. split; [|exact Eh].
      cbn [firstn rev]. rewrite !firstn_nil. cbn [map app]. replace (S n - 0) with (S (n - 0)) by lia. reflexivity.
    + replace (0 <? N.of_nat (S j))%N with true by (symmetry; apply N.ltb_lt; lia). rewrite sub1_S, Hw.
      change (set_index (set_index h (N.of_nat (S j))) (N.of_nat j)) with (set_index h (N.of_nat j)).
      destruct (IH j) as (h' & E & Eh); [lia|]. rewrite E. eexists. split; [|exact Eh]. f_equal. f_equal.
      rewrite get_at. change (command_at (set_index h _) j) with (command_at h j). unfold command_at.
      assert (Hj : nth_error cmds j = option_map cmd (nth_error (hs h) j)) by apply nth_error_map.
      destruct (nth_error (hs h) j) as [e|] eqn:Ee; [|apply nth_error_None in Ee; lia]. cbn [option_map] in *.
      assert (Ef : firstn (S j) cmds = firstn j cmds ++ [cmd e]).
      { apply firstn_S_nth, Hj. }
      rewrite Ef, rev_app_distr. cbn [rev app firstn map]. reflexivity.
  - assert (Lc : length cmds = length (hs h)) by apply map_length.
    intros Hl. revert i Hi Hl. induction n as [|n IH]; intros i Hi Hl.
    { eexists. cbn. rewrite Nat.add_0_r, Nat.min_l by lia. split; reflexivity. }
    cbn [forwards]. unfold forward. cbn [index set_index word].
    unfold small, len in Hs. rewrite add1_nat by lia. change (len (set_index h (N.of_nat i))) with (len h). unfold len.
    destruct (N.ltb_spec (N.of_nat (S i)) (N.of_nat (length (hs h)))) as [H|H].
    + rewrite Hw. change (set_index (set_index h (N.of_nat i)) (N.of_nat (S i))) with (set_index h (N.of_nat (S i))).
      destruct (IH (S i)) as (h' & E & Eh); [lia|lia|]. rewrite E. eexists. split; [|rewrite Eh; unfold set_index; replace (Nat.min (i + S n) (length (hs h) - 1)) with (Nat.min (S i + n) (length (hs h) - 1)) by lia; reflexivity].
      f_equal. f_equal. rewrite get_at. change (command_at (set_index h _) (S i)) with (command_at h (S i)). unfold command_at.
      assert (Hj : nth_error cmds (S i) = option_map cmd (nth_error (hs h) (S i))) by apply nth_error_map.
      destruct (nth_error (hs h) (S i)) as [e|] eqn:Ee; [|apply nth_error_None in Ee; lia]. cbn [option_map] in *.
      assert (Es : skipn (S i) cmds = cmd e :: skipn (S (S i)) cmds) by (apply skipn_S_nth, Hj).
      rewrite Es. cbn [firstn map app]. replace (S n - (length cmds - S i)) with (n - (length cmds - S (S i))) by lia. reflexivity.
    + destruct (IH i) as (h' & E & Eh); [lia|lia|]. rewrite E. eexists. split; [|rewrite Eh; unfold set_index; replace (Nat.min (i + S n) (length (hs h) - 1)) with (Nat.min (i + n) (length (hs h) - 1)) by lia; reflexivity].
      rewrite skipn_all2 by (rewrite Lc; lia). rewrite !firstn_nil. cbn [map app].
      replace (S n - (length cmds - S i)) with (S (n - (length cmds - S i))) by lia. reflexivity.
Qed.
Print Assumptions C24_plain_walk.

(** With a search word, one step back from position [i]: the newest match below [i]
    among all entries but the very first. *)
Lemma match_bool h w j e : nth_error (hs h) j = Some e -> (starts_with w (cmd e) = true <-> matches h w j).
Proof.
  intros E. rewrite starts_with_iff. unfold matches. split; [eauto|]. intros (e' & E' & H). rewrite E in E'. injection E' as <-. exact H.
Qed.

Lemma back_loop_spec checks h w : forall fuel j, j < fuel -> j < length (hs h) ->
  (forall k, 1 <= k <= j -> matches h w k -> (forall l, k < l <= j -> ~ matches h w l) ->
     back_loop checks fuel h w (N.of_nat j) = Some (command_at h k, N.of_nat k)) /\
  ((forall k, 1 <= k <= j -> ~ matches h w k) -> 1 <= j -> back_loop checks fuel h w (N.of_nat j) = Some (None, 0%N)).
Proof.
  induction fuel as [|f IH]; intros j Hf Hj; [lia|]. cbn [back_loop].
  destruct (nth_error (hs h) j) as [e|] eqn:Ee; [|apply nth_error_None in Ee; lia].
  assert (Eg : get h (N.of_nat j) = Some (cmd e)) by (rewrite get_at; unfold command_at; rewrite Ee; reflexivity). rewrite !Eg.
  pose proof (match_bool h w j e Ee) as Hm. destruct (starts_with w (cmd e)) eqn:Es.
  - split.
    + intros k Hk Mk Hno. destruct (Nat.eq_dec k j) as [->|Hne].
      * unfold command_at. rewrite Ee. reflexivity.
      * exfalso. apply (Hno j); [lia|]. apply Hm. reflexivity.
    + intros H Hj1. exfalso. apply (H j); [lia|]. apply Hm. reflexivity.
  - assert (Nj : ~ matches h w j) by (rewrite <- Hm; discriminate). split.
    + intros k Hk Mk Hno. destruct j as [|j]; [lia|]. rewrite sub1_S.
      assert (k <> S j) by (intros ->; contradiction).
      destruct (N.eqb_spec (N.of_nat j) 0) as [E0|E0]; [lia|].
      apply (IH j); [lia|lia|lia|exact Mk|]. intros l Hl. apply Hno. lia.
    + intros H Hj1. destruct j as [|j]; [lia|]. rewrite sub1_S.
      destruct (N.eqb_spec (N.of_nat j) 0) as [E0|E0]; [rewrite E0; reflexivity|].
      apply (IH j); [lia|lia| |lia]. intros k Hk. apply H. lia.
Qed.

Theorem C24_back_finds_newest_match_partial : forall checks h w i,
  word h = Some w -> i <= length (hs h) ->
  (forall k, 1 <= k < i -> matches h w k -> (forall l, k < l < i -> ~ matches h w l) ->
     back checks (set_index h (N.of_nat i)) = Some (command_at h k, set_index h (N.of_nat k))) /\
  ((forall k, 1 <= k < i -> ~ matches h w k) -> 2 <= i ->
     back checks (set_index h (N.of_nat i)) = Some (None, set_index h 0)).
Proof.
  intros checks h w i Hw Hi. unfold back. cbn [index set_index word]. split.
  - intros k Hk Mk Hno. destruct i as [|j]; [lia|]. replace (0 <? N.of_nat (S j))%N with true by (symmetry; apply N.ltb_lt; lia).
    rewrite sub1_S, Hw. destruct (back_loop_spec checks (set_index h (N.of_nat (S j))) w (S (length (hs h))) j) as [A _]; [lia|exact Hi|].
    cbn [hs set_index]. rewrite (A k); [reflexivity|lia|exact Mk|]. intros l Hl. apply Hno. lia.
  - intros H Hi2. destruct i as [|j]; [lia|]. replace (0 <? N.of_nat (S j))%N with true by (symmetry; apply N.ltb_lt; lia).
    rewrite sub1_S, Hw. destruct (back_loop_spec checks (set_index h (N.of_nat (S j))) w (S (length (hs h))) j) as [_ A]; [lia|exact Hi|].
    cbn [hs set_index]. rewrite A; [reflexivity| |lia]. intros k Hk. apply H. lia.
Qed.
Print Assumptions C24_back_finds_newest_match_partial.

Lemma forward_loop_spec checks h w : forall fuel j, small h -> length (hs h) - j < fuel -> j <= length (hs h) ->
  (forall k, j <= k -> matches h w k -> (forall l, j <= l < k -> ~ matches h w l) ->
     forward_loop checks fuel h w (N.of_nat j) = Some (command_at h k, N.of_nat k)) /\
  ((forall k, j <= k -> ~ matches h w k) -> forward_loop checks fuel h w (N.of_nat j) = Some (None, len h)).
Proof.
  intros fuel j Hs. revert j. induction fuel as [|f IH]; intros j Hf Hj; [lia|]. cbn [forward_loop].
  assert (Eg : get h (N.of_nat j) = option_map cmd (nth_error (hs h) j)) by apply get_at.
  destruct (nth_error (hs h) j) as [e|] eqn:Ee; cbn [option_map] in Eg; rewrite !Eg.
  - pose proof (match_bool h w j e Ee) as Hm.
    assert (j < length (hs h)) by (apply nth_error_Some; congruence). unfold small, len in Hs.
    destruct (starts_with w (cmd e)) eqn:Es.
    + split.
      * intros k Hk Mk Hno. destruct (Nat.eq_dec k j) as [->|Hne]; [unfold command_at; rewrite Ee; reflexivity|].
        exfalso. apply (Hno j); [lia|]. apply Hm. reflexivity.
      * intros H'. exfalso. apply (H' j); [lia|]. apply Hm. reflexivity.
    + assert (Nj : ~ matches h w j) by (rewrite <- Hm; discriminate). rewrite add1_nat by lia. split.
      * intros k Hk Mk Hno. assert (k <> j) by (intros ->; contradiction). apply (IH (S j)); [lia|lia|lia|exact Mk|].
        intros l Hl. apply Hno. lia.
      * intros H'. apply (IH (S j)); [lia|lia|]. intros k Hk. apply H'. lia.
  - apply nth_error_None in Ee. assert (j = length (hs h)) by lia. subst j. split; [|reflexivity].
    intros k Hk (e & E & _) _. assert (k < length (hs h)) by (apply nth_error_Some; congruence). lia.
Qed.

Theorem C24_forward_finds_next_match : forall checks h w i,
  word h = Some w -> small h -> i < length (hs h) ->
  (forall k, i < k -> matches h w k -> (forall l, i < l < k -> ~ matches h w l) ->
     forward checks (set_index h (N.of_nat i)) = Some (command_at h k, set_index h (N.of_nat k))) /\
  ((forall k, i < k -> ~ matches h w k) ->
     exists j, forward checks (set_index h (N.of_nat i)) = Some (None, set_index h j) /\
       (j = len h \/ (i = length (hs h) - 1 /\ j = N.of_nat i))).
Proof.
  intros checks h w i Hw Hs Hi. unfold forward. cbn [index set_index word].
  pose proof Hs as Hs'. unfold small, len in Hs'. rewrite add1_nat by lia. change (len (set_index h (N.of_nat i))) with (len h).
  destruct (N.ltb_spec (N.of_nat (S i)) (len h)) as [H|H]; unfold len in H.
  - rewrite Hw. destruct (forward_loop_spec checks (set_index h (N.of_nat i)) w (S (length (hs h))) (S i)) as [A B]; [exact Hs|cbn; lia|cbn; lia|].
    cbn [hs set_index]. split.
    + intros k Hk Mk Hno. rewrite (A k); [reflexivity|lia|exact Mk|]. intros l Hl. apply Hno. lia.
    + intros Hno. rewrite B; [|intros k Hk; apply Hno; lia]. exists (len h). split; [reflexivity|left; reflexivity].
  - split.
    + intros k Hk (e & E & _) _. assert (k < length (hs h)) by (apply nth_error_Some; congruence). lia.
    + intros _. exists (N.of_nat i). split; [reflexivity|right; lia].
Qed.
Print Assumptions C24_forward_finds_next_match.

Definition sample (cs : list string) (w : option str) (i : N) : history :=
  Hist (map (fun c => Entry (lit c) 0 1 None no_meta) cs) i w [] [].

Example C24_case :
  let h := sample ["x"; "git a"; "ls"; "git b"; "cd"]%string (Some (lit "git")) 5 in
  backs true 2 h = Some ([Some (lit "git b"); Some (lit "git a")], set_index h 1) /\
  matches h (lit "git") 3 /\ small h.
Proof.
  split; [vm_compute; reflexivity|]. split; [|reflexivity].
  exists (Entry (lit "git b") 0 1 None no_meta). split; [reflexivity|]. exists (lit " b"). reflexivity.
Qed.

(** The oldest entry is skipped although it matches. *)
Theorem C24_oldest_match_found_refuted : exists h w, word h = Some w /\ at_end h = true /\
  matches h w 0 /\ forall checks, back checks h = Some (None, set_index h 0).
Proof.
  exists (sample ["git a"; "ls"; "cd"]%string (Some (lit "git")) 3), (lit "git"). split; [reflexivity|]. split; [reflexivity|].
  split; [exists (Entry (lit "git a") 0 1 None no_meta); split; [reflexivity|]; exists (lit " a"); reflexivity|].
  intros checks. vm_compute. reflexivity.
Qed.
Print Assumptions C24_oldest_match_found_refuted.

(** Going back from the second entry when the first does not match: with overflow checks
    the program panics. *)
Theorem C24_search_never_fails_refuted : exists h w, word h = Some w /\ index h = 1%N /\ matches h w 1 /\ back true h = None.
Proof.
  exists (sample ["x"; "ls"]%string (Some (lit "ls")) 1), (lit "ls"). split; [reflexivity|]. split; [reflexivity|].
  split; [|vm_compute; reflexivity]. exists (Entry (lit "ls") 0 1 None no_meta). split; [reflexivity|]. exists []. reflexivity.
Qed.
Print Assumptions C24_search_never_fails_refuted.

Lemma stuck_step h : (len h + 1 < index h)%N -> (index h < two64 - 1)%N ->
  forward false h = Some (None, h) /\
  (exists w, word h = Some w) -> back false h = Some (None, set_index h (index h - 1)).
Proof.
  intros H1 H2 [_ [w Hw]]. unfold back. replace (0 <? index h)%N with true by (symmetry; apply N.ltb_lt; lia).
  rewrite sub1_pos by lia. rewrite Hw. cbn [back_loop]. unfold get.
  destruct (N.ltb_spec (index h - 1) (len h)); [lia|reflexivity].
Qed.

(** Without them the position wraps around; one more step back and, for the next 2^63
    steps, neither direction shows anything, although entries match. *)
Theorem C24_release_walk_gets_stuck_refuted : exists h w h2, word h = Some w /\ index h = 1%N /\ matches h w 1 /\
  backs false 2 h = Some ([None; None], h2) /\
  forall n, (N.of_nat n < 2 ^ 63)%N -> exists h3, backs false n h2 = Some (repeat None n, h3) /\
    forward false h3 = Some (None, h3) /\ at_end h3 = false.
Proof.
  set (h := sample ["x"; "ls"]%string (Some (lit "ls")) 1).
  exists h, (lit "ls"), (set_index h (two64 - 2)). split; [reflexivity|]. split; [reflexivity|].
  split; [exists (Entry (lit "ls") 0 1 None no_meta); split; [reflexivity|]; exists []; reflexivity|].
  split; [vm_compute; reflexivity|].
  assert (F : forall i, (3 < i < two64 - 1)%N -> forward false (set_index h i) = Some (None, set_index h i)).
  { intros i Hi. unfold forward. cbn [index set_index]. rewrite add1_small by lia. change (len (set_index h i)) with 2%N.
    destruct (N.ltb_spec (i + 1) 2); [lia|reflexivity]. }
  assert (G : forall n i, (N.of_nat n + 4 < i < two64 - 1)%N -> exists h3, backs false n (set_index h i) = Some (repeat None n, h3) /\
     forward false h3 = Some (None, h3) /\ at_end h3 = false).
  { induction n as [|n IH]; intros i Hi.
    - exists (set_index h i). split; [reflexivity|]. split; [apply F; lia|]. unfold at_end. cbn [index set_index].
      change (len (set_index h i)) with 2%N. apply N.eqb_neq. lia.
    - cbn [backs]. rewrite stuck_step.
      + cbn [index set_index]. change (set_index (set_index h i) (i - 1)) with (set_index h (i - 1)).
        destruct (IH (i - 1)%N) as (h3 & E & R); [lia|]. rewrite E. exists h3. split; [reflexivity|exact R].
      + cbn [index set_index]. change (len (set_index h i)) with 2%N. lia.
      + cbn [index set_index]. lia.
      + split; [apply F; lia|exists (lit "ls"); reflexivity]. }
  intros n Hn. apply G. unfold two64. change (2 ^ 64)%N with 18446744073709551616%N. change (2 ^ 63)%N with 9223372036854775808%N in Hn. lia.
Qed.
Print Assumptions C24_release_walk_gets_stuck_refuted.

(** * C53: the arrow keys *)

(** At a fresh prompt with some text, Up shows the newest command starting with it. *)
Theorem C53_up_searches_typed_text_partial : forall checks h input k,
  word h = None -> at_end h = true -> input <> [] -> 1 <= k ->
  matches h input k -> (forall l, k < l -> ~ matches h input l) ->
  exists h' c, up checks h input = Some (h', c) /\ command_at h k = Some c /\
    word h' = Some input /\ index h' = N.of_nat k /\ hs h' = hs h.
Proof.
  intros checks h input k Hw He Hi Hk Mk Hno. unfold up. assert (Hie : is_empty input = false) by (destruct input; [congruence|reflexivity]).
  rewrite Hie, He, Hw. cbn [andb negb]. apply N.eqb_eq in He.
  assert (E : set_word h (@Some str input) = set_index (set_word h (@Some str input)) (N.of_nat (length (hs h)))).
  { unfold set_index, set_word. cbn. rewrite He. reflexivity. }
  rewrite E. assert (k < length (hs h)).
  { destruct Mk as (e & Ee & _). apply nth_error_Some. congruence. }
  destruct (C24_back_finds_newest_match_partial checks (set_word h (@Some str input)) input (length (hs h))) as [A _]; [reflexivity|cbn; lia|].
  rewrite (A k); [|lia|exact Mk|intros l Hl; apply Hno; lia].
  change (command_at (set_word h (Some input)) k) with (command_at h k).
  destruct (command_at h k) as [c|] eqn:Ec.
  - eexists _, _. split; [reflexivity|]. auto.
  - exfalso. destruct Mk as (e & Ee & _). unfold command_at in Ec. rewrite Ee in Ec. discriminate.
Qed.
Print Assumptions C53_up_searches_typed_text_partial.

(** After leaving the history with Down, the next Up still searches for the old text,
    whatever was typed since. *)
Theorem C53_up_searches_typed_text_refuted : exists h h1 h2 s1 s2,
  at_end h = true /\ word h = None /\
  up false h (lit "git") = Some (h1, s1) /\ down false h1 s1 = Some (h2, s2) /\ s2 = lit "git" /\
  at_end h2 = true /\ matches h2 (lit "ls") 1 /\
  exists h3, up false h2 (lit "ls") = Some (h3, lit "git status").
Proof.
  exists (sample ["x"; "ls"; "git status"]%string None 3). do 4 eexists. split; [reflexivity|]. split; [reflexivity|].
  split; [vm_compute; reflexivity|]. split; [vm_compute; reflexivity|]. split; [reflexivity|]. split; [reflexivity|].
  split; [exists (Entry (lit "ls") 0 1 None no_meta); split; [reflexivity|]; exists []; reflexivity|].
  eexists. vm_compute. reflexivity.
Qed.
Print Assumptions C53_up_searches_typed_text_refuted.

(** Where a walk that started at the prompt with the word [w] can be: still at the
    prompt, showing [w], or at a matching entry, showing it. *)
Definition on_walk (w : str) (h : history) (shown : str) : Prop :=
  word h = Some w /\
  ((index h = len h /\ shown = w) \/
   exists i, index h = N.of_nat i /\ matches h w i /\ command_at h i = Some shown).

(** Down undoes Up. *)
Theorem C53_down_undoes_up : forall checks w h shown k,
  on_walk w h shown -> w <> [] -> small h -> 1 <= k -> (N.of_nat k < index h)%N -> matches h w k ->
  exists h' shown', up checks h shown = Some (h', shown') /\ on_walk w h' shown' /\ (index h' < index h)%N /\
    down checks h' shown' = Some (h, shown).
Proof.
  intros checks w h shown k [Hw Hpos] Hne Hs Hk Hki Mk.
  (* the newest match below the position *)
  assert (Hi : exists i, index h = N.of_nat i /\ i <= length (hs h)).
  { destruct Hpos as [[-> _]|(i & -> & (e & Ee & _) & _)]; [exists (length (hs h)); split; [reflexivity|lia]|].
    exists i. split; [reflexivity|]. assert (i < length (hs h)) by (apply nth_error_Some; congruence). lia. }
  destruct Hi as (i & Ei & Hi).
  assert (Dec : forall j, matches h w j \/ ~ matches h w j).
  { intros j. destruct (nth_error (hs h) j) as [e|] eqn:Ee.
    - rewrite <- (match_bool h w j e Ee). destruct (starts_with w (cmd e)); [left|right]; congruence.
    - right. intros (e & E & _). congruence. }
  assert (Hnew : exists j, 1 <= j < i /\ matches h w j /\ forall l, j < l < i -> ~ matches h w l).
  { rewrite Ei in Hki. assert (k < i) by lia. clear - Dec Hk Mk H.
    remember (i - k) as d eqn:Ed. revert k Hk Mk H Ed. induction d as [d IH] using lt_wf_ind. intros k Hk Mk H Ed.
    assert (Q : (exists l, k < l < i /\ matches h w l) \/ forall l, k < l < i -> ~ matches h w l).
    { clear - Dec. induction i as [|i0 IH]; [right; lia|].
      destruct IH as [(l & Hl & Ml)|IH]; [left; exists l; split; [lia|exact Ml]|].
      destruct (Dec i0) as [M|M]; [|right; intros l Hl; destruct (Nat.eq_dec l i0) as [->|]; [exact M|apply IH; lia]].
      destruct (le_lt_dec i0 k) as [L|L]; [right; intros l Hl; lia|left; exists i0; split; [lia|exact M]]. }
    destruct Q as [(l & Hl & Ml)|Q]; [|exists k; auto]. apply (IH (i - l)) with (k := l); [lia|lia|exact Ml|lia|reflexivity]. }
  clear k Hk Hki Mk. destruct Hnew as (j & Hj & Mj & Hno).
  assert (Hsh : shown <> []).
  { destruct Hpos as [[_ ->]|(i' & _ & (e & Ee & t & Et) & Ec)]; [exact Hne|].
    unfold command_at in Ec. rewrite Ee in Ec. injection Ec as <-. rewrite Et. destruct w; [congruence|discriminate]. }
  assert (Ih : h = set_index h (N.of_nat i)) by (destruct h; cbn in *; rewrite Ei; reflexivity).
  unfold up. destruct shown as [|s0 sr]; [congruence|]. cbn [is_empty].
  replace (at_end h && _ && _) with false by (rewrite Hw, !andb_false_r; reflexivity).
  destruct (C24_back_finds_newest_match_partial checks h w i Hw Hi) as [A _].
  pose proof (A j Hj Mj Hno) as Eb. rewrite <- Ih in Eb. rewrite Eb.
  destruct Mj as (e & Ee & t & Et). unfold command_at. rewrite Ee. cbn [option_map].
  assert (Hjl : j < length (hs h)) by (apply nth_error_Some; congruence).
  exists (set_index h (N.of_nat j)), (cmd e). split; [reflexivity|]. split.
  { split; [exact Hw|]. right. exists j. split; [reflexivity|]. split; [exists e; eauto|]. unfold command_at. cbn [hs set_index]. rewrite Ee. reflexivity. }
  split; [cbn [index set_index]; lia|].
  unfold down. assert (Hce : is_empty (cmd e) = false) by (rewrite Et; destruct w; [congruence|reflexivity]). rewrite Hce.
  replace (at_end (set_index h (N.of_nat j))) with false.
  2: { symmetry. apply N.eqb_neq. cbn [index set_index]. change (len (set_index h (N.of_nat j))) with (len h). unfold len. lia. }
  destruct (C24_forward_finds_next_match checks h w j Hw Hs Hjl) as [B C].
  destruct Hpos as [[E1 E2]|(i' & E1 & Mi & Ec)].
  - assert (i = length (hs h)) by (unfold len in E1; lia). subst i.
    destruct C as (j' & Ef & Hj').
    { intros l Hl Ml. apply (Hno l); [|exact Ml]. destruct Ml as (x & Ex & _). assert (l < length (hs h)) by (apply nth_error_Some; congruence). lia. }
    rewrite Ef. f_equal. unfold saved. cbn [word set_index]. rewrite Hw, E2. f_equal.
    assert (R : set_index h (len h) = h) by (rewrite <- E1; destruct h; reflexivity).
    destruct Hj' as [-> | [Hj1 ->]].
    + destruct (at_latest_entry _); [exact R|exact R].
    + replace (at_latest_entry (set_index h (N.of_nat j))) with true; [exact R|]. symmetry. apply N.eqb_eq. cbn [index set_index].
      change (len (set_index h (N.of_nat j))) with (len h). unfold len. lia.
  - assert (i' = i) by lia. subst i'. rewrite (B i); [|lia|exact Mi|exact Hno]. rewrite Ec. rewrite <- Ih. reflexivity.
Qed.
Print Assumptions C53_down_undoes_up.

Example C53_case :
  let h := sample ["x"; "git a"; "ls"; "git b"; "cd"]%string (Some (lit "git")) 5 in
  on_walk (lit "git") h (lit "git") /\ matches h (lit "git") 3.
Proof.
  simpl. split; [split; [reflexivity|left; split; reflexivity]|].
  exists (Entry (lit "git b") 0 1 None no_meta). split; [reflexivity|]. exists (lit " b"). reflexivity.
Qed.
