From Verif Require Import Base Jobs_Model Jobs_Spec.
From Coq Require Import Permutation Sorted.

Lemma is_completed_iff ps : is_completed ps = true <-> Forall completed ps.
Proof.
  induction ps as [|p ps IH]; simpl; [split; auto|].
  split.
  - destruct (pstate p) eqn:E; try discriminate. intros H. constructor.
    + do 2 eexists; exact E.
    + apply IH, H.
  - intros H. inversion H as [|? ? [c [sg Hc]] Hr]; subst. rewrite Hc. apply IH, Hr.
Qed.

Lemma is_stopped_iff ps : is_stopped ps = true <-> Forall (fun p => ~ running p) ps.
Proof.
  unfold running. induction ps as [|p ps IH]; simpl; [split; auto|].
  split.
  - destruct (pstate p) eqn:E; try discriminate; intros H; constructor; try congruence; apply IH, H.
  - intros H. inversion H as [|? ? Hc Hr]; subst. destruct (pstate p); try congruence; apply IH, Hr.
Qed.

Lemma has_stopped_iff ps : has_stopped ps = true <-> Exists stopped ps.
Proof.
  induction ps as [|p ps IH]; simpl.
  - split; [discriminate | intros H; inversion H].
  - split.
    + destruct (pstate p) eqn:E; intros H; try (right; apply IH, H).
      left. do 2 eexists; exact E.
    + intros H. inversion H as [? ? [q [sg Hc]]|? ? Hr]; subst; [rewrite Hc; reflexivity|].
      destruct (pstate p); try reflexivity; apply IH, Hr.
Qed.

Lemma consumer_iff ps : consumer_terminated ps = true <-> consumer_succeeded ps.
Proof.
  unfold consumer_succeeded. induction ps as [|p ps IH]; simpl.
  - split; [discriminate|]. intros [b [q [a [H _]]]]. destruct b; discriminate.
  - rewrite orb_true_iff, IH. split.
    + intros [[b [q [a [H1 [H2 H3]]]]]|H].
      * exists (p :: b), q, a. subst. repeat split; auto; discriminate.
      * destruct ps as [|q ps]; [discriminate|]. exists [p], q, ps.
        destruct (pstate q) as [|[|c] [sg|]|] eqn:E; try discriminate. repeat split; auto; discriminate.
    + intros [b [q [a [H1 [H2 H3]]]]]. destruct b as [|x b]; [congruence|].
      simpl in H1. injection H1 as -> ->. destruct b as [|y b].
      * right. simpl. rewrite H3. reflexivity.
      * left. exists (y :: b), q, a. repeat split; auto; discriminate.
Qed.

Lemma job_completed_iff j :
  is_job_completed j = true <->
  Forall completed (jprocs j) \/ (consumer_succeeded (jprocs j) /\ ~ Exists stopped (jprocs j)).
Proof.
  unfold is_job_completed. destruct (jprocs j) as [|p ps] eqn:E; [split; [left; constructor | auto]|].
  rewrite orb_true_iff, andb_true_iff, negb_true_iff, is_completed_iff, consumer_iff.
  rewrite <- has_stopped_iff. destruct (has_stopped (p :: ps)); intuition congruence.
Qed.

(** ** set_state *)
Lemma set_state_shape ps q s :
  map ppid (fst (set_state ps q s)) = map ppid ps /\ map builtin (fst (set_state ps q s)) = map builtin ps.
Proof.
  induction ps as [|p ps IH]; simpl; [auto|].
  destruct (builtin p) eqn:Eb.
  - destruct ps as [|p2 ps]; [simpl; rewrite Eb; auto|].
    destruct (set_state (p2 :: ps) q s) as [r f]. simpl in IH.
    destruct f; [simpl; rewrite Eb; destruct IH as [-> ->]; auto|].
    destruct (pid_is (ppid p) q); simpl; rewrite Eb; destruct IH as [-> ->]; auto.
  - destruct (pid_is (ppid p) q); simpl; [rewrite Eb; auto|].
    destruct (set_state ps q s) as [r f]. simpl in *. rewrite Eb. destruct IH as [-> ->]; auto.
Qed.

Lemma set_state_external ps q s :
  externals ps ->
  fst (set_state ps q s) = map (fun p => if pid_is (ppid p) q then set_pst p s else p) ps.
Proof.
  intros [H1 H2]. induction ps as [|p ps IH]; simpl; [reflexivity|].
  inversion H1 as [|? ? [Hb [r Hr]] H1']; subst. inversion H2 as [|? ? Hn H2']; subst.
  rewrite Hb, Hr. simpl. destruct (r =? q) eqn:E.
  - simpl. f_equal. apply Nat.eqb_eq in E. subst r.
    clear IH. rewrite <- (map_id ps) at 1. apply map_ext_in. intros a Ha.
    destruct (pid_is (ppid a) q) eqn:Ea; [|reflexivity].
    exfalso. apply Hn. rewrite Hr. unfold pid_is in Ea. destruct (ppid a) as [y|] eqn:Ep; [|discriminate].
    apply Nat.eqb_eq in Ea. subst. rewrite <- Ep. apply in_map, Ha.
  - destruct (set_state ps q s) as [r' f] eqn:Es. simpl. f_equal. simpl in IH. apply IH; assumption.
Qed.

Lemma externals_shape ps ps' :
  map ppid ps' = map ppid ps -> map builtin ps' = map builtin ps -> externals ps -> externals ps'.
Proof.
  intros Hp Hb [H1 H2]. split; [|rewrite Hp; exact H2].
  clear H2. revert ps' Hp Hb. induction H1 as [|p ps [Eb [q Eq]] H1 IH]; intros [|p' ps'] Hp Hb; try discriminate; constructor.
  - simpl in *. split; [congruence|]. exists q. congruence.
  - simpl in *. apply IH; congruence.
Qed.

(** ** the wait loop refines "apply the consumed events in order" *)
Lemma event_state_about e :
  event_state e = match about e with Some p => Some (p, reports e) | None => None end.
Proof. destruct e; reflexivity. Qed.

Definition advance (evs : list (bool * wev)) (ps : list proc) : list proc :=
  map (fun p => set_pst p (latest (ppid p) (pstate p) evs)) ps.

Lemma advance_nil ps : advance [] ps = ps.
Proof. unfold advance. rewrite <- (map_id ps) at 2. apply map_ext. intros [b p s]. reflexivity. Qed.

Lemma advance_cons_none b e evs ps : about e = None -> advance ((b, e) :: evs) ps = advance evs ps.
Proof. intros H. unfold advance. apply map_ext. intros p. simpl. rewrite H. reflexivity. Qed.

Lemma advance_cons_some b e q evs ps :
  about e = Some q ->
  advance ((b, e) :: evs) ps = advance evs (map (fun p => if pid_is (ppid p) q then set_pst p (reports e) else p) ps).
Proof.
  intros H. unfold advance. rewrite map_map. apply map_ext. intros p. simpl. rewrite H.
  unfold pid_is. destruct (ppid p) as [r|] eqn:Er; [|rewrite Er; reflexivity].
  rewrite Nat.eqb_sym. destruct (r =? q); simpl; rewrite ?Er; reflexivity.
Qed.

Lemma wait_loop_frame termok sent j evs j' ss o :
  wait_loop termok sent j evs = (j', ss, o) ->
  jid j' = jid j /\ jpgid j' = jpgid j /\ jfg j' = jfg j /\ jstate j' = jstate j /\
  map ppid (jprocs j') = map ppid (jprocs j) /\ map builtin (jprocs j') = map builtin (jprocs j).
Proof.
  revert sent j j' ss o. induction evs as [|[b e] evs IH]; intros sent j j' ss o; simpl.
  - intros [= <- <- <-]. auto 10.
  - destruct (event_state e) as [[p st]|] eqn:Ee.
    + pose proof (set_state_shape (jprocs j) p st) as [Hp Hb].
      destruct (is_job_completed (set_process_state j p st)); [intros [= <- _ _]; simpl; auto 10|].
      destruct (consumer_terminated _ && negb _); [intros [= <- _ _]; simpl; auto 10|].
      destruct (is_job_stopped (set_process_state j p st)); [intros [= <- _ _]; simpl; auto 10|].
      destruct (wait_loop _ _ _ _) as [[j1 s1] o1] eqn:E. intros [= <- _ <-].
      apply IH in E as (A & B & C & D & F & G). simpl in *.
      rewrite A, B, C, D, F, G, Hp, Hb. auto 10.
    + destruct e; try discriminate Ee; try (intros [= <- _ _]; auto 10);
        destruct (wait_loop _ _ _ _) as [[j1 s1] o1] eqn:E; intros [= <- _ <-]; eapply IH; exact E.
Qed.

Lemma wait_loop_refines termok sent j evs j' ss o :
  externals (jprocs j) ->
  wait_loop termok sent j evs = (j', ss, o) ->
  exists seen rest, evs = seen ++ rest /\ jprocs j' = advance seen (jprocs j) /\
    (o = Waiting -> rest = []).
Proof.
  revert sent j j' ss o. induction evs as [|[b e] evs IH]; intros sent j j' ss o He; simpl.
  - intros [= <- <- <-]. exists [], []. rewrite advance_nil. auto.
  - destruct (event_state e) as [[p st]|] eqn:Ee.
    + rewrite event_state_about in Ee. destruct (about e) as [p'|] eqn:Ea; [|discriminate].
      injection Ee as -> <-.
      pose proof (set_state_external (jprocs j) p (reports e) He) as Hs.
      pose proof (set_state_shape (jprocs j) p (reports e)) as [Hp Hb].
      assert (One : jprocs (set_process_state j p (reports e)) = advance [(b, e)] (jprocs j)).
      { rewrite (advance_cons_some b e p [] (jprocs j) Ea), advance_nil. exact Hs. }
      destruct (is_job_completed (set_process_state j p (reports e)));
        [intros [= <- _ <-]; exists [(b, e)], evs; auto; split; [auto|]; split; [exact One|discriminate]|].
      destruct (consumer_terminated _ && negb _);
        [intros [= <- _ <-]; exists [(b, e)], evs; auto; split; [auto|]; split; [exact One|discriminate]|].
      destruct (is_job_stopped (set_process_state j p (reports e)));
        [intros [= <- _ <-]; exists [(b, e)], evs; auto; split; [auto|]; split; [exact One|discriminate]|].
      destruct (wait_loop _ _ _ _) as [[j1 s1] o1] eqn:E. intros [= <- _ <-].
      apply IH in E as (seen & rest & -> & E2 & E3).
      * exists ((b, e) :: seen), rest. split; [reflexivity|]. split; [|exact E3].
        rewrite E2. rewrite (advance_cons_some b e p seen (jprocs j) Ea). simpl. rewrite Hs. reflexivity.
      * simpl. eapply externals_shape; [exact Hp|exact Hb|exact He].
    + assert (Ha : about e = None) by (rewrite event_state_about in Ee; destruct (about e); congruence).
      assert (Go : forall j1 s1 o1, wait_loop termok sent j evs = (j1, s1, o1) ->
        exists seen rest, (b, e) :: evs = seen ++ rest /\ jprocs j1 = advance seen (jprocs j) /\ (o1 = Waiting -> rest = [])).
      { intros j1 s1 o1 E. destruct (IH _ _ _ _ _ He E) as (seen & rest & -> & E2 & E3).
        exists ((b, e) :: seen), rest. split; [reflexivity|]. split; [|exact E3]. rewrite E2. symmetry. apply advance_cons_none, Ha. }
      assert (Stop : exists seen rest, (b, e) :: evs = seen ++ rest /\ jprocs j = advance seen (jprocs j)).
      { exists [], ((b, e) :: evs). rewrite advance_nil. auto. }
      destruct Stop as (seen & rest & S1 & S2).
      destruct e; try discriminate Ee.
      * destruct (wait_loop _ _ _ _) as [[j1 s1] o1]. intros [= <- _ <-]. eauto.
      * intros [= <- _ <-]. exists seen, rest. split; [exact S1|]. split; [exact S2|discriminate].
      * destruct (wait_loop _ _ _ _) as [[j1 s1] o1]. intros [= <- _ <-]. eauto.
      * intros [= <- _ <-]. exists seen, rest. split; [exact S1|]. split; [exact S2|discriminate].
Qed.

(** what each way of leaving the loop says about the stages *)
Lemma wait_loop_outcome termok sent j evs j' ss o :
  wait_loop termok sent j evs = (j', ss, o) ->
  match o with
  | DoneCompleted => Forall completed (jprocs j') \/ (consumer_succeeded (jprocs j') /\ ~ Exists stopped (jprocs j'))
  | DoneConsumer => consumer_succeeded (jprocs j') /\ Exists stopped (jprocs j')
  | DoneStopped => Exists stopped (jprocs j') /\ Forall (fun p => ~ running p) (jprocs j')
  | DoneNoChild => exists b, In (b, WEchild) evs
  | DoneUnexpected => exists b, In (b, WUnexpected) evs
  | Waiting => Forall ordinary evs
  end.
Proof.
  revert sent j j' ss o. induction evs as [|[b e] evs IH]; intros sent j j' ss o; cbn [wait_loop].
  - intros [= <- <- <-]. constructor.
  - destruct (event_state e) as [[p st]|] eqn:Ee.
    + assert (Ho : ordinary (b, e)) by (destruct e; try discriminate Ee; split; simpl; discriminate).
      destruct (is_job_completed (set_process_state j p st)) eqn:C1;
        [intros [= <- _ <-]; apply job_completed_iff, C1|].
      assert (C1' := C1). rewrite <- not_true_iff_false, job_completed_iff in C1'.
      destruct (consumer_terminated (jprocs (set_process_state j p st))) eqn:C2.
      * intros H. cbn [andb] in H.
        destruct (is_completed (jprocs (set_process_state j p st))) eqn:C3;
          [apply is_completed_iff in C3; exfalso; tauto|]. cbn [negb] in H.
        injection H as <- _ <-. apply consumer_iff in C2. split; [exact C2|].
        apply has_stopped_iff. destruct (has_stopped (jprocs (set_process_state j p st))) eqn:C4; [reflexivity|].
        exfalso. apply C1'. right. split; [exact C2|]. rewrite <- has_stopped_iff, C4. discriminate.
      * intros H. cbn [andb] in H. destruct (is_job_stopped (set_process_state j p st)) eqn:C3.
        { injection H as <- _ <-. apply is_stopped_iff in C3. split; [|exact C3].
          apply has_stopped_iff. destruct (has_stopped (jprocs (set_process_state j p st))) eqn:C4; [reflexivity|].
          exfalso. apply C1'. left. rewrite Forall_forall in *. intros x Hx. specialize (C3 x Hx).
          assert (Hn : ~ stopped x).
          { intros Hs. assert (Exists stopped (jprocs (set_process_state j p st))) as Hex
              by (apply Exists_exists; eauto). apply has_stopped_iff in Hex. congruence. }
          unfold running, stopped, completed in *. destruct (pstate x); [congruence|eauto|exfalso; eauto]. }
        destruct (wait_loop _ _ _ _) as [[j1 s1] o1] eqn:E. injection H as <- _ <-.
        apply IH in E. destruct o1; auto; destruct E as [b' Hb']; exists b'; right; exact Hb'.
    + destruct e; try discriminate Ee;
        try (intros [= <- _ <-]; exists b; left; reflexivity);
        destruct (wait_loop _ _ _ _) as [[j1 s1] o1] eqn:E; intros [= <- _ <-]; apply IH in E; destruct o1; auto;
        try (constructor; [split; simpl; discriminate|exact E]);
        destruct E as [b' Hb']; exists b'; right; exact Hb'.
Qed.

(** while the loop goes on, some stage runs *)
Lemma wait_loop_waiting termok sent j evs j' ss :
  Exists running (jprocs j) ->
  wait_loop termok sent j evs = (j', ss, Waiting) -> Exists running (jprocs j').
Proof.
  revert sent j j' ss. induction evs as [|[b e] evs IH]; intros sent j j' ss Hr; cbn [wait_loop].
  - intros [= <- <-]. exact Hr.
  - destruct (event_state e) as [[p st]|] eqn:Ee.
    + destruct (is_job_completed (set_process_state j p st)) eqn:C1; [discriminate|].
      destruct (consumer_terminated _ && negb _); [discriminate|].
      destruct (is_job_stopped (set_process_state j p st)) eqn:C3; [discriminate|].
      destruct (wait_loop _ _ _ _) as [[j1 s1] o1] eqn:E. intros [= <- _ ->].
      eapply IH; [|exact E]. unfold is_job_stopped in C3.
      apply not_true_iff_false in C3. rewrite is_stopped_iff in C3.
      destruct (Exists_dec running (jprocs (set_process_state j p st))) as [H|H];
        [intros x; unfold running; destruct (pstate x); [left; reflexivity|right; discriminate|right; discriminate]|exact H|].
      exfalso. apply C3. apply Forall_Exists_neg in H. exact H.
    + destruct e; try discriminate Ee; try discriminate;
        destruct (wait_loop _ _ _ _) as [[j1 s1] o1] eqn:E; intros [= <- _ ->]; eapply IH; eauto.
Qed.

(** ** polling *)
Lemma wait_pid_alive k p k' r q : wait_pid_job k p = (k', r) -> (alive k q <-> alive k' q).
Proof.
  unfold wait_pid_job, alive. intros H.
  destruct (k p) as [| |sg [|]|c|sg] eqn:E; injection H as <- _; try reflexivity;
    unfold kset; destruct (q =? p) eqn:Eq; try reflexivity; apply Nat.eqb_eq in Eq; subst q; rewrite E;
    split; intros [Hx|[s [b Hx]]]; try discriminate; right; eauto.
Qed.

Lemma update_state_alive ps : forall k k' ps' r q,
  update_state k ps = (k', ps', r) -> (alive k q <-> alive k' q).
Proof.
  induction ps as [|p ps IH]; intros k k' ps' r q; simpl; [intros [= <- _ _]; reflexivity|].
  destruct (builtin p).
  - destruct (update_state k ps) as [[k1 ps1] r1] eqn:E. intros [= <- _ _]. eapply IH, E.
  - assert (Step : forall (k1 : kern) (s : pst),
      match ppid p with
      | Some q => let (k1, r) := wait_pid_job k q in (k1, match r with Some s => s | None => pstate p end)
      | None => (k, pstate p) end = (k1, s) -> (alive k q <-> alive k1 q)).
    { intros k1 s. destruct (ppid p) as [x|]; [|intros [= <- _]; reflexivity].
      destruct (wait_pid_job k x) as [k2 r2] eqn:E. intros [= <- _]. eapply wait_pid_alive, E. }
    destruct (pstate p) eqn:Es; [| intros [= <- _ _]; reflexivity |];
      destruct (match ppid p with Some _ => _ | None => _ end) as [k1 s]; specialize (Step k1 s eq_refl);
      destruct (update_state k1 ps) as [[k2 ps2] r2] eqn:E; intros [= <- _ _];
      rewrite Step; eapply IH, E.
Qed.

Lemma update_state_shape ps : forall k k' ps' r,
  update_state k ps = (k', ps', r) -> map ppid ps' = map ppid ps /\ map builtin ps' = map builtin ps.
Proof.
  induction ps as [|p ps IH]; intros k k' ps' r; simpl; [intros [= _ <- _]; auto|].
  destruct (builtin p) eqn:Eb.
  - destruct (update_state k ps) as [[k1 ps1] r1] eqn:E. intros [= _ <- _]. simpl.
    apply IH in E as [-> ->]. rewrite Eb. auto.
  - destruct (pstate p) eqn:Es; [|intros [= _ <- _]; simpl; rewrite Eb; auto|];
      destruct (match ppid p with Some _ => _ | None => _ end) as [k1 s];
      destruct (update_state k1 ps) as [[k2 ps2] r2] eqn:E; intros [= _ <- _]; simpl;
      apply IH in E as [-> ->]; rewrite Eb; auto.
Qed.

(** a stage recorded as completed is never touched again by polling *)
Lemma update_state_completed_stays ps : forall k k' ps' r i p,
  update_state k ps = (k', ps', r) -> nth_error ps i = Some p -> completed p -> nth_error ps' i = Some p.
Proof.
  induction ps as [|p ps IH]; intros k k' ps' r i x; simpl; [intros [= _ <- _]; auto|].
  destruct (builtin p) eqn:Eb.
  - destruct (update_state k ps) as [[k1 ps1] r1] eqn:E. intros [= _ <- _] Hn Hc.
    destruct i; simpl in *; [exact Hn|]. eapply IH; eauto.
  - destruct (pstate p) eqn:Es; [|intros [= _ <- _]; auto|];
      destruct (match ppid p with Some _ => _ | None => _ end) as [k1 s];
      destruct (update_state k1 ps) as [[k2 ps2] r2] eqn:E; intros [= _ <- _] Hn Hc;
      (destruct i; simpl in *; [injection Hn as ->; destruct Hc as [c [sg Hc]]; congruence|eapply IH; eauto]).
Qed.

(** the recorded state of the leader after a poll *)
Lemma update_state_leader ps : forall k k' ps' r p q,
  update_state k ps = (k', ps', r) -> leader ps = Some p -> ppid p = Some q -> ~ completed p ->
  exists p' s, leader ps' = Some p' /\ ppid p' = Some q /\ pstate p' = s /\ r = Some s /\
    (alive k q -> ~ completed p') /\ (~ alive k q -> completed p').
Proof.
  induction ps as [|a ps IH]; intros k k' ps' r p q; simpl; [discriminate|].
  destruct (builtin a) eqn:Eb.
  - destruct (update_state k ps) as [[k1 ps1] r1] eqn:E. intros [= _ <- <-] Hl Hq Hc.
    simpl. rewrite Eb. eapply IH; eauto.
  - intros H [= ->] Hq Hc. rewrite Hq in H.
    assert (Hnc : match pstate p with Completed _ _ => False | _ => True end)
      by (destruct (pstate p) eqn:Es; auto; apply Hc; do 2 eexists; exact Es).
    destruct (wait_pid_job k q) as [k1 w] eqn:Ew.
    set (s := match w with Some s => s | None => pstate p end) in *.
    assert (H' : (let '(k2, rest', _) := update_state k1 ps in (k2, set_pst p s :: rest', Some s)) = (k', ps', r))
      by (destruct (pstate p); try contradiction; exact H).
    destruct (update_state k1 ps) as [[k2 ps2] r2]. injection H' as _ <- <-.
    exists (set_pst p s), s. simpl. rewrite Eb. repeat split; auto; unfold completed; simpl; subst s;
      unfold wait_pid_job, alive in *.
    + intros Ha [c [sg Hx]]. destruct Ha as [Ha|[x [y Ha]]]; rewrite Ha in Ew.
      * injection Ew as _ <-. rewrite Hx in Hnc. exact Hnc.
      * destruct y; injection Ew as _ <-; [rewrite Hx in Hnc; exact Hnc|discriminate].
    + intros Ha. destruct (k q) as [| |sg [|]|c|sg] eqn:Ek; injection Ew as _ <-; eauto; exfalso; apply Ha; eauto.
Qed.

Lemma same_job_refl j : same_job j j.
Proof. unfold same_job. auto 10. Qed.

Lemma same_job_trans a b c : same_job a b -> same_job b c -> same_job a c.
Proof. unfold same_job. intuition congruence. Qed.

Lemma update_status_same k j k' j' d : update_status k j = (k', j', d) -> same_job j j'.
Proof.
  unfold update_status. destruct (update_state k (jprocs j)) as [[k1 ps1] r] eqn:E.
  intros [= _ <- _]. apply update_state_shape in E as [E1 E2]. unfold same_job. simpl. auto.
Qed.

Lemma poll_job_same k j k' j' : poll_job k j = (k', j') -> same_job j j'.
Proof.
  unfold poll_job. destruct (update_status k j) as [[k1 j1] d] eqn:E. apply update_status_same in E.
  destruct (negb d && negb (jfg j1)).
  - destruct (update_status k1 j1) as [[k2 j2] d2] eqn:E2. apply update_status_same in E2.
    intros [= _ <-]. eapply same_job_trans; eauto.
  - intros [= _ <-]. exact E.
Qed.

Lemma update_status_alive k j k' j' d q : update_status k j = (k', j', d) -> (alive k q <-> alive k' q).
Proof.
  unfold update_status. destruct (update_state k (jprocs j)) as [[k1 ps1] r] eqn:E.
  intros [= <- _ _]. eapply update_state_alive, E.
Qed.

Lemma poll_job_alive k j k' j' q : poll_job k j = (k', j') -> (alive k q <-> alive k' q).
Proof.
  unfold poll_job. destruct (update_status k j) as [[k1 j1] d] eqn:E. 
  destruct (negb d && negb (jfg j1)).
  - destruct (update_status k1 j1) as [[k2 j2] d2] eqn:E2. intros [= <- _].
    rewrite (update_status_alive _ _ _ _ _ q E). eapply update_status_alive, E2.
  - intros [= <- _]. eapply update_status_alive, E.
Qed.

Lemma poll_all_alive js : forall k k' js' q, poll_all k js = (k', js') -> (alive k q <-> alive k' q).
Proof.
  induction js as [|j js IH]; intros k k' js' q; simpl; [intros [= <- _]; reflexivity|].
  destruct (poll_job k j) as [k1 j1] eqn:E. destruct (poll_all k1 js) as [k2 js2] eqn:E2.
  intros [= <- _]. rewrite (poll_job_alive _ _ _ _ q E). eapply IH, E2.
Qed.

Lemma update_status_leader k j k' j' d p q :
  update_status k j = (k', j', d) -> leader (jprocs j) = Some p -> ppid p = Some q -> ~ completed p ->
  exists p', leader (jprocs j') = Some p' /\ ppid p' = Some q /\ jstate j' = pstate p' /\
    (alive k q -> ~ completed p') /\ (~ alive k q -> completed p').
Proof.
  unfold update_status. destruct (update_state k (jprocs j)) as [[k1 ps1] r] eqn:E.
  intros [= _ <- _] Hl Hq Hc.
  eapply update_state_leader in E as (p' & s & A & B & C & D & F & G); eauto.
  exists p'. simpl. subst. auto.
Qed.

Lemma update_state_leader_completed ps : forall k k' ps' r p,
  update_state k ps = (k', ps', r) -> leader ps = Some p -> completed p ->
  leader ps' = Some p /\ r = Some (pstate p).
Proof.
  induction ps as [|a ps IH]; intros k k' ps' r p; simpl; [discriminate|].
  destruct (builtin a) eqn:Eb.
  - destruct (update_state k ps) as [[k1 ps1] r1] eqn:E. intros [= _ <- <-] Hl Hc. simpl. rewrite Eb. eapply IH; eauto.
  - intros H [= ->] [c [sg Hc]]. rewrite Hc in H. injection H as _ <- <-. simpl. rewrite Eb, Hc. auto.
Qed.

Lemma update_status_leader_completed k j k' j' d p :
  update_status k j = (k', j', d) -> leader (jprocs j) = Some p -> completed p ->
  leader (jprocs j') = Some p /\ jstate j' = pstate p.
Proof.
  unfold update_status. destruct (update_state k (jprocs j)) as [[k1 ps1] r] eqn:E.
  intros [= _ <- _] Hl Hc. eapply update_state_leader_completed in E as [E1 E2]; eauto. simpl. subst r. auto.
Qed.

Lemma completed_dec p : {completed p} + {~ completed p}.
Proof.
  unfold completed. destruct (pstate p); [right|left; eauto|right]; intros [c [sg H]]; discriminate.
Qed.

Lemma alive_dec k q : {alive k q} + {~ alive k q}.
Proof.
  unfold alive. destruct (k q) as [| |sg r|c|sg]; [right| left; auto | left; right; eauto |right|right];
    intros [H|[s [b H]]]; discriminate.
Qed.

Lemma state_completed_iff s : state_completed s = true <-> exists c sg, s = Completed c sg.
Proof. destruct s; simpl; split; try discriminate; try (intros [c [sg H]]; discriminate); eauto. Qed.

Lemma poll_job_leader k j k' j' p q :
  poll_job k j = (k', j') -> leader (jprocs j) = Some p -> ppid p = Some q -> ~ completed p ->
  (state_completed (jstate j') = true <-> ~ alive k q).
Proof.
  unfold poll_job. destruct (update_status k j) as [[k1 j1] d] eqn:E. intros H Hl Hq Hc.
  pose proof (update_status_leader _ _ _ _ _ _ _ E Hl Hq Hc) as (p1 & A & B & C & D & F).
  pose proof (update_status_alive _ _ _ _ _ q E) as Hal.
  assert (Base1 : state_completed (jstate j1) = true <-> ~ alive k q).
  { rewrite C, state_completed_iff. fold (completed p1). destruct (alive_dec k q); [|tauto].
    specialize (D a). tauto. }
  destruct (negb d && negb (jfg j1)); [|injection H as _ <-; exact Base1].
  destruct (update_status k1 j1) as [[k2 j2] d2] eqn:E2. injection H as _ <-.
  destruct (completed_dec p1) as [Hd|Hd].
  - pose proof (update_status_leader_completed _ _ _ _ _ _ E2 A Hd) as [_ E3]. rewrite E3, <- C. exact Base1.
  - pose proof (update_status_leader _ _ _ _ _ _ _ E2 A B Hd) as (p2 & A2 & B2 & C2 & D2 & F2).
    rewrite C2, state_completed_iff. fold (completed p2). destruct (alive_dec k q) as [Ha|Ha].
    + assert (alive k1 q) by tauto. tauto.
    + exfalso. apply Hd. auto.
Qed.

Lemma Forall2_in_l {A B} (R : A -> B -> Prop) xs ys x :
  Forall2 R xs ys -> In x xs -> exists y, In y ys /\ R x y.
Proof.
  induction 1 as [|a b xs ys Hab H IH]; simpl; [tauto|]. intros [->|Hx].
  - exists b. auto.
  - destruct (IH Hx) as [y [? ?]]. exists y. auto.
Qed.

Lemma Forall2_impl {A B} (P Q : A -> B -> Prop) xs ys :
  (forall x y, P x y -> Q x y) -> Forall2 P xs ys -> Forall2 Q xs ys.
Proof. intros H. induction 1; constructor; auto. Qed.

Lemma poll_all_each js : forall k k' js', poll_all k js = (k', js') ->
  Forall2 (fun j j' => same_job j j' /\
     forall p q, leader (jprocs j) = Some p -> ppid p = Some q -> ~ completed p ->
       (state_completed (jstate j') = true <-> ~ alive k q)) js js'.
Proof.
  induction js as [|j js IH]; intros k k' js'; simpl; [intros [= _ <-]; constructor|].
  destruct (poll_job k j) as [k1 j1] eqn:E. destruct (poll_all k1 js) as [k2 js2] eqn:E2.
  intros [= _ <-]. constructor.
  - split; [eapply poll_job_same, E|]. intros p q Hl Hq Hc. eapply poll_job_leader; eauto.
  - apply IH in E2. eapply Forall2_impl; [|exact E2]. simpl. intros a b [Hs Hb]. split; [exact Hs|].
    intros p q Hl Hq Hc. rewrite (Hb p q Hl Hq Hc). rewrite (poll_job_alive _ _ _ _ q E). reflexivity.
Qed.

Lemma partition_filter {A} (f : A -> bool) l :
  partition f l = (filter f l, filter (fun x => negb (f x)) l).
Proof.
  induction l as [|x l IH]; simpl; [reflexivity|]. rewrite IH. destruct (f x); reflexivity.
Qed.

(** ** fg and bg *)
Lemma remove_at_split i js j : nth_error js i = Some j ->
  exists l r, js = l ++ j :: r /\ length l = i /\ remove_at i js = l ++ r.
Proof.
  revert i; induction js as [|a js IH]; intros [|i]; simpl; try discriminate.
  - intros [= ->]. exists [], js. auto.
  - intros H. apply IH in H as (l & r & -> & <- & Hr). exists (a :: l), r. simpl. rewrite Hr. auto.
Qed.

Lemma index_of_iff f js : forall i n,
  index_of f i js = Some n <->
  exists l j r, js = l ++ j :: r /\ n = i + length l /\ f j = true /\ Forall (fun x => f x = false) l.
Proof.
  induction js as [|a js IH]; intros i n; simpl.
  - split; [discriminate|]. intros (l & j & r & H & _). destruct l; discriminate.
  - destruct (f a) eqn:E.
    + split.
      * intros [= <-]. exists [], a, js. simpl. repeat split; auto; lia.
      * intros (l & j & r & H1 & H2 & H3 & H4). destruct l as [|b l]; simpl in *.
        { subst. f_equal. lia. }
        injection H1 as -> _. inversion H4; congruence.
    + rewrite IH. split.
      * intros (l & j & r & -> & -> & H3 & H4). exists (a :: l), j, r. simpl. repeat split; auto; lia.
      * intros (l & j & r & H1 & H2 & H3 & H4). destruct l as [|b l]; simpl in *.
        { injection H1 as -> _. congruence. }
        injection H1 as -> ->. inversion H4; subst. exists l, j, r. repeat split; auto; lia.
Qed.

Lemma last_index_iff f js : forall i n,
  last_index f i js = Some n <->
  exists l j r, js = l ++ j :: r /\ n = i + length l /\ f j = true /\ Forall (fun x => f x = false) r.
Proof.
  induction js as [|a js IH]; intros i n; simpl.
  - split; [discriminate|]. intros (l & j & r & H & _). destruct l; discriminate.
  - destruct (last_index f (S i) js) as [m|] eqn:E.
    + pose proof (proj1 (IH (S i) m) E) as (l & j & r & -> & -> & H3 & H4). split.
      * intros [= <-]. exists (a :: l), j, r. simpl. repeat split; auto; lia.
      * intros (l2 & j2 & r2 & H1 & H2 & H5 & H6).
        destruct l2 as [|b l2].
        { simpl in H1. injection H1 as -> <-. exfalso. rewrite Forall_forall in H6.
          rewrite (H6 j) in H3; [discriminate|apply in_elt]. }
        simpl in H1. injection H1 as -> H1.
        assert (last_index f (S i) (l ++ j :: r) = Some (S i + length l2)) as E3.
        { apply IH. exists l2, j2, r2. auto. }
        rewrite E in E3. injection E3 as E3. subst n. simpl. f_equal. lia.
    + destruct (f a) eqn:Ea.
      * split.
        { intros [= <-]. exists [], a, js. simpl. repeat split; auto; try lia.
          apply Forall_forall. intros x Hx. destruct (f x) eqn:Ex; [|reflexivity].
          apply in_split in Hx as (l & r & ->).
          exfalso. clear IH Ea a.
          assert (Hs : exists m, last_index f (S i) (l ++ x :: r) = Some m); [|destruct Hs; congruence].
          clear E. generalize (S i). induction l as [|y l IHl]; intros n; simpl.
          - destruct (last_index f (S n) r); eauto. rewrite Ex. eauto.
          - destruct (IHl (S n)) as [m ->]. eauto. }
        { intros (l & j & r & H1 & H2 & H3 & H4). destruct l as [|b l]; simpl in *; [subst; f_equal; lia|].
          injection H1 as -> ->.
          assert (last_index f (S i) (l ++ j :: r) = Some (S i + length l)) as E3 by (apply IH; eauto 10).
          congruence. }
      * split; [discriminate|]. intros (l & j & r & H1 & H2 & H3 & H4).
        destruct l as [|b l]; simpl in *; injection H1 as -> ->; [congruence|].
        assert (last_index f (S i) (l ++ j :: r) = Some (S i + length l)) as E3 by (apply IH; eauto 10).
        congruence.
Qed.

Lemma parse_job_spec_bound spec js i : parse_job_spec spec js = Some i -> i < length js.
Proof.
  unfold parse_job_spec. set (newest := match js with [] => None | _ => _ end).
  assert (Hn : forall n, newest = Some n -> n < length js).
  { subst newest. intros n. destruct js; [discriminate|]. simpl. intros [= <-]. lia. }
  destruct spec as [|c spec]; [apply Hn|].
  destruct (str_eqb _ _ || _); [apply Hn|].
  destruct (str_eqb _ _ || _).
  - destruct (length js <? 2) eqn:E; [discriminate|]. apply Nat.ltb_ge in E. intros [= <-]. lia.
  - destruct (parse_usize _) as [n|]; [|discriminate]. intros H.
    apply index_of_iff in H as (l & j & r & -> & -> & _). rewrite app_length. simpl. lia.
Qed.

(** ** decimal numerals *)
