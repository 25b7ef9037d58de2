From Verif Require Import Base Jobs_Model Jobs_Spec Jobs_Proofs.
From Coq Require Import Permutation Sorted.

Local Arguments Nat.modulo : simpl never.

Ltac show_externals :=
  split;
  [ repeat (apply Forall_cons; [split; [reflexivity|eexists; reflexivity]|]); apply Forall_nil
  | cbn; repeat (apply NoDup_cons; [simpl; intuition discriminate|]); apply NoDup_nil ].

(** * C17: a pipeline is finished exactly when its stages are *)

(** Exact meaning of the shell's "job completed": every stage has completed, or a
    stage that reads from another one ended with status 0 and no stage is stopped. *)
Theorem C17_completed_exactly : forall j,
  is_job_completed j = true <->
  Forall completed (jprocs j) \/ (consumer_succeeded (jprocs j) /\ ~ Exists stopped (jprocs j)).
Proof. exact job_completed_iff. Qed.
Print Assumptions C17_completed_exactly.

Example C17_completed_exactly_case :
  consumer_succeeded [Proc false (Some 10) Running; Proc false (Some 11) (Completed 0 None)].
Proof. exists [Proc false (Some 10) Running], (Proc false (Some 11) (Completed 0 None)), []. repeat split; discriminate. Qed.

(** The documented rule is about the last stage; the code applies it to any stage
    but the first: the wait loop gives up on `a | b | c` while `c` runs, and the
    job enters the table as if it had been started in the background. *)
Theorem C17_foreground_waits_for_last_stage_refuted :
  exists g ps evs js' ss,
    externals ps /\
    launch_fg true [] g ps evs = (js', ss, Running) /\ length js' = 1 /\
    Forall (fun e => snd e = WExited 11 0) evs /\ map ppid ps = [Some 10; Some 11; Some 12].
Proof.
  exists (Some 10), [Proc false (Some 10) Running; Proc false (Some 11) Running; Proc false (Some 12) Running],
    [(false, WExited 11 0)].
  do 2 eexists. split; [|split; [vm_compute; reflexivity|]].
  - show_externals.
  - split; [reflexivity|]. split; [repeat constructor|reflexivity].
Qed.
Print Assumptions C17_foreground_waits_for_last_stage_refuted.

(** For pipelines of at most two stages the rule does mean the last stage. *)
Theorem C17_completed_means_last_stage_ended_partial : forall j,
  length (jprocs j) <= 2 -> is_job_completed j = true ->
  exists c sg, last_state (jprocs j) = Completed c sg.
Proof.
  intros j Hl H. apply C17_completed_exactly in H as [H|[H _]].
  - destruct (jprocs j) as [|p [|q [|? ?]]]; simpl in Hl; try lia; simpl; eauto.
    + inversion H as [|? ? Hp _]; exact Hp.
    + inversion H as [|? ? _ Hq]; inversion Hq as [|? ? Hq' _]; exact Hq'.
  - destruct H as (b & q & a & E & Hb & Hq). rewrite E in *. rewrite app_length in Hl. simpl in Hl.
    destruct b as [|x [|? ?]]; simpl in *; try lia; [congruence|].
    destruct a; simpl in *; [|lia]. eauto.
Qed.
Print Assumptions C17_completed_means_last_stage_ended_partial.

(** The four ways the shell stops waiting for a foreground job, for every order of
    wait events: all done (or the consumer rule), consumer done while another stage
    is stopped, some stage stopped and none running, or waitpid itself failed. *)
Theorem C17_wait_ends_for_a_reason : forall termok j evs j' ss o,
  wait_loop termok false j evs = (j', ss, o) ->
  match o with
  | DoneCompleted => Forall completed (jprocs j') \/ (consumer_succeeded (jprocs j') /\ ~ Exists stopped (jprocs j'))
  | DoneConsumer => consumer_succeeded (jprocs j') /\ Exists stopped (jprocs j')
  | DoneStopped => Exists stopped (jprocs j') /\ Forall (fun p => ~ running p) (jprocs j')
  | DoneNoChild => exists b, In (b, WEchild) evs
  | DoneUnexpected => exists b, In (b, WUnexpected) evs
  | Waiting => Forall ordinary evs
  end.
Proof. intros termok j evs j' ss o. apply wait_loop_outcome. Qed.
Print Assumptions C17_wait_ends_for_a_reason.

(** The recorded state of every stage is the last one the kernel reported for it:
    no event is applied to the wrong stage, skipped or reordered. *)
Theorem C17_stage_states_are_the_reported_ones : forall termok j evs j' ss o,
  externals (jprocs j) ->
  wait_loop termok false j evs = (j', ss, o) ->
  exists seen rest, evs = seen ++ rest /\ (o = Waiting -> rest = []) /\
    jprocs j' = map (fun p => Proc (builtin p) (ppid p) (latest (ppid p) (pstate p) seen)) (jprocs j).
Proof.
  intros termok j evs j' ss o He H. apply wait_loop_refines in H as (seen & rest & A & B & C); [|exact He].
  exists seen, rest. auto.
Qed.
Print Assumptions C17_stage_states_are_the_reported_ones.

Lemma latest_other o s evs :
  (forall b e, In (b, e) evs -> about e <> o \/ o = None) -> latest o s evs = s.
Proof.
  revert s. induction evs as [|[b e] evs IH]; intros s H; simpl; [reflexivity|].
  rewrite IH; [|intros b' e' Hin; apply (H b' e'); right; exact Hin].
  specialize (H b e (or_introl eq_refl)). destruct (about e) as [p|]; [|reflexivity].
  destruct o as [q|]; [|reflexivity]. destruct (p =? q) eqn:E; [|reflexivity].
  apply Nat.eqb_eq in E. subst. destruct H as [H|H]; [congruence|discriminate].
Qed.

(** A stage that has completed stays so: through polling always, through waiting as
    long as the kernel does not report on a process it already reported the end of. *)
Theorem C17_completed_is_final :
  (forall k js k' js' i j n p, poll_all k js = (k', js') ->
     nth_error js i = Some j -> nth_error (jprocs j) n = Some p -> completed p ->
     exists j', nth_error js' i = Some j' /\ nth_error (jprocs j') n = Some p) /\
  (forall termok j evs j' ss o n p, externals (jprocs j) ->
     wait_loop termok false j evs = (j', ss, o) ->
     nth_error (jprocs j) n = Some p -> completed p ->
     (forall b e, In (b, e) evs -> about e <> ppid p) ->
     nth_error (jprocs j') n = Some p).
Proof.
  split.
  - assert (One : forall k j k' j' d n p, update_status k j = (k', j', d) ->
      nth_error (jprocs j) n = Some p -> completed p -> nth_error (jprocs j') n = Some p).
    { intros k j k' j' d n p. unfold update_status.
      destruct (update_state k (jprocs j)) as [[k1 ps1] r] eqn:E. intros [= _ <- _]. simpl.
      intros. eapply update_state_completed_stays; eauto. }
    assert (Two : forall k j k' j' n p, poll_job k j = (k', j') ->
      nth_error (jprocs j) n = Some p -> completed p -> nth_error (jprocs j') n = Some p).
    { intros k j k' j' n p. unfold poll_job. destruct (update_status k j) as [[k1 j1] d] eqn:E.
      intros H Hn Hc. eapply One in E; eauto. destruct (negb d && negb (jfg j1)).
      - destruct (update_status k1 j1) as [[k2 j2] d2] eqn:E2. injection H as _ <-. eapply One in E2; eauto.
      - injection H as _ <-. exact E. }
    intros k js; revert k. induction js as [|a js IH]; intros k k' js' i j n p; simpl.
    + intros _ H. destruct i; discriminate.
    + destruct (poll_job k a) as [k1 j1] eqn:E. destruct (poll_all k1 js) as [k2 js2] eqn:E2.
      intros [= _ <-] Hi Hn Hc. destruct i; simpl in *.
      * injection Hi as ->. exists j1. split; [reflexivity|]. eapply Two; eauto.
      * eapply IH; eauto.
  - intros termok j evs j' ss o n p He H Hn Hc Hev.
    apply C17_stage_states_are_the_reported_ones in H as (seen & rest & -> & _ & E); [|exact He].
    rewrite E, nth_error_map, Hn. simpl. f_equal.
    rewrite latest_other; [destruct p; reflexivity|].
    intros b e Hin. left. apply (Hev b). apply in_or_app. auto.
Qed.
Print Assumptions C17_completed_is_final.

(** non-trivial case: a two-stage pipeline, second stage stopped then finished *)
Example C17_wait_case :
  exists j', wait_loop true false
    (Job 1 (Some 10) true [Proc false (Some 10) Running; Proc false (Some 11) Running] Running)
    [(false, WStillAlive); (true, WExited 10 0); (false, WStopped 11 20)] = (j', [(10, SIGINT)], DoneStopped)
  /\ map pstate (jprocs j') = [Completed 0 None; Stopped 11 20].
Proof. eexists; split; vm_compute; reflexivity. Qed.

(** * C18: exit statuses *)

(** A single external command: whatever else happens meanwhile, the value the
    command list sees is the low byte of its exit status; a killed command counts
    as failed. *)
Theorem C18_external_status_partial : forall termok js g p pre b e post,
  Forall (fun x => ordinary x /\ about (snd x) <> Some p) pre ->
  (exists st, e = WExited p st) \/ (exists sg, e = WSignaled p sg) ->
  exists ss, launch_fg termok js g [Proc false (Some p) Running] (pre ++ (b, e) :: post) = (js, ss, reports e).
Proof.
  intros termok js g p pre b e post Hp He. unfold launch_fg. simpl rev. cbn [pstate].
  assert (Go : forall i fg st sent, exists ss,
    wait_loop termok sent (Job i g fg [Proc false (Some p) Running] st) (pre ++ (b, e) :: post)
    = (Job i g fg [Proc false (Some p) (reports e)] st, ss, DoneCompleted)).
  { intros i fg st. induction Hp as [|[b' x] pre [Ho Ha] Hp IH]; intros sent.
    - simpl. assert (exists c sg, reports e = Completed c sg) as (c & sg & Hr)
        by (destruct He as [[s ->]|[s ->]]; simpl; eauto).
      assert (event_state e = Some (p, reports e)) as -> by (destruct He as [[s ->]|[s ->]]; reflexivity).
      unfold set_process_state. simpl. rewrite Nat.eqb_refl. unfold is_job_completed, set_procs, set_pst. simpl.
      rewrite Hr. simpl. eauto.
    - simpl in Ha. destruct Ho as [Ho1 Ho2]. simpl in Ho1, Ho2. simpl app. cbn [wait_loop].
      destruct (event_state x) as [[q s]|] eqn:Ee.
      + assert (q <> p) as Hq by (rewrite event_state_about in Ee; destruct (about x); congruence).
        unfold set_process_state. simpl. apply Nat.eqb_neq in Hq. rewrite Nat.eqb_sym, Hq. simpl.
        destruct (IH (sent || match s with Completed (S _) _ => negb sent && match g with Some _ => true | None => false end | _ => false end)) as [ss Hss].
        unfold set_procs. simpl. rewrite Hss. eauto.
      + destruct x; try discriminate Ee; try congruence;
          destruct (IH sent) as [ss Hss]; rewrite Hss; eauto. }
  destruct (Go (next_id js) true Running false) as [ss Hss]. rewrite Hss. simpl.
  exists ss. destruct He as [[s ->]|[s ->]]; reflexivity.
Qed.
Print Assumptions C18_external_status_partial.

Example C18_external_status_case :
  launch_fg true [] (Some 7) [Proc false (Some 7) Running]
    [(false, WStillAlive); (false, WExited 99 0); (false, WExited 7 3)] = ([], [(7, SIGKILL)], Completed 3 None).
Proof. vm_compute. reflexivity. Qed.

(** A pipeline's status is the one last reported for its last stage. *)
Theorem C18_pipeline_status_is_last_stage : forall termok js g ps evs js' ss st front q,
  externals ps -> ps = front ++ [q] ->
  launch_fg termok js g ps evs = (js', ss, st) ->
  exists seen rest, evs = seen ++ rest /\ st = latest (ppid q) (pstate q) seen.
Proof.
  intros termok js g ps evs js' ss st front q He -> H. unfold launch_fg in H.
  destruct (wait_loop _ _ _ _) as [[j' s'] o] eqn:E.
  apply C17_stage_states_are_the_reported_ones in E as (seen & rest & -> & _ & E2); [|exact He].
  injection H as _ _ <-. exists seen, rest. split; [reflexivity|]. rewrite E2. simpl jprocs.
  rewrite map_app. simpl. clear. induction front as [|a front IH]; simpl; [reflexivity|].
  destruct (map _ front ++ _) eqn:E; [destruct front; discriminate|]. exact IH.
Qed.
Print Assumptions C18_pipeline_status_is_last_stage.

(** Builtins: the status recorded is 1 when the builtin returned 0 (or more), and 0
    only for negative results: success and failure are swapped. *)
Theorem C18_builtin_status_refuted :
  exists c, builtin_state (ExitedWith 0) = Completed (S c) None /\ builtin_state (ExitedWith (-1)) = Completed 0 None.
Proof. exists 0. split; reflexivity. Qed.
Print Assumptions C18_builtin_status_refuted.

Theorem C18_builtin_status_inverted : forall c,
  (builtin_state (ExitedWith c) = Completed 0 None <-> (c < 0)%Z) /\
  (builtin_state (ExitedWith c) = Completed 1 None <-> (0 <= c)%Z).
Proof.
  intros c. simpl. destruct (0 <=? c)%Z eqn:E; [apply Z.leb_le in E|apply Z.leb_gt in E];
    split; split; intros H; try discriminate; try reflexivity; lia.
Qed.
Print Assumptions C18_builtin_status_inverted.

(** * C19: jobs are never lost *)

(** Polling: order and identity are kept, every job is either kept or reported, and
    a job whose first external stage had not been seen to end is dropped exactly
    when that stage is no longer alive. *)
Theorem C19_poll_drops_exactly_ended_leaders : forall k js k' active done,
  check_job_state k js = (k', active, done) ->
  exists js' gone,
    active = filter (fun j => negb (gone j)) js' /\ done = filter gone js' /\
    Forall2 (fun j j' => same_job j j' /\
      forall p q, leader (jprocs j) = Some p -> ppid p = Some q -> ~ completed p ->
        (gone j' = true <-> ~ alive k q)) js js'.
Proof.
  intros k js k' active done. unfold check_job_state. destruct (poll_all k js) as [k1 js1] eqn:E.
  rewrite partition_filter. intros [= <- <- <-]. exists js1, (fun j => state_completed (jstate j)).
  repeat split. exact (poll_all_each _ _ _ _ E).
Qed.
Print Assumptions C19_poll_drops_exactly_ended_leaders.

(** So a pipeline `a | b &` disappears from the table as soon as `a` has ended, even
    though `b` is still running. *)
Theorem C19_running_pipeline_kept_refuted :
  exists k js k' done p, check_job_state k js = (k', [], done) /\
    (exists j, js = [j] /\ externals (jprocs j) /\ In p (jprocs j) /\ running p /\ ppid p = Some 11) /\ k 11 = KRunning.
Proof.
  set (k := kset (kset (fun _ => KGone) 10 (KExited 0)) 11 KRunning).
  exists k, [Job 1 (Some 10) false [Proc false (Some 10) Running; Proc false (Some 11) Running] Running].
  do 2 eexists. exists (Proc false (Some 11) Running). split; [vm_compute; reflexivity|]. split; [|reflexivity].
  eexists; split; [reflexivity|]. split; [|simpl; repeat split; auto].
  show_externals.
Qed.
Print Assumptions C19_running_pipeline_kept_refuted.

(** `fg` of a job that is stopped again: the job is gone although its process is
    alive and stopped. *)
Theorem C19_fg_keeps_stopped_job_refuted :
  exists js spec evs j' ss p, execute_fg true true spec evs js = ([], Some j', ss, true) /\
    length js = 1 /\ In p (jprocs j') /\ stopped p.
Proof.
  exists [Job 1 (Some 10) true [Proc false (Some 10) (Stopped 10 20)] (Stopped 10 20)], [], [(false, WStopped 10 20)].
  do 2 eexists. exists (Proc false (Some 10) (Stopped 10 20)). split; [vm_compute; reflexivity|].
  repeat split; simpl; auto. do 2 eexists; reflexivity.
Qed.
Print Assumptions C19_fg_keeps_stopped_job_refuted.

(** `bg` whose SIGCONT fails: the job is gone. *)
Theorem C19_failed_bg_keeps_job_refuted :
  exists js spec ss, execute_bg false spec js = ([], ss, false) /\ length js = 1.
Proof.
  exists [Job 1 (Some 10) true [Proc false (Some 10) (Stopped 10 20)] (Stopped 10 20)], (lit "%1").
  eexists. split; vm_compute; reflexivity.
Qed.
Print Assumptions C19_failed_bg_keeps_job_refuted.

(** `bg %1` moves the job to the end, so the next job gets a number in use. *)
Theorem C19_job_numbers_unique_refuted :
  exists ops k js, run (fun _ => KRunning, []) ops = (k, js) /\ map jid js = [2; 1; 2].
Proof.
  exists [OLaunchFg true (Some 10) [Proc false (Some 10) Running] [(false, WStopped 10 20)];
          OPoll;
          OLaunchBg (Some 11) [Proc false (Some 11) Running];
          OBg true (lit "%1");
          OLaunchBg (Some 12) [Proc false (Some 12) Running]].
  do 2 eexists. split; [vm_compute; reflexivity|reflexivity].
Qed.
Print Assumptions C19_job_numbers_unique_refuted.

(** fg and bg take out at most the job they name and keep all others in order. *)
Theorem C19_fg_bg_keep_other_jobs :
  (forall t c spec evs js js' w ss ok, execute_fg t c spec evs js = (js', w, ss, ok) ->
     js' = js \/ exists l j r j', js = l ++ j :: r /\ js' = l ++ r /\ w = Some j' /\ same_job j j') /\
  (forall c spec js js' ss ok, execute_bg c spec js = (js', ss, ok) ->
     js' = js \/ exists l j r, js = l ++ j :: r /\ stopped (Proc true None (jstate j)) /\
       (js' = l ++ r ++ [Job (jid j) (jpgid j) (jfg j) (jprocs j) Running] \/ (c = false /\ js' = l ++ r))).
Proof.
  split.
  - intros t c spec evs js js' w ss ok. unfold execute_fg. destruct js as [|j0 js0]; [intros [= <- _ _ _]; auto|].
    destruct (parse_job_spec spec (j0 :: js0)) as [i|]; [|intros [= <- _ _ _]; auto].
    destruct (nth_error (j0 :: js0) i) as [j|] eqn:En; [|intros [= <- _ _ _]; auto].
    apply remove_at_split in En as (l & r & E1 & _ & E2). rewrite E2.
    set (cc := match jpgid j with Some _ => _ | None => _ end).
    destruct (match cc with [] => false | _ => negb c end).
    + intros [= <- <- _ _]. right. exists l, j, r, (set_jstate j Running). repeat split; auto.
    + destruct (wait_loop t false (set_jstate j Running) evs) as [[j2 s2] o] eqn:Ew.
      intros [= <- <- _ _]. right. exists l, j, r, j2. apply wait_loop_frame in Ew as (A & B & C & D & F & G).
      unfold same_job. simpl in *. repeat split; auto; congruence.
  - intros c spec js js' ss ok. unfold execute_bg. destruct js as [|j0 js0]; [intros [= <- _ _]; auto|].
    destruct (match spec with [] => _ | _ => _ end) as [i|]; [|intros [= <- _ _]; auto].
    destruct (nth_error (j0 :: js0) i) as [j|] eqn:En; [|intros [= <- _ _]; auto].
    destruct (state_stopped (jstate j)) eqn:Es; cbn [negb]; [|intros [= <- _ _]; auto].
    apply remove_at_split in En as (l & r & E1 & _ & E2). rewrite E2.
    intros H. right. exists l, j, r. split; [exact E1|]. split.
    { unfold stopped. simpl. destruct (jstate j); try discriminate; eauto. }
    destruct (jpgid j) eqn:Eg; [destruct c|]; injection H as <- _ _; rewrite <- ?app_assoc;
      unfold set_jstate; rewrite ?Eg; auto.
Qed.
Print Assumptions C19_fg_bg_keep_other_jobs.

(** Over whole histories: a job stays in the table as long as its leader lives,
    provided it is not brought to the foreground and no bg fails. *)
Definition gentle (q : pid) (o : op) : Prop :=
  match o with
  | OFg _ _ _ _ => False
  | OBg c _ => c = true
  | OKernel k => alive k q
  | _ => True
  end.
Definition tracked (q : pid) (j : job) (js : list job) : Prop :=
  exists j' p, In j' js /\ same_job j j' /\ leader (jprocs j') = Some p /\ ppid p = Some q /\ ~ completed p.

Lemma launch_fg_table t js g ps evs js' ss st : launch_fg t js g ps evs = (js', ss, st) ->
  js' = js \/ exists j, js' = js ++ [j] /\ jid j = next_id js.
Proof.
  unfold launch_fg. destruct (wait_loop _ _ _ _) as [[j' s'] o] eqn:E. intros [= <- _ <-].
  apply wait_loop_frame in E as (A & _).
  destruct (last_state (jprocs j')); [right|left|right]; eauto.
Qed.

Lemma poll_tracked q k js k' active done j :
  check_job_state k js = (k', active, done) -> alive k q -> tracked q j js -> tracked q j active /\ alive k' q.
Proof.
  unfold check_job_state. destruct (poll_all k js) as [k1 js1] eqn:E. rewrite partition_filter.
  intros [= <- <- <-] Ha (j1 & p & Hin & Hs & Hl & Hq & Hc).
  split; [|apply (poll_all_alive _ _ _ _ q E), Ha].
  assert (Each : forall js k k' js', poll_all k js = (k', js') -> alive k q -> In j1 js ->
    exists j2 p2, In j2 js' /\ same_job j1 j2 /\ leader (jprocs j2) = Some p2 /\ ppid p2 = Some q /\ ~ completed p2
      /\ state_completed (jstate j2) = false).
  { clear - Hl Hq Hc. induction js as [|a js IH]; intros k k' js'; simpl; [tauto|].
    destruct (poll_job k a) as [k1 a1] eqn:E. destruct (poll_all k1 js) as [k2 js2] eqn:E2.
    intros [= _ <-] Ha [->|Hin].
    - pose proof (poll_job_same _ _ _ _ E) as Hs.
      assert (D : exists p2, leader (jprocs a1) = Some p2 /\ ppid p2 = Some q /\ ~ completed p2 /\ jstate a1 = pstate p2).
      { unfold poll_job in E. destruct (update_status k j1) as [[k3 j3] d] eqn:E3.
        pose proof (update_status_leader _ _ _ _ _ _ _ E3 Hl Hq Hc) as (p3 & A & B & C & D & F).
        specialize (D Ha). apply (update_status_alive _ _ _ _ _ q E3) in Ha.
        destruct (negb d && negb (jfg j3)); [|injection E as _ <-; eauto 10].
        destruct (update_status k3 j3) as [[k4 j4] d4] eqn:E4. injection E as _ <-.
        pose proof (update_status_leader _ _ _ _ _ _ _ E4 A B D) as (p4 & A4 & B4 & C4 & D4 & F4). eauto 10. }
      destruct D as (p2 & A & B & C & D). exists a1, p2. simpl. repeat split; auto; try apply Hs.
      rewrite D. destruct (pstate p2) eqn:Ep; try reflexivity. exfalso. apply C. unfold completed. eauto.
    - apply (poll_job_alive _ _ _ _ q E) in Ha. destruct (IH _ _ _ E2 Ha Hin) as (j2 & p2 & A & B).
      exists j2, p2. simpl. tauto. }
  destruct (Each _ _ _ _ E Ha Hin) as (j2 & p2 & A & B & C & D & F & G).
  exists j2, p2. split; [apply filter_In; rewrite G; auto|]. repeat split; auto; destruct Hs, B; intuition congruence.
Qed.

Lemma step_tracked q k js o k' js' j :
  step (k, js) o = (k', js') -> gentle q o -> alive k q -> tracked q j js -> tracked q j js' /\ alive k' q.
Proof.
  assert (Mono : forall a b, tracked q j a -> (forall x, In x a -> In x b) -> tracked q j b).
  { intros a b (x & p & H & R) Hi. exists x, p. split; [apply Hi, H|exact R]. }
  destruct o; simpl; intros H Hg Ha Ht.
  - injection H as <- <-. split; [|exact Ha]. eapply Mono; [exact Ht|]. intros x. unfold launch_bg. rewrite in_app_iff. auto.
  - injection H as <- <-. split; [|exact Ha].
    destruct (launch_fg termok js g ps evs) as [[js2 ss] st] eqn:E.
    apply launch_fg_table in E as [->|(x & -> & _)]; simpl; [exact Ht|].
    eapply Mono; [exact Ht|]. intros y. rewrite in_app_iff. auto.
  - destruct (check_job_state k js) as [[k2 act] don] eqn:E. simpl in H. injection H as <- <-.
    eapply poll_tracked; eauto.
  - destruct Hg.
  - injection H as <- <-. split; [|exact Ha]. subst contok.
    destruct (execute_bg true spec js) as [[js2 ss] ok] eqn:E.
    apply (proj2 C19_fg_bg_keep_other_jobs) in E as [->|(l & x & r & E1 & _ & [->|[E2 _]])]; [exact Ht| |discriminate].
    simpl. subst js. destruct Ht as (y & p & Hin & Hs & Hl & Hq & Hc).
    rewrite in_app_iff in Hin. simpl in Hin. destruct Hin as [Hin|[<-|Hin]].
    + exists y, p. rewrite !in_app_iff. auto 10.
    + exists (Job (jid x) (jpgid x) (jfg x) (jprocs x) Running), p. rewrite !in_app_iff. simpl. repeat split; auto 10; apply Hs.
    + exists y, p. rewrite !in_app_iff. auto 10.
  - injection H as <- <-. auto.
Qed.

Theorem C19_live_jobs_stay_partial : forall q j ops k js k' js',
  run (k, js) ops = (k', js') -> Forall (gentle q) ops -> alive k q -> tracked q j js ->
  exists j', In j' js' /\ same_job j j'.
Proof.
  intros q j ops. induction ops as [|o ops IH]; intros k js k' js'; unfold run; cbn [fold_left].
  - intros [= <- <-] _ _ (x & p & A & B & _). eauto.
  - destruct (step (k, js) o) as [k1 js1] eqn:E. intros H Hg Ha Ht. inversion Hg; subst.
    eapply step_tracked in E as [E1 E2]; [|eassumption..]. eapply IH; [exact H|eassumption..].
Qed.
Print Assumptions C19_live_jobs_stay_partial.

Example C19_live_jobs_stay_case :
  let k := kset (fun _ => KGone) 10 KRunning in
  let j := Job 1 (Some 10) false [Proc false (Some 10) Running] Running in
  Forall (gentle 10) [OPoll; OLaunchBg (Some 11) [Proc false (Some 11) Running]; OKernel (kset k 10 (KStopped 20 false)); OPoll; OBg true (lit "%1"); OPoll]
  /\ alive k 10 /\ tracked 10 j [j].
Proof.
  simpl. split; [repeat (apply Forall_cons; [first [exact I | reflexivity | right; do 2 eexists; reflexivity]|]); apply Forall_nil|]. split; [left; reflexivity|].
  do 2 eexists. split; [left; reflexivity|]. split; [apply same_job_refl|]. simpl. repeat split.
  intros (c & sg & H). discriminate.
Qed.

(** Job numbers: without bg, the table is always sorted by strictly increasing
    number, so numbers are unique. *)
Lemma sorted_app_next js j : StronglySorted lt (map jid js) -> jid j = next_id js -> StronglySorted lt (map jid (js ++ [j])).
Proof.
  unfold next_id. intros H E. destruct js as [|a js] using rev_ind.
  - simpl. repeat constructor.
  - clear IHjs. rewrite rev_app_distr in E. simpl in E.
    rewrite !map_app in *. simpl in *. rewrite E. clear E.
    assert (Ap : forall l x, StronglySorted lt (l ++ [x]) -> StronglySorted lt ((l ++ [x]) ++ [S x])).
    { clear. induction l as [|y l IH]; intros x H; simpl in *; [repeat constructor|].
      inversion H as [|? ? H1 H2]; subst. constructor; [apply IH, H1|].
      rewrite !Forall_app in *. destruct H2 as [H2 H3]. inversion H3; subst. repeat split; auto. }
    apply Ap, H.
Qed.

Lemma sorted_filter {A} (f : A -> nat) g (l : list A) : StronglySorted lt (map f l) -> StronglySorted lt (map f (filter g l)).
Proof.
  induction l as [|a l IH]; simpl; [auto|]. intros H. inversion H as [|? ? H1 H2]; subst.
  destruct (g a); simpl; [|auto]. constructor; [auto|].
  rewrite Forall_forall in *. intros x Hx. apply in_map_iff in Hx as (y & <- & Hy). apply filter_In in Hy as [Hy _].
  apply H2, in_map, Hy.
Qed.

Lemma sorted_remove {A} (f : A -> nat) l x r : StronglySorted lt (map f (l ++ x :: r)) -> StronglySorted lt (map f (l ++ r)).
Proof.
  induction l as [|a l IH]; simpl; intros H; inversion H as [|? ? H1 H2]; subst; [exact H1|].
  constructor; [apply IH, H1|]. rewrite map_app in *. simpl in H2. rewrite Forall_app in *. destruct H2 as [H2 H3].
  inversion H3; auto.
Qed.

Theorem C19_job_numbers_unique_partial : forall ops k js k' js',
  run (k, js) ops = (k', js') -> (forall c spec, ~ In (OBg c spec) ops) ->
  StronglySorted lt (map jid js) -> StronglySorted lt (map jid js') /\ NoDup (map jid js').
Proof.
  assert (ND : forall l, StronglySorted lt l -> NoDup l).
  { induction 1 as [|a l H1 IH H2]; constructor; auto. intros Hin. rewrite Forall_forall in H2. specialize (H2 _ Hin). lia. }
  induction ops as [|o ops IH]; intros k js k' js'; unfold run; cbn [fold_left].
  - intros [= <- <-] _ H. auto.
  - destruct (step (k, js) o) as [k1 js1] eqn:E. intros H Hn Hs.
    eapply IH; [exact H|intros c spec Hin; apply (Hn c spec); right; exact Hin|]. clear H IH.
    destruct o; simpl in E.
    + injection E as _ <-. apply sorted_app_next; auto.
    + injection E as _ <-. destruct (launch_fg termok js g ps evs) as [[js2 ss] st] eqn:E.
      apply launch_fg_table in E as [->|(x & -> & Hx)]; simpl; [exact Hs|]. apply sorted_app_next; auto.
    + destruct (check_job_state k js) as [[k2 act] don] eqn:E2. simpl in E. injection E as _ <-.
      apply C19_poll_drops_exactly_ended_leaders in E2 as (js2 & gone & -> & _ & F).
      apply sorted_filter. replace (map jid js2) with (map jid js); [exact Hs|].
      clear - F. induction F as [|a b l l' [[Hab _] _] F IH]; simpl; congruence.
    + injection E as _ <-. destruct (execute_fg termok contok spec evs js) as [[[js2 w] ss] ok] eqn:E.
      apply (proj1 C19_fg_bg_keep_other_jobs) in E as [->|(l & x & r & x' & -> & -> & _)]; simpl; [exact Hs|].
      eapply sorted_remove, Hs.
    + exfalso. eapply Hn. left. reflexivity.
    + injection E as _ <-. exact Hs.
Qed.
Print Assumptions C19_job_numbers_unique_partial.

Example C19_job_numbers_unique_case :
  let ops := [OLaunchBg (Some 10) [Proc false (Some 10) Running]; OLaunchBg (Some 11) [Proc false (Some 11) Running];
              OFg true true (lit "%1") [(false, WExited 10 0)]; OLaunchBg (Some 12) [Proc false (Some 12) Running]] in
  (forall c spec, ~ In (OBg c spec) ops) /\ map jid (snd (run (fun _ => KRunning, []) ops)) = [2; 3].
Proof. split; [simpl; intuition discriminate|vm_compute; reflexivity]. Qed.

(** A foreground command whose last stage has not completed when the shell stops
    waiting (stopped with Ctrl-Z, say) is added to the table with its processes;
    one that has completed is not, and no other entry changes. *)
Theorem C19_unfinished_foreground_job_recorded : forall termok js g ps evs js' ss st,
  launch_fg termok js g ps evs = (js', ss, st) ->
  ((exists c sg, st = Completed c sg) /\ js' = js) \/
  ((forall c sg, st <> Completed c sg) /\ exists j, js' = js ++ [j] /\ jid j = next_id js /\ jpgid j = g /\
     map ppid (jprocs j) = map ppid ps /\ map builtin (jprocs j) = map builtin ps /\ last_state (jprocs j) = st).
Proof.
  intros termok js g ps evs js' ss st. unfold launch_fg. destruct (wait_loop _ _ _ _) as [[j' s'] o] eqn:E.
  apply wait_loop_frame in E as (A & B & _ & _ & C & D). simpl in *. intros [= <- _ Est].
  destruct (last_state (jprocs j')) eqn:El; subst st.
  - right. split; [discriminate|]. exists j'. auto 10.
  - left. eauto.
  - right. split; [discriminate|]. exists j'. auto 10.
Qed.
Print Assumptions C19_unfinished_foreground_job_recorded.

(** * C20: job designators *)

(** What a designator names: "" and %+ / + the newest job, %- / - the one before,
    %n / n the first job numbered n (surrounding blanks ignored, a plus sign before
    the number allowed). *)
Inductive names (js : list job) : str -> nat -> Prop :=
| names_newest spec l j : spec = [] \/ trim spec = lit "%+" \/ trim spec = lit "+" ->
    js = l ++ [j] -> names js spec (length l)
| names_previous spec l i j : trim spec = lit "%-" \/ trim spec = lit "-" ->
    js = l ++ [i; j] -> names js spec (length l)
| names_number spec body n l j r : spec <> [] -> trim spec = body \/ trim spec = chr "%" :: body ->
    Dec body n \/ (exists t, body = chr "+" :: t /\ Dec t n) ->
    js = l ++ j :: r -> N.of_nat (jid j) = n -> Forall (fun x => N.of_nat (jid x) <> n) l ->
    (n < 2 ^ 64)%N -> names js spec (length l).

Theorem C20_designators_resolve : forall spec js i,
  parse_job_spec spec js = Some i <-> names js spec i.
Proof.
  intros spec js i.
  assert (NotDec : forall c t n, is_digit c = false -> ~ Dec (c :: t) n).
  { intros c t n Hc H. apply Dec_iff in H as (_ & H & _). inversion H; congruence. }
  assert (Newest : match js with [] => None | _ => Some (length js - 1) end = Some i <-> exists l j, js = l ++ [j] /\ i = length l).
  { destruct js as [|a js0] using rev_ind.
    - split; [discriminate|]. intros (l & j & H & _). destruct l; discriminate.
    - clear IHjs0. destruct (js0 ++ [a]) as [|x y] eqn:Ex; [destruct js0; discriminate|]. rewrite <- Ex. clear x y Ex.
      rewrite app_length. simpl. split.
      + intros [= <-]. exists js0, a. split; [reflexivity|lia].
      + intros (l & j & H & ->). apply app_inj_tail in H as [-> ->]. f_equal. lia. }
  assert (Prev : (if length js <? 2 then None else Some (length js - 2)) = Some i <-> exists l x y, js = l ++ [x; y] /\ i = length l).
  { destruct (length js <? 2) eqn:E.
    - apply Nat.ltb_lt in E. split; [discriminate|]. intros (l & x & y & -> & _). rewrite app_length in E. simpl in E. lia.
    - apply Nat.ltb_ge in E. split.
      + intros [= <-]. destruct js as [|a js0] using rev_ind; [simpl in E; lia|]. clear IHjs0.
        destruct js0 as [|b js1] using rev_ind; [simpl in E; lia|]. clear IHjs1.
        exists js1, b, a. rewrite <- app_assoc. split; [reflexivity|]. rewrite app_length. simpl. lia.
      + intros (l & x & y & -> & ->). rewrite app_length. simpl. f_equal. lia. }
  (* special designators are not numbers *)
  assert (NoNum : forall body n, Dec body n \/ (exists t, body = chr "+" :: t /\ Dec t n) ->
            forall s, s = body \/ s = chr "%" :: body ->
            s <> lit "%+" /\ s <> lit "+" /\ s <> lit "%-" /\ s <> lit "-").
  { intros body n Hb s Hs.
    assert (NB : body <> [] /\ body <> lit "+" /\ body <> lit "-" /\ body <> lit "%+" /\ body <> lit "%-").
    { destruct Hb as [Hb|(t & -> & Hb)].
      - repeat split; intros ->; [apply Dec_iff in Hb as (H & _); congruence| | | |]; eapply NotDec; try exact Hb; reflexivity.
      - assert (t <> []) by (intros ->; apply Dec_iff in Hb as (H & _); congruence).
        repeat split; try discriminate; intros [= E]; auto. }
    destruct NB as (B0 & B1 & B2 & B3 & B4).
    destruct Hs as [-> | ->]; [auto|]. repeat split; intros E; try discriminate E; injection E as E; [exact (B1 E)|exact (B2 E)]. }
  unfold parse_job_spec. destruct spec as [|c spec].
  - rewrite Newest. split.
    + intros (l & j & H1 & ->). eapply names_newest; eauto.
    + intros H. inversion H as [s l j Hs Hj E1 E2|s l x y Hs Hj E1 E2|s b n l j r Hs]; subst; eauto; try congruence.
      destruct Hs as [Hs|Hs]; discriminate.
  - set (sp := c :: spec) in *. set (s := trim sp). destruct (str_eqb s (lit "%+") || str_eqb s (lit "+")) eqn:E1.
    { rewrite orb_true_iff, !str_eqb_eq in E1. rewrite Newest. split.
      - intros (l & j & H1 & ->). eapply names_newest; eauto. 
      - intros H. inversion H as [s' l j Hs Hj E2 E3|s' l x y Hs Hj E2 E3|s' b n l j r Hs Hb Hd]; subst; eauto.
        + fold s in Hs. destruct E1 as [E1|E1]; rewrite E1 in Hs; destruct Hs; discriminate.
        + fold s in Hb. destruct (NoNum _ _ Hd s Hb) as (? & ? & ? & ?). tauto. }
    rewrite orb_false_iff, !str_eqb_neq in E1. destruct E1 as [E1a E1b].
    destruct (str_eqb s (lit "%-") || str_eqb s (lit "-")) eqn:E2.
    { rewrite orb_true_iff, !str_eqb_eq in E2. rewrite Prev. split.
      - intros (l & x & y & H1 & ->). eapply names_previous; eauto.
      - intros H. inversion H as [s' l j Hs Hj E3 E4|s' l x y Hs Hj E3 E4|s' b n l j r Hs Hb Hd]; subst; eauto.
        + fold s in Hs. destruct Hs as [Hs|Hs]; [discriminate|tauto].
        + fold s in Hb. destruct (NoNum _ _ Hd s Hb) as (? & ? & ? & ?). tauto. }
    rewrite orb_false_iff, !str_eqb_neq in E2. destruct E2 as [E2a E2b].
    set (d := match s with c0 :: s' => if (c0 =? chr "%")%N then s' else s | [] => s end).
    assert (Hd : forall body n, (Dec body n \/ exists t, body = chr "+" :: t /\ Dec t n) ->
              (s = body \/ s = chr "%" :: body) -> d = body).
    { intros body n Hb [Hs|Hs]; unfold d.
      - destruct s as [|c0 s']; [exact Hs|]. destruct (c0 =? chr "%")%N eqn:Ec; [|exact Hs].
        apply N.eqb_eq in Ec. subst c0 body. exfalso. destruct Hb as [Hb|(t & E & _)]; [|discriminate].
        eapply NotDec; [|exact Hb]. reflexivity.
      - rewrite Hs, N.eqb_refl. reflexivity. }
    assert (Sd : s = d \/ s = chr "%" :: d).
    { unfold d. destruct s as [|c0 s']; [auto|]. destruct (c0 =? chr "%")%N eqn:Ec; [|auto].
      apply N.eqb_eq in Ec. subst. auto. }
    split.
    + destruct (parse_usize d) as [n|] eqn:Ep; [|discriminate].
      apply parse_usize_iff in Ep as [Hm Hb]. intros H.
      apply index_of_iff in H as (l & j & r & Hj & -> & Hf & Hl). simpl.
      eapply names_number with (n := n) (body := d); eauto.
      * discriminate.
      * apply N.eqb_eq, Hf.
      * eapply Forall_impl; [|exact Hl]. simpl. intros a. apply N.eqb_neq.
      * unfold usize_max in Hm. change (2 ^ 64)%N with 18446744073709551616%N. lia.
    + intros H. inversion H as [s' l j Hs Hj E3 E4|s' l x y Hs Hj E3 E4|s' b n l j r Hs Hb Hdec Hj Hn Hl Hm]; subst.
      * fold s in Hs. destruct Hs as [Hs|Hs]; [discriminate|tauto].
      * fold s in Hs. tauto.
      * fold s in Hb. rewrite (Hd _ _ Hdec Hb).
        assert (parse_usize b = Some (N.of_nat (jid j))) as ->.
        { apply parse_usize_iff. split; [|exact Hdec]. unfold usize_max.
          change (2 ^ 64)%N with 18446744073709551616%N in Hm. lia. }
        apply index_of_iff. exists l, j, r. repeat split; auto; [apply N.eqb_refl|].
        eapply Forall_impl; [|exact Hl]. simpl. intros a. apply N.eqb_neq.
Qed.
Print Assumptions C20_designators_resolve.

Example C20_designators_case :
  let js := [Job 1 None false [] Running; Job 3 None false [] Running; Job 12 None false [] Running] in
  map (fun s => parse_job_spec s js) [lit ""; lit "%+"; lit "%-"; lit "%1"; lit " 12 "; lit "%2"; lit "1x"; lit "%%1"]
  = [Some 2; Some 2; Some 1; Some 0; Some 2; None; None; None].
Proof. vm_compute. reflexivity. Qed.

(** The indices fg and bg use always exist: no out-of-range access. *)
Theorem C20_designated_job_exists : forall spec js i,
  parse_job_spec spec js = Some i -> exists j, nth_error js i = Some j.
Proof.
  intros spec js i H. apply parse_job_spec_bound in H.
  destruct (nth_error js i) eqn:E; [eauto|]. apply nth_error_None in E. lia.
Qed.
Print Assumptions C20_designated_job_exists.

(** `bg` without argument takes the most recent stopped job. *)
Theorem C20_bg_default_is_newest_stopped : forall c js js' ss,
  execute_bg c [] js = (js', ss, true) -> js <> [] ->
  exists l j r, js = l ++ j :: r /\ stopped (Proc true None (jstate j)) /\
    Forall (fun x => ~ stopped (Proc true None (jstate x))) r /\
    js' = l ++ r ++ [Job (jid j) (jpgid j) (jfg j) (jprocs j) Running].
Proof.
  intros c js js' ss H Hn. unfold execute_bg in H. destruct js as [|j0 js0]; [congruence|].
  destruct (last_index _ 0 (j0 :: js0)) as [i|] eqn:Ei; [|discriminate].
  apply last_index_iff in Ei as (l & j & r & E & -> & Hf & Hr). simpl in H.
  assert (nth_error (j0 :: js0) (length l) = Some j) as En.
  { rewrite E, nth_error_app2, Nat.sub_diag by lia. reflexivity. }
  rewrite En, Hf in H. cbn [negb] in H. 
  pose proof (remove_at_split _ _ _ En) as (l2 & r2 & E2 & Hl & Hrem).
  rewrite E in E2.
  assert (l2 = l /\ r2 = r) as [-> ->].
  { clear - E2 Hl. revert l2 E2 Hl. induction l as [|x l IH]; intros [|y l2]; simpl; intros E L; try discriminate; try lia.
    - injection E as ->. auto.
    - injection E as -> E. destruct (IH l2 E) as [-> ->]; [lia|auto]. }
  exists l, j, r. split; [exact E|]. split; [unfold stopped; simpl; destruct (jstate j); try discriminate; eauto|].
  split.
  { eapply Forall_impl; [|exact Hr]. simpl. intros a Ha (q & sg & Hx). simpl in Hx. rewrite Hx in Ha. discriminate. }
  rewrite Hrem in H. destruct (jpgid j) eqn:Eg; [destruct c; [|discriminate]|]; injection H as <- _;
    rewrite <- app_assoc; unfold set_jstate; rewrite Eg; reflexivity.
Qed.
Print Assumptions C20_bg_default_is_newest_stopped.

(** * C49: the shell kills a foreground job only for its own reasons *)

(** The failure of an unrelated background process makes the shell SIGKILL the
    foreground job. *)
Theorem C49_foreign_failure_is_harmless_refuted :
  exists j evs j' ss,
    wait_loop true false j evs = (j', ss, Waiting) /\ In (10, SIGKILL) ss /\ jpgid j = Some 10 /\
    externals (jprocs j) /\ Forall (fun e => forall p, In p (jprocs j) -> about (snd e) <> ppid p) evs.
Proof.
  exists (Job 1 (Some 10) true [Proc false (Some 10) Running] Running), [(false, WExited 99 1)].
  do 2 eexists. split; [vm_compute; reflexivity|]. split; [left; reflexivity|]. split; [reflexivity|].
  split; [show_externals|]. repeat constructor. intros p [<-|[]]. discriminate.
Qed.
Print Assumptions C49_foreign_failure_is_harmless_refuted.

(** An early stage that fails makes the shell SIGKILL the stages after it while they
    still work on its output (`grep pattern file | wc -l` with no match). *)
Theorem C49_stage_failure_spares_others_refuted :
  exists j evs j' ss p,
    wait_loop true false j evs = (j', ss, Waiting) /\ In (10, SIGKILL) ss /\ jpgid j = Some 10 /\
    externals (jprocs j) /\ last_state (jprocs j') = Running /\ evs = [(false, WExited p 1)].
Proof.
  exists (Job 1 (Some 10) true [Proc false (Some 10) Running; Proc false (Some 11) Running] Running), [(false, WExited 10 1)].
  do 2 eexists. exists 10. split; [vm_compute; reflexivity|]. split; [left; reflexivity|]. split; [reflexivity|]. split; [show_externals|]. split; reflexivity.
Qed.
Print Assumptions C49_stage_failure_spares_others_refuted.

(** As long as no reported process has failed, the only signals sent are the
    user's interrupt and, once, the end of a pipeline whose consumer succeeded
    while another stage is stopped; all of them to the job's own group. *)
Theorem C49_signals_have_a_reason_partial : forall termok sent j evs j' ss o,
  wait_loop termok sent j evs = (j', ss, o) ->
  Forall (fun x => Some (fst x) = jpgid j) ss /\
  (forall x, In x ss ->
     (snd x = SIGINT /\ exists e, In (true, e) evs) \/
     (snd x = SIGKILL /\ exists b e, In (b, e) evs /\ exists c sg, reports e = Completed (S c) sg) \/
     (o = DoneConsumer /\ (snd x = SIGTERM \/ snd x = SIGKILL))).
Proof.
  intros termok sent j evs; revert sent j. induction evs as [|[b e] evs IH]; intros sent j j' ss o; cbn [wait_loop].
  - intros [= <- <- <-]. split; [constructor|]. intros x [].
  - assert (G : forall sg, Forall (fun x : pid * signal => Some (fst x) = jpgid j) (to_group j sg)).
    { intros sg. unfold to_group. destruct (jpgid j); repeat constructor. }
    assert (GI : forall sg x, In x (to_group j sg) -> snd x = sg).
    { intros sg x. unfold to_group. destruct (jpgid j); simpl; [|tauto]. intros [<-|[]]. reflexivity. }
    set (s0 := if b then to_group j SIGINT else []).
    assert (S0 : Forall (fun x : pid * signal => Some (fst x) = jpgid j) s0) by (unfold s0; destruct b; auto).
    assert (I0 : forall x, In x s0 -> snd x = SIGINT /\ exists e', In (true, e') ((b, e) :: evs)).
    { unfold s0. destruct b; simpl; [|tauto]. intros x Hx. split; [eauto|]. exists e. auto. }
    destruct (event_state e) as [[p st]|] eqn:Ee.
    + set (kill := match st with Completed (S _) _ => _ | _ => false end).
      set (s1 := s0 ++ (if kill then to_group j SIGKILL else [])).
      assert (Hr : reports e = st).
      { rewrite event_state_about in Ee. destruct (about e); [|discriminate]. injection Ee as _ H. exact H. }
      assert (S1 : Forall (fun x : pid * signal => Some (fst x) = jpgid j) s1)
        by (unfold s1; apply Forall_app; split; [auto|destruct kill; auto]).
      assert (I1 : forall x, In x s1 ->
        (snd x = SIGINT /\ exists e', In (true, e') ((b, e) :: evs)) \/
        (snd x = SIGKILL /\ exists b' e', In (b', e') ((b, e) :: evs) /\ exists c sg, reports e' = Completed (S c) sg)).
      { unfold s1. intros x Hx. apply in_app_or in Hx as [Hx|Hx]; [left; auto|]. right.
        destruct kill eqn:Ek; [|destruct Hx]. split; [eauto|]. exists b, e. split; [left; reflexivity|].
        unfold kill in Ek. rewrite Hr. destruct st as [|[|c] sg|]; try discriminate. eauto. }
      destruct (is_job_completed _); [intros [= <- <- <-]; split; [exact S1|]; intros x Hx; apply I1 in Hx; tauto|].
      destruct (consumer_terminated _ && _).
      { intros [= <- <- <-]. split.
        - rewrite !Forall_app. repeat split; auto. destruct termok; auto.
        - intros x Hx. rewrite !in_app_iff in Hx. destruct Hx as [Hx|[Hx|Hx]]; [apply I1 in Hx; tauto| |].
          + right. right. split; [reflexivity|]. left. eauto.
          + right. right. split; [reflexivity|]. right. destruct termok; [eauto|destruct Hx]. }
      destruct (is_job_stopped _); [intros [= <- <- <-]; split; [exact S1|]; intros x Hx; apply I1 in Hx; tauto|].
      destruct (wait_loop _ _ _ _) as [[j2 s2] o2] eqn:E. intros [= <- <- <-].
      apply IH in E as [E1 E2]. simpl in E1. split; [apply Forall_app; auto|].
      intros x Hx. apply in_app_or in Hx as [Hx|Hx]; [apply I1 in Hx; tauto|].
      apply E2 in Hx as [(A & e' & B)|[(A & b' & e' & B & C)|C]]; [left|right; left|right; right]; eauto.
      * split; [exact A|]. exists e'. right. exact B.
      * split; [exact A|]. exists b', e'. split; [right; exact B|exact C].
    + assert (Step : forall j2 s2 o2, wait_loop termok sent j evs = (j2, s2, o2) ->
        Forall (fun x => Some (fst x) = jpgid j) (s0 ++ s2) /\
        (forall x, In x (s0 ++ s2) ->
          (snd x = SIGINT /\ exists e', In (true, e') ((b, e) :: evs)) \/
          (snd x = SIGKILL /\ exists b' e', In (b', e') ((b, e) :: evs) /\ exists c sg, reports e' = Completed (S c) sg) \/
          (o2 = DoneConsumer /\ (snd x = SIGTERM \/ snd x = SIGKILL)))).
      { intros j2 s2 o2 E. apply IH in E as [E1 E2]. split; [apply Forall_app; auto|].
        intros x Hx. apply in_app_or in Hx as [Hx|Hx]; [left; auto|].
        apply E2 in Hx as [(A & e' & B)|[(A & b' & e' & B & C)|C]]; [left|right; left|right; right]; eauto.
        - split; [exact A|]. exists e'. right. exact B.
        - split; [exact A|]. exists b', e'. split; [right; exact B|exact C]. }
      assert (Stop : Forall (fun x => Some (fst x) = jpgid j) s0 /\
        (forall x, In x s0 -> snd x = SIGINT /\ exists e', In (true, e') ((b, e) :: evs))) by auto.
      destruct Stop as [Stop1 Stop2].
      destruct e; try discriminate Ee.
      * destruct (wait_loop _ _ _ _) as [[j2 s2] o2]. intros [= <- <- <-]. eauto.
      * intros [= <- <- <-]. split; [exact Stop1|]. intros x Hx. left. auto.
      * destruct (wait_loop _ _ _ _) as [[j2 s2] o2]. intros [= <- <- <-]. eauto.
      * intros [= <- <- <-]. split; [exact Stop1|]. intros x Hx. left. auto.
Qed.
Print Assumptions C49_signals_have_a_reason_partial.

(** The kill on failure is sent at most once, and never after it has been sent. *)
Definition kills (ss : list (pid * signal)) : nat := length (filter (fun x => snd x =? SIGKILL) ss).
Lemma kills_app a b : kills (a ++ b) = kills a + kills b.
Proof. unfold kills. rewrite filter_app, app_length. reflexivity. Qed.

Theorem C49_failure_kill_at_most_once : forall termok j evs j' ss o,
  wait_loop termok false j evs = (j', ss, o) -> o <> DoneConsumer ->
  kills ss <= 1.
Proof.
  intros termok j evs j' ss o H Ho.
  assert (G : forall sent, wait_loop termok sent j evs = (j', ss, o) ->
    kills ss <= if sent then 0 else 1); [|apply (G false H)].
  clear H. intros sent. revert sent j j' ss o Ho. induction evs as [|[b e] evs IH]; intros sent j j' ss o Ho; cbn [wait_loop].
  - intros [= <- <- <-]. destruct sent; unfold kills; simpl; lia.
  - assert (Z : kills (if b then to_group j SIGINT else []) = 0).
    { destruct b; [|reflexivity]. unfold to_group. destruct (jpgid j); reflexivity. }
    destruct (event_state e) as [[p st]|].
    + set (kill := match st with Completed (S _) _ => _ | _ => false end).
      set (s1 := (if b then to_group j SIGINT else []) ++ (if kill then to_group j SIGKILL else [])).
      assert (S1 : kills s1 <= (if kill then 1 else 0)).
      { unfold s1. rewrite kills_app, Z. destruct kill; [|reflexivity].
        unfold to_group. destruct (jpgid j); cbn; lia. }
      assert (K : kill = true -> sent = false).
      { unfold kill. destruct st as [|[|c] sg|]; try discriminate. destruct sent; [discriminate|reflexivity]. }
      assert (S2 : kills s1 <= if sent then 0 else 1).
      { destruct kill; [rewrite (K eq_refl)|]; destruct sent; lia. }
      destruct (is_job_completed _); [intros [= <- <- <-]; exact S2|].
      destruct (consumer_terminated _ && _); [intros [= <- <- <-]; congruence|].
      destruct (is_job_stopped _); [intros [= <- <- <-]; exact S2|].
      destruct (wait_loop _ _ _ _) as [[j2 s2] o2] eqn:E. intros [= <- <- <-].
      apply IH in E; [|exact Ho]. rewrite kills_app.
      destruct kill; [rewrite (K eq_refl) in *; cbn [orb] in E; lia|]. rewrite orb_false_r in E. destruct sent; lia.
    + destruct e; try (intros [= <- <- <-]; rewrite Z; destruct sent; lia);
        destruct (wait_loop _ _ _ _) as [[j2 s2] o2] eqn:E; intros [= <- <- <-];
        apply IH in E; try exact Ho; rewrite kills_app, Z; exact E.
Qed.
Print Assumptions C49_failure_kill_at_most_once.

(** * C50: the state shown by `jobs` *)

(** A job resumed with bg is shown as stopped again at the next poll although its
    process runs, and stays so. *)
Theorem C50_resumed_job_shown_running_refuted :
  exists k js spec js' ss k'' js'' done,
    k 10 = KRunning /\
    execute_bg true spec js = (js', ss, true) /\
    check_job_state k js' = (k'', js'', done) /\
    exists j sg, js'' = [j] /\ jstate j = Stopped 10 sg /\ map ppid (jprocs j) = [Some 10].
Proof.
  exists (kset (fun _ => KGone) 10 KRunning), [Job 1 (Some 10) true [Proc false (Some 10) (Stopped 10 20)] (Stopped 10 20)], [].
  do 5 eexists. split; [reflexivity|]. split; [vm_compute; reflexivity|]. split; [vm_compute; reflexivity|].
  do 2 eexists. repeat split.
Qed.
Print Assumptions C50_resumed_job_shown_running_refuted.

(** For a single external command that has not been resumed, the state recorded by
    a poll is the kernel's: stopped exactly when stopped, running exactly when
    running, completed exactly when gone. *)
Theorem C50_polled_state_is_kernel_state_partial : forall k k' j j' q st,
  jprocs j = [Proc false (Some q) st] ->
  match st with
  | Running => (forall sg, k q <> KStopped sg true)
  | Stopped _ _ => k q <> KRunning
  | Completed _ _ => False
  end ->
  poll_job k j = (k', j') ->
  (jstate j' = Running <-> k q = KRunning) /\
  (state_stopped (jstate j') = true <-> exists sg r, k q = KStopped sg r) /\
  (state_completed (jstate j') = true <-> ~ alive k q) /\
  (forall c, k q = KExited c -> jstate j' = Completed (c mod 256) None) /\
  (forall sg, k q = KKilled sg -> jstate j' = Completed 1 (Some sg)).
Proof.
  intros k k' j j' q st Hps Hst.
  unfold poll_job, update_status. rewrite Hps.
  destruct st as [|c sg|p sg]; [|destruct Hst|]; cbn [update_state builtin ppid pstate];
    unfold wait_pid_job;
    (destruct (k q) as [| |sg' [|]|c'|sg'] eqn:Ek; try congruence; cbn;
     destruct (jfg j); cbn; try (rewrite ?Ek; cbn); unfold wait_pid_job; rewrite ?Ek; cbn;
     try (unfold kset at 1; rewrite Nat.eqb_refl; cbn);
     intros [= <- <-]; cbn; unfold alive; rewrite ?Ek;
     repeat split; try discriminate; try congruence; eauto;
     try (intros (? & ? & ?); discriminate);
     try (intros [?|(? & ? & ?)]; discriminate);
     try (intros _ [?|(? & ? & ?)]; discriminate);
     try (intros H; exfalso; apply H; eauto));
    try (intros c Hc; injection Hc as <-; reflexivity).
Qed.
Print Assumptions C50_polled_state_is_kernel_state_partial.

(** * C51: leaving the shell *)

(** Every external stage of every job in the table is killed, and nothing else. *)
Theorem C51_exit_kills_every_stage : forall js q sg,
  In (q, sg) (kill_wait_jobs js) <->
  sg = SIGKILL /\ exists j p, In j js /\ In p (jprocs j) /\ builtin p = false /\ ppid p = Some q.
Proof.
  intros js q sg. unfold kill_wait_jobs, kill_stages. rewrite in_flat_map. split.
  - intros (j & Hj & H). apply in_flat_map in H as (p & Hp & H).
    destruct (builtin p) eqn:Eb; [destruct H|]. destruct (ppid p) as [x|] eqn:Ep; [|destruct H].
    destruct H as [[= -> <-]|[]]. split; [reflexivity|]. exists j, p. auto.
  - intros (-> & j & p & Hj & Hp & Hb & Hq). exists j. split; [exact Hj|]. apply in_flat_map.
    exists p. split; [exact Hp|]. rewrite Hb, Hq. left. reflexivity.
Qed.
Print Assumptions C51_exit_kills_every_stage.

(** This includes stages already reaped, whose pid may belong to someone else. *)
Theorem C51_exit_spares_reaped_pids_refuted :
  exists js q j p, In (q, SIGKILL) (kill_wait_jobs js) /\ js = [j] /\ In p (jprocs j) /\ ppid p = Some q /\ completed p /\
    exists k k' done, check_job_state k js = (k', js, done) /\ k' q = KGone.
Proof.
  exists [Job 1 (Some 10) false [Proc false (Some 10) Running; Proc false (Some 11) (Completed 0 None)] Running], 11.
  do 2 eexists. split; [right; left; reflexivity|]. split; [reflexivity|]. split; [right; left; reflexivity|].
  split; [reflexivity|]. split; [do 2 eexists; reflexivity|].
  exists (kset (fun _ => KGone) 10 KRunning). do 2 eexists. split; [vm_compute; reflexivity|]. reflexivity.
Qed.
Print Assumptions C51_exit_spares_reaped_pids_refuted.

Example C50_polled_state_case :
  let j := Job 1 (Some 10) false [Proc false (Some 10) Running] Running in
  jstate (snd (poll_job (kset (fun _ => KGone) 10 (KStopped 20 false)) j)) = Stopped 10 20 /\
  jstate (snd (poll_job (kset (fun _ => KGone) 10 (KExited 258)) j)) = Completed 2 None.
Proof. vm_compute. auto. Qed.
Example C49_signals_case :
  exists j', wait_loop true false (Job 1 (Some 10) true [Proc false (Some 10) Running; Proc false (Some 11) Running] Running)
    [(true, WStillAlive); (false, WStopped 10 20); (false, WExited 11 0)]
  = (j', [(10, SIGINT); (10, SIGTERM); (10, SIGKILL)], DoneConsumer).
Proof. eexists. vm_compute. reflexivity. Qed.
