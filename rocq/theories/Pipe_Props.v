(** C36, C86, C87, C88: which descriptors the processes of a job get. *)
From Verif Require Import Base Pipe_Model Pipe_Spec Pipe_Proofs.

(** ** C36: pipelines *)

(** A shell with three terminals and nothing else open, for the examples. *)
Definition shell_table : table :=
  [Some (Ent (Old 0) false); Some (Ent (Old 1) false); Some (Ent (Old 2) false)].

Lemma shell_ready : ready shell_table 0.
Proof.
  repeat split; try reflexivity. intros [|[|[|[|fd]]]] k; cbn; intros [H|H]; discriminate H.
Qed.

(** For every pipeline of external commands without redirects, in the foreground or
    background, interactive or not, with or without a pseudo-terminal, and for every
    way of choosing free numbers:
    - all stages start, one process each, in order;
    - every stage's output is the pipe its successor reads;
    - the first reads the job's input, the last writes the job's output, and all
      write errors where the job does;
    - a pipe created for the job can be written by one process only, and not by the
      shell, so its reader sees end-of-file when that process is gone;
    - the shell keeps nothing but the read ends it monitors.
    Missing from the full statement: a stage also keeps the read end of its own
    output ([C36_no_stray_read_ends_refuted]); builtins
    ([C36_builtin_first_refuted]); redirects (C86). *)
Theorem C36_pipelines_are_connected_partial :
  forall pick openable t n slave fg inter ks,
    ready t n -> slave_ready t slave -> ks <> [] -> all_commands ks ->
    exists s l,
      launch pick openable None slave ks (start_state t n (default_ctx fg inter)) = (s, true) /\
      procs s = l /\ length l = length ks /\
      chained l /\
      (forall p, nth_error l 0 = Some p -> reads_job_input slave p) /\
      (forall p, nth_error l (length l - 1) = Some p -> writes_job_output slave fg inter s p) /\
      (forall p, In p l -> writes_job_errors slave fg s p) /\
      (forall k, n <= k -> ~ holds (tb s) (PipeW k)) /\
      (forall i j a b k, n <= k -> nth_error l i = Some a -> nth_error l j = Some b ->
         can_write a k -> can_write b k -> i = j) /\
      (forall fd, get (tb s) fd = get t fd \/
         (get t fd = None /\ exists k, In fd (monitors s) /\ option_map what (get (tb s) fd) = Some (PipeR k))).
Proof.
  intros pick openable t n slave fg inter ks R SR Hne HC.
  pose proof (init_inv t n slave fg inter R) as I.
  destruct (launch_ok pick t n slave fg inter R SR openable ks _ _ Hne HC I) as (s & l & E & L).
  exists s, l. destruct L. split; [exact E|].
  split; [rewrite ln_procs; reflexivity|]. split; [exact ln_len|]. split; [exact ln_chain|].
  split; [exact ln_first|]. split; [exact ln_last|]. split; [exact ln_err|].
  split.
  { intros k Hk H. pose proof (launched_no_write _ _ _ R ln_frame ln_mon k H). lia. }
  split.
  { intros i j a b k Hk Ha Hb Wa Wb. exact (ln_apart i j a b k Ha Hb Wa Wb Hk). }
  intros fd. destruct (in_dec Nat.eq_dec fd (monitors s)) as [i|i].
  - right. destruct (ln_mon _ i) as (k & _ & H). destruct (ln_frame fd) as [F _].
    split; [apply F, i|]. exists k. rewrite H. auto.
  - left. destruct (ln_frame fd) as [_ F]. exact (F i).
Qed.
Print Assumptions C36_pipelines_are_connected_partial.

(** Three stages in the background: stage 2 reads pipe 0 and writes pipe 2. *)
Example C36_example :
  map (fun p => (stdin_of p, stdout_of p, stderr_of p))
      (procs (fst (launch posix (fun _ => true) None None [Command; Command; Command]
                          (start_state shell_table 0 (default_ctx false true))))) =
  [(Some (Old 0), Some (PipeW 0), Some (PipeW 1));
   (Some (PipeR 0), Some (PipeW 2), Some (PipeW 3));
   (Some (PipeR 2), Some (PipeW 4), Some (PipeW 5))].
Proof. vm_compute. reflexivity. Qed.

(** What a child's standard streams are, for any three open numbers the shell can
    hand it: it sees exactly those objects, and not under their old numbers. *)
Theorem C36_children_get_their_streams :
  forall t i o e xi xo xe,
    get t i = Some xi -> get t o = Some xo -> get t e = Some xe ->
    (i = 0 \/ 2 < i) -> (o = 1 \/ 2 < o) -> (e = 2 \/ 2 < e) ->
    exists t', child_setup t i o e = Some t' /\
      option_map what (get t' 0) = Some (what xi) /\
      option_map what (get t' 1) = Some (what xo) /\
      option_map what (get t' 2) = Some (what xe) /\
      forall fd, 2 < fd -> get t' fd = if (fd =? i) || (fd =? o) || (fd =? e) then None else get t fd.
Proof.
  intros t i o e xi xo xe Gi Go Ge Hi Ho He.
  destruct (child_setup_ok t i o e xi xo xe Hi Ho He Gi Go Ge) as (t' & E & A0 & A1 & A2 & A).
  exists t'. rewrite A0, A1, A2. split; [exact E|]. unfold dupped.
  repeat split; [now destruct (i =? 0)|now destruct (o =? 1)|now destruct (e =? 2)|exact A].
Qed.
Print Assumptions C36_children_get_their_streams.

(** Same number for all three streams, as with a pseudo-terminal. *)
Example C36_children_example :
  option_map (map (option_map what))
    (child_setup (shell_table ++ [Some (Ent Slave true)]) 3 3 3) =
  Some [Some Slave; Some Slave; Some Slave; None].
Proof. reflexivity. Qed.

(** "No stage keeps a stray pipe end" is false of every pipeline: each stage but the
    last also holds the read end of the pipe it writes, so writing to it never fails,
    even when the reading stage has gone. *)
Theorem C36_no_stray_read_ends_refuted :
  forall pick openable t n slave fg inter ks,
    ready t n -> slave_ready t slave -> all_commands ks -> 2 <= length ks ->
    forall i p, i < length ks - 1 ->
      nth_error (procs (fst (launch pick openable None slave ks
                                    (start_state t n (default_ctx fg inter))))) i = Some p ->
      exists k, stdout_of p = Some (PipeW k) /\ can_read p k.
Proof.
  intros pick openable t n slave fg inter ks R SR HC HL i p Hi Hp.
  assert (ks <> []) as Hne by (intros ->; cbn in HL; lia).
  pose proof (init_inv t n slave fg inter R) as I.
  destruct (launch_ok pick t n slave fg inter R SR openable ks _ _ Hne HC I) as (s & l & E & L).
  rewrite E in Hp. destruct L. cbn [fst] in Hp. rewrite ln_procs in Hp. cbn [procs start_state app] in Hp.
  apply (ln_selfread i p Hp). lia.
Qed.
Print Assumptions C36_no_stray_read_ends_refuted.

(** A foreground builtin with a successor runs inside the shell before any other
    process of the job exists: nobody but the shell, which is busy running it, can
    read what it writes. *)
Theorem C36_builtin_first_refuted :
  forall pick t n slave inter rd prev,
    ready t n -> slave_ready t slave ->
    (forall name, rd <> Some (RInput name)) ->
    let s := stage pick rd slave Builtin true prev None (start_state t n (default_ctx true inter)) in
    exists p, procs s = [p] /\ forked p = false /\ stdout_of p = Some (PipeW n).
Proof.
  intros pick t n slave inter rd prev R SR NI s.
  unfold s, stage, choose_output, create_pipe.
  destruct (new_pipe pick (start_state t n (default_ctx true inter))) as [[r w] s1] eqn:P.
  destruct (new_pipe_ok _ _ _ _ _ P) as (Fr & Fw & Hne & T & N & C & Q & M & K).
  cbn [tb np cx procs start_state] in *.
  assert (w <> 1) as W1 by (intros ->; destruct R as (_ & R1 & _); congruence).
  rewrite apply_slave_eq. cbn [cx upd_cx set_out outfile]. rewrite (eqb_f _ _ W1).
  unfold start. cbn [cx upd_cx infile outfile errfile].
  destruct rd as [[ap nm|ap nm|ap nm|nm]|]; try (now destruct (NI nm));
    (eexists; split; [cbn; rewrite Q; reflexivity|]; cbn; rewrite C; split; [reflexivity|];
     unfold stdout_of, finds; cbn [ptab fds fst snd];
     replace (match slave with Some _ => w | None => w end) with w by (now destruct slave);
     cbn; rewrite T, Nat.eqb_refl; reflexivity).
Qed.
Print Assumptions C36_builtin_first_refuted.

(** ** C86: redirects *)

Lemma capture_fg pick slave cur n s : foreground (cx s) = true ->
  background_capture pick slave cur n s = (cur, None, s).
Proof. intros E. unfold background_capture. rewrite E. cbn [negb]. now rewrite andb_false_r. Qed.

(** The state after a single foreground command with an output redirect. *)
Lemma single_redirect_state pick openable t n slave inter rd r1 w1 s1 :
  let s0 := start_state t n (default_ctx true inter) in
  new_pipe pick s0 = (r1, w1, s1) -> is_output rd = true -> 2 < w1 ->
  let o := if takes_stdout rd then w1 else out_fd slave in
  let e := if takes_stderr rd then w1 else err_fd slave s0 in
  launch pick openable (Some rd) slave [Command] s0 =
  (St (close_io slave None (in_fd slave s0, o, e) (tb s1)) (S n)
      (Ctx r1 o e None true inter) [started (tb s1) (in_fd slave s0) o e] []
      [Copier r1 (get (close_io slave None (in_fd slave s0, o, e) (tb s1)) r1) rd], true).
Proof.
  cbv zeta. intros P HO B. destruct (new_pipe_ok _ _ _ _ _ P) as (_ & _ & _ & _ & N & C & Q & M & K).
  destruct s1 as [t1 n1 c1 q1 m1 k1]. cbn [np cx procs monitors copiers start_state tb] in *. subst n1 c1 q1 m1 k1.
  assert ((w1 =? 1) = false) as E1 by (apply Nat.eqb_neq; lia).
  assert ((w1 =? 2) = false) as E2 by (apply Nat.eqb_neq; lia).
  destruct rd as [ap nm|ap nm|ap nm|nm]; try discriminate HO; cbn [takes_stdout takes_stderr launch];
    unfold stage, choose_output; cbn [is_none andb handle_output_redirect];
    rewrite !andb_false_r; cbn [andb]; rewrite P;
    unfold start; rewrite !capture_fg by (rewrite apply_slave_eq; reflexivity);
    rewrite apply_slave_eq; unfold in_fd, err_fd, out_fd;
    cbn [cx upd_cx set_in set_out set_err default_ctx start_state infile outfile errfile captured foreground interactive tb];
    rewrite ?E1, ?E2; cbn [Nat.eqb];
    destruct slave; reflexivity.
Qed.

(** A single foreground command with an output redirect: the streams the redirect
    names go into one new pipe, the others to the job's terminal; the shell does not
    keep the write end; exactly one task copies the read end to the named file.
    Missing from the full statement: pipelines
    ([C86_pipeline_redirect_refuted], [C86_input_redirect_refuted]), appending to a
    missing file ([C86_append_creates_refuted]), more than one redirect (the parser
    keeps the last). *)
Theorem C86_output_redirect_partial :
  forall pick openable t n slave inter rd,
    ready t n -> slave_ready t slave -> is_output rd = true ->
    exists s p fd,
      launch pick openable (Some rd) slave [Command] (start_state t n (default_ctx true inter)) = (s, true) /\
      procs s = [p] /\
      reads_job_input slave p /\
      stdout_of p = Some (if takes_stdout rd then PipeW n else terminal slave 1) /\
      stderr_of p = Some (if takes_stderr rd then PipeW n else terminal slave 2) /\
      copiers s = [Copier fd (Some (Ent (PipeR n) false)) rd] /\
      option_map what (get (tb s) fd) = Some (PipeR n) /\
      ~ holds (tb s) (PipeW n) /\
      (forall fd', fd' <> fd -> get (tb s) fd' = get t fd').
Proof.
  intros pick openable t n slave inter rd R SR HO.
  pose proof (init_inv t n slave true inter R) as I.
  set (s0 := start_state t n (default_ctx true inter)) in *.
  destruct (new_pipe pick s0) as [[r1 w1] s1] eqn:P1.
  pose proof (grown_pipe pick s0 _ _ _ _ _ _ _ (grown_refl s0) eq_refl P1) as G1.
  destruct (new_pipe_ok _ _ _ _ _ P1) as (Fr1 & Fw1 & Hne1 & T1 & N1 & C1 & Q1 & M1 & K1).
  pose proof (free_big _ _ _ _ _ R _ _ _ I Fr1) as Br1.
  pose proof (free_big _ _ _ _ _ R _ _ _ I Fw1) as Bw1.
  pose proof (free_not_slave _ _ _ _ _ SR _ _ _ I Fw1) as Sw1.
  destruct (err_ok _ _ _ _ _ R SR _ _ I) as (Ee & xe & Ge & We & Fe).
  destruct (out_ok _ _ _ _ _ R SR _ _ I) as (xo & Gx & Wx & Fx & Dx).
  destruct (grown_open _ _ _ _ _ _ G1 Ge) as (Ge' & NeW & _).
  destruct (grown_open _ _ _ _ _ _ G1 Gx) as (Gx' & NoW & _).
  assert (get (tb s1) w1 = Some (Ent (PipeW n) false)) as Gw by (rewrite T1, Nat.eqb_refl; reflexivity).
  assert (err_fd slave s0 = 2 \/ slave = Some (err_fd slave s0)) as De by (rewrite Ee; destruct slave; auto).
  assert (forall o e eo ee,
    get (tb s1) o = Some eo -> fit 1 o eo -> get (tb s1) e = Some ee -> fit 2 e ee ->
    (o = w1 \/ o = 1 \/ slave = Some o) -> (e = w1 \/ e = 2 \/ slave = Some e) -> (o = w1 \/ e = w1) ->
    let s := St (close_io slave None (in_fd slave s0, o, e) (tb s1)) (S n)
               (Ctx r1 o e None true inter)
               [started (tb s1) (in_fd slave s0) o e] []
               [Copier r1 (Some (Ent (PipeR n) false)) rd] in
    reads_job_input slave (started (tb s1) (in_fd slave s0) o e) /\
    stdout_of (started (tb s1) (in_fd slave s0) o e) = Some (what eo) /\
    stderr_of (started (tb s1) (in_fd slave s0) o e) = Some (what ee) /\
    get (tb s) r1 = Some (Ent (PipeR n) false) /\
    ~ holds (tb s) (PipeW n) /\ (forall fd', fd' <> r1 -> get (tb s) fd' = get t fd')) as FIN.
  { intros o e eo ee Ho Fo He Fe' Po Pe Pw s.
    destruct (fork_finish t n slave true inter R SR s0 None (tb s1) _ _ o e eo ee I G1 Ho Fo He Fe')
      as (A0 & A1 & A2 & A3 & A4 & A5 & A6 & A7).
    { destruct Po as [->|Po]; [left; exists n; left; reflexivity|right; exact Po]. }
    { destruct Pe as [->|Pe]; [left; exists n; left; reflexivity|right; exact Pe]. }
    { intros fd k [[= <- <-]|[]]. intuition auto. }
    { intros ->. destruct Pw as [->| ->]; right; exists n; left; reflexivity. }
    split; [exact A0|]. split; [exact A1|]. split; [exact A2|].
    assert (get (tb s) r1 = Some (Ent (PipeR n) false)) as GR by (apply A6; left; reflexivity).
    split; [exact GR|].
    assert (forall fd', fd' <> r1 -> get (tb s) fd' = get t fd') as KEEP.
    { intros fd' Hn. apply (A5 fd'). cbn. intuition congruence. }
    split; [|exact KEEP].
    intros (fd & H). destruct (Nat.eq_dec fd r1) as [->|Hn]; [rewrite GR in H; discriminate H|].
    rewrite (KEEP _ Hn) in H. destruct R as (_ & _ & _ & P). specialize (P fd n (or_introl H)). lia. }
  assert (HS : forall s o e, (* the state the launch ends in *)
    s = St (close_io slave None (in_fd slave s0, o, e) (tb s1)) (S n)
          (Ctx r1 o e None true inter) [started (tb s1) (in_fd slave s0) o e] []
          [Copier r1 (get (close_io slave None (in_fd slave s0, o, e) (tb s1)) r1) rd] ->
    forall eo ee, get (tb s1) o = Some eo -> fit 1 o eo -> get (tb s1) e = Some ee -> fit 2 e ee ->
    (o = w1 \/ o = 1 \/ slave = Some o) -> (e = w1 \/ e = 2 \/ slave = Some e) -> (o = w1 \/ e = w1) ->
    what eo = (if takes_stdout rd then PipeW n else terminal slave 1) ->
    what ee = (if takes_stderr rd then PipeW n else terminal slave 2) ->
    exists p fd, procs s = [p] /\ reads_job_input slave p /\
      stdout_of p = Some (if takes_stdout rd then PipeW n else terminal slave 1) /\
      stderr_of p = Some (if takes_stderr rd then PipeW n else terminal slave 2) /\
      copiers s = [Copier fd (Some (Ent (PipeR n) false)) rd] /\
      option_map what (get (tb s) fd) = Some (PipeR n) /\
      ~ holds (tb s) (PipeW n) /\ (forall fd', fd' <> fd -> get (tb s) fd' = get t fd')).
  { intros s o e -> eo ee H1 H2 H3 H4 H5 H6 H7 H8 H9.
    destruct (FIN o e eo ee H1 H2 H3 H4 H5 H6 H7) as (B1 & B2 & B3 & B4 & B5 & B6).
    cbn [tb] in B4, B5, B6.
    exists (started (tb s1) (in_fd slave s0) o e), r1. cbn [procs copiers tb].
    rewrite B4. rewrite <- H8, <- H9. split; [reflexivity|]. split; [exact B1|]. split; [exact B2|].
    split; [exact B3|]. split; [reflexivity|]. split; [reflexivity|]. split; [exact B5|exact B6]. }
  clear FIN.
  assert (cx s1 = default_ctx true inter) as C1' by exact C1.
  pose proof (single_redirect_state pick openable t n slave inter rd r1 w1 s1 P1 HO Bw1) as LE.
  cbv zeta in LE. fold s0 in LE.
  match type of LE with _ = (?x, true) => set (s := x) in LE end.
  exists s. cut (exists p fd, procs s = [p] /\ reads_job_input slave p /\
      stdout_of p = Some (if takes_stdout rd then PipeW n else terminal slave 1) /\
      stderr_of p = Some (if takes_stderr rd then PipeW n else terminal slave 2) /\
      copiers s = [Copier fd (Some (Ent (PipeR n) false)) rd] /\
      option_map what (get (tb s) fd) = Some (PipeR n) /\
      ~ holds (tb s) (PipeW n) /\ (forall fd', fd' <> fd -> get (tb s) fd' = get t fd'));
    [intros (p & fd & H); exists p, fd; split; [exact LE|exact H]|].
  clear LE.
  destruct rd as [ap nm|ap nm|ap nm|nm]; try discriminate HO; cbn [takes_stdout takes_stderr].
  - apply (HS _ w1 (err_fd slave s0)) with (eo := Ent (PipeW n) false) (ee := xe); auto. right. exact Bw1.
  - apply (HS _ (out_fd slave) w1) with (eo := xo) (ee := Ent (PipeW n) false); auto. right. exact Bw1.
  - apply (HS _ w1 w1) with (eo := Ent (PipeW n) false) (ee := Ent (PipeW n) false); auto; right; exact Bw1.
Qed.
Print Assumptions C86_output_redirect_partial.

Example C86_example :
  map (fun p => (stdin_of p, stdout_of p, stderr_of p))
      (procs (fst (launch posix (fun _ => true) (Some (RStderr false (lit "log"))) None [Command]
                          (start_state shell_table 0 (default_ctx true true))))) =
  [(Some (Old 0), Some (Old 1), Some (PipeW 0))].
Proof. vm_compute. reflexivity. Qed.

(** In a pipeline with an output redirect, the output of every inner stage is also
    copied to the file, by a task that competes with the next stage for it. *)
Theorem C86_pipeline_redirect_refuted :
  forall pick openable t n slave fg inter rd ks,
    ready t n -> slave_ready t slave -> is_output rd = true -> all_commands ks -> 2 <= length ks ->
    let s := fst (launch pick openable (Some rd) slave ks (start_state t n (default_ctx fg inter))) in
    forall i p, i < length ks - 1 -> nth_error (procs s) i = Some p ->
      exists k c, stdout_of p = Some (PipeW k) /\ In c (copiers s) /\
                  option_map what (cobj c) = Some (PipeR k) /\ cred c = rd.
Proof.
  intros pick openable t n slave fg inter rd ks R SR HO HC HL s. subst s.
  pose proof (init_inv t n slave fg inter R) as I.
  assert (forall name, Some rd <> Some (RInput name)) as NI by (intros name [= ->]; discriminate HO).
  assert (forall ks s r, all_commands ks -> Inv t n slave fg inter s r ->
    forall i p, i < length ks - 1 ->
      nth_error (procs (fst (launch pick openable (Some rd) slave ks s))) (length (procs s) + i) = Some p ->
      exists k c, stdout_of p = Some (PipeW k) /\
                  In c (copiers (fst (launch pick openable (Some rd) slave ks s))) /\
                  option_map what (cobj c) = Some (PipeR k) /\ cred c = rd) as MAIN.
  { clear ks HC HL I. induction ks as [|k ks IH]; intros s r HC I i p Hi Hp; [cbn in Hi; lia|].
    assert (k = Command) as -> by (apply HC; left; reflexivity).
    destruct ks as [|k2 ks]; [cbn in Hi; lia|].
    destruct (stage_next_ok pick t n slave fg inter R SR (Some rd) s r (infile (cx s)) NI I) as
      (r' & q & I' & EP & EF & EN & HIn & HOut & HR & HE & HW & HM & HK & HCp).
    set (s1 := stage pick (Some rd) slave Command true (infile (cx s)) None s) in *.
    assert (launch pick openable (Some rd) slave (Command :: k2 :: ks) s
            = launch pick openable (Some rd) slave (k2 :: ks) s1) as EL.
    { destruct rd; try discriminate HO; reflexivity. }
    rewrite EL in *. destruct (launch_adds pick openable (Some rd) slave (k2 :: ks) s1) as (lp & lc & LP & LC).
    destruct i as [|i].
    - rewrite LP, EP, Nat.add_0_r in Hp. rewrite <- app_assoc in Hp.
      rewrite nth_error_app2, Nat.sub_diag in Hp by lia. injection Hp as <-.
      exists (np s), (Copier r' (Some (Ent (PipeR (np s)) false)) rd). split; [exact HOut|].
      split; [rewrite LC, HCp; apply in_or_app; left; apply in_or_app; right; left; reflexivity|].
      split; reflexivity.
    - apply (IH s1 (Some (r', np s)) (fun x j => HC x (or_intror j)) I' i p).
      + cbn [length] in Hi |- *. lia.
      + rewrite EP, app_length. cbn [length]. rewrite <- Hp. f_equal. lia. }
  intros i p Hi Hp. exact (MAIN ks _ _ HC I i p Hi Hp).
Qed.
Print Assumptions C86_pipeline_redirect_refuted.

(** In a pipeline with an input redirect, every stage that starts reads the file; no
    stage reads its predecessor. *)
Theorem C86_input_redirect_refuted :
  forall pick openable t n slave fg inter name ks,
    ready t n -> slave_ready t slave -> openable name = true -> all_commands ks ->
    let l := procs (fst (launch pick openable (Some (RInput name)) slave ks
                                (start_state t n (default_ctx fg inter)))) in
    length l = length ks /\
    forall p, In p l -> failed_to_start p \/ stdin_of p = Some (FileIn name).
Proof.
  intros pick openable t n slave fg inter name ks R SR HO HC. cbv zeta.
  destruct (launch_input_ok pick openable name slave ks HO HC) with (s := start_state t n (default_ctx fg inter))
    as (l & E & LL & H).
  - intros m E. unfold slave_ready in SR. rewrite E in SR. apply SR.
  - destruct R as (R0 & R1 & R2 & _). split; cbn; auto. unfold std_open. rewrite R0, R1, R2. repeat split; discriminate.
  - rewrite E. split; [exact LL|exact H].
Qed.
Print Assumptions C86_input_redirect_refuted.

(** Two stages in front of a terminal: the second reads the file, and its output is
    the file too, opened for reading; the shell keeps the read end of the pipe that
    nobody reads. *)
Example C86_input_redirect_example :
  let s := fst (launch posix (fun _ => true) (Some (RInput (lit "f"))) None [Command; Command]
                       (start_state shell_table 0 (default_ctx true true))) in
  map (fun p => (stdin_of p, stdout_of p)) (procs s) =
    [(Some (FileIn (lit "f")), Some (PipeW 0)); (Some (FileIn (lit "f")), Some (FileIn (lit "f")))] /\
  map (option_map what) (tb s) = [Some (Old 0); Some (Old 1); Some (Old 2); None; Some (PipeR 0); None].
Proof. vm_compute. split; reflexivity. Qed.

(** One command reading a file works. *)
Example C86_input_single_example :
  map (fun p => (stdin_of p, stdout_of p, stderr_of p))
      (procs (fst (launch posix (fun _ => true) (Some (RInput (lit "f"))) None [Command]
                          (start_state shell_table 0 (default_ctx true true))))) =
  [(Some (FileIn (lit "f")), Some (Old 1), Some (Old 2))].
Proof. vm_compute. reflexivity. Qed.

(** Appending to a file that does not exist writes nothing. *)
Theorem C86_append_creates_refuted :
  forall rd dir, is_output rd = true ->
    task_opens rd false dir = (negb (appends rd) && dir).
Proof. intros [[] nm|[] nm|[] nm|nm] [] H; try reflexivity; discriminate H. Qed.
Print Assumptions C86_append_creates_refuted.

(** ** C87: the next command of the line *)

(** After a pipeline the context still names the last read end, whose number the
    shell has closed; the next foreground command of an interactive line is given
    that number as its standard input and gives up before running its program,
    whatever else is open by then. *)
Theorem C87_next_command_starts_refuted :
  forall pick openable t n slave fg inter ks,
    ready t n -> slave_ready t slave -> all_commands ks -> 2 <= length ks ->
    let s := fst (launch pick openable None slave ks (start_state t n (default_ctx fg inter))) in
    get (tb s) (infile (cx s)) = None /\
    forall t2 n2 slave2,
      get t2 (infile (cx s)) = None ->
      let c := set_fg (cx s) true in
      interactive c = true ->
      exists s2 p, launch pick openable None slave2 [Command] (start_state t2 n2 c) = (s2, true) /\
                   procs s2 = [p] /\ failed_to_start p.
Proof.
  intros pick openable t n slave fg inter ks R SR HC HL s.
  assert (ks <> []) as Hne by (intros ->; cbn in HL; lia).
  pose proof (init_inv t n slave fg inter R) as I.
  destruct (launch_ok pick t n slave fg inter R SR openable ks _ _ Hne HC I) as (s' & l & E & L).
  assert (s = s') as -> by (unfold s; rewrite E; reflexivity).
  destruct (ln_stale _ _ _ _ _ _ _ _ _ _ L) as [B G]; [right; exact HL|].
  split; [exact G|]. intros t2 n2 slave2 G2 c Hi.
  cbn [launch]. eexists. cut (exists p, procs (stage pick None slave2 Command false (infile c) None (start_state t2 n2 c)) = [p] /\ failed_to_start p).
  { intros (p & H). exists p. split; [reflexivity|exact H]. }
  unfold stage, choose_output. cbn [is_none start_state cx]. rewrite Hi. cbn [negb andb].
  assert (exists s3, handle_output_redirect pick None (start_state t2 n2 c) = (None, s3) /\
     tb s3 = t2 /\ infile (cx s3) = infile (cx s') /\ foreground (cx s3) = true /\ procs s3 = []) as (s3 & -> & T3 & I3 & F3 & P3).
  { cbn [handle_output_redirect start_state cx].
    destruct (captured c); [|destruct (infile c =? 0)]; (eexists; split; [reflexivity|]; repeat split). }
  unfold start. rewrite !capture_fg by (rewrite apply_slave_eq; exact F3).
  eexists. split; [cbn; rewrite P3; reflexivity|].
  unfold failed_to_start. rewrite apply_slave_eq. cbn [ptab cx upd_cx infile tb]. rewrite I3, (eqb_f (infile (cx s')) 0) by lia.
  replace (match slave2 with Some _ => infile (cx s') | None => infile (cx s') end) with (infile (cx s')) by now destruct slave2.
  rewrite T3, setup_closed_in by (lia || exact G2). reflexivity.
Qed.
Print Assumptions C87_next_command_starts_refuted.

(** Not interactive: the number is reused for the pipe that captures the next
    command, which then reads its own output. *)
Example C87_script_example :
  let s := fst (launch posix (fun _ => true) None None [Command; Command]
                       (start_state shell_table 0 (default_ctx true false))) in
  let t2 := close (tb s) 4 in (* the first job's monitor is gone *)
  map (fun p => (stdin_of p, stdout_of p))
      (procs (fst (launch posix (fun _ => true) None None [Command] (start_state t2 2 (cx s))))) =
  [(Some (PipeR 2), Some (PipeW 2))].
Proof. vm_compute. reflexivity. Qed.

(** After a single command without redirect or pseudo-terminal, on an interactive
    line, the context is as it was: the next command gets the shell's streams.
    Missing: everything else (see the refutation). *)
Theorem C87_next_command_starts_partial :
  forall pick openable t n fg k,
    cx (fst (launch pick openable None None [k] (start_state t n (default_ctx fg true)))) = default_ctx fg true.
Proof.
  intros pick openable t n fg k. cbn [launch]. unfold stage, choose_output.
  cbn [is_none start_state cx default_ctx interactive negb andb handle_output_redirect captured infile Nat.eqb apply_slave].
  unfold start. destruct k; [|reflexivity].
  set (q := upd_cx _ _).
  destruct (background_capture pick None (outfile (cx q)) 1 q) as [[o m1] q1] eqn:E1.
  destruct (background_capture pick None (errfile (cx q)) 2 q1) as [[e m2] q2] eqn:E2.
  destruct (background_capture_adds _ _ _ _ _ _ _ _ E1) as (_ & _ & C1 & _).
  destruct (background_capture_adds _ _ _ _ _ _ _ _ E2) as (_ & _ & C2 & _).
  cbn. rewrite C2, C1. reflexivity.
Qed.
Print Assumptions C87_next_command_starts_partial.

(** ** C88: captured output (`|>' and `|:') *)

(** The two pipes of a capture, and what is open around them. *)
Lemma capture_pipes pick t n inter ro wo s1 re we s2 :
  ready t n ->
  new_pipe pick (start_state t n (default_ctx true inter)) = (ro, wo, s1) ->
  new_pipe pick s1 = (re, we, s2) ->
  2 < ro /\ 2 < wo /\ 2 < re /\ 2 < we /\
  ro <> wo /\ ro <> re /\ ro <> we /\ wo <> re /\ wo <> we /\ re <> we /\
  (forall fd, get (tb s2) fd =
     if fd =? we then Some (Ent (PipeW (S n)) false) else if fd =? re then Some (Ent (PipeR (S n)) false)
     else if fd =? wo then Some (Ent (PipeW n) false) else if fd =? ro then Some (Ent (PipeR n) false)
     else get t fd) /\
  (forall fd, fd = ro \/ fd = wo \/ fd = re \/ fd = we -> get t fd = None) /\
  np s2 = S (S n) /\ procs s2 = [] /\ monitors s2 = [] /\ copiers s2 = [].
Proof.
  intros R P1 P2.
  destruct (new_pipe_ok _ _ _ _ _ P1) as (Fr1 & Fw1 & Hne1 & T1 & N1 & C1 & Q1 & M1 & K1).
  destruct (new_pipe_ok _ _ _ _ _ P2) as (Fr2 & Fw2 & Hne2 & T2 & N2 & C2 & Q2 & M2 & K2).
  cbn [tb np cx procs monitors copiers start_state] in *.
  assert (std_open t) as SO.
  { destruct R as (R0 & R1 & R2 & _). unfold std_open. rewrite R0, R1, R2. repeat split; discriminate. }
  rewrite T1 in Fr2, Fw2.
  destruct (Nat.eqb_spec re wo) as [|A1]; [discriminate Fr2|].
  destruct (Nat.eqb_spec re ro) as [|A2]; [discriminate Fr2|].
  destruct (Nat.eqb_spec we wo) as [|A3]; [discriminate Fw2|].
  destruct (Nat.eqb_spec we ro) as [|A4]; [discriminate Fw2|].
  split; [exact (free_std _ _ SO Fr1)|]. split; [exact (free_std _ _ SO Fw1)|].
  split; [exact (free_std _ _ SO Fr2)|]. split; [exact (free_std _ _ SO Fw2)|].
  repeat (split; [congruence|]).
  split.
  { intros fd. rewrite T2, T1, N1. reflexivity. }
  split; [intros fd [->|[->|[->| ->]]]; assumption|].
  split; [congruence|]. split; [congruence|]. split; congruence.
Qed.

(** A captured single command writes its two streams into the two pipes the shell
    drains, and the shell keeps neither write end.  Missing: pipelines
    ([C88_captured_pipeline_refuted]). *)
Theorem C88_captured_command_partial :
  forall pick openable t n inter,
    ready t n ->
    exists ro re s p,
      execute_with_capture pick openable None [Command] (start_state t n (default_ctx true inter)) = (ro, re, s, true) /\
      procs s = [p] /\
      stdin_of p = Some (Old 0) /\ stdout_of p = Some (PipeW n) /\ stderr_of p = Some (PipeW (S n)) /\
      option_map what (get (tb s) ro) = Some (PipeR n) /\
      option_map what (get (tb s) re) = Some (PipeR (S n)) /\
      (forall fd, fd <> ro -> fd <> re -> get (tb s) fd = get t fd).
Proof.
  intros pick openable t n inter R.
  destruct (new_pipe pick (start_state t n (default_ctx true inter))) as [[ro wo] s1] eqn:P1.
  destruct (new_pipe pick s1) as [[re we] s2] eqn:P2.
  destruct (capture_pipes _ _ _ _ _ _ _ _ _ _ R P1 P2)
    as (B1 & B2 & B3 & B4 & D1 & D2 & D3 & D4 & D5 & D6 & T & F & N & Q & M & K).
  unfold execute_with_capture. rewrite P1, P2.
  set (c := Ctx _ _ _ _ _ _).
  assert (launch pick openable None None [Command] (upd_cx s2 c) =
    (St (close_io None None (0, wo, we) (tb s2)) (np s2) (Ctx 0 wo we (Some wo) true inter)
        [started (tb s2) 0 wo we] [] [], true)) as ->.
  { unfold c. cbn [launch]. unfold stage, choose_output.
    cbn [is_none upd_cx cx captured interactive start_state default_ctx negb infile].
    rewrite !andb_false_r. cbn [handle_output_redirect cx upd_cx captured apply_slave].
    unfold start. rewrite !capture_fg by reflexivity.
    destruct s2 as [t2 n2 c2 q2 m2 k2]. cbn [procs monitors copiers] in Q, M, K. subst q2 m2 k2. reflexivity. }
  exists ro, re. eexists. exists (started (tb s2) 0 wo we). split; [reflexivity|].
  cbn [procs tb]. split; [reflexivity|].
  destruct R as (R0 & R1 & R2 & _).
  destruct (started_ok (tb s2) 0 wo we (Ent (Old 0) false) (Ent (PipeW n) false) (Ent (PipeW (S n)) false))
    as (A0 & A1 & A2 & _).
  { left. auto. }
  { right. exact B2. }
  { right. exact B4. }
  { rewrite T, !eqb_f by lia. exact R0. }
  { rewrite T, (eqb_f wo we), (eqb_f wo re), Nat.eqb_refl by lia. reflexivity. }
  { rewrite T, Nat.eqb_refl. reflexivity. }
  split; [exact A0|]. split; [exact A1|]. split; [exact A2|].
  assert (forall fd, get (close (close (close_io None None (0, wo, we) (tb s2)) wo) we) fd =
            if (fd =? we) || (fd =? wo) then None else get (tb s2) fd) as CL.
  { intros fd. unfold close_io. cbn [Nat.eqb negb andb some_is].
    rewrite (eqb_f wo 1), (eqb_f we 2), (eqb_f wo we) by lia. cbn [negb andb]. tab.
    destruct (fd =? we), (fd =? wo); reflexivity. }
  rewrite !CL, (eqb_f ro we), (eqb_f ro wo), (eqb_f re we), (eqb_f re wo) by lia. cbn [orb]. rewrite !T.
  rewrite (eqb_f ro we), (eqb_f ro re), (eqb_f ro wo), Nat.eqb_refl, (eqb_f re we), Nat.eqb_refl by lia.
  split; [reflexivity|]. split; [reflexivity|].
  intros fd H1 H2. rewrite CL, T, (eqb_f _ _ H1), (eqb_f _ _ H2).
  destruct (Nat.eqb_spec fd we) as [->|]; [cbn; rewrite F; tauto|].
  destruct (Nat.eqb_spec fd wo) as [->|]; [cbn; rewrite F; tauto|]. reflexivity.
Qed.
Print Assumptions C88_captured_command_partial.

(** In a captured pipeline of two commands the second never runs its program: the
    shell has closed the write end for errors after starting the first. *)
Theorem C88_captured_pipeline_refuted :
  forall pick openable t n inter,
    ready t n ->
    exists ro re s a b,
      execute_with_capture pick openable None [Command; Command] (start_state t n (default_ctx true inter)) = (ro, re, s, true) /\
      procs s = [a; b] /\ stdout_of a = Some (PipeW (S (S n))) /\ failed_to_start b.
Proof.
  intros pick openable t n inter R.
  destruct (new_pipe pick (start_state t n (default_ctx true inter))) as [[ro wo] s1] eqn:P1.
  destruct (new_pipe pick s1) as [[re we] s2] eqn:P2.
  destruct (capture_pipes _ _ _ _ _ _ _ _ _ _ R P1 P2)
    as (B1 & B2 & B3 & B4 & D1 & D2 & D3 & D4 & D5 & D6 & T & F & N & Q & M & K).
  unfold execute_with_capture. rewrite P1, P2.
  set (c := Ctx _ _ _ _ _ _).
  destruct (new_pipe pick (upd_cx s2 c)) as [[r w] s3] eqn:P3.
  destruct (new_pipe_ok _ _ _ _ _ P3) as (Fr3 & Fw3 & Hne3 & T3 & N3 & C3 & Q3 & M3 & K3).
  cbn [tb np cx procs monitors copiers upd_cx] in *.
  destruct R as (R0 & R1 & R2 & _).
  assert (get (tb s2) 0 = Some (Ent (Old 0) false) /\ get (tb s2) 1 = Some (Ent (Old 1) false) /\
          get (tb s2) 2 = Some (Ent (Old 2) false)) as (Z0 & Z1 & Z2).
  { rewrite !T, !eqb_f by lia. auto. }
  assert (std_open (tb s2)) as SO by (unfold std_open; rewrite Z0, Z1, Z2; repeat split; discriminate).
  pose proof (free_std _ _ SO Fr3) as Br. pose proof (free_std _ _ SO Fw3) as Bw.
  assert (w <> we /\ r <> we) as [Dw Dr].
  { split; intros ->; [rewrite T, Nat.eqb_refl in Fw3; discriminate Fw3|rewrite T, Nat.eqb_refl in Fr3; discriminate Fr3]. }
  set (t3 := close_io None None (0, w, we) (tb s3)).
  assert (exists cc, launch pick openable None None [Command; Command] (upd_cx s2 c) =
    (St (close_io None None (r, wo, we) t3) (np s3) cc
        [started (tb s3) 0 w we; started t3 r wo we] [] [], true)) as (cc & ->).
  { rewrite Q in Q3. rewrite M in M3. rewrite K in K3.
    assert (stage pick None None Command true (infile c) None (upd_cx s2 c) =
      St t3 (np s3) (Ctx r w we (Some wo) true inter) [started (tb s3) 0 w we] [] []) as S1.
    { unfold stage, choose_output, create_pipe. rewrite P3. cbn [apply_slave]. unfold start.
      rewrite !capture_fg by (cbn [cx upd_cx]; rewrite C3; reflexivity).
      unfold t3. destruct s3 as [t4 n4 c4 q4 m4 k4]. cbn [procs monitors copiers cx] in Q3, M3, K3, C3.
      subst q4 m4 k4 c4. reflexivity. }
    eexists. cbn [launch]. cbn [upd_cx cx]. fold (upd_cx s2 c). rewrite S1.
    unfold stage, choose_output. cbn [is_none cx captured interactive].
    rewrite andb_false_r. cbn [handle_output_redirect cx upd_cx captured apply_slave set_out].
    unfold start. rewrite !capture_fg by reflexivity. reflexivity. }
  exists ro, re. eexists. eexists. eexists. split; [reflexivity|].
  cbn [procs tb]. split; [reflexivity|]. split.
  - apply (started_ok (tb s3) 0 w we (Ent (Old 0) false) (Ent (PipeW (S (S n))) false) (Ent (PipeW (S n)) false)).
    + left. auto.
    + right. exact Bw.
    + right. exact B4.
    + rewrite T3, !eqb_f by lia. exact Z0.
    + rewrite T3, Nat.eqb_refl, N. reflexivity.
    + rewrite T3, (eqb_f we w), (eqb_f we r), T, Nat.eqb_refl by congruence. reflexivity.
  - unfold failed_to_start. cbn [started ptab]. rewrite setup_closed_err; [reflexivity|exact B4|].
    unfold t3, close_io. cbn [Nat.eqb negb andb some_is].
    rewrite (eqb_f w 1), (eqb_f we 2), (eqb_f w we) by lia. cbn [negb andb]. tab. rewrite Nat.eqb_refl. reflexivity.
Qed.
Print Assumptions C88_captured_pipeline_refuted.

Example C88_example :
  let '(_, _, s, _) := execute_with_capture posix (fun _ => true) None [Command; Command]
                         (start_state shell_table 0 (default_ctx true true)) in
  map (fun p => (stdin_of p, stdout_of p, stderr_of p)) (procs s) =
  [(Some (Old 0), Some (PipeW 2), Some (PipeW 1)); (None, None, None)].
Proof. vm_compute. reflexivity. Qed.
