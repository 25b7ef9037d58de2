(** Property theorems about command lists: C05, C06. *)
From Verif Require Import Base Safety_Model Safety_Spec Safety_Proofs Safety_Props Eval_Model Eval_Spec.

Section Refine.
  Variable W : Type.
  Variable launch : W -> job -> W * option pstate.
  Variable launch_capture : W -> job -> W * option (pstate * str).
  Variable lisp : W -> str -> W * bool.
  Variable bg : bool.

  Let iter' := iter W launch launch_capture lisp bg.
  Let loop' := loop W launch launch_capture lisp bg.
  Let exec := exec_cmd W launch launch_capture lisp bg.

  Lemma next_number_ok wt : get_job_id wt = next_number wt.
  Proof.
    unfold get_job_id, next_number. destruct wt as [|x wt] using rev_ind; [reflexivity|].
    rewrite rev_app_distr. simpl. destruct x as [i j]. rewrite last_last. destruct wt; reflexivity.
  Qed.

  Definition st_of (r : res W) (g : list_op) : state W :=
    St W (rw W r) (rstatus W r) g (rwaits W r) (revents W r).

  (** an iteration whose gate is open runs the command *)
  Lemma iter_open r g j o :
    should_run g (rstatus W r) = true ->
    let r' := exec_after W exec r j in
    exists g', iter' (st_of r g) (j, o) =
      match rfin W r' with
      | Cont => (st_of r' o, Go)
      | Ended => (st_of r' o, Break)
      | Failed => (st_of r' g', Fail)
      end.
  Proof.
    intros Hg r'. subst r' iter' exec. unfold iter, exec_after, exec_cmd, st_of.
    cbn [gate Eval_Model.last world waits trace]. rewrite Hg. cbn [negb].
    rewrite next_number_ok.
    replace (if bg then Job (cmd j) false (capture j) (sexprs j) (has_process j) else j)
      with (Job (cmd j) (if bg then false else foreground j) (capture j) (sexprs j) (has_process j))
      by (destruct bg, j; reflexivity).
    set (jj := Job _ _ _ _ _). cbn [cmd capture sexprs has_process].
    change (capture j) with (capture jj). change (sexprs j) with (sexprs jj).
    change (has_process j) with (has_process jj). change (cmd j) with (cmd jj).
    destruct (capture jj).
    { destruct (launch_capture (rw W r) jj) as [w [[p out]|]]; cbn; exists g; rewrite <- ?app_assoc; reflexivity. }
    destruct (sexprs jj) as [|e es] eqn:Ee.
    { destruct (launch (rw W r) jj) as [w [[| |c]|]]; cbn; exists g; rewrite <- ?app_assoc; reflexivity. }
    destruct (has_process jj); cbn [negb].
    2: { cbn. exists g. reflexivity. }
    destruct (launch_capture (rw W r) jj) as [w [[p out]|]].
    2: { cbn; exists g; rewrite <- ?app_assoc; reflexivity. }
    change (capture_code p) with (captured_status p).
    destruct (captured_status p =? 0) eqn:Ec; cbn [negb andb orb].
    - destruct (run_lisp W lisp w (e :: es)) as [[w' ok] t]. cbn. exists g. rewrite <- ?app_assoc. reflexivity.
    - destruct (str_eqb out []); cbn [negb].
      + cbn; exists g; rewrite <- ?app_assoc; reflexivity.
      + destruct (run_lisp W lisp w (e :: es)) as [[w' ok] t]. cbn. exists g. rewrite <- ?app_assoc. reflexivity.
  Qed.

  (** a closed gate skips the command *)
  Lemma iter_closed r g j o :
    should_run g (rstatus W r) = false -> iter' (st_of r g) (j, o) = (st_of r o, Go).
  Proof. intros Hg. subst iter'. unfold iter, st_of. cbn. rewrite Hg. reflexivity. Qed.

  (** running a prefix of the loop and going on with [rest] *)
  Definition resume (r : res W) (g : list_op) (rest : list (job * list_op)) : state W * option nat :=
    loop' (st_of r g) rest.

  Lemma loop_flat l : forall r o rest,
    rfin W r = Cont ->
    let r' := eval_andor W exec r l in
    match rfin W r' with
    | Cont => loop' (st_of r OpNone) (flat l o ++ rest) = loop' (st_of r' o) rest
    | Ended => exists g, loop' (st_of r OpNone) (flat l o ++ rest) = (st_of r' g, Some (rstatus W r'))
    | Failed => exists g, loop' (st_of r OpNone) (flat l o ++ rest) = (st_of r' g, None)
    end.
  Proof.
    assert (Hstep : forall r g j o rest, should_run g (rstatus W r) = true ->
      let r' := exec_after W exec r j in
      match rfin W r' with
      | Cont => loop' (st_of r g) ((j, o) :: rest) = loop' (st_of r' o) rest
      | Ended => exists g', loop' (st_of r g) ((j, o) :: rest) = (st_of r' g', Some (rstatus W r'))
      | Failed => exists g', loop' (st_of r g) ((j, o) :: rest) = (st_of r' g', None)
      end).
    { intros r g j o rest Hg r'. destruct (iter_open r g j o Hg) as [g' H]. fold r' in H.
      subst loop' iter'. cbn [loop]. rewrite H. destruct (rfin W r').
      - reflexivity.
      - eexists. reflexivity.
      - eexists. reflexivity. }
    assert (Hskip : forall r g j o rest, should_run g (rstatus W r) = false ->
      loop' (st_of r g) ((j, o) :: rest) = loop' (st_of r o) rest).
    { intros r g j o rest Hg. pose proof (iter_closed r g j o Hg) as H. subst loop' iter'. cbn [loop].
      rewrite H. reflexivity. }
    induction l as [j | l IH j | l IH j]; intros r o rest Hr; cbn [eval_andor flat].
    - exact (Hstep r OpNone j o rest eq_refl).
    - rewrite <- app_assoc. cbn [app]. specialize (IH r OpAnd ((j, o) :: rest) Hr).
      cbv zeta in IH |- *. set (r1 := eval_andor W exec r l) in *.
      destruct (rfin W r1) eqn:E1.
      + rewrite IH. destruct (rstatus W r1 =? 0) eqn:E0.
        * apply Hstep. exact E0.
        * rewrite E1. apply Hskip. exact E0.
      + rewrite E1. exact IH.
      + rewrite E1. exact IH.
    - rewrite <- app_assoc. cbn [app]. specialize (IH r OpOr ((j, o) :: rest) Hr).
      cbv zeta in IH |- *. set (r1 := eval_andor W exec r l) in *.
      destruct (rfin W r1) eqn:E1.
      + rewrite IH. destruct (rstatus W r1 =? 0) eqn:E0.
        * rewrite E1. apply Hskip. cbn. rewrite E0. reflexivity.
        * apply Hstep. cbn. rewrite E0. reflexivity.
      + rewrite E1. exact IH.
      + rewrite E1. exact IH.
  Qed.

  Lemma loop_line ls : forall r,
    rfin W r = Cont ->
    let r' := eval_line W exec r ls in
    exists g, loop' (st_of r OpNone) (flat_line ls) =
      (st_of r' g, match rfin W r' with Failed => None | _ => Some (rstatus W r') end).
  Proof.
    induction ls as [|l ls IH]; intros r Hr; cbn [eval_line flat_line flat_map].
    - exists OpNone. cbv zeta. rewrite Hr. reflexivity.
    - pose proof (loop_flat l r OpNone (flat_line ls) Hr) as H. cbv zeta in *.
      unfold flat_line in H. set (r1 := eval_andor W exec r l) in *.
      destruct (rfin W r1) eqn:E1.
      + destruct (IH r1 E1) as [g IHg]. exists g. rewrite H. exact IHg.
      + rewrite E1. exact H.
      + rewrite E1. exact H.
  Qed.
End Refine.

(** every job sequence with a terminating ';' is the sequence of some line, so the
    theorem below speaks about all of them *)
Lemma flat_snoc l o : exists pre j, flat l o = pre ++ [(j, o)].
Proof.
  destruct l as [j | l j | l j]; cbn.
  - exists [], j. reflexivity.
  - eexists. exists j. reflexivity.
  - eexists. exists j. reflexivity.
Qed.

Fixpoint build (acc : option (andor * list_op)) (jobs : list (job * list_op)) : list andor :=
  match jobs with
  | [] => match acc with Some (l, _) => [l] | None => [] end
  | (j, o) :: rest =>
      match acc with
      | None => build (Some (One j, o)) rest
      | Some (l, OpNone) => l :: build (Some (One j, o)) rest
      | Some (l, OpAnd) => build (Some (AndThen l j, o)) rest
      | Some (l, OpOr) => build (Some (OrElse l j, o)) rest
      end
  end.

(** drop the operator after the last job (it gates nothing) *)
Fixpoint close_last (jobs : list (job * list_op)) : list (job * list_op) :=
  match jobs with
  | [] => []
  | [(j, _)] => [(j, OpNone)]
  | x :: rest => x :: close_last rest
  end.

Lemma build_flat jobs : forall acc,
  flat_line (build acc jobs) =
  match acc with
  | None => close_last jobs
  | Some (l, o) => match jobs with [] => flat l OpNone | _ => flat l o ++ close_last jobs end
  end.
Proof.
  induction jobs as [|[j o] jobs IH]; intros [[l o']|]; cbn [build].
  - unfold flat_line. cbn. apply app_nil_r.
  - reflexivity.
  - assert (Hc : close_last ((j, o) :: jobs) =
                 (j, match jobs with [] => OpNone | _ => o end) :: close_last jobs)
      by (destruct jobs; reflexivity).
    rewrite Hc. destruct o'.
    + unfold flat_line in *. cbn [flat_map]. rewrite IH. destruct jobs; reflexivity.
    + rewrite IH. destruct jobs; cbn [flat]; rewrite <- ?app_assoc; reflexivity.
    + rewrite IH. destruct jobs; cbn [flat]; rewrite <- ?app_assoc; reflexivity.
  - rewrite IH. destruct jobs; reflexivity.
Qed.

Lemma loop_close_last W launch lc lisp bg jobs : forall s,
  let (s1, r1) := loop W launch lc lisp bg s jobs in
  let (s2, r2) := loop W launch lc lisp bg s (close_last jobs) in
  r1 = r2 /\ Eval_Model.last W s1 = Eval_Model.last W s2 /\ waits W s1 = waits W s2
  /\ trace W s1 = trace W s2 /\ world W s1 = world W s2.
Proof.
  induction jobs as [|[j o] jobs IH]; intros s; [cbn; auto|].
  destruct jobs as [|jo jobs].
  - cbn [close_last loop].
    assert (H : let (s1, f1) := iter W launch lc lisp bg s (j, o) in
                let (s2, f2) := iter W launch lc lisp bg s (j, OpNone) in
                f1 = f2 /\ Eval_Model.last W s1 = Eval_Model.last W s2 /\ waits W s1 = waits W s2
                /\ trace W s1 = trace W s2 /\ world W s1 = world W s2).
    { unfold iter. destruct (negb _); [cbn; auto|]. set (jj := if bg then _ else _).
      destruct (capture jj).
      { destruct (lc (world W s) jj) as [w [[p out]|]]; cbn; auto 8. }
      destruct (sexprs jj) as [|e es].
      { destruct (launch (world W s) jj) as [w [[| |c]|]]; cbn; auto 8. }
      destruct (negb _); [cbn; auto 8|].
      destruct (lc (world W s) jj) as [w [[p out]|]]; [|cbn; auto 8].
      destruct (_ && _); [cbn; auto 8|].
      destruct (run_lisp W lisp w (e :: es)) as [[w' ok] t]. cbn. auto 8. }
    destruct (iter W launch lc lisp bg s (j, o)) as [s1 f1].
    destruct (iter W launch lc lisp bg s (j, OpNone)) as [s2 f2].
    destruct H as (-> & H1 & H2 & H3 & H4). destruct f2; rewrite ?H1; auto.
  - change (close_last ((j, o) :: jo :: jobs)) with ((j, o) :: close_last (jo :: jobs)).
    cbn [loop]. destruct (iter W launch lc lisp bg s (j, o)) as [s1 []].
    + exact (IH s1).
    + auto.
    + auto.
Qed.

(** C05.  [ls] is a line: AND-OR lists separated by ';'.  Its jobs run exactly as
    short-circuit evaluation of the lists says: same events in the same order
    (hence the same launches, once each), same status, same job table, same final
    world.  A suspended command ends the line; a launch failure makes it fail. *)
Theorem C05_command_lists_are_andor_lists :
  forall W launch launch_capture lisp bg (w : W) wt ls,
  let (s, r) := run_jobs W launch launch_capture lisp bg w wt (flat_line ls) in
  let e := eval_line W (exec_cmd W launch launch_capture lisp bg) (Res W w 0 wt [] Cont) ls in
  trace W s = revents W e /\ waits W s = rwaits W e /\ world W s = rw W e
  /\ r = match rfin W e with Failed => None | _ => Some (rstatus W e) end.
Proof.
  intros W launch lc lisp bg w wt ls.
  destruct (loop_line W launch lc lisp bg ls (Res W w 0 wt [] Cont) eq_refl) as [g H].
  unfold run_jobs. unfold st_of in H. cbn [rw rstatus rwaits revents] in H. rewrite H.
  cbn. auto.
Qed.
Print Assumptions C05_command_lists_are_andor_lists.

(** Every job sequence the parser can produce is such a line: the operator stored
    on the last job has no effect, and without it the sequence is [flat_line]
    of its grouping. *)
Theorem C05_every_job_sequence_is_a_line :
  forall W launch launch_capture lisp bg (w : W) wt jobs,
  exists ls, flat_line ls = close_last jobs /\
  flat_map commands ls = map fst jobs /\
  let (s, r) := run_jobs W launch launch_capture lisp bg w wt jobs in
  let (s', r') := run_jobs W launch launch_capture lisp bg w wt (flat_line ls) in
  r = r' /\ trace W s = trace W s' /\ waits W s = waits W s' /\ world W s = world W s'.
Proof.
  intros W launch lc lisp bg w wt jobs. exists (build None jobs). rewrite build_flat.
  split; [reflexivity|]. split.
  - assert (Hb : forall acc, flat_map commands (build acc jobs) =
              match acc with None => [] | Some (l, _) => commands l end ++ map fst jobs).
    { induction jobs as [|[j o] jobs IH]; intros [[l o']|]; cbn [build].
      - cbn. reflexivity.
      - reflexivity.
      - destruct o'; cbn [flat_map]; rewrite IH; cbn [commands map fst]; rewrite <- ?app_assoc; reflexivity.
      - rewrite IH. reflexivity. }
    apply (Hb None).
  - pose proof (loop_close_last W launch lc lisp bg jobs (St W w 0 OpNone wt [])) as H.
    unfold run_jobs. destruct (loop _ _ _ _ bg _ jobs) as [s1 r1].
    destruct (loop _ _ _ _ bg _ (close_last jobs)) as [s2 r2]. tauto.
Qed.
Print Assumptions C05_every_job_sequence_is_a_line.

(** a && b || c ; d & e   with a failing, e stopped *)
Section Demo.
  Definition plain (s : str) (fg : bool) : job := Job s fg false [] true.
  Definition demo_launch (w : nat) (j : job) : nat * option pstate :=
    (S w, Some (if negb (foreground j) then PRunning
                else if str_eqb (cmd j) (lit "a") then PCompleted 3
                else if str_eqb (cmd j) (lit "e") then PStopped else PCompleted 0)).
  Definition demo_line : list andor :=
    [OrElse (AndThen (One (plain (lit "a") true)) (plain (lit "b") true)) (plain (lit "c") true);
     One (plain (lit "d") false); One (plain (lit "e") true); One (plain (lit "f") true)].
  Example C05_example :
    let (s, r) := run_jobs nat demo_launch (fun w j => (w, None)) (fun w e => (w, true)) false 0 []
                    (flat_line demo_line) in
    launches (trace nat s) = [lit "a"; lit "c"; lit "d"; lit "e"] /\ r = Some 0
    /\ map (fun x => (fst x, cmd (snd x))) (waits nat s) = [(1, lit "d"); (2, lit "e")] /\ world nat s = 4.
  Proof. vm_compute. auto. Qed.
End Demo.

(** C06: a denied or declined line has no effect at all (no event, no change of
    world, job table or allowlist) and reports a failure status; otherwise it runs
    exactly like [run_jobs].  The question is asked exactly when the guard says so.
    After "always", the allowlist contains every command of the line, and the same
    line is no longer asked about at any level; other entries are kept. *)
Theorem C06_declined_line_launches_nothing :
  forall W launch lc lisp bg (w : W) wt lv allow ask jobs,
  let o := eval_jobs W launch lc lisp bg w wt lv allow ask jobs in
  let s := final W o in
  let verdict := check_jobs (map (fun jo => cmd (fst jo)) jobs) lv allow in
  let refused := (exists m, verdict = Denied m)
                 \/ ((exists m, verdict = Confirm m) /\ (ask = No \/ ask = AskFailed)) in
  (refused -> trace W s = [] /\ world W s = w /\ waits W s = wt /\ allowlist W o = allow
              /\ exists c, value W o = Some c /\ c <> 0)
  /\ (~ refused -> (s, value W o) = run_jobs W launch lc lisp bg w wt jobs)
  /\ (asked W o = true <-> exists m, verdict = Confirm m)
  /\ (asked W o = true -> ask = AlwaysAllow ->
      allowlist W o = allow ++ map (fun jo => cmd (fst jo)) jobs
      /\ forall lv' ask' w' wt' bg',
           asked W (eval_jobs W launch lc lisp bg' w' wt' lv' (allowlist W o) ask' jobs) = false
           /\ (final W (eval_jobs W launch lc lisp bg' w' wt' lv' (allowlist W o) ask' jobs),
               value W (eval_jobs W launch lc lisp bg' w' wt' lv' (allowlist W o) ask' jobs))
              = run_jobs W launch lc lisp bg' w' wt' jobs)
  /\ (asked W o = false \/ ask <> AlwaysAllow -> allowlist W o = allow).
Proof.
  intros W launch lc lisp bg w wt lv allow ask jobs o s verdict refused.
  subst o s refused. unfold eval_jobs. fold verdict.
  assert (Hpass : forall lv', check_jobs (map (fun jo => cmd (fst jo)) jobs) lv'
                     (allow ++ map (fun jo : job * list_op => cmd (fst jo)) jobs) = Allowed).
  { intros lv'.
    destruct (C07_safety_levels_decide (map (fun jo => cmd (fst jo)) jobs)
               (allow ++ map (fun jo : job * list_op => cmd (fst jo)) jobs) [] [] lv') as (_ & _ & _ & _ & H & _).
    apply H. intros j Hj. apply in_or_app. right. exact Hj. }
  destruct (run_jobs W launch lc lisp bg w wt jobs) as [s r] eqn:ER.
  destruct verdict as [|m|m] eqn:EV; cbn [final allowlist value asked trace world waits].
  - split; [intros [[m H] | [[m H] _]]; discriminate|]. split; [reflexivity|].
    split; [split; [discriminate | intros [m H]; discriminate]|]. split; [discriminate | auto].
  - split; [intros _; repeat (split; [reflexivity|]); exists 1; split; [reflexivity | discriminate]|].
    split; [intros H; exfalso; apply H; left; eauto|].
    split; [split; [discriminate | intros [m' H]; discriminate]|]. split; [discriminate | auto].
  - assert (HC : exists m', Confirm m = Confirm m') by eauto.
    destruct ask; cbn [final allowlist value asked trace world waits].
    + split; [intros [[m' H] | [_ [H | H]]]; discriminate|]. split; [reflexivity|].
      split; [tauto|]. split; [discriminate | auto].
    + split; [intros _; repeat (split; [reflexivity|]); exists 130; split; [reflexivity | discriminate]|].
      split; [intros H; exfalso; apply H; right; auto|].
      split; [tauto|]. split; [discriminate | auto].
    + split; [intros [[m' H] | [_ [H | H]]]; discriminate|]. split; [reflexivity|].
      split; [tauto|]. split.
      * intros _ _. split; [reflexivity|]. intros lv' ask' w' wt' bg'. rewrite Hpass.
        destruct (run_jobs W launch lc lisp bg' w' wt' jobs). cbn. auto.
      * intros [H | H]; [discriminate | congruence].
    + split; [intros _; repeat (split; [reflexivity|]); exists 130; split; [reflexivity | discriminate]|].
      split; [intros H; exfalso; apply H; right; auto|].
      split; [tauto|]. split; [discriminate | auto].
Qed.
Print Assumptions C06_declined_line_launches_nothing.

Example C06_example :
  let ev := eval_jobs nat demo_launch (fun w j => (w, None)) (fun w e => (w, true)) false 0 [] Normal in
  let line := [(plain (lit "ls") true, OpAnd); (plain (lit "rm -rf x") true, OpNone)] in
  let o1 := ev [] No line in
  let o2 := ev [] AlwaysAllow line in
  let o3 := ev (allowlist nat o2) No line in
  (launches (trace nat (final nat o1)), value nat o1) = ([], Some 130)
  /\ launches (trace nat (final nat o2)) = [lit "ls"; lit "rm -rf x"]
  /\ (asked nat o3, launches (trace nat (final nat o3))) = (false, [lit "ls"; lit "rm -rf x"]).
Proof. vm_compute. auto. Qed.
