(** Theorems about starting and leaving the shell. *)
From Coq Require Import ZArith Lia.
From Verif Require Import Base Eval_Model Jobs_Model Main_Model Main_Spec.

(** ** Scripts on standard input *)
Lemma commands_only : forall ls cs, Commands ls cs -> forall cs', Commands ls cs' -> cs = cs'.
Proof.
  induction 1 as [|l ls cs B _ IH|l ls cs N E _ IH]; intros cs' C'; inversion C'; subst; try congruence.
  - now apply IH.
  - f_equal. now apply IH.
Qed.

Lemma commands_no_stop : forall ls cs, Commands ls cs -> forall l, In l ls -> ~ Stop l.
Proof.
  induction 1 as [|l ls cs B _ IH|l ls cs N E _ IH]; intros x Hx Hs.
  - destruct Hx.
  - destruct Hx as [<-|Hx]; [|exact (IH _ Hx Hs)].
    destruct Hs as [Q|(t & Q & T)]; [discriminate|]. injection Q as ->. rewrite B in T. discriminate.
  - destruct Hx as [<-|Hx]; [|exact (IH _ Hx Hs)].
    destruct Hs as [Q|(t & Q & T)]; [discriminate|]. injection Q as ->. congruence.
Qed.

Lemma commands_app : forall a ca b cb, Commands a ca -> Commands b cb -> Commands (a ++ b) (ca ++ cb).
Proof. induction 1; intro; cbn; [assumption|apply blank_line; auto|apply a_line; auto]. Qed.

(** what a script should run is determined by its lines *)
Theorem C173_one_reading : forall lines cs cs',
  ScriptRuns lines cs -> ScriptRuns lines cs' -> cs = cs'.
Proof.
  intros lines cs cs' (a & b & -> & C & S) (a' & b' & E & C' & S').
  assert (P : a = a').
  { revert a' E cs cs' C C'. induction a as [|x a IH]; intros a' E cs cs' C C'.
    - destruct a' as [|y a']; [reflexivity|]. cbn in E. subst b. exfalso.
      eapply commands_no_stop; [exact C'|now left|exact S].
    - destruct a' as [|y a'].
      + cbn in E. subst b'. exfalso. eapply commands_no_stop; [exact C|now left|exact S'].
      + cbn in E. injection E as -> E. f_equal.
        inversion C; inversion C'; subst; eapply IH; eauto. }
  subst a'. eapply commands_only; eauto.
Qed.

Section Script.
  Variable W : Type.
  Variable eval : W -> str -> W * option nat.

  (** the commands that failed *)
  Fixpoint failing (cs : list str) (rs : list (option nat)) : list str :=
    match cs, rs with
    | c :: cs, None :: rs => c :: failing cs rs
    | _ :: cs, Some _ :: rs => failing cs rs
    | _, _ => []
    end.

  (** C173: the commands of a piped script are those of its lines, up to the first that
      ends it; they are run in order, each once, in the state the one before left, whether
      or not that one failed; each that fails is reported; and nothing else is, but a line
      that cannot be read *)
  Theorem C173_every_line_in_order : forall w lines w' ran out,
    script W eval w lines = (w', ran, out) ->
    ScriptRuns lines ran /\
    exists rs, InTurn eval w ran w' rs /\
      (out = map Trouble (failing ran rs) \/
       out = map Trouble (failing ran rs) ++ [Unreadable] /\ In None lines).
  Proof.
    intros w lines. revert w.
    induction lines as [|[l|] rest IH]; intros w w' ran out H; cbn in H.
    - injection H as <- <- <-. split.
      + exists [], []. repeat split. constructor.
      + exists []. split; [constructor|now left].
    - destruct (str_eqb_spec (trim l) []) as [B|B].
      + destruct (IH _ _ _ _ H) as ((a & b & -> & C & S) & rs & T & O). split.
        * exists (Some l :: a), b. repeat split; [now apply blank_line|exact S].
        * exists rs. split; [exact T|]. destruct O as [O|[O U]]; [now left|right]. split; [exact O|now right].
      + destruct (str_eqb_spec (trim l) (lit "exit")) as [E|E].
        * injection H as <- <- <-. split.
          -- exists [], (Some l :: rest). repeat split; [constructor|]. right. eauto.
          -- exists []. split; [constructor|now left].
        * destruct (eval w (trim l)) as [w1 r] eqn:V.
          destruct (script W eval w1 rest) as [[w2 ran2] out2] eqn:R.
          injection H as <- <- <-.
          destruct (IH _ _ _ _ R) as ((a & b & -> & C & S) & rs & T & O). split.
          -- exists (Some l :: a), b. repeat split; [now apply a_line|exact S].
          -- exists (r :: rs). split; [econstructor; eauto|].
             destruct O as [->|[-> U]]; destruct r; cbn; [now left|now left|right|right];
               (split; [reflexivity|now right]).
    - injection H as <- <- <-. split.
      + exists [], (None :: rest). repeat split; [constructor|]. now left.
      + exists []. split; [constructor|]. right. split; [reflexivity|now left].
  Qed.

  Theorem C173_runs_iff : forall w lines cs,
    ScriptRuns lines cs <-> snd (fst (script W eval w lines)) = cs.
  Proof.
    intros w lines cs. destruct (script W eval w lines) as [[w' ran] out] eqn:H. cbn.
    destruct (C173_every_line_in_order _ _ _ _ _ H) as [R _]. split.
    - intro R'. eapply C173_one_reading; eauto.
    - intros <-. exact R.
  Qed.

  (** C174: a line that is the word exit ends the script: nothing after it is run *)
  Theorem C174_exit_alone_partial : forall w a ca l b,
    Commands a ca -> trim l = lit "exit" ->
    snd (fst (script W eval w (a ++ Some l :: b))) = ca.
  Proof.
    intros w a ca l b C E. apply C173_runs_iff. exists a, (Some l :: b).
    repeat split; [exact C|]. right. eauto.
  Qed.

  (** C174 is false of every other way to leave: after `exit 3`, `exit;` or `true; exit` —
      indeed after any line but the bare word — the rest of the script is still run,
      whatever [eval] made of the line, even if it ran the builtin exit *)
  Theorem C174_exit_with_a_status_refuted : forall w a ca l b cb,
    Commands a ca -> trim l <> [] -> trim l <> lit "exit" -> ScriptRuns b cb ->
    snd (fst (script W eval w (a ++ Some l :: b))) = ca ++ trim l :: cb.
  Proof.
    intros w a ca l b cb C N E (b1 & b2 & -> & C' & S). apply C173_runs_iff.
    exists (a ++ Some l :: b1), b2. repeat split.
    - now rewrite <- app_assoc.
    - apply commands_app; [exact C|]. now apply a_line.
    - exact S.
  Qed.

  (** C175 is false of scripts: whatever fails in it, and however it ends, the status is 0 *)
  Theorem C175_script_status_refuted : forall w lines w1 c,
    eval w (lit "cd .") = (w1, Some c) ->
    snd (script_mode W eval w lines) = 0.
  Proof.
    intros w lines w1 c E. unfold script_mode. rewrite E.
    now destruct (script W eval w1 lines) as [[? ?] ?].
  Qed.

  (** C175: `dsh -c` leaves with the code of the line, and with 1 if it could not be run *)
  Theorem C175_command_status : forall w c,
    match eval w c with
    | (w', Some code) => code <= 255 -> command_mode W eval w c = (w', code)
    | (w', None) => command_mode W eval w c = (w', 1)
    end.
  Proof.
    intros w c. unfold command_mode. destruct (eval w c) as [w' [code|]]; [|reflexivity].
    intro L. f_equal. lia.
  Qed.

  Theorem C175_success : forall w c,
    snd (command_mode W eval w c) = 0 <-> snd (eval w c) = Some 0.
  Proof.
    intros w c. unfold command_mode. destruct (eval w c) as [w' [code|]]; cbn; [|split; discriminate].
    split; [|intros [= ->]; reflexivity]. intro E. f_equal. lia.
  Qed.
End Script.

(** C175: with -l the status is 0 exactly if the Lisp could be evaluated, and its value is
    shown unless it is NIL; -c given beside -l is not run at all *)
Theorem C175_lisp_status : forall W lisp (w : W) e w' s out,
  lisp_mode W lisp w e = (w', s, out) ->
  (s = 0 <-> snd (lisp w e) <> None) /\
  (forall t, In (Value t) out <-> snd (lisp w e) = Some (Some t)).
Proof.
  intros W lisp w e w' s out H. unfold lisp_mode in H.
  destruct (lisp w e) as [w1 [[t|]|]]; cbn; injection H as <- <- <-;
    (split; [split; congruence|]); intro u; cbn; intuition congruence.
Qed.

Theorem C175_only_one_is_run : forall c,
  (forall t, selected c = ByCommand t <-> import c = None /\ lisp_arg c = None /\ command_arg c = Some t) /\
  (forall e, selected c = ByLisp e <-> import c = None /\ lisp_arg c = Some e).
Proof.
  intros [[s|] [l|] [k|]]; unfold selected; cbn; split; intro u; split; intuition congruence.
Qed.

(** ** The builtin exit inside a line *)
Section Line.
  Variable W : Type.
  Variable launch : W -> Eval_Model.job -> W * option Eval_Model.pstate.
  Variable launch_capture : W -> Eval_Model.job -> W * option (Eval_Model.pstate * str).
  Variable lisp : W -> str -> W * bool.
  (** the jobs whose only process is the builtin exit, and their arguments *)
  Variable exits : Eval_Model.job -> list str -> Prop.
  Variable mark : W -> W.
  Hypothesis exits_run : forall w j argv, exits j argv ->
    launch w j = (let (w', e) := exit_builtin mark argv w in (w', seen (builtin_state e))).
  Hypothesis exits_plain : forall j argv, exits j argv -> capture j = false /\ sexprs j = [].

  Let run := run_jobs W launch launch_capture lisp.

  Lemma exit_iter : forall bg s j argv next,
    exits j argv -> (bg = false) -> should_run (gate W s) (last W s) = true ->
    iter W launch launch_capture lisp bg s (j, next) =
      (St W (mark (world W s)) 1 next (waits W s)
         (trace W s ++ [EPre (cmd j)] ++ [ELaunch (get_job_id (waits W s)) j; EPost (cmd j) 1]), Go).
  Proof.
    intros bg s j argv next X -> G. unfold iter. rewrite G. cbn [negb].
    destruct (exits_plain _ _ X) as [C E]. rewrite C, E, (exits_run _ _ _ X). cbn.
    now rewrite <- app_assoc.
  Qed.

  (** C175 is false of exit: `dsh -c 'exit 0'`, `dsh -c 'exit 3'` and `dsh -c exit` all
      leave with status 1 *)
  Theorem C175_exit_status_refuted : forall w wt j argv op t,
    exits j argv ->
    command_mode W (fun w _ => let (s, r) := run false w wt [(j, op)] in (world W s, r)) w t =
    (mark w, 1).
  Proof.
    intros w wt j argv op t X. unfold command_mode, run, run_jobs.
    cbn [loop]. now rewrite (exit_iter _ _ _ _ _ X) by reflexivity.
  Qed.

  (** C174 is false inside a line, too: in `exit; next` and `exit || next` the next
      command is still started, and the line has its outcome *)
  Theorem C174_exit_in_a_line_refuted : forall w wt j argv op rest,
    exits j argv -> op <> OpAnd ->
    forall n nop, snd (launch (mark w) n) = Some (PCompleted 0) -> capture n = false -> sexprs n = [] ->
    In (ELaunch (get_job_id wt) n) (trace W (fst (run false w wt ((j, op) :: (n, nop) :: rest)))).
  Proof.
    intros w wt j argv op rest X O n nop L C E. unfold run, run_jobs. cbn [loop].
    rewrite (exit_iter _ _ _ _ _ X) by reflexivity. cbn [world waits trace app].
    unfold iter at 1. cbn [gate last world waits trace].
    assert (G : should_run op 1 = true) by (destruct op; congruence || reflexivity).
    rewrite G. cbn [negb]. rewrite C, E.
    destruct (launch (mark w) n) as [w2 r]. cbn in L. subst r.
    match goal with |- In ?e (trace W (fst (loop _ _ _ _ _ ?s _))) =>
      assert (K : forall ls s', In e (trace W s') ->
                  In e (trace W (fst (loop W launch launch_capture lisp false s' ls)))) end.
    { clear. intro ls. induction ls as [|x ls IH]; intros s' I; cbn [loop]; [exact I|].
      assert (M : incl (trace W s') (trace W (fst (iter W launch launch_capture lisp false s' x)))).
      { destruct x as [y nx]. unfold iter. destruct (negb _); cbn; [apply incl_refl|].
        destruct (capture y).
        - destruct (launch_capture _ _) as [w3 [[p o]|]]; cbn; rewrite ?app_assoc; repeat (apply incl_appl); apply incl_refl.
        - destruct (sexprs y) as [|e1 es].
          + destruct (launch _ _) as [w3 [[| |k]|]]; cbn; repeat (apply incl_appl); apply incl_refl.
          + destruct (negb _); cbn; [repeat (apply incl_appl); apply incl_refl|].
            destruct (launch_capture _ _) as [w3 [[p o]|]]; cbn; [|repeat (apply incl_appl); apply incl_refl].
            destruct (negb (capture_code p =? 0) && str_eqb o []); cbn; [repeat (apply incl_appl); apply incl_refl|].
            destruct (lisp w3 e1) as [w4 ok]. destruct ok.
            * destruct (run_lisp W lisp w4 es) as [[w5 r5] t5]. cbn. repeat (apply incl_appl); apply incl_refl.
            * cbn. repeat (apply incl_appl); apply incl_refl. }
      destruct (iter W launch launch_capture lisp false s' x) as [s2 f]. cbn in M.
      destruct f; [apply IH| |]; cbn; apply M, I. }
    apply K. cbn. repeat (rewrite in_app_iff; cbn). tauto.
  Qed.

  (** in `exit && next` it is not: exit counts as having failed *)
  Theorem C174_exit_and_next : forall w wt j argv n nop,
    exits j argv ->
    ~ exists id, In (ELaunch id n) (trace W (fst (run false w wt [(j, OpAnd); (n, nop)]))) /\ n <> j.
  Proof.
    intros w wt j argv n nop X (id & H & D). revert H. unfold run, run_jobs. cbn [loop].
    rewrite (exit_iter _ _ _ _ _ X) by reflexivity. cbn. intuition congruence.
  Qed.
End Line.

(** ** Leaving the prompt *)
(** no request to leave is pending *)
Definition calm (r : repl) : Prop := exited r = false /\ should_exit r = false.

Definition asks (debug : bool) (t : turn) : bool :=
  match got t with Interrupt s => debug && s | _ => false end.
Definition keeps (t : turn) : bool := match got t with Enter true => false | _ => true end.

Lemma handled : forall debug r t,
  forget (time r) (handle debug r t) =
  Repl (waiting t) (exited r || exit_ran t) (should_exit r || asks debug t) (warned r && keeps t)
       (if keeps t then time r else S (time r)).
Proof.
  intros debug r t. unfold forget, handle, asks, keeps.
  destruct (got t) as [[|]| |s| |]; cbn [jobs exited should_exit warned time];
    rewrite ?Nat.eqb_refl, ?orb_false_r, ?andb_true_r, ?andb_false_r; cbn [negb]; try reflexivity.
  replace (S (time r) =? time r) with false by (symmetry; apply Nat.eqb_neq; lia). reflexivity.
Qed.

Lemma turn_view : forall debug r t, calm r -> got t <> Broken ->
  turn_of debug r t =
  let time' := if keeps t then time r else S (time r) in
  let r' := Repl (waiting t) (exit_ran t) (asks debug t) (warned r && keeps t) time' in
  if asks debug t || exit_ran t then
    match waiting t with
    | [] => (r', Leaves)
    | _ => if warned r && keeps t then (r', Leaves)
           else (Repl (waiting t) false false true time', Warns)
    end
  else (r', Stays).
Proof.
  intros debug r t [C1 C2] B. unfold turn_of. rewrite handled, C1, C2. cbn [orb].
  destruct (got t); try congruence; reflexivity.
Qed.

Lemma turn_broken : forall debug r t, got t = Broken ->
  turn_of debug r t = (Repl (waiting t) (exited r) (should_exit r) (warned r) (time r), Leaves).
Proof. intros debug r t H. unfold turn_of. now rewrite H. Qed.

Lemma keeps_iff : forall t, keeps t = true <-> got t <> Enter true.
Proof. intro t. unfold keeps. destruct (got t) as [[|]| |s| |]; split; congruence. Qed.

Lemma is_broken : forall t, got t = Broken \/ got t <> Broken.
Proof. intro t. destruct (got t) as [[|]| |s| |]; (now left) || (right; discriminate). Qed.

Lemma turn_calm : forall debug r t r' v,
  calm r -> turn_of debug r t = (r', v) -> v <> Leaves -> calm r'.
Proof.
  intros debug r t r' v C H L. destruct (is_broken t) as [B|B].
  - rewrite turn_broken in H by exact B. congruence.
  - rewrite turn_view in H by assumption. cbn zeta in H.
    destruct (asks debug t || exit_ran t) eqn:Q.
    + destruct (waiting t); [congruence|]. destruct (warned r && keeps t); [congruence|].
      injection H as <- <-. now split.
    + apply orb_false_iff in Q as [Q1 Q2]. injection H as <- <-. now split.
Qed.

Lemma turn_jobs : forall debug r t r' v, calm r -> turn_of debug r t = (r', v) -> jobs r' = waiting t.
Proof.
  intros debug r t r' v C H. destruct (is_broken t) as [B|B].
  - rewrite turn_broken in H by exact B. now injection H as <- <-.
  - rewrite turn_view in H by assumption. cbn zeta in H.
    destruct (asks debug t || exit_ran t).
    + destruct (waiting t) eqn:W; [now injection H as <- <-|].
      destruct (warned r && keeps t); now injection H as <- <-.
    + now injection H as <- <-.
Qed.

(** a session step by step *)
Lemma session_leaves : forall debug r t r' rest,
  turn_of debug r t = (r', Leaves) -> session debug r (t :: rest) = ([Leaves], Some (jobs r')).
Proof. intros. cbn [session]. now rewrite H. Qed.

Lemma session_stays : forall debug r t r' v rest,
  turn_of debug r t = (r', v) -> v <> Leaves ->
  session debug r (t :: rest) = (v :: fst (session debug r' rest), snd (session debug r' rest)).
Proof.
  intros debug r t r' v rest H V. cbn [session]. rewrite H.
  destruct v; try congruence; now destruct (session debug r' rest).
Qed.

Lemma verdict_cases : forall v, v = Leaves \/ v <> Leaves.
Proof. destruct v; (now left) || (right; discriminate). Qed.

Lemma left_nonempty : forall debug ts r vs k, session debug r ts = (vs, Some k) -> exists n, length vs = S n.
Proof.
  intros debug [|t ts] r vs k H; [discriminate|].
  destruct (turn_of debug r t) as [r' v] eqn:T. destruct (verdict_cases v) as [->|V].
  - rewrite (session_leaves _ _ _ _ _ T) in H. injection H as <- _. now exists 0.
  - rewrite (session_stays _ _ _ _ _ _ T V) in H. injection H as <- _. now eexists.
Qed.

(** C176: without jobs, running exit leaves at once, and nothing is killed *)
Theorem C176_leaves_without_jobs_partial : forall debug r t rest,
  calm r -> exit_ran t = true -> waiting t = [] ->
  session debug r (t :: rest) = ([Leaves], Some []).
Proof.
  intros debug r t rest C E J.
  destruct (turn_of debug r t) as [r' v] eqn:T.
  assert (v = Leaves) as ->.
  { destruct (is_broken t) as [B|B].
    - rewrite turn_broken in T by exact B. congruence.
    - rewrite turn_view in T by assumption. cbn zeta in T. rewrite E, J, orb_true_r in T. congruence. }
  rewrite (session_leaves _ _ _ _ _ T). now rewrite (turn_jobs _ _ _ _ _ C T), J.
Qed.

(** C176 is false while a job waits.  In a release build, as long as each turn leaves some
    job waiting, typing exit and Enter never ends the session, however often it is done and
    whatever is done in between: each time there is only the warning *)
Theorem C176_exit_never_leaves_refuted : forall ts r,
  calm r ->
  Forall (fun t => waiting t <> [] /\ got t <> Broken /\
                   (exit_ran t = true -> got t = Enter true)) ts ->
  snd (session false r ts) = None /\
  fst (session false r ts) = map (fun t => if exit_ran t then Warns else Stays) ts.
Proof.
  induction ts as [|t ts IH]; intros r C F; [now split|].
  inversion F as [|? ? (J & B & X) F']; subst.
  assert (A : asks false t = false) by (unfold asks; destruct (got t); reflexivity).
  assert (K : exists r', turn_of false r t = (r', if exit_ran t then Warns else Stays)).
  { rewrite turn_view by assumption. cbn zeta. rewrite A. cbn [orb].
    destruct (exit_ran t) eqn:E; [|eauto].
    assert (Q : keeps t = false) by (unfold keeps; now rewrite (X eq_refl)).
    rewrite Q, andb_false_r. destruct (waiting t); [congruence|eauto]. }
  destruct K as [r' K].
  assert (V : (if exit_ran t then Warns else Stays) <> Leaves) by (destruct (exit_ran t); discriminate).
  destruct (IH r' (turn_calm _ _ _ _ _ C K V) F') as [I1 I2].
  rewrite (session_stays _ _ _ _ _ _ K V). cbn [fst snd map]. split; [exact I1|]. now rewrite I2.
Qed.

(** C176: no session is left with jobs waiting unless there was a warning, after which no
    further command was run with Enter (or the terminal is gone) *)
Definition WarnedBefore (ts : list turn) (vs : list verdict) : Prop :=
  exists i, nth_error vs i = Some Warns /\
    forall j t, i < j -> j < length vs -> nth_error ts j = Some t -> got t <> Enter true.

Lemma left_warned : forall debug ts r vs k,
  session debug r ts = (vs, Some k) -> k <> [] ->
  (forall t, nth_error ts (length vs - 1) = Some t -> got t <> Broken) ->
  calm r ->
  WarnedBefore ts vs \/
  warned r = true /\ (forall j t, j < length vs -> nth_error ts j = Some t -> got t <> Enter true).
Proof.
  intros debug ts. induction ts as [|t ts IH]; intros r vs k H K B C; [discriminate|].
  destruct (turn_of debug r t) as [r' v] eqn:T. destruct (verdict_cases v) as [->|V].
  - rewrite (session_leaves _ _ _ _ _ T) in H. injection H as <- <-. right.
    cbn in B. specialize (B t eq_refl). rewrite (turn_jobs _ _ _ _ _ C T) in K.
    rewrite turn_view in T by assumption. cbn zeta in T.
    destruct (asks debug t || exit_ran t); [|discriminate].
    destruct (waiting t); [congruence|].
    destruct (warned r && keeps t) eqn:Q; [|discriminate]. apply andb_true_iff in Q as [Q1 Q2].
    split; [exact Q1|]. intros [|j] u L N; cbn in L; [|lia]. injection N as <-. now apply keeps_iff.
  - rewrite (session_stays _ _ _ _ _ _ T V) in H. injection H as <- S2.
    set (vs' := fst (session debug r' ts)) in *.
    assert (Q : session debug r' ts = (vs', Some k)).
    { unfold vs'. rewrite <- S2. now destruct (session debug r' ts). }
    destruct (left_nonempty _ _ _ _ _ Q) as [n L].
    assert (Bt : got t <> Broken).
    { intro X. rewrite turn_broken in T by exact X. congruence. }
    destruct (IH r' vs' k Q K) as [(i & N & A)|(Wd & A)].
    + intros u N. apply B. cbn [length]. rewrite L in N |- *. cbn in N |- *. now rewrite Nat.sub_0_r in N.
    + eapply turn_calm; eauto.
    + left. exists (S i). split; [exact N|]. intros [|j] u L1 L2 N'; [lia|].
      cbn in L2, N'. eapply A; [| |exact N']; lia.
    + rewrite turn_view in T by assumption. cbn zeta in T.
      assert (Z : v = Warns \/ v = Stays) by (destruct v; auto; congruence).
      destruct Z as [->| ->].
      * left. exists 0. split; [reflexivity|]. intros [|j] u L1 L2 N'; [lia|].
        cbn in L2, N'. eapply A; [|exact N']; lia.
      * right. destruct (asks debug t || exit_ran t).
        { destruct (waiting t); [discriminate|]. destruct (warned r && keeps t); discriminate. }
        injection T as <-. cbn in Wd. apply andb_true_iff in Wd as [Q1 Q2]. split; [exact Q1|].
        intros [|j] u L1 N'; [injection N' as <-; now apply keeps_iff|].
        cbn in L1, N'. eapply A; [|exact N']; lia.
Qed.

Theorem C176_not_without_warning : forall debug ts vs k,
  session debug fresh ts = (vs, Some k) -> k <> [] ->
  (forall t, nth_error ts (length vs - 1) = Some t -> got t <> Broken) ->
  WarnedBefore ts vs.
Proof.
  intros debug ts vs k H K B.
  destruct (left_warned debug ts fresh vs k H K B) as [A|[A _]]; [now split|exact A|discriminate].
Qed.

(** C176: the turn that leaves: the jobs still waiting after it are killed, and it ran exit,
    or Ctrl+C was pressed twice in a debug build, or the terminal is gone *)
Theorem C176_left_on_request : forall debug ts r vs k,
  calm r -> session debug r ts = (vs, Some k) ->
  exists t, nth_error ts (length vs - 1) = Some t /\ k = waiting t /\
    (exit_ran t = true \/ (debug = true /\ got t = Interrupt true) \/ got t = Broken).
Proof.
  intros debug ts. induction ts as [|t ts IH]; intros r vs k C H; [discriminate|].
  destruct (turn_of debug r t) as [r' v] eqn:T. destruct (verdict_cases v) as [->|V].
  - rewrite (session_leaves _ _ _ _ _ T) in H. injection H as <- <-. exists t.
    split; [reflexivity|]. split; [exact (turn_jobs _ _ _ _ _ C T)|].
    destruct (is_broken t) as [B|B]; [auto|].
    rewrite turn_view in T by assumption. cbn zeta in T.
    destruct (exit_ran t); [now left|right; left]. rewrite orb_false_r in T.
    unfold asks in T. destruct (got t) as [[|]| |s| |]; try discriminate T.
    destruct debug, s; try discriminate T. now split.
  - rewrite (session_stays _ _ _ _ _ _ T V) in H. injection H as <- S2.
    assert (Q : session debug r' ts = (fst (session debug r' ts), Some k)).
    { rewrite <- S2. now destruct (session debug r' ts). }
    destruct (left_nonempty _ _ _ _ _ Q) as [n L].
    destruct (IH _ _ _ (turn_calm _ _ _ _ _ C T V) Q) as (u & N & A). exists u. split; [|exact A].
    cbn [length]. rewrite L in N |- *. cbn in N |- *. now rewrite Nat.sub_0_r in N.
Qed.

(** ** Examples *)
Section Examples.
  (** commands that fail are those that start with `false`; the state counts commands *)
  Let ev (w : nat) (c : str) : nat * option nat :=
    (S w, if starts_with (lit "false") c then None else Some 0).

  (** blanks are dropped, a failing line does not stop the script, `exit 3` does not end it,
      and ` exit ` does *)
  Example script_runs :
    script nat ev 0 [Some (lit "a"); Some (lit "  "); Some (lit " false x "); Some (lit "exit 3");
                     Some (lit "b"); Some (lit " exit "); Some (lit "c")] =
    (4, [lit "a"; lit "false x"; lit "exit 3"; lit "b"], [Trouble (lit "false x")]).
  Proof. vm_compute. reflexivity. Qed.

  Example commands_hyp : Commands [Some (lit "a")] [lit "a"] /\ trim (lit "exit 3") <> [] /\
    trim (lit "exit 3") <> lit "exit".
  Proof.
    split; [|split; vm_compute; discriminate].
    change [lit "a"] with [trim (lit "a")]. apply a_line; [vm_compute; discriminate..|constructor].
  Qed.

  Example unreadable : script nat ev 0 [Some (lit "a"); None; Some (lit "b")] = (1, [lit "a"], [Unreadable]).
  Proof. vm_compute. reflexivity. Qed.

  (** `dsh -c` with an error, and with a code *)
  Example statuses : command_mode nat ev 0 (lit "false") = (1, 1) /\ command_mode nat ev 0 (lit "a") = (1, 0).
  Proof. split; vm_compute; reflexivity. Qed.

  (** a job is started, and exit typed three times: three warnings, and no end *)
  Example never_left :
    session false fresh
      [Turn (Enter true) false [7]; Turn (Enter true) true [7]; Turn Other false [7];
       Turn (Enter true) true [7]; Turn (Enter true) true [7]] =
    ([Stays; Warns; Stays; Warns; Warns], None).
  Proof. vm_compute. reflexivity. Qed.

  Example never_left_hyp : calm fresh /\
    Forall (fun t => waiting t <> [] /\ got t <> Broken /\ (exit_ran t = true -> got t = Enter true))
      [Turn (Enter true) false [7]; Turn (Enter true) true [7]; Turn Other false [7]].
  Proof. split; [now split|]. repeat (constructor; [cbn; intuition congruence|]). constructor. Qed.

  (** run in the background instead (Alt+Enter), the second exit leaves, and the job is killed *)
  Example left_in_background :
    session false fresh
      [Turn (Enter true) false [7]; Turn (Enter true) true [7]; Turn Background true [7]] =
    ([Stays; Warns; Leaves], Some [7]).
  Proof. vm_compute. reflexivity. Qed.

  Example left_when_done :
    session false fresh [Turn (Enter true) false [7]; Turn (Enter true) true [7]; Turn Other false [];
                         Turn (Enter true) true []] =
    ([Stays; Warns; Stays; Leaves], Some []).
  Proof. vm_compute. reflexivity. Qed.

  (** `exit; x`, with exit run as the code runs it *)
  Let exit_job := Eval_Model.Job (lit "exit 3") true false [] true.
  Let x_job := Eval_Model.Job (lit "x") true false [] true.
  Let la (w : bool) (j : Eval_Model.job) : bool * option Eval_Model.pstate :=
    if str_eqb (cmd j) (lit "exit 3") then (true, Some (PCompleted 1)) else (w, Some (PCompleted 0)).
  Let ex (j : Eval_Model.job) (argv : list str) : Prop :=
    j = exit_job /\ argv = [lit "exit"; lit "3"].

  Example line_hyp : forall w j argv, ex j argv ->
    la w j = (let (w', e) := exit_builtin (fun _ => true) argv w in (w', seen (builtin_state e))).
  Proof. intros w j argv [-> _]. reflexivity. Qed.

  Example line_goes_on :
    trace bool (fst (run_jobs bool la (fun w _ => (w, None)) (fun w _ => (w, true)) false false []
      [(exit_job, OpNone); (x_job, OpNone)])) =
    [EPre (lit "exit 3"); ELaunch 1 exit_job; EPost (lit "exit 3") 1;
     EPre (lit "x"); ELaunch 1 x_job; EPost (lit "x") 0].
  Proof. vm_compute. reflexivity. Qed.
End Examples.

Print Assumptions C173_one_reading.
Print Assumptions C173_every_line_in_order.
Print Assumptions C173_runs_iff.
Print Assumptions C174_exit_alone_partial.
Print Assumptions C174_exit_with_a_status_refuted.
Print Assumptions C174_exit_in_a_line_refuted.
Print Assumptions C174_exit_and_next.
Print Assumptions C175_command_status.
Print Assumptions C175_success.
Print Assumptions C175_lisp_status.
Print Assumptions C175_only_one_is_run.
Print Assumptions C175_script_status_refuted.
Print Assumptions C175_exit_status_refuted.
Print Assumptions C176_leaves_without_jobs_partial.
Print Assumptions C176_exit_never_leaves_refuted.
Print Assumptions C176_not_without_warning.
Print Assumptions C176_left_on_request.
