(** C271: the time limit of the commands that complete arguments. *)
From Verif Require Import Base Limit_Model Limit_Spec.

Section Limit.
Variables (cap : nat) (limit : N) (utf8 : list N -> option str).
Notation step := (step cap limit utf8).
Notation run := (run cap limit utf8).

Lemma run_app s a b : run s (a ++ b) = match run s a with Some s' => run s' b | None => None end.
Proof. revert s. induction a as [|e a IH]; intros s; [reflexivity|]. cbn. destruct (step s e); auto. Qed.
Lemma output_app a b : output (a ++ b) = output a ++ output b.
Proof. induction a as [|e a IH]; [reflexivity|]. destruct e; cbn; rewrite IH; try reflexivity. apply app_assoc. Qed.

(** What holds in every state that can be reached *)
Record Inv (s : st) (es : list event) : Prop := {
  inv_bytes : got s ++ pipe s = output es;
  inv_join : forall b, stage s = Joining b -> child s <> Running;
  inv_early : (clock s < limit)%N -> child s = Exited false -> In (Exit false) es;
  inv_ok : child s = Exited true -> In (Exit true) es;
  inv_done : forall r, stage s = Done r -> writers s = 0 /\ pipe s = []
    /\ (r = Some [] \/ (child s = Exited true /\ r = utf8 (got s)) \/ (r = None /\ utf8 (got s) = None)) }.
Lemma inv_step s es e s' : Inv s es -> step s e = Some s' -> Inv s' (es ++ [e]).
Proof.
  intros [I1 I2 I3 I4 I5] E. destruct s as [c h p g t ph]. cbn [child helpers pipe got clock stage] in *.
  destruct e as [b| |ok'| |ms| | |]; cbn [Limit_Model.step child helpers pipe got clock stage] in E.
  - destruct ((1 <=? writers _) && _) eqn:W in E; [|discriminate E]. injection E as <-. apply andb_true_iff in W as [W _]. apply Nat.leb_le in W.
    split; cbn [child helpers pipe got clock stage]; auto.
    + rewrite output_app. cbn. rewrite app_nil_r, app_assoc, I1. reflexivity.
    + intros X Y. apply in_or_app. left. auto.
    + intros X. apply in_or_app. left. auto.
    + intros r X. destruct (I5 r X) as [Y _]. unfold writers in *. cbn in *. lia.
  - destruct (1 <=? writers _) eqn:W in E; [|discriminate E]. injection E as <-. apply Nat.leb_le in W.
    split; cbn [child helpers pipe got clock stage]; auto.
    + rewrite output_app. cbn. rewrite app_nil_r. exact I1.
    + intros X Y. apply in_or_app. left. auto.
    + intros X. apply in_or_app. left. auto.
    + intros r X. destruct (I5 r X) as [Y _]. unfold writers in *. cbn in *. lia.
  - destruct c as [|ok0]; [|discriminate E]. injection E as <-.
    split; cbn [child helpers pipe got clock stage]; auto.
    + rewrite output_app. cbn. rewrite app_nil_r. exact I1.
    + intros b X. discriminate.
    + intros X [= ->]. apply in_or_app. right. left. reflexivity.
    + intros [= ->]. apply in_or_app. right. left. reflexivity.
    + intros r X. destruct (I5 r X) as [Y _]. unfold writers in *. cbn in *. lia.
  - destruct h as [|n]; [discriminate E|]. injection E as <-.
    split; cbn [child helpers pipe got clock stage]; auto.
    + rewrite output_app. cbn. rewrite app_nil_r. exact I1.
    + intros X Y. apply in_or_app. left. auto.
    + intros X. apply in_or_app. left. auto.
    + intros r X. destruct (I5 r X) as [Y _]. unfold writers in *. cbn in *. lia.
  - injection E as <-.
    split; cbn [child helpers pipe got clock stage]; auto.
    + rewrite output_app. cbn. rewrite app_nil_r. exact I1.
    + intros X Y. apply in_or_app. left. apply I3; [lia|exact Y].
    + intros X. apply in_or_app. left. auto.
  - destruct p as [|x p]; [discriminate E|]. injection E as <-.
    split; cbn [child helpers pipe got clock stage]; auto.
    + rewrite output_app. cbn. rewrite !app_nil_r. exact I1.
    + intros X Y. apply in_or_app. left. auto.
    + intros X. apply in_or_app. left. auto.
    + intros r X. destruct (I5 r X) as (_ & Y & _). discriminate Y.
  - destruct ph as [|b|r]; try discriminate E. destruct c as [|ok0].
    + destruct (limit <=? t)%N eqn:L; [|discriminate E]. injection E as <-. apply N.leb_le in L.
      split; cbn [child helpers pipe got clock stage]; auto.
      * rewrite output_app. cbn. rewrite app_nil_r. exact I1.
      * intros b _. discriminate.
      * intros X. lia.
      * discriminate.
      * discriminate.
    + injection E as <-. split; cbn [child helpers pipe got clock stage]; auto.
      * rewrite output_app. cbn. rewrite app_nil_r. exact I1.
      * intros b _. discriminate.
      * intros X Y. apply in_or_app. left. auto.
      * intros X. apply in_or_app. left. auto.
      * discriminate.
  - destruct ph as [|b|r]; try discriminate E. destruct (writers _) eqn:W in E; [|discriminate E]. destruct p as [|x p]; [|discriminate E]. injection E as <-.
    unfold writers in W. cbn in W. assert (h = 0) as -> by lia.
    split; cbn [child helpers pipe got clock stage]; auto.
    + rewrite output_app. cbn. rewrite !app_nil_r. rewrite app_nil_r in I1. exact I1.
    + discriminate.
    + intros X Y. apply in_or_app. left. auto.
    + intros X. apply in_or_app. left. auto.
    + intros r [= <-]. split; [exact W|]. split; [reflexivity|]. destruct b; [|auto].
      destruct (utf8 g) as [x|] eqn:U; [|auto]. destruct c as [|[|]]; auto.
Qed.
Lemma inv_run es s : run start es = Some s -> Inv s es.
Proof.
  revert s. induction es as [|e es IH] using rev_ind; intros s H.
  - injection H as <-. split; cbn; auto; discriminate.
  - rewrite run_app in H. destruct (run start es) as [s0|]; [|discriminate H]. cbn in H. destruct (step s0 e) as [s1|] eqn:E; [|discriminate H].
    injection H as <-. exact (inv_step s0 es e s1 (IH s0 eq_refl) E).
Qed.

(** C271: the result is all that was written, if the command ended well, or nothing; text that is not UTF-8 is an error. *)
Theorem C271_result es s r : run start es = Some s -> stage s = Done r ->
  r = Some [] \/ (In (Exit true) es /\ r = utf8 (output es)) \/ (r = None /\ utf8 (output es) = None).
Proof.
  intros H D. destruct (inv_run es s H) as [I1 I2 I3 I4 I5]. destruct (I5 r D) as (_ & P & [R|[[C R]|[R U]]]); auto.
  - right. left. rewrite P, app_nil_r in I1. rewrite <- I1. auto.
  - right. right. rewrite P, app_nil_r in I1. rewrite <- I1. auto.
Qed.
(** C271: a command that ends well before the time is looked at loses nothing. *)
Lemma kept_run es s s' : stage s = Joining true -> child s = Exited true -> run s es = Some s' ->
  child s' = Exited true /\ (stage s' = Joining true \/ (exists r, stage s' = Done r /\ r = utf8 (got s') /\ writers s' = 0 /\ pipe s' = [])).
Proof.
  intros S C. induction es as [|e es IH] using rev_ind in s' |- *; intros H.
  - injection H as <-. auto.
  - rewrite run_app in H. destruct (run s es) as [s0|]; [|discriminate H]. destruct (IH s0 eq_refl) as [C0 S0]. clear IH.
    cbn in H. destruct (step s0 e) as [s1|] eqn:E; [|discriminate H]. injection H as <-. destruct s0 as [c h p g t ph]. cbn in C0, S0. subst c.
    destruct e as [b| |ok'| |ms| | |]; cbn [Limit_Model.step child helpers pipe got clock stage] in E.
    + destruct ((1 <=? writers _) && _) eqn:W in E; [|discriminate E]. injection E as <-. apply andb_true_iff in W as [W _]. apply Nat.leb_le in W. cbn. split; [reflexivity|].
      destruct S0 as [S0|(r & _ & _ & X & _)]; [auto|]. unfold writers in *. cbn in *. lia.
    + destruct (1 <=? writers _) eqn:W in E; [|discriminate E]. injection E as <-. apply Nat.leb_le in W. cbn. split; [reflexivity|].
      destruct S0 as [S0|(r & _ & _ & X & _)]; [auto|]. unfold writers in *. cbn in *. lia.
    + discriminate E.
    + destruct h as [|n]; [discriminate E|]. injection E as <-. cbn. split; [reflexivity|].
      destruct S0 as [S0|(r & _ & _ & X & _)]; [auto|]. unfold writers in *. cbn in *. lia.
    + injection E as <-. cbn. split; [reflexivity|]. exact S0.
    + destruct p as [|x p]; [discriminate E|]. injection E as <-. cbn. split; [reflexivity|].
      destruct S0 as [S0|(r & _ & _ & _ & X)]; [auto|]. discriminate X.
    + destruct ph as [|b|r]; try discriminate E. destruct S0 as [S0|(r & X & _)]; discriminate.
    + destruct ph as [|b|r]; try discriminate E. destruct S0 as [S0|(r & X & _)]; [|discriminate X]. injection S0 as ->.
      destruct (writers _) eqn:W in E; [|discriminate E]. destruct p as [|x p]; [|discriminate E]. injection E as <-.
      cbn. split; [reflexivity|]. right. destruct (utf8 g); eexists; repeat split.
Qed.
Theorem C271_kept a b s0 s r : run start a = Some s0 -> child s0 = Exited true -> stage s0 = Waiting ->
  run start (a ++ Wait :: b) = Some s -> stage s = Done r -> r = utf8 (output (a ++ b)).
Proof.
  intros A C W H D. pose proof (inv_run _ _ H) as [I1 _ _ _ _]. rewrite run_app, A in H. cbn [Limit_Model.run] in H.
  destruct (step s0 Wait) as [s1|] eqn:E; [|discriminate H]. cbn [Limit_Model.step] in E. rewrite W, C in E. injection E as <-.
  destruct (kept_run b (St (Exited true) (helpers s0) (pipe s0) (got s0) (clock s0) (Joining true)) s eq_refl eq_refl H) as [_ [X|(r' & X & R & _ & P)]]; rewrite D in X; [discriminate X|]. injection X as <-.
  rewrite P, app_nil_r in I1. rewrite R, I1, !output_app. reflexivity.
Qed.
(** C271: the shell does not end the command before the time is over. *)
Theorem C271_patient es s : run start es = Some s -> (clock s < limit)%N -> child s = Exited false -> In (Exit false) es.
Proof. intros H. exact (inv_early s es (inv_run es s H)). Qed.
(** C271: when the command has ended or the time is over, and nobody else holds its output, the shell goes on by at most three steps of its own. *)
Theorem C271_ends es s : run start es = Some s -> helpers s = 0 -> child s <> Running \/ (limit <= clock s)%N ->
  exists more s', Forall own more /\ length more <= 3 /\ run s more = Some s' /\ over s'.
Proof.
  intros H N0 C. destruct (inv_run es s H) as [_ I2 _ _ _]. destruct s as [c h p g t ph]. cbn [child helpers pipe got clock stage] in *. subst h.
  assert (J : forall c g t b, c <> Running -> exists s', run (St c 0 [] g t (Joining b)) [Join] = Some s' /\ over s').
  { intros c0 g0 t0 b0 N. destruct c0 as [|ok]; [congruence|]. eexists. split; [reflexivity|]. eexists. reflexivity. }
  assert (R : forall c p g t b, c <> Running -> exists more s', Forall own more /\ length more <= 2 /\ run (St c 0 p g t (Joining b)) more = Some s' /\ over s').
  { intros c0 p0 g0 t0 b0 N. destruct p0 as [|x p0].
    - destruct (J c0 g0 t0 b0 N) as (s' & E & O). exists [Join], s'. split; [repeat (apply Forall_cons || apply Forall_nil); unfold own; auto|]. split; [cbn; lia|]. auto.
    - destruct (J c0 (g0 ++ x :: p0) t0 b0 N) as (s' & E & O). exists [Read; Join], s'. split; [repeat (apply Forall_cons || apply Forall_nil); unfold own; auto|]. split; [cbn; lia|].
      split; [|exact O]. rewrite <- E. reflexivity. }
  destruct ph as [|b|r].
  - assert (W : exists c' b', step (St c 0 p g t Waiting) Wait = Some (St c' 0 p g t (Joining b')) /\ c' <> Running).
    { cbn. destruct c as [|ok].
      - destruct C as [C|C]; [congruence|]. apply N.leb_le in C. rewrite C. eexists _, _. split; [reflexivity|discriminate].
      - eexists _, _. split; [reflexivity|discriminate]. }
    destruct W as (c' & b' & E & N). destruct (R c' p g t b' N) as (more & s' & F & L & E' & O).
    exists (Wait :: more), s'. split; [constructor; [unfold own; auto|exact F]|]. split; [cbn; lia|]. split; [|exact O].
    cbn [Limit_Model.run]. rewrite E. exact E'.
  - destruct (R c p g t b (I2 b eq_refl)) as (more & s' & F & L & E' & O). exists more, s'. split; [exact F|]. split; [lia|]. auto.
  - exists [], (St c 0 p g t (Done r)). split; [constructor|]. split; [cbn; lia|]. split; [reflexivity|]. exists r. reflexivity.
Qed.
(** C271: a command that prints a lot is never stuck: the shell makes room. *)
Theorem C271_room s b : 1 <= writers s -> length b <= cap -> exists more, Forall own more /\ run s (more ++ [Write b]) <> None.
Proof.
  intros W L. destruct s as [c h p g t ph]. destruct p as [|x p].
  - exists []. split; [constructor|]. cbn [app Limit_Model.run Limit_Model.step pipe length Nat.add]. apply Nat.leb_le in W, L. rewrite W, L. discriminate.
  - exists [Read]. split; [repeat (apply Forall_cons || apply Forall_nil); unfold own; auto|]. cbn [app Limit_Model.run Limit_Model.step pipe child helpers got clock stage].
    unfold writers in *. cbn [helpers child] in *. apply Nat.leb_le in W, L. cbn [length Nat.add]. rewrite W, L. discriminate.
Qed.
(** C271 does not hold as it stands: as long as a process that the command left behind holds its output, the shell waits, whatever
    the time, and also when the command itself has ended. *)
Theorem C271_left_refuted es s s' : 0 < helpers s -> ~ over s -> ~ In HelperExit es -> run s es = Some s' -> ~ over s' /\ 0 < helpers s'.
Proof.
  revert s. induction es as [|e es IH]; intros s H O N R; [injection R as <-; auto|].
  cbn [Limit_Model.run] in R. destruct (step s e) as [s1|] eqn:E; [|discriminate R].
  assert (K : 0 < helpers s1 /\ ~ over s1).
  { destruct s as [c h p g t ph]. unfold over in *. cbn [child helpers pipe got clock stage] in *.
    destruct e as [b| |ok'| |ms| | |]; cbn [Limit_Model.step child helpers pipe got clock stage] in E.
    - destruct (_ && _) in E; [|discriminate E]. injection E as <-. auto.
    - destruct (1 <=? _) in E; [|discriminate E]. injection E as <-. cbn. split; [lia|exact O].
    - destruct c; [|discriminate E]. injection E as <-. auto.
    - destruct N. left. reflexivity.
    - injection E as <-. auto.
    - destruct p; [discriminate E|]. injection E as <-. auto.
    - destruct ph; try discriminate E. destruct c.
      + destruct (limit <=? t)%N; [|discriminate E]. injection E as <-. cbn. split; [exact H|]. intros [r X]. discriminate X.
      + injection E as <-. cbn. split; [exact H|]. intros [r X]. discriminate X.
    - destruct ph; try discriminate E. unfold writers in E. cbn [helpers child] in E. destruct h; [lia|]. discriminate E. }
  destruct K as [K1 K2]. apply (IH s1); auto. intros X. apply N. right. exact X.
Qed.
End Limit.

Definition ascii_only (b : list N) : option str := if forallb (fun x => (x <? 128)%N) b then Some b else None.
Example C271_ex : exists s, run 4 2000 ascii_only start [Write (lit "ab"); Read; Write (lit "cd"); Pass 10; Exit true; Wait; Read; Join] = Some s /\ stage s = Done (Some (lit "abcd")).
Proof. eexists. split; reflexivity. Qed.
Example C271_slow_ex : exists s, run 4 2000 ascii_only start [Write (lit "ab"); Pass 2000; Wait; Read; Join] = Some s /\ stage s = Done (Some []).
Proof. eexists. split; reflexivity. Qed.
(** sh -c "sleep 1000 & echo x" *)
Example C271_left_ex : exists s, run 4 2000 ascii_only start [Spawn; Write (lit "x"); Exit true; Wait; Read; Pass 999999] = Some s /\ helpers s = 1 /\ stage s = Joining true.
Proof. eexists. repeat split. Qed.

Print Assumptions C271_result. Print Assumptions C271_kept. Print Assumptions C271_patient. Print Assumptions C271_ends. Print Assumptions C271_room. Print Assumptions C271_left_refuted.
