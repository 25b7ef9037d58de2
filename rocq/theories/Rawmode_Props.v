(** C250-C252: the mode of the terminal. *)
From Verif Require Import Base Rawmode_Model Rawmode_Spec.

Lemma run_job_spec interactive bg j raw code during after c f : run_job interactive bg j raw code = (during, after, c, f) ->
  (during = true <-> Own_terminal interactive bg j) /\ (after = false <-> interactive = false \/ Stuck j) /\ (f = Fail <-> ends j = Failed /\ ~ (kind_of j = Structured /\ process j = false)).
Proof.
  unfold run_job, launch, Own_terminal, Stuck. intros E.
  destruct j as [k fg bi pt pr en si wr th]; cbn in *. destruct k; destruct interactive, bg, fg, bi, pt, pr; destruct en; cbn in E; injection E as <- <- _ <-;
  (split; [split; [intros X; first [discriminate X|repeat split; reflexivity]|intros (? & ? & ? & ? & ? & ?); first [reflexivity|congruence]]|
   split; [split; [intros X; first [discriminate X|left; reflexivity|right; left; split; reflexivity|right; right; split; [discriminate|reflexivity]]|
                   intros [X|[(X & Y)|(X & Y)]]; first [reflexivity|congruence]]|
           split; [intros X; first [discriminate X|split; [reflexivity|intros (? & ?); congruence]]|intros (X & Y); first [reflexivity|congruence|exfalso; apply Y; split; reflexivity]]]]).
Qed.
(** ** C251: while commands run *)
(** A job runs with the terminal in raw mode exactly when it has a terminal of its own; all others find it as programs expect it. *)
Theorem C251_during : forall interactive bg l raw j m, In (j, m) (fst (eval_str interactive bg l raw)) -> (m = true <-> Own_terminal interactive bg j).
Proof.
  intros interactive bg [|subs parses v js] raw j m; [intros []|]. cbn [eval_str]. destruct (subshells subs raw) as [ok raw1]. destruct (negb (ok && parses)); [intros []|].
  destruct v; try (intros []; fail). generalize OpNone as g, 0 as code. revert raw1. induction js as [|x js IH]; intros raw1 g code H; [destruct H|]. cbn [run_jobs] in H.
  destruct (should_run g code); [|exact (IH _ _ _ H)].
  destruct (run_job interactive bg x raw1 code) as [[[during raw'] code'] f] eqn:E. apply run_job_spec in E as (D & _).
  destruct f; [destruct (run_jobs interactive bg (then_op x) code' raw' js) as [log r2] eqn:R|idtac|idtac]; cbn [fst] in H.
  - destruct H as [H|H]; [injection H as <- <-; exact D|]. apply (IH raw' (then_op x) code'). rewrite R. exact H.
  - destruct H as [H|[]]. injection H as <- <-. exact D.
  - destruct H as [H|[]]. injection H as <- <-. exact D.
Qed.
(** In a script none runs in raw mode. *)
Theorem C251_script : forall bg l raw j m, In (j, m) (fst (eval_str false bg l raw)) -> m = false.
Proof. intros bg l raw j [|] H; [|reflexivity]. apply C251_during in H. destruct (proj1 H eq_refl) as (_ & X & _). discriminate X. Qed.

(** ** C250: after a line *)
Lemma run_jobs_after interactive bg : forall js g code raw log after, run_jobs interactive bg g code raw js = (log, after) ->
  (log = [] /\ after = raw) \/ exists before j m, log = before ++ [(j, m)] /\ (after = false <-> interactive = false \/ Stuck j).
Proof.
  induction js as [|x js IH]; intros g code raw log after E; cbn [run_jobs] in E; [injection E as <- <-; auto|].
  destruct (should_run g code); [|exact (IH _ _ _ _ _ E)].
  destruct (run_job interactive bg x raw code) as [[[during raw'] code'] f] eqn:RJ. apply run_job_spec in RJ as (_ & A & _).
  destruct f; [destruct (run_jobs interactive bg (then_op x) code' raw' js) as [log' r2] eqn:R|idtac|idtac]; injection E as <- <-; right.
  - destruct (IH _ _ _ _ _ R) as [(-> & ->)|(before & j & m & -> & H)].
    + exists [], x, during. auto.
    + exists ((x, during) :: before), j, m. auto.
  - exists [], x, during. auto.
  - exists [], x, during. auto.
Qed.
Lemma subshells_spec subs raw : (Spawned subs /\ subshells subs raw = (true, match subs with [] => raw | _ => true end)) \/ (~ Spawned subs /\ subshells subs raw = (false, false)).
Proof.
  unfold Spawned. revert raw. induction subs as [|b subs IH]; intros raw; cbn [subshells]; [left; split; [intros []|reflexivity]|].
  destruct b; [|right; split; [intros H; apply H; left; reflexivity|reflexivity]].
  destruct (IH true) as [(A & B)|(A & B)]; rewrite B.
  - left. split; [intros [X|X]; [discriminate|auto]|]. destruct subs; reflexivity.
  - right. split; [intros X; apply A; intros Y; apply X; right; exact Y|reflexivity].
Qed.
(** After a line of an interactive session the terminal is in raw mode, unless a command substitution could not be started, or
    the last job that was reached is one with |> that could not be started, or one with |: that could not or has no command. *)
Theorem C250_after_partial : forall bg l raw,
  snd (eval_str true bg l true) = false <->
  match l with
  | Chat => False
  | Commands subs parses v js => ~ Spawned subs \/ exists before j m, fst (eval_str true bg l raw) = before ++ [(j, m)] /\ Stuck j
  end.
Proof.
  intros bg [|subs parses v js] raw; [cbn; split; [discriminate|tauto]|]. cbn [eval_str].
  assert (RAW : forall js g code r1 r2, fst (run_jobs true bg g code r1 js) = fst (run_jobs true bg g code r2 js)).
  { clear. induction js as [|x js IH]; intros g code r1 r2; [reflexivity|]. cbn [run_jobs]. destruct (should_run g code); [|apply IH].
    assert (E : run_job true bg x r1 code = run_job true bg x r2 code) by reflexivity. rewrite E. reflexivity. }
  destruct (subshells_spec subs true) as [(A & B)|(A & B)], (subshells_spec subs raw) as [(A' & B')|(A' & B')]; try contradiction; rewrite B, B'.
  - replace (match subs with [] => true | _ => true end) with true by (destruct subs; reflexivity). set (r1 := match subs with [] => raw | _ => true end).
    destruct parses; cbn [andb negb].
    + destruct v; cbn [fst snd]; try (split; [discriminate|intros [X|(b & j & m & X & _)]; [contradiction|destruct b; discriminate X]]).
      rewrite (RAW js OpNone 0 r1 true). destruct (run_jobs true bg OpNone 0 true js) as [log after] eqn:R. cbn [fst snd].
      destruct (run_jobs_after _ _ _ _ _ _ _ _ R) as [(-> & ->)|(before & j & m & -> & H)].
      * split; [discriminate|intros [X|(b & j & m & X & _)]; [contradiction|destruct b; discriminate X]].
      * rewrite H. split; [intros [X|X]; [discriminate|right; eauto]|].
        intros [X|(b & j' & m' & X & Y)]; [contradiction|]. right. apply app_inj_tail in X as (_ & X). injection X as -> _. exact Y.
    + cbn [fst snd]. split; [discriminate|intros [X|(b & j & m & X & _)]; [contradiction|destruct b; discriminate X]].
  - cbn [andb negb fst snd]. split; [auto|reflexivity].
Qed.
(** Whatever the mode was, it is raw after a line whose last job reached is none of these. *)
Theorem C250_back : forall bg l raw before j m, fst (eval_str true bg l raw) = before ++ [(j, m)] -> ~ Stuck j -> snd (eval_str true bg l raw) = true.
Proof.
  intros bg [|subs parses v js] raw before j m; [intros X; destruct before; discriminate X|]. cbn [eval_str]. destruct (subshells subs raw) as [ok raw1].
  destruct (negb (ok && parses)); [intros X; destruct before; discriminate X|]. destruct v; try (intros X; destruct before; discriminate X).
  destruct (run_jobs true bg OpNone 0 raw1 js) as [log after] eqn:R. cbn [fst snd]. intros -> S'.
  destruct (run_jobs_after _ _ _ _ _ _ _ _ R) as [(X & _)|(b & j' & m' & X & H)]; [destruct before; discriminate X|].
  apply app_inj_tail in X as (_ & X). injection X as <- _. destruct after; [reflexivity|]. destruct (proj1 H eq_refl) as [Y|Y]; [discriminate|contradiction].
Qed.
(** So with a command that cannot be started before |> the prompt comes back in the wrong mode, and also with |: after nothing. *)
Theorem C250_capture_refuted : forall bg j, kind_of j <> Plain -> ends j = Failed -> snd (eval_str true bg (Commands [] true Allowed [j]) true) = false.
Proof.
  intros bg j K F. apply (C250_after_partial bg (Commands [] true Allowed [j]) true). right.
  assert (L : exists m, fst (eval_str true bg (Commands [] true Allowed [j]) true) = [(j, m)]).
  { cbn [eval_str subshells andb negb run_jobs should_run]. destruct (run_job true bg j true 0) as [[[d r] c] f]. destruct f; eexists; reflexivity. }
  destruct L as (m & L). exists [], j, m. split; [exact L|]. right. auto.
Qed.
Theorem C250_empty_refuted : forall bg j, kind_of j = Structured -> process j = false -> snd (eval_str true bg (Commands [] true Allowed [j]) true) = false.
Proof.
  intros bg j K P. apply (C250_after_partial bg (Commands [] true Allowed [j]) true). right.
  assert (L : exists m, fst (eval_str true bg (Commands [] true Allowed [j]) true) = [(j, m)]).
  { cbn [eval_str subshells andb negb run_jobs should_run]. destruct (run_job true bg j true 0) as [[[d r] c] f]. destruct f; eexists; reflexivity. }
  destruct L as (m & L). exists [], j, m. split; [exact L|]. left. auto.
Qed.

(** ** C252: sessions and scripts *)
(** Every action does one or the other. *)
Theorem C252_each : forall a, (exists b, Sets a b) \/ Keeps a.
Proof.
  intros [l bg|ok| |e p n|sh]; cbn [Sets Keeps].
  - destruct l as [|subs parses v js]; [left; exists true; reflexivity|].
    destruct (snd (eval_str true bg (Commands subs parses v js) true)) eqn:T, (snd (eval_str true bg (Commands subs parses v js) false)) eqn:F.
    + left. exists true. intros [|]; assumption.
    + right. intros [|]; assumption.
    + exfalso. assert (X : snd (eval_str true bg (Commands subs parses v js) false) = false).
      { apply (C250_after_partial bg _ false) in T. destruct T as [T|(b & j & m & L & ST)].
        - cbn [eval_str]. destruct (subshells_spec subs false) as [(A & _)|(_ & B)]; [contradiction|]. rewrite B. reflexivity.
        - revert L. cbn [eval_str]. destruct (subshells subs false) as [ok raw1]. destruct (negb (ok && parses)); [intros X; destruct b; discriminate X|].
          destruct v; try (intros X; destruct b; discriminate X). destruct (run_jobs true bg OpNone 0 raw1 js) as [log after] eqn:R. cbn [fst snd]. intros ->.
          destruct (run_jobs_after _ _ _ _ _ _ _ _ R) as [(X & _)|(b' & j' & m' & X & H)]; [destruct b; discriminate X|].
          apply app_inj_tail in X as (_ & X). injection X as <- _. apply H. right. exact ST. }
      rewrite X in F. discriminate.
    + left. exists false. intros [|]; assumption.
  - left. exists ok. reflexivity.
  - left. exists true. reflexivity.
  - destruct e; [left; exists (p && n); auto|right; reflexivity].
  - destruct sh; [left; exists false; auto|right; reflexivity].
Qed.
Lemma act_sets s a b : over s = false -> Sets a b -> raw_of (act s a) = b.
Proof.
  intros O S'. unfold act. rewrite O. destruct a as [l bg|ok| |e p n|sh]; cbn [Sets] in S'.
  - apply S'.
  - subst. destruct b; reflexivity.
  - subst. reflexivity.
  - destruct S' as (-> & <-). destruct (p && n); reflexivity.
  - destruct S' as (-> & ->). reflexivity.
Qed.
Lemma act_keeps s a : over s = false -> Keeps a -> raw_of (act s a) = raw_of s /\ over (act s a) = false.
Proof.
  intros O K. unfold act. rewrite O. destruct a as [l bg|ok| |e p n|sh]; cbn [Keeps] in K; try contradiction.
  - split; [apply K|reflexivity].
  - subst. split; [reflexivity|exact O].
  - subst. split; [reflexivity|exact O].
Qed.
(** While a session lasts its mode is what the last action that sets it set; it begins raw. *)
Theorem C252_session_partial : forall h a b rest, over (session_after (h ++ [a])) = false -> Sets a b -> Forall Keeps rest -> raw_of (session_after (h ++ a :: rest)) = b.
Proof.
  intros h a b rest O S' K. unfold session_after in *. rewrite fold_left_app in *. cbn [fold_left] in *.
  assert (O' : over (fold_left act h (Session true false)) = false).
  { destruct (over (fold_left act h (Session true false))) eqn:X; [|reflexivity]. unfold act in O at 1. rewrite X in O. congruence. }
  pose proof (act_sets _ _ _ O' S') as R. revert O R. generalize (act (fold_left act h (Session true false)) a) as s.
  induction K as [|k rest KK _ IH]; intros s O R; [exact R|]. cbn [fold_left]. destruct (act_keeps s k O KK) as (A & B). apply IH; [exact B|]. congruence.
Qed.
(** When a session ends by an error, the terminal is left as programs expect it. *)
Theorem C252_end : forall h, over (session_after h) = true -> raw_of (session_after h) = false.
Proof.
  intros h. unfold session_after. cut (forall s, (over s = true -> raw_of s = false) -> over (fold_left act h s) = true -> raw_of (fold_left act h s) = false).
  { intros H. apply H. discriminate. }
  induction h as [|a h IH]; intros s S'; [exact S'|]. cbn [fold_left]. apply IH. unfold act. destruct (over s) eqn:O; [auto|].
  destruct a as [l bg|ok| |e p n|sh]; cbn; try discriminate; try (destruct ok; cbn; congruence).
  - destruct e; cbn; [|congruence]. destruct (p && n); cbn; congruence.
  - destruct sh; cbn; congruence.
Qed.
(** After a diagnosis was shown, the next line is written in the wrong mode. *)
Theorem C252_diagnosis_refuted : forall h, over (session_after h) = false -> raw_of (session_after (h ++ [Diagnoses true])) = false /\ over (session_after (h ++ [Diagnoses true])) = false.
Proof. intros h O. unfold session_after in *. rewrite fold_left_app. cbn [fold_left]. unfold act at 1 3. rewrite O. auto. Qed.
(** A script leaves the terminal as it was, as long as no line with a substitution is refused or has an error after it. *)
Theorem C252_script_partial : forall ls,
  (forall l, In l ls -> match l with Chat => True | Commands subs parses v js => subs = [] \/ (exists before j m, fst (eval_str false false l true) = before ++ [(j, m)]) end) ->
  script_after ls = false.
Proof.
  intros ls. unfold script_after. assert (G : forall ls raw, raw = false ->
  (forall l, In l ls -> match l with Chat => True | Commands subs parses v js => subs = [] \/ (exists before j m, fst (eval_str false false l true) = before ++ [(j, m)]) end) ->
  fold_left (fun raw l => snd (eval_str false false l raw)) ls raw = false); [|intros H; apply G; auto].
  clear ls. induction ls as [|l ls IH]; intros raw -> H; [reflexivity|]. cbn [fold_left]. apply IH; [|intros x X; apply H; right; exact X].
  specialize (H l (or_introl eq_refl)). destruct l as [|subs parses v js]; [reflexivity|]. destruct H as [->|(before & j & m & L)].
  - cbn [eval_str subshells]. destruct parses; cbn [andb negb]; [|reflexivity]. destruct v; try reflexivity.
    destruct (run_jobs false false OpNone 0 false js) as [log after] eqn:R. cbn [snd]. destruct (run_jobs_after _ _ _ _ _ _ _ _ R) as [(_ & ->)|(b & j & m & _ & X)]; [reflexivity|]. apply X. auto.
  - revert L. cbn [eval_str]. destruct (subshells_spec subs true) as [(A & B)|(A & B)], (subshells_spec subs false) as [(A' & B')|(A' & B')]; try contradiction; rewrite B, B'.
    + destruct parses; cbn [andb negb]; [|intros X; destruct before; discriminate X]. destruct v; try (intros X; destruct before; discriminate X).
      destruct subs as [|x subs].
      * intros _. destruct (run_jobs false false OpNone 0 false js) as [log after] eqn:R. cbn [snd]. destruct (run_jobs_after _ _ _ _ _ _ _ _ R) as [(_ & ->)|(b & j' & m' & _ & X)]; [reflexivity|]. apply X. auto.
      * destruct (run_jobs false false OpNone 0 true js) as [log after] eqn:R. cbn [fst snd]. intros ->.
        destruct (run_jobs_after _ _ _ _ _ _ _ _ R) as [(X & _)|(b & j' & m' & _ & X)]; [destruct before; discriminate X|]. apply X. auto.
    + cbn [andb negb]. intros X. destruct before; discriminate X.
Qed.
(** But a line with a command substitution that the safety check refuses leaves the user's terminal raw when the script ends. *)
Theorem C252_script_refuted : forall subs js, subs <> [] -> Spawned subs ->
  script_after [Commands subs true Denied js] = true /\ script_after [Commands subs true Cancelled js] = true /\ forall v, script_after [Commands subs false v js] = true.
Proof.
  intros subs js NE SP. unfold script_after. cbn [fold_left eval_str]. destruct (subshells_spec subs false) as [(_ & B)|(A & _)]; [|contradiction]. rewrite B.
  destruct subs as [|x subs]; [congruence|]. cbn. auto.
Qed.
Print Assumptions C250_after_partial. Print Assumptions C250_back. Print Assumptions C250_capture_refuted. Print Assumptions C250_empty_refuted.
Print Assumptions C251_during. Print Assumptions C251_script.
Print Assumptions C252_each. Print Assumptions C252_session_partial. Print Assumptions C252_end. Print Assumptions C252_diagnosis_refuted. Print Assumptions C252_script_partial. Print Assumptions C252_script_refuted.

Definition vi : job := Job Plain true false true true (Completed 1) false false OpOr.
Definition cd : job := Job Plain true true true true (Completed 0) false false OpNone.
Example C251_case : eval_str true false (Commands [true] true Allowed [vi; cd]) true = ([(vi, true); (cd, false)], true).
Proof. reflexivity. Qed.
Example C252_case : raw_of (session_after [Picks; Diagnoses true; Enters (Commands [] true Denied []) false]) = false /\
  raw_of (session_after [Diagnoses true; Enters (Commands [] true Allowed [cd]) false]) = true.
Proof. split; reflexivity. Qed.
