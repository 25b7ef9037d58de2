(** C96 stored commands, C97 safe-run, C98 notebooks that are played, C99 trigger. *)
From Verif Require Import Base Include_Model Include_Spec Runs_Model Runs_Spec.

Lemma sh_external : mem_str (lit "sh") registry = false.
Proof. reflexivity. Qed.

(** * C96: task, bookmark run and snippet run *)
(** For every stored command: what is started is sh with the name of a file, sh, to run.
    The command line is never run, only handed to that file as a parameter. *)
Theorem C96_stored_command_runs_refuted : forall succeeds handler_ok c,
  exists args,
    fst (run_stored succeeds handler_ok (Some c)) = [Started (lit "sh") args] /\
    sh_does args = Script (lit "sh") [lit "-c"; c] /\
    forall t, ~ runs_text (fst (run_stored succeeds handler_ok (Some c))) t.
Proof.
  intros succeeds handler_ok c. exists [lit "sh"; lit "-c"; c].
  split; [reflexivity|]. split; [reflexivity|].
  intros t (args & [E|[]] & H). injection E as <-. discriminate H.
Qed.
Print Assumptions C96_stored_command_runs_refuted.

(** What does hold: nothing is started for a name that is not stored; otherwise one
    program is, and the exit status is 0 exactly if it succeeds. *)
Theorem C96_one_program_partial : forall succeeds handler_ok stored,
  (stored = None -> run_stored succeeds handler_ok stored = ([], Exit 1)) /\
  (forall c, stored = Some c -> exists p args, run_stored succeeds handler_ok stored
     = ([Started p args], Exit (if succeeds p args then 0 else 1))).
Proof.
  intros succeeds handler_ok stored. split; [intros ->; reflexivity|].
  intros c ->. exists (lit "sh"), [lit "sh"; lit "-c"; c]. unfold run_stored, finish, dispatch. rewrite sh_external.
  cbn [use_shell fst snd]. destruct (succeeds _ _); reflexivity.
Qed.
Print Assumptions C96_one_program_partial.

Example C96_example :
  run_stored (fun _ _ => false) (fun _ _ => true) (Some (lit "cargo test"))
  = ([Started (lit "sh") [lit "sh"; lit "-c"; lit "cargo test"]], Exit 1)
  /\ sh_does [lit "-c"; lit "cargo test"] = Text (lit "cargo test").
Proof. split; reflexivity. Qed.

(** * C97: safe-run *)
Lemma consent_cons q es : with_consent (Asked q true :: es).
Proof.
  intros before e after E H. destruct before as [|b before]; [injection E as <- <-; destruct H|].
  injection E as <- _. exists q. now left.
Qed.
Lemma consent_inert es : (forall e, In e es -> ~ acts e) -> with_consent es.
Proof.
  intros H before e after -> He. exfalso. apply (H e); [|exact He]. apply in_or_app. right. now left.
Qed.
Lemma consent_skip q b es : with_consent es -> with_consent (Asked q b :: es).
Proof.
  intros H before e after E He. destruct before as [|x before]; [injection E as <- <-; destruct He|].
  injection E as <- ->. destruct (H before e after eq_refl He) as [q' Hq]. exists q'. now right.
Qed.

(** Whatever the model says and the user answers, nothing runs before the user has said
    yes to something. *)
Theorem C97_nothing_without_a_yes : forall succeeds handler_ok analysis capture a argv,
  with_consent (fst (safe_run succeeds handler_ok analysis capture a argv)).
Proof.
  intros succeeds handler_ok analysis capture a argv. unfold safe_run.
  assert (N : with_consent []) by (apply consent_inert; intros e []).
  destruct argv as [|n [|cmd args]]; try exact N.
  destruct (analysis _) as [[]|]; [| |exact N].
  - destruct (confirm a Inspect).
    + destruct (inspect_and_run _ _ _) as [es o]. apply consent_cons.
    + destruct (a Inspect) as [b|]; [|apply consent_skip, N].
      destruct (confirm a Immediately).
      * destruct (finish _) as [es o]. apply consent_skip, consent_cons.
      * apply consent_skip, consent_skip, N.
  - destruct (confirm a Execute).
    + destruct (finish _) as [es o]. apply consent_cons.
    + apply consent_skip, N.
Qed.
Print Assumptions C97_nothing_without_a_yes.

(** What an inspected command printed is shown only after a yes to that question, and then
    it is shown as it was; without it the status is that of a failure. *)
Theorem C97_output_is_released_after_a_yes : forall succeeds handler_ok analysis capture a argv,
  let r := safe_run succeeds handler_ok analysis capture a argv in
  forall before t after, fst r = before ++ Printed t :: after ->
  after = [] /\ a Release = Some true /\
  exists b0 text code, before = b0 ++ [Asked Release true] /\ In (Started (lit "sh") [lit "-c"; text]) b0 /\
    capture text = Some (code, t) /\ snd r = Exit code.
Proof.
  intros succeeds handler_ok analysis capture a argv r before t after E.
  assert (D : forall (es : list event) c args, ~ (exists es0, es ++ fst (finish (dispatch succeeds handler_ok c args)) = es0 ++ Printed t :: after) \/ exists x, In x es /\ x = Printed t).
  { intros es c args. destruct (in_dec (fun x y : event => ltac:(repeat decide equality)) (Printed t) es) as [H|H]; [right; eauto|left].
    intros [es0 X]. assert (I : In (Printed t) (es ++ fst (finish (dispatch succeeds handler_ok c args)))) by (rewrite X; apply in_elt).
    apply in_app_iff in I as [I|I]; [exact (H I)|]. unfold finish, dispatch in I.
    destruct (mem_str c registry); [|destruct (if use_shell c args then _ else _)]; destruct I as [I|[]]; discriminate I. }
  revert E. subst r. unfold safe_run.
  destruct argv as [|n [|cmd args]]; [intros E; destruct before; discriminate E..|].
  destruct (analysis _) as [[]|]; [| |intros E; destruct before; discriminate E].
  - destruct (confirm a Inspect).
    + unfold inspect_and_run. set (full := join_with (lit " ") (cmd :: args)). destruct (capture full) as [[code out]|] eqn:C.
      * destruct out as [|o out].
        { cbn [fst]. intros E. destruct before as [|x [|y [|z before]]]; discriminate E. }
        destruct (cut 8000 (o :: out)) as [p|]; [|cbn [fst]; intros E; destruct before as [|x [|y [|z before]]]; discriminate E].
        destruct (cut 2000 _); [|cbn [fst]; intros E; destruct before as [|x [|y [|z before]]]; discriminate E].
        destruct (confirm a Release) eqn:R; cbn [fst snd]; intros E.
        -- destruct before as [|x [|y [|z [|v before]]]]; try discriminate E; [|injection E as _ _ _ _ E; destruct before; discriminate E].
           injection E as <- <- <- <- <-. split; [reflexivity|].
           split; [unfold confirm in R; destruct (a Release) as [[]|]; [reflexivity|discriminate R..]|].
           exists [Asked Inspect true; Started (lit "sh") [lit "-c"; full]], full, code.
           split; [reflexivity|]. split; [right; now left|]. split; [exact C|reflexivity].
        -- destruct before as [|x [|y [|z [|v before]]]]; discriminate E.
      * cbn [fst]. intros E. destruct before as [|x [|y [|z before]]]; discriminate E.
    + destruct (a Inspect) as [b|]; [|intros E; destruct before as [|x [|y before]]; discriminate E].
      destruct (confirm a Immediately).
      * destruct (finish _) as [es o] eqn:F. cbn [fst]. intros E. exfalso.
        destruct (D [Asked Inspect false; Asked Immediately true] cmd args) as [X|[x [X Y]]].
        -- apply X. exists before. rewrite F. exact E.
        -- subst x. destruct X as [X|[X|[]]]; discriminate X.
      * intros E; destruct before as [|x [|y [|z before]]]; discriminate E.
  - destruct (confirm a Execute).
    + destruct (finish _) as [es o] eqn:F. cbn [fst]. intros E. exfalso.
      destruct (D [Asked Execute true] cmd args) as [X|[x [X Y]]].
      * apply X. exists before. rewrite F. exact E.
      * subst x. destruct X as [X|[]]; discriminate X.
    + intros E; destruct before as [|x [|y before]]; discriminate E.
Qed.
Print Assumptions C97_output_is_released_after_a_yes.
Example C97_release_example :
  safe_run (fun _ _ => true) (fun _ _ => true) (fun _ => Some true) (fun _ => Some (3, lit "out")) (fun _ => Some true) (map lit ["safe-run"; "make"; "all"]%string)
  = ([Asked Inspect true; Started (lit "sh") [lit "-c"; lit "make all"]; Asked Release true; Printed (lit "out")], Exit 3).
Proof. vm_compute. reflexivity. Qed.

(** When no inspection is recommended, or it is declined and the execution confirmed, an
    external command of two or more words gets exactly the words given, once. *)
Theorem C97_confirmed_words_partial : forall succeeds handler_ok analysis capture a name cmd w args,
  ~ In cmd registry ->
  let r := safe_run succeeds handler_ok analysis capture a (name :: cmd :: w :: args) in
  forall before e after, fst r = before ++ e :: after -> acts e ->
  a Inspect <> Some true ->
  e = Started cmd (w :: args) /\ after = [] /\ (exists q, allows q /\ In (Asked q true) before) /\
  snd r = Exit (if succeeds cmd (w :: args) then 0 else 1).
Proof.
  intros succeeds handler_ok analysis capture a name cmd w args Hc r before e after.
  assert (Hm : mem_str cmd registry = false) by (apply mem_str_false; exact Hc).
  subst r. unfold safe_run. intros E He Hi.
  assert (Ci : confirm a Inspect = false) by (unfold confirm; destruct (a Inspect) as [[]|]; congruence).
  rewrite Ci in *. clear Ci.
  unfold finish, dispatch in *. rewrite Hm in *. cbn [use_shell fst snd] in *.
  destruct (analysis _) as [[]|]; [| |destruct before; discriminate E].
  - destruct (a Inspect) as [b|].
    2: { destruct before as [|x [|y before]]; cbn in E; try discriminate E; injection E as <- <-; destruct He. }
    destruct (confirm a Immediately).
    + cbn [fst snd app] in *. destruct before as [|x [|y [|z before]]]; cbn in E.
      * injection E as <- <-. destruct He.
      * injection E as <- <- <-. destruct He.
      * injection E as <- <- <- <-. split; [reflexivity|]. split; [reflexivity|]. split.
        -- exists Immediately. split; [exact I|]. right. now left.
        -- destruct (succeeds _ _); reflexivity.
      * destruct before; discriminate E.
    + cbn [fst snd app] in *. destruct before as [|x [|y [|z before]]]; cbn in E; try discriminate E.
      * injection E as <- <-. destruct He.
      * injection E as <- <- <-. destruct He.
  - destruct (confirm a Execute).
    + cbn [fst snd app] in *. destruct before as [|x [|y [|z before]]]; cbn in E; try discriminate E.
      * injection E as <- <-. destruct He.
      * injection E as <- <- <-. split; [reflexivity|]. split; [reflexivity|]. split.
        -- exists Execute. split; [exact I|]. now left.
        -- destruct (succeeds _ _); reflexivity.
    + cbn [fst snd app] in *. destruct before as [|x [|y before]]; cbn in E; try discriminate E.
      injection E as <- <-. destruct He.
Qed.
Print Assumptions C97_confirmed_words_partial.

Example C97_confirmed_example :
  let a q := match q with Execute => Some true | _ => None end in
  safe_run (fun _ _ => true) (fun _ _ => true) (fun _ => Some false) (fun _ => None) a [lit "safe-run"; lit "rm"; lit "a b"; lit "$x"]
  = ([Asked Execute true; Started (lit "rm") [lit "a b"; lit "$x"]], Exit 0).
Proof. vm_compute. reflexivity. Qed.

(** Yes to looking first runs the command, joined to one text and read again by sh, before
    anything is asked about running it: whatever is answered later. *)
Theorem C97_inspection_runs_the_command_refuted : forall succeeds handler_ok analysis capture a name cmd args,
  analysis (join_with (lit " ") (cmd :: args)) = Some true -> a Inspect = Some true ->
  exists rest, fst (safe_run succeeds handler_ok analysis capture a (name :: cmd :: args))
     = Asked Inspect true :: Started (lit "sh") [lit "-c"; join_with (lit " ") (cmd :: args)] :: rest
  /\ runs_text (fst (safe_run succeeds handler_ok analysis capture a (name :: cmd :: args))) (join_with (lit " ") (cmd :: args))
  /\ ~ with_consent_to_run (fst (safe_run succeeds handler_ok analysis capture a (name :: cmd :: args))).
Proof.
  intros succeeds handler_ok analysis capture a name cmd args Ha Hi. unfold safe_run. rewrite Ha.
  assert (Ci : confirm a Inspect = true) by (unfold confirm; now rewrite Hi). rewrite Ci. set (full := join_with (lit " ") (cmd :: args)).
  assert (H : exists rest, fst (inspect_and_run capture a full) = Started (lit "sh") [lit "-c"; full] :: rest).
  { unfold inspect_and_run. destruct (capture full) as [[code [|c out]]|]; try (eexists; reflexivity).
    destruct (cut _ _); [|eexists; reflexivity]. destruct (cut _ _); [|eexists; reflexivity].
    destruct (confirm a Release); eexists; reflexivity. }
  destruct (inspect_and_run capture a full) as [es o]. cbn [fst] in H. destruct H as [rest ->]. cbn [fst].
  exists rest. split; [reflexivity|]. split.
  - exists [lit "-c"; full]. split; [apply in_cons, in_eq|reflexivity].
  - intros C. destruct (C [Asked Inspect true] _ rest eq_refl I) as (q & Hq & [E|[]]). injection E as <-. exact Hq.
Qed.
Print Assumptions C97_inspection_runs_the_command_refuted.

(** the words are not the words given: what was one argument is two commands *)
Example C97_inspection_words_refuted :
  let a q := match q with Inspect => Some true | _ => Some false end in
  let r := safe_run (fun _ _ => true) (fun _ _ => true) (fun _ => Some true) (fun _ => Some (0, [])) a [lit "safe-run"; lit "echo"; lit "it is; reboot"] in
  fst r = [Asked Inspect true; Started (lit "sh") [lit "-c"; lit "echo it is; reboot"]]
  /\ read_by_shell (lit "echo it is; reboot") = [Word (lit "echo"); Word (lit "it"); Word (lit "is"); Semi; Word (lit "reboot")].
Proof. split; vm_compute; reflexivity. Qed.

(** An inspected output longer than the preview crashes the shell, after the command has
    run, if the 8000th byte is inside a character. *)
Theorem C97_long_output_refuted : forall succeeds handler_ok analysis capture a name cmd args code out,
  analysis (join_with (lit " ") (cmd :: args)) = Some true -> a Inspect = Some true ->
  capture (join_with (lit " ") (cmd :: args)) = Some (code, out) ->
  8000 < blen out -> split_byte out 8000 = None ->
  snd (safe_run succeeds handler_ok analysis capture a (name :: cmd :: args)) = Crash.
Proof.
  intros succeeds handler_ok analysis capture a name cmd args code out Ha Hi Hc Hl Hs. unfold safe_run. rewrite Ha.
  assert (Ci : confirm a Inspect = true) by (unfold confirm; now rewrite Hi). rewrite Ci. unfold inspect_and_run. rewrite Hc.
  destruct out as [|c out]; [cbn [blen] in Hl; lia|].
  unfold cut at 1. apply Nat.ltb_lt in Hl. rewrite Hl, Hs. reflexivity.
Qed.
Print Assumptions C97_long_output_refuted.
Example C97_long_output_example :
  let out := repeat 97%N 7999 ++ [233%N] in Nat.ltb 8000 (blen out) = true /\ split_byte out 8000 = None.
Proof. split; vm_compute; reflexivity. Qed.

(** A command the shell handles itself gets its arguments without its name before them,
    and so loses the first; history without argument crashes the shell. *)
Theorem C97_own_commands_refuted : forall succeeds handler_ok analysis capture a name cmd args,
  In cmd registry -> analysis (join_with (lit " ") (cmd :: args)) = Some false -> a Execute = Some true ->
  fst (safe_run succeeds handler_ok analysis capture a (name :: cmd :: args)) = [Asked Execute true; Handled cmd args] /\
  (length args < needs cmd -> snd (safe_run succeeds handler_ok analysis capture a (name :: cmd :: args)) = Crash).
Proof.
  intros succeeds handler_ok analysis capture a name cmd args Hc Ha Hi. unfold safe_run. rewrite Ha.
  assert (Ci : confirm a Execute = true) by (unfold confirm; now rewrite Hi). rewrite Ci. unfold finish, dispatch. apply mem_str_iff in Hc. rewrite Hc. cbn [fst snd app].
  split; [reflexivity|]. intros Hl. apply Nat.ltb_lt in Hl. now rewrite Hl.
Qed.
Print Assumptions C97_own_commands_refuted.
Example C97_own_example :
  snd (safe_run (fun _ _ => true) (fun _ _ => true) (fun _ => Some false) (fun _ => None) (fun _ => Some true) [lit "safe-run"; lit "history"]) = Crash
  /\ snd (safe_run (fun _ _ => true) (fun _ _ => true) (fun _ => Some false) (fun _ => None) (fun _ => Some true) [lit "safe-run"; lit "read"; lit "X"]) = Crash.
Proof. split; vm_compute; reflexivity. Qed.

(** * C98: notebook-play *)
(** Builtins get their own name as first word.  The file that is played is the one of
    that name, whatever file is asked for. *)
Theorem C98_file_is_played_refuted : forall succeeds handler_ok files files' replies args args',
  files (lit "notebook-play") = files' (lit "notebook-play") ->
  notebook_play succeeds handler_ok files replies (lit "notebook-play" :: args)
  = notebook_play succeeds handler_ok files' replies (lit "notebook-play" :: args').
Proof. intros succeeds handler_ok files files' replies args args' H. unfold notebook_play. now rewrite H. Qed.
Print Assumptions C98_file_is_played_refuted.
Example C98_file_example :
  let files f := if str_eqb f (lit "notes.md") then Some [[lit "make"]] else None in
  notebook_play (fun _ _ => true) (fun _ _ => true) files [] [lit "notebook-play"; lit "notes.md"] = ([], Exit 1).
Proof. reflexivity. Qed.

Section Play.
Variable succeeds : str -> list str -> bool.
Variable handler_ok : str -> list str -> bool.
Notation play := (play succeeds handler_ok).
Notation play_lines := (play_lines succeeds handler_ok).

(** the question in force when something runs: the latest before it *)
Fixpoint latest (before : list event) : option bool :=
  match before with
  | [] => None
  | Asked _ b :: r => match latest r with Some x => Some x | None => Some b end
  | _ :: r => latest r
  end.
Lemma latest_app a b : latest (a ++ b) = match latest b with Some x => Some x | None => latest a end.
Proof.
  induction a as [|x a IH]; cbn; [now destruct (latest b)|].
  destruct x; rewrite ?IH; destruct (latest b); reflexivity.
Qed.
Lemma play_lines_asks ls e : In e (fst (play_lines ls)) -> acts e.
Proof.
  induction ls as [|l ls IH]; cbn [Runs_Model.play_lines]; [intros []|].
  unfold dispatch. destruct (mem_str l registry).
  - destruct (if length _ <? _ then _ else _); destruct (play_lines ls) as [es ok]; cbn [fst] in *;
      intros [<-|H]; try exact I; try (apply IH; exact H); destruct H.
  - destruct (if use_shell l [] then _ else _) as [p a].
    destruct (succeeds p a); destruct (play_lines ls) as [es ok]; cbn [fst] in *;
      intros [<-|H]; try exact I; apply IH; exact H.
Qed.
Lemma latest_acts es : (forall e, In e es -> acts e) -> latest es = None.
Proof.
  induction es as [|e es IH]; intros H; [reflexivity|].
  assert (He := H e (or_introl eq_refl)). cbn. destruct e; try contradiction; apply IH; intros x Hx; apply H; now right.
Qed.
End Play.

(** Whatever runs, runs while the latest question has not been answered n or q. *)
Theorem C98_blocks_run_unless_refused : forall succeeds handler_ok blocks replies before e after,
  fst (play succeeds handler_ok blocks replies) = before ++ e :: after -> acts e -> latest before = Some true.
Proof.
  intros succeeds handler_ok blocks. induction blocks as [|b blocks IH]; intros replies before e after E He; cbn [play] in E.
  - destruct before; discriminate E.
  - destruct (match replies with a :: r => (a, r) | [] => (Anything_else, []) end) as [a replies'].
    destruct a.
    + destruct (play succeeds handler_ok blocks replies') as [es o] eqn:P. cbn [fst] in E.
      destruct before as [|x before]; [injection E as <- <-; destruct He|]. injection E as <- E.
      cbn [latest]. rewrite (IH replies' before e after); [reflexivity|rewrite P; exact E|exact He].
    + cbn [fst] in E. destruct before as [|x [|y before]]; try discriminate E. injection E as <- <-. destruct He.
    + destruct (play_lines succeeds handler_ok b) as [es ok] eqn:L.
      assert (A : forall x, In x es -> acts x).
      { intros x Hx. apply (play_lines_asks succeeds handler_ok b). now rewrite L. }
      destruct ok.
      * destruct (play succeeds handler_ok blocks replies') as [es' o] eqn:P. cbn [fst] in E.
        destruct before as [|x before]; [injection E as <- <-; destruct He|]. injection E as <- E. cbn [latest].
        destruct (Nat.lt_ge_cases (length before) (length es)) as [Hl|Hl].
        -- assert (Hb : before = firstn (length before) es).
           { apply (f_equal (firstn (length before))) in E. rewrite firstn_app in E.
             replace (length before - length es) with 0 in E by lia. rewrite firstn_O, app_nil_r in E.
             rewrite firstn_app, Nat.sub_diag, firstn_O, firstn_all, app_nil_r in E. now symmetry. }
           rewrite latest_acts; [reflexivity|]. intros x Hx. apply A. rewrite Hb in Hx.
           rewrite <- (firstn_skipn (length before) es). apply in_or_app. now left.
        -- assert (Hb : before = es ++ skipn (length es) before).
           { apply (f_equal (firstn (length es))) in E. rewrite firstn_app, Nat.sub_diag, firstn_O, firstn_all, app_nil_r in E.
             rewrite firstn_app in E. replace (length es - length before) with 0 in E by lia. rewrite firstn_O, app_nil_r in E.
             rewrite E at 1. now rewrite firstn_skipn. }
           rewrite Hb in E. rewrite <- app_assoc in E. apply app_inv_head in E.
           rewrite Hb, latest_app. rewrite (IH replies' (skipn (length es) before) e after); [reflexivity|rewrite P; exact E|exact He].
      * cbn [fst] in E. destruct before as [|x before]; [injection E as <- <-; destruct He|]. injection E as <- E.
        cbn [latest]. rewrite latest_acts; [reflexivity|]. intros x Hx. apply A. rewrite E. apply in_or_app. now left.
Qed.
Print Assumptions C98_blocks_run_unless_refused.

(** Refusing is not what silence means: at the end of the input every block runs. *)
Theorem C98_end_of_input_refuted : forall succeeds handler_ok l rest,
  ~ In l registry ->
  exists p a tail, fst (play succeeds handler_ok ([l] :: rest) []) = Asked Play true :: Started p a :: tail.
Proof.
  intros succeeds handler_ok l rest Hl. apply mem_str_false in Hl. cbn [play play_lines]. unfold dispatch. rewrite Hl.
  destruct (if use_shell l [] then _ else _) as [p a]. destruct (succeeds p a).
  - destruct (play succeeds handler_ok rest []) as [es o]. exists p, a, es. reflexivity.
  - destruct (play succeeds handler_ok rest []) as [es o]. exists p, a, es. reflexivity.
Qed.
Print Assumptions C98_end_of_input_refuted.
Example C98_play_example :
  fst (play (fun _ _ => true) (fun _ _ => true) [[lit "make"]; [lit "make install"; lit "ls"]] [No; Anything_else])
  = [Asked Play false; Asked Play true; Started (lit "sh") [lit "-c"; lit "make install"]; Started (lit "ls") []].
Proof. vm_compute. reflexivity. Qed.

(** * C99: trigger *)
(** Runs are at least 500 ms apart and each is at the time of a matching change. *)
Theorem C99_runs_follow_changes : forall changes last,
  (forall t, In t (watch last changes) -> In (t, true) changes /\ last + 500 <= t) /\
  (forall i t u, (forall j s s', nth_error (map fst changes) j = Some s -> nth_error (map fst changes) (S j) = Some s' -> s <= s') ->
     nth_error (watch last changes) i = Some t -> nth_error (watch last changes) (S i) = Some u -> t + 500 <= u).
Proof.
  intros changes. induction changes as [|[t m] r IH]; intros last.
  - split; [intros t []|]. intros [|i] t u _ H; discriminate H.
  - cbn [watch]. 
    assert (Mono : forall (l : list (nat * bool)) a, (forall j s s', nth_error (map fst (a :: l)) j = Some s -> nth_error (map fst (a :: l)) (S j) = Some s' -> s <= s') ->
             forall j s s', nth_error (map fst l) j = Some s -> nth_error (map fst l) (S j) = Some s' -> s <= s').
    { intros l a H j s s' H1 H2. exact (H (S j) s s' H1 H2). }
    destruct m; [destruct (Nat.ltb_spec (t - last) 500) as [Hl|Hl]|].
    + destruct (IH last) as [I1 I2]. split.
      * intros u Hu. destruct (I1 u Hu). split; [now right|assumption].
      * intros i x u Hm. apply I2. exact (Mono _ _ Hm).
    + destruct (IH t) as [I1 I2]. split.
      * intros u [<-|Hu]; [split; [now left|lia]|]. destruct (I1 u Hu). split; [now right|lia].
      * intros [|i] x u Hm Hx Hu; cbn in Hx, Hu.
        -- injection Hx as <-. change (nth_error (watch t r) 0 = Some u) in Hu. apply nth_error_In in Hu. destruct (I1 u Hu). lia.
        -- apply (I2 i x u); [exact (Mono _ _ Hm)|exact Hx|exact Hu].
    + destruct (IH last) as [I1 I2]. split.
      * intros u Hu. destruct (I1 u Hu). split; [now right|assumption].
      * intros i x u Hm. apply I2. exact (Mono _ _ Hm).
Qed.
Print Assumptions C99_runs_follow_changes.

(** A change less than 500 ms after a run started is never acted on: if it is the last,
    the command has not seen the files as they are. *)
Theorem C99_last_change_refuted : forall changes last t d,
  watch last changes <> [] -> List.last (watch last changes) 0 = t -> d < 500 ->
  watch last (changes ++ [(t + d, true)]) = watch last changes.
Proof.
  intros changes. induction changes as [|[s m] r IH]; intros last t d H0 Hl Hd; [cbn in H0; congruence|].
  cbn [app watch] in *. destruct m; [destruct (s - last <? 500)|].
  - now apply IH.
  - f_equal. destruct (watch s r) as [|x xs] eqn:W.
    + cbn in Hl. subst s. clear IH.
      assert (E : forall l n, watch n l = [] -> watch n (l ++ [(n + d, true)]) = []).
      { induction l as [|[u b] l IHl]; intros n H; cbn [app watch] in *.
        - replace (n + d - n) with d by lia. destruct (Nat.ltb_spec d 500); [reflexivity|lia].
        - destruct b; [destruct (u - n <? 500)|]; [now apply IHl|discriminate H|now apply IHl]. }
      now apply E.
    + rewrite <- W. apply IH; [rewrite W; discriminate| |exact Hd]. rewrite W. exact Hl.
  - now apply IH.
Qed.
Print Assumptions C99_last_change_refuted.
Example C99_example : watch 0 [(1000, true); (1200, false); (1300, true); (1700, true); (1900, true)] = [1000; 1700].
Proof. vm_compute. reflexivity. Qed.
