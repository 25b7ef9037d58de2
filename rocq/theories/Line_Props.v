(** Whole lines: C06, C116 - C119. *)
From Verif Require Import Base Safety_Model Safety_Spec Safety_Proofs Safety_Props Peg_Model Grammar_Model Parse_Model Parse_Spec Grammar_Proofs Parse_Proofs Line_Model Line_Spec Line_Proofs.
From Verif Require Eval_Model Eval_Props.

Section C06.
Variable W : Type.
Variable spawn : W -> job -> W * (nat * str).
Variable capacity : nat.
Variable next_fd : W -> str.
Variable resolve : str -> found.
Variable expand : str -> option str.
Variable launch : W -> Eval_Model.job -> W * option Eval_Model.pstate.
Variable launch_capture : W -> Eval_Model.job -> W * option (Eval_Model.pstate * str).
Variable lisp : W -> str -> W * bool.
Notation eval_line := (eval_line W spawn capacity next_fd resolve expand launch launch_capture lisp).
Notation get_jobs := (get_jobs W spawn capacity next_fd resolve).

Definition refused (js : list job) (lv : level) (allow : list str) (ask : answer) : Prop :=
  (exists m, check_jobs (map cmd js) lv allow = Denied m)
  \/ ((exists m, check_jobs (map cmd js) lv allow = Confirm m) /\ (ask = No \/ ask = AskFailed)).

(** C06 for whole lines.  A line in which no opening parenthesis is left after expansion has
    no substitution.  If it is refused, nothing at all has happened: no event, the world, the
    job table and the allowlist are as before, and the status is not zero.  If it is not, its
    jobs run.  The question is asked exactly when the guard says so, and before anything runs.
    After "always" the line is not asked about again.
    For other lines: of a refused one, nothing but its substitutions has run. *)
Theorem C06_refused_line_partial : forall bg w wt lv allow ask input line,
  expand (smart_pipe input) = Some line ->
  forall w1 js, get_jobs w line = (w1, Got js) ->
  exists o, eval_line bg w wt lv allow ask input = (w1, Got o) /\
  let s := Eval_Model.final W o in
  (~ In open_paren line -> w1 = w)
  /\ (refused js lv allow ask ->
        Eval_Model.trace W s = [] /\ Eval_Model.world W s = w1 /\ Eval_Model.waits W s = wt
        /\ Eval_Model.allowlist W o = allow /\ exists c, Eval_Model.value W o = Some c /\ c <> 0)
  /\ (~ refused js lv allow ask ->
        (s, Eval_Model.value W o) = Eval_Model.run_jobs W launch launch_capture lisp bg w1 wt (map to_run js))
  /\ (Eval_Model.asked W o = true <-> exists m, check_jobs (map cmd js) lv allow = Confirm m)
  /\ (Eval_Model.asked W o = true -> ask = AlwaysAllow -> forall bg' w' wt' lv' ask' w1' o',
        get_jobs w' line = (w1', Got js) ->
        eval_line bg' w' wt' lv' (Eval_Model.allowlist W o) ask' input = (w1', Got o') -> Eval_Model.asked W o' = false).
Proof using.
  intros bg w wt lv allow ask input line E w1 js G.
  assert (T : forall ks, map (fun jo : Eval_Model.job * Eval_Model.list_op => Eval_Model.cmd (fst jo)) (map to_run ks) = map cmd ks)
    by (intros ks; rewrite map_map; reflexivity).
  unfold Line_Model.eval_line. rewrite E, G. cbn [bind]. eexists. split; [reflexivity|]. cbn zeta.
  pose proof (Eval_Props.C06_declined_line_launches_nothing W launch launch_capture lisp bg w1 wt lv allow ask (map to_run js)) as H.
  cbn zeta in H. rewrite T in H. destruct H as (H1 & H2 & H3 & H4 & H5). split; [|split; [exact H1|split; [exact H2|split; [exact H3|]]]].
  - intros N. rewrite (get_jobs_quiet W spawn capacity next_fd resolve (fun _ _ => []) w line N) in G. congruence.
  - intros A Q bg' w' wt' lv' ask' w1' o' G'. rewrite G'. cbn [bind]. intros R. injection R as <-.
    destruct (H4 A Q) as [_ K]. apply K.
Qed.

(** ... and such a line is always read: it gives the jobs of the grammar, or fails, without
    any effect *)
Theorem C06_plain_line_is_read_without_effect : forall substitute w line, ~ In open_paren line ->
  get_jobs w line = (w, match jobs_of resolve substitute line with Some js => Got js | None => Bad end).
Proof using. intros substitute w line N. exact (get_jobs_quiet W spawn capacity next_fd resolve substitute w line N). Qed.
End C06.
Print Assumptions C06_refused_line_partial.
Print Assumptions C06_plain_line_is_read_without_effect.

(** programs live in /bin *)
Definition in_bin (s : str) : found := IsProgram (lit "/bin/" ++ s).
Definition program (l : list string) : process := Program (match l with x :: _ => lit "/bin/" ++ lit x | [] => [] end) (map lit l).

(** The full statement is false: the substitutions of a line run before the question.  The
    user is asked about "dd $(touch x)" and says no, at any level that asks; touch has run. *)
Theorem C06_declined_line_refuted :
  forall W spawn capacity next_fd launch launch_capture lisp bg (w w1 : W) st out wt lv,
  (forall j, procs j = [program ["touch"; "x"]%string] -> spawn w j = (w1, (st, out))) -> blen out <= capacity -> lv <> Loose ->
  exists o, eval_line W spawn capacity next_fd in_bin Some launch launch_capture lisp bg w wt lv [] No (lit "dd $(touch x)") = (w1, Got o)
    /\ Eval_Model.asked W o = true /\ Eval_Model.value W o = Some 130 /\ Eval_Model.world W (Eval_Model.final W o) = w1.
Proof.
  intros W spawn capacity next_fd launch lc lisp bg w w1 st out wt lv Sp Cap Lv.
  assert (G : exists j, get_jobs W spawn capacity next_fd in_bin w (lit "dd $(touch x)") = (w1, Got [j]) /\ cmd j = lit "dd $(touch x)").
  { unfold get_jobs. let p := eval vm_compute in (parse (lit "dd $(touch x)")) in replace (parse (lit "dd $(touch x)")) with p by (vm_compute; reflexivity).
    cbv -[blen Nat.ltb split_whitespace trim_newlines]. rewrite Sp by reflexivity.
    assert (C : capacity <? blen out = false) by (apply Nat.ltb_ge; exact Cap). rewrite C.
    destruct (split_whitespace (trim_newlines out)); eexists; split; reflexivity. }
  destruct G as (j & G & C). unfold eval_line. change (smart_pipe (lit "dd $(touch x)")) with (lit "dd $(touch x)"). rewrite G. cbn [bind].
  eexists. split; [reflexivity|]. unfold Eval_Model.eval_jobs. cbn [map to_run fst Eval_Model.cmd]. rewrite C.
  destruct lv; [| |congruence]; cbn; auto.
Qed.
Print Assumptions C06_declined_line_refuted.

(** ** C116: a dangerous command of a line is asked about *)
Lemma blank_white c : blank c = true -> is_whitespace c = true.
Proof. unfold blank. intros H. apply mem_char_iff in H. destruct H as [<-|[<-|[<-|[]]]]; reflexivity. Qed.
Lemma gap_white g : gap g -> forall c, In c g -> is_whitespace c = true.
Proof. intros G c I. apply blank_white. unfold gap in G. rewrite forallb_forall in G. apply G, I. Qed.
Lemma bare_typed t : typed_word (Bare (map (fun c => (false, c)) t)) = t.
Proof. cbn. induction t as [|c t IH]; [reflexivity|]. cbn. f_equal. exact IH. Qed.
Lemma bare_meaning t : meaning (Bare (map (fun c => (false, c)) t)) = t.
Proof. cbn. rewrite map_map. apply map_id. Qed.

Lemma words_step g t r : (forall c, In c g -> is_whitespace c = true) -> t <> [] -> (forall c, In c t -> is_whitespace c = false) ->
  (r = [] \/ exists c r', r = c :: r' /\ is_whitespace c = true) -> split_whitespace (g ++ t ++ r) = t :: split_whitespace r.
Proof. intros G N T R. apply Words_iff. apply Words_word; auto. apply Words_iff. reflexivity. Qed.

Definition ends_here (r : str) : Prop := r = [] \/ exists c r', r = c :: r' /\ is_whitespace c = true.
Definition plain_item (i : item) : Prop := match i with Arg _ w => plain_word w | Redir _ _ _ _ => False end.
Lemma items_start its r : Forall valid_item its -> Forall plain_item its -> ends_here r -> ends_here (flat_map typed_item its ++ r).
Proof.
  intros V P R. destruct V as [|i its Vi V]; [exact R|]. inversion P as [|? ? Pi P']; subst. right. cbn [flat_map].
  assert (K : forall g x : str, gap g -> g <> [] -> exists c r', g ++ x = c :: r' /\ is_whitespace c = true).
  { intros [|c g] x G N; [congruence|]. exists c, (g ++ x). split; [reflexivity|]. apply (gap_white _ G). left. reflexivity. }
  destruct i as [g w|]; [|contradiction]. destruct Pi as (t & -> & T). destruct Vi as (G & [N|[]] & _).
  cbn [typed_item]; rewrite <- !app_assoc; apply K; assumption.
Qed.
Definition arg_words (its : list item) : list str :=
  flat_map (fun i => match i with Arg _ w => [meaning w] | Redir _ _ _ _ => [] end) its.
Lemma items_words its r : Forall valid_item its ->
  Forall (fun i => match i with Arg _ w => plain_word w | Redir _ _ _ _ => False end) its -> ends_here r ->
  split_whitespace (flat_map typed_item its ++ r) = arg_words its ++ split_whitespace r.
Proof.
  intros V P R. revert P. induction V as [|i its Vi V IH]; intros P; [reflexivity|]. inversion P as [|? ? Pi P']; subst.
  destruct i as [g w|]; [|contradiction]. destruct Pi as (t & -> & T). destruct Vi as (G & [N|[]] & Nw & _).
  change (arg_words (Arg g (Bare (map (fun c => (false, c)) t)) :: its)) with (meaning (Bare (map (fun c => (false, c)) t)) :: arg_words its).
  cbn [flat_map typed_item app]. rewrite bare_typed, bare_meaning, <- !app_assoc.
  rewrite words_step; [rewrite (IH P'); reflexivity|exact (gap_white _ G)| |exact T|apply items_start; assumption].
  intros ->. apply Nw. reflexivity.
Qed.
Lemma cmd_words c r : valid_cmd c -> plain_cmd c -> ends_here r ->
  split_whitespace (typed_word (name c) ++ flat_map typed_item (items c) ++ r) = argv c ++ split_whitespace r.
Proof.
  intros (_ & _ & Vw & Vi) [(t & En & T) Pi] R. unfold argv. rewrite En in *. rewrite bare_typed, bare_meaning.
  change (t ++ flat_map typed_item (items c) ++ r) with ([] ++ t ++ flat_map typed_item (items c) ++ r).
  rewrite words_step; [|intros c' []| |exact T|apply items_start; assumption].
  - rewrite (items_words _ _ Vi Pi R). reflexivity.
  - intros ->. destruct Vw as [Nw _]. apply Nw. reflexivity.
Qed.
Lemma dangerous_more n args more : dangerous n args -> dangerous n (args ++ more).
Proof.
  assert (K : forall l m P, has_arg l P -> has_arg (l ++ m) P) by (intros l m P (a & I & H); exists a; split; [apply in_or_app; left; exact I|exact H]).
  intros D. destruct D as [n args H|args H|args H|args H|args H|n args H1 H2|args H1 H2|n args H1 H2|n args H1 H2]; cbn [app].
  - apply D_system, H.
  - apply D_rm, K, H.
  - apply D_git_push, K, H.
  - apply D_git_clean, K, H.
  - apply D_git_reset, in_or_app. left. exact H.
  - apply D_perm; [exact H1|apply K, H2].
  - apply D_cp; apply K; assumption.
  - apply D_upload; [exact H1|apply K, H2].
  - apply D_secret; [exact H1|apply K, H2].
Qed.
Lemma asked_about texts text c r allow : In text texts -> text = typed_word (name c) ++ flat_map typed_item (items c) ++ r ->
  valid_cmd c -> plain_cmd c -> ends_here r -> dangerous_cmd c -> ~ In text allow ->
  exists why, check_jobs texts Normal allow = Confirm why.
Proof.
  intros I E V P R (n & Kn & D) NA.
  destruct (C07_safety_levels_decide texts allow [] [] Normal) as (HD & _ & _ & HN & _).
  destruct (check_jobs texts Normal allow) as [|why|why] eqn:Q.
  - exfalso. apply NA. apply In_nth_error in I as [i Hi]. apply (proj1 HN eq_refl i text Hi). exists text. split; [exact Hi|]. left.
    exists (meaning (name c)), (tl (argv c) ++ split_whitespace r), n. split; [|split; [exact Kn|apply dangerous_more, D]].
    apply Words_iff. rewrite E, (cmd_words c r V P R). reflexivity.
  - destruct (HD why) as [H _]. congruence.
  - eauto.
Qed.
Lemma seg_text_in l g t : In g (segments l) -> In t (segment_texts (typed_segment (unlead g)) g) -> In t (line_texts l).
Proof.
  unfold line_texts, segments. intros [<-|I] H; apply in_or_app; [left; exact H|right].
  apply in_map_iff in I as (sg & <- & I). unfold rest_texts. apply in_flat_map. exists sg. split; assumption.
Qed.
Lemma segs_valid l g : valid_line l -> In g (segments l) -> valid_segment g.
Proof.
  intros [V R] [<-|I]; [exact V|]. revert R. generalize (fst l). induction (snd l) as [|[s h] r IH]; intros prev R; [destruct I|].
  destruct R as (Vh & _ & Vr). destruct I as [<-|I]; [exact Vh|]. exact (IH I h Vr).
Qed.

Theorem C116_dangerous_command_asked_partial : forall resolve substitute l g c allow,
  valid_line l -> Forall (known resolve) (all_commands l) -> In g (segments l) -> up_front g c -> plain_cmd c -> dangerous_cmd c ->
  ~ allowlisted allow (typed_segment g) -> ~ allowlisted allow (typed_cmd c ++ lit "&") ->
  (* the guard asks about the line *)
  (exists js why, jobs_of resolve substitute (typed_line l) = Some js /\ check_jobs (map cmd js) Normal allow = Confirm why)
  (* and without parentheses on the line, the question comes before anything else *)
  /\ (~ In open_paren (typed_line l) ->
      forall W spawn capacity next_fd expand launch launch_capture lisp bg (w : W) wt ask input,
      expand (smart_pipe input) = Some (typed_line l) ->
      exists o, eval_line W spawn capacity next_fd resolve expand launch launch_capture lisp bg w wt Normal allow ask input = (w, Got o)
        /\ Eval_Model.asked W o = true
        /\ (ask = No \/ ask = AskFailed -> Eval_Model.trace W (Eval_Model.final W o) = [] /\ Eval_Model.world W (Eval_Model.final W o) = w)).
Proof.
  intros resolve substitute l g c allow V K Ig U P D NA1 NA2.
  destruct (jobs_of_line_texts resolve substitute l [] V (or_introl eq_refl) K) as (js & E & _ & _ & T). rewrite app_nil_r in E.
  pose proof (segs_valid l g V Ig) as Vg.
  assert (Q : exists why, check_jobs (map cmd js) Normal allow = Confirm why).
  { rewrite T. destruct Vg as (Vc & _ & _). rewrite Forall_forall in Vc. destruct U as [(B & more & Ep & Tr)|[I Tr]].
    - assert (Vcc : valid_cmd c) by (apply Vc; rewrite Ep; apply in_or_app; right; left; reflexivity).
      assert (Et : typed_segment (unlead g) = typed_word (name c) ++ flat_map typed_item (items c) ++ trail c ++ pipes_text more).
      { rewrite typed_segment_eq. unfold unlead. rewrite B, Ep. cbn [bgs pipe backs_text flat_map app]. unfold typed_cmd. cbn [unlead_cmd lead name items trail app].
        rewrite <- !app_assoc. reflexivity. }
      apply (asked_about _ (typed_segment (unlead g)) c (trail c ++ pipes_text more)); [|exact Et|exact Vcc|exact P| |exact D|].
      + apply (seg_text_in l g _ Ig). unfold segment_texts. rewrite Ep. apply in_or_app. right. left. reflexivity.
      + destruct (trail c) as [|b u] eqn:Et'; [rewrite (Tr eq_refl); left; reflexivity|]. right. exists b. eexists. split; [reflexivity|].
        destruct Vcc as (_ & G & _). rewrite Et' in G. apply (gap_white _ G). left. reflexivity.
      + intros I. apply NA1. exists (lead_of g), (typed_segment (unlead g)). split; [apply unlead_gap, (segs_valid l g V Ig)|]. split; [exact I|apply unlead_text].
    - assert (Vcc : valid_cmd c) by (apply Vc; apply in_or_app; left; exact I).
      apply (asked_about _ (bg_text c) c (trail c ++ [38%N])); [|reflexivity|exact Vcc|exact P| |exact D|].
      + apply (seg_text_in l g _ Ig). unfold segment_texts. apply in_or_app. left. apply in_map, I.
      + destruct (trail c) as [|b u] eqn:Et'; [congruence|]. right. exists b. eexists. split; [reflexivity|].
        destruct Vcc as (_ & G & _). rewrite Et' in G. apply (gap_white _ G). left. reflexivity.
      + intros J. apply NA2. exists (lead c), (bg_text c). split; [apply Vcc|]. split; [exact J|]. unfold typed_cmd, bg_text.
        rewrite <- !app_assoc. reflexivity. }
  split; [destruct Q as [why Q]; exists js, why; split; assumption|].
  intros N W spawn capacity next_fd expand launch lc lisp bg w wt ask input Ex.
  pose proof (get_jobs_quiet W spawn capacity next_fd resolve substitute w (typed_line l) N) as G. rewrite E in G. cbn [lift] in G.
  destruct (C06_refused_line_partial W spawn capacity next_fd resolve expand launch lc lisp bg w wt Normal allow ask input (typed_line l) Ex w js G)
    as (o & Eo & _ & H1 & _ & H3 & _).
  exists o. split; [exact Eo|]. split; [apply H3, Q|]. intros A. destruct H1 as (T1 & T2 & _); [right; split; assumption|]. split; assumption.
Qed.
Print Assumptions C116_dangerous_command_asked_partial.

Definition bare (s : string) : word := Bare (map (fun c => (false, c)) (lit s)).
(** make ; rm -rf build | cat *)
Definition demo_line : line :=
  (Segment [] [CmdLine [] (bare "make") [] (lit " ")],
   [(Semi, Segment [] [CmdLine (lit " ") (bare "rm") [Arg (lit " ") (bare "-rf"); Arg (lit " ") (bare "build")] (lit " "); CmdLine (lit " ") (bare "cat") [] []])]).
Lemma plain_bare s : (forall c, In c (lit s) -> is_whitespace c = false) -> plain_word (bare s).
Proof. intros H. exists (lit s). split; [reflexivity|exact H]. Qed.
Ltac no_white := let c := fresh in let H := fresh in intros c H; cbn in H; repeat (destruct H as [<-|H]; [reflexivity|]); contradiction.
Lemma valid_bare s : forallb ordinary (lit s) = true -> lit s <> [] -> valid_word (bare s).
Proof.
  intros H N. split; [intros E; apply map_eq_nil in E; contradiction|]. intros b c I _. apply in_map_iff in I as (d & E & I). injection E as _ <-.
  rewrite forallb_forall in H. apply H, I.
Qed.
Ltac vb := apply valid_bare; [reflexivity|discriminate].
Example C116_example : let rm := CmdLine (lit " ") (bare "rm") [Arg (lit " ") (bare "-rf"); Arg (lit " ") (bare "build")] (lit " ") in
  typed_line demo_line = lit "make ; rm -rf build | cat" /\ valid_line demo_line /\ Forall (known in_bin) (all_commands demo_line) /\
  (exists g, In g (segments demo_line) /\ up_front g rm) /\ plain_cmd rm /\ dangerous_cmd rm /\ ~ In open_paren (typed_line demo_line).
Proof.
  cbn zeta. split; [reflexivity|]. split; [|split; [|split; [|split; [|split]]]].
  - split.
    + split; [repeat constructor; try vb|]. split; [discriminate|constructor].
    + split; [|split; [discriminate|exact I]]. split; [|split; [discriminate|repeat constructor; discriminate]].
      constructor; [|constructor; [|constructor]].
      * split; [reflexivity|]. split; [reflexivity|]. split; [vb|]. constructor; [|constructor; [|constructor]]; (split; [reflexivity|split; [left; discriminate|vb]]).
      * split; [reflexivity|]. split; [reflexivity|]. split; [vb|constructor].
  - repeat constructor; discriminate.
  - eexists. split; [right; left; reflexivity|]. left. split; [reflexivity|]. eexists. split; [reflexivity|discriminate].
  - split; [apply plain_bare; no_white|]. repeat constructor; apply plain_bare; no_white.
  - exists (lit "rm"). split; [apply known_as_iff; reflexivity|]. apply D_rm. exists (lit "-rf"). split; [left; reflexivity|]. right. right. left. exists []. reflexivity.
  - cbn. intros H. repeat (destruct H as [H|H]; [discriminate H|]). exact H.
Qed.

Lemma check_normal_step prev text rest allow : check_jobs [text] Normal allow = Allowed ->
  (forall p, prev = Some p -> is_network_tool (get_command_name (first_word p)) = false) ->
  check_normal prev (text :: rest) allow = check_normal (Some text) rest allow.
Proof.
  intros H P. cbn [check_jobs check_normal] in *. destruct (mem_str text allow); [reflexivity|].
  assert (B : match prev with None => false | Some p => is_network_tool (get_command_name (first_word p)) && is_execution_tool (get_command_name (first_word text)) end = false).
  { destruct prev as [p|]; [|reflexivity]. rewrite (P p eq_refl). reflexivity. }
  rewrite B. destruct (split_whitespace text) as [|c args]; [reflexivity|]. destruct (check_one _ _ _ args); [reflexivity|discriminate..].
Qed.
(** a text whose first word is not of interest to the guard passes *)
Lemma first_word_passes n text u allow : text = n ++ 32%N :: u -> (forall c, In c n -> is_whitespace c = false) -> n <> [] ->
  mem_str (get_command_name n) always_warn = false -> checker (get_command_name n) = None -> check_jobs [text] Normal allow = Allowed.
Proof.
  intros -> T N A C.
  assert (S : split_whitespace (n ++ 32%N :: u) = n :: split_whitespace (32%N :: u)).
  { apply (words_step [] n (32%N :: u)); [intros x []|exact N|exact T|right; eexists; eexists; split; reflexivity]. }
  cbn [check_jobs check_normal]. unfold first_word. rewrite S. destruct (mem_str _ allow); [reflexivity|].
  unfold check_one. rewrite A, C. reflexivity.
Qed.

(** The full statement is false in many ways.  First, for every command: after a bar, or
    after a background command, it is not looked at. *)
Theorem C116_later_stage_refuted : forall resolve substitute c p allow, valid_cmd c -> known resolve c -> lead c <> [] ->
  resolve (lit "true") = IsProgram p ->
  exists j, jobs_of resolve substitute (lit "true |" ++ typed_cmd c) = Some [j] /\
    procs j = [Program p [lit "true"]; process_for resolve c] /\ check_jobs [cmd j] Normal allow = Allowed.
Proof.
  intros resolve substitute c p allow V K L R.
  set (t := CmdLine [] (bare "true") [] (lit " ")). set (l := (Segment [] [t; c], []) : line).
  assert (Kt : known resolve t) by (split; [discriminate|change (meaning (name t)) with (lit "true"); rewrite R; exact I]).
  assert (Vt : valid_cmd t) by (split; [reflexivity|split; [reflexivity|split; [vb|constructor]]]).
  assert (Vl : valid_line l) by (split; [|exact I]; split; [constructor; [exact Vt|constructor; [exact V|constructor]]|split; [discriminate|constructor; [exact L|constructor]]]).
  destruct (jobs_of_line_texts resolve substitute l [] Vl (or_introl eq_refl)) as (js & E & _ & M & T); [constructor; [exact Kt|constructor; [exact K|constructor]]|].
  assert (El : typed_line l ++ [] = lit "true |" ++ typed_cmd c) by (unfold typed_line; cbn [fst snd flat_map]; rewrite !app_nil_r; reflexivity).
  rewrite El in E. unfold line_texts in T. cbn in T.
  destruct js as [|j [|j' js]]; try discriminate T. exists j. split; [exact E|]. cbn [map] in T. injection T as T. split.
  - unfold line_jobs in M. cbn [fst snd rest_jobs segment_jobs bgs pipe map app] in M. unfold shape_of in M. cbn [map] in M. injection M as M _ _ _.
    rewrite M. f_equal. unfold process_for. change (meaning (name t)) with (lit "true"). rewrite R. reflexivity.
  - apply (first_word_passes (lit "true") (cmd j) (lit "|" ++ typed_cmd c)); [exact (T : cmd j = lit "true" ++ 32%N :: (lit "|" ++ typed_cmd c))|no_white|discriminate|reflexivity..].
Qed.
Print Assumptions C116_later_stage_refuted.

Theorem C116_after_background_refuted : forall resolve substitute c p allow, valid_cmd c -> known resolve c ->
  resolve (lit "sleep") = IsProgram p ->
  exists j1 j2, jobs_of resolve substitute (lit "sleep 9 &" ++ typed_cmd c) = Some [j1; j2] /\
    procs j1 = [Program p [lit "sleep"; lit "9"]] /\ procs j2 = [process_for resolve c] /\ check_jobs [cmd j1; cmd j2] Normal allow = Allowed.
Proof.
  intros resolve substitute c p allow V K R.
  set (t := CmdLine [] (bare "sleep") [Arg (lit " ") (bare "9")] (lit " ")). set (l := (Segment [t] [c], []) : line).
  assert (Kt : known resolve t) by (split; [discriminate|change (meaning (name t)) with (lit "sleep"); rewrite R; exact I]).
  assert (Vt : valid_cmd t) by (split; [reflexivity|split; [reflexivity|split; [vb|constructor; [|constructor]]]]; split; [reflexivity|split; [left; discriminate|vb]]).
  assert (Vl : valid_line l) by (split; [|exact I]; split; [constructor; [exact Vt|constructor; [exact V|constructor]]|split; [discriminate|constructor]]).
  destruct (jobs_of_line_texts resolve substitute l [] Vl (or_introl eq_refl)) as (js & E & _ & M & T); [constructor; [exact Kt|constructor; [exact K|constructor]]|].
  assert (El : typed_line l ++ [] = lit "sleep 9 &" ++ typed_cmd c) by (unfold typed_line; cbn [fst snd flat_map]; rewrite !app_nil_r; reflexivity).
  rewrite El in E. unfold line_texts in T. cbn in T.
  destruct js as [|j1 [|j2 [|j3 js]]]; try discriminate T. exists j1, j2. split; [exact E|]. cbn [map] in T.
  assert (T1 : cmd j1 = lit "sleep" ++ 32%N :: lit "9 &") by (injection T as T1 _; exact T1).
  assert (T2 : cmd j2 = lit "sleep" ++ 32%N :: (lit "9 &" ++ typed_cmd c)) by (injection T as _ T2; exact T2).
  assert (P1 : check_jobs [cmd j1] Normal allow = Allowed) by (eapply first_word_passes; [exact T1|no_white|discriminate|reflexivity..]).
  assert (P2 : check_jobs [cmd j2] Normal allow = Allowed) by (eapply first_word_passes; [exact T2|no_white|discriminate|reflexivity..]).
  unfold line_jobs in M. cbn [fst snd rest_jobs segment_jobs bgs pipe map app] in M. unfold shape_of in M. cbn [map] in M. injection M as M1 _ _ _ M2 _ _ _.
  split; [|split; [exact M2|]].
  - rewrite M1. unfold process_for. change (meaning (name t)) with (lit "sleep"). rewrite R. reflexivity.
  - cbn [check_jobs]. rewrite (check_normal_step None _ _ _ P1) by discriminate.
    rewrite (check_normal_step (Some (cmd j1)) _ _ _ P2); [reflexivity|]. intros q Q. injection Q as <-. rewrite T1. reflexivity.
Qed.
Print Assumptions C116_after_background_refuted.
Example C116_refuted_example :
  exists c, valid_cmd c /\ known in_bin c /\ lead c <> [] /\ dangerous_cmd c /\ plain_cmd c.
Proof.
  exists (CmdLine (lit " ") (bare "rm") [Arg (lit " ") (bare "-rf"); Arg (lit " ") (bare "x")] []).
  split; [split; [reflexivity|split; [reflexivity|split; [vb|]]]; constructor; [|constructor; [|constructor]]; (split; [reflexivity|split; [left; discriminate|vb]])|].
  split; [split; [discriminate|exact I]|]. split; [discriminate|]. split.
  - exists (lit "rm"). split; [apply known_as_iff; reflexivity|]. apply D_rm. exists (lit "-rf"). split; [left; reflexivity|]. right. right. left. exists []. reflexivity.
  - split; [apply plain_bare; no_white|]. repeat constructor; apply plain_bare; no_white.
Qed.

(** Second, by its spelling: the guard reads the text, not the words the program gets.  Each
    line passes unasked, and the commands run are those shown: quotes or a backslash in the
    name or in an option, a redirection before the subcommand, no blank before the bar or the
    ampersand, the prefix nopty. *)
Definition passes (s : string) (ps : list (list string)) : Prop :=
  exists js, jobs_of in_bin (fun _ _ => []) (lit s) = Some js /\ flat_map procs js = map program ps /\ check_jobs (map cmd js) Normal [] = Allowed.
Theorem C116_spelling_refuted :
  passes "'rm' -rf x" [["rm"; "-rf"; "x"]]%string /\ passes "r\m -rf x" [["rm"; "-rf"; "x"]]%string /\
  passes "rm '-rf' x" [["rm"; "-rf"; "x"]]%string /\ passes "git >log push --force" [["git"; "push"; "--force"]]%string /\
  passes "rm x -r&" [["rm"; "x"; "-r"]]%string /\ passes "rm x -r|cat" [["rm"; "x"; "-r"]; ["cat"]]%string /\
  passes "nopty rm -rf x" [["rm"; "-rf"; "x"]]%string.
Proof. repeat split; eexists; (split; [vm_compute; reflexivity|split; vm_compute; reflexivity]). Qed.
Print Assumptions C116_spelling_refuted.

(** Third, inside a substitution: "echo $(rm -rf x)" passes, and rm has run before the guard
    looks at the line. *)
Theorem C116_substitution_refuted :
  forall W spawn capacity next_fd launch launch_capture lisp bg (w w1 : W) st out wt ask,
  (forall j, procs j = [program ["rm"; "-rf"; "x"]%string] -> spawn w j = (w1, (st, out))) -> blen out <= capacity ->
  exists o, eval_line W spawn capacity next_fd in_bin Some launch launch_capture lisp bg w wt Normal [] ask (lit "echo $(rm -rf x)") = (w1, Got o)
    /\ Eval_Model.asked W o = false.
Proof.
  intros W spawn capacity next_fd launch lc lisp bg w w1 st out wt ask Sp Cap.
  assert (G : exists j, get_jobs W spawn capacity next_fd in_bin w (lit "echo $(rm -rf x)") = (w1, Got [j]) /\ cmd j = lit "echo $(rm -rf x)").
  { unfold get_jobs. let p := eval vm_compute in (parse (lit "echo $(rm -rf x)")) in replace (parse (lit "echo $(rm -rf x)")) with p by (vm_compute; reflexivity).
    cbv -[blen Nat.ltb split_whitespace trim_newlines]. rewrite Sp by reflexivity.
    assert (C : capacity <? blen out = false) by (apply Nat.ltb_ge; exact Cap). rewrite C.
    destruct (split_whitespace (trim_newlines out)); eexists; split; reflexivity. }
  destruct G as (j & G & C). unfold eval_line. change (smart_pipe (lit "echo $(rm -rf x)")) with (lit "echo $(rm -rf x)"). rewrite G. cbn [bind].
  eexists. split; [reflexivity|]. unfold Eval_Model.eval_jobs. cbn [map to_run fst Eval_Model.cmd]. rewrite C.
  change (check_jobs [lit "echo $(rm -rf x)"] Normal []) with Allowed. cbv iota. destruct (Eval_Model.run_jobs W launch lc lisp bg w1 wt [to_run j]). reflexivity.
Qed.
Print Assumptions C116_substitution_refuted.

(** ** C117, C118: the commands of a substitution, and what they write *)
Section Sub.
Variable W : Type.
Variable spawn : W -> job -> W * (nat * str).
Variable capacity : nat.
Variable next_fd : W -> str.
Notation run_sub := (run_sub W spawn capacity next_fd).
Notation launch_subshell := (launch_subshell W spawn capacity).

Lemma launch_fits js : forall w pre w' out sts, run_each W spawn w js = (w', out, sts) -> blen (pre ++ out) <= capacity ->
  launch_subshell w pre js = (w', Got (pre ++ out)).
Proof using.
  induction js as [|j js IH]; intros w pre w' out sts E C; cbn [run_each Line_Model.launch_subshell] in *.
  - injection E as <- <- <-. rewrite app_nil_r. reflexivity.
  - destruct (spawn w j) as [w1 [st o]]. destruct (run_each W spawn w1 js) as [[w2 outs] sts'] eqn:E2. injection E as <- <- <-.
    rewrite app_assoc in C. assert (L : capacity <? blen (pre ++ o) = false) by (apply Nat.ltb_ge; rewrite blen_app in C; lia).
    rewrite L, (IH w1 (pre ++ o) w2 outs sts' E2 C), <- app_assoc. reflexivity.
Qed.
Lemma launch_stuck js : forall w pre w' out sts, run_each W spawn w js = (w', out, sts) -> blen pre <= capacity -> capacity < blen (pre ++ out) ->
  snd (launch_subshell w pre js) = Stuck.
Proof using.
  induction js as [|j js IH]; intros w pre w' out sts E P C; cbn [run_each Line_Model.launch_subshell] in *.
  - injection E as <- <- <-. rewrite app_nil_r in C. lia.
  - destruct (spawn w j) as [w1 [st o]]. destruct (run_each W spawn w1 js) as [[w2 outs] sts'] eqn:E2. injection E as <- <- <-.
    rewrite app_assoc in C. destruct (capacity <? blen (pre ++ o)) eqn:L; [reflexivity|]. apply Nat.ltb_ge in L. exact (IH w1 (pre ++ o) w2 outs sts' E2 L C).
Qed.
Lemma run_short_none js : forall w, Forall (fun j => op j = OpNone) js -> forall st, run_short W spawn w OpNone st js = fst (run_each W spawn w js).
Proof using.
  induction js as [|j js IH]; intros w F st; [reflexivity|]. inversion F as [|? ? Fj F']; subst. cbn [run_short run_each].
  destruct (spawn w j) as [w1 [s o]]. rewrite Fj, (IH w1 F' s). destruct (run_each W spawn w1 js) as [[w2 outs] sts]. reflexivity.
Qed.

(** C117: as long as the output fits into a pipe, the commands of a substitution run one
    after the other, each once; with semicolons that is what a line does.  Missing: with &&
    and || it is not, see below. *)
Theorem C117_substitution_runs_partial : forall w k js w' out sts,
  run_each W spawn w js = (w', out, sts) -> blen out <= capacity ->
  fst (run_sub w k js) = w' /\ snd (run_sub w k js) <> Stuck /\
  (Forall (fun j => op j = OpNone) js -> run_short W spawn w OpNone 0 js = (w', out)).
Proof using.
  intros w k js w' out sts E C. unfold Line_Model.run_sub. rewrite (launch_fits js w [] w' out sts E C). cbn [fst snd]. split; [reflexivity|].
  split; [discriminate|]. intros F. rewrite (run_short_none js w F), E. reflexivity.
Qed.

(** C118: a command substitution stands for the words its commands write, as long as they fit
    into a pipe. *)
Theorem C118_substitution_words_partial : forall w js w' out sts,
  run_each W spawn w js = (w', out, sts) -> blen out <= capacity ->
  exists ws, run_sub w CommandSubstitution js = (w', Got ws) /\ Words out ws.
Proof using.
  intros w js w' out sts E C. unfold Line_Model.run_sub. rewrite (launch_fits js w [] w' out sts E C). eexists. split; [reflexivity|].
  cbn [words_of app]. apply Words_iff.
  assert (K : forall s, exists k, s = trim_newlines s ++ repeat 10%N k).
  { induction s as [|c s (k & Hk)]; [exists 0; reflexivity|]. cbn [trim_newlines]. destruct (trim_newlines s) as [|d t] eqn:T.
    - destruct (c =? 10)%N eqn:Ec.
      + apply N.eqb_eq in Ec. subst c. exists (S k). cbn [app repeat]. f_equal. exact Hk.
      + exists k. cbn [app] in *. f_equal. exact Hk.
    - exists k. cbn [app] in *. f_equal. exact Hk. }
  destruct (K out) as (k & Hk). rewrite Hk at 1. apply Words_split. clear.
  assert (G : forall ws, Words (trim_newlines out) ws -> Words (trim_newlines out ++ repeat 10%N k) ws).
  { intros ws H. induction H as [s H|gap w rest ws Hg N Hw Hr H IH].
    - constructor. intros c I. apply in_app_or in I as [I|I]; [auto|]. apply repeat_spec in I. subst c. reflexivity.
    - rewrite <- !app_assoc. constructor; auto. destruct Hr as [->|(c & r & -> & Hc)]; [|right; eexists; eexists; split; [reflexivity|exact Hc]].
      destruct k as [|k]; [left; reflexivity|right]. eexists. eexists. split; reflexivity. }
  apply G, Words_iff. reflexivity.
Qed.

(** The full statement is false for every substitution that writes more: the shell waits for
    the command, and the command for somebody to read. *)
Theorem C118_large_output_refuted : forall w k js w' out sts,
  run_each W spawn w js = (w', out, sts) -> capacity < blen out -> snd (run_sub w k js) = Stuck.
Proof using.
  intros w k js w' out sts E C. unfold Line_Model.run_sub. pose proof (launch_stuck js w [] w' out sts E) as K.
  destruct (launch_subshell w [] js) as [w1 r]. cbn [fst snd] in *. rewrite K; [reflexivity|cbn; lia|exact C].
Qed.
End Sub.
Print Assumptions C117_substitution_runs_partial.
Print Assumptions C118_substitution_words_partial.
Print Assumptions C118_large_output_refuted.

(** "echo $(false && touch x)": touch runs, whatever status false has *)
Theorem C117_short_circuit_refuted :
  forall W spawn capacity next_fd (w w1 w2 : W) st1 st2,
  (forall j, procs j = [program ["false"]%string] -> spawn w j = (w1, (st1, []))) ->
  (forall j, procs j = [program ["touch"; "x"]%string] -> spawn w1 j = (w2, (st2, []))) ->
  exists js, get_jobs W spawn capacity next_fd in_bin w (lit "echo $(false && touch x)") = (w2, Got js).
Proof.
  intros W spawn capacity next_fd w w1 w2 st1 st2 S1 S2.
  unfold get_jobs. let p := eval vm_compute in (parse (lit "echo $(false && touch x)")) in replace (parse (lit "echo $(false && touch x)")) with p by (vm_compute; reflexivity).
  cbv -[Nat.ltb]. rewrite S1 by reflexivity. change (capacity <? 0) with false. cbv iota beta. rewrite S2 by reflexivity. eexists. reflexivity.
Qed.
Print Assumptions C117_short_circuit_refuted.

(** "echo $(gen)": with small output echo gets its words; with large output the line never
    returns *)
Theorem C118_line_refuted :
  forall W spawn capacity next_fd launch launch_capture lisp bg (w w1 : W) st out wt lv allow ask,
  (forall j, procs j = [program ["gen"]%string] -> spawn w j = (w1, (st, out))) ->
  (blen out <= capacity -> exists ws j, Words out ws /\ get_jobs W spawn capacity next_fd in_bin w (lit "echo $(gen)") = (w1, Got [j]) /\
     procs j = [Program (lit "/bin/echo") (lit "echo" :: ws)]) /\
  (capacity < blen out ->
     eval_line W spawn capacity next_fd in_bin Some launch launch_capture lisp bg w wt lv allow ask (lit "echo $(gen)") = (w1, Stuck)).
Proof.
  intros W spawn capacity next_fd launch lc lisp bg w w1 st out wt lv allow ask Sp.
  set (g := Job (lit "gen") [program ["gen"]%string] true Subshell None OpNone false false []).
  assert (G : get_jobs W spawn capacity next_fd in_bin w (lit "echo $(gen)") =
    bind W (run_sub W spawn capacity next_fd w CommandSubstitution [g])
      (fun w ws => (w, Got [Job (lit "echo $(gen)") [Program (lit "/bin/echo") (lit "echo" :: ws)] true SubNone None OpNone false false []]))).
  { unfold get_jobs. let p := eval vm_compute in (parse (lit "echo $(gen)")) in replace (parse (lit "echo $(gen)")) with p by (vm_compute; reflexivity).
    cbv -[blen Nat.ltb split_whitespace trim_newlines]. rewrite !Sp by reflexivity.
    destruct (capacity <? blen out); [reflexivity|]. destruct (split_whitespace (trim_newlines out)); reflexivity. }
  assert (R : run_each W spawn w [g] = (w1, out, [st])) by (cbn [run_each]; rewrite (Sp g eq_refl), app_nil_r; reflexivity).
  split; intros C.
  - destruct (C118_substitution_words_partial W spawn capacity next_fd w [g] w1 out [st] R C) as (ws & E & Hw).
    exists ws. eexists. split; [exact Hw|]. rewrite G, E. cbn [bind]. split; reflexivity.
  - unfold eval_line. change (smart_pipe (lit "echo $(gen)")) with (lit "echo $(gen)"). rewrite G.
    unfold run_sub. cbn [launch_subshell]. rewrite (Sp g eq_refl). cbn [app]. assert (L : capacity <? blen out = true) by (apply Nat.ltb_lt; exact C).
    rewrite L. reflexivity.
Qed.
Print Assumptions C118_line_refuted.

(** ** C119: what a list in parentheses prints is run as a command *)
Theorem C119_parenthesised_list_refuted :
  forall W spawn capacity next_fd (w w1 : W) st,
  (forall j, procs j = [program ["cat"; "f"]%string] -> spawn w j = (w1, (st, lit "rm" ++ [10%N] ++ lit "-rf" ++ [10%N] ++ lit "my dir" ++ [10%N]))) -> 14 <= capacity ->
  exists j, get_jobs W spawn capacity next_fd in_bin w (lit "(cat f)") = (w1, Got [j]) /\ procs j = [program ["rm"; "-rf"; "my dir"]%string]
    /\ forall lv, check_jobs [cmd j] Normal [] = Allowed /\ check_jobs [cmd j] lv [lit "(cat f)"] = Allowed.
Proof.
  intros W spawn capacity next_fd w w1 st Sp Cap.
  unfold get_jobs. let p := eval vm_compute in (parse (lit "(cat f)")) in replace (parse (lit "(cat f)")) with p by (vm_compute; reflexivity).
  cbv -[Nat.ltb check_jobs]. rewrite Sp by reflexivity.
  assert (L : capacity <? 14 = false) by (apply Nat.ltb_ge; exact Cap). change (blen _) with 14. cbv -[Nat.ltb check_jobs]. rewrite L.
  eexists. split; [reflexivity|]. split; [reflexivity|]. intros []; split; vm_compute; reflexivity.
Qed.
Print Assumptions C119_parenthesised_list_refuted.

(** What holds: a list that prints nothing but newlines runs, each command once and in order,
    and adds nothing to the line. *)
Theorem C119_silent_list_partial :
  forall W spawn capacity next_fd (w : W) js w' out sts,
  run_each W spawn w js = (w', out, sts) -> (forall c, In c out -> c = 10%N) -> length out <= capacity ->
  run_sub W spawn capacity next_fd w Subshell js = (w', Got []).
Proof.
  intros W spawn capacity next_fd w js w' out sts E A C.
  assert (B : blen out = length out /\ trim_newlines out = []).
  { clear E C. induction out as [|c out IH]; [split; reflexivity|]. destruct IH as [I1 I2]; [intros d Hd; apply A; right; exact Hd|].
    pose proof (A c (or_introl eq_refl)) as ->. split.
    - change (blen (10%N :: out)) with (1 + blen out). cbn [length]. lia.
    - cbn [trim_newlines]. rewrite I2. reflexivity. }
  destruct B as [B1 B2]. unfold run_sub. rewrite (launch_fits W spawn capacity js w [] w' out sts E) by (cbn [app]; lia).
  cbn [words_of app]. rewrite B2. reflexivity.
Qed.
Print Assumptions C119_silent_list_partial.
Example C119_silent_example :
  get_jobs (list job) (fun w j => (w ++ [j], (0, []))) 4096 (fun _ => []) in_bin [] (lit "(mkdir a ; touch a/b)")
  = ([Job (lit "mkdir a ") [program ["mkdir"; "a"]%string] true Subshell None OpNone false false [];
      Job (lit "touch a/b") [program ["touch"; "a/b"]%string] true Subshell None OpNone false false []], Got []).
Proof. vm_compute. reflexivity. Qed.

(** ... but its status is lost: "(false) && touch x" runs touch, whatever status false has *)
Theorem C119_status_refuted :
  forall W spawn capacity next_fd (w w1 : W) st,
  (forall j, procs j = [program ["false"]%string] -> spawn w j = (w1, (st, []))) ->
  exists j, get_jobs W spawn capacity next_fd in_bin w (lit "(false) && touch x") = (w1, Got [j]) /\ procs j = [program ["touch"; "x"]%string].
Proof.
  intros W spawn capacity next_fd w w1 st Sp.
  unfold get_jobs. let p := eval vm_compute in (parse (lit "(false) && touch x")) in replace (parse (lit "(false) && touch x")) with p by (vm_compute; reflexivity).
  cbv -[Nat.ltb]. rewrite Sp by reflexivity. change (capacity <? 0) with false. cbv iota beta. eexists. split; reflexivity.
Qed.
Print Assumptions C119_status_refuted.

(** hypotheses of the theorems above are met: a world that logs the commands *)
Example C06_example :
  let sp := fun (w : list process) j => (w ++ procs j, (0, lit "y")) in
  let ev := eval_line (list process) sp 4096 (fun _ => lit "9") in_bin Some
    (fun w j => (w ++ [Builtin (Eval_Model.cmd j) []], Some (Eval_Model.PCompleted 0))) (fun w j => (w, None)) (fun w e => (w, true)) false [] [] Normal [] No in
  fst (ev (lit "ls; rm -rf x")) = [] /\ fst (ev (lit "dd $(touch x)")) = [program ["touch"; "x"]%string]
  /\ match snd (ev (lit "ls; rm -rf x")) with Got o => Eval_Model.value _ o = Some 130 /\ Eval_Model.trace _ (Eval_Model.final _ o) = [] | _ => False end
  /\ match snd (ev (lit "ls; pwd")) with Got o => length (Eval_Model.trace _ (Eval_Model.final _ o)) = 6 | _ => False end.
Proof. vm_compute. repeat split. Qed.
Example C118_example :
  let sp := fun (w : nat) (j : job) => (S w, (0, lit "one" ++ [10%N] ++ lit "two three" ++ [10%N])) in
  snd (run_sub nat sp 4096 (fun _ => []) 0 CommandSubstitution [new_job []]) = Got [lit "one"; lit "two"; lit "three"]
  /\ snd (run_sub nat sp 10 (fun _ => []) 0 CommandSubstitution [new_job []]) = Stuck.
Proof. vm_compute. split; reflexivity. Qed.
