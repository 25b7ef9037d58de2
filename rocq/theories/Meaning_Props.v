(** From the text of a line to what it does: C125, C126. *)
From Verif Require Import Base Safety_Model Safety_Spec Peg_Model Grammar_Model Parse_Model Parse_Spec Parse_Proofs Line_Model Line_Spec Line_Proofs Line_Props Meaning_Spec.
From Verif Require Eval_Model Eval_Spec Eval_Props Parse_Props.
Import Eval_Spec(One, AndThen, OrElse, flat, flat_line).

(** ** Jobs by segments *)
Definition sep_of (r : list (separator * segment)) : list_op := match r with (s, _) :: _ => op_for s | [] => OpNone end.
Definition ops_are (js : list job) (o : list_op) : Prop := exists a j, js = a ++ [j] /\ Forall (fun k => op k = OpNone) a /\ op j = o.
Lemma segment_ops resolve g : Forall (fun s : shape => snd s = OpNone) (segment_jobs resolve g).
Proof.
  unfold segment_jobs. apply Forall_app. split; [apply Forall_forall; intros x I; apply in_map_iff in I as (c & <- & _); reflexivity|].
  destruct (pipe g); repeat constructor.
Qed.
Lemma segment_nonempty resolve g : valid_segment g -> segment_jobs resolve g <> [].
Proof.
  intros (_ & N & _) E. unfold segment_jobs in E. apply app_eq_nil in E as [E1 E2]. apply map_eq_nil in E1. rewrite E1 in N. destruct (pipe g); [contradiction N; reflexivity|discriminate E2].
Qed.
Lemma shapes_none js l : map shape_of js = l -> Forall (fun s : shape => snd s = OpNone) l -> Forall (fun k => op k = OpNone) js.
Proof. intros <- F. apply Forall_forall. intros j I. rewrite Forall_forall in F. exact (F (shape_of j) (in_map shape_of js j I)). Qed.
Lemma last_split {A} (l : list A) : l <> [] -> exists a x, l = a ++ [x].
Proof. intros N. destruct (exists_last N) as (a & x & ->). eauto. Qed.
Lemma rest_split resolve : forall r prev js, map shape_of js = rest_jobs resolve prev r -> prev <> [] -> Forall (fun s : shape => snd s = OpNone) prev ->
  Forall (fun sg : separator * segment => valid_segment (snd sg)) r ->
  exists p jss, js = p ++ concat jss /\ map (fun j => what (shape_of j)) p = map what prev /\ ops_are p (sep_of r)
    /\ Forall2 (fun (sg : separator * segment) js => map (fun j => what (shape_of j)) js = map what (segment_jobs resolve (snd sg))) r jss
    /\ (fix all (r : list (separator * segment)) (jss : list (list job)) : Prop := match r, jss with _ :: r', js :: jss' => ops_are js (sep_of r') /\ all r' jss' | _, _ => True end) r jss.
Proof.
  induction r as [|[s g] r IH]; intros prev js E N F V.
  - cbn [rest_jobs] in E. exists js, []. cbn [concat]. rewrite app_nil_r. split; [reflexivity|]. split; [rewrite <- E, map_map; reflexivity|]. split; [|split; [constructor|exact I]].
    destruct js as [|j0 js0]; [cbn in E; congruence|]. destruct (last_split (j0 :: js0)) as (a & x & Ea); [discriminate|]. exists a, x. pose proof (shapes_none _ _ E F) as O. rewrite Ea in O.
    apply Forall_app in O as [O1 O2]. inversion O2; subst. auto.
  - cbn [rest_jobs] in E. apply map_eq_app in E as (p & q & -> & E1 & E2). inversion V as [|? ? Vg V']; subst.
    destruct (IH (segment_jobs resolve g) q E2 (segment_nonempty resolve g Vg) (segment_ops resolve g) V') as (p2 & jss & -> & M2 & O2 & F2 & A2).
    exists p, (p2 :: jss). split; [reflexivity|]. destruct (last_split prev N) as (a & [[[ps f] rd] o] & ->). unfold with_op in E1. rewrite rev_app_distr in E1. cbn [rev app] in E1. rewrite rev_involutive in E1.
    apply map_eq_app in E1 as (b & y & -> & B1 & B2). destruct y as [|y [|? ?]]; try discriminate B2. cbn [map] in B2. inversion B2 as [[Y1 Y2 Y3 Y4]]. apply Forall_app in F as [Fa _].
    split; [rewrite !map_app; cbn [map what]; unfold shape_of at 2; rewrite Y1, Y2, Y3; f_equal; rewrite <- B1, map_map; reflexivity|]. split.
    + exists b, y. split; [reflexivity|]. split; [exact (shapes_none _ _ B1 Fa)|exact Y4].
    + split; [constructor; [exact M2|exact F2]|]. split; [exact O2|exact A2].
Qed.

(** ** The operators make the lists *)
Definition eop (s : separator) : Eval_Model.list_op := match s with Semi => Eval_Model.OpNone | AndIf => Eval_Model.OpAnd | OrIf => Eval_Model.OpOr end.
Fixpoint seq (js : list Eval_Model.job) (o : Eval_Model.list_op) : list (Eval_Model.job * Eval_Model.list_op) :=
  match js with [] => [] | [j] => [(j, o)] | j :: r => (j, Eval_Model.OpNone) :: seq r o end.
Definition next (r : list (separator * list Eval_Model.job)) : Eval_Model.list_op := match r with (s, _) :: _ => eop s | [] => Eval_Model.OpNone end.
Fixpoint flatten (r : list (separator * list Eval_Model.job)) : list (Eval_Model.job * Eval_Model.list_op) :=
  match r with [] => [] | (_, js) :: r' => seq js (next r') ++ flatten r' end.
Lemma flat_line_app a b : flat_line (a ++ b) = flat_line a ++ flat_line b. Proof. apply flat_map_app. Qed.
Lemma flat_line_one a : flat_line [a] = flat a Eval_Model.OpNone. Proof. cbn. apply app_nil_r. Qed.
Lemma own_flat js : forall done cur o, let '(d, c) := own done cur js in
  flat_line d ++ flat c o = flat_line done ++ match js with [] => flat cur o | _ => flat cur Eval_Model.OpNone ++ seq js o end.
Proof.
  induction js as [|j js IH]; intros done cur o; [reflexivity|]. cbn [own]. specialize (IH (done ++ [cur]) (One j) o). destruct (own (done ++ [cur]) (One j) js) as [d c].
  rewrite IH, flat_line_app, flat_line_one. rewrite <- app_assoc. destruct js; reflexivity.
Qed.
Lemma lists_flat : forall rest done cur, Forall (fun sj : separator * list Eval_Model.job => snd sj <> []) rest ->
  flat_line (lists done cur rest) = flat_line done ++ flat cur (next rest) ++ flatten rest.
Proof.
  induction rest as [|[s js] rest IH]; intros done cur F.
  - cbn [lists next flatten]. rewrite flat_line_app, flat_line_one, app_nil_r. reflexivity.
  - inversion F as [|? ? Fj F']; subst. cbn [snd] in Fj. destruct js as [|j js]; [congruence|]. cbn [lists next flatten]. destruct s.
    + pose proof (own_flat js (done ++ [cur]) (One j) (next rest)) as O. destruct (own (done ++ [cur]) (One j) js) as [d c]. rewrite IH by exact F'. rewrite app_assoc, O, flat_line_app, flat_line_one, <- !app_assoc.
      cbn [eop]. destruct js; cbn [seq flat app]; rewrite <- ?app_assoc; reflexivity.
    + pose proof (own_flat js done (AndThen cur j) (next rest)) as O. destruct (own done (AndThen cur j) js) as [d c]. rewrite IH by exact F'. rewrite app_assoc, O, <- !app_assoc.
      cbn [eop]. destruct js; cbn [seq flat app]; rewrite <- ?app_assoc; cbn [app]; rewrite <- ?app_assoc; reflexivity.
    + pose proof (own_flat js done (OrElse cur j) (next rest)) as O. destruct (own done (OrElse cur j) js) as [d c]. rewrite IH by exact F'. rewrite app_assoc, O, <- !app_assoc.
      cbn [eop]. destruct js; cbn [seq flat app]; rewrite <- ?app_assoc; cbn [app]; rewrite <- ?app_assoc; reflexivity.
Qed.

Lemma to_run_plain j : is_plain j -> procs j <> [] -> to_run j = (handed j, to_op (op j)).
Proof. intros (_ & C & _ & X) N. unfold to_run, handed. rewrite C, X. unfold has_process. destruct (procs j); [congruence|reflexivity]. Qed.
Lemma seq_snoc a j o : seq (a ++ [j]) o = map (fun k => (k, Eval_Model.OpNone)) a ++ [(j, o)].
Proof. induction a as [|x a IH]; [reflexivity|]. cbn [app map]. rewrite <- IH. destruct a; reflexivity. Qed.
Lemma run_seq js o : Forall is_plain js -> Forall (fun j => procs j <> []) js -> ops_are js o -> map to_run js = seq (map handed js) (to_op o).
Proof.
  intros P Q (a & j & -> & A & <-). rewrite !map_app. cbn [map]. rewrite seq_snoc. apply Forall_app in P as [P1 P2]. apply Forall_app in Q as [Q1 Q2]. inversion P2; inversion Q2; subst.
  rewrite (to_run_plain j) by assumption. f_equal. rewrite map_map. apply map_ext_in. intros k I. rewrite Forall_forall in A, P1, Q1. rewrite (to_run_plain k) by auto. rewrite (A k I). reflexivity.
Qed.
Lemma to_op_for s : to_op (op_for s) = eop s. Proof. destruct s; reflexivity. Qed.

(** every job of a typed line has a process *)
Lemma segment_procs resolve g : Forall (fun s : shape => fst (fst (fst s)) <> []) (segment_jobs resolve g).
Proof.
  unfold segment_jobs. apply Forall_app. split; [apply Forall_forall; intros x I; apply in_map_iff in I as (c & <- & _); discriminate|].
  destruct (pipe g); repeat constructor. cbn. discriminate.
Qed.
Lemma procs_there resolve (g : segment) js : map (fun j => what (shape_of j)) js = map what (segment_jobs resolve g) -> Forall (fun j => procs j <> []) js.
Proof.
  intros M. apply Forall_forall. intros j I. apply (in_map (fun j => what (shape_of j))) in I. rewrite M in I. apply in_map_iff in I as ([[[p f] r] o] & E & I).
  pose proof (proj1 (Forall_forall _ _) (segment_procs resolve g) _ I) as K. cbn in K, E. congruence.
Qed.
Lemma map_len_nonempty resolve g js : valid_segment g -> map (fun j => what (shape_of j)) js = map what (segment_jobs resolve g) -> js <> [].
Proof. intros V M ->. cbn in M. symmetry in M. apply map_eq_nil in M. exact (segment_nonempty resolve g V M). Qed.

Lemma line_flat resolve l js : valid_line l -> map shape_of js = line_jobs resolve l -> Forall is_plain js ->
  exists jss, concat jss = js /\ Forall2 (fun g js => map (fun j => what (shape_of j)) js = map what (segment_jobs resolve g)) (segments l) jss
    /\ flat_line (line_lists l (map (map handed) jss)) = map to_run js.
Proof.
  intros [Vg Vr] M P. destruct l as [g r]. unfold line_jobs in M. cbn [fst snd] in *.
  assert (Vs : Forall (fun sg : separator * segment => valid_segment (snd sg)) r).
  { clear -Vr. revert g Vr. induction r as [|[s h] r IH]; intros g V; [constructor|]. cbn in V. destruct V as (V1 & _ & V2). constructor; [exact V1|exact (IH h V2)]. }
  destruct (rest_split resolve r (segment_jobs resolve g) js M (segment_nonempty resolve g Vg) (segment_ops resolve g) Vs) as (p & jss & -> & Mp & Op & F2 & A).
  exists (p :: jss). split; [reflexivity|]. apply Forall_app in P as [Pp Pj]. split.
  - unfold segments. cbn [fst snd]. constructor; [exact Mp|]. clear -F2. induction F2 as [|[s h] js r jss H _ IH]; [constructor|]. cbn [map snd]. constructor; [exact H|exact IH].
  - pose proof (map_len_nonempty resolve g p Vg Mp) as Np. pose proof (procs_there resolve g p Mp) as Qp.
    assert (K : flatten (combine (map fst r) (map (map handed) jss)) = map to_run (concat jss) /\ next (combine (map fst r) (map (map handed) jss)) = to_op (sep_of r)
       /\ Forall (fun sj : separator * list Eval_Model.job => snd sj <> []) (combine (map fst r) (map (map handed) jss))).
    { clear -F2 A Pj Vs. revert A Pj Vs. induction F2 as [|[s h] js r jss H F2 IH]; intros A Pj Vs; [repeat split; constructor|]. cbn [snd] in H.
      destruct A as [A1 A2]. cbn [concat] in Pj. apply Forall_app in Pj as [P1 P2]. inversion Vs as [|? ? V1 V2]; subst. cbn [snd] in V1. destruct (IH A2 P2 V2) as (K1 & K2 & K3).
      cbn [map fst combine flatten next sep_of concat]. split; [|split].
      - rewrite K1, K2, map_app, (run_seq js _ P1 (procs_there resolve h js H) A1). reflexivity.
      - rewrite to_op_for. reflexivity.
      - constructor; [|exact K3]. cbn [snd]. intros E. apply map_eq_nil in E. exact (map_len_nonempty resolve h js V1 H E). }
    destruct K as (K1 & K2 & K3). unfold line_lists. cbn [map]. destruct p as [|j p]; [congruence|]. cbn [map snd].
    pose proof (own_flat (map handed p) [] (One (handed j)) (next (combine (map fst r) (map (map handed) jss)))) as O.
    destruct (own [] (One (handed j)) (map handed p)) as [d c]. rewrite lists_flat by exact K3. rewrite app_assoc, O, K1, K2. rewrite map_app. f_equal.
    rewrite (run_seq (j :: p) (sep_of r)) by assumption. destruct p; reflexivity.
Qed.

Section C125.
Variable W : Type.
Variable spawn : W -> job -> W * (nat * str).
Variable capacity : nat.
Variable next_fd : W -> str.
Variable resolve : str -> found.
Variable expand : str -> option str.
Variable launch : W -> Eval_Model.job -> W * option Eval_Model.pstate.
Variable launch_capture : W -> Eval_Model.job -> W * option (Eval_Model.pstate * str).
Variable lisp : W -> str -> W * bool.
Notation eval_line := (eval_line W spawn capacity next_fd resolve expand launch launch_capture lisp).

(** A typed line that the guard lets pass does what its commands and separators say: there is
    one job for each background command and each pipeline, with the processes typed, and they
    run as the and-or lists of the separators do. *)
Theorem C125_line_does_what_it_says_partial : forall bg w wt lv allow ask input l,
  valid_line l -> Forall (known resolve) (all_commands l) -> ~ In open_paren (typed_line l) -> expand (smart_pipe input) = Some (typed_line l) ->
  exists jss o, Forall2 (fun g js => map (fun j => what (shape_of j)) js = map what (segment_jobs resolve g)) (segments l) jss
   /\ eval_line bg w wt lv allow ask input = (w, Got o)
   /\ (~ refused (concat jss) lv allow ask ->
       let e := Eval_Spec.eval_line W (Eval_Spec.exec_cmd W launch launch_capture lisp bg) (Eval_Spec.Res W w 0 wt [] Eval_Spec.Cont) (line_lists l (map (map handed) jss)) in
       let s := Eval_Model.final W o in
       Eval_Model.trace W s = Eval_Spec.revents W e /\ Eval_Model.waits W s = Eval_Spec.rwaits W e /\ Eval_Model.world W s = Eval_Spec.rw W e
       /\ Eval_Model.value W o = match Eval_Spec.rfin W e with Eval_Spec.Failed => None | _ => Some (Eval_Spec.rstatus W e) end).
Proof using.
  intros bg w wt lv allow ask input l V K Np X.
  destruct (jobs_of_line resolve (fun _ _ => []) l [] V (or_introl eq_refl) K) as (js & E & P & M). rewrite app_nil_r in E.
  destruct (line_flat resolve l js V M P) as (jss & C & F2 & Fl). exists jss.
  pose proof (C06_plain_line_is_read_without_effect W spawn capacity next_fd resolve (fun _ _ => []) w (typed_line l) Np) as G. rewrite E in G.
  destruct (C06_refused_line_partial W spawn capacity next_fd resolve expand launch launch_capture lisp bg w wt lv allow ask input (typed_line l) X w js G) as (o & Eo & _ & _ & H & _).
  exists o. split; [exact F2|]. split; [exact Eo|]. intros Nr e s. rewrite C in Nr. specialize (H Nr). rewrite <- Fl in H.
  pose proof (Eval_Props.C05_command_lists_are_andor_lists W launch launch_capture lisp bg w wt (line_lists l (map (map handed) jss))) as Q.
  rewrite <- H in Q. exact Q.
Qed.
End C125.
Print Assumptions C125_line_does_what_it_says_partial.

(** ** C126: a line that begins with a bar *)
Definition bar_line (input : str) : Prop :=
  exists w r, input = w ++ chr "|" :: r /\ (forall c, In c w -> is_whitespace c = true) /\ (forall c u, r = c :: u -> c <> chr "|" /\ c <> chr ">").
Lemma trim_start_white w r : (forall c, In c w -> is_whitespace c = true) -> trim_start (w ++ r) = trim_start r.
Proof. induction w as [|c w IH]; intros H; [reflexivity|]. cbn. rewrite (H c (or_introl eq_refl)). apply IH. intros d I. apply H. right. exact I. Qed.
Lemma trim_start_parts s : exists w, s = w ++ trim_start s /\ (forall c, In c w -> is_whitespace c = true).
Proof.
  induction s as [|c s (w & E & H)]; [exists []; split; [reflexivity|intros c []]|]. cbn. destruct (is_whitespace c) eqn:B.
  - exists (c :: w). cbn. rewrite <- E. split; [reflexivity|]. intros d [<-|I]; auto.
  - exists []. split; [reflexivity|intros d []].
Qed.
(** exactly the lines that begin with a single bar get the last output in front *)
Theorem C126_which_lines : forall input, (bar_line input -> smart_pipe input = lit "__dsh_print_last_stdout " ++ input) /\ (~ bar_line input -> smart_pipe input = input).
Proof.
  intros input. unfold smart_pipe. split.
  - intros (w & r & -> & H & N). rewrite trim_start_white by exact H. change (trim_start (chr "|" :: r)) with (chr "|" :: r).
    assert (A : forall d r', r = d :: r' -> starts_with (lit "|>") (chr "|" :: r) = false /\ starts_with (lit "||") (chr "|" :: r) = false).
    { intros d r' ->. destruct (N d r' eq_refl) as [N1 N2]. split.
      - destruct (starts_with (lit "|>") (chr "|" :: d :: r')) eqn:E; [|reflexivity]. apply starts_with_iff in E as [m E]. cbn in E. inversion E as [[E1 E2]]. contradiction (N2 E1).
      - destruct (starts_with (lit "||") (chr "|" :: d :: r')) eqn:E; [|reflexivity]. apply starts_with_iff in E as [m E]. cbn in E. inversion E as [[E1 E2]]. contradiction (N1 E1). }
    destruct r as [|d r']; [reflexivity|]. destruct (A d r' eq_refl) as [-> ->]. reflexivity.
  - intros N. destruct (trim_start_parts input) as (w & E & H). destruct (starts_with (lit "|") (trim_start input)) eqn:B; [|reflexivity].
    apply starts_with_iff in B as [r B]. destruct (starts_with (lit "|>") (trim_start input)) eqn:B1; [reflexivity|]. destruct (starts_with (lit "||") (trim_start input)) eqn:B2; [reflexivity|].
    exfalso. apply N. exists w, r. split; [rewrite E, B at 1; reflexivity|]. split; [exact H|]. intros c u ->. rewrite B in B1, B2. split; intros ->.
    + assert (Q : starts_with (lit "||") (lit "|" ++ chr "|" :: u) = true) by (apply starts_with_iff; exists u; reflexivity). congruence.
    + assert (Q : starts_with (lit "|>") (lit "|" ++ chr ">" :: u) = true) by (apply starts_with_iff; exists u; reflexivity). congruence.
Qed.
(** and such a line is the pipeline of the last output into its commands *)
Theorem C126_bar_pipes_the_last_output : forall resolve substitute g cs,
  gap g -> cs <> [] -> Forall valid_cmd cs -> Forall (fun c => lead c <> []) cs -> Forall (known resolve) cs ->
  resolve (lit "__dsh_print_last_stdout") = IsBuiltin ->
  exists j, jobs_of resolve substitute (smart_pipe (g ++ lit "|" ++ join_with (lit "|") (map typed_cmd cs))) = Some [j]
    /\ procs j = Builtin (lit "__dsh_print_last_stdout") [lit "__dsh_print_last_stdout"] :: map (process_for resolve) cs
    /\ foreground j = true /\ redirection_of j = last_redirection (flat_map redirections cs).
Proof.
  intros resolve substitute g cs G Nc V L K R.
  set (c0 := CmdLine [] (Bare (map (fun c => (false, c)) (lit "__dsh_print_last_stdout"))) [] (lit " " ++ g)).
  assert (B : bar_line (g ++ lit "|" ++ join_with (lit "|") (map typed_cmd cs))).
  { exists g, (join_with (lit "|") (map typed_cmd cs)). split; [reflexivity|]. split; [exact (gap_white g G)|]. intros c u E.
    destruct cs as [|c1 cs]; [congruence|]. inversion L as [|? ? L1 _]; inversion V as [|? ? V1 _]; subst. destruct V1 as (Gl & _).
    assert (I : In c (lead c1)).
    { destruct (lead c1) as [|d v] eqn:El; [congruence|]. assert (X : exists z, typed_cmd c1 = d :: z) by (unfold typed_cmd; rewrite El; eexists; reflexivity). destruct X as (z & X).
      cbn [map join_with] in E. rewrite X in E. left. destruct (map typed_cmd cs); cbn in E; inversion E; reflexivity. }
    apply (gap_white _ Gl) in I. split; intros ->; discriminate I. }
  rewrite (proj1 (C126_which_lines _) B).
  assert (T : lit "__dsh_print_last_stdout " ++ g ++ lit "|" ++ join_with (lit "|") (map typed_cmd cs) = typed_line (Segment [] (c0 :: cs), [])).
  { unfold typed_line, typed_segment. cbn [fst snd bgs pipe flat_map app map]. rewrite app_nil_r. unfold typed_cmd at 2. cbn [lead name items trail c0 flat_map app]. rewrite bare_typed.
    destruct cs as [|c1 cs]; [congruence|]. cbn [map join_with]. rewrite <- !app_assoc. reflexivity. }
  rewrite T.
  assert (V0 : valid_cmd c0).
  { split; [reflexivity|]. split; [exact G|]. split; [|constructor]. split; [discriminate|]. intros b c I _. apply in_map_iff in I as (d & E & I). inversion E; subst. apply (proj1 (forallb_forall ordinary (lit "__dsh_print_last_stdout"))); [reflexivity|exact I]. }
  assert (Vl : valid_line (Segment [] (c0 :: cs), [])).
  { split; [|exact Logic.I]. split; [constructor; [exact V0|exact V]|]. split; [discriminate|exact L]. }
  assert (M0 : meaning (name c0) = lit "__dsh_print_last_stdout") by apply bare_meaning.
  assert (Kl : Forall (known resolve) (all_commands (Segment [] (c0 :: cs), []))).
  { cbn. rewrite app_nil_r. constructor; [|exact K]. unfold known. rewrite M0, R. split; [discriminate|exact Logic.I]. }
  destruct (Parse_Props.C11_wellformed_lines_run_whole_partial resolve substitute _ Vl Kl) as [_ (js & E & M & _)]. cbn in M.
  destruct js as [|j [|? ?]]; try discriminate M. exists j. split; [exact E|]. injection M as M1 M2 M3 _. split; [|auto].
  assert (P0 : process_for resolve c0 = Builtin (lit "__dsh_print_last_stdout") [lit "__dsh_print_last_stdout"]) by (unfold process_for, argv; rewrite M0, R; reflexivity).
  etransitivity; [exact M1|]. exact (f_equal (fun x => x :: map (process_for resolve) cs) P0).
Qed.
Print Assumptions C126_which_lines.
Print Assumptions C126_bar_pipes_the_last_output.

(** cases *)
Example C125_case : exists o, Line_Model.eval_line (list str) (fun w j => (w, (0, []))) 4096 (fun _ => []) Parse_Props.in_bin Some
    (fun w j => (w ++ [Eval_Model.cmd j], Some (Eval_Model.PCompleted (if str_eqb (Eval_Model.cmd j) (lit "false ") then 1 else 0)))) (fun w j => (w, None)) (fun w e => (w, true))
    false [] [] Loose [] Yes (lit "false && a ; false || b & c") = ([], Got o)
  /\ Eval_Model.world _ (Eval_Model.final _ o) = map lit ["false "; "false "; "b &"; "b & c"]%string.
Proof. eexists. split; vm_compute; reflexivity. Qed.
