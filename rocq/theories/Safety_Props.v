(** Property theorems about the safety guard: C07, C08, C09, C44 - C47. *)
From Verif Require Import Base Safety_Model Safety_Spec Safety_Proofs.

(** C07: what each level lets through.  [jobs] are the command texts of a line,
    [allow] the allowlist.  The guard never denies; "asks" is the negation of
    "Allowed". *)
Theorem C07_safety_levels_decide :
  forall (jobs allow : list str) (cmd : str) (args : list str) (l : level),
  (* the guard either lets the line pass or asks *)
  (forall why, check_jobs jobs l allow <> Denied why /\ check_command l cmd args allow <> Denied why)
  (* Loose never asks *)
  /\ (check_jobs jobs Loose allow = Allowed /\ check_command Loose cmd args allow = Allowed)
  (* Strict lets exactly the allowlisted commands pass *)
  /\ (check_jobs jobs Strict allow = Allowed <-> forall j, In j jobs -> In j allow)
  (* Normal asks exactly about dangerous commands that are not allowlisted *)
  /\ (check_jobs jobs Normal allow = Allowed <->
      forall i j, nth_error jobs i = Some j -> needs_question jobs i -> In j allow)
  (* allowlisted lines always pass *)
  /\ ((forall j, In j jobs -> In j allow) -> check_jobs jobs l allow = Allowed)
  (* the same for one command with separate arguments *)
  /\ (check_command Strict cmd args allow = Allowed <->
      In cmd allow \/ In (join_with (lit " ") (cmd :: args)) allow)
  /\ (check_command Normal cmd args allow = Allowed <->
      In cmd allow \/ In (join_with (lit " ") (cmd :: args)) allow
      \/ forall n, known_as cmd n -> ~ dangerous n args).
Proof.
  intros jobs allow cmd args l.
  assert (Hfull : (match args with [] => cmd | _ => cmd ++ lit " " ++ join_with (lit " ") args end)
                  = join_with (lit " ") (cmd :: args)) by (destruct args; reflexivity).
  assert (HN : check_jobs jobs Normal allow = Allowed <->
      forall i j, nth_error jobs i = Some j -> needs_question jobs i -> In j allow).
  { unfold check_jobs. rewrite check_normal_iff. split.
    - intros H i j Hj (j' & Hj' & Hd). rewrite Hj in Hj'. injection Hj' as <-.
      destruct (mem_str j allow) eqn:Ea; [apply mem_str_iff, Ea|]. apply mem_str_false in Ea.
      exfalso. apply H. exists i, j. split; [exact Hj|]. split; [exact Ea|].
      destruct Hd as [Hd | (k & p & -> & Hp & Hd)]; [left; exact Hd|]. right. exists p. split; assumption.
    - intros H (i & j & Hj & Hna & Hd). apply Hna, (H i j Hj). exists j. split; [exact Hj|].
      destruct Hd as [Hd | (p & Hp & Hd)]; [left; exact Hd|]. right.
      destruct i as [|k]; [discriminate|]. exists k, p. auto. }
  assert (HS : check_jobs jobs Strict allow = Allowed <-> forall j, In j jobs -> In j allow).
  { simpl. destruct jobs as [|j jobs]; [split; [intros _ j [] | reflexivity]|].
    destruct (forallb _ (j :: jobs)) eqn:E.
    - split; [|reflexivity]. intros _. rewrite forallb_forall in E. intros k Hk.
      apply mem_str_iff, E, Hk.
    - split; [discriminate|]. intros H. exfalso. apply not_true_iff_false in E. apply E, forallb_forall.
      intros k Hk. apply mem_str_iff, H, Hk. }
  split; [|split; [|split; [exact HS|split; [exact HN|split; [|split]]]]].
  - intros why. split.
    + destruct l; simpl.
      * destruct (match jobs with [] => _ | _ => _ end); [discriminate|]. destruct jobs; discriminate.
      * apply check_normal_not_denied.
      * discriminate.
    + unfold check_command. destruct (mem_str _ allow); [discriminate|]. destruct (mem_str cmd allow); [discriminate|].
      destruct l; try discriminate. apply check_one_not_denied.
  - split; [reflexivity|]. unfold check_command. destruct (mem_str _ allow); [reflexivity|].
    destruct (mem_str cmd allow); reflexivity.
  - intros H. destruct l; [apply HS, H | | reflexivity]. apply HN. intros i j Hj _.
    apply H. eapply nth_error_In, Hj.
  - unfold check_command. rewrite Hfull. destruct (mem_str (join_with _ _) allow) eqn:E1.
    + apply mem_str_iff in E1. tauto.
    + apply mem_str_false in E1. destruct (mem_str cmd allow) eqn:E2.
      * apply mem_str_iff in E2. tauto.
      * apply mem_str_false in E2. split; [discriminate | tauto].
  - unfold check_command. rewrite Hfull. destruct (mem_str (join_with _ _) allow) eqn:E1.
    + apply mem_str_iff in E1. tauto.
    + apply mem_str_false in E1. destruct (mem_str cmd allow) eqn:E2.
      * apply mem_str_iff in E2. tauto.
      * apply mem_str_false in E2. rewrite check_one_allowed. split.
        -- intros H. right. right. intros n Hn. apply known_as_iff in Hn. rewrite <- Hn. exact H.
        -- intros [H | [H | H]]; [contradiction.. |]. apply H. apply known_as_iff. reflexivity.
Qed.
Print Assumptions C07_safety_levels_decide.

(** a line whose second command is dangerous under a path, and stays so until
    exactly that text is allowlisted *)
Example C07_example :
  let line := [lit "ls -l"; lit "/bin/rm  -rf build"] in
  needs_question line 1
  /\ (exists m, check_jobs line Normal [lit "ls -l"] = Confirm m)
  /\ check_jobs line Normal [lit "/bin/rm  -rf build"] = Allowed.
Proof.
  split; [|split].
  - exists (lit "/bin/rm  -rf build"). split; [reflexivity|]. left. apply dangerous_line_iff.
    apply (check_one_iff [] []). vm_compute. eauto.
  - eexists. vm_compute. reflexivity.
  - vm_compute. reflexivity.
Qed.

(** a download followed by an interpreter is asked about (here the two commands
    are separate jobs of one line, "curl u; sh") *)
Example C07_example_download :
  needs_question [lit "curl u"; lit "sh"] 1 /\ check_jobs [lit "curl u"; lit "sh"] Normal [] <> Allowed.
Proof.
  split; [|vm_compute; discriminate].
  exists (lit "sh"). split; [reflexivity|]. right. exists 0, (lit "curl u").
  split; [reflexivity|]. split; [reflexivity|]. split; [apply net_iff | apply exe_iff]; reflexivity.
Qed.

(** C44, full statement: in Normal mode every recursive rm is asked about,
    where recursive means, as for rm itself, that an option cluster contains r or
    R, or --recursive is given. *)
Definition rm_recursive (args : list str) : Prop :=
  exists a, In a args /\
    (a = lit "--recursive"
     \/ exists flags, a = lit "-" ++ flags /\ ~ begins "-" flags /\ (In (chr "r") flags \/ In (chr "R") flags)).

(** It is false: "rm -Rf /" passes unasked. *)
Theorem C44_recursive_rm_asked_refuted :
  exists args, rm_recursive args /\ check_jobs [join_with (lit " ") (lit "rm" :: args)] Normal [] = Allowed.
Proof.
  exists [lit "-Rf"; lit "/"]. split.
  - exists (lit "-Rf"). split; [left; reflexivity|]. right. exists (lit "Rf").
    split; [reflexivity|]. split; [intros [t Ht]; discriminate Ht|]. right. left. reflexivity.
  - vm_compute. reflexivity.
Qed.
Print Assumptions C44_recursive_rm_asked_refuted.

(** What holds: the spellings -r, -R, --recursive and clusters starting with -rf,
    -fr or -rx are asked about, whatever else is on the command and whatever path
    rm is called under.  Missing: every other cluster (-Rf, -vr, -ir, ...). *)
Theorem C44_recursive_rm_asked_partial :
  forall w args a flags line allow,
  known_as w (lit "rm") -> Words line (w :: args) -> In a args ->
  (a = lit "-r" \/ a = lit "-R" \/ a = lit "--recursive"
   \/ a = lit "-rf" ++ flags \/ a = lit "-fr" ++ flags \/ a = lit "-rx" ++ flags) ->
  ~ In line allow ->
  exists why, check_jobs [line] Normal allow = Confirm why.
Proof.
  intros w args a flags line allow Hw HW Ha Hf Hna.
  destruct (C07_safety_levels_decide [line] allow [] [] Normal) as (HD & _ & _ & HN & _).
  destruct (check_jobs [line] Normal allow) as [|why|why] eqn:E.
  - exfalso. apply Hna. apply (proj1 HN eq_refl 0 line eq_refl).
    exists line. split; [reflexivity|]. left. exists w, args, (lit "rm"). split; [exact HW|]. split; [exact Hw|].
    apply D_rm. exists a. split; [exact Ha|]. unfold one_of, begins.
    destruct Hf as [-> | [-> | [-> | [-> | [-> | ->]]]]].
    + left. eexists. split; [|reflexivity]. cbn [In]. tauto.
    + left. eexists. split; [|reflexivity]. cbn [In]. tauto.
    + left. eexists. split; [|reflexivity]. cbn [In]. tauto.
    + right. right. left. eexists. reflexivity.
    + right. right. right. eexists. reflexivity.
    + right. left. eexists. reflexivity.
  - destruct (HD why) as [H _]. congruence.
  - eauto.
Qed.
Print Assumptions C44_recursive_rm_asked_partial.
Example C44_example : exists why, check_jobs [lit "/bin/rm x -rfv /"] Normal [] = Confirm why.
Proof.
  apply (C44_recursive_rm_asked_partial (lit "/bin/rm") [lit "x"; lit "-rfv"; lit "/"] (lit "-rfv") (lit "v")).
  - apply known_as_iff. reflexivity.
  - apply Words_iff. reflexivity.
  - right. left. reflexivity.
  - tauto.
  - intros [].
Qed.

(** * MCP *)

(** a tool name counts as read-only: it mentions a reading verb and no mutating one *)
Definition reads_only (tool : str) : Prop :=
  (exists m, In m ["list"; "get"; "read"; "search"; "find"; "show"; "status"; "describe"; "fetch";
                   "query"; "view"; "ls"; "stat"] /\ mentions m (lower tool))
  /\ forall m, In m ["write"; "edit"; "update"; "delete"; "remove"; "create"; "execute"; "run"; "apply";
                     "install"; "set"; "post"; "put"; "patch"; "push"; "kill"; "start"; "stop"; "restart";
                     "connect"; "disconnect"; "submit"] -> ~ mentions m (lower tool).

Definition command_tool (tool : str) : Prop :=
  one_of tool ["bash"; "run_command"; "execute_command"; "execute"; "terminal"].

(** reasons for running a tool call without asking, given the allowlist *)
Definition unasked_ok (normalise command_of : str -> option str) (l : level) (allow : list str)
    (tool args : str) : Prop :=
  l = Loose
  \/ In (lit "mcp:" ++ tool) allow
  \/ In (lit "mcp:" ++ tool ++ lit ":" ++ match normalise args with Some n => n | None => trim args end) allow
  \/ (command_tool tool /\ exists line w rest,
        command_of args = Some line /\ Words line (w :: rest) /\
        (In w allow \/ In (join_with (lit " ") (w :: rest)) allow
         \/ (l = Normal /\ forall n, known_as w n -> ~ dangerous n rest)))
  \/ (~ command_tool tool /\ l = Normal /\ reads_only tool).

Lemma read_only_iff t : is_read_only_mcp_tool t = true <-> reads_only t.
Proof.
  unfold is_read_only_mcp_tool, reads_only.
  assert (H : forall l, existsb (fun m => contains m (lower t)) (map lit l) = true
                        <-> exists m, In m l /\ mentions m (lower t)).
  { intros l. rewrite existsb_exists. split.
    - intros (x & Hx & Hc). apply in_map_iff in Hx as (m & <- & Hm). exists m. split; [exact Hm|].
      apply mentions_iff, Hc.
    - intros (m & Hm & Hc). exists (lit m). split; [apply in_map, Hm|]. apply mentions_iff, Hc. }
  unfold mutating_markers, read_markers. rewrite <- H.
  destruct (existsb _ (map lit ("write" :: _))) eqn:E.
  - apply H in E as (m & Hm & Hc). split; [discriminate|]. intros [_ F]. destruct (F m Hm Hc).
  - split.
    + intros R. split; [exact R|]. intros m Hm Hc. apply not_true_iff_false in E. apply E, H. eauto.
    + intros [R _]. exact R.
Qed.

Lemma check_mcp_iff normalise command_of tool args l allow :
  check_mcp_tool normalise command_of tool args l allow = Allowed
  <-> unasked_ok normalise command_of l allow tool args.
Proof.
  assert (HA : is_allowlisted_mcp_call normalise tool args allow = true <->
               In (lit "mcp:" ++ tool) allow
               \/ In (lit "mcp:" ++ tool ++ lit ":" ++ match normalise args with Some n => n | None => trim args end) allow).
  { unfold is_allowlisted_mcp_call. rewrite orb_true_iff, !mem_str_iff. unfold mcp_allowlist_prefix, mcp_allowlist_entry. tauto. }
  assert (HC : is_mcp_command_execution_tool tool = true <-> command_tool tool) by apply arg_in_iff.
  unfold check_mcp_tool, unasked_ok.
  destruct l.
  - destruct (is_allowlisted_mcp_call _ _ _ _) eqn:EA; [tauto|].
    assert (Hna : ~ (In (lit "mcp:" ++ tool) allow
               \/ In (lit "mcp:" ++ tool ++ lit ":" ++ match normalise args with Some n => n | None => trim args end) allow))
        by (intros F; apply (proj2 HA) in F; discriminate).
    clear HA.
    destruct (is_mcp_command_execution_tool tool) eqn:EC.
    + pose proof (proj1 HC eq_refl) as Hct. clear HC.
      destruct (command_of args) as [line|] eqn:Eco.
      * destruct (split_whitespace line) as [|w rest] eqn:Ew.
        -- split; [discriminate|]. intros [H | [H | [H | [(_ & ln & w & rest & [= <-] & HW & _) | (H & _)]]]];
             try discriminate; try tauto.
           apply Words_iff in HW. congruence.
        -- destruct (C07_safety_levels_decide [] allow w rest Strict) as (_ & _ & _ & _ & _ & HS & _).
           rewrite HS. split.
           ++ intros H. right. right. right. left. split; [tauto|]. exists line, w, rest.
              split; [reflexivity|]. split; [apply Words_iff, Ew|]. tauto.
           ++ intros [H | [H | [H | [(_ & ln & w' & rest' & [= <-] & HW & H) | (H & _)]]]]; try discriminate; try tauto.
              apply Words_iff in HW. rewrite Ew in HW. injection HW as <- <-.
              destruct H as [H | [H | [H _]]]; [tauto | tauto | discriminate].
      * split; [discriminate|]. intros [H | [H | [H | [(_ & ln & w & rest & [=] & _) | (H & _)]]]];
             try discriminate; tauto.
    + assert (Hn : ~ command_tool tool) by (intros H; apply HC in H; discriminate).
      split; [discriminate|]. intros [H | [H | [H | [(H & _) | (_ & H & _)]]]]; try discriminate; tauto.
  - destruct (is_allowlisted_mcp_call _ _ _ _) eqn:EA; [tauto|].
    assert (Hna : ~ (In (lit "mcp:" ++ tool) allow
               \/ In (lit "mcp:" ++ tool ++ lit ":" ++ match normalise args with Some n => n | None => trim args end) allow))
        by (intros F; apply (proj2 HA) in F; discriminate).
    clear HA.
    destruct (is_mcp_command_execution_tool tool) eqn:EC.
    + pose proof (proj1 HC eq_refl) as Hct. clear HC.
      destruct (command_of args) as [line|] eqn:Eco.
      * destruct (split_whitespace line) as [|w rest] eqn:Ew.
        -- split; [discriminate|]. intros [H | [H | [H | [(_ & ln & w & rest & [= <-] & HW & _) | (H & _)]]]];
             try discriminate; try tauto.
           apply Words_iff in HW. congruence.
        -- destruct (C07_safety_levels_decide [] allow w rest Strict) as (_ & _ & _ & _ & _ & _ & HN).
           rewrite HN. split.
           ++ intros H. right. right. right. left. split; [tauto|]. exists line, w, rest.
              split; [reflexivity|]. split; [apply Words_iff, Ew|]. tauto.
           ++ intros [H | [H | [H | [(_ & ln & w' & rest' & [= <-] & HW & H) | (H & _)]]]]; try discriminate; try tauto.
              apply Words_iff in HW. rewrite Ew in HW. injection HW as <- <-. tauto.
      * split; [discriminate|]. intros [H | [H | [H | [(_ & ln & w & rest & [=] & _) | (H & _)]]]];
             try discriminate; tauto.
    + assert (Hn : ~ command_tool tool) by (intros H; apply HC in H; discriminate).
      destruct (is_read_only_mcp_tool tool) eqn:ER.
      * apply read_only_iff in ER. tauto.
      * split; [discriminate|]. intros [H | [H | [H | [(H & _) | (_ & _ & H)]]]]; try discriminate; try tauto.
        apply read_only_iff in H. congruence.
  - split; [tauto | reflexivity].
Qed.

(** allowlist entries the user created by answering "always" to earlier calls *)
Definition always_entries (normalise : str -> option str) (calls : list (str * str * option answer)) : list str :=
  flat_map (fun c => match c with
                     | (t, a, Some AlwaysAllow) =>
                         [lit "mcp:" ++ t ++ lit ":" ++ match normalise a with Some n => n | None => trim a end]
                     | _ => []
                     end) calls.

Inductive subseq {A} : list A -> list A -> Prop :=
| sub_nil : subseq [] []
| sub_skip x s l : subseq s l -> subseq s (x :: l)
| sub_take x s l : subseq s l -> subseq (x :: s) (x :: l).

Lemma subseq_nil {A} (l : list A) : subseq [] l.
Proof. induction l; constructor; assumption. Qed.

(** C08: in every sequence of tool calls, the executed ones are a subsequence of
    the requested ones, and each executed call was either confirmed by the user or
    had one of the listed reasons, where the allowlist in force consists of the
    initial one and of the entries the user chose to allow always before. *)
Theorem C08_mcp_calls_are_gated :
  forall normalise command_of l (allow : list str) (calls : list (str * str * option answer)),
  let (final, ran) := run_tools normalise command_of l allow calls in
  subseq ran (map fst calls)
  /\ (forall t a, In (t, a) ran ->
        exists before h after, calls = before ++ (t, a, h) :: after /\
          (h = Some Yes \/ h = Some AlwaysAllow
           \/ unasked_ok normalise command_of l (allow ++ always_entries normalise before) t a))
  /\ (forall e, In e final -> In e allow \/ In e (always_entries normalise calls)).
Proof.
  intros normalise command_of l allow calls. revert allow.
  assert (Hmono : forall al al' t a, (forall e, In e al -> In e al') ->
            unasked_ok normalise command_of l al t a -> unasked_ok normalise command_of l al' t a).
  { intros al al' t a H U. unfold unasked_ok in *.
    destruct U as [U | [U | [U | [(U & ln & w & r & H1 & H2 & U') | U]]]]; auto 6.
    right. right. right. left. split; [exact U|]. exists ln, w, r. split; [exact H1|]. split; [exact H2|].
    destruct U' as [U' | [U' | U']]; auto. }
  induction calls as [|[[tool args] h] calls IH]; intros allow.
  { simpl. split; [constructor|]. split; [intros t a []|]. intros e He. left. exact He. }
  cbn [run_tools].
  set (s := run_tool normalise command_of l allow h tool args).
  assert (Hs : (executed s = true ->
                 h = Some Yes \/ h = Some AlwaysAllow \/ unasked_ok normalise command_of l allow tool args)
               /\ (forall e, In e (allow' s) -> In e allow \/ In e (always_entries normalise [(tool, args, h)]))).
  { unfold s, run_tool. destruct (check_mcp_tool _ _ tool args l allow) as [|why|why] eqn:E.
    - apply check_mcp_iff in E. simpl. split; auto.
    - simpl. split; [discriminate | auto].
    - destruct h as [[]|]; simpl; split; try discriminate; auto.
      intros e. destruct (mem_str _ allow); [auto|]. intros He. apply in_app_or in He as [He | He]; [auto|].
      right. destruct He as [<- | []]. left. reflexivity. }
  destruct Hs as [Hex Hal].
  assert (Hcons : forall c cs, always_entries normalise (c :: cs) = always_entries normalise [c] ++ always_entries normalise cs).
  { intros c cs. unfold always_entries. simpl. rewrite app_nil_r. reflexivity. }
  destruct (goes_on s) eqn:Eg.
  - specialize (IH (allow' s)). destruct (run_tools normalise command_of l (allow' s) calls) as [final ran].
    destruct IH as (I1 & I2 & I3). simpl map.
    split; [|split].
    + destruct (executed s); simpl; [apply sub_take | apply sub_skip]; exact I1.
    + intros t a H. apply in_app_or in H as [H | H].
      * destruct (executed s) eqn:Ee; [|destruct H]. destruct H as [[= <- <-] | []].
        exists [], h, calls. split; [reflexivity|]. destruct (Hex eq_refl) as [H | [H | H]]; auto.
        right. right. simpl. rewrite app_nil_r. exact H.
      * destruct (I2 t a H) as (pre & h' & post & -> & HJ). exists ((tool, args, h) :: pre), h', post.
        split; [reflexivity|]. destruct HJ as [HJ | [HJ | HJ]]; auto. right. right.
        eapply Hmono; [|exact HJ]. intros e He. rewrite Hcons. rewrite !in_app_iff in *.
        destruct He as [He | He]; [|auto]. destruct (Hal e He); auto.
    + intros e He. rewrite Hcons, in_app_iff. destruct (I3 e He) as [H | H]; [|auto].
      destruct (Hal e H); auto.
  - split; [|split].
    + simpl map. destruct (executed s); simpl; [apply sub_take | apply sub_skip]; apply subseq_nil.
    + intros t a H. destruct (executed s) eqn:Ee; [|destruct H]. destruct H as [[= <- <-] | []].
      exists [], h, calls. split; [reflexivity|]. destruct (Hex eq_refl) as [H | [H | H]]; auto.
      right. right. simpl. rewrite app_nil_r. exact H.
    + intros e He. rewrite Hcons, in_app_iff. destruct (Hal e He); auto.
Qed.
Print Assumptions C08_mcp_calls_are_gated.

(** the converse: a call with one of the reasons is never asked about *)
Theorem C08_mcp_reasons_suffice :
  forall normalise command_of l allow tool args h,
  unasked_ok normalise command_of l allow tool args ->
  run_tool normalise command_of l allow h tool args
  = {| allow' := allow; executed := true; goes_on := true |}.
Proof.
  intros normalise command_of l allow tool args h H. apply check_mcp_iff in H. unfold run_tool.
  rewrite H. reflexivity.
Qed.
Print Assumptions C08_mcp_reasons_suffice.

Example C08_example :
  let norm := fun s : str => Some s in
  let calls := [(lit "list_files", lit "{}", None); (lit "write_file", lit "{1}", Some No);
                (lit "write_file", lit "{2}", Some AlwaysAllow); (lit "write_file", lit "{2}", Some No);
                (lit "bash", lit "rm -rf /", None); (lit "bash", lit "ls", None)] in
  run_tools norm norm Normal [] calls
  = ([lit "mcp:write_file:{2}"],
     [(lit "list_files", lit "{}"); (lit "write_file", lit "{2}"); (lit "write_file", lit "{2}");
      (lit "bash", lit "ls")]).
Proof. vm_compute. reflexivity. Qed.

(** C46, full statement: a command line carried by an MCP command tool that
    contains a dangerous command anywhere is asked about.  False: only the first
    word of the line is looked at. *)
Theorem C46_mcp_compound_command_refuted :
  exists line, dangerous_line (lit "rm -rf /") /\
    line = lit "true; " ++ lit "rm -rf /" /\
    check_mcp_tool (fun s => Some s) (fun s => Some s) (lit "bash") line Normal [] = Allowed.
Proof.
  exists (lit "true; rm -rf /"). split; [|split; vm_compute; reflexivity].
  apply dangerous_line_iff. apply (check_one_iff [] []). vm_compute. eauto.
Qed.
Print Assumptions C46_mcp_compound_command_refuted.

(** What holds: a dangerous single command is asked about. *)
Theorem C46_mcp_dangerous_command_asked_partial :
  forall normalise command_of args line allow tool,
  command_tool tool -> command_of args = Some line -> dangerous_line line ->
  (forall w rest, Words line (w :: rest) -> ~ In w allow /\ ~ In (join_with (lit " ") (w :: rest)) allow) ->
  ~ In (lit "mcp:" ++ tool) allow ->
  ~ In (lit "mcp:" ++ tool ++ lit ":" ++ match normalise args with Some n => n | None => trim args end) allow ->
  forall l, l <> Loose -> check_mcp_tool normalise command_of tool args l allow <> Allowed.
Proof.
  intros normalise command_of args line allow tool Ht Hc (w & rest & n & HW & Hn & Hd) Hna H1 H2 l Hl E.
  apply check_mcp_iff in E.
  destruct E as [E | [E | [E | [(_ & ln & w' & rest' & Hc' & HW' & E) | (E & _)]]]]; try tauto.
  rewrite Hc in Hc'. injection Hc' as <-. apply Words_iff in HW as HW1. apply Words_iff in HW' as HW2.
  rewrite HW1 in HW2. injection HW2 as <- <-. destruct (Hna w rest HW) as [N1 N2].
  destruct E as [E | [E | [_ E]]]; try tauto. exact (E n Hn Hd).
Qed.
Print Assumptions C46_mcp_dangerous_command_asked_partial.
Example C46_example :
  check_mcp_tool (fun s => Some s) (fun s => Some s) (lit "terminal") (lit "/bin/rm -rf /") Normal [] <> Allowed.
Proof. vm_compute. discriminate. Qed.

(** C48: the allowlist entry of one call does not license a different call.
    False as it stands: the separator may occur in the tool name, so the entry for
    (tool "x", arguments "{}") is also the wildcard of a tool called "x:{}". *)
Theorem C48_mcp_allowlist_entry_exact_refuted :
  exists tool args tool', tool <> tool' /\
    forall args', is_allowlisted_mcp_call (fun s => Some s) tool' args'
                    [mcp_allowlist_entry (fun s => Some s) tool args] = true.
Proof.
  exists (lit "x"), (lit "{}"), (lit "x:{}"). split; [discriminate|]. intros args'.
  unfold is_allowlisted_mcp_call. apply orb_true_iff. right. vm_compute. reflexivity.
Qed.
Print Assumptions C48_mcp_allowlist_entry_exact_refuted.

(** What holds: for tool names without ':' an entry licenses only the same tool
    with the same normalised arguments. *)
Theorem C48_mcp_allowlist_entry_exact_partial :
  forall normalise tool args tool' args',
  ~ In (chr ":") tool -> ~ In (chr ":") tool' ->
  is_allowlisted_mcp_call normalise tool' args' [mcp_allowlist_entry normalise tool args] = true ->
  tool' = tool /\
  match normalise args' with Some n => n | None => trim args' end =
  match normalise args with Some n => n | None => trim args end.
Proof.
  intros normalise tool args tool' args' H H' E. unfold is_allowlisted_mcp_call in E.
  unfold mcp_allowlist_entry, mcp_allowlist_prefix in E.
  apply orb_true_iff in E. rewrite !mem_str_iff in E.
  set (x := match normalise args with Some n => n | None => trim args end) in *.
  set (y := match normalise args' with Some n => n | None => trim args' end) in *.
  assert (Hcut : forall (a b : str) p q, ~ In (chr ":") a -> ~ In (chr ":") b ->
            a ++ chr ":" :: p = b ++ chr ":" :: q -> a = b /\ p = q).
  { clear. induction a as [|c a IH]; intros [|d b] p q Ha Hb E; simpl in E.
    - injection E as ->. auto.
    - injection E as E _. exfalso. apply Hb. left. symmetry. exact E.
    - injection E as E _. exfalso. apply Ha. left. exact E.
    - injection E as -> E. destruct (IH b p q) as [-> ->]; auto.
      + intros F. apply Ha. right. exact F.
      + intros F. apply Hb. right. exact F. }
  destruct E as [[E | []] | [E | []]].
  - apply app_inv_head in E. change (lit ":" ++ ?z) with (chr ":" :: z) in E.
    destruct (Hcut _ _ _ _ H H' E) as [E1 E2]. split; symmetry; assumption.
  - apply app_inv_head in E. exfalso. apply H'. rewrite <- E. apply in_or_app. right. left. reflexivity.
Qed.
Print Assumptions C48_mcp_allowlist_entry_exact_partial.
Example C48_example :
  is_allowlisted_mcp_call (fun s => Some (trim s)) (lit "write") (lit " {1} ")
     [mcp_allowlist_entry (fun s => Some (trim s)) (lit "write") (lit "{1}")] = true.
Proof. vm_compute. reflexivity. Qed.

(** * C09 *)

Lemma keeps_filter (bad : char -> Prop) f s :
  (forall c, f c = true <-> ~ bad c) -> (forall c, f c = false <-> bad c) -> keeps bad s (filter f s).
Proof.
  intros H1 H2. induction s as [|c s IH]; simpl; [constructor|].
  destruct (f c) eqn:E; [apply keeps_keep | apply keeps_drop]; auto; [apply H1 | apply H2]; exact E.
Qed.

Lemma filter_filter {A} (f g : A -> bool) l : filter f (filter g l) = filter (fun x => g x && f x) l.
Proof.
  induction l as [|x l IH]; simpl; [reflexivity|]. destruct (g x); simpl; [destruct (f x)|]; rewrite IH; reflexivity.
Qed.

Lemma unwanted_iff c :
  (negb (is_control c) || is_kept_ws c) && negb (is_invisible c) = true <-> ~ unwanted c.
Proof.
  unfold unwanted, is_control, is_kept_ws, is_invisible.
  rewrite andb_true_iff, orb_true_iff, !negb_true_iff, !orb_false_iff, !orb_true_iff, !andb_false_iff.
  rewrite !N.ltb_ge, !N.leb_gt, !N.eqb_eq. split.
  - intros [H1 H2] H. lia.
  - intros H. split.
    + destruct (N.eq_dec c 9); [right; auto|]. destruct (N.eq_dec c 10); [right; auto|].
      destruct (N.eq_dec c 13); [right; auto|]. left. lia.
    + lia.
Qed.

(** C09 as far as it holds: whenever the sanitiser returns, the result is the
    input with every unwanted character removed, cut at exactly [max] bytes and
    followed by the marker if it was longer; so it has no unwanted character and
    is at most [max] + 14 bytes long.  It returns unless byte [max] of the cleaned
    text lies inside a character; for ASCII text it always returns.
    Missing: totality (refuted below). *)
Theorem C09_sanitised_clean_and_bounded_partial :
  forall input max,
  exists clean, keeps unwanted input clean
  /\ (blen clean <= max -> sanitize_ai_input input max = Some clean)
  /\ (max < blen clean -> forall out, sanitize_ai_input input max = Some out <->
        exists p q, clean = p ++ q /\ blen p = max /\ out = p ++ lit "...(truncated)")
  /\ (forall out, sanitize_ai_input input max = Some out ->
        blen out <= max + 14 /\ forall c, In c out -> ~ unwanted c)
  /\ ((forall c, In c input -> (c < 128)%N) -> sanitize_ai_input input max <> None).
Proof.
  intros input max.
  set (f := fun c => (negb (is_control c) || is_kept_ws c) && negb (is_invisible c)).
  set (clean := filter f input).
  assert (Hf : sanitize_ai_input input max =
               if max <? blen clean then
                 match split_byte clean max with Some (p, _) => Some (p ++ marker) | None => None end
               else Some clean).
  { unfold sanitize_ai_input. rewrite filter_filter. reflexivity. }
  assert (Hc : forall c, In c clean -> ~ unwanted c).
  { intros c Hc. apply filter_In in Hc as [_ Hc]. apply unwanted_iff, Hc. }
  assert (Hm : forall c, In c (lit "...(truncated)") -> ~ unwanted c).
  { assert (Hall : forallb f (lit "...(truncated)") = true) by (vm_compute; reflexivity).
    rewrite forallb_forall in Hall. intros c Hin. apply unwanted_iff, Hall, Hin. }
  exists clean. split; [|split; [|split; [|split]]].
  - apply keeps_filter.
    + intros c. apply unwanted_iff.
    + intros c. pose proof (unwanted_iff c) as H. unfold f. destruct (_ && _).
      * split; [discriminate|]. intros Hu. exfalso. apply H; auto.
      * split; [|reflexivity]. intros _.
        assert (D : unwanted c \/ ~ unwanted c) by (unfold unwanted; lia).
        destruct D as [D | D]; [exact D|]. apply H in D. discriminate.
  - intros H. rewrite Hf. destruct (Nat.ltb_spec max (blen clean)); [lia | reflexivity].
  - intros H out. rewrite Hf. destruct (Nat.ltb_spec max (blen clean)); [|lia].
    destruct (split_byte clean max) as [[p q]|] eqn:E.
    + apply split_byte_iff in E as [E1 E2]. split.
      * intros [= <-]. exists p, q. auto.
      * intros (p' & q' & E1' & E2' & ->). f_equal.
        assert (Hs : split_byte clean max = Some (p', q')) by (apply split_byte_iff; auto).
        assert (Hs' : split_byte clean max = Some (p, q)) by (apply split_byte_iff; auto).
        rewrite Hs in Hs'. injection Hs' as -> ->. reflexivity.
    + split; [discriminate|]. intros (p & q & E1 & E2 & ->).
      assert (Hs : split_byte clean max = Some (p, q)) by (apply split_byte_iff; auto). congruence.
  - intros out H. rewrite Hf in H. destruct (Nat.ltb_spec max (blen clean)).
    + destruct (split_byte clean max) as [[p q]|] eqn:E; [|discriminate]. injection H as <-.
      apply split_byte_iff in E as [E1 E2]. split.
      * rewrite blen_app, E2. replace (blen marker) with 14 by reflexivity. lia.
      * intros c Hin. apply in_app_or in Hin as [Hin | Hin]; [|apply Hm, Hin].
        apply Hc. rewrite E1. apply in_or_app. left. exact Hin.
    + injection H as <-. split; [lia | exact Hc].
  - intros Hascii. rewrite Hf. destruct (Nat.ltb_spec max (blen clean)) as [Hlt|]; [|discriminate].
    assert (Hb : forall s : list char, (forall c : char, In c s -> (c < 128)%N) -> blen s = length s).
    { induction s as [|c s IHs]; intros Hs; simpl; [reflexivity|].
      rewrite IHs by (intros d Hd; apply Hs; right; exact Hd).
      unfold utf8_len. rewrite (proj2 (N.ltb_lt c 128)) by (apply Hs; left; reflexivity). reflexivity. }
    assert (Hcl : forall c, In c clean -> (c < 128)%N).
    { intros c Hin. apply filter_In in Hin as [Hin _]. apply Hascii, Hin. }
    assert (Hs : split_byte clean max = Some (firstn max clean, skipn max clean)).
    { apply split_byte_iff. split; [symmetry; apply firstn_skipn|].
      rewrite Hb by (intros c Hin; apply Hcl; rewrite <- (firstn_skipn max clean); apply in_or_app; left; exact Hin).
      apply firstn_length_le. pose proof (Hb clean Hcl) as E. rewrite <- E. exact (Nat.lt_le_incl _ _ Hlt). }
    rewrite Hs. discriminate.
Qed.
Print Assumptions C09_sanitised_clean_and_bounded_partial.

(** C09, the part that fails: a text of 167 three-byte characters makes the
    sanitiser panic with the limit 500 used for directory names. *)
Theorem C09_sanitiser_total_refuted :
  exists input, sanitize_ai_input input 500 = None.
Proof. exists (repeat 26085%N 167). vm_compute. reflexivity. Qed.
Print Assumptions C09_sanitiser_total_refuted.

Example C09_example :
  sanitize_ai_input [97; 7; 8203; 98; 10; 233; 99]%N 5 = Some ([97; 98; 10; 233]%N ++ lit "...(truncated)").
Proof. vm_compute. reflexivity. Qed.

(** C47: setting a loader or interpreter path variable from Lisp is refused unless
    the level is Loose; every other variable can be set; nothing else changes. *)
Theorem C47_dangerous_variables_guarded :
  forall l key value vars,
  (one_of key ["LD_PRELOAD"; "LD_LIBRARY_PATH"; "DYLD_INSERT_LIBRARIES"; "PYTHONPATH"; "PERL5LIB";
               "RUBYLIB"; "NODE_OPTIONS"] /\ l <> Loose -> guarded_set l key value vars = None)
  /\ (~ (one_of key ["LD_PRELOAD"; "LD_LIBRARY_PATH"; "DYLD_INSERT_LIBRARIES"; "PYTHONPATH"; "PERL5LIB";
               "RUBYLIB"; "NODE_OPTIONS"] /\ l <> Loose) ->
      guarded_set l key value vars = Some ((key, value) :: vars)).
Proof.
  intros l key value vars. unfold guarded_set, check_environment_modification.
  change (mem_str key dangerous_vars) with
    (arg_in key ["LD_PRELOAD"; "LD_LIBRARY_PATH"; "DYLD_INSERT_LIBRARIES"; "PYTHONPATH"; "PERL5LIB";
               "RUBYLIB"; "NODE_OPTIONS"]).
  destruct (arg_in key _) eqn:E.
  - apply arg_in_iff in E. destruct l; split; intros H; try reflexivity; exfalso; try tauto;
      try (apply H; split; [exact E | discriminate]).
  - apply arg_in_false in E. split; intros H; [tauto | reflexivity].
Qed.
Print Assumptions C47_dangerous_variables_guarded.
Example C47_example :
  guarded_set Normal (lit "LD_PRELOAD") (lit "/x.so") [] = None
  /\ guarded_set Normal (lit "EDITOR") (lit "vi") [] = Some [(lit "EDITOR", lit "vi")].
Proof. vm_compute. auto. Qed.
