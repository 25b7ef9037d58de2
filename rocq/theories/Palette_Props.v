(** C179 to C183: what the actions of the command palette run, and what they leave. *)
From Coq Require Import Permutation Sorted.
From Verif Require Import Base Frecency_Model Frecency_Proofs Env_Model Direnv_Model Palette_Model Palette_Spec.
From Verif Require Main_Model Offer_Props Gitlog_Props.

Section Actions.
Variable capture : list str -> option (bool * str).
Variable starts : list str -> bool.
Variable pick pick2 : list str -> list str.
Variable typed : str.
Variable editor visual : option str.
Variable succeeds : list str -> bool.
Notation run := (run starts).
Notation listing := (listing capture).
Notation kill_process := (kill_process capture starts pick).
Notation git_checkout := (git_checkout capture starts pick).
Notation git_stash := (git_stash capture starts pick pick2).
Notation docker_containers := (docker_containers capture starts pick pick2).
Notation find_file := (find_file capture starts pick editor visual).
Notation git_diff := (git_diff capture starts pick).
Notation git_commit := (git_commit capture starts typed succeeds).
Notation git_push_pull := (git_push_pull capture starts pick).
Notation port_check := (port_check capture starts pick typed).
Notation ssh_connect := (ssh_connect starts pick).
(** what is selected is one of the things shown *)
Hypothesis shown : forall l, incl (pick l) l.
Hypothesis shown2 : forall l, incl (pick2 l) l.

Lemma acts_cons_listed a r e : acts (Listed a :: r, e) = acts (r, e).
Proof. reflexivity. Qed.
Lemma acts_run argv : acts (run argv) = if starts argv then [argv] else [].
Proof. unfold Palette_Model.run. destruct (starts argv); reflexivity. Qed.
Lemma acts_listing argv bad k : acts (listing argv bad k) = match capture argv with Some (true, out) => acts (k out) | _ => [] end.
Proof. unfold Palette_Model.listing. destruct (capture argv) as [[[|] out]|]; try reflexivity. destruct (k out) as [tr e]. reflexivity. Qed.
Lemma acts_let argv (x : list event * ending) : acts (let (tr, e) := x in (Listed argv :: tr, e)) = acts x.
Proof. destruct x. reflexivity. Qed.

(** ** C179: processes *)
(** What is killed is the process of a line that was selected. *)
Theorem C179_kill argv : In argv (acts kill_process) -> exists out line pid,
  capture [lit "ps"; lit "aux"] = Some (true, out) /\ hd_error (pick (tl (lines out))) = Some line /\ In line (tl (lines out)) /\
  names_process line pid /\ argv = [lit "kill"; pid].
Proof.
  unfold Palette_Model.kill_process. rewrite acts_listing. destruct (capture _) as [[[|] out]|] eqn:C; try (intros []).
  destruct (tl (lines out)) as [|x l] eqn:L; [intros []|]. destruct (pick (x :: l)) as [|line more] eqn:P; [intros []|].
  destruct (nth_error (split_whitespace line) 1) as [pid|] eqn:E; [|intros []]. rewrite acts_run. destruct (starts _); [|intros []]. intros [<- |[]].
  exists out, line, pid. rewrite L. split; [reflexivity|]. split; [rewrite P; reflexivity|]. split; [apply (shown (x :: l)); rewrite P; left; reflexivity|]. split; [|reflexivity].
  destruct (split_whitespace line) as [|u [|v r]] eqn:W; try discriminate. injection E as ->. exists u, r. apply Words_iff. exact W.
Qed.
Theorem C179_selected_is_killed out line pid : capture [lit "ps"; lit "aux"] = Some (true, out) -> hd_error (pick (tl (lines out))) = Some line -> names_process line pid ->
  starts [lit "kill"; pid] = true -> acts kill_process = [[lit "kill"; pid]].
Proof.
  intros C P (u & r & W) G. apply Words_iff in W. unfold Palette_Model.kill_process. rewrite acts_listing, C. destruct (tl (lines out)) as [|x l] eqn:L.
  - exfalso. specialize (shown []). destruct (pick []) as [|y m]; [discriminate|]. destruct (shown y); left; reflexivity.
  - destruct (pick (x :: l)) as [|y m]; [discriminate|]. injection P as ->. rewrite W. cbn [nth_error]. rewrite acts_run, G. reflexivity.
Qed.
(** But only one: the list lets the user select several processes. *)
Theorem C179_others_are_kept_refuted : length (acts kill_process) <= 1.
Proof.
  unfold Palette_Model.kill_process. rewrite acts_listing. destruct (capture _) as [[[|] out]|]; try (cbn; lia). destruct (tl (lines out)); [cbn; lia|]. destruct (pick _); [cbn; lia|].
  destruct (nth_error _ 1); [|cbn; lia]. rewrite acts_run. destruct (starts _); cbn; lia.
Qed.
(** the port list: nothing is killed without a y, and then the selected line's process *)
Theorem C179_port_asks argv : In argv (acts port_check) -> (trim typed = lit "y" \/ trim typed = lit "Y") /\
  exists list out line pid, In list [[lit "lsof"; lit "-i"; lit "-P"; lit "-n"]; [lit "ss"; lit "-tulpn"]] /\ capture list = Some (true, out) /\
    In line (tl (lines out)) /\ hd_error (pick (tl (lines out))) = Some line /\ names_process line pid /\ argv = [lit "kill"; pid].
Proof.
  assert (G : forall out, In argv (acts (offer_ports starts pick typed out)) -> (trim typed = lit "y" \/ trim typed = lit "Y") /\ exists line pid, In line (tl (lines out)) /\ hd_error (pick (tl (lines out))) = Some line /\ names_process line pid /\ argv = [lit "kill"; pid]).
  { intros out. unfold offer_ports. destruct (tl (lines out)) as [|x l]; [intros []|]. destruct (pick (x :: l)) as [|line m] eqn:P; [intros []|]. destruct (split_whitespace line) as [|u [|pid r]] eqn:W; try (intros []; fail).
    destruct (str_eqb_spec (lower (trim typed)) (lit "y")) as [E|]; [|intros []]. rewrite acts_run. destruct (starts _); [|intros []]. intros [<- |[]]. split.
    - destruct (trim typed) as [|c [|d t]]; cbn in E; try discriminate. injection E as E. unfold lower_char in E. change (lit "y") with [121%N]. change (lit "Y") with [89%N]. destruct (65 <=? c)%N eqn:A, (c <=? 90)%N eqn:B; cbn in E; try (left; rewrite E; reflexivity).
      right. f_equal. lia.
    - exists line, pid. split; [apply (shown (x :: l)); rewrite P; left; reflexivity|]. split; [reflexivity|]. split; [|reflexivity]. exists u, r. apply Words_iff. exact W. }
  unfold Palette_Model.port_check. cbv zeta. destruct (capture [lit "lsof"; lit "-i"; lit "-P"; lit "-n"]) as [cc|] eqn:C.
  - rewrite acts_listing, C. destruct cc as [[|] out]; [|intros []]. intros J. destruct (G out J) as (Y & line & pid & X). split; [exact Y|]. exists [lit "lsof"; lit "-i"; lit "-P"; lit "-n"], out, line, pid. split; [left; reflexivity|]. split; [exact C|exact X].
  - rewrite acts_listing. destruct (capture [lit "ss"; lit "-tulpn"]) as [[[|] out]|] eqn:D; try (intros []). intros J. destruct (G out J) as (Y & line & pid & X). split; [exact Y|]. exists [lit "ss"; lit "-tulpn"], out, line, pid. split; [right; left; reflexivity|]. split; [exact D|exact X].
Qed.
(** Without lsof, the lines are those of ss: a yes kills the word of the state, never a process. *)
Theorem C179_ss_refuted out line proto state rest : capture [lit "lsof"; lit "-i"; lit "-P"; lit "-n"] = None -> capture [lit "ss"; lit "-tulpn"] = Some (true, out) ->
  hd_error (pick (tl (lines out))) = Some line -> Words line (proto :: state :: rest) -> forall argv, In argv (acts port_check) -> argv = [lit "kill"; state].
Proof.
  intros C D P W argv. unfold Palette_Model.port_check. cbv zeta. rewrite C, acts_listing, D. unfold offer_ports. destruct (tl (lines out)); [intros []|]. destruct (pick _) as [|y m]; [intros []|]. injection P as ->. apply Words_iff in W. rewrite W.
  destruct (str_eqb _ _); [|intros []]. rewrite acts_run. destruct (starts _); [|intros []]. intros [<- |[]]. reflexivity.
Qed.

(** ** C180: git *)
Theorem C180_checkout argv : In argv (acts git_checkout) -> exists out b, capture [lit "git"; lit "branch"; lit "-a"; lit "--format=%(refname:short)"] = Some (true, out) /\
  In b (lines out) /\ hd_error (pick (lines out)) = Some b /\ argv = [lit "git"; lit "checkout"; b].
Proof.
  unfold Palette_Model.git_checkout. rewrite acts_listing. destruct (capture _) as [[[|] out]|] eqn:C; try (intros []). destruct (lines out) as [|x l] eqn:L; [intros []|]. destruct (pick (x :: l)) as [|b m] eqn:P; [intros []|].
  rewrite acts_run. destruct (starts _); [|intros []]. intros [<- |[]]. exists out, b. rewrite L, P. split; [reflexivity|]. split; [apply (shown (x :: l)); rewrite P; left; reflexivity|]. split; reflexivity.
Qed.
(** an entry of git stash list: its name, a colon and what it is about *)
Lemma upto_app c (a b : str) : ~ In c a -> upto c (a ++ c :: b) = a.
Proof. intros H. unfold upto. rewrite split_on_app, split_on_none by exact H. reflexivity. Qed.
Theorem C180_stash_partial argv : In argv (acts git_stash) -> exists out entry a, capture [lit "git"; lit "stash"; lit "list"] = Some (true, out) /\
  In entry (lines out) /\ hd_error (pick (lines out)) = Some entry /\ In a [lit "apply"; lit "pop"; lit "drop"; lit "show"] /\ hd_error (pick2 stash_actions) = Some a /\
  forall name about : str, entry = name ++ lit ":" ++ about -> ~ In colon name -> argv = [lit "git"; lit "stash"; a; name].
Proof.
  unfold Palette_Model.git_stash. rewrite acts_listing. destruct (capture _) as [[[|] out]|] eqn:C; try (intros []). destruct (lines out) as [|x l] eqn:L; [intros []|]. destruct (pick (x :: l)) as [|b m] eqn:P; [intros []|].
  destruct (pick2 stash_actions) as [|a m2] eqn:P2; [intros []|]. rewrite acts_run. destruct (starts _); [|intros []]. intros [<- |[]]. exists out, b, a. rewrite L, P. split; [reflexivity|]. split; [apply (shown (x :: l)); rewrite P; left; reflexivity|]. split; [reflexivity|].
  split; [apply (shown2 stash_actions); rewrite P2; left; reflexivity|]. split; [reflexivity|]. intros name about -> N. change (lit ":" ++ about) with (colon :: about). rewrite upto_app by exact N. reflexivity.
Qed.
(** With log.date set, git names the entries by their times, which hold colons: what is run is never about the selected entry. *)
Theorem C180_stash_by_date_refuted argv out name about : In argv (acts git_stash) -> capture [lit "git"; lit "stash"; lit "list"] = Some (true, out) ->
  hd_error (pick (lines out)) = Some (name ++ lit ":" ++ about) -> In colon name -> exists a cut, argv = [lit "git"; lit "stash"; a; cut] /\ cut <> name.
Proof.
  intros J C P N. revert J. unfold Palette_Model.git_stash. rewrite acts_listing, C. destruct (lines out) as [|x l]; [intros []|]. destruct (pick (x :: l)) as [|b m]; [intros []|]. injection P as ->. destruct (pick2 stash_actions) as [|a m2]; [intros []|].
  rewrite acts_run. destruct (starts _); [|intros []]. intros [<- |[]]. exists a. eexists. split; [reflexivity|]. intros E. 
  assert (Q : ~ In colon (upto colon (name ++ lit ":" ++ about))). { unfold upto. destruct (Base.split_on colon _) as [|h t] eqn:S; [intros []|]. apply (split_on_no_sep colon (name ++ lit ":" ++ about)). rewrite S. left. reflexivity. }
  apply Q. match goal with |- In colon ?x => replace x with name by (symmetry; exact E) end. exact N.
Qed.
Lemma add_new_in new : forall l f, In f (add_new l new) <-> In f l \/ In f new.
Proof.
  induction new as [|x new IH]; intros l f; cbn [add_new]; [cbn; tauto|]. rewrite IH. destruct (mem_str x l) eqn:M; [apply mem_str_iff in M|]; [split; [intros [A|A]; [left; exact A|right; right; exact A]|intros [A|[<- |A]]; auto]|].
  rewrite in_app_iff. cbn [In]. tauto.
Qed.
Theorem C180_diff argv : In argv (acts git_diff) -> exists files out f, capture [lit "git"; lit "diff"; lit "--name-only"] = Some (true, out) /\
  (forall g, In g files <-> In g (lines out) \/ exists out2, capture [lit "git"; lit "diff"; lit "--cached"; lit "--name-only"] = Some (true, out2) /\ In g (lines out2)) /\
  In f files /\ hd_error (pick files) = Some f /\ argv = [lit "git"; lit "diff"; lit "--color=always"; lit "--"; f].
Proof.
  unfold Palette_Model.git_diff. rewrite acts_listing. destruct (capture [lit "git"; lit "diff"; lit "--name-only"]) as [[[|] out]|] eqn:C; try (intros []). cbv zeta. destruct (capture [lit "git"; lit "diff"; lit "--cached"; lit "--name-only"]) as [[ok out2]|] eqn:D; [|intros []].
  rewrite acts_let. set (files := if ok then _ else _). destruct files as [|x l] eqn:F; [intros []|]. destruct (pick (x :: l)) as [|f m] eqn:P; [intros []|]. rewrite acts_run. destruct (starts _); [|intros []]. intros [<- |[]]. exists files, out, f. split; [reflexivity|]. split; [|rewrite F; split; [apply (shown (x :: l)); rewrite P; left; reflexivity|split; [rewrite P; reflexivity|reflexivity]]].
  intros g. unfold files. destruct ok.
  - rewrite add_new_in. split; [intros [A|A]; [left; exact A|right; exists out2; auto]|intros [A|(o & [= <-] & A)]; auto].
  - split; [auto|intros [A|(o & [=] & _)]; exact A].
Qed.
(** But the files with only staged changes are listed and compared without --cached, which shows none of them. *)
Theorem C180_staged_refuted argv : In argv (acts git_diff) -> ~ (exists f, In (lit "--cached") argv /\ In f argv /\ last argv [] = f /\ f <> lit "--cached").
Proof.
  intros J (f & C & _ & Ef & N). destruct (C180_diff argv J) as (files & out & g & _ & _ & _ & _ & ->). cbn in Ef. subst g. destruct C as [C|[C|[C|[C|[C|[]]]]]]; try (vm_compute in C; discriminate). contradiction.
Qed.
(** what is sent: the choice as shown is the command that is run *)
Theorem C180_push argv : In argv (acts git_push_pull) -> exists ok out b, capture [lit "git"; lit "branch"; lit "--show-current"] = Some (ok, out) /\ b = trim out /\ b <> [] /\
  exists choice args, In (choice, args) [(lit "push (git push origin " ++ b ++ lit ")", [lit "push"; lit "origin"; b]); (lit "pull (git pull origin " ++ b ++ lit ")", [lit "pull"; lit "origin"; b]);
      (lit "push --force-with-lease", [lit "push"; lit "--force-with-lease"; lit "origin"; b]); (lit "fetch --all", [lit "fetch"; lit "--all"])] /\
    hd_error (pick (push_choices b)) = Some choice /\ argv = lit "git" :: args.
Proof.
  unfold Palette_Model.git_push_pull. cbv zeta. destruct (capture _) as [[ok out]|] eqn:C; [|intros []]. rewrite acts_let. destruct (trim out) as [|c b] eqn:T; [intros []|]. set (br := c :: b). fold br. destruct (pick (push_choices br)) as [|a m] eqn:P; [intros []|].
  rewrite acts_run. destruct (starts _); [|intros []]. intros [<- |[]]. exists ok, out, br. split; [reflexivity|]. split; [symmetry; exact T|]. split; [discriminate|]. exists a, (push_args br a). split; [|split; [rewrite P; reflexivity|reflexivity]].
  assert (J : In a (push_choices br)) by (apply (shown (push_choices br)); rewrite P; left; reflexivity). destruct J as [<- |[<- |[<- |[<- |[]]]]]; [left|right; left|right; right; left|right; right; right; left]; reflexivity.
Qed.
(** the message is what was typed; nothing is committed without one, or with nothing staged *)
Theorem C180_commit argv : In argv (acts git_commit) -> exists out, capture [lit "git"; lit "diff"; lit "--cached"; lit "--name-only"] = Some (true, out) /\ trim out <> [] /\
  trim typed <> [] /\ argv = [lit "git"; lit "commit"; lit "-m"; trim typed].
Proof.
  unfold Palette_Model.git_commit. rewrite acts_listing. destruct (capture _) as [[[|] out]|] eqn:C; try (intros []). destruct (trim out) as [|x o] eqn:T; [intros []|]. destruct (trim typed) as [|y t] eqn:Y; [intros []|]. cbv zeta.
  replace (acts _) with (acts (run [lit "git"; lit "commit"; lit "-m"; y :: t])) by (destruct (run _) as [tr e]; reflexivity). rewrite acts_run. destruct (starts _); [|intros []]. intros [<- |[]]. exists out. split; [reflexivity|]. split; [rewrite T; discriminate|]. split; [discriminate|reflexivity].
Qed.

(** ** C181: containers, hosts, files *)
Theorem C181_docker_partial argv : In argv (acts docker_containers) -> exists list out line a, capture list = Some (true, out) /\ In line (lines out) /\ hd_error (pick (lines out)) = Some line /\
  In a docker_actions /\ hd_error (pick2 docker_actions) = Some a /\
  forall name rest : str, line = name ++ tab :: rest -> ~ In tab name -> argv = lit "docker" :: split_whitespace a ++ [name].
Proof.
  unfold Palette_Model.docker_containers. cbv zeta. destruct (capture _) as [[[|] out]|] eqn:C; try (intros []). rewrite acts_let. destruct (lines out) as [|x l] eqn:L; [intros []|]. destruct (pick (x :: l)) as [|line m] eqn:P; [intros []|].
  destruct (upto tab line) as [|n name] eqn:U; [intros []|]. destruct (pick2 docker_actions) as [|a m2] eqn:P2; [intros []|]. rewrite acts_run. destruct (starts _); [|intros []]. intros [<- |[]]. eexists _, out, line, a. split; [exact C|]. rewrite L, P. split; [apply (shown (x :: l)); rewrite P; left; reflexivity|]. split; [reflexivity|].
  split; [apply (shown2 docker_actions); rewrite P2; left; reflexivity|]. split; [reflexivity|]. intros nm rest -> N. rewrite upto_app in U by exact N. rewrite <- U. reflexivity.
Qed.
(** A shell is never opened in the selected container, unless it happens to be named bash or sh. *)
Theorem C181_docker_shell_refuted argv a more : hd_error (pick2 docker_actions) = Some a -> split_whitespace a = lit "exec" :: more -> In argv (acts docker_containers) ->
  exec_container argv = Some (lit "bash") \/ exec_container argv = Some (lit "sh").
Proof.
  intros P2 E. unfold Palette_Model.docker_containers. cbv zeta. destruct (capture _) as [[[|] out]|] eqn:C; try (intros []). rewrite acts_let. destruct (lines out) as [|x l] eqn:L; [intros []|]. destruct (pick (x :: l)) as [|line m] eqn:P; [intros []|].
  destruct (upto tab line) as [|n name] eqn:U; [intros []|]. destruct (pick2 docker_actions) as [|b m2] eqn:Q; [discriminate|]. injection P2 as ->. rewrite acts_run. destruct (starts _); [|intros []]. intros [<- |[]].
  assert (J : In a docker_actions) by (apply (shown2 docker_actions); rewrite Q; left; reflexivity). destruct J as [<- |[<- |[<- |[<- |[<- |[<- |[<- |[<- |[]]]]]]]]]; try (vm_compute in E; discriminate); [left|right]; vm_compute; reflexivity.
Qed.
Theorem C181_file argv : In argv (acts find_file) -> exists list out f, capture list = Some (true, out) /\ In f (lines out) /\ hd_error (pick (lines out)) = Some f /\
  argv = [match editor with Some e => e | None => match visual with Some v => v | None => lit "vim" end end; f].
Proof.
  assert (G : forall out, In argv (acts (edit_chosen starts pick editor visual out)) -> exists f, In f (lines out) /\ hd_error (pick (lines out)) = Some f /\ argv = [editor_of editor visual; f]).
  { intros out. unfold edit_chosen. destruct (lines out) as [|x l]; [intros []|]. destruct (pick (x :: l)) as [|f m] eqn:P; [intros []|]. rewrite acts_run. destruct (starts _); [|intros []]. intros [<- |[]]. exists f. split; [apply (shown (x :: l)); rewrite P; left; reflexivity|]. split; reflexivity. }
  unfold Palette_Model.find_file. cbv zeta. destruct (capture [lit "fd"; _; _; _; _; _]) as [cc|] eqn:C; rewrite acts_listing; [rewrite C; destruct cc as [[|] out]; [|intros []]|destruct (capture [lit "find"; _; _; _; _; _; _]) as [[[|] out]|] eqn:D; try (intros [])].
  - intros J. destruct (G out J) as (f & A). eexists _, out, f. split; [exact C|exact A].
  - intros J. destruct (G out J) as (f & A). eexists _, out, f. split; [exact D|exact A].
Qed.
Lemma trim_parts (s : str) : exists l r, s = l ++ trim s ++ r /\ (forall c, In c l -> is_whitespace c = true) /\ (forall c, In c r -> is_whitespace c = true).
Proof. destruct (Offer_Props.trim_trimmed s) as (l & r & E & L & R & _). exists l, r. split; [exact E|]. split; [exact L|exact R]. Qed.
Lemma ws_trim (s : str) : split_whitespace (trim s) = split_whitespace s.
Proof.
  destruct (trim_parts s) as (l & r & E & L & R). rewrite E at 2. unfold split_whitespace. rewrite split_ws_aux_gap by exact L. destruct r as [|c r]; [rewrite app_nil_r; reflexivity|].
  rewrite Gitlog_Props.ws_app by (apply R; left; reflexivity). replace (split_ws_aux [] r) with (@nil str); [rewrite app_nil_r; reflexivity|]. rewrite <- (app_nil_r r), split_ws_aux_gap; [reflexivity|]. intros d D. apply R. right. exact D.
Qed.
Lemma trim_keeps_in (s : str) c : is_whitespace c = false -> In c s -> In c (trim s).
Proof. intros W J. destruct (trim_parts s) as (l & r & E & L & R). rewrite E in J. apply in_app_iff in J as [J|J]; [rewrite (L c J) in W; discriminate|]. apply in_app_iff in J as [J|J]; [exact J|]. rewrite (R c J) in W. discriminate. Qed.
Lemma hosts_in h (content : str) : In h (parse_ssh_config content) <-> exists l, In l (lines content) /\ In h (hosts_of_line l).
Proof. apply in_flat_map. Qed.
(** a host offered is one of a line Host that holds no pattern *)
Theorem C181_ssh argv config : In argv (acts (ssh_connect config)) -> exists h l word rest ws, argv = [lit "ssh"; h] /\ In l (lines config) /\ trim l = word ++ 32%N :: rest /\ lower word = lit "host" /\
  Words rest ws /\ In h ws /\ ~ In 42%N rest /\ ~ In 63%N rest.
Proof.
  unfold Palette_Model.ssh_connect. destruct (parse_ssh_config config) as [|x hs] eqn:H; [intros []|]. destruct (pick (x :: hs)) as [|h m] eqn:P; [intros []|]. rewrite acts_run. destruct (starts _); [|intros []]. intros [<- |[]].
  assert (J : In h (parse_ssh_config config)) by (rewrite H; apply (shown (x :: hs)); rewrite P; left; reflexivity). apply hosts_in in J as (l & Il & J). unfold hosts_of_line in J. cbv zeta in J. destruct (starts_with _ _) eqn:S; [|destruct J]. apply starts_with_iff in S as [t S].
  destruct (wild (trim (skipn 5 (trim l)))) eqn:W; [destruct J|]. apply filter_In in J as [J _].
  assert (X : exists word rest, trim l = word ++ 32%N :: rest /\ lower word = lit "host" /\ skipn 5 (trim l) = rest).
  { generalize dependent (trim l). intros q S' _ _. destruct q as [|a [|b [|c [|d [|e q]]]]]; try discriminate. exists [a; b; c; d], q. change (lit "host " ++ t) with (104%N :: 111%N :: 115%N :: 116%N :: 32%N :: t) in S'. cbn [lower map] in S'. injection S' as A B C D E F. split; [|split; [cbn [lower map]; rewrite A, B, C, D; reflexivity|reflexivity]]. cbn [app]. do 4 f_equal. f_equal.
    unfold lower_char in E. destruct (65 <=? e)%N eqn:E1, (e <=? 90)%N eqn:E2; cbn in E; try exact E. apply N.leb_le in E1. lia. }
  destruct X as (word & rest & X & Lw & K). rewrite K in *. exists h, l, word, rest, (split_whitespace (trim rest)). split; [reflexivity|]. split; [exact Il|]. split; [exact X|]. split; [exact Lw|].
  split; [apply Words_iff; symmetry; apply ws_trim|]. split; [exact J|]. unfold wild in W. apply orb_false_iff in W as [W1 W2].
  split; intros Z; [apply (trim_keeps_in rest 42%N eq_refl), mem_char_iff in Z|apply (trim_keeps_in rest 63%N eq_refl), mem_char_iff in Z]; congruence.
Qed.
(** But hosts are missed, though they are no patterns: after a tab or an equals sign, and beside a pattern. *)
Theorem C181_ssh_separator_refuted c (rest : str) : c = tab \/ c = 61%N -> hosts_of_line (lit "Host" ++ c :: rest) = [].
Proof.
  intros Hc. unfold hosts_of_line. cbv zeta. destruct (starts_with _ _) eqn:S; [|reflexivity]. exfalso. apply starts_with_iff in S as [t S]. destruct (trim_parts (lit "Host" ++ c :: rest)) as (l & r & E & L & _).
  set (q := trim (lit "Host" ++ c :: rest)) in *. clearbody q. destruct l as [|x l]; [|injection E as <- _; specialize (L (chr "H") (or_introl eq_refl)); discriminate].
  destruct q as [|a [|b [|d [|e [|f q]]]]]; try discriminate. change (lit "host " ++ t) with (104%N :: 111%N :: 115%N :: 116%N :: 32%N :: t) in S. cbn [lower map] in S. injection S as _ _ _ _ S _. injection E as _ _ _ _ E _. subst f. destruct Hc as [-> | ->]; discriminate.
Qed.
Theorem C181_ssh_beside_pattern_refuted (rest : str) : In 42%N rest -> hosts_of_line (lit "Host " ++ rest) = [].
Proof.
  intros J. unfold hosts_of_line. cbv zeta. destruct (starts_with _ _) eqn:S; [|reflexivity]. destruct (trim_parts (lit "Host " ++ rest)) as (l & r & E & L & R). set (q := trim (lit "Host " ++ rest)) in *.
  assert (K : In 42%N q). { apply trim_keeps_in; [reflexivity|]. apply in_app_iff. right. exact J. }
  destruct l as [|x l]; [|injection E as <- _; specialize (L (chr "H") (or_introl eq_refl)); discriminate]. clearbody q. destruct q as [|a [|b [|d [|e [|f q]]]]]; try (apply starts_with_iff in S as [t S]; discriminate). injection E; intros; subst.
  cbn [skipn]. replace (wild (trim q)) with true; [reflexivity|]. symmetry. unfold wild. apply orb_true_iff. left. apply mem_char_iff. apply trim_keeps_in; [reflexivity|]. destruct K as [K|[K|[K|[K|[K|K]]]]]; try discriminate. exact K.
Qed.

(** ** Jumping *)
(** The shell is in the selected directory, but `cd -' does not lead back and PWD names the old one: both are as before. *)
Theorem C181_jump d l p (w : world) : hd_error (pick (firstn 100 l)) = Some d -> forall enter, enter d = Some p ->
  fst (jump_directory pick enter l w) = Fine /\ cwd (snd (jump_directory pick enter l w)) = p.
Proof.
  intros P enter E. unfold jump_directory. destruct (firstn 100 l) as [|x f] eqn:F; [exfalso; specialize (shown []); destruct (pick []) as [|y m]; [discriminate|]; destruct (shown y); left; reflexivity|].
  destruct (pick (x :: f)) as [|y m]; [discriminate|]. injection P as ->. rewrite E. split; reflexivity.
Qed.
Theorem C181_jump_back_refuted enter l (w : world) : cd_minus (snd (jump_directory pick enter l w)) = cd_minus w /\
  get_var (wenv (snd (jump_directory pick enter l w))) PWD = get_var (wenv w) PWD /\ roots (snd (jump_directory pick enter l w)) = roots w.
Proof.
  unfold jump_directory. destruct (firstn 100 l); [repeat split|]. destruct (pick _); [repeat split|]. destruct (enter _); repeat split.
Qed.

(** ** C183: errors *)
(** An action ends in an error if its program cannot be started, for one. *)
Theorem C183_no_repository : capture [lit "git"; lit "branch"; lit "-a"; lit "--format=%(refname:short)"] = Some (false, []) -> snd git_checkout = Error.
Proof. intros C. unfold Palette_Model.git_checkout, Palette_Model.listing. rewrite C. reflexivity. Qed.
Theorem C183_no_editor out f : capture [lit "fd"; lit "--type"; lit "f"; lit "--hidden"; lit "--exclude"; lit ".git"] = Some (true, out) -> hd_error (pick (lines out)) = Some f ->
  starts [editor_of editor visual; f] = false -> snd find_file = Error.
Proof.
  intros C P S. unfold Palette_Model.find_file. cbv zeta. rewrite C. unfold Palette_Model.listing. rewrite C. unfold edit_chosen. destruct (lines out) as [|x l]; [exfalso; specialize (shown []); destruct (pick []) as [|y m]; [discriminate|]; destruct (shown y); left; reflexivity|].
  destruct (pick (x :: l)) as [|y m]; [discriminate|]. injection P as ->. unfold Palette_Model.run. rewrite S. reflexivity.
Qed.
End Actions.
(** An error ends the session, whatever its state, and kills its jobs without a warning. *)
Theorem C183_error_leaves_refuted debug r js ts : Main_Model.session debug r (palette_turn Error js :: ts) = ([Main_Model.Leaves], Some js).
Proof. reflexivity. Qed.
(** without an error the session goes on, if it is not asked to end *)
Theorem C183_stays_partial debug r js : Main_Model.should_exit r = false -> Main_Model.exited r = false -> snd (Main_Model.turn_of debug r (palette_turn Fine js)) = Main_Model.Stays.
Proof.
  intros S X. unfold Main_Model.turn_of, palette_turn. cbn [Main_Model.got]. unfold Main_Model.handle, Main_Model.forget. cbn [Main_Model.got Main_Model.exit_ran Main_Model.waiting Main_Model.time]. rewrite Nat.eqb_refl. cbn [negb]. unfold Main_Model.decide. cbn [Main_Model.should_exit Main_Model.exited]. rewrite S, X. reflexivity.
Qed.

(** ** C182: the list of actions *)
Section Registry.
Variable B : Type.
Implicit Types r : list (action B).
Lemma before_iff (a b : action B) : before a b = true <-> comes_before a b \/ (category a = category b /\ aname a = aname b).
Proof.
  unfold before, comes_before. destruct (str_cmp (category a) (category b)) eqn:C.
  - apply str_cmp_eq in C. destruct (str_cmp (aname a) (aname b)) eqn:D.
    + apply str_cmp_eq in D. split; auto.
    + split; auto.
    + split; [discriminate|]. intros [[X|[_ X]]|[_ X]]; [congruence|congruence|]. rewrite X, str_cmp_refl in D. discriminate.
  - split; auto.
  - split; [discriminate|]. intros [[X|[X _]]|[X _]]; [congruence| |]; rewrite X, str_cmp_refl in C; discriminate.
Qed.
Lemma comes_trans (a b c : action B) : comes_before a b -> comes_before b c -> comes_before a c.
Proof.
  unfold comes_before. intros [X|[X Y]] [Z|[Z W]].
  - left. eapply str_lt_trans; eassumption.
  - left. rewrite <- Z. exact X.
  - left. rewrite X. exact Z.
  - right. split; [congruence|]. eapply str_lt_trans; eassumption.
Qed.
Lemma comes_irrefl (a : action B) : ~ comes_before a a.
Proof. intros [X|[_ X]]; exact (str_lt_irrefl _ X). Qed.
Lemma before_total (a b : action B) : before a b = false -> before b a = true.
Proof.
  unfold before. rewrite (str_cmp_sym (category a) (category b)), (str_cmp_sym (aname a) (aname b)). destruct (str_cmp (category a) (category b)); cbn; try congruence. destruct (str_cmp (aname a) (aname b)); cbn; congruence.
Qed.
Lemma before_trans (a b c : action B) : before a b = true -> before b c = true -> before a c = true.
Proof.
  rewrite !before_iff. intros [X|[X X']] [Y|[Y Y']].
  - left. eapply comes_trans; eassumption.
  - left. unfold comes_before in *. rewrite <- Y, <- Y'. exact X.
  - left. unfold comes_before in *. rewrite X, X'. exact Y.
  - right. split; congruence.
Qed.
Lemma sorted_strict r : NoDup (map aname r) -> ordered before r -> StronglySorted comes_before r.
Proof.
  induction r as [|a r IH]; intros N O; [constructor|]. inversion_clear N as [|? ? Na Nr]. destruct O as [Oa Or]. constructor; [exact (IH Nr Or)|]. apply Forall_forall. intros b J. specialize (Oa b J). apply before_iff in Oa as [X|[_ X]]; [exact X|]. exfalso. apply Na. rewrite X. apply in_map. exact J.
Qed.
(** every action is offered exactly once, by category and name *)
Theorem C182_offered r : NoDup (map aname r) -> Permutation r (get_all r) /\ StronglySorted comes_before (get_all r).
Proof.
  intros N. split; [apply sort_perm|]. apply sorted_strict; [|apply sort_ordered; [exact before_total|exact before_trans]].
  eapply Permutation_NoDup; [apply Permutation_map, sort_perm|exact N].
Qed.
(** the order does not depend on that of the table *)
Theorem C182_same_list r r' : NoDup (map aname r) -> Permutation r r' -> get_all r = get_all r'.
Proof.
  intros N P. assert (N' : NoDup (map aname r')) by (eapply Permutation_NoDup; [apply Permutation_map; exact P|exact N]).
  destruct (C182_offered r N) as [A S]. destruct (C182_offered r' N') as [A' S']. assert (Q : Permutation (get_all r) (get_all r')) by (rewrite <- A, <- A'; exact P).
  revert S S' Q. generalize (get_all r) (get_all r'). clear. induction l as [|a l IH]; intros m S S' Q; [apply Permutation_nil in Q; congruence|]. destruct m as [|b m]; [apply Permutation_sym, Permutation_nil in Q; discriminate|].
  inversion_clear S as [|? ? Sl Fa]. inversion_clear S' as [|? ? Sm Fb]. rewrite Forall_forall in Fa, Fb.
  assert (E : a = b). { assert (J : In a (b :: m)) by (eapply Permutation_in; [exact Q|left; reflexivity]). assert (K : In b (a :: l)) by (eapply Permutation_in; [apply Permutation_sym; exact Q|left; reflexivity]).
    destruct J as [<- |J]; [reflexivity|]. destruct K as [-> |K]; [reflexivity|]. exfalso. apply (comes_irrefl a). eapply comes_trans; [exact (Fa b K)|exact (Fb a J)]. }
  subst b. f_equal. apply IH; [exact Sl|exact Sm|]. eapply Permutation_cons_inv. exact Q.
Qed.
(** registering keeps the names apart, keeps the others and takes the place of one of the same name *)
Theorem C182_registered a r b : In b (register a r) <-> b = a \/ (In b r /\ aname b <> aname a).
Proof.
  unfold register. cbn [In]. rewrite filter_In. destruct (str_eqb_spec (aname b) (aname a)) as [E|E]; cbn [negb]; intuition congruence.
Qed.
Theorem C182_registered_once a r : NoDup (map aname r) -> NoDup (map aname (register a r)).
Proof.
  intros N. unfold register. cbn [map]. constructor.
  - intros J. apply in_map_iff in J as (b & E & J). apply filter_In in J as [_ J]. rewrite E, str_eqb_refl in J. discriminate.
  - induction r as [|x r IH]; [constructor|]. inversion_clear N as [|? ? Nx Nr]. cbn [filter]. destruct (negb _); [|exact (IH Nr)]. cbn [map]. constructor; [|exact (IH Nr)]. intros J. apply Nx. apply in_map_iff in J as (y & E & J). apply filter_In in J as [J _]. rewrite <- E. apply in_map. exact J.
Qed.
(** the action chosen is the one that is run *)
Theorem C182_chosen_partial r a : NoDup (map aname r) -> In a r -> aname a <> lit "Search History" -> choose r (Some (aname a)) = Executed (body a).
Proof.
  intros N J H. unfold choose. destruct (str_eqb_spec (aname a) (lit "Search History")) as [E|_]; [contradiction|]. induction r as [|x r IH]; [destruct J|]. inversion_clear N as [|? ? Nx Nr]. cbn [List.find]. destruct (str_eqb_spec (aname x) (aname a)) as [E|E].
  - destruct J as [-> |J]; [reflexivity|]. exfalso. apply Nx. rewrite E. apply in_map. exact J.
  - destruct J as [-> |J]; [contradiction|]. exact (IH Nr J).
Qed.
(** But an action of one's own that is named Search History is listed and never run. *)
Theorem C182_search_history_refuted r (b : B) : let a := Action (lit "Search History") (lit "General") b in In a (get_all (register a r)) /\ choose (register a r) (Some (aname a)) = SearchHistory.
Proof.
  cbv zeta. split; [eapply Permutation_in; [apply sort_perm|left; reflexivity]|reflexivity].
Qed.
End Registry.
(** a command of the history becomes the line, as it is *)
Theorem C182_history entries line selected c : incl selected (history_offered entries) -> line_after line selected = c -> c = line \/ In c entries.
Proof.
  intros I <-. destruct selected as [|x s]; [left; reflexivity|]. right. cbn [line_after]. specialize (I x (or_introl eq_refl)). unfold history_offered in I. apply in_rev. rewrite <- (firstn_skipn 1000 (rev entries)). apply in_app_iff. left. exact I.
Qed.

(** ** Concrete cases *)
Section Examples.
Definition nl : str := [10%N].
Definition ps_out : str := lit "USER PID CMD" ++ nl ++ lit "ann   17 vi" ++ nl ++ lit "bob 4 sh" ++ nl.
Definition outputs (argv : list str) : option (bool * str) :=
  match argv with
  | p :: _ =>
      if str_eqb p (lit "ps") then Some (true, ps_out)
      else if str_eqb p (lit "docker") then Some (true, lit "web" ++ tab :: lit "Up" ++ tab :: lit "img" ++ nl)
      else if str_eqb p (lit "git") then Some (true, lit "stash@{0}: WIP on main" ++ nl ++ lit "stash@{1}: x" ++ nl)
      else None
  | [] => None
  end.
Example C179_example : acts (kill_process outputs (fun _ => true) (fun l => l)) = [[lit "kill"; lit "17"]] /\ length (tl (lines ps_out)) = 2.
Proof. vm_compute. split; reflexivity. Qed.
Example C180_example : acts (git_stash outputs (fun _ => true) (fun l => tl l) (fun l => tl l)) = [[lit "git"; lit "stash"; lit "pop"; lit "stash@{1}"]].
Proof. vm_compute. reflexivity. Qed.
Example C181_example : acts (docker_containers outputs (fun _ => true) (fun l => l) (fun l => l)) = [[lit "docker"; lit "start"; lit "web"]] /\
  acts (docker_containers outputs (fun _ => true) (fun l => l) (fun l => skipn 5 l)) = [[lit "docker"; lit "exec"; lit "-it"; lit "bash"; lit "web"]] /\
  parse_ssh_config (lit "Host one two" ++ nl ++ lit " HostName x" ++ nl ++ lit "host three" ++ nl ++ lit "Host four *.net") = [lit "one"; lit "two"; lit "three"].
Proof. vm_compute. repeat split; reflexivity. Qed.
Example C182_example : map aname (get_all (register (Action (lit "Zip") (lit "General") 1) [Action (lit "Git Add") (lit "Git") 2; Action (lit "Find File") (lit "General") 3; Action (lit "Zip") (lit "Dev") 4])) = [lit "Find File"; lit "Zip"; lit "Git Add"].
Proof. vm_compute. reflexivity. Qed.
(** no git, two jobs in the background: choosing Git Checkout ends the session and kills both *)
Example C183_example : let e := snd (git_checkout (fun _ => None) (fun _ => true) (fun l => l)) in
  Main_Model.session false Main_Model.fresh [palette_turn e [1; 2]] = ([Main_Model.Leaves], Some [1; 2]).
Proof. vm_compute. reflexivity. Qed.
End Examples.
Print Assumptions C179_kill.
Print Assumptions C179_selected_is_killed.
Print Assumptions C179_others_are_kept_refuted.
Print Assumptions C179_port_asks.
Print Assumptions C179_ss_refuted.
Print Assumptions C180_checkout.
Print Assumptions C180_stash_partial.
Print Assumptions C180_stash_by_date_refuted.
Print Assumptions C180_diff.
Print Assumptions C180_staged_refuted.
Print Assumptions C180_push.
Print Assumptions C180_commit.
Print Assumptions C181_docker_partial.
Print Assumptions C181_docker_shell_refuted.
Print Assumptions C181_file.
Print Assumptions C181_ssh.
Print Assumptions C181_ssh_separator_refuted.
Print Assumptions C181_ssh_beside_pattern_refuted.
Print Assumptions C181_jump.
Print Assumptions C181_jump_back_refuted.
Print Assumptions C183_no_repository.
Print Assumptions C183_no_editor.
Print Assumptions C183_error_leaves_refuted.
Print Assumptions C183_stays_partial.
Print Assumptions C182_offered.
Print Assumptions C182_same_list.
Print Assumptions C182_registered.
Print Assumptions C182_registered_once.
Print Assumptions C182_chosen_partial.
Print Assumptions C182_search_history_refuted.
Print Assumptions C182_history.
