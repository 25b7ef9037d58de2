(** From parse trees of well-formed lines to jobs, and where the spans of a tree lie. *)
From Verif Require Import Base Peg_Model Peg_Proofs Grammar_Model Parse_Model Parse_Spec Grammar_Proofs.

Lemma foldm_app {A B} (f : B -> A -> option B) l m b :
  foldm f (l ++ m) b = match foldm f l b with Some b' => foldm f m b' | None => None end.
Proof. revert b; induction l as [|x l IH]; intros b; cbn; [reflexivity|]. destruct (f b x); auto. Qed.

(** ** spans *)
Section Spans.
Context {R : Type} (gram : R -> expr R).
Lemma faithful_widen (line : str) lo lo' hi hi' (ns : list (node R)) :
  faithful line lo hi ns -> lo' <= lo -> hi <= hi' -> faithful line lo' hi' ns.
Proof.
  intros H. revert lo' hi'. induction H as [lo hi L|lo hi r start text inner ns L T Hi IHi Hn IHn]; intros lo' hi' L1 L2.
  - constructor. lia.
  - constructor; [lia|exact T|exact Hi|apply IHn; lia].
Qed.
Lemma faithful_app (line : str) lo mid hi (a b : list (node R)) :
  faithful line lo mid a -> faithful line mid hi b -> faithful line lo hi (a ++ b).
Proof.
  intros H. induction H as [lo hi' L|lo hi' r start text inner ns L T Hi IHi Hn IHn]; intros Hb; cbn [app].
  - eapply faithful_widen; [exact Hb|exact L|lia].
  - constructor; [lia|exact T|exact Hi|apply IHn, Hb].
Qed.
Lemma peg_faithful (line : str) n : forall e pos s ns c r, skipn pos line = s ->
  peg gram n e pos s = Ok ns c r -> faithful line pos (pos + length c) ns /\ firstn (length c) (skipn pos line) = c /\ skipn (pos + length c) line = r.
Proof.
  assert (Sp : forall pos s c r, skipn pos line = s -> s = c ++ r -> firstn (length c) (skipn pos line) = c /\ skipn (pos + length c) line = r).
  { intros pos s c r E Q. rewrite E, Q, firstn_app, Nat.sub_diag, firstn_all, app_nil_r. split; [reflexivity|].
    rewrite Nat.add_comm, <- skipn_skipn, E, Q, skipn_app, Nat.sub_diag, skipn_all. reflexivity. }
  induction n as [|n IH]; intros e pos s ns c r E H; [discriminate|].
  pose proof (peg_split gram _ _ _ _ _ _ _ H) as Q. destruct (Sp _ _ _ _ E Q) as [S1 S2].
  split; [|split; assumption].
  destruct e as [t| |a b|a b|a|a|a|rl]; cbn [peg] in H.
  - destruct (starts_with t s); [|discriminate]. injection H as <- <- <-. constructor. lia.
  - destruct s; [discriminate|]. injection H as <- <- <-. constructor. lia.
  - destruct (peg gram n a pos s) as [| |n1 c1 r1] eqn:E1; try discriminate.
    destruct (peg gram n b _ r1) as [| |n2 c2 r2] eqn:E2; try discriminate. injection H as <- <- <-.
    destruct (IH _ _ _ _ _ _ E E1) as (F1 & _ & E1'). destruct (IH _ _ _ _ _ _ E1' E2) as (F2 & _ & _).
    rewrite app_length, Nat.add_assoc. eapply faithful_app; eauto.
  - destruct (peg gram n a pos s) as [| |n1 c1 r1] eqn:E1; try discriminate; [eapply IH; eauto|]. injection H as <- <- <-. eapply IH; eauto.
  - destruct (peg gram n a pos s) as [| |n1 c1 r1] eqn:E1; try discriminate; [injection H as <- <- <-; constructor; lia|].
    destruct (peg gram n (Star a) _ r1) as [| |n2 c2 r2] eqn:E2; try discriminate. injection H as <- <- <-.
    destruct (IH _ _ _ _ _ _ E E1) as (F1 & _ & E1'). destruct (IH _ _ _ _ _ _ E1' E2) as (F2 & _ & _).
    rewrite app_length, Nat.add_assoc. eapply faithful_app; eauto.
  - destruct (peg gram n a pos s) as [| |n1 c1 r1] eqn:E1; try discriminate; [injection H as <- <- <-; constructor; lia|]. injection H as <- <- <-. eapply IH; eauto.
  - destruct (peg gram n a pos s) as [| |n1 c1 r1] eqn:E1; try discriminate. injection H as <- <- <-. constructor; lia.
  - destruct (peg gram n (gram rl) pos s) as [| |n1 c1 r1] eqn:E1; try discriminate. injection H as <- <- <-.
    destruct (IH _ _ _ _ _ _ E E1) as (F1 & _ & _). constructor; [lia|exact S1|exact F1|constructor; lia].
Qed.
End Spans.

(** the rules that accept the empty text never fail *)
Lemma commands_never_fail pos s : prun (Nt commands) pos s <> Fail.
Proof.
  assert (St : forall a pos s, pgood (Star a) -> prun (Star a) pos s <> Fail).
  { intros a p t G. unfold prun.
    assert (K : forall n t p, length t <= n -> run gram ranks sizes (Star a) p t <> Fail).
    { induction n as [|n IH]; intros u q L; rewrite (run_star gram eats_rule rank) by (auto; env);
        destruct (run gram ranks sizes a q u) as [| |n1 c1 r1] eqn:E; cbn [then_]; try discriminate.
      - pose proof (run_split gram ranks sizes a _ _ _ _ _ E) as Q. unfold pgood, good in G. cbn [safe] in G. apply andb_true_iff in G as [_ G].
        pose proof (run_eats gram eats_rule ranks sizes gram_eats _ _ _ _ _ _ G E) as Q2. destruct c1; [congruence|]. subst u. cbn in L. lia.
      - pose proof (run_split gram ranks sizes a _ _ _ _ _ E) as Q. pose proof G as G0. unfold pgood, good in G. cbn [safe] in G. apply andb_true_iff in G as [_ G].
        pose proof (run_eats gram eats_rule ranks sizes gram_eats _ _ _ _ _ _ G E) as Q2.
        assert (length r1 <= n) by (destruct c1; [congruence|]; subst u; rewrite app_length in L; cbn in L; lia).
        pose proof (IH r1 (q + length c1) H) as Q3. destruct (run gram ranks sizes (Star a) (q + length c1) r1); congruence. }
    apply (K (length t)). lia. }
  assert (Sq : forall a b, pgood (Seq a b) -> (forall pos s, prun a pos s <> Fail) -> (forall pos s, prun b pos s <> Fail) -> forall pos s, prun (Seq a b) pos s <> Fail).
  { intros a b G Ha Hb p t. unfold prun in *. rewrite (run_seq gram eats_rule rank) by (auto; env). pose proof (Ha p t) as H1.
    destruct (run gram ranks sizes a p t) as [| |n1 c1 r1]; cbn [then_]; try congruence; try discriminate. pose proof (Hb (p + length c1) r1).
    destruct (run gram ranks sizes b (p + length c1) r1); congruence. }
  assert (Op : forall a, pgood (Opt a) -> forall pos s, prun (Opt a) pos s <> Fail).
  { intros a G p t. unfold prun. rewrite (run_opt gram eats_rule rank) by (auto; env). destruct (run gram ranks sizes a p t); discriminate. }
  assert (Nn : forall rl, (forall pos s, prun (gram rl) pos s <> Fail) -> forall pos s, prun (Nt rl) pos s <> Fail).
  { intros rl H p t. unfold prun in *. rewrite (run_nt gram eats_rule rank) by env. pose proof (H p t). destruct (run gram ranks sizes (gram rl) p t); congruence. }
  apply Nn. apply Sq; [reflexivity| |intros; apply St; reflexivity].
  apply Sq; [reflexivity|intros; apply St; reflexivity|]. apply Nn.
  apply Sq; [reflexivity|intros; apply St; reflexivity|]. apply Sq; [reflexivity|intros; apply St; reflexivity|].
  apply Sq; [reflexivity|intros; apply St; reflexivity|]. apply Op. reflexivity.
Qed.

Lemma parse_total s : exists kids c r, parse s = Ok [Node commands 0 c kids] c r /\ s = c ++ r.
Proof.
  rewrite parse_run. destruct (prun (Nt commands) 0 s) as [| |ns c r] eqn:E.
  - exfalso. revert E. apply (run_total gram eats_rule rank); try env. reflexivity.
  - exfalso. revert E. apply commands_never_fail.
  - pose proof (run_split gram ranks sizes _ _ _ _ _ _ E) as Q. unfold prun in E. rewrite (run_nt gram eats_rule rank) in E by env.
    destruct (run gram ranks sizes (gram commands) 0 s) as [| |n1 c1 r1]; try discriminate. injection E as <- <- <-. eauto.
Qed.

(** ** the jobs of a tree *)
Section Jobs.
Variable resolve : str -> found.
Variable substitute : subshell_type -> list job -> list str.
Variable sub_commands : pctx -> pair_ -> option (list job).

Lemma span_inner_plain c acc q : plain (rule_of q) -> parse_span_inner sub_commands c acc q = Some (acc ++ [(get_string q, None)]).
Proof using. unfold parse_span_inner. destruct (rule_of q); cbn [plain]; intros H; try contradiction; reflexivity. Qed.
Lemma span_value c acc w n : span_node w n ->
  foldm (parse_span_inner sub_commands c) (inner_of n) acc = Some (acc ++ [(meaning w, None)]).
Proof using. intros (p & q & -> & [P _] & E). cbn [inner_of foldm]. rewrite span_inner_plain by (rewrite P; destruct w; exact I). rewrite E. reflexivity. Qed.

Definition redirected (j : job) (rs : list redirection) : job :=
  match last_redirection rs with Some r => set_redirect j (Some r) | None => j end.
Lemma redirected_cons j r rs : redirected (set_redirect j (Some r)) rs = redirected j (r :: rs).
Proof using.
  unfold redirected, last_redirection. cbn [rev]. destruct (rev rs) as [|x l] eqn:E; cbn [app]; reflexivity.
Qed.
Lemma redirected_app j rs1 rs2 : redirected (redirected j rs1) rs2 = redirected j (rs1 ++ rs2).
Proof using.
  unfold redirected, last_redirection. rewrite rev_app_distr. destruct (rev rs2) as [|x l]; cbn [app]; [destruct (rev rs1); reflexivity|].
  destruct (rev rs1); reflexivity.
Qed.

Definition item_args (its : list item) : list str := flat_map (fun i => match i with Arg _ w => [meaning w] | Redir _ _ _ _ => [] end) its.
Definition item_redirs (its : list item) : list redirection := flat_map (fun i => match i with Arg _ _ => [] | Redir _ d _ f => [redirection_for d f] end) its.

Lemma items_value c its inner : Forall2 item_node its inner -> forall j acc,
  foldm (fun '(j, acc) s =>
        match rule_of s with
        | redirect => Some (parse_redirect j (inner_of s), acc)
        | _ => match foldm (parse_span_inner sub_commands c) (inner_of s) acc with Some acc' => Some (j, acc') | None => None end
        end) inner (j, acc) = Some (redirected j (item_redirs its), acc ++ map (fun a => (a, None)) (item_args its)).
Proof using.
  induction 1 as [|i n its inner Hn F IH]; intros j acc; cbn [foldm].
  - rewrite app_nil_r. reflexivity.
  - destruct i as [g w|g d h f]; cbn [item_node] in Hn.
    + rewrite (span_value c acc w n Hn). destruct Hn as (p & q & -> & _). cbn [rule_of]. cbv beta iota. rewrite IH.
      cbn [item_args item_redirs flat_map app map]. rewrite <- app_assoc. reflexivity.
    + destruct Hn as (p & t & dn & sn & -> & _ & _ & H). cbn [rule_of inner_of]. cbv beta iota. rewrite IH, H, redirected_cons. reflexivity.
Qed.

Lemma argv_value c w its n j : simple_node w its n ->
  parse_argv sub_commands c j n = Some (redirected j (item_redirs its), map (fun a => (a, None)) (meaning w :: item_args its)).
Proof using.
  intros (p & t & p0 & t0 & s & ns & -> & Hs & Ha). unfold parse_argv. cbn [inner_of foldm rule_of parse_argv1].
  rewrite (span_value c [] w s Hs). cbn [app].
  destruct Ha as [[-> ->] | (p1 & t1 & inner & -> & F)]; cbn [foldm rule_of parse_argv1 inner_of].
  - reflexivity.
  - rewrite (items_value c its inner F). reflexivity.
Qed.

(** what a command does to the job it joins *)
Definition joined (f : bool) (j : job) (c : cmdline) : job :=
  let j1 := redirected j (redirections c) in
  let j2 := set_procs j1 (procs j1 ++ [process_for resolve c]) in
  match resolve (meaning (name c)) with IsProgram _ => set_foreground j2 f | _ => j2 end.

Lemma argv_of_plain l : argv_of substitute (map (fun a => (a, None)) l) = l.
Proof using. unfold argv_of. induction l as [|a l IH]; [reflexivity|]. cbn [map flat_map app]. rewrite IH. reflexivity. Qed.

Lemma command_value ctx j c n : known resolve c -> simple_node (name c) (items c) n ->
  parse_command resolve substitute sub_commands ctx j n = Some (joined (fg ctx) j c).
Proof using.
  intros [K1 K2] H. unfold parse_command. rewrite (argv_value ctx (name c) (items c) n j H). rewrite argv_of_plain.
  assert (E : (match item_args (items c) with
       | [] => (meaning (name c) :: item_args (items c), redirected j (item_redirs (items c)))
       | _ :: _ => if str_eqb (meaning (name c)) (lit "nopty") then (item_args (items c), set_disable_pty (redirected j (item_redirs (items c))) true)
                   else (meaning (name c) :: item_args (items c), redirected j (item_redirs (items c)))
       end) = (argv c, redirected j (redirections c))).
  { apply str_eqb_neq in K1. rewrite K1. change (argv c) with (meaning (name c) :: item_args (items c)). destruct (item_args (items c)); reflexivity. }
  rewrite E. unfold argv at 1. unfold joined, process_for. destruct (resolve (meaning (name c))) eqn:R; try reflexivity; contradiction.
Qed.

Lemma joined_procs f j c : procs (joined f j c) = procs j ++ [process_for resolve c].
Proof using. unfold joined, redirected. destruct (last_redirection _); destruct (resolve _); reflexivity. Qed.

Definition ctx0 := PCtx true false false.
Definition is_plain (j : job) : Prop := sub j = SubNone /\ capture j = false /\ disable_pty j = false /\ struct_exprs j = [].

Lemma joined_plain f j c : is_plain j -> is_plain (joined f j c).
Proof using. unfold is_plain, joined, redirected. destruct (last_redirection _); destruct (resolve _); auto. Qed.
Lemma joined_redirect f j c : redirection_of (joined f j c) = redirection_of (redirected j (redirections c)).
Proof using. unfold joined, redirected. destruct (last_redirection _); destruct (resolve _); reflexivity. Qed.
Lemma joined_op f j c : op (joined f j c) = op j.
Proof using. unfold joined, redirected. destruct (last_redirection _); destruct (resolve _); reflexivity. Qed.
Lemma joined_fg j c : foreground j = true -> foreground (joined true j c) = true.
Proof using. unfold joined, redirected. destruct (last_redirection _); destruct (resolve _); auto. Qed.

Lemma redirected_redirection j rs : redirection_of (redirected j rs) = match last_redirection rs with Some r => Some r | None => redirection_of j end.
Proof using. unfold redirected. destruct (last_redirection rs); reflexivity. Qed.
Lemma last_redirection_app a b : last_redirection (a ++ b) = match last_redirection b with Some r => Some r | None => last_redirection a end.
Proof using. unfold last_redirection. rewrite rev_app_distr. destruct (rev b); reflexivity. Qed.

Lemma joined_cmd f j c : cmd (joined f j c) = cmd j.
Proof using. unfold joined, redirected. destruct (last_redirection _); destruct (resolve _); reflexivity. Qed.
Lemma joined_cmds f cs j : cmd (fold_left (joined f) cs j) = cmd j.
Proof using. revert j. induction cs as [|c cs IH]; intros j; [reflexivity|]. cbn [fold_left]. rewrite IH. apply joined_cmd. Qed.
(** the text kept with a background command *)
Definition bg_text (c : cmdline) : str := typed_word (name c) ++ flat_map typed_item (items c) ++ trail c ++ [38%N].

Lemma backs_value text cs : Forall (known resolve) cs -> forall b jobs, Forall2 back_node cs b ->
  exists js, foldm (parse_jobs1 resolve substitute sub_commands text) b (ctx0, jobs) = Some (ctx0, jobs ++ js) /\
    Forall is_plain js /\ map shape_of js = map (fun c => ([process_for resolve c], false, last_redirection (redirections c), OpNone)) cs /\
    map cmd js = map bg_text cs.
Proof using.
  induction 1 as [|c cs K Ks IH]; intros b jobs F; inversion F as [|? n ? b' Hn F']; subst.
  - exists []. cbn. rewrite app_nil_r. auto.
  - destruct Hn as (p & s & p' & k & -> & Hs). fold (bg_text c). set (rest := [Node background_op p' (lit "&") k]). cbn [foldm parse_jobs1 rule_of inner_of text_of].
    assert (Ef : find (fun q => rule_eqb (rule_of q) simple_command) (s :: rest) = Some s).
    { cbn [find]. destruct Hs as (? & ? & ? & ? & ? & ? & -> & _). reflexivity. }
    rewrite Ef. rewrite (command_value ctx0 _ c s K Hs). unfold has_process. rewrite joined_procs. cbn [new_job procs app].
    set (j := set_foreground (mark ctx0 (joined (fg ctx0) (new_job (bg_text c)) c)) false).
    destruct (IH b' (jobs ++ [j]) F') as (js & E & P & M & C). exists (j :: js). rewrite E, <- app_assoc. split; [reflexivity|].
    assert (Pj : is_plain (joined (fg ctx0) (new_job (bg_text c)) c)) by (apply joined_plain; repeat split).
    split; [constructor; [exact Pj|exact P]|]. cbn [map]. rewrite M, C. split; [|f_equal; apply joined_cmd]. f_equal. unfold j, shape_of.
    cbn [set_foreground procs foreground redirection_of op mark ctx0 in_subshell in_proc_subst].
    rewrite joined_procs, joined_redirect, joined_op, redirected_redirection. cbn [new_job procs app redirection_of op]. destruct (last_redirection (redirections c)); reflexivity.
Qed.

Lemma on_last_app {A} (f : A -> A) l x : on_last f (l ++ [x]) = l ++ [f x].
Proof using. unfold on_last. rewrite rev_app_distr. cbn [rev app]. rewrite rev_involutive. reflexivity. Qed.
Lemma last_of_app {A} (l : list A) x : last_of (l ++ [x]) = Some x.
Proof using. unfold last_of. rewrite rev_app_distr. reflexivity. Qed.

Lemma pipes_value text cs : Forall (known resolve) cs -> forall p jobs j, Forall2 pipe_node cs p ->
  foldm (parse_jobs1 resolve substitute sub_commands text) p (ctx0, jobs ++ [j]) = Some (ctx0, jobs ++ [fold_left (joined true) cs j]).
Proof using.
  induction 1 as [|c cs K Ks IH]; intros p jobs j F; inversion F as [|? n ? p' Hn F']; subst; [reflexivity|].
  destruct Hn as (q & t & o & s & -> & [po Ho] & Hs). cbn [foldm parse_jobs1 rule_of inner_of].
  assert (E : match jobs ++ [j] with [] => [mark ctx0 (new_job text)] | _ => jobs ++ [j] end = jobs ++ [j]) by (destruct jobs; reflexivity).
  rewrite E. rewrite Ho. cbn [rule_of]. rewrite last_of_app. assert (Es : rule_of s = simple_command) by (destruct Hs as (? & ? & ? & ? & ? & ? & -> & _); reflexivity).
  cbv beta iota. rewrite Es. cbv beta iota. rewrite (command_value _ j c s K Hs). rewrite on_last_app. cbn [fg in_subshell in_proc_subst ctx0].
  apply (IH p' jobs (joined true j c) F').
Qed.
Lemma fold_joined cs : forall j, is_plain j -> foreground j = true ->
  let j' := fold_left (joined true) cs j in
  is_plain j' /\ foreground j' = true /\ procs j' = procs j ++ map (process_for resolve) cs /\ op j' = op j /\
  redirection_of j' = redirection_of (redirected j (flat_map redirections cs)).
Proof using.
  induction cs as [|c cs IH]; intros j P F; cbn [fold_left flat_map map].
  - rewrite app_nil_r. auto.
  - destruct (IH (joined true j c) (joined_plain _ _ _ P) (joined_fg _ _ F)) as (P' & F' & Q & O & R).
    repeat split; [apply P'|apply P'|apply P'|apply P'|exact F'| | |].
    + rewrite Q, joined_procs, <- app_assoc. reflexivity.
    + rewrite O. apply joined_op.
    + rewrite R, !redirected_redirection, joined_redirect, redirected_redirection, last_redirection_app. destruct (last_redirection (flat_map redirections cs)); reflexivity.
Qed.

Definition segment_known (g : segment) : Prop := Forall (known resolve) (bgs g) /\ Forall (known resolve) (pipe g).
Definition segment_texts (text : str) (g : segment) : list str :=
  map bg_text (bgs g) ++ match pipe g with [] => [] | _ => [text] end.
Lemma segment_value text g inner jobs : segment_known g -> segment_nodes g inner ->
  exists js, foldm (parse_jobs1 resolve substitute sub_commands text) inner (ctx0, jobs) = Some (ctx0, jobs ++ js) /\
    Forall is_plain js /\ map shape_of js = segment_jobs resolve g /\ map cmd js = segment_texts text g.
Proof using.
  intros [Kb Kp] (b & f & p & -> & Hb & Hf & Hp). rewrite foldm_app.
  destruct (backs_value text (bgs g) Kb b jobs Hb) as (js & E & P & M & C). rewrite E. unfold segment_jobs, segment_texts.
  destruct (pipe g) as [|c cs]; cbn [firstn skipn] in *.
  - inversion Hf; inversion Hp; subst. exists js. cbn [app foldm]. rewrite !app_nil_r. auto.
  - inversion Hf as [|? n ? f' Hn F']; inversion F'; subst. inversion Kp as [|? ? Kc Kcs]; subst. cbn [app foldm].
    assert (Es : rule_of n = simple_command) by (destruct Hn as (? & ? & ? & ? & ? & ? & -> & _); reflexivity).
    unfold parse_jobs1 at 1. rewrite Es, (command_value ctx0 (new_job text) c n Kc Hn).
    unfold has_process. rewrite joined_procs. cbn [new_job procs app].
    set (j := mark ctx0 (joined (fg ctx0) (new_job text) c)).
    rewrite (pipes_value text cs Kcs p (jobs ++ js) j Hp).
    assert (Ej : j = joined true (new_job text) c) by reflexivity. clearbody j.
    assert (P0 : is_plain (new_job text)) by (repeat split).
    destruct (fold_joined (c :: cs) (new_job text) P0 eq_refl) as (P' & F1 & Q & O & R).
    cbn [fold_left] in *. rewrite <- Ej in *.
    exists (js ++ [fold_left (joined true) cs j]). rewrite app_assoc. split; [reflexivity|]. split.
    + apply Forall_app. split; [exact P|constructor; [exact P'|constructor]].
    + split; [|rewrite map_app, C; f_equal; cbn [map]; f_equal; rewrite joined_cmds, Ej; apply joined_cmd].
      rewrite map_app, M. f_equal. cbn [map]. f_equal. unfold shape_of. rewrite F1, Q, O, R. cbn [new_job procs op app]. f_equal. f_equal.
      rewrite redirected_redirection. cbn [new_job redirection_of]. destruct (last_redirection (flat_map redirections (c :: cs))); reflexivity.
Qed.

Lemma with_op_shape o js : map shape_of (on_last (fun j => set_op j o) js) = with_op o (map shape_of js).
Proof using.
  unfold on_last, with_op. rewrite <- map_rev. destruct (rev js) as [|j l]; [reflexivity|]. cbn [map rev shape_of].
  rewrite map_app, map_rev. reflexivity.
Qed.
Lemma on_last_plain o js : Forall is_plain js -> Forall is_plain (on_last (fun j => set_op j o) js).
Proof using.
  intros F. unfold on_last. destruct (rev js) as [|j l] eqn:E; [constructor|]. apply Forall_rev in F. rewrite E in F. inversion F; subst.
  apply Forall_rev. constructor; auto.
Qed.
Lemma on_last_suffix {A} (f : A -> A) l m : m <> [] -> on_last f (l ++ m) = l ++ on_last f m.
Proof using.
  intros N. unfold on_last. rewrite rev_app_distr. destruct (rev m) as [|x r] eqn:E.
  - exfalso. apply N. rewrite <- (rev_involutive m), E. reflexivity.
  - cbn [app rev]. rewrite rev_app_distr, rev_involutive, app_assoc. reflexivity.
Qed.

Lemma segment_jobs_nonempty g : valid_segment g -> segment_jobs resolve g <> [].
Proof using.
  intros (_ & N & _) E. unfold segment_jobs in E. apply app_eq_nil in E as [E1 E2]. apply map_eq_nil in E1. rewrite E1 in N.
  destruct (pipe g); [apply N; reflexivity|discriminate].
Qed.
Lemma with_op_none g : with_op OpNone (segment_jobs resolve g) = segment_jobs resolve g.
Proof using.
  unfold segment_jobs. destruct (pipe g) as [|c cs].
  - rewrite app_nil_r. unfold with_op. rewrite <- map_rev. destruct (rev (bgs g)) as [|x l] eqn:E; cbn [map].
    + rewrite <- (rev_involutive (bgs g)), E. reflexivity.
    + rewrite <- map_rev. rewrite <- (rev_involutive (bgs g)), E. cbn [rev]. rewrite map_app. reflexivity.
  - unfold with_op. rewrite rev_app_distr. cbn [rev app]. rewrite rev_involutive. reflexivity.
Qed.

Lemma on_last_cmd o js : map cmd (on_last (fun j => set_op j o) js) = map cmd js.
Proof using.
  unfold on_last. destruct (rev js) as [|j l] eqn:E; rewrite <- (rev_involutive js), E; [reflexivity|]. cbn [rev]. rewrite !map_app. reflexivity.
Qed.
Definition rest_texts (r : list (separator * segment)) : list str :=
  flat_map (fun sg : separator * segment => segment_texts (typed_segment (unlead (snd sg))) (snd sg)) r.
Lemma rest_value r : forall prev g jobs js ns,
  valid_rest g r -> Forall (fun sg => segment_known (snd sg)) r -> rest_nodes r ns ->
  js <> [] -> Forall is_plain js -> map shape_of js = prev -> with_op OpNone prev = prev ->
  exists out, foldm (parse_commands1 resolve substitute sub_commands) ns (ctx0, jobs ++ js) = Some (ctx0, jobs ++ out) /\
    Forall is_plain out /\ map shape_of out = rest_jobs resolve prev r /\ map cmd out = map cmd js ++ rest_texts r.
Proof using.
  induction r as [|[s g'] r IH]; intros prev g jobs js ns V K Hn Nj P M W.
  - cbn in Hn. subst ns. exists js. cbn [foldm rest_jobs rest_texts flat_map]. rewrite app_nil_r. auto.
  - destruct V as (Vg & _ & Vr). inversion K as [|? ? Kg Kr]; subst. destruct Hn as (a & b & l & -> & Ha & Hb & Hl). cbn [snd] in Kg.
    destruct Ha as (p & q & -> & Hq). destruct Hb as (p' & inner & -> & Hi). set (t' := typed_segment (unlead g')) in *.
    cbn [foldm parse_commands1 rule_of inner_of text_of].
    set (js1 := match s with Semi => js | AndIf => on_last (fun j => set_op j OpAnd) js | OrIf => on_last (fun j => set_op j OpOr) js end).
    assert (E1 : match rule_of q with and_op => on_last (fun j => set_op j OpAnd) (jobs ++ js) | or_op => on_last (fun j => set_op j OpOr) (jobs ++ js) | _ => jobs ++ js end = jobs ++ js1).
    { rewrite Hq. unfold js1. destruct s; [reflexivity|apply on_last_suffix, Nj|apply on_last_suffix, Nj]. }
    rewrite E1. cbv beta iota.
    destruct (segment_value t' g' inner (jobs ++ js1) Kg Hi) as (js2 & E2 & P2 & M2 & C2). rewrite E2.
    assert (N2 : js2 <> []). { intros Q. rewrite Q in M2. cbn [map] in M2. symmetry in M2. revert M2. apply segment_jobs_nonempty, Vg. }
    destruct (IH (segment_jobs resolve g') g' (jobs ++ js1) js2 l Vr Kr Hl N2 P2 M2 (with_op_none g')) as (out & E3 & P3 & M3 & C3).
    exists (js1 ++ out). rewrite app_assoc. split; [exact E3|]. split.
    + apply Forall_app. split; [|exact P3]. unfold js1. destruct s; [exact P|apply on_last_plain, P|apply on_last_plain, P].
    + split; [|rewrite map_app, C3, C2; unfold rest_texts; cbn [flat_map snd]; f_equal; unfold js1; destruct s; [reflexivity|apply on_last_cmd..]].
      rewrite map_app, M3. cbn [rest_jobs]. f_equal. unfold js1. destruct s; cbn [op_for]; [symmetry; exact W|apply with_op_shape|apply with_op_shape].
Qed.
End Jobs.

Definition line_texts (l : line) : list str := segment_texts (typed_segment (unlead (fst l))) (fst l) ++ rest_texts (snd l).
Lemma jobs_of_line_texts resolve substitute l u : valid_line l -> stop u -> Forall (known resolve) (all_commands l) ->
  exists js, jobs_of resolve substitute (typed_line l ++ u) = Some js /\ Forall is_plain js /\ map shape_of js = line_jobs resolve l /\
    map cmd js = line_texts l.
Proof.
  intros V Su K. destruct l as [g r]. unfold all_commands in K. cbn [fst snd] in K. apply Forall_app in K as [Kb K]. apply Forall_app in K as [Kp K].
  assert (Kr : Forall (fun sg : separator * segment => segment_known resolve (snd sg)) r).
  { clear -K. induction r as [|[s g] r IH]; [constructor|]. cbn [flat_map snd] in K. apply Forall_app in K as [K1 K2]. apply Forall_app in K1 as [K1 K3].
    constructor; [split; assumption|apply IH, K2]. }
  unfold jobs_of. rewrite parse_run. destruct (y_line (g, r) u V Su 0) as (ns & E & n & -> & p & t & c & rest & -> & Hc & Hr). rewrite E. cbn [fst snd] in *.
  destruct V as [Vg Vr]. cbn [fst snd] in *. cbn [height parse_commands rule_of inner_of].
  set (d := Nat.max _ _). clearbody d.
  destruct Hc as (p' & inner & -> & Hi). set (t' := typed_segment (unlead g)) in *. cbn [foldm parse_commands1 rule_of inner_of text_of].
  destruct (segment_value resolve substitute (parse_commands resolve substitute d) t' g inner [] (conj Kb Kp) Hi) as (js & E1 & P1 & M1 & C1).
  unfold ctx0 in E1. rewrite E1. cbn [app].
  assert (N1 : js <> []). { intros Q. rewrite Q in M1. cbn [map] in M1. symmetry in M1. revert M1. apply segment_jobs_nonempty, Vg. }
  destruct (rest_value resolve substitute (parse_commands resolve substitute d) r (segment_jobs resolve g) g [] js rest Vr Kr Hr N1 P1 M1 (with_op_none resolve g)) as (out & E2 & P2 & M2 & C2).
  unfold ctx0 in E2. cbn [app] in E2. rewrite E2. exists out. rewrite C1 in C2. auto.
Qed.
Lemma jobs_of_line resolve substitute l u : valid_line l -> stop u -> Forall (known resolve) (all_commands l) ->
  exists js, jobs_of resolve substitute (typed_line l ++ u) = Some js /\ Forall is_plain js /\ map shape_of js = line_jobs resolve l.
Proof. intros V Su K. destruct (jobs_of_line_texts resolve substitute l u V Su K) as (js & E & P & M & _). eauto. Qed.
