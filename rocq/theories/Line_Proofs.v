(** Lines without substitutions have no effect while they are read. *)
From Verif Require Import Base Safety_Model Peg_Model Peg_Proofs Grammar_Model Parse_Model Parse_Proofs Line_Model.

Definition runs_something (r : rule) : bool :=
  match r with subshell | proc_subst | command_subst => true | _ => false end.
Inductive quiet : pair_ -> Prop :=
| Quiet r s t inner : runs_something r = false -> Forall quiet inner -> quiet (Node r s t inner).
Lemma quiet_rule n : quiet n -> runs_something (rule_of n) = false.
Proof. intros []. assumption. Qed.
Lemma quiet_inner n : quiet n -> Forall quiet (inner_of n).
Proof. intros []. assumption. Qed.

Definition open_paren : char := 40%N.
Lemma lit_first n t b pos s ns c r : peg gram n (Seq (Lit t) b) pos s = Ok ns c r -> starts_with t s = true.
Proof.
  destruct n as [|n]; [discriminate|]. cbn [peg]. destruct n as [|n]; [discriminate|]. cbn [peg].
  destruct (starts_with t s); [reflexivity|discriminate].
Qed.
Lemma in_prefix x t s : starts_with t s = true -> In x t -> In x s.
Proof. intros H I. apply starts_with_iff in H as [u ->]. apply in_or_app. left. exact I. Qed.
Lemma subst_paren n rl pos s ns c r : runs_something rl = true -> peg gram n (gram rl) pos s = Ok ns c r -> In open_paren s.
Proof.
  intros R H. destruct rl; try discriminate R; cbn [gram] in H.
  - destruct n as [|n]; [discriminate|]. cbn [peg] in H.
    destruct (peg gram n (Nt proc_subst_direction) pos s) as [| |n1 c1 r1] eqn:E; try discriminate. clear H.
    destruct n as [|n]; [discriminate|]. cbn [peg] in E.
    destruct (peg gram n (gram proc_subst_direction) pos s) as [| |n2 c2 r2] eqn:E2; try discriminate. clear E. cbn [gram] in E2.
    destruct n as [|n]; [discriminate|]. cbn [peg] in E2.
    destruct (peg gram n (gram proc_subst_direction_in) pos s) as [| |n3 c3 r3] eqn:E3; try discriminate. clear E2. cbn [gram] in E3.
    destruct n as [|n]; [discriminate|]. unfold tx in E3. cbn [peg] in E3.
    destruct (starts_with (lit "<(") s) eqn:S; [|discriminate]. eapply in_prefix; [exact S|]. right. left. reflexivity.
  - eapply in_prefix; [exact (lit_first _ _ _ _ _ _ _ _ H)|]. right. left. reflexivity.
  - eapply in_prefix; [exact (lit_first _ _ _ _ _ _ _ _ H)|]. left. reflexivity.
Qed.
Lemma peg_quiet n : forall e pos s ns c r, ~ In open_paren s -> peg gram n e pos s = Ok ns c r -> Forall quiet ns.
Proof.
  induction n as [|n IH]; intros e pos s ns c r NP H; [discriminate|].
  assert (Rest : forall e pos s n1 c1 r1, ~ In open_paren s -> peg gram n e pos s = Ok n1 c1 r1 -> ~ In open_paren r1).
  { intros e0 p0 s0 n1 c1 r1 N0 E I. apply N0. rewrite (peg_split gram _ _ _ _ _ _ _ E). apply in_or_app. right. exact I. }
  destruct e as [t| |a b|a b|a|a|a|rl]; cbn [peg] in H.
  - destruct (starts_with t s); [|discriminate]. injection H as <- <- <-. constructor.
  - destruct s; [discriminate|]. injection H as <- <- <-. constructor.
  - destruct (peg gram n a pos s) as [| |n1 c1 r1] eqn:E1; try discriminate.
    destruct (peg gram n b _ r1) as [| |n2 c2 r2] eqn:E2; try discriminate. injection H as <- <- <-.
    apply Forall_app. split; [exact (IH _ _ _ _ _ _ NP E1)|exact (IH _ _ _ _ _ _ (Rest _ _ _ _ _ _ NP E1) E2)].
  - destruct (peg gram n a pos s) as [| |n1 c1 r1] eqn:E1; try discriminate; [exact (IH _ _ _ _ _ _ NP H)|]. injection H as <- <- <-. exact (IH _ _ _ _ _ _ NP E1).
  - destruct (peg gram n a pos s) as [| |n1 c1 r1] eqn:E1; try discriminate; [injection H as <- <- <-; constructor|].
    destruct (peg gram n (Star a) _ r1) as [| |n2 c2 r2] eqn:E2; try discriminate. injection H as <- <- <-.
    apply Forall_app. split; [exact (IH _ _ _ _ _ _ NP E1)|exact (IH _ _ _ _ _ _ (Rest _ _ _ _ _ _ NP E1) E2)].
  - destruct (peg gram n a pos s) as [| |n1 c1 r1] eqn:E1; try discriminate; [injection H as <- <- <-; constructor|]. injection H as <- <- <-. exact (IH _ _ _ _ _ _ NP E1).
  - destruct (peg gram n a pos s) as [| |n1 c1 r1] eqn:E1; try discriminate. injection H as <- <- <-. constructor.
  - destruct (peg gram n (gram rl) pos s) as [| |n1 c1 r1] eqn:E1; try discriminate. injection H as <- <- <-.
    constructor; [|constructor]. constructor; [|exact (IH _ _ _ _ _ _ NP E1)].
    destruct (runs_something rl) eqn:R; [|reflexivity]. exfalso. exact (NP (subst_paren _ _ _ _ _ _ _ R E1)).
Qed.

Definition lift {A} (o : option A) : res A := match o with Some a => Got a | None => Bad end.

Section Line.
Variable W : Type.
Variable spawn : W -> job -> W * (nat * str).
Variable capacity : nat.
Variable next_fd : W -> str.
Variable resolve : str -> found.
Variable substitute : subshell_type -> list job -> list str.

Lemma foldw_lift {A B} (f : W -> B -> A -> W * res B) (g : B -> A -> option B) w l :
  (forall x, In x l -> forall b, f w b x = (w, lift (g b x))) -> forall b, foldw W f l w b = (w, lift (foldm g l b)).
Proof using.
  induction l as [|x l IH]; intros H b; [reflexivity|]. cbn [foldw foldm]. rewrite (H x (or_introl eq_refl)).
  unfold bind. destruct (g b x) as [b'|]; [|reflexivity]. cbn [lift]. apply IH. intros y Hy. apply H. right. exact Hy.
Qed.
(** with an invariant on the accumulator *)
Lemma foldm_inv {A B} (g : B -> A -> option B) (P : B -> Prop) l :
  (forall x, In x l -> forall b b', P b -> g b x = Some b' -> P b') -> forall b b', P b -> foldm g l b = Some b' -> P b'.
Proof using.
  induction l as [|x l IH]; intros H b b' Pb E; cbn [foldm] in E.
  - injection E as <-. exact Pb.
  - destruct (g b x) as [b1|] eqn:G; [|discriminate]. eapply IH; [|eapply H; [left; reflexivity|exact Pb|exact G]|exact E].
    intros y Hy. apply H. right. exact Hy.
Qed.
Lemma foldw_ext {A B} (f f' : W -> B -> A -> W * res B) l :
  (forall x, In x l -> forall w b, f w b x = f' w b x) -> forall w b, foldw W f l w b = foldw W f' l w b.
Proof using.
  induction l as [|x l IH]; intros H w b; [reflexivity|]. cbn [foldw]. rewrite (H x (or_introl eq_refl)).
  destruct (f' w b x) as [w' [b'| |]]; cbn [bind]; [|reflexivity..]. apply IH. intros y Hy. apply H. right. exact Hy.
Qed.

Section Rec.
Variable subw : W -> pctx -> pair_ -> W * res (list job).
Variable subm : pctx -> pair_ -> option (list job).
Definition texts (l : list parg) : Prop := Forall (fun a => snd a = None) l.

Lemma span_inner_quiet c w acc q : quiet q ->
  parse_span_inner_w W subw c w acc q = (w, lift (parse_span_inner subm c acc q)) /\
  (forall acc', texts acc -> parse_span_inner subm c acc q = Some acc' -> texts acc').
Proof using.
  intros Q. apply quiet_rule in Q. unfold parse_span_inner_w, parse_span_inner. destruct (rule_of q); try discriminate Q;
    (split; [reflexivity|intros acc' T E; injection E as <-; apply Forall_app; split; [exact T|constructor; [reflexivity|constructor]]]).
Qed.
Lemma spans_quiet c w s acc : quiet s ->
  foldw W (parse_span_inner_w W subw c) (inner_of s) w acc = (w, lift (foldm (parse_span_inner subm c) (inner_of s) acc)) /\
  (forall acc', texts acc -> foldm (parse_span_inner subm c) (inner_of s) acc = Some acc' -> texts acc').
Proof using.
  intros Q. apply quiet_inner in Q. rewrite Forall_forall in Q. split.
  - apply foldw_lift. intros x Hx b. apply span_inner_quiet, Q, Hx.
  - intros acc' T. apply foldm_inv; [|exact T]. intros x Hx b b' Tb E. exact (proj2 (span_inner_quiet c w b x (Q x Hx)) b' Tb E).
Qed.
Lemma argv1_quiet c w st p : quiet p ->
  parse_argv1_w W subw c w st p = (w, lift (parse_argv1 subm c st p)) /\
  (forall st', texts (snd st) -> parse_argv1 subm c st p = Some st' -> texts (snd st')).
Proof using.
  intros Q. pose proof (quiet_inner _ Q) as Qi. rewrite Forall_forall in Qi. destruct st as [j acc]. unfold parse_argv1_w, parse_argv1.
  destruct (rule_of p); try (split; [reflexivity|intros st' T E; injection E as <-; exact T]).
  - (* argv0 *)
    assert (E : foldw W (fun w acc s => foldw W (parse_span_inner_w W subw c) (inner_of s) w acc) (inner_of p) w acc
              = (w, lift (foldm (fun acc s => foldm (parse_span_inner subm c) (inner_of s) acc) (inner_of p) acc))).
    { apply foldw_lift. intros x Hx b. apply spans_quiet, Qi, Hx. }
    rewrite E. cbn [bind]. destruct (foldm _ (inner_of p) acc) as [acc'|] eqn:F; (split; [reflexivity|]); intros st' T G; [|discriminate].
    injection G as <-. cbn [snd] in *. refine (foldm_inv _ texts _ _ acc acc' T F). intros x Hx b b' Tb.
    apply (spans_quiet c w x b (Qi x Hx)), Tb.
  - (* args *)
    split.
    + apply foldw_lift. intros x Hx [j' b]. pose proof (proj1 (spans_quiet c w x b (Qi x Hx))) as E.
      destruct (rule_of x); try reflexivity; rewrite E; cbn [bind]; destruct (foldm (parse_span_inner subm c) (inner_of x) b); reflexivity.
    + intros st' T. apply (foldm_inv _ (fun st => texts (snd st))); [|exact T].
      intros x Hx [j' b] [j'' b'] Tb G. cbn [snd] in *. pose proof (fun a => proj2 (spans_quiet c w x b (Qi x Hx)) a Tb) as K.
      revert G. destruct (rule_of x); intros G; 
        (destruct (foldm (parse_span_inner subm c) (inner_of x) b) as [a|] eqn:F; [|discriminate]; injection G as _ <-; exact (K a eq_refl)) || (injection G as _ <-; exact Tb).
Qed.
Lemma argv_quiet c w j p : quiet p ->
  parse_argv_w W subw c w j p = (w, lift (parse_argv subm c j p)) /\
  (forall st', parse_argv subm c j p = Some st' -> texts (snd st')).
Proof using.
  intros Q. pose proof (quiet_inner _ Q) as Qi. rewrite Forall_forall in Qi. unfold parse_argv_w, parse_argv.
  assert (K : forall x, quiet x -> forall st,
     match rule_of x with simple_command => foldw W (parse_argv1_w W subw c) (inner_of x) w st | _ => parse_argv1_w W subw c w st x end
     = (w, lift (match rule_of x with simple_command => foldm (parse_argv1 subm c) (inner_of x) st | _ => parse_argv1 subm c st x end)) /\
     forall st', texts (snd st) -> match rule_of x with simple_command => foldm (parse_argv1 subm c) (inner_of x) st | _ => parse_argv1 subm c st x end = Some st' -> texts (snd st')).
  { intros x Qx st. pose proof (quiet_inner _ Qx) as Qxi. rewrite Forall_forall in Qxi.
    destruct (rule_of x); try apply (argv1_quiet c w st x Qx). split.
    - apply foldw_lift. intros y Hy b. apply argv1_quiet, Qxi, Hy.
    - intros st' T. apply (foldm_inv _ (fun st => texts (snd st))); [|exact T]. intros y Hy b b' Tb E.
      exact (proj2 (argv1_quiet c w b y (Qxi y Hy)) b' Tb E). }
  split.
  - apply foldw_lift. intros x Hx b. apply K, Qi, Hx.
  - intros st' E. refine (foldm_inv _ (fun st => texts (snd st)) _ _ _ _ _ E); [|constructor]. intros x Hx b b' Tb G.
    exact (proj2 (K x (Qi x Hx) b) b' Tb G).
Qed.
Lemma argv_of_texts w l : texts l -> argv_of_w W spawn capacity next_fd w l = (w, Got (argv_of substitute l)).
Proof using.
  intros T. unfold argv_of_w.
  assert (E : forall acc, foldw W (fun w acc '(t, s) =>
    match s with
    | None => (w, Got (acc ++ [t]))
    | Some (k, js) => match js with
                      | [] => (w, Got acc)
                      | _ => bind W (run_sub W spawn capacity next_fd w k js) (fun w ws => (w, Got (acc ++ ws)))
                      end
    end) l w acc = (w, Got (acc ++ argv_of substitute l))); [|exact (E [])].
  induction T as [|[t s] l Hs T IH]; intros acc; cbn [foldw].
  - cbn. rewrite app_nil_r. reflexivity.
  - cbn [snd] in Hs. subst s. cbn [bind]. rewrite IH, <- app_assoc. reflexivity.
Qed.
Lemma command_quiet c w j p : quiet p ->
  parse_command_w W spawn capacity next_fd resolve subw c w j p = (w, lift (parse_command resolve substitute subm c j p)).
Proof using.
  intros Q. unfold parse_command_w, parse_command. destruct (argv_quiet c w j p Q) as [E T]. rewrite E.
  destruct (parse_argv subm c j p) as [[j1 pargs]|]; [|reflexivity]. cbn [lift bind].
  specialize (T _ eq_refl). cbn [snd] in T. rewrite (argv_of_texts w pargs T). cbn [bind]. f_equal.
  unfold finish_command. destruct (argv_of substitute pargs) as [|a0 rest]; [reflexivity|].
  destruct (match rest with [] => (a0 :: rest, j1) | _ => if str_eqb a0 (lit "nopty") then (rest, set_disable_pty j1 true) else (a0 :: rest, j1) end) as [argv j2].
  destruct (resolve _); reflexivity.
Qed.
Lemma jobs1_quiet text w st p : quiet p ->
  parse_jobs1_w W spawn capacity next_fd resolve subw text w st p = (w, lift (parse_jobs1 resolve substitute subm text st p)).
Proof using.
  intros Q. pose proof (quiet_inner _ Q) as Qi. rewrite Forall_forall in Qi. destruct st as [c jobs]. unfold parse_jobs1_w, parse_jobs1.
  destruct (rule_of p); try reflexivity.
  - rewrite (command_quiet c w _ p Q). destruct (parse_command _ _ _ _ _ p); reflexivity.
  - destruct (find _ (inner_of p)) as [q|] eqn:F; [|reflexivity]. apply find_some in F as [F _].
    rewrite (command_quiet c w _ q (Qi q F)). destruct (parse_command _ _ _ _ _ q); reflexivity.
  - apply foldw_lift. intros x Hx [c' js].
    destruct (rule_of x); try reflexivity; destruct (last_of js) as [j|]; try reflexivity;
      (rewrite (command_quiet _ w j x (Qi x Hx)); destruct (parse_command _ _ _ _ _ x); reflexivity).
Qed.
Lemma commands1_quiet w st p : quiet p ->
  parse_commands1_w W spawn capacity next_fd resolve subw w st p = (w, lift (parse_commands1 resolve substitute subm st p)).
Proof using.
  intros Q. pose proof (quiet_inner _ Q) as Qi. rewrite Forall_forall in Qi. destruct st as [c jobs]. unfold parse_commands1_w, parse_commands1.
  destruct (rule_of p); try reflexivity.
  - destruct (inner_of p); reflexivity.
  - apply foldw_lift. intros x Hx b. apply jobs1_quiet, Qi, Hx.
Qed.
End Rec.

(** a line without an opening parenthesis is read without any effect, and gives the jobs of
    Parse_Model *)
Lemma get_jobs_quiet w line : ~ In open_paren line ->
  get_jobs W spawn capacity next_fd resolve w line = (w, lift (jobs_of resolve substitute line)).
Proof using.
  intros N. unfold get_jobs, jobs_of. destruct (parse line) as [| |[|p ns] cs r] eqn:E; try reflexivity.
  unfold parse in E. pose proof (peg_quiet _ _ _ _ _ _ _ N E) as Q. inversion Q as [|? ? Qp _]; subst.
  destruct (height p) as [|d]; [reflexivity|]. cbn [parse_commands_w parse_commands].
  destruct (rule_of p); try reflexivity.
  pose proof (quiet_inner _ Qp) as Qi. rewrite Forall_forall in Qi.
  rewrite (foldw_lift _ (parse_commands1 resolve substitute (parse_commands resolve substitute d))).
  - destruct (foldm (parse_commands1 resolve substitute (parse_commands resolve substitute d)) (inner_of p) (PCtx true false false, [])) as [[c js]|]; reflexivity.
  - intros x Hx b. apply commands1_quiet, Qi, Hx.
Qed.
End Line.
