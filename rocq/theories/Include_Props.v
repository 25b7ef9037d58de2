(** C95: importing the environment of a script. *)
From Verif Require Import Base Output_Model Env_Model Env_Spec Env_Props Include_Model Include_Spec.

(** ** The words bash reads *)
Lemma tokens_escaped s : forall cur rest,
  shell_tokens true cur (flat_map (fun c => if (c =? apostrophe)%N then lit "'\''" else [c]) s ++ apostrophe :: rest)
  = shell_tokens false (match s with [] => cur | _ => Some (rev s ++ match cur with Some w => w | None => [] end) end) rest.
Proof.
  induction s as [|c s IH]; intros cur rest; [reflexivity|].
  cbn [flat_map]. destruct (N.eqb_spec c apostrophe) as [->|Hc].
  - transitivity (shell_tokens true (more cur apostrophe)
      (flat_map (fun c => if (c =? apostrophe)%N then lit "'\''" else [c]) s ++ apostrophe :: rest)).
    { destruct cur; reflexivity. }
    rewrite IH. f_equal. destruct s, cur; simpl; rewrite <- ?app_assoc; reflexivity.
  - cbn [app shell_tokens]. destruct (N.eqb_spec c apostrophe); [congruence|]. rewrite IH. f_equal.
    destruct s, cur; simpl; rewrite <- ?app_assoc; reflexivity.
Qed.
(** a quoted word that ends at a blank or a semicolon *)
Lemma tokens_word s rest :
  shell_tokens false None (escape_single s ++ rest) = shell_tokens false (Some (rev s)) rest.
Proof.
  unfold escape_single. cbn [app shell_tokens]. change ((apostrophe =? apostrophe)%N) with true. cbn [begun].
  rewrite <- app_assoc. cbn [app]. rewrite tokens_escaped.
  destruct s; [reflexivity|]. now rewrite app_nil_r.
Qed.
Lemma tokens_args args rest : args <> [] ->
  shell_tokens false None (join_with (lit " ") (map escape_single args) ++ chr ";" :: rest)
  = map Word args ++ Semi :: shell_tokens false None rest.
Proof.
  induction args as [|a args IH]; [congruence|]. intros _. destruct args as [|b args].
  - cbn [map join_with]. rewrite tokens_word. cbn [shell_tokens finish]. rewrite rev_involutive. reflexivity.
  - change (join_with (lit " ") (map escape_single (a :: b :: args)))
      with (escape_single a ++ chr " " :: join_with (lit " ") (map escape_single (b :: args))).
    rewrite <- app_assoc. rewrite tokens_word. cbn [app]. cbn [shell_tokens].
    change ((chr " " =? apostrophe)%N) with false. change ((chr " " =? chr " ")%N) with true.
    cbn [finish]. rewrite rev_involutive, IH by discriminate. reflexivity.
Qed.

(** Whatever characters the file name and the arguments contain, bash reads each of them
    as one word, unchanged, and nothing else as a command. *)
Theorem C95_words_reach_bash : forall script args,
  read_by_shell (source_cmd script args)
  = match args with [] => [] | _ => Word (lit "set") :: Word (lit "--") :: map Word args ++ [Semi] end
    ++ [Word (lit "source"); Word script; And_if; Word (lit "env"); Word (lit "-0")].
Proof.
  intros script args.
  assert (Hs : forall pre, shell_tokens false None (lit "source " ++ escape_single script ++ lit " && env -0")
     = [Word (lit "source"); Word script; And_if; Word (lit "env"); Word (lit "-0")] /\
     shell_tokens false None (lit " source " ++ pre) = shell_tokens false None (lit "source " ++ pre)).
  { intros pre. split; [|reflexivity].
    transitivity (Word (lit "source") :: shell_tokens false None (escape_single script ++ lit " && env -0")); [reflexivity|].
    rewrite tokens_word. 
    transitivity (Word (lit "source") :: Word (rev (rev script)) :: [And_if; Word (lit "env"); Word (lit "-0")]); [reflexivity|].
    now rewrite rev_involutive. }
  unfold read_by_shell, source_cmd. destruct args as [|a args].
  - apply (Hs []).
  - transitivity (Word (lit "set") :: Word (lit "--") ::
      shell_tokens false None (join_with (lit " ") (map escape_single (a :: args)) ++
                               chr ";" :: lit " source " ++ escape_single script ++ lit " && env -0")); [reflexivity|].
    rewrite tokens_args by discriminate.
    rewrite (proj2 (Hs _)), (proj1 (Hs [])). cbn [app]. rewrite <- app_assoc. reflexivity.
Qed.
Print Assumptions C95_words_reach_bash.

Example C95_words_example :
  source_cmd (lit "it's; rm -rf ~.sh") [lit "$HOME"; lit "a b"; []]
  = lit "set -- '$HOME' 'a b' ''; source 'it'\''s; rm -rf ~.sh' && env -0".
Proof. reflexivity. Qed.

(** ** What is read back *)
Lemma split_nul_part a : forall cur rest, ~ In (Some 0%N) a ->
  split_nul cur (a ++ Some 0%N :: rest) = (rev cur ++ a) :: split_nul [] rest.
Proof.
  induction a as [|x a IH]; intros cur rest H.
  - now rewrite app_nil_r.
  - cbn [app split_nul]. destruct x as [[|p]|].
    + exfalso. apply H. now left.
    + rewrite IH by (intros Hi; apply H; now right). cbn [rev]. now rewrite <- app_assoc.
    + rewrite IH by (intros Hi; apply H; now right). cbn [rev]. now rewrite <- app_assoc.
Qed.
Definition entry (p : str * raw) : raw := valid (fst p) ++ Some (chr "=") :: snd p.
Lemma in_valid c s : In (Some c) (valid s) <-> In c s.
Proof. unfold valid. rewrite in_map_iff. split; [intros (x & [= ->] & H); exact H|eauto]. Qed.
Lemma entry_no_nul p : ~ In 0%N (fst p) -> ~ In (Some 0%N) (snd p) -> ~ In (Some 0%N) (entry p).
Proof.
  intros H1 H2 Hi. unfold entry in Hi. apply in_app_iff in Hi. destruct Hi as [Hi|[Hi|Hi]]; [|discriminate|auto].
  apply in_valid in Hi. auto.
Qed.
Lemma split_env_zero l : proper l -> split_nul [] (env_zero l) = map entry l ++ [[]].
Proof.
  intros [_ H]. induction H as [|p l (_ & _ & H1 & H2) _ IH]; [reflexivity|].
  assert (env_zero (p :: l) = entry p ++ Some 0%N :: env_zero l) as ->
    by (unfold entry, env_zero; cbn [flat_map]; rewrite <- !app_assoc; cbn [app]; now rewrite <- app_assoc).
  rewrite split_nul_part by now apply entry_no_nul. cbn [rev app map]. now rewrite IH.
Qed.
Lemma from_utf8_app a b : from_utf8 (valid a ++ b) = match from_utf8 b with Some s => Some (a ++ s) | None => None end.
Proof.
  induction a as [|c a IH]; cbn; [now destruct (from_utf8 b)|]. unfold valid in IH. rewrite IH. now destruct (from_utf8 b).
Qed.
Lemma from_utf8_valid s : from_utf8 (valid s) = Some s.
Proof. rewrite <- (app_nil_r (valid s)), from_utf8_app. cbn. now rewrite app_nil_r. Qed.
Lemma split_once_ok k v : ~ In (chr "=") k -> split_once (k ++ chr "=" :: v) = Some (k, v).
Proof.
  induction k as [|c k IH]; intros H; [reflexivity|]. cbn [app split_once].
  destruct (N.eqb_spec c (chr "=")) as [->|Hc]; [exfalso; apply H; now left|].
  rewrite IH by (intros Hi; apply H; now right). reflexivity.
Qed.
Lemma add_entry m p : fst p <> [] -> ~ In (chr "=") (fst p) ->
  add_part m (entry p) = match from_utf8 (snd p) with Some v => insert (fst p) v m | None => m end.
Proof.
  destruct p as [n r]. cbn [fst snd]. intros H1 H2.
  assert (E : forall b, b <> [] -> add_part m b = match from_utf8 b with
           | Some s => match split_once s with Some (k, v) => insert k v m | None => m end | None => m end)
    by (intros [|x b] Hb; [congruence|reflexivity]).
  rewrite E by (unfold entry; intros Hb; apply app_eq_nil in Hb as [_ Hb]; discriminate Hb).
  unfold entry. cbn [fst snd]. rewrite from_utf8_app. cbn [from_utf8].
  destruct (from_utf8 r) as [v|]; [|reflexivity].
  now rewrite split_once_ok.
Qed.

(** the value of a name among entries of which each name occurs once *)
Fixpoint raw_value (k : str) (l : list (str * raw)) : option raw :=
  match l with [] => None | (k', v) :: r => if str_eqb k k' then Some v else raw_value k r end.
Lemma raw_value_none k l : ~ In k (map fst l) -> raw_value k l = None.
Proof.
  induction l as [|[k' v] l IH]; [reflexivity|]. cbn. intros H. destruct (str_eqb_spec k k') as [->|Hk]; [tauto|]. tauto.
Qed.
Lemma fold_entries l : forall m0 k, proper l ->
  assoc k (fold_left add_part (map entry l) m0)
  = match raw_value k l with
    | Some r => match from_utf8 r with Some v => Some v | None => assoc k m0 end
    | None => assoc k m0
    end.
Proof.
  induction l as [|[k' r] l IH]; intros m0 k [Hn Hp]; [reflexivity|].
  inversion Hp as [|? ? (H1 & H2 & _ & _) Hp']; subst. inversion Hn as [|? ? Hnot Hn']; subst.
  cbn [map fold_left]. rewrite add_entry by assumption. rewrite IH by (split; assumption). cbn [fst snd raw_value].
  destruct (str_eqb_spec k k') as [->|Hk].
  - rewrite (raw_value_none k' l Hnot). destruct (from_utf8 r) as [v|]; [|reflexivity].
    rewrite assoc_insert. destruct (str_eq_dec k' k'); congruence.
  - destruct (raw_value k l) as [r'|]; [destruct (from_utf8 r')|]; try reflexivity;
      destruct (from_utf8 r); try reflexivity; rewrite assoc_insert; destruct (str_eq_dec k k'); congruence.
Qed.
Lemma new_env_quiet l k : proper l ->
  assoc k (new_env (env_zero l))
  = match raw_value k l with Some r => from_utf8 r | None => None end.
Proof.
  intros H. unfold new_env. rewrite split_env_zero, fold_left_app by assumption.
  cbn [fold_left add_part]. rewrite fold_entries by assumption.
  destruct (raw_value k l) as [r|]; [destruct (from_utf8 r)|]; reflexivity.
Qed.
Lemma new_env_printed p q l : ~ In (Some 0%N) p -> proper (q :: l) ->
  new_env (p ++ env_zero (q :: l)) = fold_left add_part (map entry l) (add_part [] (p ++ entry q)).
Proof.
  intros Hp [Hn Hl]. unfold new_env. inversion Hl as [|? ? (H1 & H2 & H3 & H4) Hl']; subst.
  inversion Hn as [|? ? Hnot Hn']; subst.
  assert (p ++ env_zero (q :: l) = (p ++ entry q) ++ Some 0%N :: env_zero l) as ->
    by (unfold entry, env_zero; cbn [flat_map]; rewrite <- !app_assoc; cbn [app]; now rewrite <- app_assoc).
  rewrite split_nul_part.
  - cbn [rev app fold_left]. rewrite split_env_zero by (split; assumption). rewrite fold_left_app. reflexivity.
  - intros Hi. apply in_app_iff in Hi. destruct Hi as [Hi|Hi]; [auto|]. now apply entry_no_nul in Hi.
Qed.

(** ** What the shell's environment becomes *)
Lemma set_system_env k v e : system (set_env_var k v e) = insert k v (system e).
Proof. unfold set_env_var. now destruct (str_eqb k PATH). Qed.
Lemma unset_system_env k e : system (unset_env_var k e) = remove k (system e).
Proof. unfold unset_env_var. now destruct (str_eqb k PATH). Qed.
Lemma set_env_rest k v e : variables (set_env_var k v e) = variables e /\ exported (set_env_var k v e) = exported e.
Proof. unfold set_env_var. now destruct (str_eqb k PATH). Qed.
Lemma unset_env_rest k e : variables (unset_env_var k e) = variables e /\ exported (unset_env_var k e) = exported e.
Proof. unfold unset_env_var. now destruct (str_eqb k PATH). Qed.
Lemma set_new_ok proc k : forall m e, NoDup (map fst m) ->
  assoc k (system (set_new proc m e))
  = match assoc k m with Some v => if str_eqb (current proc k) v then assoc k (system e) else Some v | None => assoc k (system e) end.
Proof.
  unfold set_new. induction m as [|[k' v] m IH]; intros e Hn; [reflexivity|].
  inversion Hn as [|? ? Hnot Hn']; subst. cbn [fold_left fst snd assoc]. rewrite IH by assumption.
  destruct (str_eqb_spec k k') as [->|Hk].
  - assert (E : assoc k' m = None).
    { destruct (assoc k' m) eqn:E; [|reflexivity]. exfalso. apply Hnot. apply assoc_in in E.
      apply in_map_iff. now exists (k', s). }
    rewrite E. destruct (str_eqb (current proc k') v); [reflexivity|].
    rewrite set_system_env, assoc_insert. destruct (str_eq_dec k' k'); congruence.
  - destruct (str_eqb (current proc k') v); [reflexivity|]. rewrite set_system_env, assoc_insert.
    destruct (str_eq_dec k k'); congruence.
Qed.
Lemma set_new_rest proc : forall m e, variables (set_new proc m e) = variables e /\ exported (set_new proc m e) = exported e.
Proof.
  unfold set_new. induction m as [|[k' v] m IH]; intros e; [now split|]. cbn [fold_left].
  destruct (IH (if str_eqb (current proc (fst (k', v))) (snd (k', v)) then e else set_env_var (fst (k', v)) (snd (k', v)) e)) as [-> ->].
  destruct (str_eqb _ _); [now split|apply set_env_rest].
Qed.
Lemma unset_gone_ok m k : forall proc e,
  assoc k (system (unset_gone proc m e))
  = if gone m k then (match assoc k proc with Some _ => None | None => assoc k (system e) end) else assoc k (system e).
Proof.
  unfold unset_gone. induction proc as [|[k' v] proc IH]; intros e; [now destruct (gone m k)|].
  cbn [fold_left fst assoc]. rewrite IH.
  destruct (str_eqb_spec k k') as [->|Hk].
  - destruct (gone m k') eqn:G; [|reflexivity]. rewrite unset_system_env, assoc_remove.
    destruct (str_eq_dec k' k'); [|congruence]. now destruct (assoc k' proc).
  - destruct (gone m k'); [|reflexivity]. rewrite unset_system_env, assoc_remove. destruct (str_eq_dec k k'); [congruence|reflexivity].
Qed.
Lemma unset_gone_rest m : forall proc e, variables (unset_gone proc m e) = variables e /\ exported (unset_gone proc m e) = exported e.
Proof.
  unfold unset_gone. induction proc as [|[k' v] proc IH]; intros e; [now split|]. cbn [fold_left].
  destruct (IH (if gone m (fst (k', v)) then unset_env_var (fst (k', v)) e else e)) as [-> ->].
  destruct (gone m _); [apply unset_env_rest|now split].
Qed.
Lemma insert_nodup k v m : NoDup (map fst m) -> NoDup (map fst (insert k v m)).
Proof.
  intros H. unfold insert. cbn. constructor.
  - intros Hi. apply in_map_iff in Hi as ([k' v'] & E & Hi). cbn in E. subst k'.
    unfold remove in Hi. apply filter_In in Hi as [_ Hi]. cbn in Hi. now rewrite str_eqb_refl in Hi.
  - unfold remove. induction m as [|[k' v'] m IH]; [constructor|]. inversion H as [|? ? Hnot Hn]; subst. cbn.
    destruct (str_eqb k k'); cbn; [auto|]. constructor; [|auto].
    intros Hi. apply Hnot. apply in_map_iff in Hi as (q & Eq & Hq). apply filter_In in Hq as [Hq _].
    apply in_map_iff. eauto.
Qed.
Lemma new_env_nodup out : NoDup (map fst (new_env out)).
Proof.
  unfold new_env. set (l := split_nul [] out). clearbody l.
  assert (H : forall m, NoDup (map fst m) -> NoDup (map fst (fold_left add_part l m))).
  { induction l as [|p l IH]; intros m H; [exact H|]. cbn [fold_left]. apply IH.
    unfold add_part. destruct p; [exact H|]. destruct (from_utf8 _); [|exact H].
    destruct (split_once _) as [[k v]|]; [now apply insert_nodup|exact H]. }
  apply H. constructor.
Qed.

Definition stays (k : str) : bool := mem_str k protected_vars || starts_with (lit "DSH_") k.
Lemma stays_iff k : stays k = true <-> kept_anyway k.
Proof.
  unfold stays, kept_anyway, protected_vars. rewrite orb_true_iff, mem_str_iff, starts_with_iff. tauto.
Qed.
(** the whole effect of an include that succeeds, name by name *)
Lemma include_name run proc name script args e out k :
  run (source_cmd script args) proc = Some (0, out) ->
  let r := include run proc (name :: script :: args) e in
  fst r = 0 /\ variables (snd r) = variables e /\ exported (snd r) = exported e /\
  assoc k (system (snd r)) =
    match assoc k (new_env out) with
    | Some v => if str_eqb (current proc k) v then assoc k (system e) else Some v
    | None => match assoc k proc with
              | Some _ => if stays k then assoc k (system e) else None
              | None => assoc k (system e)
              end
    end.
Proof.
  intros H. unfold include. rewrite H. cbn [fst snd].
  destruct (unset_gone_rest (new_env out) proc (set_new proc (new_env out) e)) as [-> ->].
  destruct (set_new_rest proc (new_env out) e) as [-> ->].
  split; [reflexivity|]. split; [reflexivity|]. split; [reflexivity|].
  rewrite unset_gone_ok, set_new_ok by apply new_env_nodup. unfold gone, stays.
  destruct (assoc k (new_env out)) as [v|]; [reflexivity|].
  destruct (mem_str k protected_vars), (starts_with (lit "DSH_") k), (assoc k proc); reflexivity.
Qed.

(** ** C95 *)
Lemma raw_value_textual k m : raw_value k (map (fun p => (fst p, valid (snd p))) m) = option_map valid (assoc k m).
Proof. induction m as [|[k' v] m IH]; [reflexivity|]. cbn. now destruct (str_eqb k k'). Qed.
Lemma effective_plain e k : (forall n, In n (exported e) -> assoc n (variables e) = None) ->
  child_sees e k = (if str_eq_dec k TERM then child_sees e k else assoc k (system e)).
Proof.
  intros H. destruct (str_eq_dec k TERM) as [->|Hk]; [reflexivity|].
  unfold child_sees, effective. destruct (in_dec str_eq_dec k (exported e)) as [Hi|Hi].
  - rewrite (H k Hi). destruct (assoc k (system e)) as [[|]|]; destruct (str_eq_dec k (lit "TERM")); try reflexivity; contradiction.
  - destruct (assoc k (system e)) as [[|]|]; destruct (str_eq_dec k (lit "TERM")); try reflexivity; contradiction.
Qed.

(** In a session whose environment is still that of the shell's own process, including a
    script that prints nothing and whose values are text, and that leaves no new
    variable empty, gives child processes the environment the script leaves.  Only the
    names the shell protects stay when the script has unset them. *)
Theorem C95_environment_is_imported_partial : forall run proc name script args x m e k,
  runs run proc script args x -> printed x = [] -> proper (leaves x) -> textual (leaves x) m ->
  (forall n, In (n, []) m -> assoc n proc <> None) ->
  (forall n, assoc n (system e) = assoc n proc) ->
  (forall n, In n (exported e) -> assoc n (variables e) = None) ->
  k <> TERM ->
  let r := include run proc (name :: script :: args) e in
  fst r = 0 /\
  (forall v, assoc k m = Some v -> child_sees (snd r) k = Some v) /\
  (assoc k m = None -> ~ kept_anyway k -> child_sees (snd r) k = None) /\
  (assoc k m = None -> kept_anyway k -> child_sees (snd r) k = child_sees e k) /\
  variables (snd r) = variables e /\ exported (snd r) = exported e.
Proof.
  intros run proc name script args x m e k Hrun Hq Hp Ht He Hs Hx Hk r.
  unfold runs in Hrun. rewrite Hq in Hrun. cbn [app] in Hrun.
  destruct (include_name run proc name script args e _ k Hrun) as (H0 & Hv & Hex & Hsys).
  fold r in H0, Hv, Hex, Hsys. rewrite new_env_quiet in Hsys by assumption.
  unfold textual in Ht. rewrite Ht, raw_value_textual in Hsys.
  assert (P : forall e', variables e' = variables e -> exported e' = exported e -> child_sees e' k = assoc k (system e')).
  { intros e' E1 E2. rewrite effective_plain by (rewrite E1, E2; exact Hx). destruct (str_eq_dec k TERM); [contradiction|reflexivity]. }
  rewrite (P (snd r) Hv Hex), (P e eq_refl eq_refl).
  split; [exact H0|]. split; [|split; [|split]].
  - intros v E. rewrite E in Hsys. cbn [option_map] in Hsys. rewrite from_utf8_valid in Hsys. rewrite Hsys, Hs.
    unfold current. destruct (str_eqb_spec (match assoc k proc with Some v => v | None => [] end) v) as [Ev|Ev]; [|reflexivity].
    destruct (assoc k proc) as [w|] eqn:Ep; [now rewrite Ev|]. exfalso. apply (He k); [|exact Ep].
    rewrite Ev. now apply assoc_in.
  - intros E Hkeep. rewrite E in Hsys. cbn [option_map] in Hsys. rewrite Hsys, Hs.
    destruct (stays k) eqn:St; [apply stays_iff in St; contradiction|]. now destruct (assoc k proc).
  - intros E Hkeep. rewrite E in Hsys. cbn [option_map] in Hsys. rewrite Hsys.
    apply stays_iff in Hkeep. rewrite Hkeep. now destruct (assoc k proc).
  - split; [exact Hv|exact Hex].
Qed.
Print Assumptions C95_environment_is_imported_partial.

(** A script that fails, or that bash cannot run, changes nothing. *)
Theorem C95_failure_changes_nothing : forall run proc argv e,
  (forall text, match run text proc with Some (0, _) => False | _ => True end) ->
  snd (include run proc argv e) = e /\ fst (include run proc argv e) <> 0.
Proof.
  intros run proc argv e H. unfold include. destruct argv as [|n [|s args]]; try (split; [reflexivity|discriminate]).
  specialize (H (source_cmd s args)). destruct (run (source_cmd s args) proc) as [[[|st] out]|].
  - contradiction.
  - split; [reflexivity|discriminate].
  - split; [reflexivity|discriminate].
Qed.
Print Assumptions C95_failure_changes_nothing.

(** What the script prints is taken for the beginning of the first variable: that
    variable is lost, and one whose name begins with the printed text is created. *)
Theorem C95_printing_scripts_refuted : forall run proc name script args x p first value rest e,
  runs run proc script args x -> printed x = valid p -> p <> [] -> ~ In 0%N p -> ~ In (chr "=") p ->
  leaves x = (first, valid value) :: rest -> proper (leaves x) -> value <> [] ->
  assoc (p ++ first) proc = None -> ~ In (p ++ first) (map fst rest) ->
  let r := include run proc (name :: script :: args) e in
  assoc (p ++ first) (system (snd r)) = Some value /\
  (assoc first proc <> None -> ~ kept_anyway first -> assoc first (system (snd r)) = None).
Proof.
  intros run proc name script args x p first value rest e Hrun Hpr Hp0 Hp1 Hp2 Hl Hpp Hv0 Hnew Hnew' r.
  unfold runs in Hrun. rewrite Hpr, Hl in Hrun. rewrite Hl in Hpp.
  destruct Hpp as [Hn Hf]. inversion Hn as [|? ? Hnot Hn']; subst. inversion Hf as [|? ? (F1 & F2 & F3 & F4) Hf']; subst.
  cbn [fst snd] in *.
  assert (Enew : forall k, assoc k (new_env (valid p ++ env_zero ((first, valid value) :: rest)))
            = match raw_value k rest with
              | Some r => match from_utf8 r with Some v => Some v | None => if str_eq_dec k (p ++ first) then Some value else None end
              | None => if str_eq_dec k (p ++ first) then Some value else None
              end).
  { intros k. rewrite new_env_printed; [|intros Hi; apply in_valid in Hi; auto|split; assumption].
    rewrite fold_entries by (split; assumption).
    assert (E : valid p ++ entry (first, valid value) = entry (p ++ first, valid value)).
    { unfold entry, valid. cbn [fst snd]. now rewrite map_app, <- app_assoc. }
    assert (E2 : add_part [] (valid p ++ entry (first, valid value)) = insert (p ++ first) value []).
    { transitivity (add_part [] (entry (p ++ first, valid value))); [apply (f_equal (add_part [])); exact E|].
      rewrite add_entry; cbn [fst snd].
      - now rewrite from_utf8_valid.
      - destruct p; [congruence|discriminate].
      - intros Hi. apply in_app_iff in Hi. tauto. }
    set (m0 := add_part _ _). change (m0 = insert (p ++ first) value []) in E2. rewrite E2.
    rewrite assoc_insert. cbn [assoc]. reflexivity. }
  split.
  - destruct (include_name run proc name script args e _ (p ++ first) Hrun) as (_ & _ & _ & Hs). fold r in Hs.
    rewrite Enew, (raw_value_none _ rest Hnew') in Hs. destruct (str_eq_dec (p ++ first) (p ++ first)); [|congruence].
    rewrite Hs. unfold current. rewrite Hnew. destruct (str_eqb_spec [] value); [congruence|reflexivity].
  - intros Hin Hk. destruct (include_name run proc name script args e _ first Hrun) as (_ & _ & _ & Hs). fold r in Hs.
    rewrite Enew, (raw_value_none _ rest Hnot) in Hs.
    destruct (str_eq_dec first (p ++ first)) as [Ef|_].
    { exfalso. apply Hp0. apply (f_equal (@length _)) in Ef. rewrite app_length in Ef. destruct p; [reflexivity|cbn in Ef; lia]. }
    rewrite Hs. destruct (assoc first proc); [|congruence].
    destruct (stays first) eqn:St; [apply stays_iff in St; contradiction|reflexivity].
Qed.
Print Assumptions C95_printing_scripts_refuted.

(** The script is compared with the environment the shell was started in, not with the
    one it has: a value equal to that one is not imported. *)
Theorem C95_later_environments_refuted : forall run proc name script args x k v e,
  runs run proc script args x -> printed x = [] -> proper (leaves x) ->
  raw_value k (leaves x) = Some (valid v) -> current proc k = v ->
  assoc k (system (snd (include run proc (name :: script :: args) e))) = assoc k (system e).
Proof.
  intros run proc name script args x k v e Hrun Hq Hp Hk Hc. unfold runs in Hrun. rewrite Hq in Hrun. cbn [app] in Hrun.
  destruct (include_name run proc name script args e _ k Hrun) as (_ & _ & _ & Hs).
  rewrite new_env_quiet, Hk, from_utf8_valid in Hs by assumption. rewrite Hs, Hc, str_eqb_refl. reflexivity.
Qed.
Print Assumptions C95_later_environments_refuted.

(** A variable whose value is not text is removed, although the script has not touched
    it. *)
Theorem C95_other_bytes_refuted : forall run proc name script args x k r e,
  runs run proc script args x -> printed x = [] -> proper (leaves x) ->
  raw_value k (leaves x) = Some r -> from_utf8 r = None -> assoc k proc <> None -> ~ kept_anyway k ->
  assoc k (system (snd (include run proc (name :: script :: args) e))) = None.
Proof.
  intros run proc name script args x k r e Hrun Hq Hp Hk Hc Hin Hkeep. unfold runs in Hrun. rewrite Hq in Hrun. cbn [app] in Hrun.
  destruct (include_name run proc name script args e _ k Hrun) as (_ & _ & _ & Hs).
  rewrite new_env_quiet, Hk, Hc in Hs by assumption. rewrite Hs. destruct (assoc k proc); [|congruence].
  destruct (stays k) eqn:St; [apply stays_iff in St; contradiction|reflexivity].
Qed.
Print Assumptions C95_other_bytes_refuted.

(** An exported shell variable hides what the script sets from every child process. *)
Theorem C95_exported_variables_refuted : forall run proc name script args x k v w e,
  runs run proc script args x -> printed x = [] -> proper (leaves x) ->
  raw_value k (leaves x) = Some (valid v) -> In k (exported e) -> assoc k (variables e) = Some w -> w <> [] ->
  child_sees (snd (include run proc (name :: script :: args) e)) k = Some w.
Proof.
  intros run proc name script args x k v w e Hrun Hq Hp Hk Hin Hw Hw0. unfold runs in Hrun.
  destruct (include_name run proc name script args e _ k Hrun) as (_ & Hv & Hx & _).
  unfold child_sees, effective. rewrite Hv, Hx, Hw. destruct (in_dec str_eq_dec k (exported e)); [|contradiction].
  destruct w; [congruence|]. now destruct (str_eq_dec k TERM).
Qed.
Print Assumptions C95_exported_variables_refuted.

(** ** Examples *)
Definition startup : map_ := [(lit "HOME", lit "/h"); (lit "EDITOR", lit "vi"); (lit "MODE", lit "a"); (lit "TERM", lit "xterm")].
Definition fresh_env : env := env_new startup (with_capacity 1 1 1) (fun _ => None).
(** a bash whose scripts leave these *)
Definition bash_of (printed : str) (left : map_) : bash :=
  fun _ _ => Some (0, valid printed ++ env_zero (map (fun p => (fst p, valid (snd p))) left)).
Definition left_env : map_ := [(lit "EDITOR", lit "emacs"); (lit "MODE", lit "a"); (lit "NEW", lit "x=y"); (lit "TERM", lit "xterm")].
Lemma left_proper : proper (map (fun p => (fst p, valid (snd p))) left_env).
Proof.
  split.
  - change (NoDup [lit "EDITOR"; lit "MODE"; lit "NEW"; lit "TERM"]).
    repeat (apply NoDup_cons; [vm_compute; intuition discriminate|]). apply NoDup_nil.
  - repeat (apply Forall_cons; [split; [discriminate|split; [|split]]; vm_compute; intuition discriminate|]). constructor.
Qed.
Example C95_example :
  let r := include (bash_of [] left_env) startup [lit "include"; lit "x.sh"] fresh_env in
  map (child_sees (snd r)) [lit "EDITOR"; lit "MODE"; lit "NEW"; lit "HOME"]
  = [Some (lit "emacs"); Some (lit "a"); Some (lit "x=y"); Some (lit "/h")]
  /\ child_sees (snd (include (bash_of [] left_env) startup [lit "include"; lit "x.sh"] fresh_env)) (lit "EDITOR") = Some (lit "emacs").
Proof.
  split; [vm_compute; reflexivity|].
  refine (proj1 (proj2 (C95_environment_is_imported_partial _ startup (lit "include") (lit "x.sh") []
            (Effect [] (map (fun p => (fst p, valid (snd p))) left_env)) left_env _ (lit "EDITOR")
            eq_refl eq_refl left_proper eq_refl _ _ _ _)) (lit "emacs") eq_refl).
  - intros n H. exfalso. revert H. vm_compute. intuition discriminate.
  - reflexivity.
  - intros n H. destruct H.
  - discriminate.
Qed.
(** a script that says hello, in a shell where EDITOR comes first *)
Example C95_printing_example :
  let r := include (bash_of (lit "hello ") left_env) startup [lit "include"; lit "x.sh"] fresh_env in
  map (child_sees (snd r)) [lit "EDITOR"; lit "hello EDITOR"; lit "NEW"] = [None; Some (lit "emacs"); Some (lit "x=y")].
Proof. vm_compute. reflexivity. Qed.
(** one script sets MODE to b, the next one sets it back to a *)
Example C95_later_example :
  let one := snd (include (bash_of [] [(lit "MODE", lit "b")]) startup [lit "include"; lit "b.sh"] fresh_env) in
  let two := snd (include (bash_of [] [(lit "MODE", lit "a")]) startup [lit "include"; lit "a.sh"] one) in
  child_sees one (lit "MODE") = Some (lit "b") /\ child_sees two (lit "MODE") = Some (lit "b").
Proof. split; vm_compute; reflexivity. Qed.
(** variables set to nothing are not imported *)
Example C95_empty_example :
  child_sees (snd (include (bash_of [] [(lit "EMPTY", [])]) startup [lit "include"; lit "b.sh"] fresh_env)) (lit "EMPTY") = None.
Proof. vm_compute. reflexivity. Qed.
