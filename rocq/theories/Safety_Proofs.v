(** Lemmas about the safety guard. *)
From Verif Require Import Base Safety_Model Safety_Spec.

Lemma arg_in_iff a l : arg_in a l = true <-> one_of a l.
Proof.
  unfold arg_in, one_of. rewrite mem_str_iff, in_map_iff. split.
  - intros (s & <- & H). exists s. split; [exact H | reflexivity].
  - intros (s & H & ->). exists s. split; [reflexivity | exact H].
Qed.

Lemma arg_in_false a l : arg_in a l = false <-> ~ one_of a l.
Proof. rewrite <- arg_in_iff. destruct (arg_in a l); split; congruence. Qed.

Lemma existsb_has args f (P : str -> Prop) :
  (forall a, f a = true <-> P a) -> existsb f args = true <-> has_arg args P.
Proof.
  intros H. rewrite existsb_exists. split; intros (a & Ha & Hf); exists a; split; auto; apply H; exact Hf.
Qed.

Lemma file_name_iff p n : file_name p = Some n <-> program_name p n.
Proof.
  unfold file_name, program_name. set (ok := fun c : str => _). split.
  - destruct (rev (filter ok (split_on (chr "/") p))) as [|c l] eqn:E; [discriminate|].
    destruct (str_eqb_spec c (lit "..")) as [|Hdd]; [discriminate|]. intros [= ->].
    assert (Hl : filter ok (split_on (chr "/") p) = rev l ++ [n]).
    { rewrite <- (rev_involutive (filter _ _)), E. reflexivity. }
    assert (Hn : In n (filter ok (split_on (chr "/") p))).
    { rewrite Hl. apply in_or_app. right. left. reflexivity. }
    pose proof Hn as Hn'. apply filter_In in Hn' as [Hin Hok]. unfold ok in Hok.
    apply andb_true_iff in Hok as [H1 H2]. apply negb_true_iff in H1, H2.
    apply str_eqb_neq in H1, H2.
    split; [exact H1|]. split; [exact H2|]. split; [exact Hdd|].
    split; [apply (split_on_no_sep _ _ _ Hin)|].
    assert (Hsplit : exists A B, split_on (chr "/") p = A ++ n :: B /\ filter ok B = []).
    { clear - Hl. revert Hl. generalize (split_on (chr "/") p) (rev l). intros s; induction s as [|x s IH]; intros r Hl.
      - destruct r; discriminate.
      - simpl in Hl. destruct (ok x) eqn:Ex.
        + destruct r as [|y r].
          * simpl in Hl. injection Hl as -> Hs. exists [], s. split; [reflexivity | exact Hs].
          * simpl in Hl. injection Hl as -> Hs. destruct (IH r Hs) as (A & B & -> & HB).
            exists (y :: A), B. split; [reflexivity | exact HB].
        + destruct (IH r Hl) as (A & B & -> & HB). exists (x :: A), B. split; [reflexivity | exact HB]. }
    destruct Hsplit as (A & B & HAB & HB).
    exists (concat (map (fun x => x ++ [chr "/"]) A)), B. split; [|split].
    + rewrite <- (split_on_join (chr "/") p), HAB. apply join_with_mid.
    + destruct (rev A) as [|a A'] eqn:EA.
      * left. rewrite <- (rev_involutive A), EA. reflexivity.
      * right. exists (concat (map (fun x => x ++ [chr "/"]) (rev A')) ++ a).
        rewrite <- (rev_involutive A), EA. simpl. rewrite map_app, concat_app. simpl.
        rewrite app_nil_r, <- app_assoc. reflexivity.
    + intros t Ht. assert (Hf : ok t = false).
      { destruct (ok t) eqn:Et; [|reflexivity]. assert (In t (filter ok B)) by (apply filter_In; auto).
        rewrite HB in H. destruct H. }
      unfold ok in Hf. apply andb_false_iff in Hf as [Hf|Hf]; apply negb_false_iff in Hf; apply str_eqb_eq in Hf; auto.
  - intros (H1 & H2 & H3 & H4 & dir & B & -> & Hdir & HB).
    assert (Htail : forall m, ~ In (chr "/") m ->
              split_on (chr "/") (m ++ concat (map (cons (chr "/")) B)) = m :: B).
    { clear - HB. induction B as [|b B IH]; intros m Hm; simpl.
      - rewrite app_nil_r. apply split_on_none, Hm.
      - change (m ++ chr "/" :: b ++ concat (map (cons (chr "/")) B))
          with (m ++ chr "/" :: (b ++ concat (map (cons (chr "/")) B))).
        rewrite split_on_app, (split_on_none _ m Hm). simpl. f_equal. apply IH.
        + intros t Ht. apply HB. right. exact Ht.
        + destruct (HB b (or_introl eq_refl)) as [-> | ->]; [intros []|].
          intros [E | []]. discriminate. }
    assert (HfB : filter ok B = []).
    { clear - HB. induction B as [|b B IH]; [reflexivity|]. simpl.
      destruct (HB b (or_introl eq_refl)) as [-> | ->]; cbn; apply IH; intros t Ht; apply HB; right; exact Ht. }
    assert (Hokn : ok n = true).
    { unfold ok. apply str_eqb_neq in H1, H2. rewrite H1, H2. reflexivity. }
    assert (exists A, split_on (chr "/") (dir ++ n ++ concat (map (cons (chr "/")) B)) = A ++ n :: B) as [A HA].
    { destruct Hdir as [-> | [d ->]].
      - exists []. simpl. apply Htail, H4.
      - exists (split_on (chr "/") d). rewrite <- app_assoc. simpl.
        change (N_of_ascii "/"%char) with (chr "/"). rewrite split_on_app. f_equal. apply Htail, H4. }
    rewrite HA, filter_app. simpl. rewrite Hokn, HfB, rev_app_distr. simpl.
    apply str_eqb_neq in H3. rewrite H3. reflexivity.
Qed.

Lemma known_as_iff w n : known_as w n <-> get_command_name w = n.
Proof.
  unfold known_as, get_command_name. destruct (file_name w) as [m|] eqn:E.
  - split.
    + intros [H | [H _]].
      * apply file_name_iff in H. congruence.
      * exfalso. apply (H m). apply file_name_iff, E.
    + intros <-. left. apply file_name_iff, E.
  - split.
    + intros [H | [_ ->]]; [apply file_name_iff in H; congruence | reflexivity].
    + intros <-. right. split; [|reflexivity]. intros m Hm. apply file_name_iff in Hm. congruence.
Qed.

Ltac no_name H :=
  let s := fresh "s" in let Hs := fresh "Hs" in let E := fresh "E" in
  destruct H as (s & Hs & E); cbn [In] in Hs;
  repeat destruct Hs as [<- | Hs]; try (vm_compute in E; discriminate E); try destruct Hs.

Lemma check_rm_iff args : (exists m, check_rm args = Some m) <-> dangerous (lit "rm") args.
Proof.
  unfold check_rm. set (r := existsb _ args).
  assert (Hr : r = true <-> has_arg args (fun a => one_of a ["-r"; "-R"; "--recursive"]
                           \/ begins "-rx" a \/ begins "-rf" a \/ begins "-fr" a)).
  { unfold r. apply existsb_has. intros a.
    rewrite !orb_true_iff, arg_in_iff, !starts_with_iff. unfold begins. tauto. }
  destruct r eqn:Er.
  - split; [|intros _; repeat match goal with |- context [if ?b then _ else _] => destruct b end; eexists; reflexivity].
    intros _. apply D_rm, Hr. reflexivity.
  - split; [intros [m Hm]; simpl in Hm; discriminate|].
    intros H. inversion H as [n a Hs | a Ha | | | | n a Hn | | n a Hn | n a Hn]; subst;
      try (exfalso; no_name Hs); try (exfalso; no_name Hn).
    apply Hr in Ha. discriminate.
Qed.

Lemma check_git_iff args : (exists m, check_git args = Some m) <-> dangerous (lit "git") args.
Proof.
  assert (Hsome : forall (b : bool) (m : str), (exists m', (if b then Some m else None) = Some m') <-> b = true).
  { intros [] m; split; try discriminate; eauto. intros [? ?]; discriminate. }
  unfold check_git. destruct args as [|sub rest].
  - split; [intros [m Hm]; discriminate|]. intros H.
    inversion H as [n a Hs | | | | | n a Hn | | n a Hn | n a Hn]; subst; exfalso; [no_name Hs | no_name Hn | no_name Hn | no_name Hn].
  - split.
    + destruct (str_eqb_spec sub (lit "push")) as [->|H1].
      { rewrite Hsome. intros H. apply D_git_push. revert H. apply existsb_has. intros a. apply arg_in_iff. }
      destruct (str_eqb_spec sub (lit "clean")) as [->|H2].
      { rewrite Hsome. intros H. apply D_git_clean. revert H. apply existsb_has. intros a. apply mem_char_iff. }
      destruct (str_eqb_spec sub (lit "reset")) as [->|H3].
      { rewrite Hsome, existsb_exists. intros (a & Ha & E). apply str_eqb_eq in E. subst a. apply D_git_reset, Ha. }
      intros [? ?]; discriminate.
    + intros H.
      inversion H as [n a Hs | | a Ha | a Ha | a Ha | n a Hn | | n a Hn | n a Hn]; subst;
        try (exfalso; no_name Hs); try (exfalso; no_name Hn).
      * rewrite str_eqb_refl. apply Hsome. revert Ha. apply existsb_has. intros x. apply arg_in_iff.
      * replace (str_eqb (lit "clean") (lit "push")) with false by reflexivity. rewrite str_eqb_refl.
        apply Hsome. revert Ha. apply existsb_has. intros x. apply mem_char_iff.
      * replace (str_eqb (lit "reset") (lit "push")) with false by reflexivity.
        replace (str_eqb (lit "reset") (lit "clean")) with false by reflexivity. rewrite str_eqb_refl.
        apply Hsome, existsb_exists. exists (lit "--hard"). split; [exact Ha | apply str_eqb_refl].
Qed.

(** the declarative list, one program at a time *)
Lemma dangerous_inv n args :
  dangerous n args <->
  one_of n ["dd"; "mkfs"; "format"; "reboot"; "shutdown"; "poweroff"; "mkswap"]
  \/ (n = lit "rm" /\ dangerous (lit "rm") args)
  \/ (n = lit "git" /\ dangerous (lit "git") args)
  \/ (one_of n ["chmod"; "chown"] /\ has_arg args (fun a => one_of a ["-R"; "--recursive"]))
  \/ (n = lit "cp"
      /\ has_arg args (fun a => one_of a ["-r"; "-R"; "--recursive"] \/ (begins "-" a /\ In (chr "r") a))
      /\ has_arg args (fun a => one_of a ["-f"; "--force"]))
  \/ (one_of n ["curl"; "wget"] /\
      has_arg args (fun a => one_of a ["-d"; "--data"; "-F"; "--form"; "-T"; "--upload-file";
                                     "--post-data"; "--post-file"]))
  \/ (one_of n ["cat"; "less"; "more"; "head"; "tail"; "grep"; "awk"; "sed"] /\
      has_arg args (fun a => mentions ".ssh" a \/ mentions "id_rsa" a \/ mentions "id_ed25519" a
                           \/ mentions ".aws/credentials" a \/ mentions ".config/gcloud" a
                           \/ mentions ".azure" a \/ one_of a ["/etc/shadow"; "/etc/passwd"]
                           \/ mentions ".env" a \/ exists t, a = t ++ lit "_history")).
Proof.
  split.
  - intros H. pose proof H as H0. destruct H; auto 8.
  - intros [H | [(-> & H) | [(-> & H) | [[H1 H2] | [(-> & H1 & H2) | [[H1 H2] | [H1 H2]]]]]]]; auto.
    + apply D_system, H.
    + apply D_perm; assumption.
    + apply D_cp; assumption.
    + apply D_upload; assumption.
    + apply D_secret; assumption.
Qed.

Lemma one_of_dec a l : {one_of a l} + {~ one_of a l}.
Proof.
  destruct (arg_in a l) eqn:E; [left; apply arg_in_iff, E | right; apply arg_in_false, E].
Qed.

Lemma check_recursive_iff args :
  (exists m, check_recursive args = Some m) <-> has_arg args (fun a => one_of a ["-R"; "--recursive"]).
Proof.
  unfold check_recursive. rewrite <- (existsb_has args (fun a => arg_in a ["-R"; "--recursive"]) _ (fun a => arg_in_iff a _)).
  destruct (existsb _ args); split; intros H; eauto; try discriminate. destruct H; discriminate.
Qed.

Lemma check_cp_iff args :
  (exists m, check_cp args = Some m) <->
  has_arg args (fun a => one_of a ["-r"; "-R"; "--recursive"] \/ (begins "-" a /\ In (chr "r") a))
      /\ has_arg args (fun a => one_of a ["-f"; "--force"]).
Proof.
  unfold check_cp. set (r := existsb _ args). set (f := existsb _ args).
  assert (Hr : r = true <-> has_arg args (fun a => one_of a ["-r"; "-R"; "--recursive"]
                                                   \/ (begins "-" a /\ In (chr "r") a))).
  { apply existsb_has. intros a. rewrite orb_true_iff, andb_true_iff, arg_in_iff, starts_with_iff, mem_char_iff.
    reflexivity. }
  assert (Hf : f = true <-> has_arg args (fun a => one_of a ["-f"; "--force"])).
  { apply existsb_has. intros a. apply arg_in_iff. }
  rewrite <- Hr, <- Hf. destruct r, f; simpl; split; intros H; eauto; try (destruct H; discriminate).
Qed.

Lemma check_exfil_iff args :
  (exists m, check_data_exfiltration args = Some m) <->
  has_arg args (fun a => one_of a ["-d"; "--data"; "-F"; "--form"; "-T"; "--upload-file";
                                     "--post-data"; "--post-file"]).
Proof.
  induction args as [|a args IH].
  - split; [intros [? ?]; discriminate | intros (a & [] & _)].
  - cbn [check_data_exfiltration].
    destruct (arg_in a ["-d"; _; _; _; _; _]%string) eqn:E1.
    + split; [intros _ | eauto]. exists a. split; [left; reflexivity|].
      apply arg_in_iff in E1 as (s & Hs & ->). exists s. split; [|reflexivity].
      cbn [In] in *. intuition.
    + destruct (arg_in a ["--post-data"; _]%string) eqn:E2.
      * split; [intros _ | eauto]. exists a. split; [left; reflexivity|].
        apply arg_in_iff in E2 as (s & Hs & ->). exists s. split; [|reflexivity].
        cbn [In] in *. intuition.
      * rewrite IH. split.
        -- intros (b & Hb & H). exists b. split; [right; exact Hb | exact H].
        -- intros (b & [<- | Hb] & H); [|exists b; split; assumption].
           apply arg_in_false in E1, E2. destruct H as (s & Hs & ->). cbn [In] in Hs.
           exfalso. repeat destruct Hs as [<- | Hs];
             solve [apply E1; eexists; split; [|reflexivity]; cbn [In]; tauto
                   | apply E2; eexists; split; [|reflexivity]; cbn [In]; tauto
                   | destruct Hs].
Qed.

Lemma mentions_iff p a : contains (lit p) a = true <-> mentions p a.
Proof. apply contains_iff. Qed.

Lemma check_sensitive_iff args :
  (exists m, check_sensitive_file_access args = Some m) <->
  has_arg args (fun a => mentions ".ssh" a \/ mentions "id_rsa" a \/ mentions "id_ed25519" a
                           \/ mentions ".aws/credentials" a \/ mentions ".config/gcloud" a
                           \/ mentions ".azure" a \/ one_of a ["/etc/shadow"; "/etc/passwd"]
                           \/ mentions ".env" a \/ exists t, a = t ++ lit "_history").
Proof.
  induction args as [|a args IH].
  - split; [intros [? ?]; discriminate | intros (a & [] & _)].
  - cbn [check_sensitive_file_access].
    rewrite <- (ends_with_iff (lit "_history") a) || idtac.
    assert (Hend : ends_with (lit "_history") a = true <-> exists t, a = t ++ lit "_history") by apply ends_with_iff.
    pose proof (mentions_iff ".ssh" a) as M1. pose proof (mentions_iff "id_rsa" a) as M2.
    pose proof (mentions_iff "id_ed25519" a) as M3. pose proof (mentions_iff ".aws/credentials" a) as M4.
    pose proof (mentions_iff ".config/gcloud" a) as M5. pose proof (mentions_iff ".azure" a) as M6.
    pose proof (mentions_iff ".env" a) as M7.
    pose proof (arg_in_iff a ["/etc/shadow"; "/etc/passwd"]) as M8.
    set (P := fun a => _ \/ _) in *.
    assert (Hcons : has_arg (a :: args) P <-> P a \/ has_arg args P).
    { unfold has_arg. split.
      - intros (b & [<- | Hb] & H); [left; exact H | right; exists b; auto].
      - intros [H | (b & Hb & H)]; [exists a; split; [left; reflexivity | exact H] | exists b; split; [right; exact Hb | exact H]]. }
    rewrite Hcons, <- IH.
    assert (HP : P a <-> contains (lit ".ssh") a = true \/ contains (lit "id_rsa") a = true
              \/ contains (lit "id_ed25519") a = true \/ contains (lit ".aws/credentials") a = true
              \/ contains (lit ".config/gcloud") a = true \/ contains (lit ".azure") a = true
              \/ arg_in a ["/etc/shadow"; "/etc/passwd"] = true
              \/ contains (lit ".env") a = true \/ ends_with (lit "_history") a = true).
    { unfold P. tauto. }
    rewrite HP. clear.
    destruct (contains (lit ".ssh") a); [simpl; split; eauto|].
    destruct (contains (lit "id_rsa") a); [simpl; split; eauto|].
    destruct (contains (lit "id_ed25519") a); [simpl; split; eauto 6|].
    destruct (contains (lit ".aws/credentials") a); [simpl; split; eauto 8|].
    destruct (contains (lit ".config/gcloud") a); [simpl; split; eauto 9|].
    destruct (contains (lit ".azure") a); [simpl; split; eauto 10|].
    destruct (arg_in a _); [simpl; split; [tauto | eauto]|].
    destruct (contains (lit ".env") a); [simpl; split; [tauto | eauto]|].
    destruct (ends_with (lit "_history") a); [simpl; split; [tauto | eauto]|].
    simpl. split; [auto|]. intros [H | H]; [|exact H].
    repeat destruct H as [H | H]; discriminate.
Qed.

Lemma check_one_not_denied label shown n args m : check_one label shown n args <> Denied m.
Proof.
  unfold check_one. destruct (mem_str n always_warn); [discriminate|].
  destruct (checker n) as [f|]; [destruct (f args)|]; discriminate.
Qed.

Lemma check_one_iff label shown n args :
  (exists m, check_one label shown n args = Confirm m) <-> dangerous n args.
Proof.
  rewrite dangerous_inv. unfold check_one.
  change always_warn with (map lit ["dd"; "mkfs"; "format"; "reboot"; "shutdown"; "poweroff"; "mkswap"]%string).
  change (mem_str n (map lit ?l)) with (arg_in n l).
  destruct (arg_in n ["dd"; _; _; _; _; _; _]%string) eqn:E0.
  { apply arg_in_iff in E0. split; eauto. }
  apply arg_in_false in E0.
  assert (Hconf : forall o : option str,
            (exists m, match o with Some m => Confirm m | None => Allowed end = Confirm m) <-> exists m, o = Some m).
  { intros [m|]; split; intros [m' H]; try discriminate; eauto. }
  unfold checker.
  destruct (str_eqb_spec n (lit "rm")) as [->|N1].
  { rewrite Hconf, check_rm_iff. split; [auto 8|].
    intros [H | [(_ & H) | [(H & _) | [[H _] | [(H & _) | [[H _] | [H _]]]]]]]; try tauto; try discriminate; exfalso; no_name H. }
  destruct (str_eqb_spec n (lit "git")) as [->|N2].
  { rewrite Hconf, check_git_iff. split; [auto 8|].
    intros [H | [(H & _) | [(_ & H) | [[H _] | [(H & _) | [[H _] | [H _]]]]]]]; try tauto; try discriminate; exfalso; no_name H. }
  destruct (arg_in n ["chmod"; "chown"]) eqn:E3.
  { rewrite Hconf, check_recursive_iff. apply arg_in_iff in E3. split; [auto 8|].
    destruct E3 as (s & Hs & ->).
    intros [H | [(H & _) | [(H & _) | [[_ H] | [(H & _) | [[H _] | [H _]]]]]]]; try tauto;
      exfalso; cbn [In] in Hs; repeat destruct Hs as [<- | Hs]; try destruct Hs; try discriminate H; no_name H. }
  apply arg_in_false in E3.
  destruct (str_eqb_spec n (lit "cp")) as [->|N4].
  { rewrite Hconf, check_cp_iff. split; [auto 8|].
    intros [H | [(H & _) | [(H & _) | [[H _] | [(_ & H) | [[H _] | [H _]]]]]]]; try tauto; try discriminate; exfalso; no_name H. }
  destruct (str_eqb_spec n (lit "mv")) as [->|N5].
  { rewrite Hconf. split; [intros [m Hm]; discriminate Hm|].
    intros [H | [(H & _) | [(H & _) | [[H _] | [(H & _) | [[H _] | [H _]]]]]]]; try tauto; try discriminate; exfalso; no_name H. }
  destruct (arg_in n ["curl"; "wget"]) eqn:E6.
  { rewrite Hconf, check_exfil_iff. apply arg_in_iff in E6. split; [auto 9|].
    destruct E6 as (s & Hs & ->).
    intros [H | [(H & _) | [(H & _) | [[H _] | [(H & _) | [[_ H] | [H _]]]]]]]; try tauto;
      exfalso; cbn [In] in Hs; repeat destruct Hs as [<- | Hs]; try destruct Hs; try discriminate H; no_name H. }
  apply arg_in_false in E6.
  destruct (arg_in n ["cat"; _; _; _; _; _; _; _]%string) eqn:E7.
  { rewrite Hconf, check_sensitive_iff. apply arg_in_iff in E7. split; [auto 9|].
    intros [H | [(H & _) | [(H & _) | [[H _] | [(H & _) | [[H _] | [_ H]]]]]]]; tauto. }
  apply arg_in_false in E7.
  split.
  - intros [m Hm]. destruct (arg_in n _); [|discriminate].
    unfold check_package_manager in Hm. destruct args as [|a args]; [discriminate|].
    destruct (arg_in a _); discriminate.
  - intros [H | [(H & _) | [(H & _) | [[H _] | [(H & _) | [[H _] | [H _]]]]]]]; tauto.
Qed.

Lemma check_one_allowed label shown n args :
  check_one label shown n args = Allowed <-> ~ dangerous n args.
Proof.
  rewrite <- (check_one_iff label shown). pose proof (check_one_not_denied label shown n args) as ND.
  destruct (check_one label shown n args) as [|m|m].
  - split; [intros _ [m Hm]; discriminate | reflexivity].
  - exfalso. apply (ND m). reflexivity.
  - split; [discriminate|]. intros H. exfalso. apply H. eauto.
Qed.

Lemma downloads_iff line :
  downloads line <-> split_whitespace line <> [] /\ is_network_tool (get_command_name (first_word line)) = true.
Proof.
  unfold downloads, is_network_tool. rewrite arg_in_iff. unfold first_word. split.
  - intros (w & args & n & HW & Hn & Ho). apply Words_iff in HW. rewrite HW. split; [discriminate|].
    apply known_as_iff in Hn. rewrite Hn. exact Ho.
  - destruct (split_whitespace line) as [|w args] eqn:E; [intros [H _]; congruence|]. intros [_ H].
    exists w, args, (get_command_name w). split; [apply Words_iff, E|]. split; [apply known_as_iff; reflexivity | exact H].
Qed.

Lemma interprets_iff line :
  interprets line <-> split_whitespace line <> [] /\ is_execution_tool (get_command_name (first_word line)) = true.
Proof.
  unfold interprets, is_execution_tool. rewrite arg_in_iff. unfold first_word. split.
  - intros (w & args & n & HW & Hn & Ho). apply Words_iff in HW. rewrite HW. split; [discriminate|].
    apply known_as_iff in Hn. rewrite Hn. exact Ho.
  - destruct (split_whitespace line) as [|w args] eqn:E; [intros [H _]; congruence|]. intros [_ H].
    exists w, args, (get_command_name w). split; [apply Words_iff, E|]. split; [apply known_as_iff; reflexivity | exact H].
Qed.

Lemma empty_name_no_tool : is_network_tool (get_command_name []) = false /\ is_execution_tool (get_command_name []) = false.
Proof. split; reflexivity. Qed.

Lemma net_iff line : is_network_tool (get_command_name (first_word line)) = true <-> downloads line.
Proof.
  rewrite downloads_iff. split; [|tauto]. intros H. split; [|exact H].
  intros E. unfold first_word in H. rewrite E in H. discriminate.
Qed.
Lemma exe_iff line : is_execution_tool (get_command_name (first_word line)) = true <-> interprets line.
Proof.
  rewrite interprets_iff. split; [|tauto]. intros H. split; [|exact H].
  intros E. unfold first_word in H. rewrite E in H. discriminate.
Qed.

(** the questions of job list [jobs] preceded by [prev] *)
Definition needs_from (prev : option str) (jobs allow : list str) : Prop :=
  exists i j, nth_error jobs i = Some j /\ ~ In j allow /\
    (dangerous_line j
     \/ exists p, match i with 0 => prev = Some p | S k => nth_error jobs k = Some p end
                  /\ downloads p /\ interprets j).

Lemma dangerous_line_iff line :
  dangerous_line line <->
  match split_whitespace line with [] => False | c :: args => dangerous (get_command_name c) args end.
Proof.
  unfold dangerous_line. split.
  - intros (w & args & n & HW & Hn & Hd). apply Words_iff in HW. rewrite HW.
    apply known_as_iff in Hn. rewrite Hn. exact Hd.
  - destruct (split_whitespace line) as [|c args] eqn:E; [intros []|]. intros H.
    exists c, args, (get_command_name c). split; [apply Words_iff, E|]. split; [apply known_as_iff; reflexivity | exact H].
Qed.

Lemma check_normal_not_denied jobs : forall prev allow m, check_normal prev jobs allow <> Denied m.
Proof.
  induction jobs as [|j jobs IH]; intros prev allow m; simpl; [discriminate|].
  destruct (mem_str j allow); [apply IH|].
  destruct (match prev with Some p => _ | None => false end); [discriminate|].
  destruct (split_whitespace j) as [|c args]; [apply IH|].
  pose proof (check_one_not_denied (lit "Potentially dangerous system command") (get_command_name c)
                (get_command_name c) args) as ND.
  destruct (check_one _ _ _ _) eqn:E; [apply IH | exfalso; apply (ND why); reflexivity | discriminate].
Qed.

Lemma check_normal_iff jobs : forall prev allow,
  check_normal prev jobs allow = Allowed <-> ~ needs_from prev jobs allow.
Proof.
  induction jobs as [|j jobs IH]; intros prev allow.
  - split; [|reflexivity]. intros _ (i & j & Hj & _). destruct i; discriminate.
  - assert (Hshift : needs_from (Some j) jobs allow -> needs_from prev (j :: jobs) allow).
    { intros (i & k & Hk & Hna & H). exists (S i), k. split; [exact Hk|]. split; [exact Hna|].
      destruct H as [H | (p & Hp & H)]; [left; exact H|]. right. exists p. split; [|exact H].
      destruct i; simpl in *; [congruence | exact Hp]. }
    assert (Hsplit : needs_from prev (j :: jobs) allow ->
              needs_from (Some j) jobs allow
              \/ (~ In j allow /\ (dangerous_line j \/ exists p, prev = Some p /\ downloads p /\ interprets j))).
    { intros (i & k & Hk & Hna & H). destruct i as [|i].
      - right. injection Hk as ->. split; [exact Hna|]. exact H.
      - left. exists i, k. split; [exact Hk|]. split; [exact Hna|].
        destruct H as [H | (p & Hp & H)]; [left; exact H|]. right. exists p. split; [|exact H].
        destruct i; simpl in *; [congruence | exact Hp]. }
    assert (Hhere : (~ In j allow /\ (dangerous_line j \/ exists p, prev = Some p /\ downloads p /\ interprets j)) ->
              needs_from prev (j :: jobs) allow).
    { intros [Hna H]. exists 0, j. split; [reflexivity|]. split; [exact Hna|]. exact H. }
    cbn [check_normal]. destruct (mem_str j allow) eqn:Ea.
    + apply mem_str_iff in Ea. rewrite IH. split; intros H N; apply H.
      * destruct (Hsplit N) as [N' | [Hn _]]; [exact N' | contradiction].
      * apply Hshift, N.
    + apply mem_str_false in Ea.
      set (bad := match prev with Some p => _ | None => false end).
      assert (Hbad : bad = true <-> exists p, prev = Some p /\ downloads p /\ interprets j).
      { unfold bad. destruct prev as [p|].
        - rewrite andb_true_iff, net_iff, exe_iff. split; [intros H; exists p; tauto|].
          intros (q & [= ->] & H). exact H.
        - split; [discriminate | intros (p & [=] & _)]. }
      destruct bad eqn:Eb.
      * split; [discriminate|]. intros H. exfalso. apply H, Hhere. split; [exact Ea|].
        right. apply Hbad. reflexivity.
      * destruct (split_whitespace j) as [|c args] eqn:Es.
        -- rewrite IH. split; intros H N; apply H.
           ++ destruct (Hsplit N) as [N' | [_ [Hd | Hp]]]; [exact N' | |].
              ** apply dangerous_line_iff in Hd. rewrite Es in Hd. destruct Hd.
              ** apply Hbad in Hp. discriminate.
           ++ apply Hshift, N.
        -- pose proof (check_one_allowed (lit "Potentially dangerous system command")
                         (get_command_name c) (get_command_name c) args) as Hone.
           pose proof (dangerous_line_iff j) as Hdl. rewrite Es in Hdl.
           destruct (check_one _ _ _ args) eqn:E1.
           ++ rewrite IH. split; intros H N; apply H.
              ** destruct (Hsplit N) as [N' | [_ [Hd | Hp]]]; [exact N' | |].
                 --- exfalso. apply Hdl in Hd. destruct Hone as [Hone _]. apply Hone; [reflexivity | exact Hd].
                 --- apply Hbad in Hp. discriminate.
              ** apply Hshift, N.
           ++ split; [discriminate|]. intros H. exfalso.
              destruct (check_one_not_denied _ _ _ _ _ E1).
           ++ split; [discriminate|]. intros H. exfalso. apply H, Hhere. split; [exact Ea|]. left.
              apply Hdl. apply check_one_iff with (label := lit "Potentially dangerous system command") (shown := get_command_name c).
              eauto.
Qed.
