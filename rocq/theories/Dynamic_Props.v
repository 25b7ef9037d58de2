(** C225: how long completing waits for a program.  C226: what a program's answer offers. *)
From Verif Require Import Base Dynamic_Model Dynamic_Spec.
From Verif Require Direnv_Model Answer_Props Runtime_Props.
From Verif Require Import Dynamic_Compose Dynamic_Cache Dynamic_Words.

(** ** C225 *)
(** when no other process holds the program's output for longer, the wait ends after 1.5 seconds at the latest *)
Theorem C225_bounded_partial : forall c o, others c = Some o -> o <= 1500 -> exists t, fst (collect_lines c) = Some t /\ t <= 1500.
Proof.
  intros c o O L. unfold collect_lines, patience. rewrite O. cbn [option_map]. destruct (ends c) as [e|]; [destruct (Nat.leb_spec e 1500)|]; cbn [fst]; eexists; (split; [reflexivity|]); lia.
Qed.
(** another process that keeps the output open, e.g. one the program left in the background, keeps
    completing waiting as long as it lives, though the program itself has ended or was killed *)
Theorem C225_held_refuted : forall c, (others c = None -> fst (collect_lines c) = None) /\
  (forall o, others c = Some o -> exists t, fst (collect_lines c) = Some t /\ o <= t).
Proof.
  intros c. unfold collect_lines, patience. split.
  - intros O. rewrite O. destruct (ends c) as [e|]; [destruct (e <=? 1500)|]; reflexivity.
  - intros o O. rewrite O. cbn [option_map]. destruct (ends c) as [e|]; [destruct (e <=? 1500)|]; cbn [fst]; eexists; (split; [reflexivity|]); lia.
Qed.
(** a program that ends in time is waited for no longer than it and its output take *)
Theorem C225_no_longer : forall c e o, ends c = Some e -> e <= 1500 -> others c = Some o -> fst (collect_lines c) = Some (Nat.max e o).
Proof. intros c e o E L O. unfold collect_lines, patience. rewrite E, O. destruct (Nat.leb_spec e 1500); [reflexivity|lia]. Qed.
Example C225_example : fst (collect_lines (Child (Some 20) true (Some 4000) (lit "a"))) = Some 4000 /\ fst (collect_lines (Child None true (Some 0) [])) = Some 1500.
Proof. split; vm_compute; reflexivity. Qed.

(** ** C226 *)
Lemma told_iff c l : In l (snd (collect_lines c)) <-> told c l.
Proof.
  assert (A : In l (answer_lines (says c)) <-> exists l0, In l0 (Direnv_Model.lines (says c)) /\ l = trim l0 /\ l <> []).
  { unfold answer_lines. rewrite filter_In, in_map_iff. split.
    - intros [(x & E & I) N]. exists x. split; [exact I|]. split; [symmetry; exact E|]. intros ->. discriminate.
    - intros (x & I & E & N). split; [exists x; split; [symmetry; exact E|exact I]|]. destruct l; [congruence|reflexivity]. }
  unfold told, collect_lines, patience. destruct (ends c) as [e|]; [destruct (Nat.leb_spec e 1500) as [L|L]|]; cbn [snd].
  - destruct (success c).
    + rewrite A. split; [intros H; split; [reflexivity|]; split; [exists e; split; [reflexivity|exact L]|exact H]|]. intros (_ & _ & H). exact H.
    + split; [intros []|]. intros (X & _). discriminate.
  - split; [intros []|]. intros (_ & (e' & E & L') & _). injection E as <-. lia.
  - split; [intros []|]. intros (_ & (e' & E & _) & _). discriminate.
Qed.
Lemma split_tab_iff s a b : split_tab s = Some (a, b) <-> s = a ++ 9%N :: b /\ ~ In 9%N a.
Proof.
  revert a b. induction s as [|c s IH]; intros a b; cbn [split_tab].
  - split; [discriminate|]. intros [E _]. destruct a; discriminate.
  - destruct (N.eqb_spec c 9) as [->|D].
    + split; [intros E; injection E as <- <-; split; [reflexivity|intros []]|]. intros [E N]. destruct a as [|x a]; [injection E as ->; reflexivity|]. injection E as E1 _. exfalso. apply N. left. symmetry. exact E1.
    + destruct (split_tab s) as [[a' b']|] eqn:Q.
      * destruct (proj1 (IH a' b') eq_refl) as [-> N']. split.
        -- intros E. injection E as <- <-. split; [reflexivity|]. intros [X|X]; [congruence|exact (N' X)].
        -- intros [E N]. destruct a as [|x a]; [injection E as E1 _; congruence|]. injection E as <- E. assert (Y : Some (a', b') = Some (a, b)) by (apply IH; split; [exact E|]; intros X; apply N; right; exact X). injection Y as -> ->. reflexivity.
      * split; [discriminate|]. intros [E N]. destruct a as [|x a]; [injection E as E1 _; congruence|]. injection E as <- E. assert (Y : None = Some (a, b)) by (apply IH; split; [exact E|]; intros X; apply N; right; exact X). discriminate.
Qed.
Lemma split_tab_none s : split_tab s = None <-> ~ In 9%N s.
Proof.
  induction s as [|c s IH]; cbn [split_tab]; [split; [intros _ []|reflexivity]|]. destruct (N.eqb_spec c 9) as [->|D].
  - split; [discriminate|]. intros H. exfalso. apply H. left. reflexivity.
  - destruct (split_tab s) as [[a b]|]; cbn [In].
    + split; [discriminate|]. intros H. exfalso. assert (X : Some (a, b) = None) by (apply IH; intros I; apply H; right; exact I). discriminate.
    + split; [intros _ [X|X]; [congruence|exact (proj1 IH eq_refl X)]|reflexivity].
Qed.
(** from a line of the program's answer without a tab the line is offered; from one with a tab what is
    before the first one, described by what is behind it; only what matches the word begun, and
    nothing when the program fails or takes longer *)
Theorem C226_external : forall (matches : str -> str -> bool) token c t d,
  In (t, d) (external matches token c) <->
  exists l, told c l /\ t <> [] /\ matches token t = true /\
    ((~ In 9%N l /\ t = trim l /\ d = None) \/ exists a b, l = a ++ 9%N :: b /\ ~ In 9%N a /\ t = trim a /\ d = Some (trim b)).
Proof.
  intros matches token c t d. unfold external. rewrite in_flat_map. split.
  - intros (l & I & J). apply told_iff in I. exists l. split; [exact I|]. unfold external_line in J. destruct (split_tab l) as [[a b]|] eqn:Q.
    + apply split_tab_iff in Q. destruct Q as [E N]. destruct (trim a) as [|x r] eqn:T; [destruct J|]. destruct (matches token (x :: r)) eqn:M; [|destruct J]. destruct J as [J|[]]. injection J as <- <-.
      split; [discriminate|]. split; [exact M|]. right. exists a, b. split; [exact E|]. split; [exact N|]. split; [symmetry; exact T|reflexivity].
    + apply split_tab_none in Q. destruct (trim l) as [|x r] eqn:T; [destruct J|]. destruct (matches token (x :: r)) eqn:M; [|destruct J]. destruct J as [J|[]]. injection J as <- <-.
      split; [discriminate|]. split; [exact M|]. left. split; [exact Q|]. split; [reflexivity|reflexivity].
  - intros (l & I & N & M & H). exists l. split; [apply told_iff; exact I|]. unfold external_line. destruct H as [(T & E & ->)|(a & b & -> & T & E & ->)].
    + assert (Q : split_tab l = None) by (apply split_tab_none; exact T). rewrite Q, <- E. destruct t as [|x r]; [congruence|]. rewrite M. left. reflexivity.
    + assert (Q : split_tab (a ++ 9%N :: b) = Some (a, b)) by (apply split_tab_iff; split; [reflexivity|exact T]). rewrite Q, <- E. destruct t as [|x r]; [congruence|]. rewrite M. left. reflexivity.
Qed.
(** a line with a description only is offered as if the description were the word *)
Theorem C226_only_described_refuted : forall matches : str -> str -> bool, matches [] (lit "about") = true ->
  external matches [] (Child (Some 5) true (Some 5) (9%N :: lit "about" ++ [10%N])) = [(lit "about", None)].
Proof. intros matches M. vm_compute in M. vm_compute. rewrite M. reflexivity. Qed.
(** the working trees offered are those git lists *)
Theorem C226_worktrees : forall c p, In p (worktrees c) <-> told c (lit "worktree " ++ p).
Proof.
  intros c p. unfold worktrees. rewrite in_flat_map, <- told_iff. split.
  - intros (l & I & J). unfold worktree in J. destruct (starts_with (lit "worktree ") l) eqn:S; [|destruct J]. apply starts_with_iff in S. destruct S as [r E]. destruct J as [J|[]]. subst l.
    change (skipn 9 (lit "worktree " ++ r)) with r in J. subst r. exact I.
  - intros I. exists (lit "worktree " ++ p). split; [exact I|]. unfold worktree. assert (S : starts_with (lit "worktree ") (lit "worktree " ++ p) = true) by (apply starts_with_iff; exists p; reflexivity). rewrite S. left. reflexivity.
Qed.
(** the description of a task is its source and its command, whole up to 80 characters and otherwise cut
    to 77 with three dots *)
Theorem C226_described : forall source command, let s := source ++ lit ": " ++ command in
  (length s <= 80 -> task_description source command = s) /\
  (80 < length s -> exists a b, s = a ++ b /\ length a = 77 /\ task_description source command = a ++ lit "...").
Proof.
  intros source command s. unfold task_description, truncate. fold s. split; intros L.
  - destruct (Nat.leb_spec (length s) 80); [reflexivity|lia].
  - destruct (Nat.leb_spec (length s) 80); [lia|]. exists (firstn 77 s), (skipn 77 s). split; [symmetry; apply firstn_skipn|]. split; [apply firstn_length_le; lia|reflexivity].
Qed.
Example C226_example : external (fun _ _ => true) [] (Child (Some 5) true (Some 5) (lit "one" ++ 9%N :: lit " first " ++ 10%N :: lit "  two " ++ [10; 10]%N)) = [(lit "one", Some (lit "first")); (lit "two", None)].
Proof. vm_compute. reflexivity. Qed.

Print Assumptions C219_offered_partial.
Print Assumptions C219_from_the_file.
Print Assumptions C219_remark_refuted.
Print Assumptions C219_not_seen_refuted.
Print Assumptions C219_elsewhere_refuted.
Print Assumptions C219_quoted_refuted.
Print Assumptions C220_nearest.
Print Assumptions C220_none.
Print Assumptions C221_tasks_partial.
Print Assumptions C221_tasks_refuted.
Print Assumptions C221_justfile_refuted.
Print Assumptions C221_services_partial.
Print Assumptions C221_services_refuted.
Print Assumptions C222_latest.
Print Assumptions C222_any_age_refuted.
Print Assumptions C222_one_at_a_time.
Print Assumptions C222_refreshed.
Print Assumptions C222_not_refreshed.
Print Assumptions C222_until_it_ends.
Print Assumptions C222_first_time_refuted.
Print Assumptions C223_same_repository.
Print Assumptions C223_each_project.
Print Assumptions C224_transfer_partial.
Print Assumptions C224_branches_partial.
Print Assumptions C224_services_partial.
Print Assumptions C224_address_refuted.
Print Assumptions C224_option_refuted.
Print Assumptions C224_unlisted_refuted.
Print Assumptions C224_namespace_partial.
Print Assumptions C224_namespace_refuted.
Print Assumptions C225_bounded_partial.
Print Assumptions C225_held_refuted.
Print Assumptions C225_no_longer.
Print Assumptions C226_external.
Print Assumptions C226_only_described_refuted.
Print Assumptions C226_worktrees.
Print Assumptions C226_described.
