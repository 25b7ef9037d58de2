(** C100: which task is run; C101: the tasks of a Taskfile. *)
From Verif Require Import Base Include_Model Direnv_Model Task_Model Task_Spec.
From Verif Require Direnv_Spec Direnv_Proofs.

(** ** Helpers *)
Lemma split_colon_ok a b : ~ In (chr ":") a -> split_colon (a ++ chr ":" :: b) = Some (a, b).
Proof.
  induction a as [|c a IH]; intros H; [reflexivity|]. cbn [app split_colon].
  destruct (N.eqb_spec c (chr ":")) as [->|Hc]; [exfalso; apply H; now left|].
  rewrite IH by (intros Hi; apply H; now right). reflexivity.
Qed.
Lemma split_colon_none s : ~ In (chr ":") s -> split_colon s = None.
Proof.
  induction s as [|c s IH]; intros H; [reflexivity|]. cbn.
  destruct (N.eqb_spec c (chr ":")) as [->|Hc]; [exfalso; apply H; now left|].
  rewrite IH by (intros Hi; apply H; now right). reflexivity.
Qed.
Lemma split_colon_sound s a b : split_colon s = Some (a, b) -> s = a ++ chr ":" :: b /\ ~ In (chr ":") a.
Proof.
  revert a. induction s as [|c s IH]; intros a; cbn; [discriminate|].
  destruct (N.eqb_spec c (chr ":")) as [->|Hc].
  - intros [= <- <-]. split; [reflexivity|intros []].
  - destruct (split_colon s) as [[x y]|]; [|discriminate]. intros [= <- <-].
    destruct (IH x eq_refl) as [-> Hn]. split; [reflexivity|]. intros [E|Hi]; [congruence|auto].
Qed.
Lemma split_qualified_sound w s n : split_qualified w = Some (s, n) -> w = s ++ chr ":" :: n.
Proof.
  unfold split_qualified. destruct (split_colon w) as [[[|c a] [|d b]]|] eqn:E; try discriminate.
  intros [= E1 E2]. rewrite <- E1, <- E2. exact (proj1 (split_colon_sound _ _ _ E)).
Qed.
Lemma split_qualified_ok s n : s <> [] -> n <> [] -> ~ In (chr ":") s -> split_qualified (s ++ chr ":" :: n) = Some (s, n).
Proof.
  intros Hs Hn Hc. unfold split_qualified. rewrite split_colon_ok by assumption.
  destruct s; [congruence|]. destruct n; [congruence|]. reflexivity.
Qed.
Lemma filtered_in tasks src tgt t :
  In t (filtered tasks src tgt) <-> In t tasks /\ (forall s, src = Some s -> source t = s) /\ (forall n, tgt = Some n -> name t = n).
Proof.
  unfold filtered. rewrite !filter_In.
  assert (E : forall (x : str) o, is_none_or (str_eqb x) o = true <-> forall y, o = Some y -> x = y).
  { intros x [y|]; cbn; [|split; [discriminate|reflexivity]]. rewrite str_eqb_eq. split; [intros -> z [= <-]; reflexivity|intros H; now apply H]. }
  rewrite !E. tauto.
Qed.
Lemma task_eqb_eq a b : task_eqb a b = true <-> a = b.
Proof.
  unfold task_eqb. rewrite !andb_true_iff, !str_eqb_eq. destruct a, b; cbn. split; [intros [[-> ->] ->]; reflexivity|intros [= -> -> ->]; auto].
Qed.
Lemma dedup_spec l : forall seen, NoDup (dedup seen l) /\ forall t, In t (dedup seen l) <-> In t l /\ ~ In t seen.
Proof.
  induction l as [|x l IH]; intros seen; [split; [constructor|intros t; cbn; tauto]|]. cbn [dedup].
  destruct (existsb (task_eqb x) seen) eqn:E.
  - apply existsb_exists in E as (y & Hy & E). apply task_eqb_eq in E. subst y.
    destruct (IH seen) as [N I]. split; [exact N|]. intros t. rewrite I. split; [intros [H1 H2]; split; [now right|exact H2]|].
    intros [[<-|H1] H2]; [contradiction|now split].
  - destruct (IH (x :: seen)) as [N I].
    assert (Hx : ~ In x seen).
    { intros Hi. assert (existsb (task_eqb x) seen = true); [|congruence]. apply existsb_exists. exists x. split; [exact Hi|]. now apply task_eqb_eq. }
    split.
    + constructor; [|exact N]. rewrite I. intros [_ H]. apply H. now left.
    + intros t. cbn [In]. rewrite I. split.
      * intros [<-|[H1 H2]]; [split; [now left|exact Hx]|]. split; [now right|]. intros H. apply H2. now right.
      * intros [[<-|H1] H2]; [now left|]. destruct (task_eqb x t) eqn:Et; [apply task_eqb_eq in Et; now left|].
        right. split; [exact H1|]. intros [<-|H3]; [|contradiction]. now rewrite (proj2 (task_eqb_eq x x) eq_refl) in Et.
Qed.
Lemma single_filter tasks src tgt t : NoDup tasks -> In t (filtered tasks src tgt) ->
  (forall u, In u (filtered tasks src tgt) -> u = t) -> filtered tasks src tgt = [t].
Proof.
  intros Hn Hi Hu. assert (N : NoDup (filtered tasks src tgt)) by (unfold filtered; now apply NoDup_filter, NoDup_filter).
  destruct (filtered tasks src tgt) as [|x [|y l]]; [destruct Hi| |].
  - f_equal. apply Hu. now left.
  - exfalso. assert (x = t) by (apply Hu; now left). assert (y = t) by (apply Hu; right; now left). subst.
    inversion N as [|? ? H _]. apply H. now left.
Qed.
Lemma chosen_word tasks w : plain_word w ->
  chosen tasks [w] = match select tasks None w with Selected t => Some t | _ => None end.
Proof.
  intros (Hd & Hl & Hh). unfold chosen. cbn [parse_options].
  assert (D : forall r, w <> chr "-" :: r) by (intros r ->; discriminate Hd).
  assert (M1 : mem_str w (map lit ["-h"; "--help"; "help"]%string) = false).
  { apply mem_str_false. cbn [map In]. intros [E|[E|[E|[]]]]; symmetry in E; first [contradiction|exact (D _ E)]. }
  assert (M2 : mem_str w (map lit ["-l"; "--list"; "list"; "--json"]%string) = false).
  { apply mem_str_false. cbn [map In]. intros [E|[E|[E|[E|[]]]]]; symmetry in E; first [contradiction|exact (D _ E)]. }
  assert (M3 : mem_str w (map lit ["-s"; "--source"]%string) = false).
  { apply mem_str_false. cbn [map In]. intros [E|[E|[]]]; symmetry in E; exact (D _ E). }
  rewrite M1, M2, M3, Hd. cbn. reflexivity.
Qed.

(** * C100 *)
(** What is run is what the word means, as a name or as source and name, and it is the
    only task the word means: there is no guessing. *)
Theorem C100_chosen_is_the_only_match : forall tasks w t, chosen tasks [w] = Some t ->
  exists r, written r = w /\ unique tasks r t.
Proof.
  intros tasks w t H.
  assert (S : select tasks None w = Selected t).
  { revert H. unfold chosen. cbn [parse_options].
    destruct (mem_str w _); [intros H; discriminate H|]. destruct (mem_str w _); [intros H; discriminate H|].
    destruct (mem_str w _); [intros H; discriminate H|]. destruct (starts_with _ w); [intros H; discriminate H|].
    cbn. destruct (select tasks None w); [now intros [= ->]|discriminate|discriminate]. }
  revert S. unfold select, split_known.
  destruct (split_qualified w) as [[s n]|] eqn:Q; [destruct (existsb _ tasks)|].
  - destruct (filtered tasks (Some s) (Some n)) as [|x [|y l]] eqn:F; try discriminate. intros [= ->].
    exists (ByBoth s n). split; [symmetry; now apply split_qualified_sound|].
    assert (I := filtered_in tasks (Some s) (Some n)). rewrite F in I.
    assert (It : In t [t]) by now left. apply I in It as (H1 & H2 & H3).
    split; [exact H1|]. split; [split; [now apply H2|now apply H3]|].
    intros u Hu [U1 U2]. assert (Iu : In u [t]).
    { apply I. split; [exact Hu|]. split; [intros s' [= <-]; exact U1|intros n' [= <-]; exact U2]. }
    destruct Iu as [->|[]]; reflexivity.
  - destruct (filtered tasks None (Some w)) as [|x [|y l]] eqn:F; try discriminate. intros [= ->].
    exists (ByName w). split; [reflexivity|].
    assert (I := filtered_in tasks None (Some w)). rewrite F in I.
    assert (It : In t [t]) by now left. apply I in It as (H1 & _ & H3).
    split; [exact H1|]. split; [now apply H3|].
    intros u Hu U. assert (Iu : In u [t]). { apply I. split; [exact Hu|]. split; [discriminate|intros n' [= <-]; exact U]. }
    destruct Iu as [->|[]]; reflexivity.
  - destruct (filtered tasks None (Some w)) as [|x [|y l]] eqn:F; try discriminate. intros [= ->].
    exists (ByName w). split; [reflexivity|].
    assert (I := filtered_in tasks None (Some w)). rewrite F in I.
    assert (It : In t [t]) by now left. apply I in It as (H1 & _ & H3).
    split; [exact H1|]. split; [now apply H3|].
    intros u Hu U. assert (Iu : In u [t]). { apply I. split; [exact Hu|]. split; [discriminate|intros n' [= <-]; exact U]. }
    destruct Iu as [->|[]]; reflexivity.
Qed.
Print Assumptions C100_chosen_is_the_only_match.

(** Every detected task can be run by source and name, if these two determine the
    command and the source has no colon. *)
Theorem C100_qualified_names_partial : forall detected t,
  let tasks := dedup [] detected in
  In t detected -> (forall u, In u detected -> source u = source t -> name u = name t -> u = t) ->
  source t <> [] -> ~ In (chr ":") (source t) -> name t <> [] -> plain_word (written (ByBoth (source t) (name t))) ->
  chosen tasks [written (ByBoth (source t) (name t))] = Some t.
Proof.
  intros detected t tasks Hi Hu Hs Hc Hn Hw. rewrite chosen_word by exact Hw.
  destruct (dedup_spec detected []) as [N I]. fold tasks in N, I.
  unfold select, split_known. cbn [written]. rewrite split_qualified_ok by assumption.
  assert (Ht : In t tasks) by (apply I; split; [exact Hi|intros []]).
  assert (E : existsb (fun u => str_eqb (source u) (source t)) tasks = true).
  { apply existsb_exists. exists t. split; [exact Ht|]. apply str_eqb_refl. }
  rewrite E, (single_filter tasks _ _ t N); [reflexivity| |].
  - apply filtered_in. split; [exact Ht|]. split; [now intros s [= <-]|now intros n [= <-]].
  - intros u Hin. apply filtered_in in Hin as (H1 & H2 & H3). apply Hu; [now apply I|now apply H2|now apply H3].
Qed.
Print Assumptions C100_qualified_names_partial.

(** A task whose name no other task has can be run by its name, unless the name has a
    colon after the name of a source. *)
Theorem C100_plain_names_partial : forall detected t,
  let tasks := dedup [] detected in
  unique detected (ByName (name t)) t -> plain_word (name t) ->
  (forall u r, In u detected -> name t <> source u ++ chr ":" :: r) ->
  chosen tasks [name t] = Some t.
Proof.
  intros detected t tasks (Hi & _ & Hu) Hw Hc. rewrite chosen_word by exact Hw.
  destruct (dedup_spec detected []) as [N I]. fold tasks in N, I.
  assert (Ht : In t tasks) by (apply I; split; [exact Hi|intros []]).
  assert (E : split_known tasks None (name t) = (None, name t)).
  { unfold split_known. destruct (split_qualified (name t)) as [[s n]|] eqn:Q; [|reflexivity].
    destruct (existsb _ tasks) eqn:X; [|reflexivity]. exfalso. apply existsb_exists in X as (u & Hin & X).
    apply str_eqb_eq in X. apply split_qualified_sound in Q. apply (Hc u n); [now apply I|]. now rewrite X. }
  unfold select. rewrite E, (single_filter tasks _ _ t N); [reflexivity| |].
  - apply filtered_in. split; [exact Ht|]. split; [discriminate|now intros n [= <-]].
  - intros u Hin. apply filtered_in in Hin as (H1 & _ & H3). apply Hu; [now apply I|]. now apply H3.
Qed.
Print Assumptions C100_plain_names_partial.

(** A task whose name is the name of a source, a colon and the name of a task of that
    source, is not run by its name: the other task is. *)
Theorem C100_colon_names_refuted : forall detected t u,
  let tasks := dedup [] detected in
  unique detected (ByName (name t)) t -> In u detected -> u <> t ->
  (forall x, In x detected -> source x = source u -> name x = name u -> x = u) ->
  source u <> [] -> ~ In (chr ":") (source u) -> name u <> [] -> plain_word (name t) ->
  name t = source u ++ chr ":" :: name u ->
  chosen tasks [name t] = Some u.
Proof.
  intros detected t u tasks _ Hin _ Hu Hs Hc Hn Hw E. rewrite E in *.
  apply (C100_qualified_names_partial detected u Hin Hu Hs Hc Hn Hw).
Qed.
Print Assumptions C100_colon_names_refuted.

(** A task named list or help, or with a dash first, is not run by its name. *)
Theorem C100_words_refuted : forall tasks w, ~ plain_word w -> chosen tasks [w] = None.
Proof.
  intros tasks w H. unfold chosen. cbn [parse_options].
  destruct (mem_str w (map lit ["-h"; "--help"; "help"]%string)) eqn:M1; [reflexivity|].
  destruct (mem_str w (map lit ["-l"; "--list"; "list"; "--json"]%string)) eqn:M2; [reflexivity|].
  destruct (mem_str w (map lit ["-s"; "--source"]%string)); [reflexivity|]. destruct (starts_with (lit "-") w) eqn:D; [reflexivity|].
  exfalso. apply H. split; [exact D|]. apply mem_str_false in M1, M2. split; intros ->.
  - apply M2. cbn. tauto.
  - apply M1. cbn. tauto.
Qed.
Print Assumptions C100_words_refuted.

Definition some_tasks : list task :=
  [Task (lit "npm") (lit "build") (lit "npm run build"); Task (lit "npm") (lit "make:all") (lit "npm run make:all");
   Task (lit "make") (lit "all") (lit "make all"); Task (lit "make") (lit "build") (lit "make build"); Task (lit "make") (lit "list") (lit "make list")].
Example C100_example :
  map (fun w => option_map command (chosen (dedup [] (some_tasks ++ some_tasks)) [w])) (map lit ["build"; "npm:build"; "all"; "npm:make:all"; "make:all"; "list"; "make:list"]%string)
  = [None; Some (lit "npm run build"); Some (lit "make all"); Some (lit "npm run make:all"); Some (lit "make all"); None; Some (lit "make list")].
Proof. vm_compute. reflexivity. Qed.

(** * C101 *)
Lemma trim_start_incl s c : In c (trim_start s) -> In c s.
Proof. induction s as [|x s IH]; [intros []|]. cbn. destruct (is_whitespace x); [intros H; right; auto|auto]. Qed.
Lemma trim_incl s c : In c (trim s) -> In c s.
Proof.
  unfold trim, trim_end. intros H. apply in_rev in H. apply trim_start_incl in H. apply in_rev in H. now apply trim_start_incl.
Qed.
Lemma trim_start_app a x b : is_whitespace x = false -> trim_start (a ++ x :: b) = trim_start (a ++ [x]) ++ b.
Proof.
  intros H. induction a as [|c a IH]; cbn; [now rewrite H|]. destruct (is_whitespace c); [exact IH|]. cbn. now rewrite <- app_assoc.
Qed.
Lemma trim_end_keeps a x b : is_whitespace x = false -> trim_end (a ++ x :: b) = a ++ x :: trim_end b.
Proof.
  intros H. unfold trim_end. rewrite rev_app_distr. cbn [rev]. rewrite <- app_assoc. cbn [app].
  induction (rev b) as [|c r IH].
  - cbn. rewrite H. cbn. now rewrite rev_involutive.
  - cbn. destruct (is_whitespace c); [exact IH|]. cbn [rev]. rewrite !rev_app_distr. cbn. rewrite rev_involutive, <- !app_assoc. reflexivity.
Qed.
Lemma simple_trimmed w : simple w -> trim w = w.
Proof.
  intros [H0 H]. apply Direnv_Proofs.trim_id. split.
  - destruct w as [|c w]; [exact I|]. apply H. now left.
  - destruct (rev w) as [|c r] eqn:E; [exact I|]. apply H. rewrite in_rev, E. now left.
Qed.
Lemma spaces_trim n s : trim_start (repeat 32%N n ++ s) = trim_start s.
Proof. induction n as [|n IH]; [reflexivity|exact IH]. Qed.
(** an indented line with a key *)
Lemma key_line_trim n k v : simple k -> trim (repeat 32%N n ++ k ++ chr ":" :: v) = k ++ chr ":" :: trim_end v.
Proof.
  intros [H0 H]. unfold trim. rewrite spaces_trim.
  assert (E : trim_start (k ++ chr ":" :: v) = k ++ chr ":" :: v).
  { destruct k as [|c k]; [destruct H0|]. cbn. now rewrite (proj1 (H c (or_introl eq_refl))). }
  rewrite E. now apply trim_end_keeps.
Qed.
Definition shown (k : str) : list str := if mem_str k skipped_names then [] else [k].
Lemma scan_key n k v r : 2 <= n -> simple k ->
  scan true ((repeat 32%N n ++ k ++ chr ":" :: v) :: r) = shown k ++ scan true r.
Proof.
  intros Hn Hk. cbn [scan]. rewrite key_line_trim by assumption.
  destruct n as [|[|n]]; [lia|lia|]. cbn [repeat app].
  destruct Hk as [H0 H]. destruct k as [|c k]; [destruct H0|]. destruct H0 as [H1 H2].
  change ((c :: k) ++ chr ":" :: trim_end v) with (c :: k ++ chr ":" :: trim_end v). cbv iota beta.
  destruct (N.eqb_spec c (chr "#")) as [E|_]; [contradiction|].
  change (negb true) with false. cbv iota.
  change (starts_with (lit " ") (32%N :: 32%N :: repeat 32%N n ++ (c :: k) ++ chr ":" :: v)) with true.
  change (starts_with (lit "  ") (32%N :: 32%N :: repeat 32%N n ++ (c :: k) ++ chr ":" :: v)) with true.
  cbn [negb andb].
  assert (Hc : ~ In (chr ":") (c :: k)) by (intros Hi; apply (proj2 (H _ Hi)); reflexivity).
  change (c :: k ++ chr ":" :: trim_end v) with ((c :: k) ++ chr ":" :: trim_end v).
  rewrite split_colon_ok by exact Hc.
  rewrite simple_trimmed by (split; [split; assumption|exact H]).
  cbv beta iota zeta. destruct (N.eqb_spec c (chr "{")) as [E|_]; [contradiction|]. cbn [orb]. unfold shown.
  destruct (mem_str (c :: k) skipped_names); reflexivity.
Qed.
Lemma scan_item s r : ~ In (chr ":") s -> scan true ((lit "      - " ++ s) :: r) = scan true r.
Proof.
  intros Hs. cbn [scan].
  assert (E : trim (lit "      - " ++ s) = chr "-" :: trim_end (chr " " :: s)).
  { unfold trim. change (trim_start (lit "      - " ++ s)) with ([] ++ chr "-" :: chr " " :: s). now rewrite trim_end_keeps. }
  rewrite E. change ((chr "-" =? chr "#")%N) with false. cbv iota.
  change (starts_with (lit " ") (lit "      - " ++ s)) with true. cbn [negb andb].
  rewrite split_colon_none; [reflexivity|].
  rewrite <- E. intros Hi. apply trim_incl in Hi. apply in_app_iff in Hi. destruct Hi as [Hi|Hi]; [|auto].
  revert Hi. vm_compute. intuition discriminate.
Qed.

Definition fine_body (b : body_line) : Prop :=
  match b with
  | Key k v => simple k /\ line_text v
  | Item s => line_text s /\ ~ In (chr ":") s
  end.
Definition body_names (b : body_line) : list str := match b with Key k _ => shown k | Item _ => [] end.
Lemma strip_cr_id (l : str) : ~ In 13%N l -> strip_cr l = l.
Proof.
  intros H. apply Direnv_Proofs.strip_cr_id. destruct (rev l) as [|c r] eqn:E; [exact I|].
  intros ->. apply H. apply (in_rev (A := N) l 13%N). exact (eq_ind_r (fun x => In 13%N x) (in_eq 13%N r) E).
Qed.
Lemma simple_line k : simple k -> ~ In 10%N k /\ ~ In 13%N k.
Proof. intros [_ H]. split; intros Hi; destruct (H _ Hi) as [E _]; discriminate E. Qed.
Lemma not_in_line (a b : str) c : ~ In c a -> ~ In c b -> ~ In c (a ++ b).
Proof. rewrite in_app_iff. tauto. Qed.
Lemma lit_free s c : In c (lit s) -> existsb (N.eqb c) (lit s) = true.
Proof. intros H. apply existsb_exists. exists c. split; [exact H|apply N.eqb_refl]. Qed.
Ltac no_char := let H := fresh in intros H; apply lit_free in H; vm_compute in H; discriminate H.

Lemma body_scan b rest : fine_body b ->
  scan true (lines (body_text b ++ rest)) = body_names b ++ scan true (lines rest).
Proof.
  destruct b as [k v|s]; cbn [fine_body body_text body_names].
  - intros [Hk [Hv1 Hv2]]. destruct (simple_line k Hk) as [Hk1 Hk2].
    replace ((lit "    " ++ k ++ lit ":" ++ v ++ nl) ++ rest) with ((lit "    " ++ k ++ lit ":" ++ v) ++ 10%N :: rest)
      by (unfold nl; rewrite <- !app_assoc; reflexivity).
    rewrite Direnv_Proofs.lines_nl, strip_cr_id.
    + change (lit "    " ++ k ++ lit ":" ++ v) with (repeat 32%N 4 ++ k ++ chr ":" :: v). now rewrite scan_key by (lia || assumption).
    + apply not_in_line; [no_char|]. apply not_in_line; [exact Hk2|]. apply not_in_line; [no_char|exact Hv2].
    + apply not_in_line; [no_char|]. apply not_in_line; [exact Hk1|]. apply not_in_line; [no_char|exact Hv1].
  - intros [[Hs1 Hs2] Hc].
    replace ((lit "      - " ++ s ++ nl) ++ rest) with ((lit "      - " ++ s) ++ 10%N :: rest)
      by (unfold nl; rewrite <- !app_assoc; reflexivity).
    rewrite Direnv_Proofs.lines_nl, strip_cr_id.
    + now rewrite scan_item.
    + apply not_in_line; [no_char|exact Hs2].
    + apply not_in_line; [no_char|exact Hs1].
Qed.
Lemma bodies_scan bs rest : Forall fine_body bs ->
  scan true (lines (flat_map body_text bs ++ rest)) = flat_map body_names bs ++ scan true (lines rest).
Proof.
  induction bs as [|b bs IH]; intros H; [reflexivity|]. inversion H; subst. cbn [flat_map].
  rewrite <- app_assoc, body_scan by assumption. rewrite IH by assumption. now rewrite app_assoc.
Qed.
Lemma entries_scan es : Forall (fun e => simple (entry_name e) /\ Forall fine_body (body e)) es ->
  scan true (lines (flat_map entry_text es)) = flat_map (fun e => shown (entry_name e) ++ flat_map body_names (body e)) es.
Proof.
  induction es as [|e es IH]; intros H; [reflexivity|]. inversion H as [|? ? [Hk Hb] He]; subst. cbn [flat_map].
  destruct (simple_line _ Hk) as [Hk1 Hk2].
  replace (entry_text e ++ flat_map entry_text es) with ((lit "  " ++ entry_name e ++ lit ":") ++ 10%N :: flat_map body_text (body e) ++ flat_map entry_text es)
    by (unfold entry_text, nl; rewrite <- !app_assoc; reflexivity).
  rewrite Direnv_Proofs.lines_nl, strip_cr_id.
  - change (lit "  " ++ entry_name e ++ lit ":") with (repeat 32%N 2 ++ entry_name e ++ chr ":" :: []).
    rewrite scan_key by (lia || assumption). rewrite bodies_scan, IH by assumption. now rewrite <- app_assoc.
  - apply not_in_line; [no_char|]. apply not_in_line; [exact Hk2|no_char].
  - apply not_in_line; [no_char|]. apply not_in_line; [exact Hk1|no_char].
Qed.
Lemma names_exact es : Forall (fun e => simple (entry_name e) /\ Forall fine_body (body e)) es ->
  taskfile_names (taskfile es) = flat_map (fun e => shown (entry_name e) ++ flat_map body_names (body e)) es.
Proof.
  intros H. unfold taskfile_names, taskfile.
  change (lit "version: '3'" ++ nl ++ lit "tasks:" ++ nl ++ flat_map entry_text es)
    with (lit "version: '3'" ++ 10%N :: lit "tasks:" ++ 10%N :: flat_map entry_text es).
  rewrite Direnv_Proofs.lines_nl by no_char. rewrite Direnv_Proofs.lines_nl by no_char.
  rewrite !strip_cr_id by no_char. rewrite <- entries_scan by exact H. reflexivity.
Qed.

(** the keys the scanner knows *)
Definition known_key (k : str) : Prop := In k (map lit ["desc"; "cmd"; "cmds"; "deps"; "vars"; "env"]%string).

(** The tasks listed are those of the file, in order, when their bodies have no keys but
    desc, cmd, cmds, deps, vars and env, no list item with a colon, and no task is named
    like one of these keys. *)
Theorem C101_tasks_listed_partial : forall es,
  Forall (fun e => simple (entry_name e) /\ ~ known_key (entry_name e) /\
                   Forall (fun b => match b with Key k v => known_key k /\ line_text v | Item s => line_text s /\ ~ In (chr ":") s end) (body e)) es ->
  taskfile_names (taskfile es) = map entry_name es.
Proof.
  intros es H. rewrite names_exact.
  - induction H as [|e es (Hs & Hk & Hb) _ IH]; [reflexivity|]. cbn [flat_map map]. rewrite IH.
    unfold shown at 1. replace (mem_str (entry_name e) skipped_names) with false by (symmetry; now apply mem_str_false).
    assert (E : flat_map body_names (body e) = []).
    { clear -Hb. induction Hb as [|b bs Hb _ IH]; [reflexivity|]. cbn [flat_map]. rewrite IH, app_nil_r.
      destruct b as [k v|s]; [|reflexivity]. cbn. unfold shown.
      replace (mem_str k skipped_names) with true by (symmetry; apply mem_str_iff; exact (proj1 Hb)). reflexivity. }
    rewrite E. reflexivity.
  - revert H. apply Forall_impl. intros e (Hs & _ & Hb). split; [exact Hs|]. revert Hb. apply Forall_impl.
    intros [k v|s]; [|exact (fun x => x)]. intros [Hk Hv]. split; [|exact Hv].
    assert (D : forall w, existsb (str_eqb w) skipped_names = true -> forallb (fun c => negb (is_whitespace c) && negb (c =? chr ":")%N) w = true /\ match w with c :: _ => c <> chr "#" /\ c <> chr "{" | [] => False end).
    { intros w Hw. apply existsb_exists in Hw as (x & Hx & Ex). apply str_eqb_eq in Ex. subst x.
      cbn in Hx. repeat (destruct Hx as [<-|Hx]; [split; [reflexivity|split; discriminate]|]). destruct Hx. }
    destruct (D k) as [D1 D2]; [apply mem_str_iff; exact Hk|]. split; [exact D2|].
    intros c Hc. rewrite forallb_forall in D1. specialize (D1 c Hc). apply andb_true_iff in D1 as [D1 D3].
    split; [now destruct (is_whitespace c)|]. intros ->. discriminate D3.
Qed.
Print Assumptions C101_tasks_listed_partial.

(** Any other key of a task is listed as a task. *)
Theorem C101_other_keys_refuted : forall es e k v,
  Forall (fun e => simple (entry_name e) /\ Forall fine_body (body e)) es ->
  In e es -> In (Key k v) (body e) -> ~ known_key k -> In k (taskfile_names (taskfile es)).
Proof.
  intros es e k v H He Hk Hn. rewrite names_exact by exact H. apply in_flat_map. exists e. split; [exact He|].
  apply in_or_app. right. apply in_flat_map. exists (Key k v). split; [exact Hk|]. cbn. unfold shown.
  replace (mem_str k skipped_names) with false by (symmetry; now apply mem_str_false). now left.
Qed.
Print Assumptions C101_other_keys_refuted.

(** A task with the name of one of the known keys is never listed. *)
Theorem C101_named_like_keys_refuted : forall es k,
  Forall (fun e => simple (entry_name e) /\ Forall fine_body (body e)) es ->
  known_key k -> ~ In k (taskfile_names (taskfile es)).
Proof.
  intros es k H Hk Hi. rewrite names_exact in Hi by exact H. apply in_flat_map in Hi as (e & _ & Hi).
  assert (E : forall w, In k (shown w) -> False).
  { intros w. unfold shown. destruct (mem_str w skipped_names) eqn:M; [intros []|]. intros [->|[]].
    apply mem_str_false in M. exact (M Hk). }
  apply in_app_iff in Hi as [Hi|Hi]; [exact (E _ Hi)|]. apply in_flat_map in Hi as ([w v|s] & _ & Hi); [exact (E _ Hi)|destruct Hi].
Qed.
Print Assumptions C101_named_like_keys_refuted.

Example C101_example :
  taskfile_names (taskfile [Entry (lit "build") [Key (lit "desc") (lit " make it"); Key (lit "cmds") []; Item (lit "go build")]; Entry (lit "test") [Key (lit "deps") (lit " [build]")]])
  = [lit "build"; lit "test"]
  /\ taskfile_names (taskfile [Entry (lit "build") [Key (lit "silent") (lit " true"); Key (lit "cmds") []; Item (lit "echo a: b")]; Entry (lit "env") []])
  = [lit "build"; lit "silent"; lit "- echo a"].
Proof. split; vm_compute; reflexivity. Qed.
