(** pm activate: C143. *)
From Verif Require Import Base Offer_Spec Output_Model Env_Model Env_Spec Env_Props Fs_Model Fs_Proofs Direnv_Model Direnv_Proofs Project_Model Project_Spec Project_Props.
From Verif Require Import Output_Spec Output_Props.
From Verif Require Offer_Model Offer_Props Direnv_Spec.

(** ** reading the two files *)
Lemma key_iff k : is_valid_env_key k = true <-> variable_name k.
Proof.
  unfold is_valid_env_key, variable_name, ascii_alpha, ascii_digit, letter, digit. destruct k as [|c r]; [split; [discriminate|intros (? & ? & E & _); discriminate E]|].
  rewrite andb_true_iff, forallb_forall, !orb_true_iff, !andb_true_iff, N.eqb_eq, !N.leb_le. split.
  - intros [A B]. exists c, r. split; [reflexivity|]. split; [lia|]. intros d D. specialize (B d D). rewrite !orb_true_iff, !andb_true_iff, N.eqb_eq, !N.leb_le in B. lia.
  - intros (c' & r' & E & A & B). injection E as <- <-. split; [lia|]. intros d D. specialize (B d D). rewrite !orb_true_iff, !andb_true_iff, N.eqb_eq, !N.leb_le. lia.
Qed.
Lemma strip_quotes_iff q r : Offer_Spec.unquoted q r <-> strip_quotes q = r.
Proof.
  assert (K : forall u, quoted_pair q u -> strip_quotes q = u).
  { intros u (d & D & ->). apply strip_quotes_q. exact D. }
  assert (J : (forall u, ~ quoted_pair q u) -> strip_quotes q = q).
  { intros H. unfold strip_quotes. destruct q as [|c s]; [reflexivity|]. destruct ((c =? chr """")%N || (c =? chr "'")%N) eqn:C; [|reflexivity].
    destruct (rev s) as [|d m] eqn:R; [reflexivity|]. destruct (N.eqb_spec d c) as [->|]; [|reflexivity]. exfalso. apply (H (rev m)). exists c. split.
    - rewrite orb_true_iff, !N.eqb_eq in C. exact C.
    - f_equal. rewrite <- (rev_involutive s), R. reflexivity. }
  split.
  - intros [H|[H ->]]; [exact (K r H)|exact (J H)].
  - intros <-. assert (D : (exists u, quoted_pair q u) \/ forall u, ~ quoted_pair q u).
    { unfold quoted_pair. destruct q as [|c s]; [right; intros u (d & _ & E); discriminate E|]. destruct s as [|y s] using rev_ind.
      - right. intros u (d & _ & E). apply (f_equal (@length char)) in E. cbn in E. rewrite app_length in E. cbn in E. lia.
      - clear IHs. destruct (N.eq_dec y c) as [->|NE].
        + destruct (N.eq_dec c 34%N) as [->|A]; [left; exists s, 34%N; auto|]. destruct (N.eq_dec c 39%N) as [->|B]; [left; exists s, 39%N; auto|].
          right. intros u (d & D & E). injection E as -> _. tauto.
        + right. intros u (d & D & E). injection E as -> E. apply app_inj_tail in E as [_ E]. congruence. }
    destruct D as [(u & U)|D]; [left; rewrite (K u U); exact U|right; split; [exact D|exact (J D)]].
Qed.
Lemma trim_trim s : trim (trim s) = trim s.
Proof.
  apply Offer_Props.trim_iff. pose proof (proj2 (Offer_Props.trim_iff s (trim s)) eq_refl) as (l & r & _ & _ & _ & A & B).
  exists [], []. rewrite app_nil_r. split; [reflexivity|]. split; [intros ? []|]. split; [intros ? []|]. split; [exact A|exact B].
Qed.
Lemma splitn2_iff c s a b : splitn2 c s = (a, Some b) <-> s = a ++ c :: b /\ ~ In c a.
Proof.
  split; [|intros [-> H]; apply splitn2_at, H]. revert a b. induction s as [|x s IH]; intros a b; cbn [splitn2]; [discriminate|].
  destruct (N.eqb_spec x c) as [->|D]; [intros E; injection E as <- <-; split; [reflexivity|intros []]|].
  destruct (splitn2 c s) as [a' [b'|]]; intros E; [|discriminate E]. injection E as <- <-. destruct (IH a' b' eq_refl) as [-> H].
  split; [reflexivity|]. intros [X|X]; [congruence|exact (H X)].
Qed.
Lemma assignment_iff a k v : parse_assignment a = Some (k, v) <-> says a k v.
Proof.
  unfold parse_assignment, says, unquote. split.
  - destruct (splitn2 (chr "=") a) as [l [r|]] eqn:E; [|discriminate]. apply splitn2_iff in E as [-> N]. destruct (is_valid_env_key (trim l)) eqn:K; [|discriminate].
    intros H. injection H as <- <-. exists l, r, (trim r). split; [reflexivity|]. split; [exact N|]. split; [apply Offer_Props.trim_iff; reflexivity|].
    split; [apply key_iff, K|]. split; [apply Offer_Props.trim_iff; reflexivity|]. apply strip_quotes_iff. rewrite trim_trim. reflexivity.
  - intros (l & r & w & E & N & K & V & W & Q). rewrite (proj2 (splitn2_iff (chr "=") a l r) (conj E N)). apply Offer_Props.trim_iff in K, W. subst.
    rewrite (proj2 (key_iff (trim l)) V), trim_trim. apply strip_quotes_iff in Q. rewrite Q. reflexivity.
Qed.
Lemma comment_iff t : comment t = false <-> t <> [] /\ forall u, t <> 35%N :: u.
Proof.
  destruct t as [|c u]; cbn [comment]; [split; [discriminate|intros [H _]; congruence]|]. rewrite N.eqb_neq. split.
  - intros H. split; [discriminate|]. intros x E. injection E as -> _. congruence.
  - intros [_ H] ->. exact (H u eq_refl).
Qed.

(** C143: what a line of .env says *)
Theorem C143_dotenv_line : forall l k v, parse_assignment_line l = Some (k, v) <-> dotenv_says l k v.
Proof.
  intros l k v. unfold parse_assignment_line, dotenv_says. split.
  - destruct (comment (trim l)) eqn:C; [discriminate|]. apply comment_iff in C as [C1 C2]. intros H. exists (trim l). split; [apply Offer_Props.trim_iff; reflexivity|].
    split; [exact C1|]. split; [exact C2|]. destruct (starts_with (lit "export ") (trim l)) eqn:S.
    + apply starts_with_iff in S as (a & S). rewrite S in H |- *. left. exists a, (trim a). split; [reflexivity|]. split; [apply Offer_Props.trim_iff; reflexivity|].
      apply assignment_iff. exact H.
    + rewrite trim_trim in H. right. split; [|apply assignment_iff, H]. intros a E. assert (starts_with (lit "export ") (trim l) = true) by (apply starts_with_iff; exists a; exact E). congruence.
  - intros (t & T & C1 & C2 & H). apply Offer_Props.trim_iff in T. rewrite T. rewrite (proj2 (comment_iff t) (conj C1 C2)). destruct H as [(a & b & E & B & A)|[N A]].
    + rewrite (proj2 (starts_with_iff (lit "export ") t) (ex_intro _ a E)), E. apply Offer_Props.trim_iff in B. apply assignment_iff in A. rewrite <- B in A. exact A.
    + destruct (starts_with (lit "export ") t) eqn:S; [apply starts_with_iff in S as (a & S); destruct (N a S)|]. rewrite <- T, trim_trim, T. apply assignment_iff, A.
Qed.
Print Assumptions C143_dotenv_line.

Lemma split_space_iff t w r : split_space t = (w, r) <->
  (forall c, In c w -> is_whitespace c = false) /\ ((t = w /\ r = []) \/ exists c, t = w ++ c :: r /\ is_whitespace c = true).
Proof.
  split.
  - revert w r. induction t as [|x t IH]; intros w r; cbn [split_space]; [intros E; injection E as <- <-; split; [intros ? []|left; auto]|].
    destruct (is_whitespace x) eqn:W.
    + intros E. injection E as <- <-. split; [intros ? []|]. right. exists x. auto.
    + destruct (split_space t) as [a b]. intros E. injection E as <- <-. destruct (IH a b eq_refl) as [A B]. split; [intros c [<-|C]; [exact W|exact (A c C)]|].
      destruct B as [[-> ->]|(c & -> & C)]; [left; auto|right; exists c; auto].
  - intros [A B]. revert t B. induction w as [|x w IH]; intros t B.
    + destruct B as [[-> ->]|(c & -> & C)]; [reflexivity|]. cbn. rewrite C. reflexivity.
    + assert (X : is_whitespace x = false) by (apply A; left; reflexivity). specialize (IH (fun c C => A c (or_intror C))).
      destruct B as [[-> ->]|(c & -> & C)]; cbn [app split_space]; rewrite X.
      * rewrite (IH w (or_introl (conj eq_refl eq_refl))). reflexivity.
      * rewrite (IH (w ++ c :: r)); [reflexivity|]. right. exists c. auto.
Qed.
Lemma first_word_iff t w r : first_word t w r <-> exists u, split_space t = (w, u) /\ trim u = r.
Proof.
  unfold first_word. split.
  - intros [A [[-> ->]|(c & u & -> & C & T)]].
    + exists []. split; [apply split_space_iff; auto|reflexivity].
    + exists u. split; [apply split_space_iff; split; [exact A|right; exists c; auto]|apply Offer_Props.trim_iff, T].
  - intros (u & E & <-). apply split_space_iff in E as [A [[-> ->]|(c & -> & C)]]; (split; [exact A|]); [left; auto|]. right. exists c, u.
    split; [reflexivity|]. split; [exact C|apply Offer_Props.trim_iff; reflexivity].
Qed.
Lemma any_case_iff w x : any_case w x <-> lower_ascii w = x.
Proof.
  unfold any_case, lower_ascii. split.
  - intros H. induction H as [|c d w x H _ IH]; [reflexivity|]. cbn [map]. rewrite IH. f_equal.
    destruct (N.leb_spec 65 c), (N.leb_spec c 90); cbn [andb]; lia.
  - intros <-. induction w as [|c w IH]; [constructor|]. cbn [map]. constructor; [|exact IH]. destruct (N.leb_spec 65 c), (N.leb_spec c 90); cbn [andb]; lia.
Qed.
Lemma word_trim w : (forall c, In c w -> is_whitespace c = false) -> trim w = w.
Proof.
  intros H. apply Offer_Props.trim_iff. exists [], []. rewrite app_nil_r. split; [reflexivity|]. split; [intros ? []|]. split; [intros ? []|].
  split; intros c u ->; apply H; [left; reflexivity|apply in_or_app; right; left; reflexivity].
Qed.
Lemma command_line_iff l x r : command_line l x r <->
  comment (trim l) = false /\ exists w u, split_space (trim l) = (w, u) /\ lower_ascii (trim w) = x /\ trim u = r.
Proof.
  unfold command_line. split.
  - intros (t & w & T & C1 & C2 & F & A). apply Offer_Props.trim_iff in T. subst t. split; [apply comment_iff; auto|]. pose proof (proj1 F) as P.
    apply first_word_iff in F as (u & E & R). exists w, u. split; [exact E|]. rewrite (word_trim w P). split; [apply any_case_iff, A|exact R].
  - intros [C (w & u & E & A & R)]. apply comment_iff in C as [C1 C2]. exists (trim l), w. split; [apply Offer_Props.trim_iff; reflexivity|]. split; [exact C1|]. split; [exact C2|].
    pose proof (proj2 (first_word_iff (trim l) w r) (ex_intro _ u (conj E R))) as F. split; [exact F|]. rewrite (word_trim w (proj1 F)) in A. apply any_case_iff, A.
Qed.
(** C143: what a line of .envrc says *)
Theorem C143_envrc_line : forall l,
  (forall k v, envrc_line l = Some (Var k v) <-> envrc_says l k v) /\ (forall d, envrc_line l = Some (Dir d) <-> envrc_adds l d).
Proof.
  intros l. unfold envrc_line, envrc_says, envrc_adds. split; [intros k v|intros d]; split.
  - destruct (comment (trim l)) eqn:C; [discriminate|]. destruct (split_space (trim l)) as [w u] eqn:E. destruct (str_eqb_spec (lower_ascii (trim w)) (lit "export")) as [X|X].
    + destruct (parse_assignment (trim u)) as [[k' v']|] eqn:P; [|discriminate]. intros H. injection H as -> ->. exists (trim u).
      split; [apply command_line_iff; split; [exact C|exists w, u; auto]|apply assignment_iff, P].
    + destruct (str_eqb (lower_ascii (trim w)) (lit "path_add")); [|discriminate]. destruct (unquote (trim u)); discriminate.
  - intros (r & L & S). apply command_line_iff in L as (C & w & u & E & X & R). rewrite C, E, X, str_eqb_refl, R. apply assignment_iff in S. rewrite S. reflexivity.
  - destruct (comment (trim l)) eqn:C; [discriminate|]. destruct (split_space (trim l)) as [w u] eqn:E. destruct (str_eqb_spec (lower_ascii (trim w)) (lit "export")) as [X|X].
    + destruct (parse_assignment (trim u)) as [[k' v']|]; discriminate.
    + destruct (str_eqb_spec (lower_ascii (trim w)) (lit "path_add")) as [Y|Y]; [|discriminate]. destruct (unquote (trim u)) as [|c q] eqn:Q; [discriminate|].
      intros H. injection H as <-. exists (trim u). split; [apply command_line_iff; split; [exact C|exists w, u; auto]|]. split; [|discriminate].
      apply strip_quotes_iff. unfold unquote in Q. rewrite trim_trim in Q. exact Q.
  - intros (r & L & S & N). apply command_line_iff in L as (C & w & u & E & X & R). rewrite C, E, X. change (str_eqb (lit "path_add") (lit "export")) with false.
    rewrite str_eqb_refl. cbv zeta iota. unfold unquote. rewrite trim_trim, R. apply strip_quotes_iff in S. rewrite S. destruct d; [congruence|reflexivity].
Qed.
Print Assumptions C143_envrc_line.

Lemma collected_iff {A} (say : str -> A -> Prop) (f : str -> option A) : (forall l x, f l = Some x <-> say l x) ->
  forall ls xs, collected say ls xs <-> xs = flat_map (fun l => match f l with Some x => [x] | None => [] end) ls.
Proof.
  intros H ls. induction ls as [|l ls IH]; intros xs; cbn [flat_map].
  - split; [intros C; inversion C; reflexivity|intros ->; constructor].
  - split.
    + intros C. inversion C as [|? ? x ys S C' E1 E2|? ? ys S C' E1 E2]; subst; apply IH in C'.
      * apply H in S. rewrite S, <- C'. reflexivity.
      * destruct (f l) as [x|] eqn:E; [apply H in E; destruct (S x E)|exact C'].
    + intros ->. destruct (f l) as [x|] eqn:E.
      * apply H in E. apply c_say; [exact E|]. apply IH. reflexivity.
      * apply c_skip; [intros x X; apply H in X; congruence|]. apply IH. reflexivity.
Qed.

(** the assignments of a file, and the directories it adds *)
Definition file_says {A} (say : str -> A -> Prop) (f : file) (xs : list A) : Prop :=
  match f with Text s => collected say (lines s) xs | _ => xs = [] end.
Definition pair_of (say : str -> str -> str -> Prop) (l : str) (kv : str * str) : Prop := say l (fst kv) (snd kv).

Definition dotenv_pairs (f : file) : list (str * str) := match f with Text s => parse_dotenv s | _ => [] end.
Definition envrc_pairs (f : file) (allowed : bool) : list (str * str) :=
  match f with Text s => if allowed then vars_of (parse_envrc s) else [] | _ => [] end.
Definition envrc_dirs (f : file) (allowed : bool) : list str :=
  match f with Text s => if allowed then adds_of (parse_envrc s) else [] | _ => [] end.
Lemma dotenv_pairs_iff f vs : file_says (pair_of dotenv_says) f vs <-> vs = dotenv_pairs f.
Proof.
  destruct f as [| |s]; cbn [file_says dotenv_pairs]; try tauto. unfold parse_dotenv.
  apply (collected_iff (pair_of dotenv_says) parse_assignment_line). intros l [k v]. apply C143_dotenv_line.
Qed.
Definition line_var (l : str) : option (str * str) := match envrc_line l with Some (Var k v) => Some (k, v) | _ => None end.
Definition line_dir (l : str) : option str := match envrc_line l with Some (Dir d) => Some d | _ => None end.
Lemma vars_lines ls : vars_of (flat_map (fun l => match envrc_line l with Some d => [d] | None => [] end) ls) = flat_map (fun l => match line_var l with Some x => [x] | None => [] end) ls.
Proof.
  unfold vars_of. induction ls as [|l ls IH]; [reflexivity|]. cbn [flat_map]. rewrite flat_map_app, IH. f_equal. unfold line_var. destruct (envrc_line l) as [[k v|d]|]; reflexivity.
Qed.
Lemma dirs_lines ls : adds_of (flat_map (fun l => match envrc_line l with Some d => [d] | None => [] end) ls) = flat_map (fun l => match line_dir l with Some x => [x] | None => [] end) ls.
Proof.
  unfold adds_of. induction ls as [|l ls IH]; [reflexivity|]. cbn [flat_map]. rewrite flat_map_app, IH. f_equal. unfold line_dir. destruct (envrc_line l) as [[k v|d]|]; reflexivity.
Qed.
Lemma envrc_pairs_iff f vs : file_says (pair_of envrc_says) f vs <-> vs = envrc_pairs f true.
Proof.
  destruct f as [| |s]; cbn [file_says envrc_pairs]; try tauto. unfold parse_envrc. rewrite vars_lines.
  apply (collected_iff (pair_of envrc_says) line_var). intros l [k v]. unfold pair_of. cbn [fst snd]. rewrite <- (proj1 (C143_envrc_line l) k v). unfold line_var.
  destruct (envrc_line l) as [[a b|d]|]; split; intros E; try discriminate E; injection E as -> ->; reflexivity.
Qed.
Lemma envrc_dirs_iff f ds : file_says envrc_adds f ds <-> ds = envrc_dirs f true.
Proof.
  destruct f as [| |s]; cbn [file_says envrc_dirs]; try tauto. unfold parse_envrc. rewrite dirs_lines.
  apply (collected_iff envrc_adds line_dir). intros l d. rewrite <- (proj2 (C143_envrc_line l) d). unfold line_dir.
  destruct (envrc_line l) as [[a b|x]|]; split; intros E; try discriminate E; injection E as ->; reflexivity.
Qed.

(** ** the environment it leaves *)
Lemma set_system_of k v e j : assoc j (system (set_env_var k v e)) = if str_eq_dec j k then Some v else assoc j (system e).
Proof. unfold set_env_var. destruct (str_eqb k PATH); cbn [system reload_path set_cache set_paths set_system]; apply assoc_insert. Qed.
Lemma set_variables_of k v e : variables (set_env_var k v e) = variables e.
Proof. unfold set_env_var. destruct (str_eqb k PATH); reflexivity. Qed.
Lemma set_exported_of k v e : exported (set_env_var k v e) = exported e.
Proof. unfold set_env_var. destruct (str_eqb k PATH); reflexivity. Qed.
Lemma set_all_of vs : forall e, variables (set_all vs e) = variables e /\ exported (set_all vs e) = exported e.
Proof.
  induction vs as [|[k v] vs IH]; intros e; [auto|]. cbn [set_all fold_left fst snd]. fold (set_all vs (set_env_var k v e)).
  destruct (IH (set_env_var k v e)) as [A B]. rewrite A, B, set_variables_of, set_exported_of. auto.
Qed.
Lemma set_all_app a b e : set_all (a ++ b) e = set_all b (set_all a e).
Proof. apply fold_left_app. Qed.
Lemma set_all_none vs k : (forall v, ~ In (k, v) vs) -> forall e, assoc k (system (set_all vs e)) = assoc k (system e).
Proof.
  induction vs as [|[j w] vs IH]; intros H e; [reflexivity|]. cbn [set_all fold_left fst snd]. fold (set_all vs (set_env_var j w e)).
  rewrite IH by (intros v V; exact (H v (or_intror V))). rewrite set_system_of. destruct (str_eq_dec k j) as [->|]; [destruct (H w (or_introl eq_refl))|reflexivity].
Qed.
Lemma set_all_last vs k v e : last_for vs k v -> assoc k (system (set_all vs e)) = Some v.
Proof.
  intros (a & b & -> & H). rewrite set_all_app. cbn [set_all fold_left fst snd]. fold (set_all a e). fold (set_all b (set_env_var k v (set_all a e))).
  rewrite set_all_none by exact H. rewrite set_system_of. destruct (str_eq_dec k k); congruence.
Qed.
Lemma last_or vs k : (exists v, last_for vs k v) \/ forall v, ~ In (k, v) vs.
Proof.
  induction vs as [|[j w] vs IH]; [right; intros v []|]. destruct IH as [(v & a & b & -> & H)|H]; [left; exists v, ((j, w) :: a), b; auto|].
  destruct (str_eq_dec j k) as [->|D]; [left; exists w, [], vs; auto|]. right. intros v [E|E]; [injection E as -> _; congruence|exact (H v E)].
Qed.

(** the search path that the shell has, or else the one its process was started with *)
Definition search_path_of (own : option str) (sys : option str) : str :=
  match sys with Some v => v | None => match own with Some v => v | None => [] end end.
Definition pth (own var sys : option str) (p : str) : option str :=
  let cur := match var with Some v => v | None => search_path_of own sys end in
  if existsb (str_eqb p) (Base.split_on 58%N cur) then sys else Some (match cur with [] => p | _ => p ++ 58%N :: cur end).
Lemma get_path e : get_var e PATH = match assoc PATH (variables e) with Some v => Some v | None => assoc PATH (system e) end.
Proof. reflexivity. Qed.
Lemma prepend_of own p e : variables (prepend_path own p e) = variables e /\ exported (prepend_path own p e) = exported e /\
  (forall k, k <> PATH -> assoc k (system (prepend_path own p e)) = assoc k (system e)) /\
  assoc PATH (system (prepend_path own p e)) = pth own (assoc PATH (variables e)) (assoc PATH (system e)) p.
Proof.
  unfold prepend_path, pth. rewrite get_path. unfold search_path_of.
  set (cur := match match assoc PATH (variables e) with Some v => Some v | None => assoc PATH (system e) end with Some v => v | None => match own with Some v => v | None => [] end end).
  replace (match assoc PATH (variables e) with Some v => v | None => match assoc PATH (system e) with Some v => v | None => match own with Some v => v | None => [] end end end) with cur
    by (unfold cur; destruct (assoc PATH (variables e)); reflexivity).
  destruct (existsb (str_eqb p) (Base.split_on 58%N cur)); [auto|]. rewrite set_variables_of, set_exported_of. split; [reflexivity|]. split; [reflexivity|]. split.
  - intros k K. rewrite set_system_of. destruct (str_eq_dec k PATH); [contradiction|reflexivity].
  - rewrite set_system_of. destruct (str_eq_dec PATH PATH); [reflexivity|congruence].
Qed.
Lemma prepends_of own ds : forall e, let e' := fold_left (fun e p => prepend_path own p e) ds e in
  variables e' = variables e /\ exported e' = exported e /\ (forall k, k <> PATH -> assoc k (system e') = assoc k (system e)) /\
  assoc PATH (system e') = fold_left (pth own (assoc PATH (variables e))) ds (assoc PATH (system e)).
Proof.
  induction ds as [|d ds IH]; intros e; [auto|]. cbn [fold_left]. destruct (IH (prepend_path own d e)) as (A & B & C & D). destruct (prepend_of own d e) as (A' & B' & C' & D').
  cbv zeta. rewrite A, B, D, A', B', D'. split; [reflexivity|]. split; [reflexivity|]. split; [|reflexivity]. intros k K. rewrite (C k K), (C' k K). reflexivity.
Qed.

Definition added (home root : str) (x : findings) : list str :=
  map (activation_path home root) (envrc_dirs (f_envrc x) (f_allowed x)) ++
  match f_venv x with Some (n, true) => [activation_path home root (Env_Model.join (Env_Model.join root n) (lit "bin"))] | _ => [] end.
Definition pairs (x : findings) : list (str * str) := dotenv_pairs (f_dotenv x) ++ envrc_pairs (f_envrc x) (f_allowed x).
Definition readable (x : findings) : Prop := f_dotenv x <> Unreadable /\ (f_allowed x = true -> f_envrc x <> Unreadable).

Lemma activate_shape home root own x e : readable x -> exists e', activate home root own x e = (e', true) /\
  variables e' = variables e /\ exported e' = exported e /\
  (forall k, k <> PATH -> k <> VIRTUAL_ENV -> assoc k (system e') = assoc k (system (set_all (pairs x) e))) /\
  (assoc VIRTUAL_ENV (system e') = match f_venv x with Some (n, _) => Some (Env_Model.join root n) | None => assoc VIRTUAL_ENV (system (set_all (pairs x) e)) end) /\
  assoc PATH (system e') = fold_left (pth own (assoc PATH (variables e))) (added home root x) (assoc PATH (system (set_all (pairs x) e))).
Proof.
  intros [R1 R2]. unfold activate.
  assert (D : apply_dotenv (f_dotenv x) e = Some (set_all (dotenv_pairs (f_dotenv x)) e)) by (destruct (f_dotenv x); [reflexivity|congruence|reflexivity]).
  rewrite D. set (e1 := set_all (dotenv_pairs (f_dotenv x)) e).
  assert (E : apply_envrc home root own (f_envrc x) (f_allowed x) e1 =
    Some (fold_left (fun e p => prepend_path own p e) (map (activation_path home root) (envrc_dirs (f_envrc x) (f_allowed x))) (set_all (envrc_pairs (f_envrc x) (f_allowed x)) e1))).
  { assert (F : forall ds e, fold_left (fun e p => prepend_path own (activation_path home root p) e) ds e = fold_left (fun e p => prepend_path own p e) (map (activation_path home root) ds) e).
    { intros ds. induction ds as [|d ds IH]; intros e0; [reflexivity|]. cbn [fold_left map]. apply IH. }
    destruct (f_envrc x) as [| |s]; cbn [apply_envrc envrc_dirs envrc_pairs]; destruct (f_allowed x); try reflexivity; [exfalso; apply R2; reflexivity|]. rewrite F. reflexivity. }
  rewrite E. set (e2 := fold_left _ _ _). eexists. split; [reflexivity|].
  assert (S : set_all (envrc_pairs (f_envrc x) (f_allowed x)) e1 = set_all (pairs x) e) by (unfold pairs, e1; rewrite set_all_app; reflexivity).
  destruct (prepends_of own (map (activation_path home root) (envrc_dirs (f_envrc x) (f_allowed x))) (set_all (envrc_pairs (f_envrc x) (f_allowed x)) e1)) as (A & B & C & P).
  fold e2 in A, B, C, P. rewrite S in A, B, C, P. destruct (set_all_of (pairs x) e) as [SV SE]. rewrite SV in A. rewrite SE in B. rewrite SV in P. clear E. clearbody e2. clear S.
  unfold apply_venv, added. rewrite fold_left_app, <- P. destruct (f_venv x) as [[n [|]]|].
  - destruct (prepend_of own (activation_path home root (Env_Model.join (Env_Model.join root n) (lit "bin"))) (set_env_var VIRTUAL_ENV (Env_Model.join root n) e2)) as (A' & B' & C' & P').
    rewrite A', B', set_variables_of, set_exported_of. split; [exact A|]. split; [exact B|]. split; [|split].
    + intros k K V. rewrite (C' k K), set_system_of. destruct (str_eq_dec k VIRTUAL_ENV); [contradiction|apply C, K].
    + rewrite (C' VIRTUAL_ENV) by discriminate. rewrite set_system_of. destruct (str_eq_dec VIRTUAL_ENV VIRTUAL_ENV); [reflexivity|congruence].
    + rewrite P', set_variables_of, A, set_system_of. destruct (str_eq_dec PATH VIRTUAL_ENV) as [X|]; [discriminate X|reflexivity].
  - rewrite set_variables_of, set_exported_of. split; [exact A|]. split; [exact B|]. split; [|split].
    + intros k K V. rewrite set_system_of. destruct (str_eq_dec k VIRTUAL_ENV); [contradiction|apply C, K].
    + rewrite set_system_of. destruct (str_eq_dec VIRTUAL_ENV VIRTUAL_ENV); [reflexivity|congruence].
    + rewrite set_system_of. destruct (str_eq_dec PATH VIRTUAL_ENV) as [X|]; [discriminate X|reflexivity].
  - split; [exact A|]. split; [exact B|]. split; [|split].
    + intros k K V. apply C, K.
    + apply C. discriminate.
    + reflexivity.
Qed.
Lemma activate_readable home root own x e e' : activate home root own x e = (e', true) -> readable x.
Proof.
  unfold activate, readable, apply_dotenv, apply_envrc. intros H. split.
  - intros E. rewrite E in H. discriminate H.
  - intros A E. rewrite A, E in H. destruct (f_dotenv x); discriminate H.
Qed.

(** C143: every variable that the files name gets the value of its last assignment, and no other
    variable changes *)
Theorem C143_sets : forall home root own x e e' vs us,
  activate home root own x e = (e', true) ->
  file_says (pair_of dotenv_says) (f_dotenv x) vs -> (if f_allowed x then file_says (pair_of envrc_says) (f_envrc x) us else us = []) ->
  variables e' = variables e /\ exported e' = exported e /\
  forall k, k <> PATH -> k <> VIRTUAL_ENV ->
    (forall v, last_for (vs ++ us) k v -> assoc k (system e') = Some v) /\
    ((forall v, ~ In (k, v) (vs ++ us)) -> assoc k (system e') = assoc k (system e)).
Proof.
  intros home root own x e e' vs us H V U. pose proof (activate_readable _ _ _ _ _ _ H) as R.
  destruct (activate_shape home root own x e R) as (e2 & E & A & B & C & _). rewrite H in E. injection E as <-.
  split; [exact A|]. split; [exact B|]. apply dotenv_pairs_iff in V. subst vs.
  assert (us = envrc_pairs (f_envrc x) (f_allowed x)) as ->.
  { destruct (f_allowed x); [apply envrc_pairs_iff, U|]. subst us. destruct (f_envrc x); reflexivity. }
  fold (pairs x). intros k K KV. rewrite (C k K KV). split.
  - intros v L. apply set_all_last, L.
  - intros N. apply set_all_none, N.
Qed.
Print Assumptions C143_sets.

(** ... and programs that are started see it, unless a shell variable of that name is in the way *)
Theorem C143_seen_partial : forall home root own x e e' vs us k v,
  activate home root own x e = (e', true) ->
  file_says (pair_of dotenv_says) (f_dotenv x) vs -> (if f_allowed x then file_says (pair_of envrc_says) (f_envrc x) us else us = []) ->
  last_for (vs ++ us) k v -> k <> PATH -> k <> VIRTUAL_ENV -> k <> lit "TERM" -> assoc k (variables e) = None ->
  assoc k (child_process_env e') = Some v.
Proof.
  intros home root own x e e' vs us k v H V U L K1 K2 K3 N. destruct (C143_sets home root own x e e' vs us H V U) as (A & B & C).
  rewrite C34_helper_environment_exact. unfold child_sees, effective. rewrite A, N, (proj1 (C k K1 K2) v L).
  destruct (str_eq_dec k (lit "TERM")); [contradiction|]. destruct (in_dec str_eq_dec k (exported e')), v; reflexivity.
Qed.
Print Assumptions C143_seen_partial.
(** what is missing: the value of a shell variable of the same name stays what $NAME gives, and what
    programs see if it is exported *)
Theorem C143_shadowed_refuted : forall home root own x e e' k w,
  activate home root own x e = (e', true) -> assoc k (variables e) = Some w -> In k (exported e) -> k <> lit "TERM" ->
  assoc k (child_process_env e') = Some w /\
  ((forall n, ~ denotes (lit "OUT") k n) -> (forall n, ~ denotes (lit "ERR") k n) -> ~ In k [lit "MCP_SERVERS"; lit "MCP_CONNECTED"; lit "MCP_TOOLS"] -> get_var e' k = Some w).
Proof.
  intros home root own x e e' k w H N I T. pose proof (activate_readable _ _ _ _ _ _ H) as R.
  destruct (activate_shape home root own x e R) as (e2 & E & A & B & _). rewrite H in E. injection E as <-. split.
  - rewrite C34_helper_environment_exact. unfold child_sees, effective. rewrite A, B, N. destruct (in_dec str_eq_dec k (exported e)); [|contradiction].
    destruct (str_eq_dec k (lit "TERM")); [contradiction|]. destruct w; reflexivity.
  - intros O1 O2 O3. unfold get_var. destruct (parse_output_var k (lit "OUT")) as [i|] eqn:P1.
    { apply Output_Props.C22_output_names_exact in P1; [|auto]. destruct (O1 _ P1). }
    destruct (parse_output_var k (lit "ERR")) as [i|] eqn:P2.
    { apply Output_Props.C22_output_names_exact in P2; [|auto]. destruct (O2 _ P2). }
    destruct (mem_str k _) eqn:M; [apply mem_str_iff in M; contradiction|]. rewrite A, N. reflexivity.
Qed.
Print Assumptions C143_shadowed_refuted.

(** C143: an .envrc in a root that was not allowed has no effect *)
Theorem C143_not_allowed : forall home root own d r r' v e,
  activate home root own (Found d r false v) e = activate home root own (Found d r' false v) e.
Proof. intros home root own d r r' v e. unfold activate. cbn [f_dotenv f_envrc f_allowed f_venv]. destruct (apply_dotenv d e) as [e1|]; [|reflexivity]. destruct r, r'; reflexivity. Qed.
Print Assumptions C143_not_allowed.

(** ** the search path *)
Lemma has_iff p l : existsb (str_eqb p) l = true <-> In p l.
Proof.
  rewrite existsb_exists. split; [intros (q & Q & E); apply str_eqb_eq in E as ->; exact Q|intros H; exists p; split; [exact H|apply str_eqb_refl]].
Qed.
Notation entries_of q := (Base.split_on 58%N q).
Definition plain_dir (d : str) : Prop := d <> [] /\ ~ In 58%N d.
Lemma pth_entries own sys p : plain_dir p ->
  let q := search_path_of own sys in let q' := search_path_of own (pth own None sys p) in
  In p (entries_of q') /\ (exists front, q' = front ++ q) /\
  (forall d, d <> [] -> In d (entries_of q) -> In d (entries_of q')) /\
  (forall d, In d (entries_of q') -> d = p \/ In d (entries_of q)) /\
  (~ In p (entries_of q) -> hd [] (entries_of q') = p).
Proof.
  intros [NE NC]. cbv zeta. unfold pth. set (q := search_path_of own sys). destruct (existsb (str_eqb p) (entries_of q)) eqn:X.
  - apply has_iff in X. fold q. split; [exact X|]. split; [exists []; reflexivity|]. split; [auto|]. split; [auto|]. contradiction.
  - assert (N : ~ In p (entries_of q)) by (intros Y; apply has_iff in Y; congruence). cbn [search_path_of]. destruct q as [|c q'] eqn:Q.
    + rewrite (split_on_none 58%N p NC). split; [left; reflexivity|]. split; [exists p; symmetry; apply app_nil_r|]. split.
      * intros d D [E|[]]. cbn in E. congruence.
      * split; [intros d [->|[]]; left; reflexivity|reflexivity].
    + rewrite split_on_app, (split_on_none 58%N p NC). cbn [app]. split; [left; reflexivity|]. split; [exists (p ++ [58%N]); rewrite <- app_assoc; reflexivity|].
      split; [intros d _ D; right; exact D|]. split; [intros d [->|D]; [left; reflexivity|right; exact D]|reflexivity].
Qed.
Lemma pths_entries own ds : Forall plain_dir ds -> forall sys,
  let q := search_path_of own sys in let q' := search_path_of own (fold_left (pth own None) ds sys) in
  (forall d, In d ds -> In d (entries_of q')) /\ (exists front, q' = front ++ q) /\
  (forall d, d <> [] -> In d (entries_of q) -> In d (entries_of q')) /\
  (forall d, In d (entries_of q') -> In d ds \/ In d (entries_of q)).
Proof.
  intros F. induction F as [|p ds P F IH]; intros sys; cbn [fold_left].
  - cbv zeta. split; [intros d []|]. split; [exists []; reflexivity|]. auto.
  - destruct (pth_entries own sys p P) as (A1 & (f1 & A2) & A3 & A4 & _). destruct (IH (pth own None sys p)) as (B1 & (f2 & B2) & B3 & B4). cbv zeta.
    split; [intros d [<-|D]; [apply B3; [apply P|exact A1]|exact (B1 d D)]|]. split; [exists (f2 ++ f1); rewrite B2, A2, app_assoc; reflexivity|].
    split; [intros d NE D; apply B3; [exact NE|apply A3; assumption]|]. intros d D. destruct (B4 d D) as [X|X]; [left; right; exact X|]. destruct (A4 d X) as [->|Y]; [left; left; reflexivity|right; exact Y].
Qed.
Lemma pths_none own var ds : forall sys,
  (forall d, In d ds -> In d (entries_of (match var with Some v => v | None => search_path_of own sys end))) -> fold_left (pth own var) ds sys = sys.
Proof.
  induction ds as [|d ds IH]; intros sys H; [reflexivity|]. cbn [fold_left]. assert (E : pth own var sys d = sys).
  { unfold pth. rewrite (proj2 (has_iff _ _) (H d (or_introl eq_refl))). reflexivity. }
  rewrite E. apply IH. intros x X. apply H. right. exact X.
Qed.

Lemma join_ne a b : a <> [] -> Env_Model.join a b <> [].
Proof.
  intros A. unfold Env_Model.join. destruct b as [|c b].
  - destruct (rev a) as [|d r] eqn:R; [intros _; apply A; rewrite <- (rev_involutive a), R; reflexivity|]. destruct (d =? chr "/")%N; destruct a; try congruence; discriminate.
  - destruct (c =? chr "/")%N; [discriminate|]. destruct (rev a); [discriminate|]. destruct (_ =? _)%N; destruct a; try congruence; discriminate.
Qed.
(** where path_add points: an absolute directory, one below home, or one below the root *)
Theorem C143_directory : forall home root p,
  (forall r, p = 47%N :: r -> activation_path home root p = p) /\
  (forall r, p = 126%N :: 47%N :: r -> (exists h, home = 47%N :: h) -> activation_path home root p = home ++ 47%N :: r) /\
  (forall c r, p = c :: r -> c <> 47%N -> c <> 126%N -> (forall u, root <> u ++ [47%N]) -> root <> [] -> activation_path home root p = root ++ 47%N :: p).
Proof.
  intros home root p. unfold activation_path. split; [|split].
  - intros r ->. reflexivity.
  - intros r -> (h & ->). reflexivity.
  - intros c r -> A B U N. unfold tilde. destruct (N.eqb_spec c 126%N); [contradiction|]. unfold Env_Model.join. destruct (N.eqb_spec c (chr "/")) as [->|_]; [destruct (A eq_refl)|].
    destruct (rev root) as [|d m] eqn:R; [exfalso; apply N; rewrite <- (rev_involutive root), R; reflexivity|].
    destruct (N.eqb_spec d (chr "/")) as [->|_]; [|reflexivity]. exfalso. apply (U (rev m)). rewrite <- (rev_involutive root), R. reflexivity.
Qed.
Print Assumptions C143_directory.

(** C143: each directory of path_add and the programs of the virtual environment are on the search
    path afterwards, before what was there, and nothing else is added.  [before] is the PATH that the
    assignments leave. *)
Theorem C143_path_partial : forall home root own x e e' vs us ps before,
  activate home root own x e = (e', true) -> root <> [] -> assoc PATH (variables e) = None ->
  file_says (pair_of dotenv_says) (f_dotenv x) vs -> (if f_allowed x then file_says (pair_of envrc_says) (f_envrc x) us else us = []) ->
  (if f_allowed x then file_says envrc_adds (f_envrc x) ps else ps = []) ->
  (last_for (vs ++ us) PATH before \/ ((forall v, ~ In (PATH, v) (vs ++ us)) /\ before = search_path_of own (assoc PATH (system e)))) ->
  let dirs := map (activation_path home root) ps ++ match f_venv x with Some (n, true) => [activation_path home root (Env_Model.join (Env_Model.join root n) (lit "bin"))] | _ => [] end in
  (forall d, In d dirs -> ~ In 58%N d) ->
  let after := search_path_of own (assoc PATH (system e')) in
  (forall d, In d dirs -> In d (entries_of after)) /\ (exists front, after = front ++ before) /\
  (forall d, In d (entries_of after) -> In d dirs \/ In d (entries_of before)).
Proof.
  intros home root own x e e' vs us ps before H NR NV V U Q P. pose proof (activate_readable _ _ _ _ _ _ H) as R.
  destruct (activate_shape home root own x e R) as (e2 & E & A & B & _ & _ & C). rewrite H in E. injection E as <-. cbv zeta.
  assert (ps = envrc_dirs (f_envrc x) (f_allowed x)) as ->.
  { destruct (f_allowed x); [apply envrc_dirs_iff, Q|]. subst ps. destruct (f_envrc x); reflexivity. }
  apply dotenv_pairs_iff in V. assert (us = envrc_pairs (f_envrc x) (f_allowed x)) as US.
  { destruct (f_allowed x); [apply envrc_pairs_iff, U|]. subst us. destruct (f_envrc x); reflexivity. }
  subst vs us. fold (added home root x) (pairs x) in *. intros ND. rewrite NV in C.
  assert (F : Forall plain_dir (added home root x)).
  { apply Forall_forall. intros d D. split; [|exact (ND d D)]. unfold added in D. rewrite in_app_iff in D.
    assert (J : forall y, activation_path home root y <> []) by (intros y; apply join_ne, NR).
    destruct D as [D|D]; [apply in_map_iff in D as (y & <- & _); apply J|]. destruct (f_venv x) as [[n [|]]|]; try destruct D as [<-|[]]; [apply J|destruct D|destruct D]. }
  assert (BE : before = search_path_of own (assoc PATH (system (set_all (pairs x) e)))).
  { destruct P as [P|[P ->]]; [rewrite (set_all_last _ _ _ e P); reflexivity|rewrite (set_all_none _ _ P e); reflexivity]. }
  rewrite C, BE. destruct (pths_entries own (added home root x) F (assoc PATH (system (set_all (pairs x) e)))) as (X & Y & _ & Z). auto.
Qed.
Print Assumptions C143_path_partial.

(** the virtual environment comes first, if it was not on the search path *)
Theorem C143_venv_first_partial : forall home root own d e n,
  root <> [] -> assoc PATH (variables e) = None ->
  let bin := activation_path home root (Env_Model.join (Env_Model.join root n) (lit "bin")) in
  ~ In 58%N bin ->
  exists e', activate home root own (Found NoFile NoFile d (Some (n, true))) e = (e', true) /\
    assoc VIRTUAL_ENV (system e') = Some (Env_Model.join root n) /\
    (~ In bin (entries_of (search_path_of own (assoc PATH (system e)))) -> hd [] (entries_of (search_path_of own (assoc PATH (system e')))) = bin).
Proof.
  intros home root own d e n NR NV bin NC. destruct (activate_shape home root own (Found NoFile NoFile d (Some (n, true))) e) as (e' & E & A & B & C & D & P).
  { split; intros; discriminate. }
  exists e'. split; [exact E|]. split; [exact D|]. intros NI. rewrite P, NV. cbn [added f_envrc f_allowed f_venv envrc_dirs map app fold_left pairs f_dotenv dotenv_pairs envrc_pairs set_all].
  apply pth_entries; [split; [apply join_ne, NR|exact NC]|exact NI].
Qed.
Print Assumptions C143_venv_first_partial.
(** what is missing: if it was there, it stays where it was, behind the programs of the system *)
Theorem C143_venv_first_refuted : forall home root own d e n front,
  assoc PATH (variables e) = None ->
  let bin := activation_path home root (Env_Model.join (Env_Model.join root n) (lit "bin")) in
  assoc PATH (system e) = Some (front ++ 58%N :: bin) -> ~ In 58%N bin ->
  exists e', activate home root own (Found NoFile NoFile d (Some (n, true))) e = (e', true) /\ assoc PATH (system e') = Some (front ++ 58%N :: bin).
Proof.
  intros home root own d e n front NV bin S NC. destruct (activate_shape home root own (Found NoFile NoFile d (Some (n, true))) e) as (e' & E & A & B & C & D & P).
  { split; intros; discriminate. }
  exists e'. split; [exact E|]. rewrite P, NV. cbn [added f_envrc f_allowed f_venv envrc_dirs map app fold_left pairs f_dotenv dotenv_pairs envrc_pairs set_all]. rewrite S.
  unfold pth. cbn [search_path_of]. fold bin. rewrite split_on_app, (split_on_none 58%N bin NC).
  rewrite (proj2 (has_iff bin _)); [reflexivity|]. apply in_or_app. right. left. reflexivity.
Qed.
Print Assumptions C143_venv_first_refuted.

(** C143: activating twice is activating once, if no directory has a colon in its name *)
Lemma pth_var_twice own v ds sys : fold_left (pth own (Some v)) ds (fold_left (pth own (Some v)) ds sys) = fold_left (pth own (Some v)) ds sys.
Proof.
  assert (G : forall ds, (exists q, forall sys, fold_left (pth own (Some v)) ds sys = Some q) \/ forall sys, fold_left (pth own (Some v)) ds sys = sys).
  { clear. intros ds. induction ds as [|d ds IH] using rev_ind; [right; reflexivity|].
    assert (T : forall sys, fold_left (pth own (Some v)) (ds ++ [d]) sys = pth own (Some v) (fold_left (pth own (Some v)) ds sys) d) by (intros; apply fold_left_app).
    destruct (existsb (str_eqb d) (entries_of v)) eqn:X.
    - assert (U : forall y, pth own (Some v) y d = y) by (intros y; unfold pth; rewrite X; reflexivity).
      destruct IH as [(q & Q)|Q]; [left; exists q|right]; intros sys; rewrite T, U; apply Q.
    - left. exists (match v with [] => d | _ => d ++ 58%N :: v end). intros sys. rewrite T. unfold pth. rewrite X. reflexivity. }
  destruct (G ds) as [(q & Q)|Q]; rewrite !Q; reflexivity.
Qed.
Theorem C143_idempotent_partial : forall home root own x e e',
  activate home root own x e = (e', true) -> root <> [] -> (forall d, In d (added home root x) -> ~ In 58%N d) ->
  exists e'', activate home root own x e' = (e'', true) /\ variables e'' = variables e' /\ exported e'' = exported e' /\
    forall k, assoc k (system e'') = assoc k (system e').
Proof.
  intros home root own x e e' H NR ND. pose proof (activate_readable _ _ _ _ _ _ H) as R.
  destruct (activate_shape home root own x e R) as (e1 & E & A & B & C & D & P). rewrite H in E. injection E as <-.
  destruct (activate_shape home root own x e' R) as (e2 & E2 & A2 & B2 & C2 & D2 & P2). exists e2. split; [exact E2|]. split; [exact A2|]. split; [exact B2|].
  assert (K : forall k, k <> PATH -> (forall v, ~ In (k, v) (pairs x)) \/ exists v, last_for (pairs x) k v).
  { intros k _. destruct (last_or (pairs x) k); [right|left]; assumption. }
  assert (SAME : forall k, assoc k (system e') = assoc k (system (set_all (pairs x) e)) -> assoc k (system (set_all (pairs x) e')) = assoc k (system e')).
  { intros k F. destruct (last_or (pairs x) k) as [(v & L)|N].
    - rewrite F, !(set_all_last _ _ _ _ L). reflexivity.
    - apply set_all_none, N. }
  intros k. destruct (str_eq_dec k PATH) as [->|K1].
  - rewrite P2, A. destruct (last_or (pairs x) PATH) as [(v & L)|N].
    + rewrite P, !(set_all_last _ _ _ _ L). reflexivity.
    + rewrite (set_all_none _ _ N e'), P. destruct (assoc PATH (variables e)) as [v|] eqn:NV; [apply pth_var_twice|].
      assert (F : Forall plain_dir (added home root x)).
      { apply Forall_forall. intros d X. split; [|exact (ND d X)]. unfold added in X. rewrite in_app_iff in X.
        assert (J : forall y, activation_path home root y <> []) by (intros y; apply join_ne, NR).
        destruct X as [X|X]; [apply in_map_iff in X as (y & <- & _); apply J|]. destruct (f_venv x) as [[n [|]]|]; try destruct X as [<-|[]]; [apply J|destruct X|destruct X]. }
      apply pths_none. destruct (pths_entries own (added home root x) F (assoc PATH (system (set_all (pairs x) e)))) as (X & _). exact X.
  - destruct (str_eq_dec k VIRTUAL_ENV) as [->|K2].
    + rewrite D2, D. destruct (f_venv x) as [[n b]|]; [reflexivity|]. rewrite SAME by exact D. exact D.
    + rewrite (C2 k K1 K2). apply SAME, C; assumption.
Qed.
Print Assumptions C143_idempotent_partial.
(** what is missing: below a directory with a colon in its name the search path grows every time *)
Theorem C143_grows_refuted : forall home root own d e n q,
  assoc PATH (variables e) = None ->
  let bin := activation_path home root (Env_Model.join (Env_Model.join root n) (lit "bin")) in
  In 58%N bin -> assoc PATH (system e) = Some q -> q <> [] ->
  exists e', activate home root own (Found NoFile NoFile d (Some (n, true))) e = (e', true) /\ assoc PATH (system e') = Some (bin ++ 58%N :: q).
Proof.
  intros home root own d e n q NV bin IN S NQ. destruct (activate_shape home root own (Found NoFile NoFile d (Some (n, true))) e) as (e' & E & A & B & C & D & P).
  { split; intros; discriminate. }
  exists e'. split; [exact E|]. rewrite P, NV. cbn [added f_envrc f_allowed f_venv envrc_dirs map app fold_left pairs f_dotenv dotenv_pairs envrc_pairs set_all]. rewrite S.
  unfold pth. cbn [search_path_of]. fold bin. destruct (existsb (str_eqb bin) (entries_of q)) eqn:X; [apply has_iff in X; exfalso; exact (split_on_no_sep 58%N q bin X IN)|].
  destruct q; [congruence|reflexivity].
Qed.
Print Assumptions C143_grows_refuted.

(** "safe": a variable of the dynamic loader in the .env of a directory is set without a question,
    whether the directory was allowed or not *)
Theorem C143_loader_refuted : forall home root own e v,
  (forall c, In c v -> is_whitespace c = false /\ c <> 34%N /\ c <> 39%N /\ c <> 13%N) -> assoc (lit "LD_PRELOAD") (variables e) = None -> v <> [] ->
  exists e', activate home root own (Found (Text (lit "LD_PRELOAD=" ++ v)) NoFile false None) e = (e', true) /\
    assoc (lit "LD_PRELOAD") (child_process_env e') = Some v.
Proof.
  intros home root own e v H NV NE. set (x := Found (Text (lit "LD_PRELOAD=" ++ v)) NoFile false None).
  destruct (activate_shape home root own x e) as (e' & E & _). { split; intros; discriminate. }
  exists e'. split; [exact E|].
  assert (W : forall c, In c (lit "LD_PRELOAD=" ++ v) -> is_whitespace c = false).
  { intros c C. apply in_app_or in C as [C|C]; [|apply H, C]. cbn in C. repeat (destruct C as [<-|C]; [reflexivity|]). destruct C. }
  assert (LN : lines (lit "LD_PRELOAD=" ++ v) = [lit "LD_PRELOAD=" ++ v]).
  { unfold lines. assert (G : forall s cur, (forall c, In c s -> is_whitespace c = false) -> cur <> [] \/ s <> [] -> lines_aux cur s = [rev cur ++ s]).
    { clear. intros s. induction s as [|c s IH]; intros cur W Z; cbn [lines_aux].
      - destruct cur; [destruct Z; congruence|]. rewrite app_nil_r. reflexivity.
      - destruct (N.eqb_spec c 10%N) as [->|_]; [exfalso; specialize (W 10%N (or_introl eq_refl)); discriminate W|].
        rewrite IH; [cbn [rev]; rewrite <- app_assoc; reflexivity|intros d D; apply W; right; exact D|left; discriminate]. }
    rewrite G; [reflexivity|exact W|right; discriminate]. }
  assert (D : dotenv_says (lit "LD_PRELOAD=" ++ v) (lit "LD_PRELOAD") v).
  { exists (lit "LD_PRELOAD=" ++ v). split; [apply Offer_Props.trim_iff, word_trim, W|]. split; [discriminate|]. split; [discriminate|]. right.
    split; [discriminate|]. exists (lit "LD_PRELOAD"), v, v. split; [reflexivity|]. split; [cbn; intros C; repeat (destruct C as [C|C]; [discriminate C|]); exact C|].
    split; [apply Offer_Props.trim_iff; reflexivity|]. split; [apply key_iff; reflexivity|]. split; [apply Offer_Props.trim_iff, word_trim; intros c C; apply H, C|].
    right. split; [|reflexivity]. intros u (q & Q & X). subst v. destruct (H q (or_introl eq_refl)) as (_ & Q1 & Q2 & _). destruct Q; contradiction. }
  apply (C143_seen_partial home root own x e e' [(lit "LD_PRELOAD", v)] []); try discriminate; try assumption.
  - cbn [file_says f_dotenv x]. rewrite LN. apply c_say; [exact D|constructor].
  - reflexivity.
  - exists [], []. split; [reflexivity|]. intros w [].
Qed.
Print Assumptions C143_loader_refuted.

(** values are taken as they are written: export PATH="dir:$PATH" in an allowed .envrc leaves a search
    path on which none of the directories that were on it is *)
Theorem C143_values_expand_refuted : forall home root own e q,
  assoc PATH (system e) = Some q -> ~ In (lit "$PATH") (entries_of q) -> ~ In (lit "/opt/bin") (entries_of q) ->
  exists e', activate home root own (Found NoFile (Text (lit "export PATH=""/opt/bin:$PATH""")) true None) e = (e', true) /\
    paths e' = [lit "/opt/bin"; lit "$PATH"] /\ forall d, In d (entries_of q) -> ~ In d (paths e').
Proof.
  intros home root own e q S N1 N2. unfold activate. cbn [apply_dotenv f_dotenv f_envrc f_allowed f_venv]. unfold apply_envrc.
  replace (vars_of (parse_envrc (lit "export PATH=""/opt/bin:$PATH"""))) with [(PATH, lit "/opt/bin:$PATH")] by (vm_compute; reflexivity).
  replace (adds_of (parse_envrc (lit "export PATH=""/opt/bin:$PATH"""))) with (@nil str) by (vm_compute; reflexivity).
  cbn [fold_left set_all fst snd apply_venv]. eexists. split; [reflexivity|].
  assert (P : paths (set_env_var PATH (lit "/opt/bin:$PATH") e) = [lit "/opt/bin"; lit "$PATH"]).
  { unfold set_env_var. change (str_eqb PATH PATH) with true. cbv iota. unfold reload_path. cbn [paths set_cache set_paths system set_system]. rewrite assoc_insert.
    destruct (str_eq_dec PATH PATH); [|congruence]. vm_compute. reflexivity. }
  rewrite P. split; [reflexivity|]. intros d D [<-|[<-|[]]]; contradiction.
Qed.
Print Assumptions C143_values_expand_refuted.

(** ** the root *)
Definition marked (exists_ : list str -> bool) (d : list str) : Prop := exists m, In m PROJECT_MARKERS /\ exists_ (d ++ [m]) = true.
Lemma ancestor_spec exists_ rdir :
  match ancestor_with exists_ rdir with
  | Some a => above a (rev rdir) /\ marked exists_ a /\ forall x, above x (rev rdir) -> marked exists_ x -> above x a
  | None => forall x, above x (rev rdir) -> ~ marked exists_ x
  end.
Proof.
  assert (M : forall d, existsb (fun m => exists_ (d ++ [m])) PROJECT_MARKERS = true <-> marked exists_ d) by (intros d; apply existsb_exists).
  induction rdir as [|c r IH]; unfold ancestor_with; fold ancestor_with.
  - destruct (existsb _ PROJECT_MARKERS) eqn:E.
    + apply M in E. split; [exists []; reflexivity|]. split; [exact E|]. intros x X _. exact X.
    + intros x (t & T) X. cbn in T. symmetry in T. apply app_eq_nil in T as [-> _]. apply M in X. cbn [rev] in E. congruence.
  - destruct (existsb _ PROJECT_MARKERS) eqn:E.
    + apply M in E. split; [exists []; symmetry; apply app_nil_r|]. split; [exact E|]. intros x X _. exact X.
    + assert (UP : forall x, above x (rev (c :: r)) -> marked exists_ x -> above x (rev r)).
      { intros x (t & T) X. destruct t as [|y t] using rev_ind.
        - rewrite app_nil_r in T. subst x. apply M in X. congruence.
        - cbn [rev] in T. rewrite app_assoc in T. apply app_inj_tail in T as [T _]. exists t. exact T. }
      destruct (ancestor_with exists_ r) as [a|].
      * destruct IH as ((t & A) & B & C). split; [cbn [rev]; rewrite A, <- app_assoc; eexists; reflexivity|]. split; [exact B|]. intros x X Y. apply C; [apply UP; assumption|exact Y].
      * intros x X Y. exact (IH x (UP x X Y) Y).
Qed.
(** C143: the directory that is activated is the nearest one above that has a project file, or the
    current one if there is none *)
Theorem C143_root : forall exists_ dir,
  let root := find_project_root exists_ dir in
  above root dir /\ ((marked exists_ root /\ forall x, above x dir -> marked exists_ x -> above x root) \/
                     (root = dir /\ forall x, above x dir -> ~ marked exists_ x)).
Proof.
  intros exists_ dir. unfold find_project_root. pose proof (ancestor_spec exists_ (rev dir)) as A. rewrite rev_involutive in A.
  destruct (ancestor_with exists_ (rev dir)) as [a|]; cbv zeta.
  - destruct A as (A & B & C). split; [exact A|]. left. auto.
  - split; [exists []; symmetry; apply app_nil_r|]. right. auto.
Qed.
Print Assumptions C143_root.

(** ** cases *)
Definition shell_env (p : str) : env := env_new [(PATH, p)] (with_capacity 1 1 1) (fun _ => None).
Definition dotenv_text : str := lit "# keys" ++ [10%N] ++ lit "export A = ""one two"" " ++ [10%N] ++ lit "B=1" ++ [10%N] ++ lit "B=2" ++ [10%N] ++ lit "bad-name=3".
Definition envrc_text : str := lit "EXPORT C='x'" ++ [10%N] ++ lit "path_add bin" ++ [10%N] ++ lit "source other".
Definition both (allowed : bool) : findings := Found (Text dotenv_text) (Text envrc_text) allowed (Some (lit ".venv", true)).
Example C143_case : let e := fst (activate (lit "/home/u") (lit "/p") None (both true) (shell_env (lit "/bin"))) in
  map (fun k => assoc (lit k) (child_process_env e)) ["A"%string; "B"%string; "C"%string; "VIRTUAL_ENV"%string; "PATH"%string]
  = [Some (lit "one two"); Some (lit "2"); Some (lit "x"); Some (lit "/p/.venv"); Some (lit "/p/.venv/bin:/p/bin:/bin")].
Proof. vm_compute. reflexivity. Qed.
Example C143_not_allowed_case : let e := fst (activate (lit "/home/u") (lit "/p") None (both false) (shell_env (lit "/bin"))) in
  map (fun k => assoc (lit k) (child_process_env e)) ["A"%string; "B"%string; "C"%string; "PATH"%string]
  = [Some (lit "one two"); Some (lit "2"); None; Some (lit "/p/.venv/bin:/bin")].
Proof. vm_compute. reflexivity. Qed.
Example C143_twice_case : let e := fst (activate (lit "/home/u") (lit "/p") None (both true) (shell_env (lit "/bin"))) in
  assoc PATH (system (fst (activate (lit "/home/u") (lit "/p") None (both true) e))) = Some (lit "/p/.venv/bin:/p/bin:/bin").
Proof. vm_compute. reflexivity. Qed.
Example C143_grows_case : let x := Found NoFile NoFile false (Some (lit "venv", true)) in
  let e := fst (activate (lit "/home/u") (lit "/a:b") None x (shell_env (lit "/bin"))) in
  assoc PATH (system (fst (activate (lit "/home/u") (lit "/a:b") None x e))) = Some (lit "/a:b/venv/bin:/a:b/venv/bin:/bin").
Proof. vm_compute. reflexivity. Qed.
Example C143_root_case : let has := fun p => path_eqb p [lit "w"; lit ".git"] || path_eqb p [lit "w"; lit "a"; lit "Makefile"] in
  find_project_root has [lit "w"; lit "a"; lit "b"; lit "c"] = [lit "w"; lit "a"] /\ find_project_root has [lit "w"; lit "x"] = [lit "w"] /\ find_project_root has [lit "tmp"] = [lit "tmp"].
Proof. vm_compute. auto. Qed.
