(** C211-C218: what is said of a project. *)
From Verif Require Import Base Runtime_Model Runtime_Spec.
From Verif Require Answer_Props Direnv_Model Project_Model Task_Model Task_Props Compgen_Model.

(** ** C211: the nearest file *)
Lemma there_iff d p : there d p = true <-> d p <> None.
Proof. unfold there. destruct (d p); split; congruence. Qed.
Lemma there_false d p : there d p = false <-> d p = None.
Proof. unfold there. destruct (d p); split; congruence. Qed.
Lemma upwards_some d name up p : upwards d up name = Some p -> exists a b, rev up = a ++ b /\ p = a ++ [name] /\ d p <> None /\ forall a' b', rev up = a' ++ b' -> length a < length a' -> d (a' ++ [name]) = None.
Proof.
  induction up as [|x up IH]; cbn [upwards]; destruct (there d _) eqn:T; intros H; try discriminate.
  - injection H as <-. exists [], []. apply there_iff in T. split; [reflexivity|]. split; [reflexivity|]. split; [exact T|]. intros a' b' E L. cbn in E. symmetry in E. apply app_eq_nil in E. destruct E as [-> _]. cbn in L. lia.
  - injection H as <-. exists (rev (x :: up)), []. apply there_iff in T. split; [rewrite app_nil_r; reflexivity|]. split; [reflexivity|]. split; [exact T|]. intros a' b' E L. rewrite E, app_length in L. lia.
  - destruct (IH H) as (a & b & E & P & X & N). exists a, (b ++ [x]). split; [cbn [rev]; rewrite E, <- app_assoc; reflexivity|]. split; [exact P|]. split; [exact X|]. intros a' b' E' L. destruct (rev b') as [|y z] eqn:B.
    + apply (f_equal (@rev str)) in B. rewrite rev_involutive in B. cbn in B. subst b'. rewrite app_nil_r in E'. rewrite <- E'. apply there_false. exact T.
    + apply (f_equal (@rev str)) in B. rewrite rev_involutive in B. cbn in B. subst b'. cbn [rev] in E'. rewrite app_assoc in E'. apply app_inj_tail in E'. destruct E' as [E' _]. exact (N a' (rev z) E' L).
Qed.
Lemma upwards_none d name up : upwards d up name = None <-> forall a b, rev up = a ++ b -> d (a ++ [name]) = None.
Proof.
  induction up as [|x up IH]; cbn [upwards]; destruct (there d _) eqn:T.
  - split; [discriminate|]. intros H. apply there_iff in T. exfalso. apply T. exact (H [] [] eq_refl).
  - split; [|reflexivity]. intros _ a b E. cbn in E. symmetry in E. apply app_eq_nil in E. destruct E as [-> _]. apply there_false. exact T.
  - split; [discriminate|]. intros H. apply there_iff in T. exfalso. apply T. apply (H (rev (x :: up)) []). rewrite app_nil_r. reflexivity.
  - rewrite IH. split.
    + intros H a b E. destruct (rev b) as [|y z] eqn:B; apply (f_equal (@rev str)) in B; rewrite rev_involutive in B; cbn in B; subst b.
      * rewrite app_nil_r in E. rewrite <- E. apply there_false. exact T.
      * cbn [rev] in E. rewrite app_assoc in E. apply app_inj_tail in E. apply (H a (rev z)). apply E.
    + intros H a b E. apply (H a (b ++ [x])). cbn [rev]. rewrite E, <- app_assoc. reflexivity.
Qed.
Theorem C211_none : forall d cwd name, find_up d cwd name = None <-> nowhere d cwd name.
Proof. intros d cwd name. unfold find_up, nowhere. rewrite upwards_none, rev_involutive. reflexivity. Qed.
Lemma nearest_unique d cwd name p q : Nearest d cwd name p -> Nearest d cwd name q -> p = q.
Proof.
  intros (a & b & E & P & X & N) (a' & b' & E' & P' & X' & N'). destruct (Nat.lt_trichotomy (length a) (length a')) as [L|[L|L]].
  - exfalso. apply X'. rewrite P'. exact (N a' b' E' L).
  - rewrite P, P'. rewrite E in E'. assert (A : a = a'). { clear -E' L. revert a' E' L. induction a as [|x a IH]; intros [|y a'] E L; try discriminate; [reflexivity|]. injection E as <- E. f_equal. apply (IH a' E). injection L as L. exact L. } rewrite A. reflexivity.
  - exfalso. apply X. rewrite P. exact (N' a b E L).
Qed.
Theorem C211_nearest : forall d cwd name p, find_up d cwd name = Some p <-> Nearest d cwd name p.
Proof.
  intros d cwd name p. assert (A : forall q, find_up d cwd name = Some q -> Nearest d cwd name q). { intros q H. apply upwards_some in H. rewrite rev_involutive in H. exact H. }
  split; [apply A|]. intros H. destruct (find_up d cwd name) as [q|] eqn:F.
  - f_equal. apply (nearest_unique d cwd name); [apply A; reflexivity|exact H].
  - apply (proj1 (C211_none d cwd name)) in F. destruct H as (a & b & E & P & X & _). exfalso. apply X. rewrite P. exact (F a b E).
Qed.

(** ** C212: the version in a file *)
Lemma idle_iff t : idle t = true <-> t = [] \/ exists r, t = chr "#" :: r.
Proof.
  unfold idle, Project_Model.comment. destruct t as [|c t]; [tauto|]. rewrite N.eqb_eq. split; [intros ->; right; exists t; reflexivity|]. intros [X|[r X]]; [discriminate|]. injection X as -> _. reflexivity.
Qed.
Lemma silent_iff l : silent l <-> idle (trim l) = true.
Proof. unfold silent. rewrite idle_iff. reflexivity. Qed.
Lemma speaks_iff l : ~ silent l <-> idle (trim l) = false.
Proof. rewrite silent_iff. destruct (idle (trim l)); split; congruence. Qed.
Theorem C212_first_line : forall s v, first_line s = Some v <-> First_line s v.
Proof.
  intros s v. unfold first_line, First_line. generalize (lines s) as ls. induction ls as [|l ls IH]; cbn [map find].
  - split; [discriminate|]. intros (a & l & b & E & _). destruct a; discriminate.
  - destruct (idle (trim l)) eqn:I; cbn [negb].
    + rewrite IH. split.
      * intros (a & x & b & E & S & N & V). exists (l :: a), x, b. split; [rewrite E; reflexivity|]. split; [|split; assumption]. intros y [<-|Y]; [apply silent_iff; exact I|apply S; exact Y].
      * intros (a & x & b & E & S & N & V). destruct a as [|y a]; injection E as -> E; [exfalso; apply N, silent_iff; exact I|]. exists a, x, b. split; [exact E|]. split; [intros z Z; apply S; right; exact Z|split; assumption].
    + split.
      * intros [= <-]. exists [], l, ls. split; [reflexivity|]. split; [intros x []|]. split; [apply speaks_iff; exact I|reflexivity].
      * intros (a & x & b & E & S & N & V). destruct a as [|y a]; injection E as -> E; [rewrite V; reflexivity|]. specialize (S y (or_introl eq_refl)). apply silent_iff in S. congruence.
Qed.
Lemma words_fun s ws : Words s ws <-> split_whitespace s = ws.
Proof. apply Words_iff. Qed.
Lemma about_iff ns l ws : About ns l ws <-> idle (trim l) = false /\ exists t, mem_str t ns = true /\ split_whitespace (trim l) = t :: ws.
Proof.
  unfold About. rewrite speaks_iff. apply and_iff_compat_l. split; intros (t & A & B); exists t; (split; [|apply words_fun; exact B]); apply mem_str_iff; exact A.
Qed.
Theorem C212_tool_versions : forall ns s v, tool_versions ns s = Some v <-> Tool_version ns s v.
Proof.
  intros ns s v. unfold tool_versions, Tool_version. generalize (lines s) as ls. induction ls as [|l ls IH]; cbn [tool_lines].
  - split; [discriminate|]. intros (a & l & b & ws & E & _). destruct a; discriminate.
  - assert (SK : (forall w, ~ About ns l w) -> (exists a x b ws, ls = a ++ x :: b /\ (forall y w, In y a -> ~ About ns y w) /\ About ns x (v :: ws)) <-> (exists a x b ws, l :: ls = a ++ x :: b /\ (forall y w, In y a -> ~ About ns y w) /\ About ns x (v :: ws))).
    { intros NA. split.
      - intros (a & x & b & ws & E & S & N). exists (l :: a), x, b, ws. split; [rewrite E; reflexivity|]. split; [|exact N]. intros y w [<-|Y]; [apply NA|apply S; exact Y].
      - intros (a & x & b & ws & E & S & N). destruct a as [|y a]; injection E as -> E; [exfalso; exact (NA _ N)|]. exists a, x, b, ws. split; [exact E|]. split; [intros z w Z; apply S; right; exact Z|exact N]. }
    destruct (idle (trim l)) eqn:I.
    { rewrite IH. apply SK. intros w A. apply about_iff in A. destruct A as [A _]. congruence. }
    destruct (split_whitespace (trim l)) as [|t rest] eqn:W.
    { exfalso. pose proof (proj2 (words_fun _ _) W) as X. clear -X I. assert (T : trim l <> []) by (intros E; rewrite E in I; discriminate). 
      destruct (Answer_Props.trim_ends l) as [H _]. destruct (trim l) as [|c r]; [congruence|]. specialize (H c r eq_refl). inversion X as [s0 A|]; subst. rewrite (A c (or_introl eq_refl)) in H. discriminate. }
    destruct (mem_str t ns) eqn:M.
    + split.
      * destruct rest as [|y rest]; [discriminate|]. intros [= <-]. exists [], l, ls, rest. split; [reflexivity|]. split; [intros x w []|]. apply about_iff. split; [exact I|]. exists t. split; [exact M|exact W].
      * intros (a & x & b & ws & E & S & N). destruct a as [|z a]; injection E as -> E.
        -- apply about_iff in N. destruct N as (_ & t' & _ & W'). rewrite W in W'. injection W' as _ ->. reflexivity.
        -- exfalso. apply (S z rest (or_introl eq_refl)). apply about_iff. split; [exact I|]. exists t. split; assumption.
    + rewrite IH. apply SK. intros w A. apply about_iff in A. destruct A as (_ & t' & M' & W'). rewrite W in W'. injection W' as <- _. congruence.
Qed.
(** A tool named without a version hides what is said of it below. *)
Theorem C212_no_version_refuted : forall ns s a l b, lines s = a ++ l :: b -> (forall x w, In x a -> ~ About ns x w) -> About ns l [] -> tool_versions ns s = None.
Proof.
  intros ns s a l b E NA A. destruct (tool_versions ns s) as [v|] eqn:T; [|reflexivity]. apply C212_tool_versions in T. destruct T as (a' & l' & b' & ws & E' & NA' & A'). exfalso. rewrite E in E'. clear E.
  revert a' E' NA'. induction a as [|x a IH]; intros [|y a'] E' NA'; injection E' as -> E'.
  - apply about_iff in A, A'. destruct A as (_ & t & _ & W), A' as (_ & t' & _ & W'). congruence.
  - exact (NA' y [] (or_introl eq_refl) A).
  - exact (NA l' (v :: ws) (or_introl eq_refl) A').
  - apply (IH (fun z w Z => NA z w (or_intror Z)) a' E' (fun z w Z => NA' z w (or_intror Z))).
Qed.
Lemma gives_extract x v : Gives x v -> extract x = Some v.
Proof. intros [->|(l & -> & H)]; [reflexivity|]. cbn [extract]. rewrite H. reflexivity. Qed.
Lemma mute_extract x : Mute x -> extract x = None.
Proof.
  intros [->|(l & -> & H)]; [reflexivity|]. cbn [extract]. destruct (tget (lit "version") l) as [[s| | |]|] eqn:E; try reflexivity. destruct (H s eq_refl).
Qed.
(** mise.toml: a text, a table with a version, or a list of these. *)
Theorem C212_mise : forall toml s top t n ns x v, toml s = Some (TTab top) -> tget (lit "tools") top = Some (TTab t) -> tget n t = Some x ->
  Gives x v \/ (exists a y b, x = TArr (a ++ y :: b) /\ Forall Mute a /\ Gives y v) -> mise_version toml (n :: ns) s = Some v.
Proof.
  intros toml s top t n ns x v T U X G. unfold mise_version. rewrite T. cbn [sub]. rewrite U, X. assert (E : extract x = Some v); [|rewrite E; reflexivity].
  destruct G as [G|(a & y & b & -> & A & G)]; [apply gives_extract; exact G|]. apply gives_extract in G. cbn [extract]. clear X. induction A as [|z a M A IH]; cbn [app]; [rewrite G; reflexivity|]. rewrite (mute_extract z M). exact IH.
Qed.
(** The next name is asked for only if the first is not there or has no version. *)
Theorem C212_mise_next : forall toml s top t n ns, toml s = Some (TTab top) -> tget (lit "tools") top = Some (TTab t) -> (forall x, tget n t = Some x -> Mute x) -> mise_version toml (n :: ns) s = mise_version toml ns s.
Proof.
  intros toml s top t n ns T U M. unfold mise_version. rewrite T. cbn [sub]. rewrite U. destruct (tget n t) as [x|]; [|reflexivity]. rewrite (mute_extract x (M x eq_refl)). reflexivity.
Qed.

(** ** C213: the runtime *)
Lemma from_file_iff d cwd l src name get r : from_file d cwd l src name get = Some r <-> exists p s v, Nearest d cwd name p /\ d p = Some (Text (Some s)) /\ get s = Some v /\ r = Runtime l src (Some v) p.
Proof.
  unfold from_file. split.
  - destruct (find_up d cwd name) as [p|] eqn:F; [|discriminate]. unfold read. destruct (d p) as [[[s|]|]|] eqn:D; try discriminate. destruct (get s) as [v|] eqn:G; [|discriminate]. intros [= <-]. exists p, s, v. split; [apply C211_nearest; exact F|]. split; [exact D|]. split; [exact G|reflexivity].
  - intros (p & s & v & N & D & G & ->). apply (proj2 (C211_nearest d cwd name p)) in N. rewrite N. unfold read. rewrite D, G. reflexivity.
Qed.
(** a place and the function that looks there *)
Definition looks (d : disk) (cwd : path) (l : str) (s : src) (o : option runtime) : Prop := forall r, o = Some r <-> exists v p, Offers d cwd s v p /\ r = Runtime l (label s) v p.
Lemma looks_text d cwd l src name get (R : str -> str -> Prop) : (forall s v, get s = Some v <-> R s v) -> looks d cwd l (Src src name (text_says R)) (from_file d cwd l src name get).
Proof.
  intros H r. rewrite from_file_iff. split.
  - intros (p & s & v & N & D & G & ->). exists (Some v), p. split; [|reflexivity]. split; [exact N|]. exists (Text (Some s)). split; [exact D|]. exists s, v. split; [reflexivity|]. split; [reflexivity|]. apply H. exact G.
  - intros (v & p & (N & n & D & s & x & -> & -> & X) & ->). exists p, s, x. split; [exact N|]. split; [exact D|]. split; [apply H; exact X|reflexivity].
Qed.
Lemma looks_mise toml d cwd l ns : looks d cwd l (a_mise toml ns) (from_mise toml d cwd l ns).
Proof. apply looks_text. intros s v. reflexivity. Qed.
Lemma looks_tools d cwd l ns : looks d cwd l (a_tools ns) (from_tools d cwd l ns).
Proof. apply looks_text. apply C212_tool_versions. Qed.
Lemma looks_file d cwd l name : looks d cwd l (a_file name) (from_text d cwd l name).
Proof. apply looks_text. apply C212_first_line. Qed.
Lemma looks_folder d cwd l name : looks d cwd l (a_folder name) (from_folder d cwd l name).
Proof.
  intros r. unfold from_folder. split.
  - destruct (find_up d cwd name) as [p|] eqn:F; [|discriminate]. destruct (d p) as [[s|]|] eqn:D; try discriminate. intros [= <-]. exists None, p. split; [|reflexivity]. split; [apply C211_nearest; exact F|]. exists Folder. split; [exact D|]. split; reflexivity.
  - intros (v & p & (N & n & D & -> & ->) & ->). apply (proj2 (C211_nearest d cwd name p)) in N. cbn [fname a_folder] in N. rewrite N, D. reflexivity.
Qed.
Lemma looks_channel toml d cwd : looks d cwd (lit "rust") (a_channel toml) (from_file d cwd (lit "rust") (lit "rust-toolchain.toml") (lit "rust-toolchain.toml") (channel toml)).
Proof.
  apply looks_text. intros s v. unfold channel. split.
  - destruct (toml s) as [[| top | |]|]; cbn [sub]; try discriminate. destruct (tget (lit "toolchain") top) as [[|t| |]|] eqn:T; cbn [sub]; try discriminate. destruct (tget (lit "channel") t) as [[x| | |]|] eqn:C; try discriminate. intros [= <-]. exists top, t. split; [reflexivity|]. split; [exact T|exact C].
  - intros (top & t & -> & T & C). cbn [sub]. rewrite T. cbn [sub]. rewrite C. reflexivity.
Qed.
Lemma picks_or d cwd l last s r o rest : looks d cwd l s o -> (forall q, Picks d cwd l last r q <-> rest = q) -> forall q, Picks d cwd l last (s :: r) q <-> or_else o rest = q.
Proof.
  intros L R q. destruct o as [x|]; cbn [or_else].
  - destruct (proj1 (L x) eq_refl) as (v & p & O & E). split.
    + intros P. inversion P as [|? ? v' p' O'|? ? ? NO]; subst; [|destruct (NO v p O)]. apply (proj2 (L (Runtime l (label s) v' p'))). exists v', p'. split; [exact O'|reflexivity].
    + intros <-. rewrite E. apply Picks_here. exact O.
  - assert (NO : forall v p, ~ Offers d cwd s v p). { intros v p O. assert (X : None = Some (Runtime l (label s) v p)) by (apply L; exists v, p; split; [exact O|reflexivity]). discriminate. } split.
    + intros P. inversion P as [|? ? v' p' O'|? ? ? NO' P']; subst; [destruct (NO v' p' O')|apply R; exact P'].
    + intros E. apply Picks_next; [exact NO|]. apply R. exact E.
Qed.
Lemma picks_end d cwd l last : forall q, Picks d cwd l last [] q <-> last = q.
Proof. intros q. split; [intros P; inversion P; reflexivity|]. intros <-. constructor. Qed.
Lemma found_up_iff d cwd n : found_up d cwd n = true <-> above d cwd n.
Proof.
  unfold found_up, above. rewrite <- C211_none. destruct (find_up d cwd n); split; congruence.
Qed.
Lemma guard (b : bool) (x : option runtime) r : (if b then x else None) = Some r <-> b = true /\ x = Some r.
Proof. destruct b; split; [tauto|tauto|discriminate|intros [X _]; discriminate]. Qed.
(** The version is that of the first place that names one; the project's own file is the last resort. *)
Theorem C213_node : forall toml d cwd root r, node_js toml d cwd root = Some r <->
  (file_in d root (lit "package.json") \/ above d cwd (lit ".node-version") \/ above d cwd (lit ".nvmrc")) /\
  Picks d cwd (lit "node") (Some (Runtime (lit "node") (lit "package.json") None (root ++ [lit "package.json"])))
    [a_mise toml [lit "node"; lit "nodejs"]; a_tools [lit "node"; lit "nodejs"]; a_file (lit ".node-version"); a_file (lit ".nvmrc")] (Some r).
Proof.
  intros toml d cwd root r. unfold node_js. rewrite guard. rewrite !orb_true_iff, there_iff, !found_up_iff. rewrite or_assoc. apply and_iff_compat_l. symmetry.
  apply picks_or; [apply looks_mise|]. apply picks_or; [apply looks_tools|]. apply picks_or; [apply looks_file|]. apply picks_or; [apply looks_file|]. apply picks_end.
Qed.
Theorem C213_python : forall toml d cwd root r, python toml d cwd root = Some r <->
  ((exists n, In n [lit "pyproject.toml"; lit "requirements.txt"; lit "Pipfile"; lit ".venv"; lit "venv"] /\ file_in d root n) \/ above d cwd (lit ".python-version")) /\
  Picks d cwd (lit "python") (fallbacks d root (lit "python") [lit "pyproject.toml"; lit "requirements.txt"; lit "Pipfile"])
    [a_mise toml [lit "python"]; a_tools [lit "python"]; a_file (lit ".python-version"); a_folder (lit ".venv"); a_folder (lit "venv")] (Some r).
Proof.
  intros toml d cwd root r. unfold python. rewrite guard. rewrite orb_true_iff, found_up_iff. assert (E : existsb (fun n => there d (root ++ [n])) (python_files ++ [lit ".venv"; lit "venv"]) = true <-> exists n, In n [lit "pyproject.toml"; lit "requirements.txt"; lit "Pipfile"; lit ".venv"; lit "venv"] /\ file_in d root n).
  { rewrite existsb_exists. split; intros (n & I & H); exists n; (split; [exact I|]); apply there_iff; exact H. }
  rewrite E. apply and_iff_compat_l. symmetry.
  apply picks_or; [apply looks_mise|]. apply picks_or; [apply looks_tools|]. apply picks_or; [apply looks_file|]. apply picks_or; [apply looks_folder|]. apply picks_or; [apply looks_folder|]. apply picks_end.
Qed.
Theorem C213_go : forall toml d cwd root r, go toml d cwd root = Some r <->
  (file_in d root (lit "go.mod") \/ above d cwd (lit "go.mod")) /\
  Picks d cwd (lit "go") (fallbacks d root (lit "go") [lit "go.mod"]) [a_mise toml [lit "go"]; a_tools [lit "go"; lit "golang"]] (Some r).
Proof.
  intros toml d cwd root r. unfold go. rewrite guard. rewrite orb_true_iff, there_iff, found_up_iff. apply and_iff_compat_l. symmetry.
  apply picks_or; [apply looks_mise|]. apply picks_or; [apply looks_tools|]. apply picks_end.
Qed.
(** The last resort is the first of the project's own files that is there. *)
Theorem C213_last_resort : forall d root l ns r, fallbacks d root l ns = Some r <-> exists a n b, ns = a ++ n :: b /\ (forall m, In m a -> ~ file_in d root m) /\ file_in d root n /\ r = Runtime l n None (root ++ [n]).
Proof.
  intros d root l ns r. unfold fallbacks. induction ns as [|n ns IH]; cbn [find].
  - split; [discriminate|]. intros (a & n & b & E & _). destruct a; discriminate.
  - destruct (there d (root ++ [n])) eqn:T.
    + split.
      * intros [= <-]. exists [], n, ns. split; [reflexivity|]. split; [intros m []|]. split; [apply there_iff; exact T|reflexivity].
      * intros (a & m & b & E & N & F & ->). destruct a as [|x a]; injection E as -> E; [reflexivity|]. destruct (N x (or_introl eq_refl)). apply there_iff. exact T.
    + rewrite IH. split.
      * intros (a & m & b & E & N & F & R). exists (n :: a), m, b. split; [rewrite E; reflexivity|]. split; [|split; assumption]. intros x [<-|X]; [intros K; apply there_iff in K; congruence|apply N; exact X].
      * intros (a & m & b & E & N & F & R). destruct a as [|x a]; injection E as -> E; [apply there_iff in F; congruence|]. exists a, m, b. split; [exact E|]. split; [intros y Y; apply N; right; exact Y|split; assumption].
Qed.
(** Rust, if rust-toolchain.toml is not there or names a channel. *)
Theorem C213_rust_partial : forall toml d cwd root r, nowhere d cwd (lit "rust-toolchain.toml") \/ (exists v p, Offers d cwd (a_channel toml) v p) -> rust toml d cwd root = Some r <->
  (file_in d root (lit "Cargo.toml") \/ above d cwd (lit "rust-toolchain.toml") \/ above d cwd (lit "rust-toolchain")) /\
  Picks d cwd (lit "rust") (Some (Runtime (lit "rust") (lit "Cargo.toml") None (root ++ [lit "Cargo.toml"])))
    [a_mise toml [lit "rust"]; a_tools [lit "rust"]; a_channel toml; a_file (lit "rust-toolchain")] (Some r).
Proof.
  intros toml d cwd root r H. unfold rust. rewrite guard. rewrite !orb_true_iff, there_iff, !found_up_iff. rewrite or_assoc. apply and_iff_compat_l. symmetry.
  apply picks_or; [apply looks_mise|]. apply picks_or; [apply looks_tools|]. set (last := Some (Runtime (lit "rust") (lit "Cargo.toml") None (root ++ [lit "Cargo.toml"]))).
  set (o := from_file d cwd (lit "rust") (lit "rust-toolchain.toml") (lit "rust-toolchain.toml") (channel toml)).
  assert (E : or_else (from_toolchain toml d cwd) last = or_else o (or_else (from_text d cwd (lit "rust") (lit "rust-toolchain")) last)).
  { unfold from_toolchain. destruct H as [H|(v & p & O)].
    - apply (proj2 (C211_none d cwd _)) in H. unfold o, from_file at 2. rewrite H. reflexivity.
    - pose proof O as O2. destruct O2 as [N _]. apply (proj2 (C211_nearest d cwd _ p)) in N. cbn [fname a_channel] in N. rewrite N. fold o. assert (X : o = Some (Runtime (lit "rust") (label (a_channel toml)) v p)) by (apply (looks_channel toml d cwd); exists v, p; split; [exact O|reflexivity]). rewrite X. reflexivity. }
  rewrite E. apply picks_or; [apply looks_channel|]. apply picks_or; [apply looks_file|]. apply picks_end.
Qed.
(** A rust-toolchain.toml without a channel hides rust-toolchain, whatever it says. *)
Theorem C213_toolchain_refuted : forall toml d cwd root, above d cwd (lit "rust-toolchain.toml") -> (forall v p, ~ Offers d cwd (a_channel toml) v p) -> (forall v p, ~ Offers d cwd (a_mise toml [lit "rust"]) v p) -> (forall v p, ~ Offers d cwd (a_tools [lit "rust"]) v p) ->
  rust toml d cwd root = Some (Runtime (lit "rust") (lit "Cargo.toml") None (root ++ [lit "Cargo.toml"])).
Proof.
  intros toml d cwd root A NC NM NT. assert (Z : forall s o, looks d cwd (lit "rust") s o -> (forall v p, ~ Offers d cwd s v p) -> o = None). { intros s o L N. destruct o as [x|]; [|reflexivity]. destruct (proj1 (L x) eq_refl) as (v & p & O & _). destruct (N v p O). }
  unfold rust. rewrite (proj2 (found_up_iff d cwd _) A). rewrite orb_true_r. cbn [orb]. rewrite (Z _ _ (looks_mise toml d cwd (lit "rust") [lit "rust"]) NM), (Z _ _ (looks_tools d cwd (lit "rust") [lit "rust"]) NT). cbn [or_else]. unfold from_toolchain. destruct (find_up d cwd (lit "rust-toolchain.toml")) as [p|] eqn:F; [|apply (proj1 (C211_none _ _ _)) in F; destruct (A F)]. rewrite (Z _ _ (looks_channel toml d cwd) NC). reflexivity.
Qed.
(** and then the file named need not be there *)
Theorem C213_missing_refuted : forall toml d cwd root, above d cwd (lit "rust-toolchain.toml") -> (forall v p, ~ Offers d cwd (a_channel toml) v p) -> (forall v p, ~ Offers d cwd (a_mise toml [lit "rust"]) v p) -> (forall v p, ~ Offers d cwd (a_tools [lit "rust"]) v p) -> ~ file_in d root (lit "Cargo.toml") ->
  exists r, rust toml d cwd root = Some r /\ d (file r) = None.
Proof.
  intros toml d cwd root A NC NM NT F. eexists. split; [apply C213_toolchain_refuted; assumption|]. cbn [file]. unfold file_in in F. destruct (d (root ++ [lit "Cargo.toml"])); [destruct F; discriminate|reflexivity].
Qed.
(** mise.toml far above is followed though the directory itself has an .nvmrc. *)
Theorem C213_far_refuted : forall toml d cwd root v p w, Offers d cwd (a_mise toml [lit "node"; lit "nodejs"]) (Some v) p -> Offers d cwd (a_file (lit ".nvmrc")) (Some w) (cwd ++ [lit ".nvmrc"]) ->
  node_js toml d cwd root = Some (Runtime (lit "node") (lit "mise") (Some v) p).
Proof.
  intros toml d cwd root v p w M F. apply C213_node. split; [|apply (Picks_here d cwd (lit "node") _ (a_mise toml _) _ (Some v) p M)]. right. right. intros N. destruct F as [(a & b & E & P & X & _) _]. apply X. rewrite P. exact (N a b E).
Qed.
(** A Makefile below the Cargo.toml, or below the go.mod, hides the runtime. *)
Theorem C213_hidden_refuted : forall toml d cwd root,
  (~ file_in d root (lit "Cargo.toml") -> nowhere d cwd (lit "rust-toolchain.toml") -> nowhere d cwd (lit "rust-toolchain") -> rust toml d cwd root = None) /\
  (~ file_in d root (lit "go.mod") -> nowhere d cwd (lit "mise.toml") -> nowhere d cwd (lit ".tool-versions") -> go toml d cwd root = None).
Proof.
  intros toml d cwd root. split.
  - intros F A B. destruct (rust toml d cwd root) as [r|] eqn:R; [|reflexivity]. apply C213_rust_partial in R; [|left; exact A]. destruct R as [[X|[X|X]] _]; [destruct (F X)|destruct (X A)|destruct (X B)].
  - intros F A B. destruct (go toml d cwd root) as [r|] eqn:R; [|reflexivity]. apply C213_go in R. destruct R as [_ P]. assert (NO : forall s v p, nowhere d cwd (fname s) -> ~ Offers d cwd s v p). { intros s v p N [(a & b & E & Q & X & _) _]. apply X. rewrite Q. exact (N a b E). }
    inversion P as [|s r0 v p O|s r0 o N P2]; subst; [destruct (NO (a_mise toml [lit "go"]) v p A O)|]. inversion P2 as [|s r0 v p O|s r0 o N2 P3]; subst; [destruct (NO (a_tools [lit "go"; lit "golang"]) v p B O)|]. apply picks_end in P3. rename P3 into L. apply C213_last_resort in L. destruct L as (a & n & b & E & _ & X & _). destruct a as [|y [|]]; try discriminate. injection E as <- _. destruct (F X).
Qed.

(** ** C214: the files that set up the environment *)
Lemma within_iff r p : within r p = true <-> exists t, p = r ++ t.
Proof.
  revert p. induction r as [|x r IH]; intros p; cbn [within].
  - split; [intros _; exists p; reflexivity|reflexivity].
  - destruct p as [|y p]; [split; [discriminate|intros [t E]; discriminate]|]. rewrite andb_true_iff, str_eqb_eq, IH. split.
    + intros [-> [t ->]]. exists t. reflexivity.
    + intros [t E]. injection E as -> E. split; [reflexivity|exists t; exact E].
Qed.
Definition set_up (k name : str) : Prop := (k = lit "envrc" /\ name = lit ".envrc") \/ (k = lit "dotenv" /\ name = lit ".env") \/ (k = lit "venv" /\ (name = lit ".venv" \/ name = lit "venv")).
Theorem C214_listed : forall d cwd k p, In (k, p) (activations d cwd) <-> exists name, set_up k name /\ Nearest d cwd name p /\ exists t, p = root_of d cwd ++ t.
Proof.
  intros d cwd k p. unfold activations. rewrite in_flat_map. assert (K : forall n, In (k, n) kinds <-> set_up k n).
  { intros n. unfold kinds, set_up. cbn [In]. split.
    - intros [E|[E|[E|[E|[]]]]]; injection E as <- <-; tauto.
    - intros [[-> ->]|[[-> ->]|[-> [->| ->]]]]; tauto. }
  split.
  - intros ([k' n] & I & H). cbn [fst snd] in H. destruct (find_up d cwd n) as [q|] eqn:F; [|destruct H]. destruct (within (root_of d cwd) q) eqn:W; [|destruct H]. destruct H as [E|[]]. injection E as -> ->. exists n. split; [apply K; exact I|]. split; [apply C211_nearest; exact F|apply within_iff; exact W].
  - intros (n & S & N & T). exists (k, n). split; [apply K; exact S|]. cbn [fst snd]. apply (proj2 (C211_nearest d cwd n p)) in N. rewrite N. apply within_iff in T. rewrite T. left. reflexivity.
Qed.
(** With an .env in the directory, below the root, it is that one that is listed; pm activate reads the root's. *)
Theorem C214_applied_refuted : forall d cwd r t, root_of d cwd = r -> cwd = r ++ t -> t <> [] -> d (cwd ++ [lit ".env"]) <> None -> d (r ++ [lit ".env"]) <> None ->
  In (lit "dotenv", cwd ++ [lit ".env"]) (activations d cwd) /\ ~ In (lit "dotenv", r ++ [lit ".env"]) (activations d cwd).
Proof.
  intros d cwd r t R C T A B. assert (N : Nearest d cwd (lit ".env") (cwd ++ [lit ".env"])). { exists cwd, []. split; [rewrite app_nil_r; reflexivity|]. split; [reflexivity|]. split; [exact A|]. intros a' b' E L. rewrite E, app_length in L. lia. }
  split.
  - apply C214_listed. exists (lit ".env"). split; [unfold set_up; tauto|]. split; [exact N|]. exists (t ++ [lit ".env"]). rewrite R, C, <- app_assoc. reflexivity.
  - intros H. apply C214_listed in H. destruct H as (n & [[E _]|[[_ ->]|[E _]]] & N' & _); [discriminate| |discriminate]. pose proof (nearest_unique _ _ _ _ _ N N') as E. rewrite C in E. apply app_inj_tail in E. destruct E as [E _]. apply T. apply (app_inv_head r). rewrite app_nil_r. symmetry. symmetry. exact E.
Qed.

(** ** C215: the tasks *)
Lemma dedup_in l t : In t (Task_Model.dedup [] l) <-> In t l.
Proof. destruct (Task_Props.dedup_spec l []) as [_ H]. rewrite H. cbn [In]. tauto. Qed.
Lemma keys_in j k n : In n (keys (field k j)) <-> key_of j k n.
Proof.
  unfold keys, field, key_of. split.
  - destruct j as [| | | | |m]; try (intros []). destruct (Compgen_Model.get m k) as [[| | | | |f]|] eqn:G; try (intros []). intros H. apply nodup_In in H. exists m, f. split; [reflexivity|]. split; [exact G|exact H].
  - intros (m & f & -> & G & I). rewrite G. apply nodup_In. exact I.
Qed.
Lemma run_in src pre ns t : In t (map (run_of src pre) ns) <-> exists n, In n ns /\ t = Task_Model.Task src n (pre ++ n).
Proof. rewrite in_map_iff. split; intros (n & A & B); exists n; (split; [exact B|symmetry; exact A]) || (split; [symmetry; exact B|exact A]). Qed.
Lemma get_read d p s : get d p = Read s <-> d p = Some (Text (Some s)).
Proof. unfold get. destruct (d p) as [[[x|]|]|]; split; congruence. Qed.
Lemma get_absent d p : get d p = Absent <-> d p = None.
Proof. unfold get. destruct (d p) as [[[x|]|]|]; split; congruence. Qed.
Lemma reading_some {A} (parse : str -> option A) use g l : reading parse use g = Some l -> (forall t, In t l <-> exists s v, g = Read s /\ parse s = Some v /\ In t (use v)).
Proof.
  destruct g as [| |s]; cbn [reading]; [intros [= <-] t|discriminate|]; [split; [intros []|intros (s & v & X & _); discriminate]|].
  destruct (parse s) as [v|] eqn:P; [|discriminate]. intros [= <-] t. split; [intros I; exists s, v; split; [reflexivity|split; assumption]|]. intros (s' & v' & [= <-] & P' & I). rewrite P in P'. injection P' as <-. exact I.
Qed.
Section With.
Variables (toml : str -> option tval) (json_of : str -> option json) (make_says just_says : option str).
Lemma no_file d root n : ~ file_in d root n <-> d (root ++ [n]) = None.
Proof. unfold file_in. destruct (d (root ++ [n])); split; [intros H; destruct H; discriminate|discriminate|reflexivity|intros _ H; apply H; reflexivity]. Qed.
Lemma two_files d root a b s : match get d (root ++ [a]) with Absent => get d (root ++ [b]) | g => g end = Read s <-> exists f, (f = a \/ f = b /\ ~ file_in d root a) /\ holds d root f s.
Proof.
  unfold holds. destruct (get d (root ++ [a])) eqn:G.
  - apply get_absent in G. rewrite get_read. split.
    + intros H. exists b. split; [right; split; [reflexivity|apply no_file; exact G]|exact H].
    + intros (f & [->|[-> _]] & H); [congruence|exact H].
  - split; [discriminate|]. intros (f & [->|[-> N]] & H); [apply get_read in H; congruence|apply no_file in N; apply get_absent in N; congruence].
  - rewrite <- G. rewrite get_read. split.
    + intros H. exists a. split; [left; reflexivity|exact H].
    + intros (f & [->|[-> N]] & H); [exact H|apply no_file in N; apply get_absent in N; congruence].
Qed.
(** If the tasks are listed, they are those of the project's files, each once, with the command of its tool. *)
Theorem C215_listed : forall d cwd l, tasks toml json_of make_says just_says d cwd = Some l -> NoDup l /\ forall t, In t l <-> Has toml json_of make_says just_says d (root_of d cwd) t.
Proof.
  intros d cwd l. unfold tasks, project_tasks. set (root := root_of d cwd).
  destruct (mise_tasks toml d root) as [a|] eqn:A; [|discriminate]. destruct (taskfile_tasks d root) as [b|] eqn:B; [|discriminate]. destruct (turbo_tasks json_of d root) as [c|] eqn:C; [|discriminate]. destruct (nx_tasks json_of d root) as [e|] eqn:E; [|discriminate].
  intros H. assert (L : l = Task_Model.dedup [] (Task_Model.dedup [] (a ++ b ++ c ++ e) ++ js_tasks json_of d root ++ cargo_tasks d root ++ make_tasks make_says d root ++ deno_tasks json_of d root ++ just_tasks just_says d root)) by congruence. clear H. subst l. split; [apply Task_Props.dedup_spec|]. intros t. rewrite dedup_in, !in_app_iff, dedup_in, !in_app_iff.
  pose proof (reading_some _ _ _ _ A t) as IA. pose proof (reading_some _ _ _ _ B t) as IB. pose proof (reading_some _ _ _ _ C t) as IC. pose proof (reading_some _ _ _ _ E t) as IE. split.
  - intros [[I|[I|[I|I]]]|[I|[I|[I|[I|I]]]]].
    + apply IA in I. destruct I as (s & v & G & P & I). apply get_read in G. destruct v as [|top| |]; cbn [sub] in I; try destruct I. destruct (tget (lit "tasks") top) as [[|tt| |]|] eqn:T; try destruct I. rewrite in_map_iff in I. destruct I as ([n x] & <- & I). apply filter_In in I. destruct I as [I U]. apply (Has_mise _ _ _ _ _ _ s top tt n x); [exact G|exact P|exact T|exact I| |reflexivity]. destruct x; discriminate.
    + apply IB in I. destruct I as (s & v & G & P & I). injection P as <-. apply two_files in G. destruct G as (f & F & G). apply run_in in I. destruct I as (n & I & ->). apply (Has_taskfile _ _ _ _ _ _ f s n); [exact F|exact G|exact I|reflexivity].
    + apply IC in I. destruct I as (s & v & G & P & I). apply get_read in G. apply run_in in I. destruct I as (n & I & ->). apply keys_in in I. apply (Has_turbo _ _ _ _ _ _ s v n); [exact G|exact P|exact I|reflexivity].
    + apply IE in I. destruct I as (s & v & G & P & I). apply get_read in G. destruct v as [| | | | |m]; try (cbn [field] in I; destruct (rev root); cbn in I; destruct I; fail).
      cbn [field] in I. destruct (Compgen_Model.get m (lit "name")) as [nm|] eqn:N.
      * destruct nm as [| | |q| |].
        all: try (destruct (rev root) as [|z zs] eqn:RR; [destruct I|]; apply run_in in I; destruct I as (n & I & ->); apply (keys_in (Compgen_Model.Obj m)) in I; apply (Has_nx _ _ _ _ _ _ s m z n); [exact G|exact P|exact I|right; split; [intros q' Q'; rewrite N in Q'; discriminate|exists (rev zs); rewrite <- (rev_involutive root), RR; reflexivity]|unfold command_is; f_equal; rewrite <- !app_assoc; reflexivity]).
        apply run_in in I. destruct I as (n & I & ->). apply (keys_in (Compgen_Model.Obj m)) in I. apply (Has_nx _ _ _ _ _ _ s m q n); [exact G|exact P|exact I|left; exact N|unfold command_is; f_equal; rewrite <- !app_assoc; reflexivity].
      * destruct (rev root) as [|z zs] eqn:RR; [destruct I|]; apply run_in in I; destruct I as (n & I & ->); apply (keys_in (Compgen_Model.Obj m)) in I; apply (Has_nx _ _ _ _ _ _ s m z n); [exact G|exact P|exact I|right; split; [intros q' Q'; rewrite N in Q'; discriminate|exists (rev zs); rewrite <- (rev_involutive root), RR; reflexivity]|unfold command_is; f_equal; rewrite <- !app_assoc; reflexivity].
    + unfold js_tasks in I. destruct (get d (root ++ [lit "package.json"])) as [| |s] eqn:G; try destruct I. destruct (json_of s) as [j|] eqn:J; [|destruct I]. apply run_in in I. destruct I as (n & I & ->). apply keys_in in I. apply get_read in G. apply (Has_js _ _ _ _ _ _ s j n); [exact G|exact J|exact I|unfold command_is; f_equal; rewrite <- !app_assoc; reflexivity].
    + unfold cargo_tasks in I. destruct (there d (root ++ [lit "Cargo.toml"])) eqn:T; [|destruct I]. apply run_in in I. destruct I as (n & I & ->). apply (Has_cargo _ _ _ _ _ _ n); [apply there_iff; exact T|exact I|reflexivity].
    + unfold make_tasks in I. destruct (there d (root ++ [lit "Makefile"]) || there d (root ++ [lit "makefile"])) eqn:T; [|destruct I]. destruct make_says as [s|]; [|destruct I]. apply run_in in I. destruct I as (n & I & ->). apply in_flat_map in I. destruct I as (x & X & I). destruct (make_target x) as [y|] eqn:Y; [|destruct I]. destruct I as [->|[]]. apply orb_true_iff in T. rewrite !there_iff in T. apply (Has_make _ _ _ _ _ _ s x n); [exact T|reflexivity|exact X|exact Y|reflexivity].
    + unfold deno_tasks in I. destruct (match get d (root ++ [lit "deno.json"]) with Absent => get d (root ++ [lit "deno.jsonc"]) | g => g end) as [| |s] eqn:G; try destruct I. apply two_files in G. destruct G as (f & F & G). destruct (json_of (remove_comments s)) as [j|] eqn:J; [|destruct I]. apply run_in in I. destruct I as (n & I & ->). apply keys_in in I. apply (Has_deno _ _ _ _ _ _ f s j n); [exact F|exact G|exact J|exact I|reflexivity].
    + unfold just_tasks in I. destruct (existsb (fun n => there d (root ++ [n])) _) eqn:T; [|destruct I]. destruct just_says as [s|]; [|destruct I]. apply run_in in I. destruct I as (n & I & ->). apply existsb_exists in T. destruct T as (f & F & T). apply (Has_just _ _ _ _ _ _ f s n); [exact F|apply there_iff; exact T|reflexivity|exact I|reflexivity].
  - intros H. destruct H as [s top tt n x t G P T I U X|f s n t F G I X|s j n t G J K X|s m p n t G J K N X|s j n t G J K X|n t F I X|s x n t F M I Y X|f s j n t F G J K X|f s n t F G J I X]; unfold command_is in X; subst t.
    + left. left. apply IA. exists s, (TTab top). split; [apply get_read; exact G|]. split; [exact P|]. cbn [sub]. rewrite T. apply in_map_iff. exists (n, x). split; [reflexivity|]. apply filter_In. split; [exact I|]. destruct x; [reflexivity|reflexivity|reflexivity|congruence].
    + left. right. left. apply IB. exists s, s. split; [apply two_files; exists f; split; assumption|]. split; [reflexivity|]. apply run_in. exists n. split; [exact I|reflexivity].
    + left. right. right. left. apply IC. exists s, j. split; [apply get_read; exact G|]. split; [exact J|]. apply run_in. exists n. split; [apply keys_in; exact K|reflexivity].
    + left. right. right. right. apply IE. exists s, (Compgen_Model.Obj m). split; [apply get_read; exact G|]. split; [exact J|]. cbn [field]. destruct N as [N|[N (r & R)]].
      * rewrite N. apply run_in. exists n. split; [apply (keys_in (Compgen_Model.Obj m)); exact K|]. f_equal. rewrite <- !app_assoc. reflexivity.
      * rewrite R, rev_app_distr. cbn [rev app]. destruct (Compgen_Model.get m (lit "name")) as [[| | |q| |]|]; try (destruct (N q eq_refl)); apply run_in; exists n; (split; [apply (keys_in (Compgen_Model.Obj m)); exact K|]); f_equal; rewrite <- !app_assoc; reflexivity.
    + right. left. unfold js_tasks. rewrite (proj2 (get_read _ _ _) G), J. apply run_in. exists n. split; [apply keys_in; exact K|]. f_equal. rewrite <- !app_assoc. reflexivity.
    + right. right. left. unfold cargo_tasks. rewrite (proj2 (there_iff _ _) F). apply run_in. exists n. split; [exact I|reflexivity].
    + right. right. right. left. unfold make_tasks. assert (F' : there d (root ++ [lit "Makefile"]) || there d (root ++ [lit "makefile"]) = true) by (apply orb_true_iff; rewrite !there_iff; exact F). rewrite F', M. apply run_in. exists n. split; [|reflexivity]. apply in_flat_map. exists x. split; [exact I|]. rewrite Y. left. reflexivity.
    + right. right. right. right. left. unfold deno_tasks. rewrite (proj2 (two_files d root (lit "deno.json") (lit "deno.jsonc") s)) by (exists f; split; assumption). rewrite J. apply run_in. exists n. split; [apply keys_in; exact K|reflexivity].
    + right. right. right. right. right. unfold just_tasks. replace (existsb (fun n0 => there d (root ++ [n0])) [lit "Justfile"; lit "justfile"; lit ".justfile"]) with true by (symmetry; apply existsb_exists; exists f; split; [exact F|apply there_iff; exact G]). rewrite J. apply run_in. exists n. split; [exact I|reflexivity].
Qed.
(** They are listed unless one of four files is there and cannot be read; then no task of any kind is. *)
Definition bad (d : disk) (root : path) {A} (parse : str -> option A) (n : str) : Prop := file_in d root n /\ forall s v, holds d root n s -> parse s <> Some v.
Theorem C215_bad_file_refuted : forall d cwd, tasks toml json_of make_says just_says d cwd = None <->
  bad d (root_of d cwd) toml (lit "mise.toml") \/ bad d (root_of d cwd) (@Some str) (lit "Taskfile.yml") \/ ~ file_in d (root_of d cwd) (lit "Taskfile.yml") /\ bad d (root_of d cwd) (@Some str) (lit "Taskfile.yaml") \/
  bad d (root_of d cwd) json_of (lit "turbo.json") \/ bad d (root_of d cwd) json_of (lit "project.json").
Proof.
  intros d cwd. set (root := root_of d cwd). assert (R : forall A (parse : str -> option A) use n, reading parse use (get d (root ++ [n])) = None <-> bad d root parse n).
  { intros A parse use n. unfold bad, holds, file_in, get. destruct (d (root ++ [n])) as [[[s|]|]|]; cbn [reading].
    - destruct (parse s) as [v|] eqn:P; [split; [discriminate|intros [_ X]; destruct (X s v eq_refl P)]|]. split; [|reflexivity]. intros _. split; [discriminate|]. intros s' v' [= <-]. rewrite P. discriminate.
    - split; [intros _; split; [discriminate|intros s v X; discriminate]|reflexivity].
    - split; [intros _; split; [discriminate|intros s v X; discriminate]|reflexivity].
    - split; [discriminate|]. intros [X _]. destruct X. reflexivity. }
  assert (TF : taskfile_tasks d root = None <-> bad d root (@Some str) (lit "Taskfile.yml") \/ ~ file_in d root (lit "Taskfile.yml") /\ bad d root (@Some str) (lit "Taskfile.yaml")).
  { unfold taskfile_tasks. destruct (get d (root ++ [lit "Taskfile.yml"])) eqn:G.
    - rewrite R. apply get_absent in G. rewrite no_file. split; [intros H; right; split; assumption|]. intros [[X _]|[_ X]]; [destruct X; exact G|exact X].
    - rewrite <- G, R. split; [left; assumption|]. intros [X|[X _]]; [exact X|]. apply no_file in X. apply get_absent in X. congruence.
    - rewrite <- G, R. split; [left; assumption|]. intros [X|[X _]]; [exact X|]. apply no_file in X. apply get_absent in X. congruence. }
  unfold tasks, project_tasks. fold root. unfold mise_tasks, turbo_tasks, nx_tasks.
  pose proof (R _ toml (fun v => match sub (lit "tasks") v with Some (TTab l) => map (fun kv => run_of (lit "mise") (lit "mise run ") (fst kv)) (filter (fun kv => usable (snd kv)) l) | _ => [] end) (lit "mise.toml")) as RM.
  destruct (reading toml _ _) as [a|]; [|split; [intros _; left; apply RM; reflexivity|reflexivity]].
  destruct (taskfile_tasks d root) as [b|]; [|split; [intros _; right; destruct (proj1 TF eq_refl) as [X|X]; tauto|reflexivity]].
  match goal with |- context [reading json_of ?u (get d (root ++ [lit "turbo.json"]))] => pose proof (R _ json_of u (lit "turbo.json")) as RT; destruct (reading json_of u (get d (root ++ [lit "turbo.json"]))) as [c|]; [|split; [intros _; tauto|reflexivity]] end.
  match goal with |- context [reading json_of ?u (get d (root ++ [lit "project.json"]))] => pose proof (R _ json_of u (lit "project.json")) as RN; destruct (reading json_of u (get d (root ++ [lit "project.json"]))) as [e|]; [|split; [intros _; tauto|reflexivity]] end.
  split; [discriminate|]. intros [X|[X|[X|[X|X]]]]; [apply RM in X|assert (Z : Some b = None) by tauto; discriminate|assert (Z : Some b = None) by tauto; discriminate|apply RT in X|apply RN in X]; discriminate.
Qed.
End With.

(** ** C216: the targets of make *)
Lemma mem_char_false c s : mem_char c s = false <-> ~ In c s.
Proof. rewrite <- mem_char_iff. destruct (mem_char c s); split; congruence. Qed.
Theorem C216_lines : forall l t, make_target l = Some t <-> l = t ++ lit ":" /\ ~ In (chr "%") t /\ ~ In (chr " ") t /\ (forall r, t <> chr "." :: r) /\ (forall r, t <> chr "#" :: r).
Proof.
  intros l t. unfold make_target. assert (SW : forall c (x : str), starts_with [c] x = false <-> forall r, x <> c :: r).
  { intros c x. destruct x as [|y x]; cbn [starts_with]; [split; [intros _ r X; discriminate|reflexivity]|]. destruct (N.eqb_spec c y) as [->|N]; cbn [andb].
    - split; [destruct x; discriminate|]. intros H. destruct (H x eq_refl).
    - split; [intros _ r X; injection X as -> _; congruence|reflexivity]. }
  destruct (ends_with (lit ":") l) eqn:E.
  - apply ends_with_iff in E. destruct E as [a ->]. replace (firstn (length (a ++ lit ":") - 1) (a ++ lit ":")) with a by (rewrite app_length; cbn [length lit]; rewrite Nat.add_sub, firstn_app, Nat.sub_diag, firstn_all; cbn [firstn]; rewrite app_nil_r; reflexivity).
    split.
    + destruct (_ && _ && _) eqn:B; [|discriminate]. intros [= <-]. apply andb_true_iff in B. destruct B as [B B3]. apply andb_true_iff in B. destruct B as [B1 B2]. rewrite negb_true_iff in B1, B2, B3. rewrite !orb_false_iff in B1. destruct B1 as [[P Q] _]. split; [reflexivity|]. split; [apply mem_char_false; exact B2|]. split; [apply mem_char_false; exact B3|]. split; apply SW; assumption.
    + intros (X & A & B & C & D). apply app_inv_tail in X. subst a. apply mem_char_false in B. pose proof (proj2 (mem_char_false _ _) A) as A'. apply SW in C, D. rewrite A', B. change (lit ".") with [chr "."]. change (lit "#") with [chr "#"]. change (lit "%") with [chr "%"]. rewrite C, D. replace (starts_with [chr "%"] t) with false; [reflexivity|]. symmetry. apply SW. intros r ->. apply A. left. reflexivity.
  - split; [discriminate|]. intros [-> _]. exfalso. assert (X : ends_with (lit ":") (t ++ lit ":") = true) by (apply ends_with_iff; exists t; reflexivity). congruence.
Qed.
(** The tool of the scripts of package.json is told by the lock file: bun, then pnpm, then yarn, else npm. *)
Theorem C215_manager : forall d root,
  (file_in d root (lit "bun.lockb") -> manager d root = lit "bun") /\
  (~ file_in d root (lit "bun.lockb") -> file_in d root (lit "pnpm-lock.yaml") -> manager d root = lit "pnpm") /\
  (~ file_in d root (lit "bun.lockb") -> ~ file_in d root (lit "pnpm-lock.yaml") -> file_in d root (lit "yarn.lock") -> manager d root = lit "yarn") /\
  (~ file_in d root (lit "bun.lockb") -> ~ file_in d root (lit "pnpm-lock.yaml") -> ~ file_in d root (lit "yarn.lock") -> manager d root = lit "npm").
Proof.
  intros d root. unfold manager, file_in. rewrite <- !there_iff, !not_true_iff_false. repeat split; intros; repeat match goal with H : there _ _ = _ |- _ => rewrite H; clear H end; reflexivity.
Qed.
(** A Cargo.toml gives the same seven tasks. *)
Theorem C215_cargo : forall d root, map Task_Model.command (cargo_tasks d root) = if there d (root ++ [lit "Cargo.toml"]) then map lit ["cargo build"; "cargo run"; "cargo test"; "cargo check"; "cargo clippy"; "cargo fmt"; "cargo doc"]%string else [].
Proof. intros d root. unfold cargo_tasks. destruct (there d _); reflexivity. Qed.
(** A rule with anything after the colon gives no task. *)
Theorem C216_prerequisites_refuted : forall n p c, c <> chr ":" -> make_target (n ++ lit ": " ++ p ++ [c]) = None.
Proof.
  intros n p c N. destruct (make_target _) as [t|] eqn:T; [|reflexivity]. apply C216_lines in T. destruct T as [E _]. exfalso. rewrite !app_assoc in E. apply app_inj_tail in E. destruct E as [_ E]. exact (N E).
Qed.
(** make says of the files it has looked at that they are not targets; they are listed all the same. *)
Theorem C216_not_a_target_refuted : forall toml json_of just_says d cwd l f a b, make_target f = Some l -> file_in d (root_of d cwd) (lit "Makefile") -> forall out, lines out = a ++ lit "# Not a target:" :: f :: b -> forall ts,
  tasks toml json_of (Some out) just_says d cwd = Some ts -> In (Task_Model.Task (lit "make") l (lit "make " ++ l)) ts.
Proof.
  intros toml json_of js d cwd l f a b M F out O ts T. apply C215_listed in T. destruct T as [_ T]. apply T. apply (Has_make _ _ _ _ _ _ out f l); [left; exact F|reflexivity| |exact M|reflexivity]. rewrite O. apply in_or_app. right. right. left. reflexivity.
Qed.

(** ** C217: comments *)
Lemma end_line_len s : length (end_line s) <= length s.
Proof. induction s as [|c s IH]; cbn; [lia|]. destruct (c =? 10)%N; cbn; lia. Qed.
Lemma end_block_len s t : end_block s = Some t -> length t < length s.
Proof.
  induction s as [|a s IH]; [discriminate|]. destruct s as [|b r]; [discriminate|]. change (end_block (a :: b :: r)) with (if ((a =? chr "*") && (b =? chr "/"))%N then Some r else end_block (b :: r)). destruct ((a =? chr "*") && (b =? chr "/"))%N; [intros [= <-]; cbn; lia|]. intros H. specialize (IH H). cbn in *. lia.
Qed.
Lemma fuel_enough : forall n m s, length s <= n -> length s <= m -> uncomment n s = uncomment m s.
Proof.
  induction n as [|n IH]; intros m s L M; [destruct s; [destruct m; reflexivity|cbn in L; lia]|]. destruct s as [|c r]; [destruct m; reflexivity|]. destruct m as [|m]; [cbn in M; lia|]. cbn [length] in L, M. assert (K : uncomment n r = uncomment m r) by (apply IH; lia). cbn [uncomment]. destruct (c =? chr "/")%N; [|rewrite K; reflexivity]. destruct r as [|e r']; [reflexivity|]. cbn [length] in L, M. destruct (e =? chr "/")%N; [pose proof (end_line_len r'); apply IH; lia|]. destruct (e =? chr "*")%N; [|rewrite K; reflexivity]. destruct (end_block r') as [t|] eqn:E; [|rewrite K; reflexivity]. apply end_block_len in E. apply IH; lia.
Qed.
Lemma uncomment_S n c r : uncomment (Datatypes.S n) (c :: r) = if (c =? chr "/")%N then
    match r with e :: r' => if (e =? chr "/")%N then uncomment n (end_line r') else if (e =? chr "*")%N then match end_block r' with Some t => uncomment n t | None => c :: uncomment n r end else c :: uncomment n r | [] => [c] end
  else c :: uncomment n r.
Proof. reflexivity. Qed.
Lemma rc_code c r : c <> chr "/" -> remove_comments (c :: r) = c :: remove_comments r.
Proof. intros N. unfold remove_comments. cbn [length]. rewrite uncomment_S. apply N.eqb_neq in N. rewrite N. reflexivity. Qed.
Lemma rc_line r : remove_comments (chr "/" :: chr "/" :: r) = remove_comments (end_line r).
Proof. unfold remove_comments. cbn [length]. rewrite uncomment_S, !N.eqb_refl. apply fuel_enough; [pose proof (end_line_len r); lia|lia]. Qed.
Lemma rc_block r t : end_block r = Some t -> remove_comments (chr "/" :: chr "*" :: r) = remove_comments t.
Proof. intros E. unfold remove_comments. cbn [length]. rewrite uncomment_S, !N.eqb_refl. change (chr "*" =? chr "/")%N with false. cbn iota. rewrite E. apply end_block_len in E. apply fuel_enough; lia. Qed.
Lemma end_line_at s r : ~ In 10%N s -> end_line (s ++ 10%N :: r) = 10%N :: r.
Proof. induction s as [|c s IH]; intros N; [reflexivity|]. cbn [app end_line]. destruct (N.eqb_spec c 10) as [->|X]; [destruct N; left; reflexivity|]. apply IH. intros K. apply N. right. exact K. Qed.
Lemma end_block_at s r : (forall a b, s ++ lit "*/" = a ++ lit "*/" ++ b -> b = []) -> end_block (s ++ lit "*/" ++ r) = Some r.
Proof.
  induction s as [|x s IH]; intros H; [reflexivity|]. assert (IH' : end_block (s ++ lit "*/" ++ r) = Some r). { apply IH. intros a b E. apply (H (x :: a) b). cbn [app]. f_equal. exact E. }
  assert (SS : forall u v w, end_block (u :: v :: w) = if ((u =? chr "*") && (v =? chr "/"))%N then Some w else end_block (v :: w)) by reflexivity.
  destruct s as [|y s].
  - etransitivity; [apply (SS x (chr "*") (chr "/" :: r))|]. change (chr "*" =? chr "/")%N with false. rewrite andb_false_r. exact IH'.
  - etransitivity; [apply (SS x y (s ++ lit "*/" ++ r))|]. destruct ((x =? chr "*") && (y =? chr "/"))%N eqn:E; [|exact IH']. apply andb_true_iff in E. destruct E as [E1 E2]. apply N.eqb_eq in E1, E2. subst x y. specialize (H [] (s ++ lit "*/") eq_refl). destruct s; discriminate.
Qed.
(** Comments are taken out, and nothing else, if there is no other slash. *)
Theorem C217_comments_partial : forall ps, Forall good_piece ps -> remove_comments (flat_map piece_text ps) = flat_map kept ps.
Proof.
  intros ps F. induction F as [|p ps G F IH]; [reflexivity|]. cbn [flat_map]. destruct p as [s|s|s]; cbn [piece_text kept good_piece] in *.
  - induction s as [|c s IHs]; [exact IH|]. cbn [app]. rewrite rc_code by (intros ->; apply G; left; reflexivity). f_equal. apply IHs. intros K. apply G. right. exact K.
  - change ((lit "//" ++ s ++ [10%N]) ++ flat_map piece_text ps) with (chr "/" :: chr "/" :: (s ++ [10%N]) ++ flat_map piece_text ps). rewrite rc_line, <- app_assoc. cbn [app]. rewrite end_line_at by exact G. rewrite rc_code by discriminate. rewrite IH. reflexivity.
  - change ((lit "/*" ++ s ++ lit "*/") ++ flat_map piece_text ps) with (chr "/" :: chr "*" :: (s ++ lit "*/") ++ flat_map piece_text ps). rewrite <- app_assoc. rewrite (rc_block _ _ (end_block_at s _ G)). exact IH.
Qed.
(** Two slashes inside a text value end the line all the same: its closing quote is lost. *)
Theorem C217_address_refuted : forall a b, ~ In (chr "/") a -> ~ In 10%N b -> remove_comments (a ++ lit "//" ++ b) = a.
Proof.
  intros a b A B. induction a as [|c a IH].
  - cbn [app]. change (lit "//" ++ b) with (chr "/" :: chr "/" :: b). rewrite rc_line. replace (end_line b) with (@nil N); [reflexivity|]. induction b as [|c b IHb]; [reflexivity|]. cbn [end_line]. destruct (N.eqb_spec c 10) as [->|X]; [destruct B; left; reflexivity|]. apply IHb. intros K. apply B. right. exact K.
  - cbn [app]. rewrite rc_code by (intros ->; apply A; left; reflexivity). f_equal. apply IH. intros K. apply A. right. exact K.
Qed.

(** ** C218: the command of a task *)
Lemma last_word pre ws n : Words pre ws -> n <> [] -> (forall c, In c n -> is_whitespace c = false) -> Words (pre ++ lit " " ++ n) (ws ++ [n]).
Proof.
  intros H N W. induction H as [s A|gap w rest ws A B C D H IH].
  - replace (s ++ lit " " ++ n) with ((s ++ lit " ") ++ n ++ []) by (rewrite app_nil_r, <- app_assoc; reflexivity). apply Words_word; [|exact N|exact W|left; reflexivity|constructor; intros c []]. intros c I. apply in_app_or in I. destruct I as [I|[<-|[]]]; [apply A; exact I|reflexivity].
  - rewrite <- !app_assoc. cbn [app]. apply Words_word; [exact A|exact B|exact C| |exact IH]. right. destruct D as [->|(c & r & -> & S)]; [exists 32%N, n; split; reflexivity|exists c, (r ++ lit " " ++ n); split; [reflexivity|exact S]].
Qed.
Definition tool_words : list (str * list str) :=
  [(lit "mise", [lit "mise"; lit "run"]); (lit "taskfile", [lit "task"]); (lit "turbo", [lit "turbo"; lit "run"]); (lit "cargo", [lit "cargo"]); (lit "make", [lit "make"]); (lit "deno", [lit "deno"; lit "task"]); (lit "just", [lit "just"])] ++
  map (fun m => (m, [m; lit "run"])) [lit "npm"; lit "yarn"; lit "pnpm"; lit "bun"].
(** The command is the words of the tool and then the name, if the name has no blank. *)
Theorem C218_words_partial : forall toml json_of mk js d cwd l t, tasks toml json_of mk js d cwd = Some l -> In t l -> Task_Model.source t <> lit "nx" -> Task_Model.name t <> [] -> (forall c, In c (Task_Model.name t) -> is_whitespace c = false) ->
  exists ws, In (Task_Model.source t, ws) tool_words /\ Words (Task_Model.command t) (ws ++ [Task_Model.name t]).
Proof.
  intros toml json_of mk js d cwd l t T I NX N W. apply C215_listed in T. destruct T as [_ T]. apply T in I. clear T. assert (G : forall pre ws, split_whitespace pre = ws -> In (Task_Model.source t, ws) tool_words -> Task_Model.command t = pre ++ lit " " ++ Task_Model.name t -> exists ws, In (Task_Model.source t, ws) tool_words /\ Words (Task_Model.command t) (ws ++ [Task_Model.name t])).
  { intros pre ws P Q E. exists ws. split; [exact Q|]. rewrite E. apply last_word; [apply words_fun; exact P|exact N|exact W]. }
  destruct I as [s top tt n x t G0 P T I U X|f s n t F G0 I X|s j n t G0 J K X|s m p n t G0 J K NN X|s j n t G0 J K X|n t F I X|s x n t F M I Y X|f s j n t F G0 J K X|f s n t F G0 J I X]; unfold command_is in X; subst t; cbn [Task_Model.source Task_Model.name Task_Model.command] in *.
  - apply (G (lit "mise run") [lit "mise"; lit "run"] eq_refl); [cbn; tauto|reflexivity].
  - apply (G (lit "task") [lit "task"] eq_refl); [cbn; tauto|reflexivity].
  - apply (G (lit "turbo run") [lit "turbo"; lit "run"] eq_refl); [cbn; tauto|reflexivity].
  - congruence.
  - assert (M : In (manager d (root_of d cwd)) [lit "npm"; lit "yarn"; lit "pnpm"; lit "bun"]) by (unfold manager; destruct (there d _); [cbn; tauto|]; destruct (there d _); [cbn; tauto|]; destruct (there d _); cbn; tauto). destruct M as [M|[M|[M|[M|[]]]]]; rewrite <- M in *.
    + apply (G (lit "npm run") [lit "npm"; lit "run"] eq_refl); [cbn; tauto|reflexivity].
    + apply (G (lit "yarn run") [lit "yarn"; lit "run"] eq_refl); [cbn; tauto|reflexivity].
    + apply (G (lit "pnpm run") [lit "pnpm"; lit "run"] eq_refl); [cbn; tauto|reflexivity].
    + apply (G (lit "bun run") [lit "bun"; lit "run"] eq_refl); [cbn; tauto|reflexivity].
  - apply (G (lit "cargo") [lit "cargo"] eq_refl); [cbn; tauto|reflexivity].
  - apply (G (lit "make") [lit "make"] eq_refl); [cbn; tauto|reflexivity].
  - apply (G (lit "deno task") [lit "deno"; lit "task"] eq_refl); [cbn; tauto|reflexivity].
  - apply (G (lit "just") [lit "just"] eq_refl); [cbn; tauto|reflexivity].
Qed.
(** A name with a semicolon, which a key may have, is two commands to the shell that gets the text. *)
Theorem C218_shell_refuted : forall toml json_of mk js d cwd l s j a b, tasks toml json_of mk js d cwd = Some l -> holds d (root_of d cwd) (lit "turbo.json") s -> json_of s = Some j -> key_of j (lit "tasks") (a ++ lit ";" ++ b) -> ~ In (chr ";") a -> ~ In (chr ";") b ->
  exists t, In t l /\ Task_Model.name t = a ++ lit ";" ++ b /\ split_on (chr ";") (Task_Model.command t) = [lit "turbo run " ++ a; b].
Proof.
  intros toml json_of mk js d cwd l s j a b T H J K A B. apply C215_listed in T. destruct T as [_ T]. eexists. split; [apply T; apply (Has_turbo _ _ _ _ _ _ s j (a ++ lit ";" ++ b) _ H J K); reflexivity|]. split; [reflexivity|]. cbn [Task_Model.command]. replace (lit "turbo run " ++ a ++ lit ";" ++ b) with ((lit "turbo run " ++ a) ++ chr ";" :: b) by (rewrite <- app_assoc; reflexivity). rewrite split_on_app, (split_on_none _ b) by exact B. rewrite split_on_none; [reflexivity|]. intros K2. apply in_app_or in K2. destruct K2 as [K2|K2]; [|exact (A K2)]. apply mem_char_iff in K2. discriminate.
Qed.

(** ** Cases that meet the hypotheses *)
Definition at_ (l : list (path * node)) : disk := fun p => match find (fun kv => if list_eq_dec str_eq_dec (fst kv) p then true else false) l with Some kv => Some (snd kv) | None => None end.
Definition some_toml (s : str) : option tval :=
  if str_eqb s (lit "m") then Some (TTab [(lit "tools", TTab [(lit "node", TArr [TOther; TTab [(lit "version", TStr (lit "20"))]])]); (lit "tasks", TTab [(lit "lint", TStr (lit "x"))])]) else None.
Definition some_json (s : str) : option json :=
  if str_eqb s (lit "j") then Some (Compgen_Model.Obj [(lit "tasks", Compgen_Model.Obj [(lit "dev;ls", Compgen_Model.Null)])]) else None.
Definition web : disk := at_ [([lit "w"; lit "mise.toml"], Text (Some (lit "m"))); ([lit "w"; lit "turbo.json"], Text (Some (lit "j"))); ([lit "w"; lit "a"; lit ".nvmrc"], Text (Some (lit "# pinned" ++ [10%N] ++ lit " 18 " ++ [10%N])));
  ([lit "w"; lit ".env"], Text (Some (lit "A=1"))); ([lit "w"; lit "b"; lit ".env"], Text (Some (lit "A=2")))].
Example C213_far_case : node_js some_toml web [lit "w"; lit "a"] (root_of web [lit "w"; lit "a"]) = Some (Runtime (lit "node") (lit "mise") (Some (lit "20")) [lit "w"; lit "mise.toml"]) /\
  from_text web [lit "w"; lit "a"] (lit "node") (lit ".nvmrc") = Some (Runtime (lit "node") (lit ".nvmrc") (Some (lit "18")) [lit "w"; lit "a"; lit ".nvmrc"]).
Proof. split; vm_compute; reflexivity. Qed.
Example C212_tools_case : tool_versions [lit "go"; lit "golang"] (lit "# all" ++ [10%N] ++ lit "nodejs 20" ++ [10%N] ++ lit "golang  1.22 1.21" ++ [10%N]) = Some (lit "1.22") /\
  About [lit "go"] (lit " go ") [] /\ tool_versions [lit "go"] (lit "go" ++ [10%N] ++ lit "go 1.22" ++ [10%N]) = None.
Proof. split; [vm_compute; reflexivity|]. split; [|vm_compute; reflexivity]. apply about_iff. split; [reflexivity|]. exists (lit "go"). split; reflexivity. Qed.
Example C213_toolchain_case : let d := at_ [([lit "r"; lit "rust-toolchain.toml"], Text (Some (lit "?"))); ([lit "r"; lit "rust-toolchain"], Text (Some (lit "1.80")))] in
  above d [lit "r"] (lit "rust-toolchain.toml") /\ from_file d [lit "r"] (lit "rust") (lit "rust-toolchain.toml") (lit "rust-toolchain.toml") (channel some_toml) = None /\ from_mise some_toml d [lit "r"] (lit "rust") [lit "rust"] = None /\ from_tools d [lit "r"] (lit "rust") [lit "rust"] = None /\
  rust some_toml d [lit "r"] (root_of d [lit "r"]) = Some (Runtime (lit "rust") (lit "Cargo.toml") None [lit "r"; lit "Cargo.toml"]) /\ d [lit "r"; lit "Cargo.toml"] = None.
Proof. intros d. split; [apply found_up_iff; vm_compute; reflexivity|]. split; [vm_compute; reflexivity|]. split; [vm_compute; reflexivity|]. split; [vm_compute; reflexivity|]. split; vm_compute; reflexivity. Qed.
(** a Makefile in a directory of a Go module *)
Example C213_hidden_case : let d := at_ [([lit "g"; lit "go.mod"], Text (Some [])); ([lit "g"; lit "tools"; lit "Makefile"], Text (Some []))] in
  go some_toml d [lit "g"; lit "tools"] (root_of d [lit "g"; lit "tools"]) = None /\ go some_toml d [lit "g"] (root_of d [lit "g"]) = Some (Runtime (lit "go") (lit "go.mod") None [lit "g"; lit "go.mod"]).
Proof. split; vm_compute; reflexivity. Qed.
Example C214_case : activations web [lit "w"; lit "b"] = [(lit "dotenv", [lit "w"; lit "b"; lit ".env"])] /\ root_of web [lit "w"; lit "b"] = [lit "w"].
Proof. split; vm_compute; reflexivity. Qed.
Example C215_case : tasks some_toml some_json None None web [lit "w"; lit "b"] = Some [Task_Model.Task (lit "mise") (lit "lint") (lit "mise run lint"); Task_Model.Task (lit "turbo") (lit "dev;ls") (lit "turbo run dev;ls")].
Proof. vm_compute. reflexivity. Qed.
Example C215_bad_case : tasks some_toml some_json None None (at_ [([lit "w"; lit "turbo.json"], Text (Some (lit "{"))); ([lit "w"; lit "Cargo.toml"], Text (Some []))]) [lit "w"] = None.
Proof. vm_compute. reflexivity. Qed.
Example C216_case : make_target (lit "install:") = Some (lit "install") /\ make_target (lit "all: install") = None /\ make_target (lit "main.c:") = Some (lit "main.c").
Proof. split; [|split]; reflexivity. Qed.
Example C217_case : Forall good_piece [Code (lit "{"); LineC (lit " a / b"); BlockC (lit " * "); Code (lit "}")] /\ remove_comments (flat_map piece_text [Code (lit "{"); LineC (lit " a / b"); BlockC (lit " * "); Code (lit "}")]) = lit "{" ++ [10%N] ++ lit "}".
Proof.
  split; [|reflexivity]. constructor; [cbn; intros [X|[]]; discriminate|]. constructor; [cbn; intros H; repeat (destruct H as [H|H]; [discriminate|]); destruct H|]. constructor; [|constructor; [cbn; intros [X|[]]; discriminate|constructor]].
  cbn [good_piece]. intros a b E. destruct b as [|z b]; [reflexivity|]. exfalso. destruct a as [|a1 [|a2 [|a3 a]]]; cbn in E; injection E; intros; try discriminate; subst. destruct a as [|a4 [|a5 [|a6 a]]]; discriminate.
Qed.

Print Assumptions C211_none.
Print Assumptions C211_nearest.
Print Assumptions C212_first_line.
Print Assumptions C212_tool_versions.
Print Assumptions C212_no_version_refuted.
Print Assumptions C212_mise.
Print Assumptions C212_mise_next.
Print Assumptions C213_node.
Print Assumptions C213_python.
Print Assumptions C213_go.
Print Assumptions C213_last_resort.
Print Assumptions C213_rust_partial.
Print Assumptions C213_toolchain_refuted.
Print Assumptions C213_missing_refuted.
Print Assumptions C213_far_refuted.
Print Assumptions C213_hidden_refuted.
Print Assumptions C214_listed.
Print Assumptions C214_applied_refuted.
Print Assumptions C215_listed.
Print Assumptions C215_bad_file_refuted.
Print Assumptions C215_manager.
Print Assumptions C215_cargo.
Print Assumptions C216_lines.
Print Assumptions C216_prerequisites_refuted.
Print Assumptions C216_not_a_target_refuted.
Print Assumptions C217_comments_partial.
Print Assumptions C217_address_refuted.
Print Assumptions C218_words_partial.
Print Assumptions C218_shell_refuted.
