(** C89: directory environments; C90: the search path across directory changes;
    C91: going back. *)
From Coq Require Import Lia.
From Verif Require Import Base Output_Model Env_Model Env_Props Fs_Model Direnv_Model Direnv_Spec Direnv_Proofs.

(** ** C89: directory environments *)

(** After every session of directory changes, in which the files may also change: the
    variables of the directories the session is in are set as their files said on
    entering, and every other variable is what it was at the start.
    Missing from the full statement: names that had a value before
    ([C89_value_is_restored_refuted]), names used by two directories
    ([C89_nested_value_refuted]), search paths ([C89_path_add_refuted],
    [C89_path_is_restored_refuted], [C89_path_assignment_refuted]), names in small
    letters ([C89_small_letters_refuted]), blank lines and comments
    ([C89_blank_line_refuted]), files that cannot be read
    ([C89_unreadable_refuted]). *)
Theorem C89_directory_environment_partial :
  forall up start e allowed p path steps,
    separate allowed e steps ->
    (forall s d, In s steps -> In d allowed -> good (fst s d)) ->
    assoc PATH (system e) = Some path ->
    exists w,
      changes up (map files steps) (fresh start e allowed p) = (Done tt, w) /\
      cwd w = place start (rev steps) /\
      (forall r x k v, In r allowed -> in_force r (rev steps) = Some x ->
         last_value k (assignments x) = Some v -> assoc k (system (wenv w)) = Some v) /\
      (forall k, k <> PWD ->
         (forall r x, In r allowed -> in_force r (rev steps) = Some x -> ~ In k (names x)) ->
         assoc k (system (wenv w)) = assoc k (system e)).
Proof.
  intros up start e allowed p path steps S G P.
  destruct (changes_ok up start e allowed p path steps S G P steps [] (fresh start e allowed p)) as (w & A & [C R E]).
  { rewrite app_nil_r. intros s Hs. now apply in_rev. }
  { now apply fresh_inv. }
  rewrite app_nil_r in C, R, E.
  exists w. split; [exact A|]. split; [exact C|]. split.
  - intros r x k v Hr F L. rewrite E.
    destruct (in_split _ _ Hr) as (a & b & Ha). rewrite Ha, map_app. cbn [map]. rewrite F.
    apply value_here; [|exact L]. apply Forall_forall. intros o Ho. apply in_map_iff in Ho as (q & <- & Hq).
    assert (In k (names x)) as Hk.
    { unfold names. destruct (in_dec str_eq_dec k (map fst (assignments x))) as [i|i]; [exact i|].
      apply last_value_none in i. congruence. }
    apply (own_absent e allowed steps S r q x k).
    + intros s Hs. now apply in_rev.
    + exact Hr.
    + rewrite Ha. apply in_app_iff. now left.
    + intros ->. destruct S as [ND _]. rewrite Ha in ND. apply NoDup_remove_2 in ND. apply ND, in_app_iff. now left.
    + apply (in_force_own steps) with (hist := rev steps); [|exact F]. intros s Hs. now apply in_rev.
    + exact Hk.
  - intros k Hk N. rewrite E. rewrite value_absent.
    + unfold base. destruct (str_eq_dec k PWD); [contradiction|reflexivity].
    + apply Forall_forall. intros o Ho. apply in_map_iff in Ho as (q & <- & Hq).
      unfold absent. destruct (in_force q (rev steps)) as [x|] eqn:F; [|exact I]. exact (N q x Hq F).
Qed.
Print Assumptions C89_directory_environment_partial.

Definition base_env : env := env_new [(PATH, lit "/bin"); (lit "HOME", lit "/home")] (with_capacity 1 1 1) (fun _ => None).
Definition proj : list str := [lit "home"; lit "proj"].
Definition other : list str := [lit "home"; lit "other"].
Definition sample_files (d : list str) : wanted :=
  if list_eq_dec str_eq_dec d proj then EnvRc [(Double, (lit "TOKEN", lit "a b")); (Bare, (lit "MODE", lit "x=1"))]
  else if list_eq_dec str_eq_dec d other then DotEnv [(lit "MODE2", lit "slow"); (lit "MODE2", lit "fast")] else Nothing.
Definition sample_steps : list step :=
  [(sample_files, Some (proj ++ [lit "src"])); (sample_files, None); (sample_files, Some other)].

(** The hypotheses hold of a session through two directories, and the theorem says
    what is set at its end. *)
Example C89_example :
  separate [proj; other] base_env sample_steps /\
  (forall s d, In s sample_steps -> In d [proj; other] -> good (fst s d)) /\
  exists w, changes (fun c => [c]) (map files sample_steps) (fresh [] base_env [proj; other] []) = (Done tt, w) /\
    assoc (lit "MODE2") (system (wenv w)) = Some (lit "fast") /\ assoc (lit "TOKEN") (system (wenv w)) = None.
Proof.
  assert (forall s, In s sample_steps -> fst s = sample_files) as F.
  { intros s [<-|[<-|[<-|[]]]]; reflexivity. }
  assert (names (sample_files proj) = [lit "TOKEN"; lit "MODE"]) as N1 by reflexivity.
  assert (names (sample_files other) = [lit "MODE2"; lit "MODE2"]) as N2 by reflexivity.
  split; [split; [|split]|split].
  - constructor; [intros [H|[]]; discriminate H|constructor; [intros []|constructor]].
  - intros s d k Hs Hd Hk. rewrite (F s Hs) in Hk. destruct Hd as [<-|[<-|[]]]; [rewrite N1 in Hk|rewrite N2 in Hk];
      (destruct Hk as [<-|[<-|[]]]; (split; [discriminate|split; [discriminate|reflexivity]])).
  - intros s s' d d' k Hs Hs' Hd Hd' Hk Hk'. rewrite (F s Hs) in Hk. rewrite (F s' Hs') in Hk'.
    destruct Hd as [<-|[<-|[]]], Hd' as [<-|[<-|[]]]; try reflexivity; exfalso; rewrite ?N1, ?N2 in Hk, Hk';
      (destruct Hk as [<-|[<-|[]]]; destruct Hk' as [H|[H|[]]]; discriminate H).
  - intros s d Hs Hd. rewrite (F s Hs).
    assert (forall k, (forall c, In c k -> (65 <= c <= 90)%N \/ c = 50%N) -> k <> [] -> capital k) as Cap.
    { intros k H Hne. split; [exact Hne|]. intros c Hc. split; [|split; [|split]].
      - destruct (H c Hc); lia.
      - destruct (H c Hc) as [A| ->]; [|reflexivity]. unfold is_whitespace.
        destruct (is_whitespace c) eqn:W; [|exact W]. exfalso. revert W. unfold is_whitespace.
        rewrite !orb_true_iff, !andb_true_iff, !N.eqb_eq, !N.leb_le. lia.
      - change (chr "=") with 61%N. intros ->. destruct (H _ Hc) as [A|A]; [lia|discriminate A].
      - destruct (H c Hc); lia. }
    assert (capital (lit "TOKEN") /\ capital (lit "MODE") /\ capital (lit "MODE2")) as (C1 & C2 & C3).
    { split; [|split]; (apply Cap; [|discriminate]); intros c Hc; vm_compute in Hc;
        repeat (destruct Hc as [<-|Hc]; [lia|]); destruct Hc. }
    assert (forall l : str, forallb (fun c => negb (c =? 10)%N) l = true -> one_line l) as O.
    { intros l H Hin. rewrite forallb_forall in H. apply H in Hin. discriminate Hin. }
    destruct Hd as [<-|[<-|[]]].
    + change (sample_files proj) with (EnvRc [(Double, (lit "TOKEN", lit "a b")); (Bare, (lit "MODE", lit "x=1"))]).
      cbn [good]. repeat apply Forall_cons; cbn [fst snd].
      * split; [exact C1|]. split; [now apply O|exact I].
      * split; [exact C2|]. split; [now apply O|]. split; [split; reflexivity|split; discriminate].
      * apply Forall_nil.
    + change (sample_files other) with (DotEnv [(lit "MODE2", lit "slow"); (lit "MODE2", lit "fast")]).
      cbn [good]. repeat apply Forall_cons; cbn [fst snd].
      * split; [exact C3|]. split; [now apply O|split; reflexivity].
      * split; [exact C3|]. split; [now apply O|split; reflexivity].
      * apply Forall_nil.
  - eexists. split; [reflexivity|]. split; vm_compute; reflexivity.
Qed.

Lemma starts_self d t : path_starts_with d (d ++ t) = true.
Proof. induction d as [|a d IH]; cbn; [reflexivity|]. now rewrite str_eqb_refl, IH. Qed.
Lemma starts_refl d : path_starts_with d d = true.
Proof. rewrite <- (app_nil_r d) at 2. apply starts_self. Qed.

(** Entering a directory whose file says these entries, with one allowed root. *)
Lemma enter_one up fs d t e0 c p es : read_env_file up (fs d) = Done es ->
  changepwd up fs (Some (d ++ t)) (fresh c e0 [d] p) =
  (Done tt, World (d ++ t) (reload_path (set_env es (set_env_var PWD (show_path (d ++ t)) (set_var OLDPWD (show_path c) e0))))
                  [Dirent d es p true]).
Proof.
  intros H. unfold changepwd, fresh, check_path. cbn [roots map check_roots dpath loaded entries env_path cwd wenv].
  rewrite starts_self. cbn [negb andb app]. rewrite H. reflexivity.
Qed.
(** Leaving it. *)
Lemma leave_one up fs d out c e es p : path_starts_with d out = false ->
  changepwd up fs (Some out) (World c e [Dirent d es p true]) =
  (Done tt, World out (reload_path (remove_env (Dirent d es p true) (set_env_var PWD (show_path out) (set_var OLDPWD (show_path c) e))))
                  [Dirent d [] p false]).
Proof.
  intros H. unfold changepwd, check_path. cbn [roots check_roots dpath loaded entries env_path cwd wenv].
  rewrite H. reflexivity.
Qed.

(** Every variable that had a value before has none after the visit. *)
Theorem C89_value_is_restored_refuted :
  forall up start e (d out : list str) p k v,
    capital k -> one_line v -> trimmed v -> k <> PATH -> k <> PWD ->
    path_starts_with d out = false ->
    let f := fun _ : list str => DotEnv [(k, v)] in
    exists w, changes up (map files [(f, Some d); (f, Some out)]) (fresh start e [d] p) = (Done tt, w) /\
      assoc k (system (wenv w)) = None.
Proof.
  intros up start e d out p k v C O T NP NW HO f.
  assert (read_env_file up (written (f d)) = Done (as_entries [(k, v)])) as R.
  { apply read_written. cbn. constructor; [|constructor]. auto. }
  cbn [map files changes fst snd].
  pose proof (enter_one up (fun q => written (f q)) d [] e start p _ R) as E. rewrite app_nil_r in E.
  rewrite E.
  rewrite leave_one by exact HO. eexists. split; [reflexivity|]. cbn [wenv reload_path system set_cache set_paths].
  rewrite (remove_env_ok _ [(k, v)]) by reflexivity.
  destruct (in_dec str_eq_dec k (map fst [(k, v)])) as [i|i]; [reflexivity|]. exfalso. apply i. now left.
Qed.
Print Assumptions C89_value_is_restored_refuted.

(** A name used by a directory and one below it is lost on the way back up, though
    the upper directory's file is still in force. *)
Theorem C89_nested_value_refuted :
  forall up start e (d sub : list str) p k v v',
    capital k -> one_line v -> trimmed v -> one_line v' -> trimmed v' -> k <> PATH -> k <> PWD -> sub <> [] ->
    let f := fun q : list str => if list_eq_dec str_eq_dec q d then DotEnv [(k, v)] else DotEnv [(k, v')] in
    let steps := [(f, Some d); (f, Some (d ++ sub)); (f, Some d)] in
    in_force d (rev steps) = Some (DotEnv [(k, v)]) /\
    exists w, changes up (map files steps) (fresh start e [d; d ++ sub] p) = (Done tt, w) /\
      assoc k (system (wenv w)) = None.
Proof.
  intros up start e d sub p k v v' C O T O' T' NP NW NS f steps.
  assert (f d = DotEnv [(k, v)]) as Fd by (unfold f; destruct (list_eq_dec str_eq_dec d d); [reflexivity|contradiction]).
  assert (f (d ++ sub) = DotEnv [(k, v')]) as Fs.
  { unfold f. destruct (list_eq_dec str_eq_dec (d ++ sub) d) as [E|]; [|reflexivity].
    exfalso. rewrite <- (app_nil_r d) in E at 2. apply app_inv_head in E. contradiction. }
  assert (path_starts_with (d ++ sub) d = false) as Up.
  { clear -NS. induction d as [|a d IH]; cbn [app path_starts_with].
    - destruct sub; [contradiction|reflexivity].
    - rewrite IH. apply andb_false_r. }
  assert (read_env_file up (written (f d)) = Done (as_entries [(k, v)])) as R.
  { rewrite Fd. apply read_written. constructor; [|constructor]. auto. }
  assert (read_env_file up (written (f (d ++ sub))) = Done (as_entries [(k, v')])) as R'.
  { rewrite Fs. apply read_written. constructor; [|constructor]. auto. }
  split.
  { cbn [steps rev app in_force]. rewrite starts_refl, starts_self, Fd. reflexivity. }
  unfold fresh. cbn [map].
  set (fs := fun q : list str => written (f q)) in *.
  change (read_env_file up (fs d) = Done (as_entries [(k, v)])) in R.
  change (read_env_file up (fs (d ++ sub)) = Done (as_entries [(k, v')])) in R'.
  change (map files steps) with [(fs, Some d); (fs, Some (d ++ sub)); (fs, Some d)].
  cbn [map changes].
  destruct (changepwd up fs (Some d) (World start e [Dirent d [] p false; Dirent (d ++ sub) [] p false])) as [o1 w1] eqn:E1.
  unfold changepwd, check_path in E1. cbn [roots check_roots dpath loaded entries env_path cwd wenv] in E1.
  rewrite starts_refl, Up, R in E1. cbn [negb andb app] in E1. injection E1 as <- <-.
  match goal with |- context [changepwd up fs (Some (d ++ sub)) ?w] => destruct (changepwd up fs (Some (d ++ sub)) w) as [o2 w2] eqn:E2 end.
  unfold changepwd, check_path in E2. cbn [roots check_roots dpath loaded entries env_path cwd wenv] in E2.
  rewrite starts_self, starts_refl, R' in E2. cbn [negb andb app] in E2. injection E2 as <- <-.
  match goal with |- context [changepwd up fs (Some d) ?w] => destruct (changepwd up fs (Some d) w) as [o3 w3] eqn:E3 end.
  unfold changepwd, check_path in E3. cbn [roots check_roots dpath loaded entries env_path cwd wenv] in E3.
  rewrite starts_refl, Up in E3. cbn [negb andb app] in E3. injection E3 as <- <-.
  eexists. split; [reflexivity|]. cbn [wenv]. unfold reload_path at 1. cbn [system set_cache set_paths].
  rewrite (remove_env_ok _ [(k, v')]) by reflexivity.
  destruct (in_dec str_eq_dec k (map fst [(k, v')])) as [i|i]; [reflexivity|]. exfalso. apply i. now left.
Qed.
Print Assumptions C89_nested_value_refuted.

(** PATH_ADD glues the directory to the first one searched so far. *)
Theorem C89_path_add_refuted :
  forall up start e d p dir first rest,
    assoc PATH (system e) = Some (first ++ lit ":" ++ rest) ->
    dir <> [] -> (forall c, In c dir -> is_whitespace c = false) -> ~ In (chr ":") dir -> ~ In (chr ":") first ->
    let f := fun _ : list str => Files NoFile (Text (lit "PATH_ADD " ++ dir ++ [10%N])) in
    exists w, changepwd up f (Some d) (fresh start e [d] p) = (Done tt, w) /\
      paths (wenv w) = (dir ++ first) :: Base.split_on (chr ":") rest.
Proof.
  intros up start e d p dir first rest HP HD W ND NF f.
  assert (read_env_file up (f d) = Done [PathAdd dir]) as R.
  { unfold f, read_env_file. cbn [dotenv envrc].
    replace (lit "PATH_ADD " ++ dir ++ [10%N]) with ((lit "PATH_ADD " ++ dir) ++ 10%N :: []) by (now rewrite <- app_assoc).
    rewrite lines_nl.
    2:{ rewrite in_app_iff. intros [H|H].
        - cbn in H. repeat (destruct H as [H|H]; [discriminate H|]). destruct H.
        - apply W in H. discriminate H. }
    assert (trimmed dir) as Td.
    { split.
      - destruct dir as [|c r]; [exact I|]. apply W. now left.
      - destruct (rev dir) as [|c r] eqn:E; [exact I|]. apply W, in_rev. rewrite E. now left. }
    rewrite strip_cr_id.
    2:{ apply last_not_cr; [discriminate| |apply Td]. cbn. discriminate. }
    change (lit "PATH_ADD " ++ dir) with (lit "PATH_ADD" ++ chr " " :: dir).
    cbn [lines lines_aux read_envrc_lines].
    rewrite splitn2_at by (cbn; intros H; repeat (destruct H as [H|H]; [discriminate H|]); destruct H).
    assert (str_eqb (to_uppercase up (trim (lit "PATH_ADD"))) (lit "PATH_ADD") = true) as -> by reflexivity.
    now rewrite trim_id. }
  pose proof (enter_one up f d [] e start p _ R) as E. rewrite app_nil_r in E. rewrite E.
  eexists. split; [reflexivity|]. cbn [wenv].
  unfold reload_path at 1. cbn [paths set_paths set_cache].
  unfold set_env. rewrite !set_env_var_system, assoc_insert.
  destruct (str_eq_dec PATH PWD) as [X|_]; [discriminate X|]. cbn [system set_var set_variables].
  rewrite HP. cbn [set_entries]. rewrite set_env_var_system, assoc_insert.
  destruct (str_eq_dec PATH PATH) as [_|X]; [|contradiction].
  change (lit ":" ++ rest) with (chr ":" :: rest). rewrite app_assoc, split_on_app, split_on_none; [reflexivity|].
  rewrite in_app_iff. tauto.
Qed.
Print Assumptions C89_path_add_refuted.

(** After the visit the search path is the one the shell's process was started with
    when the directory was allowed, whatever it was when the directory was entered. *)
Theorem C89_path_is_restored_refuted :
  forall up start e (d out : list str) p path dir,
    assoc PATH (system e) = Some path -> path <> p ->
    path_starts_with d out = false ->
    forall fs : list str -> dirfiles, read_env_file up (fs d) = Done [PathAdd dir] ->
    exists w, changes up [(fs, Some d); (fs, Some out)] (fresh start e [d] p) = (Done tt, w) /\
      assoc PATH (system (wenv w)) = Some p.
Proof.
  intros up start e d out p path dir HP HN HO fs R.
  cbn [changes]. pose proof (enter_one up fs d [] e start p _ R) as E. rewrite app_nil_r in E. rewrite E.
  rewrite leave_one by exact HO. eexists. split; [reflexivity|]. cbn [wenv reload_path system set_cache set_paths].
  unfold remove_env. cbn [entries existsb is_path_add orb env_path fold_left].
  rewrite set_env_var_system, assoc_insert. destruct (str_eq_dec PATH PATH) as [_|X]; [reflexivity|contradiction].
Qed.
Print Assumptions C89_path_is_restored_refuted.

(** PATH=... in a file is ignored inside the directory, and after the visit the shell
    has no search path of its own left. *)
Theorem C89_path_assignment_refuted :
  forall up start e (d out : list str) p path v,
    assoc PATH (system e) = Some path -> one_line v -> trimmed v ->
    path_starts_with d out = false ->
    let f := fun _ : list str => DotEnv [(PATH, v)] in
    (exists w, changes up (map files [(f, Some d)]) (fresh start e [d] p) = (Done tt, w) /\
       assoc PATH (system (wenv w)) = Some path) /\
    (exists w, changes up (map files [(f, Some d); (f, Some out)]) (fresh start e [d] p) = (Done tt, w) /\
       assoc PATH (system (wenv w)) = None).
Proof.
  intros up start e d out p path v HP O T HO f.
  assert (capital PATH) as C.
  { split; [discriminate|]. intros c Hc. vm_compute in Hc.
    repeat (destruct Hc as [<-|Hc]; [split; [reflexivity|split; [reflexivity|split; [discriminate|lia]]]|]). destruct Hc. }
  assert (read_env_file up (written (f d)) = Done (as_entries [(PATH, v)])) as R.
  { apply read_written. constructor; [|constructor]. auto. }
  pose proof (enter_one up (fun q => written (f q)) d [] e start p _ R) as E. rewrite app_nil_r in E.
  split; cbn [map files changes fst snd]; rewrite E.
  - eexists. split; [reflexivity|]. cbn [wenv reload_path system set_cache set_paths].
    unfold set_env. rewrite !set_env_var_system, assoc_insert.
    destruct (str_eq_dec PATH PWD) as [X|_]; [discriminate X|]. cbn [system set_var set_variables].
    rewrite HP. cbn [as_entries map set_entries]. rewrite set_env_var_system, assoc_insert.
    destruct (str_eq_dec PATH PATH) as [_|X]; [reflexivity|contradiction].
  - rewrite leave_one by exact HO. eexists. split; [reflexivity|]. cbn [wenv reload_path system set_cache set_paths].
    rewrite (remove_env_ok _ [(PATH, v)]) by reflexivity.
    destruct (in_dec str_eq_dec PATH (map fst [(PATH, v)])) as [i|i]; [reflexivity|]. exfalso. apply i. now left.
Qed.
Print Assumptions C89_path_assignment_refuted.

(** A name with small letters is set in capitals, and not as written. *)
Theorem C89_small_letters_refuted :
  forall up start e (d : list str) p path (k v : str),
    assoc PATH (system e) = Some path ->
    k <> [] -> (forall c : char, In c k -> (97 <= c <= 122)%N) -> one_line v -> trimmed v ->
    let f := fun _ : list str => Files (Text (env_line (k, v))) NoFile in
    exists w, changepwd up f (Some d) (fresh start e [d] p) = (Done tt, w) /\
      assoc k (system (wenv w)) = assoc k (system e) /\
      (map (fun c => c - 32)%N k <> PATH -> assoc (map (fun c => c - 32)%N k) (system (wenv w)) = Some v).
Proof.
  intros up start e d p path k v HP HK L O T f.
  set (K := map (fun c => c - 32)%N k).
  assert (forall c, In c k -> is_whitespace c = false) as W.
  { intros c Hc. apply L in Hc. destruct (is_whitespace c) eqn:E; [|reflexivity]. exfalso. revert E. unfold is_whitespace.
    rewrite !orb_true_iff, !andb_true_iff, !N.eqb_eq, !N.leb_le. lia. }
  assert (read_env_file up (f d) = Done (as_entries [(K, v)])) as R.
  { unfold f, read_env_file. cbn [dotenv].
    assert (env_line (k, v) = (k ++ lit "=" ++ v) ++ 10%N :: []) as -> by (unfold env_line; cbn [fst snd]; now rewrite <- !app_assoc).
    rewrite lines_nl.
    2:{ rewrite !in_app_iff. intros [H|[H|H]].
        - apply W in H. discriminate H.
        - cbn in H. destruct H as [H|[]]. discriminate H.
        - contradiction. }
    rewrite strip_cr_id.
    2:{ rewrite app_assoc. apply last_not_cr; [destruct k; discriminate| |apply T]. rewrite rev_app_distr. cbn. discriminate. }
    cbn [lines lines_aux read_env_lines]. change (k ++ lit "=" ++ v) with (k ++ chr "=" :: v).
    rewrite splitn2_at by (change (chr "=") with 61%N; intros H; apply L in H; lia).
    rewrite (trim_id v T), (trim_id k).
    2:{ split.
        - destruct k as [|c r]; [exact I|]. apply W. now left.
        - destruct (@rev char k) as [|c r] eqn:E; [exact I|]. apply W, in_rev. rewrite E. now left. }
    unfold as_entries. cbn [map fst snd]. do 2 f_equal. f_equal. unfold K, to_uppercase. clear -L.
    induction k as [|c k IH]; [reflexivity|]. cbn [flat_map map]. rewrite IH by (intros x Hx; apply L; now right).
    destruct (L c (or_introl eq_refl)) as [A B]. unfold up_char.
    assert ((c <? 128)%N = true) as -> by (apply N.ltb_lt; lia).
    apply N.leb_le in A, B. now rewrite A, B. }
  assert (K <> k) as NK.
  { unfold K. destruct k as [|c r]; [contradiction|]. cbn [map]. intros E. injection E as E _.
    pose proof (L c (or_introl eq_refl)). lia. }
  assert (forall x : str, (exists c, In c x /\ ~ (97 <= c <= 122)%N) -> k <> x) as Sm.
  { intros x (c & Hc & Hn) ->. apply Hn, L, Hc. }
  pose proof (enter_one up f d [] e start p _ R) as E. rewrite app_nil_r in E. rewrite E.
  eexists. split; [reflexivity|]. cbn [wenv reload_path system set_cache set_paths].
  assert (assoc PATH (system (set_env_var PWD (show_path d) (set_var OLDPWD (show_path start) e))) = Some path) as HP'.
  { rewrite set_env_var_system, assoc_insert. destruct (str_eq_dec PATH PWD) as [X|_]; [discriminate X|exact HP]. }
  unfold set_env. rewrite HP'.
  destruct (set_entries (as_entries [(K, v)]) path (set_env_var PWD (show_path d) (set_var OLDPWD (show_path start) e))) as [p' e'] eqn:ES.
  cbn [as_entries map set_entries fst snd] in ES. injection ES as <- <-.
  rewrite !set_env_var_system, !assoc_insert. split.
  - destruct (str_eq_dec k PATH) as [X|_]; [exfalso; revert X; apply Sm; exists 80%N; cbn; split; [now left|lia]|].
    destruct (str_eq_dec k K) as [X|_]; [congruence|].
    destruct (str_eq_dec k PWD) as [X|_]; [exfalso; revert X; apply Sm; exists 80%N; cbn; split; [now left|lia]|].
    reflexivity.
  - intros HKP. destruct (str_eq_dec K PATH) as [X|_]; [contradiction|].
    destruct (str_eq_dec K K) as [_|X]; [reflexivity|contradiction].
Qed.
Print Assumptions C89_small_letters_refuted.

(** A line without an equals sign, such as a blank line or most comments, crashes
    the shell on entering. *)
Theorem C89_blank_line_refuted :
  forall up start e d p text l rc,
    In l (lines text) -> ~ In (chr "=") l ->
    fst (changepwd up (fun _ => Files (Text text) rc) (Some d) (fresh start e [d] p)) = Panicked.
Proof.
  intros up start e d p text l rc Hl Hn.
  assert (read_env_lines up (lines text) = Panicked) as R.
  { induction (lines text) as [|x ls IH]; [destruct Hl|]. cbn [read_env_lines].
    destruct Hl as [->|Hl]; [now rewrite splitn2_none|].
    destruct (splitn2 (chr "=") x) as [a [b|]]; [|reflexivity]. now rewrite (IH Hl). }
  unfold changepwd, fresh, check_path. cbn [roots map check_roots dpath loaded].
  rewrite starts_refl. cbn [negb andb]. unfold read_env_file. cbn [dotenv]. rewrite R. reflexivity.
Qed.
Print Assumptions C89_blank_line_refuted.

Theorem C89_blank_line_envrc_refuted :
  forall up start e d p text l,
    In l (lines text) -> ~ In (chr " ") l ->
    fst (changepwd up (fun _ => Files NoFile (Text text)) (Some d) (fresh start e [d] p)) = Panicked.
Proof.
  intros up start e d p text l Hl Hn.
  assert (read_envrc_lines up (lines text) = Panicked) as R.
  { induction (lines text) as [|x ls IH]; [destruct Hl|]. cbn [read_envrc_lines].
    destruct Hl as [->|Hl]; [now rewrite splitn2_none|].
    destruct (splitn2 (chr " ") x) as [a [b|]]; [|reflexivity]. rewrite (IH Hl).
    destruct (str_eqb _ _); [reflexivity|]. destruct (str_eqb _ _); [|reflexivity].
    destruct (splitn2 (chr "=") (trim b)) as [q [z|]]; reflexivity. }
  unfold changepwd, fresh, check_path. cbn [roots map check_roots dpath loaded].
  rewrite starts_refl. cbn [negb andb]. unfold read_env_file. cbn [dotenv envrc]. rewrite R. reflexivity.
Qed.
Print Assumptions C89_blank_line_envrc_refuted.

Example C89_blank_line_example :
  In (lit "# local settings") (lines (lit "A=1" ++ [10%N] ++ lit "# local settings" ++ [10%N])) /\
  ~ In (chr "=") (lit "# local settings") /\
  In [] (lines (lit "A=1" ++ [10%N; 10%N] ++ lit "B=2")).
Proof. vm_compute. intuition discriminate. Qed.

(** A file that cannot be read: cd reports failure although the directory was
    changed, and the directory is no longer allowed: its file is not read again even
    when it has been repaired. *)
Theorem C89_unreadable_refuted :
  forall up start e d p rc,
    exists e', changepwd up (fun _ => Files Unreadable rc) (Some d) (fresh start e [d] p) = (Failed, World d e' []) /\
      forall steps, ~ In Panicked [fst (changes up steps (World d e' []))] /\
        roots (snd (changes up steps (World d e' []))) = [].
Proof.
  intros up start e d p rc. eexists. split.
  { unfold changepwd, fresh, check_path. cbn [roots map check_roots dpath loaded].
    rewrite starts_refl. cbn [negb andb]. unfold read_env_file. cbn [dotenv]. reflexivity. }
  match goal with |- forall steps, ~ In Panicked [fst (changes up steps (World d ?x []))] /\ _ => generalize d, x end.
  intros c x steps. revert c x. induction steps as [|[fs [t|]] steps IH]; intros c x; cbn [changes].
  - cbn. split; [intros [H|[]]; discriminate H|reflexivity].
  - cbn [changepwd check_path check_roots roots]. apply IH.
  - cbn [changepwd roots]. apply IH.
Qed.
Print Assumptions C89_unreadable_refuted.

(** ** C90: the search path across directory changes *)

Definition leaves_path (o : eop) : Prop :=
  match o with
  | ESetEnv k _ | EUnsetEnv k => k <> PATH
  | EAddPath _ => False
  | _ => True
  end.

(** A directory put on the search path stays first until PATH is set or the
    directory changes; a program not looked up before is found there.
    Missing: after a change of directory ([C90_added_directory_stays_refuted]). *)
Theorem C90_added_directory_stays_partial :
  forall fs e dir ops,
    Forall leaves_path ops ->
    paths (erun fs (add_path dir e) ops) = dir :: paths e.
Proof.
  intros fs e dir ops H.
  assert (forall e1, paths (erun fs e1 ops) = paths e1) as G; [|now rewrite G].
  induction H as [|o ops Ho _ IH]; intros e1; [reflexivity|].
  change (paths (erun fs (estep fs e1 o) ops) = paths e1). rewrite IH.
  destruct o as [k v|k|k v|k|k v|x|c]; cbn [estep leaves_path] in *; try reflexivity; try contradiction.
  - unfold set_env_var. destruct (str_eqb_spec k PATH); [contradiction|reflexivity].
  - unfold unset_env_var. destruct (str_eqb_spec k PATH); [contradiction|reflexivity].
  - unfold lookup. destruct (starts_with _ _ || starts_with _ _); [reflexivity|]. now destruct (cached c (cache e1)).
Qed.
Print Assumptions C90_added_directory_stays_partial.

(** Any successful change of directory forgets what was added. *)
Theorem C90_added_directory_stays_refuted :
  forall up fs w dir target w',
    changepwd up fs (Some target) (World (cwd w) (add_path dir (wenv w)) (roots w)) = (Done tt, w') ->
    paths (wenv w') = match assoc PATH (system (wenv w')) with
                      | Some v => Base.split_on (chr ":") v
                      | None => [lit "/bin"; lit "/usr/bin"; lit "/sbin"; lit "/usr/sbin"]
                      end /\
    (roots w = [] -> assoc PATH (system (wenv w')) = assoc PATH (system (wenv w))).
Proof.
  intros up fs w dir target w' H. unfold changepwd, check_path in H. cbn [roots cwd wenv] in H.
  destruct (check_roots _ _ _ _ _) as [[o l] e3] eqn:E. destruct o as [[]| |]; try discriminate H.
  injection H as <-. split; [reflexivity|]. intros R. rewrite R in E. cbn [check_roots] in E. injection E as <- <-.
  cbn [wenv reload_path system set_cache set_paths]. rewrite set_env_var_system, assoc_insert.
  destruct (str_eq_dec PATH PWD) as [X|_]; [discriminate X|]. reflexivity.
Qed.
Print Assumptions C90_added_directory_stays_refuted.

Example C90_example :
  let w := World [] base_env [] in
  let w1 := World [] (add_path (lit "/opt/bin") (wenv w)) [] in
  exists w2, changepwd (fun c => [c]) (fun _ => Files NoFile NoFile) (Some other) w1 = (Done tt, w2) /\
    paths (wenv w1) = [lit "/opt/bin"; lit "/bin"] /\ paths (wenv w2) = [lit "/bin"].
Proof. eexists. split; [reflexivity|]. split; vm_compute; reflexivity. Qed.

(** ** C91: going back *)

Lemma oldpwd_var e x : get_var (set_var OLDPWD x e) OLDPWD = Some x.
Proof. reflexivity. Qed.

Lemma set_env_variables es e : variables (set_env es e) = variables e.
Proof.
  unfold set_env. assert (forall p e, variables (snd (set_entries es p e)) = variables e) as H.
  { induction es as [|[k v|x] es IH]; intros p e1; cbn [set_entries]; [reflexivity| |apply IH].
    rewrite IH. unfold set_env_var. now destruct (str_eqb k PATH). }
  set (p := match assoc PATH (system e) with Some v => v | None => [] end).
  specialize (H p e). destruct (set_entries es p e) as [p' e']. cbn [snd] in H. rewrite <- H. reflexivity.
Qed.
Lemma remove_env_variables d e : variables (remove_env d e) = variables e.
Proof.
  unfold remove_env. assert (forall es e, variables (fold_left (fun e x => match x with EnvEntry k _ => unset_env_var k e | PathAdd _ => e end) es e) = variables e) as H.
  { induction es as [|[k v|x] es IH]; intros e1; cbn [fold_left]; [reflexivity| |apply IH].
    rewrite IH. unfold unset_env_var. now destruct (str_eqb k PATH). }
  destruct (existsb is_path_add (entries d)); [|apply H].
  transitivity (variables (fold_left (fun e x => match x with EnvEntry k _ => unset_env_var k e | PathAdd _ => e end) (entries d) e)); [reflexivity|apply H].
Qed.
Lemma check_roots_variables up fs pwd ds : forall e, variables (snd (check_roots up fs pwd ds e)) = variables e.
Proof.
  induction ds as [|d ds IH]; intros e; cbn [check_roots]; [reflexivity|].
  destruct (path_starts_with (dpath d) pwd && negb (loaded d)).
  - destruct (read_env_file up (fs (dpath d))) as [es| |]; [|reflexivity|reflexivity].
    specialize (IH (set_env (entries d ++ es) e)). destruct (check_roots _ _ _ _ _) as [[o l] e']. cbn [snd] in *.
    now rewrite IH, set_env_variables.
  - destruct (negb (path_starts_with (dpath d) pwd) && loaded d).
    + specialize (IH (remove_env d e)). destruct (check_roots _ _ _ _ _) as [[o l] e']. cbn [snd] in *.
      now rewrite IH, remove_env_variables.
    + specialize (IH e). destruct (check_roots _ _ _ _ _) as [[o l] e']. exact IH.
Qed.

Lemma cd_minus_var w x : assoc OLDPWD (variables (wenv w)) = Some x -> cd_minus w = Some x.
Proof.
  intros H. unfold cd_minus, get_var.
  assert (parse_output_var OLDPWD (lit "OUT") = None) as -> by reflexivity.
  assert (parse_output_var OLDPWD (lit "ERR") = None) as -> by reflexivity.
  assert (mem_str OLDPWD [lit "MCP_SERVERS"; lit "MCP_CONNECTED"; lit "MCP_TOOLS"] = false) as -> by reflexivity.
  now rewrite H.
Qed.

(** After a change of directory, whether or not the directory's environment could be
    loaded, `cd -' asks for the directory the shell was in before.  Missing: after a
    failed change ([C91_back_after_failure_refuted]). *)
Theorem C91_back_partial :
  forall up fs target w o w',
    changepwd up fs (Some target) w = (o, w') ->
    cwd w' = target /\ cd_minus w' = Some (show_path (cwd w)).
Proof.
  intros up fs target w o w' H. unfold changepwd, check_path in H.
  pose proof (check_roots_variables up fs target (roots w)
                (set_env_var PWD (show_path target) (set_var OLDPWD (show_path (cwd w)) (wenv w)))) as V.
  destruct (check_roots _ _ _ _ _) as [[o1 l] e3]. cbn [snd] in V.
  assert (assoc OLDPWD (variables e3) = Some (show_path (cwd w))) as HV by (rewrite V; reflexivity).
  destruct o1; injection H as <- <-; (split; [reflexivity|apply cd_minus_var; exact HV]).
Qed.
Print Assumptions C91_back_partial.

(** Twice `cd -' is where one was. *)
Theorem C91_back_and_forth :
  forall up fs fs' w b o1 w1 o2 w2,
    changepwd up fs (Some b) w = (o1, w1) ->
    changepwd up fs' (Some (cwd w)) w1 = (o2, w2) ->
    cwd w2 = cwd w /\ cd_minus w2 = Some (show_path b).
Proof.
  intros up fs fs' w b o1 w1 o2 w2 H1 H2.
  apply C91_back_partial in H1 as [C1 _]. apply C91_back_partial in H2 as [C2 M2].
  split; [exact C2|]. now rewrite M2, C1.
Qed.
Print Assumptions C91_back_and_forth.

(** After a change that failed, `cd -' asks for the directory the shell is in; the
    one it came from is forgotten. *)
Theorem C91_back_after_failure_refuted :
  forall up fs w, exists w', changepwd up fs None w = (Failed, w') /\
    cwd w' = cwd w /\ cd_minus w' = Some (show_path (cwd w')).
Proof.
  intros up fs w. eexists. split; [reflexivity|]. split; [reflexivity|]. apply cd_minus_var. reflexivity.
Qed.
Print Assumptions C91_back_after_failure_refuted.

Example C91_example :
  let w0 := World [] base_env [] in
  let w1 := snd (changepwd (fun c => [c]) (fun _ => Files NoFile NoFile) (Some proj) w0) in
  let w2 := snd (changepwd (fun c => [c]) (fun _ => Files NoFile NoFile) (Some other) w1) in
  let w3 := snd (changepwd (fun c => [c]) (fun _ => Files NoFile NoFile) None w2) in
  cd_minus w2 = Some (lit "/home/proj") /\ cd_minus w3 = Some (lit "/home/other") /\ cwd w3 = other.
Proof. vm_compute. auto. Qed.
