(** C159 and C160: where definitions of completions come from, and which are used. *)
From Verif Require Import Base Token_Model Comp_Model Comp_Spec Comp_Words Comp_Subs Comp_Props Comp_Run_Props Loader_Model Loader_Spec.
From Verif Require Dmv_Model Dmv_Props.

(** ** C160: what is used is well-formed *)
Lemma named_iff s : negb (str_eqb s []) && negb (blank_in s) = true <-> named s.
Proof.
  unfold named, blank_in. rewrite andb_true_iff, !negb_true_iff. split; intros [A B]; split.
  - intros ->. discriminate.
  - intros c I. destruct (is_whitespace c) eqn:W; [|reflexivity]. assert (existsb is_whitespace s = true) by (apply existsb_exists; eauto). congruence.
  - destruct s; [contradiction|reflexivity].
  - destruct (existsb is_whitespace s) eqn:E; [|reflexivity]. apply existsb_exists in E as (c & I & W). rewrite (B c I) in W. discriminate.
Qed.
Lemma short_iff s : starts_with (lit "-") s && negb (starts_with (lit "--") s) = true <-> good_short s.
Proof.
  unfold good_short. destruct s as [|c s]; [split; [discriminate|intros (r & E & _); discriminate]|].
  change (starts_with (lit "-") (c :: s)) with ((chr "-" =? c)%N && true). rewrite andb_true_r. destruct (N.eqb_spec (chr "-") c) as [<-|N].
  - change (starts_with (lit "--") (chr "-" :: s)) with (starts_with (lit "-") s). cbn [andb]. split.
    + intros H. exists s. split; [reflexivity|]. destruct s as [|x s]; [discriminate|]. cbn [hd]. intros ->. discriminate.
    + intros (r & E & H). injection E as <-. destruct s as [|x s]; [reflexivity|]. cbn [hd] in H. change (starts_with (lit "-") (x :: s)) with ((chr "-" =? x)%N && true). destruct (N.eqb_spec (chr "-") x) as [X|_]; [congruence|reflexivity].
  - split; [discriminate|]. intros (r & E & _). injection E as E _. congruence.
Qed.
Lemma long_iff l : starts_with (lit "-") l && negb (blen l <? 2) && negb (str_eqb l (lit "--")) = true <-> good_long l.
Proof.
  unfold good_long. destruct l as [|c l]; [split; [discriminate|intros (x & r & E & _); discriminate]|].
  change (starts_with (lit "-") (c :: l)) with ((chr "-" =? c)%N && true). rewrite andb_true_r. destruct (N.eqb_spec (chr "-") c) as [<-|N].
  - cbn [andb]. destruct l as [|x l]; [split; [discriminate|intros (x & r & E & _); discriminate]|].
    replace (blen (chr "-" :: x :: l) <? 2) with false.
    + cbn [negb andb]. rewrite negb_true_iff. split.
      * intros H. exists x, l. split; [reflexivity|]. intros E. rewrite E in H. discriminate.
      * intros (y & r & _ & H). apply str_eqb_neq, H.
    + symmetry. apply Nat.ltb_ge. cbn [blen]. assert (A := utf8_len_pos x). assert (B := utf8_len_pos (chr "-")). lia.
  - split; [discriminate|]. intros (x & r & E & _). injection E as E _. congruence.
Qed.
Lemma option_iff o : valid_option o = true <-> good_option o.
Proof.
  unfold valid_option, good_option. rewrite !andb_true_iff. destruct (short o) as [s|], (long o) as [l|].
  - rewrite short_iff, long_iff. split.
    + intros [[_ A] B]. split; [left; discriminate|]. split; intros x [= <-]; assumption.
    + intros (_ & A & B). repeat split; [apply A|apply B]; reflexivity.
  - rewrite short_iff. split.
    + intros [[_ A] B]. split; [left; discriminate|]. split; intros x [= <-]; assumption.
    + intros (_ & A & B). repeat split. apply A; reflexivity.
  - rewrite long_iff. split.
    + intros [_ B]. split; [right; discriminate|]. split; intros x [= <-]; assumption.
    + intros (_ & A & B). repeat split. apply B; reflexivity.
  - split; [intros [[H _] _]; discriminate|]. intros ([H|H] & _); contradiction.
Qed.
Lemma forallb_Forall {A} (p : A -> bool) (P : A -> Prop) l : (forall x, p x = true <-> P x) -> forallb p l = true <-> Forall P l.
Proof. intros H. rewrite forallb_forall, Forall_forall. split; intros G x I; apply H, G, I. Qed.
Lemma sub_iff : forall s, valid_sub s = true <-> good_sub s.
Proof.
  fix IH 1. intros [name aliases options args subs]. cbn [valid_sub].
  assert (L : forall l, ((fix all (l : list subcommand) : bool := match l with [] => true | x :: r => valid_sub x && all r end) l = true) <-> Forall good_sub l).
  { fix IHl 1. intros [|x l]; [split; [constructor|reflexivity]|]. rewrite andb_true_iff. split.
    - intros [A B]. constructor; [apply (proj1 (IH x)), A|apply (proj1 (IHl l)), B].
    - intros F. split; [apply (proj2 (IH x)); inversion F; assumption|apply (proj2 (IHl l)); inversion F; assumption]. }
  rewrite !andb_true_iff, L, (forallb_Forall _ _ options option_iff), <- andb_true_iff, named_iff. split.
  - intros [[A B] C]. constructor; assumption.
  - intros G. inversion G; subst. auto.
Qed.
(** The check made is this one, at every depth. *)
Theorem C160_checked_iff f : validate f = true <-> good f.
Proof.
  unfold validate. rewrite 3!andb_true_iff, named_iff, (forallb_Forall _ _ _ sub_iff), (forallb_Forall _ _ _ option_iff).
  assert (E : forallb (fun n : str => negb (str_eqb n [])) (f_names f) = true <-> Forall (fun n : str => n <> []) (f_names f)).
  { apply forallb_Forall. intros n. rewrite negb_true_iff. destruct n; split; try discriminate; try reflexivity; intros H; contradiction H; reflexivity. }
  rewrite E.
  split; [intros [[[A B] C] D]; constructor; assumption|intros [A B C D]; auto].
Qed.
Lemma usable_iff l f : usable l = Some f <-> l = Is f /\ good f.
Proof.
  unfold usable. destruct l as [| |g]; try (split; [discriminate|intros [H _]; discriminate]). destruct (validate g) eqn:V.
  - apply C160_checked_iff in V. split; [intros [= <-]; auto|intros [[= <-] _]; reflexivity].
  - split; [discriminate|]. intros [[= <-] G]. apply C160_checked_iff in G. congruence.
Qed.
Lemma usable_none l : usable l = None <-> forall f, l = Is f -> ~ good f.
Proof.
  split.
  - intros H f E G. assert (X : usable l = Some f) by (apply usable_iff; auto). congruence.
  - intros H. destruct (usable l) as [f|] eqn:U; [|reflexivity]. apply usable_iff in U as [E G]. exfalso. exact (H f E G).
Qed.
(** Every definition of a session is well-formed. *)
Lemma load_good embedded fs dirs name f : load embedded fs dirs name = Some f -> good f.
Proof.
  unfold load. destruct (usable _) as [g|] eqn:U; [intros [= <-]; apply usable_iff in U as [_ G]; exact G|].
  induction (map _ dirs) as [|p r IH]; [discriminate|]. cbn [first_usable]. destruct (usable (fs p)) as [g|] eqn:V; [|exact IH].
  intros [= <-]. apply usable_iff in V as [_ G]. exact G.
Qed.
Lemma get_add t f n : get (add t f) n = if str_eqb (f_command f) n then Some f else get t n. Proof. reflexivity. Qed.
Theorem C160_session embedded dirs l : forall t, (forall n f, get t n = Some f -> good f) -> forall n f, get (session embedded dirs t l) n = Some f -> good f.
Proof.
  induction l as [|[fs name] l IH]; intros t H n f; [apply H|]. cbn [session]. apply IH. clear n f. intros n f.
  unfold ensure. destruct name as [|c name]; [apply H|]. destruct (get t (c :: name)); [apply H|]. destruct (load embedded fs dirs (c :: name)) as [g|] eqn:L; [|apply H].
  rewrite get_add. destruct (str_eqb (f_command g) n); [intros [= <-]; exact (load_good _ _ _ _ _ L)|apply H].
Qed.
(** But a lone dash passes for a short option, and nothing is asked of aliases or of the arguments of subcommands. *)
Theorem C160_lone_dash_refuted : exists f, good f /\ d_globals (f_def f) = [Coption (Some (lit "-")) None false None None].
Proof.
  exists (File (lit "x") (Definition_ [] [Coption (Some (lit "-")) None false None None] []) []). split; [|reflexivity].
  apply C160_checked_iff. reflexivity.
Qed.
Theorem C160_aliases_refuted name aliases options args subs : good_sub (Sub name aliases options args subs) -> forall a b, good_sub (Sub name a options b subs).
Proof. intros G a b. inversion G; subst. constructor; assumption. Qed.

(** ** C159 *)
Definition json (name : str) : str := name ++ lit ".json".
Lemma first_iff fs f paths : first_usable fs paths = Some f <->
  exists before p after, paths = before ++ p :: after /\ defines fs p f /\ (forall q g, In q before -> ~ defines fs q g).
Proof.
  induction paths as [|p r IH]; cbn [first_usable].
  - split; [discriminate|]. intros (b & p & a & E & _). destruct b; discriminate.
  - destruct (usable (fs p)) as [g|] eqn:U.
    + apply usable_iff in U. split.
      * intros [= <-]. exists [], p, r. split; [reflexivity|]. split; [exact U|intros q g' []].
      * intros (b & q & a & E & D & N). destruct b as [|x b]; [injection E as -> _; destruct U as [U _], D as [D _]; congruence|].
        injection E as -> _. exfalso. exact (N x g (or_introl eq_refl) U).
    + rewrite IH. assert (X := proj1 (usable_none _) U). split.
      * intros (b & q & a & -> & D & N). exists (p :: b), q, a. split; [reflexivity|]. split; [exact D|]. intros y g [<-|I]; [intros [E G]; exact (X g E G)|apply N, I].
      * intros (b & q & a & E & D & N). destruct b as [|x b]; [injection E as -> _; destruct D as [D G]; exfalso; exact (X f D G)|].
        injection E as -> ->. exists b, q, a. split; [reflexivity|]. split; [exact D|]. intros y g I. apply N. right. exact I.
Qed.
(** A command without a definition of its own in the program gets the first good one of the directories,
    in their order; what is no definition is passed over. *)
Theorem C159_directories_partial embedded fs dirs name f :
  (forall g, ~ defines embedded (json name) g) -> ~ (exists r, name = chr "/" :: r) ->
  load embedded fs dirs name = Some f <->
  exists before dir after, dirs = before ++ dir :: after /\ defines fs (dir ++ lit "/" ++ json name) f /\
  (forall d g, In d before -> ~ defines fs (d ++ lit "/" ++ json name) g).
Proof.
  intros N S. unfold load. fold (json name). assert (U : usable (embedded (json name)) = None) by (apply usable_none; intros g E G; exact (N g (conj E G))). rewrite U, first_iff.
  assert (J : forall d, join d (json name) = d ++ lit "/" ++ json name).
  { intros d. unfold join. destruct (starts_with (lit "/") (json name)) eqn:E; [|reflexivity]. exfalso. apply S. destruct name as [|c r]; [discriminate|].
    change (starts_with (lit "/") (json (c :: r))) with ((chr "/" =? c)%N && true) in E. rewrite andb_true_r in E. apply N.eqb_eq in E. exists r. rewrite E. reflexivity. }
  split.
  - intros (b & p & a & E & D & X). apply map_eq_app in E as (l1 & l2 & -> & <- & E). destruct l2 as [|d l2]; [discriminate|]. injection E as <- <-.
    exists l1, d, l2. split; [reflexivity|]. rewrite <- J. split; [exact D|]. intros q g I. rewrite <- J. apply X. apply in_map_iff. exists q. auto.
  - intros (b & d & a & -> & D & X). exists (map (fun d => join d (json name)) b), (join d (json name)), (map (fun d => join d (json name)) a). split; [rewrite map_app; reflexivity|].
    rewrite J. split; [exact D|]. intros q g I. apply in_map_iff in I as (y & <- & I). rewrite J. apply X, I.
Qed.
(** But the program's own definition is always taken first: no file of the user's replaces it. *)
Theorem C159_override_refuted embedded fs fs' dirs dirs' name f :
  defines embedded (json name) f -> load embedded fs dirs name = Some f /\ load embedded fs' dirs' name = Some f.
Proof. intros D. unfold load. fold (json name). apply usable_iff in D. rewrite D. auto. Qed.
(** Of a program called by its absolute path the definition is read beside the program itself. *)
Theorem C159_beside_refuted embedded fs dir dirs r f :
  (forall g, ~ defines embedded (json (chr "/" :: r)) g) -> defines fs (json (chr "/" :: r)) f -> load embedded fs (dir :: dirs) (chr "/" :: r) = Some f.
Proof.
  intros N D. unfold load. fold (json (chr "/" :: r)). assert (U : usable (embedded (json (chr "/" :: r))) = None) by (apply usable_none; intros g E G; exact (N g (conj E G))). rewrite U.
  cbn [map first_usable]. change (join dir (json (chr "/" :: r))) with (json (chr "/" :: r)). apply usable_iff in D. rewrite D. reflexivity.
Qed.

(** *** a session *)
Definition well_named (fs : str -> look) (dirs : list str) : Prop := forall name p f, In p (map (fun d => join d (json name)) dirs) -> fs p = Is f -> f_command f = name.
Definition well_named_embedded (embedded : str -> look) : Prop := forall name f, embedded (json name) = Is f -> f_command f = name.
Lemma load_named embedded fs dirs name f : well_named_embedded embedded -> well_named fs dirs -> load embedded fs dirs name = Some f -> f_command f = name.
Proof.
  intros We Wf. unfold load. fold (json name). destruct (usable (embedded (json name))) as [g|] eqn:U; [intros [= <-]; apply usable_iff in U as [E _]; exact (We name g E)|].
  intros H. apply first_iff in H as (b & p & a & E & [D _] & _). apply (Wf name p f); [rewrite E; apply in_or_app; right; left; reflexivity|exact D].
Qed.
(** If every file holds the command it is named after, a command's definition is the one found when it
    was first completed, for the whole session: nothing else changes it. *)
Theorem C159_kept_partial embedded dirs l : well_named_embedded embedded -> (forall fs n, In (fs, n) l -> well_named fs dirs) ->
  forall t name f, get t name = Some f -> get (session embedded dirs t l) name = Some f.
Proof.
  intros We. induction l as [|[fs n] l IH]; intros Wf t name f G; [exact G|]. cbn [session]. apply IH; [intros fs' n' I; apply (Wf fs' n'); right; exact I|].
  unfold ensure. destruct n as [|c n]; [exact G|]. destruct (get t (c :: n)) as [g|] eqn:T; [exact G|]. destruct (load embedded fs dirs (c :: n)) as [g|] eqn:L; [|exact G].
  rewrite get_add. destruct (str_eqb_spec (f_command g) name) as [E|_]; [|exact G].
  apply load_named in L; [|exact We|apply (Wf fs (c :: n)); left; reflexivity]. exfalso. rewrite <- E, L in G. congruence.
Qed.
Theorem C159_first_use embedded fs dirs t name f : well_named_embedded embedded -> well_named fs dirs -> name <> [] -> get t name = None ->
  get (ensure embedded fs dirs t name) name = Some f <-> load embedded fs dirs name = Some f.
Proof.
  intros We Wf N G. unfold ensure. destruct name as [|c n]; [contradiction|]. rewrite G. destruct (load embedded fs dirs (c :: n)) as [g|] eqn:L; [|rewrite G; reflexivity].
  rewrite get_add. apply load_named in L; [|exact We|exact Wf]. rewrite L, str_eqb_refl. reflexivity.
Qed.
(** A file named after one command that holds another's definition replaces the other's. *)
Theorem C159_other_refuted embedded fs dirs t name other f g :
  name <> [] -> get t name = None -> get t other = Some f -> load embedded fs dirs name = Some g -> f_command g = other -> name <> other ->
  get (ensure embedded fs dirs t name) other = Some g /\ get (ensure embedded fs dirs t name) name = None.
Proof.
  intros N A B L E D. unfold ensure. destruct name as [|c n]; [contradiction|]. rewrite A, L, !get_add, E, str_eqb_refl. split; [reflexivity|].
  destruct (str_eqb_spec other (c :: n)) as [X|_]; [congruence|exact A].
Qed.

(** *** what Tab runs *)
Section Tab.
Variable alphabetic alphanumeric : char -> bool.
Variable printable : char -> bool.
Variable escape_name : char -> str.
Variable files commands : str -> list candidate.
Variable other : nat -> str -> list candidate.
Variable fuzzy : str -> str -> bool.
Variable shell resolve : str -> str.
Variable db : str -> option definition.
Notation complete_at := (complete_at alphabetic alphanumeric db printable escape_name files commands other fuzzy shell resolve).
(** a definition whose first argument is completed by a command *)
Definition runs (t : str) (d : definition) : Prop := d_subs d = [] /\ d_globals d = [] /\ exists m r, d_arguments d = Argument m (Some (Script t)) :: r.
Lemma tab_runs cmd d t : word cmd -> is_option cmd = false -> is_redirect cmd = false -> db (resolve cmd) = Some d -> runs t d -> ~ In dollar t ->
  forall depth, exists l, complete_at (S depth) (cmd ++ [32%N]) (blen (cmd ++ [32%N])) = Some (Found l [t]).
Proof.
  intros W O Rd D (Rs & Rg & m & r & Ra) N depth. set (c := resolve cmd) in *.
  set (p0 := Parsed c [] [[]] [] (Some []) In_sub [] [[]]). set (p := Parsed c [] [[]] [] (Some []) (In_argument 0 None) [] [[]]).
  assert (V : forall x, value_of_option d (with_context x p) = None).
  { intros x. apply value_none; [|constructor; [reflexivity|constructor]|reflexivity]. intros q o n I. unfold available in I. rewrite Rg, Rs in I. destruct q; destruct I. }
  assert (C0 : correct db p0 = p).
  { unfold correct. cbn [command p0]. rewrite D. unfold correct1. cbn [path p0 walk]. rewrite Rs. fold p0. change (value_of_option d p0) with (value_of_option d (with_context In_sub p)). rewrite V. reflexivity. }
  assert (C1 : correct db p = p).
  { unfold correct. cbn [command p]. rewrite D. unfold correct1. cbn [path p walk]. rewrite Rs. fold p. change (value_of_option d p) with (value_of_option d (with_context (In_argument 0 None) p)). rewrite V.
    cbn [ctx p]. fold p. assert (combined d p = None) as -> by reflexivity. cbn [existsb]. fold p. cbn [raw_args current p more_subs find_sub find]. fold p.
    cbn [existsb]. rewrite andb_false_r. cbn [Nat.eqb]. change (value_of_option d p) with (value_of_option d (with_context (In_argument 0 None) p)). rewrite V. reflexivity. }
  assert (Cv : convert alphabetic alphanumeric db resolve (cmd ++ [32%N]) (blen (cmd ++ [32%N])) = p).
  { assert (E := convert_line alphabetic alphanumeric db resolve cmd [] [] W (Forall_nil _) (Forall_nil _)). cbv zeta in E.
    assert (L : line_of [cmd] [] = cmd ++ [32%N]) by (unfold line_of; cbn [flat_map]; rewrite !app_nil_r; reflexivity). rewrite L in E. rewrite E. rewrite <- C0. f_equal.
    rewrite <- L. unfold analyze. rewrite (space_words cmd [] [] W). cbn [app leading length nth Nat.sub Nat.eqb]. unfold context_of. change (split_inline []) with (@None (str * str)). change (is_long []) with false. change (is_option []) with false.
    rewrite O, Rd. reflexivity. }
  unfold Comp_Model.complete_at, collect. rewrite Cv. cbn [ctx p Comp_Model.generate]. fold p. rewrite C1. cbn [ctx p]. fold p. unfold gen_argument. cbn [command p]. rewrite D. cbn [path p arguments_of]. rewrite Ra.
  unfold argument_definition. cbn [nth_error a_type Comp_Model.of_type]. fold p.
  assert (command_argument db p = None) as -> by (unfold command_argument; cbn [command p]; rewrite D, Ra; destruct r; reflexivity).
  assert (E : script_text t p = t).
  { unfold script_text. cbn [command p current_arg path hd sargs replace_args]. change (Dmv_Model.show 0) with (lit "0").
    rewrite (Dmv_Props.replace_absent (lit "$COMMAND") _ dollar (lit "COMMAND") t eq_refl N).
    rewrite (Dmv_Props.replace_absent (lit "$CURRENT_TOKEN") _ dollar (lit "CURRENT_TOKEN") t eq_refl N).
    rewrite (Dmv_Props.replace_absent (lit "$SUBCOMMAND") _ dollar (lit "SUBCOMMAND") t eq_refl N).
    apply (Dmv_Props.replace_absent _ _ dollar (lit "ARG_0") t eq_refl N). }
  rewrite E. eexists. reflexivity.
Qed.
End Tab.
(** the definitions Tab works with, once it has loaded the command's *)
Definition definitions (t : table) (name : str) : option definition := option_map f_def (get t name).
(** In a directory that has a folder completions, Tab behind a command for which neither the program nor
    the user has a definition runs what a file of that folder says. *)
Theorem C159_current_directory_refuted alphabetic alphanumeric printable escape_name files commands other fuzzy shell embedded fs config home cmd f t depth :
  word cmd -> is_option cmd = false -> is_redirect cmd = false -> ~ (exists r, cmd = chr "/" :: r) ->
  (forall g, ~ defines embedded (json cmd) g) -> (forall d g, In d (default_dirs config home) -> d <> lit "./completions" -> ~ defines fs (d ++ lit "/" ++ json cmd) g) ->
  defines fs (lit "./completions/" ++ json cmd) f -> f_command f = cmd -> runs t (f_def f) -> ~ In dollar t ->
  exists l, complete_at alphabetic alphanumeric (definitions (ensure embedded fs (default_dirs config home) [] cmd)) printable escape_name files commands other fuzzy shell (fun c => c)
    (S depth) (cmd ++ [32%N]) (blen (cmd ++ [32%N])) = Some (Found l [t]).
Proof.
  intros W O R S Ne Nd D Fc Ru Nt. apply (tab_runs _ _ _ _ _ _ _ _ _ (fun c => c) _ cmd (f_def f)); try assumption.
  assert (L : load embedded fs (default_dirs config home) cmd = Some f).
  { apply C159_directories_partial; [exact Ne|exact S|].
    assert (X : forall l, (forall d g, In d l -> d <> lit "./completions" -> ~ defines fs (d ++ lit "/" ++ json cmd) g) ->
      exists before dir after, l ++ [lit "./completions"] = before ++ dir :: after /\ defines fs (dir ++ lit "/" ++ json cmd) f /\ (forall d g, In d before -> ~ defines fs (d ++ lit "/" ++ json cmd) g)).
    { induction l as [|d l IH]; intros H.
      - exists [], (lit "./completions"), []. split; [reflexivity|]. split; [exact D|intros d g []].
      - destruct (str_eqb_spec d (lit "./completions")) as [->|E].
        + exists [], (lit "./completions"), (l ++ [lit "./completions"]). split; [reflexivity|]. split; [exact D|intros d g []].
        + destruct IH as (b & x & a & A & B & C); [intros y g I; apply H; right; exact I|]. exists (d :: b), x, a. split; [cbn [app]; rewrite A; reflexivity|]. split; [exact B|].
          intros y g [<-|I]; [apply H; [left; reflexivity|exact E]|apply C, I]. }
    unfold default_dirs in *. rewrite app_assoc in *. apply X. intros d g I. apply Nd. apply in_or_app. left. exact I. }
  unfold definitions, ensure. destruct W as [_ N]. destruct cmd as [|c cmd]; [contradiction|]. cbn [get]. rewrite L, get_add, Fc, str_eqb_refl. reflexivity.
Qed.
(** The same beside a program called by its absolute path. *)
Theorem C159_beside_runs_refuted alphabetic alphanumeric printable escape_name files commands other fuzzy shell embedded fs config home r f t depth :
  word (chr "/" :: r) -> is_redirect (chr "/" :: r) = false ->
  (forall g, ~ defines embedded (json (chr "/" :: r)) g) -> defines fs (json (chr "/" :: r)) f -> f_command f = chr "/" :: r -> runs t (f_def f) -> ~ In dollar t ->
  exists l, complete_at alphabetic alphanumeric (definitions (ensure embedded fs (default_dirs config home) [] (chr "/" :: r))) printable escape_name files commands other fuzzy shell (fun c => c)
    (S depth) ((chr "/" :: r) ++ [32%N]) (blen ((chr "/" :: r) ++ [32%N])) = Some (Found l [t]).
Proof.
  intros W R Ne D Fc Ru Nt. apply (tab_runs _ _ _ _ _ _ _ _ _ (fun c => c) _ (chr "/" :: r) (f_def f)); try assumption; [reflexivity|].
  assert (L : load embedded fs (default_dirs config home) (chr "/" :: r) = Some f).
  { unfold default_dirs. destruct config; [apply C159_beside_refuted; assumption|]. destruct home; apply C159_beside_refuted; assumption. }
  unfold definitions, ensure. cbn [get]. rewrite L, get_add, Fc, str_eqb_refl. reflexivity.
Qed.

(** ** cases *)
Definition a_file (name t : string) : file := File (lit name) (Definition_ [] [] [Argument true (Some (Script (lit t)))]) [lit "x"].
Definition a_disk (p : str) : look := if str_eqb p (lit "./completions/mytool.json") then Is (a_file "mytool" "touch owned")
  else if str_eqb p (lit "/home/u/.config/dsh/completions/git.json") then Is (a_file "git" "date") else if str_eqb p (lit "/home/u/.config/dsh/completions/mytool.json") then Broken else Absent.
Definition a_program (p : str) : look := if str_eqb p (lit "git.json") then Is (a_file "git" "git branch") else Absent.
Example C159_case :
  load a_program a_disk (default_dirs None (Some (lit "/home/u"))) (lit "mytool") = Some (a_file "mytool" "touch owned") /\
  load a_program a_disk (default_dirs None (Some (lit "/home/u"))) (lit "git") = Some (a_file "git" "git branch") /\
  load a_program a_disk (default_dirs None (Some (lit "/home/u"))) (lit "ls") = None /\
  runs (lit "touch owned") (f_def (a_file "mytool" "touch owned")) /\ ~ In dollar (lit "touch owned") /\ word (lit "mytool") /\
  well_named_embedded a_program.
Proof.
  split; [reflexivity|]. split; [reflexivity|]. split; [reflexivity|]. split; [split; [reflexivity|]; split; [reflexivity|]; exists true, []; reflexivity|].
  split; [intros I; apply mem_char_iff in I; discriminate|]. split; [split; [repeat (constructor; [split; [cbn; intuition discriminate|reflexivity]|]); constructor|discriminate]|].
  intros name f. unfold a_program. destruct (str_eqb_spec (json name) (lit "git.json")) as [E|_]; [|discriminate]. intros [= <-].
  change (lit "git.json") with (lit "git" ++ lit ".json") in E. apply app_inv_tail in E. symmetry. exact E.
Qed.
Example C160_case : good (a_file "mytool" "x") /\ ~ good (a_file "" "x") /\ ~ good (a_file "a b" "x") /\
  ~ good (File (lit "x") (Definition_ [Sub (lit "a") [] [] [] [Sub (lit "b") [] [Coption None None true None None] [] []]] [] []) []).
Proof. repeat split; try (apply C160_checked_iff; reflexivity); intros H; apply C160_checked_iff in H; discriminate. Qed.

Print Assumptions C159_directories_partial.
Print Assumptions C159_override_refuted.
Print Assumptions C159_beside_refuted.
Print Assumptions C159_kept_partial.
Print Assumptions C159_first_use.
Print Assumptions C159_other_refuted.
Print Assumptions C159_current_directory_refuted.
Print Assumptions C159_beside_runs_refuted.
Print Assumptions C160_checked_iff.
Print Assumptions C160_session.
Print Assumptions C160_lone_dash_refuted.
Print Assumptions C160_aliases_refuted.
