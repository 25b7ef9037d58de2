(** Expansion before a line runs: C15, C16, C63-C66. *)
From Verif Require Import Base Peg_Model Grammar_Model Parse_Model Parse_Spec Grammar_Proofs Parse_Proofs Output_Model Env_Model Expand_Model Expand_Spec Expand_Proofs Brace_Proofs Alias_Proofs.

(** ** C15: brace expansion *)
(** there is always a result *)
Theorem C15_braces_terminate : forall s, exists l, expand_braces s = Some l.
Proof. intros s. apply braces_some. lia. Qed.
(** the ordered cross product, for every nesting and number of groups *)
Theorem C15_cross_product_partial : forall w, word_ok w -> expand_braces (btext w) = Some (choices w).
Proof. intros w O. apply braces_choices; [exact O|lia]. Qed.
(** a word without an opening brace, whatever else is in it *)
Theorem C15_no_group_unchanged : forall s, ~ In 123%N s -> expand_braces s = Some [s].
Proof.
  intros s H. unfold expand_braces. cbn [braces]. replace (find_pair 0 [] None s) with (@None (nat * nat)); [reflexivity|]. symmetry.
  generalize 0 at 1. generalize (@None char). induction s as [|c s IH]; intros p n; [reflexivity|]. cbn [find_pair].
  destruct (N.eqb_spec c 123) as [-> |]; [exfalso; apply H; left; reflexivity|]. cbn [andb]. destruct ((c =? 125)%N && unescaped p); apply IH; intros I; apply H; right; exact I.
Qed.
(** an opening brace that is never closed hides the complete groups after it *)
Theorem C15_every_group_expanded_refuted :
  expand_braces (lit "{x,{b,c}") = Some [lit "{x,{b,c}"] /\ expand_braces (lit "{b,c}{x") = Some [lit "b{x"; lit "c{x"].
Proof. vm_compute. split; reflexivity. Qed.
Print Assumptions C15_braces_terminate.
Print Assumptions C15_cross_product_partial.
Print Assumptions C15_no_group_unchanged.
Print Assumptions C15_every_group_expanded_refuted.
(** a{b,c{d,e}}\{x *)
Definition nested : bword :=
  BChr 97%N (BGroup (BMore (BChr 98%N BEnd) (BOne (BChr 99%N (BGroup (BMore (BChr 100%N BEnd) (BOne (BChr 101%N BEnd))) BEnd)))) (BEsc 123%N (BChr 120%N BEnd))).
Example C15_example : word_ok nested /\ btext nested = lit "a{b,c{d,e}}\{x" /\ choices nested = [lit "ab\{x"; lit "acd\{x"; lit "ace\{x"].
Proof. split; [|split; reflexivity]. cbn. repeat split; try discriminate; intros H; repeat (destruct H as [H | H]; [discriminate|]); contradiction. Qed.

(** ** C16: aliases *)
(** Only the names of commands on the typed line are looked up: every other entry of the
    table, in particular entries that the text of an alias mentions, changes nothing.  So
    tables with cycles are no different from tables without. *)
Section Quiet.
Variable line : str.
Hypothesis clean : has_meta line = false.
Lemma slice_clean x n k : In x (firstn n (skipn k line)) -> In x line.
Proof using. intros H. rewrite <- (firstn_skipn k line). apply in_or_app. right. rewrite <- (firstn_skipn n (skipn k line)). apply in_or_app. left. exact H. Qed.
Lemma clean_slice t n k : firstn n (skipn k line) = t -> has 126%N t || has 36%N t || has 123%N t || has_glob t = false.
Proof using clean.
  intros <-. apply not_true_is_false. intros H. apply eq_true_false_abs with (2 := clean). unfold has_meta, has_glob, has in *.
  rewrite !orb_true_iff, !mem_char_iff in *. intuition eauto using slice_clean.
Qed.
Lemma clean_needed lo hi (ns : list pair_) : faithful line lo hi ns -> existsb (needed []) ns = false.
Proof using clean.
  induction 1 as [|lo hi r start text inner ns _ T F1 IH1 F2 IH2]; [reflexivity|]. cbn [existsb]. rewrite IH2, orb_false_r.
  pose proof (clean_slice _ _ _ T) as Q. apply orb_false_iff in Q as [Q G]. apply orb_false_iff in Q as [Q Q3]. apply orb_false_iff in Q as [Q1 Q2].
  assert (A : (fix any (l : list pair_) : bool := match l with [] => false | q :: l' => needed [] q || any l' end) inner = false).
  { clear -IH1. induction inner as [|q l IH]; [reflexivity|]. cbn [existsb] in IH1. apply orb_false_iff in IH1 as [-> H]. apply IH, H. }
  destruct r; cbn [needed]; rewrite ?Q1, ?Q2, ?Q3, ?G; try exact A; try reflexivity. destruct inner; exact A.
Qed.
End Quiet.
Theorem C16_only_typed_names_looked_up : forall home glob e a1 a2 input tree read rest, parse input = Ok [tree] read rest ->
  (forall k, name_in home glob a1 tree k -> assoc k a1 = assoc k a2) ->
  expanded home glob a1 e input = expanded home glob a2 e input.
Proof.
  intros home glob e a1 a2 input tree read rest P A. unfold expanded. rewrite P. cbn [existsb]. rewrite !orb_false_r.
  pose proof (pairs_agree home glob a1 a2 e tree A) as E1. pose proof (needed_agree home glob a1 a2 tree A) as E2. unfold pair_ in *. rewrite <- E1, <- E2.
  destruct (has_meta input) eqn:M; [reflexivity|]. cbn [negb andb].
  assert (N : needed [] tree = false).
  { pose proof (proj1 (peg_faithful gram input _ _ 0 input _ _ _ eq_refl P)) as F. pose proof (clean_needed input M _ _ _ F) as Q. cbn [existsb] in Q. rewrite orb_false_r in Q. exact Q. }
  destruct a1 as [|x1 a1], a2 as [|x2 a2]; try reflexivity.
  - rewrite N. reflexivity.
  - rewrite E2, N. reflexivity.
Qed.
(** a line without patterns, tildes and variables none of whose command names is an alias is
    left exactly as it was typed *)
Theorem C16_not_an_alias_left_alone : forall home glob e alias input tree read rest, parse input = Ok [tree] read rest -> has_meta input = false ->
  (forall k, name_in home glob alias tree k -> assoc k alias = None) -> expanded home glob alias e input = input.
Proof.
  intros home glob e alias input tree read rest P M A. rewrite (C16_only_typed_names_looked_up home glob e alias [] input tree read rest P A).
  unfold expanded. rewrite P, M. reflexivity.
Qed.
Print Assumptions C16_only_typed_names_looked_up.
Print Assumptions C16_not_an_alias_left_alone.

Definition env_of (vars sys : map_) : env := Env vars [] sys [] [] (History [] 100 100 0 100) (fun _ => None).
Definition some_env : env := env_of [(lit "$FOO", lit "BAR"); (lit "$BAD", lit "a;rm"); (lit "$TWO", lit "a b")] [(lit "HOME", lit "/home/u"); (lit "EDITOR", lit "vi")].
Definition no_glob (_ : str) : list str := [].
Definition cyclic : map_ := [(lit "a", lit "b -x"); (lit "b", lit "a"); (lit "ll", lit "ls -la "); (lit "self", lit "self self")].
Definition expands (alias : map_) (s : string) : str := expanded (Some (lit "/home/u")) no_glob alias some_env (lit s).
Example C16_cyclic_tables : expands cyclic "a 1 | b; self" = lit "b -x 1 | a ; self self" /\ expands cyclic "echo  a" = lit "echo  a".
Proof. vm_compute. split; reflexivity. Qed.

(** ** the repository's own tests of this function (parser/tests.rs l.461-545, l.919-950) *)
Definition sk : map_ := [(lit "alias", lit "echo 'test' | sk ")].
Definition q : string := String (Ascii.ascii_of_nat 34) EmptyString.
Example repo_tests :
  expands sk ("alias abc " ++ q ++ " test" ++ q ++ " '-vvv' --foo ") = lit ("echo 'test' | sk abc " ++ q ++ " test" ++ q ++ " '-vvv' --foo") /\
  expands sk ("alias abc " ++ q ++ " test" ++ q ++ " '-vvv' --foo &") = lit ("echo 'test' | sk abc " ++ q ++ " test" ++ q ++ " '-vvv' --foo &") /\
  expands sk ("alias | abc " ++ q ++ " test" ++ q ++ " '-vvv' --foo &") = lit ("echo 'test' | sk | abc " ++ q ++ " test" ++ q ++ " '-vvv' --foo") /\
  expands sk ("sh -c | alias " ++ q ++ " test" ++ q ++ " '-vvv' --foo &") = lit ("sh -c | echo 'test' | sk " ++ q ++ " test" ++ q ++ " '-vvv' --foo") /\
  expands sk ("echo (alias " ++ q ++ " test" ++ q ++ " '-vvv' --foo) ") = lit ("echo ( echo 'test' | sk " ++ q ++ " test" ++ q ++ " '-vvv' --foo )") /\
  expands sk "echo $FOO" = lit "echo BAR" /\
  expands sk "echo 'test' > test.log" = lit "echo 'test' > test.log" /\
  expands [] "echo {a,b,c}" = lit "echo a b c" /\ expands [] "echo pre{X,Y}post" = lit "echo preXpost preYpost" /\
  expands [] "echo a{b,c{d,e}}" = lit "echo ab acd ace" /\ expands [] "echo {a,b}{1,2}" = lit "echo a1 a2 b1 b2" /\
  expands [] "echo {*.t1,*.t2}" = lit "echo *.t1 *.t2".
Proof. vm_compute. repeat split. Qed.

(** ** C63: expansion keeps the commands, redirections and operators of the line *)
(** For every well-formed line whose values are tame (Expand_Spec): what runs is the line
    with each word replaced by its value and each alias by its command, and nothing else
    changed: same pipelines, same background commands, same redirections, same separators. *)
Theorem C63_expansion_keeps_the_line_partial : forall home glob alias e resolve substitute l l',
  valid_line l -> tame_line home alias (get_var e) l -> line_value home alias (get_var e) l l' -> Forall (known resolve) (all_commands l') ->
  exists js, get_jobs home glob alias e resolve substitute (typed_line l) = Some js /\ map shape_of js = line_jobs resolve l'.
Proof. intros home glob alias e resolve substitute l l' V T. apply expanded_line; [|exact V|exact T]. apply T. Qed.
Print Assumptions C63_expansion_keeps_the_line_partial.

(** ll ~/d $TWO | wc -l > ~/out && sleep 1 & *)
Definition W (s : string) : word := plain_word (lit s).
Definition sp1 : str := lit " ".
Definition some_line : line :=
  (Segment [] [CmdLine [] (W "ll") [Arg sp1 (W "~/d"); Arg sp1 (Var (lit "TWO"))] sp1; CmdLine sp1 (W "wc") [Arg sp1 (W "-l"); Redir sp1 OutTrunc sp1 (lit "~/out")] sp1],
   [(AndIf, Segment [CmdLine sp1 (W "sleep") [Arg sp1 (W "1")] sp1] [])]).
Definition its_value : line :=
  (Segment [] [CmdLine [] (W "ls") [Arg sp1 (W "-la"); Arg sp1 (literal (lit "/home/u/d")); Arg sp1 (literal (lit "a b"))] sp1;
               CmdLine sp1 (literal (lit "wc")) [Arg sp1 (literal (lit "-l")); Redir sp1 OutTrunc sp1 (lit "/home/u/out")] sp1],
   [(AndIf, Segment [CmdLine sp1 (literal (lit "sleep")) [Arg sp1 (literal (lit "1"))] sp1] [])]).
Lemma plain_ok s : lit s <> [] -> forallb ordinary (lit s) = true -> valid_word (W s).
Proof. intros N O. apply plain_valid; assumption. Qed.
Ltac word_ok := first [apply plain_ok; [discriminate|reflexivity] | split; [discriminate|reflexivity]].
Example C63_example :
  typed_line some_line = lit "ll ~/d $TWO | wc -l > ~/out && sleep 1 &" /\ valid_line some_line /\
  tame_line (Some (lit "/home/u")) cyclic (get_var some_env) some_line /\ line_value (Some (lit "/home/u")) cyclic (get_var some_env) some_line its_value /\
  line_jobs (fun s => IsProgram s) its_value =
    [([Program (lit "ls") [lit "ls"; lit "-la"; lit "/home/u/d"; lit "a b"]; Program (lit "wc") [lit "wc"; lit "-l"]], true, Some (StdoutOutput (lit "/home/u/out")), OpAnd);
     ([Program (lit "sleep") [lit "sleep"; lit "1"]], false, None, OpNone)].
Proof.
  split; [reflexivity|]. split.
  { split; [|split; [|split; [discriminate|exact I]]].
    - split; [|split; [discriminate|repeat constructor; discriminate]]. repeat constructor; try discriminate; try word_ok.
    - split; [|split; [discriminate|constructor]]. repeat constructor; try discriminate; word_ok. }
  split.
  { split; [|split; [cbn; repeat (constructor || split); discriminate|intros o O; cbn in O; repeat (destruct O as [<- | O]; [vm_compute; reflexivity|]); contradiction]].
    cbn [all_commands some_line fst snd bgs pipe app flat_map].
    constructor; [|constructor; [|constructor; [|constructor]]]; (split; [vm_compute; repeat split; try discriminate; try reflexivity|]).
    - constructor; [vm_compute; repeat split; discriminate|]. constructor; [|constructor]. right. right. split; [exists 32%N; split; vm_compute; auto|].
      intros c H. vm_compute in H. destruct H as [<- | [<- | [<- | []]]]; vm_compute; intros H; repeat (destruct H as [H | H]; [discriminate|]); contradiction.
    - repeat constructor; vm_compute; try reflexivity; discriminate.
    - repeat constructor; vm_compute; reflexivity. }
  split; [|reflexivity]. split; [split; [constructor|]|].
  - constructor; [|constructor; [|constructor]].
    + exact (alias_value (Some (lit "/home/u")) cyclic (get_var some_env) (CmdLine [] (W "ll") _ sp1) (lit "ls -la ") (W "ls") [Arg sp1 (W "-la")] eq_refl eq_refl ltac:(word_ok) ltac:(repeat constructor; try discriminate; word_ok)).
    + exact (plain_value (Some (lit "/home/u")) cyclic (get_var some_env) (CmdLine sp1 (W "wc") _ sp1) eq_refl).
  - constructor; [|constructor]. split; [reflexivity|]. split; [|constructor]. constructor; [|constructor]. exact (plain_value (Some (lit "/home/u")) cyclic (get_var some_env) (CmdLine sp1 (W "sleep") _ sp1) eq_refl).
Qed.
(** Outside those lines it is false.  As soon as one word on the line needs expansion: a
    background command loses its redirection; a pipeline in the background runs in the
    foreground; inside a group the separators and the bars are dropped, so that two
    commands become one. *)
Theorem C63_expansion_keeps_the_line_refuted :
  expands [] "sleep ~/x > out &" = lit "sleep /home/u/x &" /\
  expands [] "sort big | uniq ~/x &" = lit "sort big | uniq /home/u/x" /\
  expands [] "(cd ~/d; ls)" = lit "( cd /home/u/d ls )" /\
  expands [] "(cat ~/f | sh)" = lit "( cat /home/u/f sh )" /\
  expands [] "a$EDITOR" = lit "a vi".
Proof. vm_compute. repeat split. Qed.
Print Assumptions C63_expansion_keeps_the_line_refuted.

(** ** C64: the value of a variable is data *)
(** what it contains is never read as shell syntax: true for tame values by
    [C63_expansion_keeps_the_line_partial], false in general *)
Definition runs (e : env) (s : string) : option (list shape) :=
  option_map (map shape_of) (get_jobs (Some (lit "/home/u")) no_glob [] e (fun s => IsProgram s) (fun _ _ => []) (lit s)).
Theorem C64_values_are_data_refuted :
  runs some_env "echo $BAD" = Some [([Program (lit "echo") [lit "echo"; lit "a"]], true, None, OpNone); ([Program (lit "rm") [lit "rm"]], true, None, OpNone)] /\
  runs (env_of [(lit "$F", lit "x > y")] []) "echo $F" = Some [([Program (lit "echo") [lit "echo"; lit "x > y"]], true, None, OpNone)] /\
  runs (env_of [(lit "$F", lit "a `b` c")] []) "rm $F d" = runs (env_of [] []) "rm".
Proof. vm_compute. repeat split. Qed.
(** a tame value arrives as one argument *)
Theorem C64_tame_values_are_data_partial : forall home glob e resolve substitute w n v,
  valid_word w -> tame_word home (get_var e) w -> trim (tilde_text home w) = tilde_text home w -> (forall o, In o operators -> get_var e o = None) ->
  n <> [] -> forallb ordinary n = true -> get_var e (36%N :: n) = Some v -> tame v ->
  let c := CmdLine [] (literal (value home (get_var e) w)) [Arg (lit " ") (literal v)] [] in known resolve c ->
  exists j, get_jobs home glob [] e resolve substitute (typed_word w ++ lit " $" ++ n) = Some [j] /\
    procs j = [process_for resolve c] /\ argv c = [value home (get_var e) w; v] /\ redirection_of j = None /\ foreground j = true.
Proof.
  intros home glob e resolve substitute w n v V T Tr Op Nn On E Tv c K.
  set (l := (Segment [] [CmdLine [] w [Arg (lit " ") (Var n)] []], []) : line).
  assert (L : typed_line l = typed_word w ++ lit " $" ++ n) by (unfold l, typed_line, typed_segment, typed_cmd; cbn; rewrite !app_nil_r; reflexivity).
  assert (A : alias_of home [] (get_var e) w = None) by (unfold alias_of; destruct w as [x| | |]; try reflexivity; destruct (forallb _ x); reflexivity).
  destruct (C63_expansion_keeps_the_line_partial home glob [] e resolve substitute l (Segment [] [c], [])) as (js & J & M).
  - split; [|exact I]. split; [|split; [discriminate|constructor]]. constructor; [|constructor]. split; [reflexivity|]. split; [reflexivity|]. split; [exact V|].
    constructor; [|constructor]. split; [reflexivity|]. split; [left; discriminate|]. split; assumption.
  - split; [|split; [split; [constructor|exact I]|exact Op]]. constructor; [|constructor]. split.
    + unfold tame_name. cbn [name]. rewrite A. split; [exact T|]. split; [reflexivity|exact Tr].
    + constructor; [|constructor]. cbn [tame_item tame_word]. rewrite E. exact Tv.
  - split; [|constructor]. split; [constructor|]. constructor; [|constructor]. cbn [fst pipe l].
    pose proof (plain_value home [] (get_var e) (CmdLine [] w [Arg (lit " ") (Var n)] []) A) as P. cbn [name items map item_value value lead trail] in P. rewrite E in P. exact P.
  - constructor; [exact K|constructor].
  - rewrite L in J. cbn in M. destruct js as [|j [|? ?]]; try discriminate. injection M as Hp Hf Hr _. exists j. split; [exact J|]. split; [exact Hp|].
    split; [|split; assumption]. unfold c, argv. cbn [name items flat_map app]. rewrite !snd_literal. reflexivity.
Qed.
Print Assumptions C64_values_are_data_refuted.
Print Assumptions C64_tame_values_are_data_partial.
Example C64_example : tame (lit "two words; rm *") /\ tame (lit "/usr/bin:/bin").
Proof.
  split; [right; right|right; left; split; reflexivity]. split; [exists 32%N; split; vm_compute; auto 10|].
  intros c H. vm_compute in H. repeat (destruct H as [<- | H]; [vm_compute; intros X; repeat (destruct X as [X | X]; [discriminate|]); contradiction|]). contradiction.
Qed.

(** ** C65: a word that is not a variable reference is passed as it was typed *)
(** true when nothing on the line needs expansion ([C16_not_an_alias_left_alone], C59);
    false as soon as something does: a plain word that happens to be the name of a
    variable is replaced *)
Theorem C65_plain_words_kept_refuted :
  runs some_env "echo EDITOR" = Some [([Program (lit "echo") [lit "echo"; lit "EDITOR"]], true, None, OpNone)] /\
  runs some_env "echo EDITOR ~" = Some [([Program (lit "echo") [lit "echo"; lit "vi"; lit "/home/u"]], true, None, OpNone)] /\
  expands cyclic "ll HOME" = lit "ls -la /home/u".
Proof. vm_compute. repeat split. Qed.
Print Assumptions C65_plain_words_kept_refuted.
(** C65, the part that holds: words that no variable is named like *)
Theorem C65_plain_words_kept_partial : forall home glob alias e resolve substitute l,
  valid_line l -> regular (fst l) (snd l) -> (forall o, In o operators -> get_var e o = None) ->
  (* no tilde, variable or alias among the words, and no variable named like one of them *)
  Forall (fun c => let ok w := value home (get_var e) w = meaning w /\ tilde_text home w = typed_word w /\ tame_word home (get_var e) w in
    ok (name c) /\ alias_of home alias (get_var e) (name c) = None /\ assoc (typed_word (name c)) alias = None /\ trim (typed_word (name c)) = typed_word (name c) /\
    Forall (fun i => match i with Arg _ w => ok w | Redir _ _ _ f => ok (plain_word f) end) (items c)) (all_commands l) ->
  Forall (known resolve) (all_commands l) ->
  exists js, get_jobs home glob alias e resolve substitute (typed_line l) = Some js /\ map shape_of js = line_jobs resolve l.
Proof.
  intros home glob alias e resolve substitute l V R Op H K.
  set (lv := fun c : cmdline => CmdLine (lead c) (literal (value home (get_var e) (name c))) (map (item_value home (get_var e)) (items c)) (trail c)).
  set (sv := fun g : segment => Segment (map lv (bgs g)) (map lv (pipe g))).
  set (l' := (sv (fst l), map (fun sg : separator * segment => (fst sg, sv (snd sg))) (snd l)) : line).
  match type of H with Forall ?P _ => set (Q := P) in H end.
  assert (S1 : forall c, Q c -> same_cmd (lv c) c).
  { intros c ((E1 & _) & _ & _ & _ & F). unfold same_cmd, argv, redirections, lv. cbn [name items]. rewrite snd_literal, E1.
    assert (G : flat_map (fun i => match i with Arg _ w => [meaning w] | Redir _ _ _ _ => [] end) (map (item_value home (get_var e)) (items c)) = flat_map (fun i => match i with Arg _ w => [meaning w] | Redir _ _ _ _ => [] end) (items c) /\
                flat_map (fun i => match i with Arg _ _ => [] | Redir _ d _ f => [redirection_for d f] end) (map (item_value home (get_var e)) (items c)) = flat_map (fun i => match i with Arg _ _ => [] | Redir _ d _ f => [redirection_for d f] end) (items c)).
    { induction F as [|i its Ei F IH]; [split; reflexivity|]. destruct IH as [I1 I2]. cbn [map flat_map]. rewrite I1, I2. destruct i as [g w|g d h f]; destruct Ei as (E & _); cbn [item_value]; [rewrite snd_literal, E; split; reflexivity|].
      rewrite E. cbn [meaning plain_word]. rewrite map_map, map_id. split; reflexivity. }
    destruct G as [-> ->]. split; reflexivity. }
  assert (C : forall cs, Forall Q cs -> Forall2 (cmd_value home alias (get_var e)) cs (map lv cs) /\ Forall2 same_cmd (map lv cs) cs).
  { induction 1 as [|c cs Hc F [I1 I2]]; [split; constructor|]. cbn [map]. split; constructor; try assumption; [apply plain_value, Hc|apply S1, Hc]. }
  assert (Sg : forall g, Forall Q (bgs g ++ pipe g) -> seg_value home alias (get_var e) g (sv g) /\ same_seg (sv g) g).
  { intros g F. apply Forall_app in F as [F1 F2]. split; split; apply C; assumption. }
  assert (LV : line_value home alias (get_var e) l l' /\ same_seg (fst l') (fst l) /\ same_rest (snd l') (snd l)).
  { unfold all_commands in H. rewrite app_assoc in H. apply Forall_app in H as [Hg Hr]. destruct (Sg _ Hg) as [A1 A2]. unfold line_value, l'. cbn [fst snd].
    assert (B : Forall2 (fun sg sg' : separator * segment => fst sg = fst sg' /\ seg_value home alias (get_var e) (snd sg) (snd sg')) (snd l) (map (fun sg : separator * segment => (fst sg, sv (snd sg))) (snd l)) /\
                same_rest (map (fun sg : separator * segment => (fst sg, sv (snd sg))) (snd l)) (snd l)).
    { clear -Hr Sg. induction (snd l) as [|[s g] r IH]; [split; constructor|]. cbn [flat_map snd map fst] in *. apply Forall_app in Hr as [H1 H2]. destruct (IH H2) as [I1 I2]. destruct (Sg g H1) as [J1 J2].
      split; constructor; auto. }
    destruct B as [B1 B2]. auto. }
  destruct LV as (LV & SS & SR).
  destruct (C63_expansion_keeps_the_line_partial home glob alias e resolve substitute l l' V) as (js & J & M); [|exact LV| |].
  - split; [|split; [exact R|exact Op]]. eapply Forall_impl; [|exact H]. intros c ((E1 & E2 & E3) & A & As & Tr & F). split.
    + unfold tame_name. rewrite A, E2. auto.
    + eapply Forall_impl; [|exact F]. intros i Hi. destruct i; apply Hi.
  - pose proof (same_all _ _ _ _ SS SR) as F. destruct l as [g r], l' as [g' r'] eqn:El. cbn [fst snd] in F. clear -F K. induction F as [|a b la lb S F IH]; constructor; inversion K; subst; [exact (same_known resolve a b S ltac:(assumption))|auto].
  - exists js. split; [exact J|]. rewrite M. unfold line_jobs. rewrite (same_seg_jobs resolve _ _ SS). apply same_rest_jobs, SR.
Qed.
Print Assumptions C65_plain_words_kept_partial.
(** a line that meets the hypotheses: cat 'a b' > out *)
Definition quiet_line : line := (Segment [] [CmdLine [] (W "cat") [Arg sp1 (Single (lit "a b")); Redir sp1 OutTrunc sp1 (lit "out")] []], []).
Example C65_example : valid_line quiet_line /\ regular (fst quiet_line) (snd quiet_line) /\
  runs some_env "cat 'a b' > out" = Some (line_jobs (fun s => IsProgram s) quiet_line) /\
  Forall (fun c => let ok w := value (Some (lit "/home/u")) (get_var some_env) w = meaning w /\ tilde_text (Some (lit "/home/u")) w = typed_word w /\ tame_word (Some (lit "/home/u")) (get_var some_env) w in
    ok (name c) /\ alias_of (Some (lit "/home/u")) cyclic (get_var some_env) (name c) = None /\ assoc (typed_word (name c)) cyclic = None /\ trim (typed_word (name c)) = typed_word (name c) /\
    Forall (fun i => match i with Arg _ w => ok w | Redir _ _ _ f => ok (plain_word f) end) (items c)) (all_commands quiet_line).
Proof.
  split; [|split; [|split; [vm_compute; reflexivity|]]].
  - split; [|exact I]. split; [|split; [discriminate|constructor]]. repeat constructor; try discriminate; try word_ok. cbn. intros H. repeat (destruct H as [H | H]; [discriminate|]). contradiction.
  - split; [constructor|exact I].
  - constructor; [|constructor]. split; [split; [vm_compute; reflexivity|split; vm_compute; [reflexivity|split; [reflexivity|exact I]]]|].
    split; [vm_compute; reflexivity|]. split; [vm_compute; reflexivity|]. split; [vm_compute; reflexivity|].
    constructor; [split; [vm_compute; reflexivity|split; vm_compute; reflexivity]|]. constructor; [|constructor].
    split; [vm_compute; reflexivity|split; vm_compute; [reflexivity|split; [reflexivity|exact I]]].
Qed.

(** ** C66: a variable inside a word is replaced by its value *)
(** it is not: the name runs up to the end of the word, so [$HOME/x] is looked up as a
    whole, and a variable after other text becomes a word of its own *)
Theorem C66_variable_in_word_refuted :
  runs some_env "ls $HOME/x" = Some [([Program (lit "ls") [lit "ls"; lit "$HOME/x"]], true, None, OpNone)] /\
  runs some_env "ls pre$FOO" = Some [([Program (lit "ls") [lit "ls"; lit "pre"; lit "BAR"]], true, None, OpNone)].
Proof. vm_compute. repeat split. Qed.
Print Assumptions C66_variable_in_word_refuted.

(** ** C67: a process substitution given as an argument is run *)
(** it is not: the text is read as an input redirection from a file with a strange name *)
Theorem C67_process_substitution_refuted :
  runs some_env "diff <(a) <(b)" = Some [([Program (lit "diff") [lit "diff"]], true, Some (Input (lit "(b)")), OpNone)].
Proof. vm_compute. reflexivity. Qed.
Print Assumptions C67_process_substitution_refuted.
