(** C184: a generated completion runs nothing.  C185: what comp-gen saves is used.  C186: what comp-gen does. *)
From Verif Require Import Base Comp_Model Comp_Spec Comp_Words Comp_Props Comp_Run_Props Loader_Model Loader_Spec Loader_Props Compgen_Model Compgen_Spec.
From Verif Require Answer_Props Palette_Props Dmv_Model Dmv_Props.

(** ** JSON *)
Section Induction.
Variable P : json -> Prop.
Hypothesis Pn : P Null.
Hypothesis Pb : forall b, P (Bool b).
Hypothesis Pm : forall t, P (Num t).
Hypothesis Ps : forall s, P (Str s).
Hypothesis Pa : forall l, Forall P l -> P (Arr l).
Hypothesis Po : forall m, Forall (fun x => P (snd x)) m -> P (Obj m).
Fixpoint json_nested (j : json) : P j :=
  match j with
  | Null => Pn | Bool b => Pb b | Num t => Pm t | Str s => Ps s
  | Arr l => Pa l ((fix go (l : list json) : Forall P l := match l with [] => Forall_nil _ | x :: r => Forall_cons x (json_nested x) (go r) end) l)
  | Obj m => Po m ((fix go (m : list (str * json)) : Forall (fun x => P (snd x)) m :=
                      match m with [] => Forall_nil _ | x :: r => Forall_cons x (json_nested (snd x)) (go r) end) m)
  end.
End Induction.
Lemma get_in m k v : Compgen_Model.get m k = Some v -> In (k, v) m.
Proof.
  induction m as [|[k' v'] m IH]; [discriminate|]. cbn. destruct (Compgen_Model.get m k) as [x|]; [intros E; right; apply IH, E|].
  destruct (str_eqb_spec k' k) as [E|_]; [|discriminate]. intros [= ->]. left. rewrite E. reflexivity.
Qed.
Lemma traverse_in {A B} (f : A -> option B) l l' : traverse f l = Some l' -> forall y, In y l' -> exists x, In x l /\ f x = Some y.
Proof.
  revert l'. induction l as [|x l IH]; intros l'; cbn; [intros [= <-] y []|]. destruct (f x) as [y|] eqn:F; [|discriminate]. destruct (traverse f l) as [ys|]; [|discriminate].
  intros [= <-] z [<-|I]; [exists x; auto|]. destruct (IH ys eq_refl z I) as (w & ? & ?). exists w. auto.
Qed.
Definition subcommands := lit "subcommands".
Lemma check_sub_eq m : check_sub (Obj m) =
  required (Compgen_Model.get m (lit "name")) && opt_true check_options (Compgen_Model.get m (lit "options")) && opt_true check_arguments (Compgen_Model.get m (lit "arguments")) &&
  opt_true check_subs (Compgen_Model.get m (lit "subcommands")).
Proof.
  unfold check_sub at 1. fold check_sub. f_equal.
  match goal with |- match ?F m with _ => _ end = _ => assert (E : F m = option_map check_subs (Compgen_Model.get m (lit "subcommands"))) end.
  { induction m as [|[k v] m IH]; [reflexivity|]. cbn [Compgen_Model.get]. rewrite IH. destruct (Compgen_Model.get m (lit "subcommands")); [reflexivity|]. cbn [option_map].
    destruct (str_eqb k (lit "subcommands")); [|reflexivity]. reflexivity. }
  rewrite E. destruct (Compgen_Model.get m (lit "subcommands")); reflexivity.
Qed.
Lemma dec_sub_eq m : dec_sub (Obj m) =
  if once m (map lit ["name"; "description"; "aliases"; "options"; "arguments"; "subcommands"]%string) then
    match dec_field dec_str (Compgen_Model.get m (lit "name")), dec_opt dec_str (Compgen_Model.get m (lit "description")),
          dec_default [] (dec_list dec_str) (Compgen_Model.get m (lit "aliases")), dec_default [] (dec_list dec_option) (Compgen_Model.get m (lit "options")),
          dec_default [] (dec_list dec_argument) (Compgen_Model.get m (lit "arguments")), dec_default [] (dec_list dec_sub) (Compgen_Model.get m (lit "subcommands")) with
    | Some n, Some _, Some al, Some os, Some ags, Some ss => Some (Sub n al os (map snd ags) ss)
    | _, _, _, _, _, _ => None
    end
  else None.
Proof.
  unfold dec_sub at 1. fold dec_sub.
  match goal with |- context [match ?F m with Some r => r | None => Some [] end] => assert (E : F m = option_map (dec_list dec_sub) (Compgen_Model.get m (lit "subcommands"))) end.
  { induction m as [|[k v] m IH]; [reflexivity|]. cbn [Compgen_Model.get]. rewrite IH. destruct (Compgen_Model.get m (lit "subcommands")); [reflexivity|]. cbn [option_map].
    destruct (str_eqb k (lit "subcommands")); [|reflexivity]. cbn [option_map]. f_equal. destruct v as [| | | |l|]; try reflexivity. cbn [dec_list]. clear.
    induction l as [|x l IH]; [reflexivity|]. cbn [traverse]. rewrite <- IH. reflexivity. }
  cbv zeta. rewrite E. destruct (Compgen_Model.get m (lit "subcommands")); reflexivity.
Qed.

(** ** What the check says of a definition that is read *)
Lemma blank_said s : blank s = false <-> said s.
Proof.
  unfold blank, said. split.
  - intros B. destruct (trim s) as [|c r] eqn:T; [discriminate|]. exists c. split.
    + apply Answer_Props.trim_in. rewrite T. left. reflexivity.
    + apply (proj1 (Answer_Props.trim_ends s) c r T).
  - intros (c & J & W). destruct (trim s) eqn:T; [|reflexivity]. exfalso. apply (Palette_Props.trim_keeps_in s c W) in J. rewrite T in J. destruct J.
Qed.
Lemma require_iff o s : require o = Some s <-> o = Some (Str s) /\ said s.
Proof.
  unfold require. destruct o as [[| | |u| |]|]; try (split; [discriminate|intros [E _]; discriminate E]).
  destruct (blank u) eqn:B.
  - split; [discriminate|]. intros [[= ->] W]. apply blank_said in W. congruence.
  - apply blank_said in B. split; [intros [= <-]; auto|intros [[= ->] _]; reflexivity].
Qed.
Lemma checked_type j t : check_type j = true -> dec_type j = Some t -> forall s, t <> Script s.
Proof.
  intros C D s ->. destruct j as [| | | | |m]; try discriminate. unfold check_type in C. unfold dec_type in D.
  destruct (once m [lit "type"; lit "data"]); [|discriminate D].
  destruct (require (Compgen_Model.get m (lit "type"))) as [u|] eqn:R; [|discriminate C]. apply require_iff in R as [E _]. rewrite E in D.
  rewrite !andb_true_iff, negb_true_iff in C. destruct C as [[N _] _].
  destruct (str_eqb u (lit "File")); [destruct (Compgen_Model.get m (lit "data")) as [[| | | | |dm]|]; try discriminate; destruct (once dm _); [|discriminate]; destruct (dec_opt _ _); discriminate|].
  destruct (str_eqb u (lit "Choice")); [destruct (dec_field _ _); discriminate|]. rewrite N in D.
  destruct (str_eqb u (lit "CommandWithArgs")); [destruct (Compgen_Model.get m (lit "data")) as [[| | | | |]|]; discriminate|].
  destruct (index u unit_types); [|discriminate]. destruct (Compgen_Model.get m (lit "data")) as [[| | | | |]|]; discriminate.
Qed.
Lemma checked_opt_type o t : opt_true check_type o = true -> dec_opt dec_type o = Some t -> forall s, t <> Some (Script s).
Proof.
  destruct o as [j|]; cbn [opt_true]; [|intros _ [= <-]; discriminate]. intros C D s ->. destruct j as [| | | | |m]; try discriminate.
  cbn [dec_opt] in D. destruct (dec_type (Obj m)) as [u|] eqn:E; [|discriminate]. injection D as ->. exact (checked_type _ _ C E s eq_refl).
Qed.
Definition safe_argument (a : argument) : Prop := forall s, a_type a <> Some (Script s).
Definition safe_option (o : coption) : Prop := written o /\ forall s, value_type o <> Some (Script s).
Lemma checked_argument j n a : check_argument j = true -> dec_argument j = Some (n, a) -> said n /\ safe_argument a.
Proof.
  intros C D. destruct j as [| | | | |m]; try discriminate. cbn [check_argument] in C. cbn [dec_argument] in D. rewrite !andb_true_iff in C. destruct C as [[[R T] _] _].
  destruct (once m _); [|discriminate]. destruct (dec_field dec_str _) as [n'|] eqn:N; [|discriminate]. destruct (dec_opt dec_str _); [|discriminate]. destruct (dec_default false dec_bool _); [|discriminate].
  destruct (dec_opt dec_type _) as [t|] eqn:E; [|discriminate]. injection D as <- <-. split.
  - unfold required in R. destruct (require _) as [s|] eqn:Q; [|discriminate]. apply require_iff in Q as [G W]. rewrite G in N. injection N as <-. exact W.
  - intros s. cbn. exact (checked_opt_type _ _ T E s).
Qed.
Lemma optional_iff o s : optional o = Some s -> dec_opt dec_str o = Some s /\ forall x, s = Some x -> said x.
Proof.
  unfold optional. destruct o as [[| | |u| |]|]; try discriminate; try (intros [= <-]; split; [reflexivity|discriminate]).
  destruct (blank u) eqn:B; [discriminate|]. intros [= <-]. split; [reflexivity|]. intros x [= <-]. apply blank_said, B.
Qed.
Lemma checked_option j o : check_option j = true -> dec_option j = Some o -> safe_option o.
Proof.
  intros C D. destruct j as [| | | | |m]; try discriminate. cbn [check_option] in C. cbn [dec_option] in D.
  destruct (once m _); [|discriminate].
  destruct (optional (Compgen_Model.get m (lit "short"))) as [s|] eqn:S; [|discriminate]. destruct (optional (Compgen_Model.get m (lit "long"))) as [l|] eqn:L; [|destruct s; discriminate].
  apply optional_iff in S as [S Ws]. apply optional_iff in L as [L Wl]. rewrite S, L in D.
  destruct (dec_opt dec_str (Compgen_Model.get m (lit "description"))); [|discriminate]. destruct (dec_default false dec_bool _); [|discriminate]. destruct (dec_opt dec_type _) as [t|] eqn:T; [|discriminate]. destruct (dec_opt dec_argument _); [|discriminate].
  injection D as <-. assert (V : opt_true check_type (Compgen_Model.get m (lit "value_type")) = true /\ (s <> None \/ l <> None)).
  { destruct s, l; try discriminate C; apply andb_true_iff in C as [_ C]; (split; [exact C|]); try (left; discriminate); right; discriminate. }
  destruct V as [V N]. split; [split; [exact N|split; [exact Ws|exact Wl]]|]. intros u. cbn. exact (checked_opt_type _ _ V T u).
Qed.
Lemma checked_list {A} (c : json -> bool) (f : json -> option A) (Q : A -> Prop) o l :
  (forall j x, c j = true -> f j = Some x -> Q x) ->
  opt_true (fun j => match j with Arr l => forallb c l | _ => false end) o = true -> dec_default [] (dec_list f) o = Some l -> forall x, In x l -> Q x.
Proof.
  intros H C D x J. destruct o as [j|]; cbn [dec_default opt_true] in *; [|injection D as <-; destruct J]. destruct j as [| | | |js|]; try discriminate. cbn [dec_list] in D.
  destruct (traverse_in f js l D x J) as (y & Jy & E). rewrite forallb_forall in C. apply (H y); [apply C, Jy|exact E].
Qed.
Definition safe_sub (s : subcommand) : Prop := said (s_name s) /\ (forall o, In o (s_options s) -> safe_option o) /\ (forall a, In a (s_arguments s) -> safe_argument a).
Definition fine_sub (j : json) : Prop := forall s, check_sub j = true -> dec_sub j = Some s -> safe_sub s /\ forall s', within (s_subs s) s' -> safe_sub s'.
Lemma checked_sub : forall j, fine_sub j.
Proof.
  assert (G : forall j, fine_sub j /\ forall l, j = Arr l -> Forall fine_sub l).
  { apply json_nested; try (intros; split; [intros ? ?; discriminate|discriminate]).
    - intros l F. split; [intros s C; discriminate C|]. intros l' [= <-]. apply Forall_forall. intros x J. rewrite Forall_forall in F. apply (F x J).
    - intros m F. split; [|discriminate]. intros s C D. rewrite check_sub_eq, !andb_true_iff in C. destruct C as [[[R O] A] Sb]. rewrite dec_sub_eq in D.
      destruct (once m _); [|discriminate]. destruct (dec_field dec_str (Compgen_Model.get m (lit "name"))) as [n|] eqn:N; [|discriminate]. destruct (dec_opt dec_str _); [|discriminate].
      destruct (dec_default [] (dec_list dec_str) _) as [al|]; [|discriminate]. destruct (dec_default [] (dec_list dec_option) _) as [os|] eqn:Os; [|discriminate].
      destruct (dec_default [] (dec_list dec_argument) _) as [ags|] eqn:Ags; [|discriminate]. destruct (dec_default [] (dec_list dec_sub) _) as [ss|] eqn:Ss; [|discriminate]. injection D as <-.
      assert (Here : safe_sub (Sub n al os (map snd ags) ss)).
      { split; [|split]; cbn [s_name s_options s_arguments].
        - unfold required in R. destruct (require _) as [u|] eqn:Q; [|discriminate]. apply require_iff in Q as [E W]. rewrite E in N. injection N as <-. exact W.
        - apply (checked_list check_option dec_option safe_option _ os checked_option O Os).
        - intros a J. apply in_map_iff in J as ((k & b) & <- & J). 
          apply (checked_list check_argument dec_argument (fun x => safe_argument (snd x)) (Compgen_Model.get m (lit "arguments")) ags) with (x := (k, b)); [|exact A|exact Ags|exact J]. intros j [k' b'] Cj Dj. apply (checked_argument j k' b' Cj Dj). }
      split; [exact Here|]. cbn [s_subs].
      assert (Each : forall x, In x ss -> safe_sub x /\ forall s', within (s_subs x) s' -> safe_sub s').
      { destruct (Compgen_Model.get m (lit "subcommands")) as [v|] eqn:E; [|injection Ss as <-; intros x []]. cbn [dec_default opt_true] in *. destruct v as [| | | |js|]; try discriminate.
        apply get_in in E. rewrite Forall_forall in F. destruct (F _ E) as [_ Fl]. specialize (Fl js eq_refl). rewrite Forall_forall in Fl.
        intros x J. destruct (traverse_in dec_sub js ss Ss x J) as (y & Jy & Dy). cbn [check_subs] in Sb. rewrite forallb_forall in Sb. exact (Fl y Jy x (Sb y Jy) Dy). }
      intros s' W. inversion W as [l x J|l x y J W']; subst; [exact (proj1 (Each s' J))|exact (proj2 (Each x J) s' W')]. }
  intros j. apply G.
Qed.
(** everything in a definition that is read from a text that passed the check *)
Lemma checked j name f : check j name = true -> decode j = Some f ->
  f_command f = name /\ said name /\ Forall said (f_names f) /\ (forall s, within (d_subs (f_def f)) s -> safe_sub s) /\
  (forall o, an_option (f_def f) o -> safe_option o) /\ (forall a, an_argument (f_def f) a -> safe_argument a).
Proof.
  intros C D. destruct j as [| | | | |m]; try discriminate. unfold check in C. unfold decode in D. rewrite !andb_true_iff in C. destruct C as [[[R O] A] Sb].
  destruct (once m _); [|discriminate]. destruct (dec_field dec_str _) as [n|] eqn:N; [|discriminate]. destruct (dec_opt dec_str _); [|discriminate].
  destruct (dec_default [] (dec_list dec_sub) _) as [ss|] eqn:Ss; [|discriminate]. destruct (dec_default [] (dec_list dec_option) _) as [os|] eqn:Os; [|discriminate].
  destruct (dec_default [] (dec_list dec_argument) _) as [ags|] eqn:Ags; [|discriminate]. injection D as <-. cbn [f_command f_def f_names].
  destruct (require _) as [u|] eqn:Q; [|discriminate]. apply require_iff in Q as [E W]. rewrite E in N. injection N as <-. apply str_eqb_eq in R. subst u.
  assert (Subs : forall s, within ss s -> safe_sub s).
  { assert (Each : forall x, In x ss -> safe_sub x /\ forall s', within (s_subs x) s' -> safe_sub s').
    { apply (checked_list check_sub dec_sub (fun x => safe_sub x /\ forall s', within (s_subs x) s' -> safe_sub s') _ ss checked_sub Sb Ss). }
    intros s V. inversion V as [l x J|l x y J V']; subst; [exact (proj1 (Each s J))|exact (proj2 (Each x J) s V')]. }
  assert (Args : forall x, In x ags -> said (fst x) /\ safe_argument (snd x)).
  { apply (checked_list check_argument dec_argument (fun x => said (fst x) /\ safe_argument (snd x)) (Compgen_Model.get m (lit "arguments")) ags); [|exact A|exact Ags]. intros j [k b]. apply checked_argument. }
  split; [reflexivity|]. split; [exact W|]. split; [|split; [exact Subs|split]].
  - apply Forall_forall. intros x J. apply in_map_iff in J as (y & <- & J). apply Args, J.
  - intros o1 [J|(s & V & J)]; [|apply (Subs s V), J]. apply (checked_list check_option dec_option safe_option _ os checked_option O Os o1 J).
  - intros a [J|(s & V & J)]; [|apply (Subs s V), J]. cbn in J. apply in_map_iff in J as (y & <- & J). apply Args, J.
Qed.

(** ** C184 *)
(** A script in a definition that passed the check can only be that of an option's own argument. *)
Theorem C184_no_script_partial j name f t : check j name = true -> decode j = Some f -> type_in (f_def f) (Script t) ->
  exists o a, an_option (f_def f) o /\ o_argument o = Some a /\ a_type a = Some (Script t).
Proof.
  intros C D T. destruct (checked j name f C D) as (_ & _ & _ & _ & O & A). destruct T as [(a & Ia & Ta)|(o & Io & To)].
  - exfalso. exact (A a Ia t Ta).
  - destruct To as [To|(a & Ea & Ta)]; [exfalso; destruct (O o Io) as [_ V]; exact (V t To)|]. exists o, a. auto.
Qed.
(** so if every definition in use passed the check and gives no option an argument of its own, Tab runs nothing, whatever is typed *)
Theorem C184_runs_nothing_partial alphabetic alphanumeric printable escape_name files commands other fuzzy shell resolve db :
  (forall c d, db c = Some d -> (exists j name f, check j name = true /\ decode j = Some f /\ f_def f = d) /\ forall o, an_option d o -> o_argument o = None) ->
  forall depth line pos l ran, complete_at alphabetic alphanumeric db printable escape_name files commands other fuzzy shell resolve depth line pos = Some (Found l ran) -> ran = [].
Proof.
  intros H depth line pos l ran E. destruct ran as [|s ran]; [reflexivity|]. exfalso.
  destruct (C109_only_definitions_run _ _ _ _ _ _ _ _ _ _ _ _ _ _ _ _ E s (or_introl eq_refl)) as (c & d & t & Dc & T & _).
  destruct (H c d Dc) as ((j & name & f & Cj & Dj & <-) & N). destruct (C184_no_script_partial j name f t Cj Dj T) as (o & a & Io & Ea & _). rewrite (N o Io) in Ea. discriminate.
Qed.
(** But an option's own argument is never looked at: whatever command is put there passes the check, is read, and Tab behind the option runs it. *)
Definition hidden (name template : str) : json :=
  Obj [(lit "command", Str name);
       (lit "global_options",
        Arr [Obj [(lit "long", Str (lit "--of"));
                  (lit "argument", Obj [(lit "name", Str (lit "file"));
                                        (lit "type", Obj [(lit "type", Str (lit "Script")); (lit "data", Str template)])])]])].
Definition hidden_file (name template : str) : file :=
  File name (Definition_ [] [Coption None (Some (lit "--of")) false None (Some (Argument false (Some (Script template))))] []) [].
Lemma hidden_passes name t : said name -> check (hidden name t) name = true /\ decode (hidden name t) = Some (hidden_file name t).
Proof.
  intros W. split; [|reflexivity]. unfold check, hidden. assert (R : require (Compgen_Model.get [(lit "command", Str name)] (lit "command")) = Some name) by (apply require_iff; split; [reflexivity|exact W]).
  change (match require (Compgen_Model.get [(lit "command", Str name)] (lit "command")) with Some c => str_eqb c name | None => false end && true && true && true = true).
  rewrite R, str_eqb_refl. reflexivity.
Qed.
Theorem C184_runs_nothing_refuted alphabetic alphanumeric printable escape_name files commands other fuzzy shell resolve db cmd t :
  word cmd -> said (resolve cmd) -> ~ In dollar t ->
  exists j f, check j (resolve cmd) = true /\ decode j = Some f /\
    (db (resolve cmd) = Some (f_def f) ->
     forall depth, exists l, complete_at alphabetic alphanumeric db printable escape_name files commands other fuzzy shell resolve (S depth) (cmd ++ lit " --of ") (blen (cmd ++ lit " --of ")) = Some (Found l [t])).
Proof.
  intros W Wn N. exists (hidden (resolve cmd) t), (hidden_file (resolve cmd) t). destruct (hidden_passes (resolve cmd) t Wn) as [C D]. split; [exact C|]. split; [exact D|]. clear C D. intros D depth.
  set (c := resolve cmd) in *. cbn [f_def hidden_file] in D.
  set (p := Parsed c [] [lit "--of"; []] [] (Some []) (In_value (lit "--of") (Some (Script t))) [lit "--of"] [[]]).
  assert (V : forall x, correct db (with_context x p) = p).
  { intros x. unfold correct. cbn [Comp_Model.command with_context p]. rewrite D. unfold correct1. cbn [path with_context p walk d_subs]. reflexivity. }
  assert (L : line_of [cmd; lit "--of"] [] = cmd ++ lit " --of ") by (unfold line_of; cbn [flat_map]; rewrite app_nil_r, <- app_assoc; reflexivity).
  assert (Wo : word (lit "--of")) by (split; [repeat (apply Forall_cons; [split; [cbn; intuition discriminate|reflexivity]|]); apply Forall_nil|discriminate]).
  assert (Cv : convert alphabetic alphanumeric db resolve (cmd ++ lit " --of ") (blen (cmd ++ lit " --of ")) = p).
  { assert (E := convert_line alphabetic alphanumeric db resolve cmd [lit "--of"] [] W (Forall_cons _ Wo (Forall_nil _)) (Forall_nil _)). cbv zeta in E. rewrite L in E. rewrite E.
    assert (A : exists x, with_command (resolve cmd) (analyze alphabetic alphanumeric (cmd :: [lit "--of"] ++ [[]]) (S (length [lit "--of"])) (cmd ++ lit " --of ")) = with_context x p).
    { rewrite <- L. unfold analyze. rewrite (space_words cmd [lit "--of"] [] W). eexists. reflexivity. }
    destruct A as (x & A). match goal with |- correct db ?y = _ => replace y with (with_context x p) by (symmetry; exact A) end. apply V. }
  assert (E : script_text t p = t).
  { unfold script_text. cbn [Comp_Model.command p current_arg path hd sargs replace_args]. change (Dmv_Model.show 0) with (lit "0").
    rewrite (Dmv_Props.replace_absent (lit "$COMMAND") _ dollar (lit "COMMAND") t eq_refl N).
    rewrite (Dmv_Props.replace_absent (lit "$CURRENT_TOKEN") _ dollar (lit "CURRENT_TOKEN") t eq_refl N).
    rewrite (Dmv_Props.replace_absent (lit "$SUBCOMMAND") _ dollar (lit "SUBCOMMAND") t eq_refl N).
    apply (Dmv_Props.replace_absent _ _ dollar (lit "ARG_0") t eq_refl N). }
  unfold Comp_Model.complete_at, collect. rewrite Cv. cbn [ctx p Comp_Model.generate]. fold p. assert (C1 : correct db p = p) by (exact (V (ctx p))). rewrite C1. cbn [ctx p]. fold p.
  unfold gen_value, of_type. rewrite E. eexists. reflexivity.
Qed.

(** ** The arguments *)
Definition option_word (a : str) : Prop := In a (map lit ["--stdout"; "--check"; "-h"; "--help"]%string).
Lemma parse_args_iff args : forall o k nm out chk n,
  parse_args args o k nm = Some (out, chk, n) <->
  (forall a, In a args -> starts_with (lit "-") a = true -> option_word a) /\
  (match nm with None => plain_words args = [n] | Some m => plain_words args = [] /\ m = n end) /\
  out = (o || mem_str (lit "--stdout") args) /\ chk = (k || mem_str (lit "--check") args) /\ out && chk = false.
Proof.
  induction args as [|a args IH]; intros o k nm out chk n.
  - cbn [parse_args plain_words filter mem_str existsb]. rewrite !orb_false_r. destruct nm as [m|].
    + destruct (o && k) eqn:B.
      * split; [discriminate|]. intros (_ & _ & -> & -> & X). congruence.
      * split; [intros [= <- <- <-]|intros (_ & (_ & ->) & -> & -> & _); reflexivity]. split; [intros a []|]. auto.
    + split; [discriminate|]. intros (_ & X & _). discriminate X.
  - cbn [parse_args]. 
    destruct (str_eqb_spec a (lit "--stdout")) as [Ea|N1].
    { subst a. rewrite IH. cbn [plain_words filter]. change (negb (starts_with (lit "-") (lit "--stdout"))) with false. cbv iota. fold (plain_words args).
      change (mem_str (lit "--stdout") (lit "--stdout" :: args)) with true. change (mem_str (lit "--check") (lit "--stdout" :: args)) with (mem_str (lit "--check") args). rewrite orb_true_r.
      cbn [orb]. split; intros (A & R); (split; [|exact R]); [intros b [<-|J]; [intros _; left; reflexivity|apply A, J]|intros b J; apply A; right; exact J]. }
    destruct (str_eqb_spec a (lit "--check")) as [Ea|N2].
    { subst a. rewrite IH. cbn [plain_words filter]. change (negb (starts_with (lit "-") (lit "--check"))) with false. cbv iota. fold (plain_words args).
      change (mem_str (lit "--check") (lit "--check" :: args)) with true. change (mem_str (lit "--stdout") (lit "--check" :: args)) with (mem_str (lit "--stdout") args). rewrite (orb_true_r k).
      cbn [orb]. split; intros (A & R); (split; [|exact R]); [intros b [<-|J]; [intros _; right; left; reflexivity|apply A, J]|intros b J; apply A; right; exact J]. }
    assert (M : forall w, a <> w -> mem_str w (a :: args) = mem_str w args).
    { intros w N. cbn [mem_str existsb]. destruct (str_eqb_spec w a) as [E|_]; [congruence|]. reflexivity. }
    rewrite (M _ N1), (M _ N2).
    destruct (str_eqb a (lit "-h") || str_eqb a (lit "--help")) eqn:H.
    { rewrite IH. assert (O : option_word a /\ starts_with (lit "-") a = true).
      { apply orb_true_iff in H as [H|H]; apply str_eqb_eq in H; subst a; (split; [|reflexivity]); [right; right; left|right; right; right; left]; reflexivity. }
      destruct O as [O D]. cbn [plain_words filter]. rewrite D. cbn [negb]. fold (plain_words args).
      split; intros (A & R); (split; [|exact R]); [intros b [<-|J]; [intros _; exact O|apply A, J]|intros b J; apply A; right; exact J]. }
    apply orb_false_iff in H as [H1 H2]. cbn [plain_words filter]. destruct (starts_with (lit "-") a) eqn:D; cbn [negb]; fold (plain_words args).
    { split; [discriminate|]. intros (A & _). exfalso. destruct (A a (or_introl eq_refl) D) as [E|[E|[E|[E|[]]]]]; subst a; try congruence; discriminate. }
    assert (Al : (forall b, In b (a :: args) -> starts_with (lit "-") b = true -> option_word b) <-> (forall b, In b args -> starts_with (lit "-") b = true -> option_word b)).
    { split; intros A b J; [apply A; right; exact J|]. destruct J as [<-|J]; [congruence|apply A, J]. }
    destruct nm as [m|].
    + split; [discriminate|]. intros (_ & (X & _) & _). discriminate X.
    + rewrite IH, Al. split; intros (A & R & Q); (split; [exact A|]); (split; [|exact Q]); [destruct R as [-> ->]; reflexivity|injection R as -> R; auto].
Qed.
Definition parse_iff args out chk n := parse_args_iff args false false None out chk n.

(** ** C185 *)
Section Saved.
Variable parse : str -> option json.
Variable man help : str -> option str.
Variable service : str -> str -> option str.
Notation run := (Compgen_Model.command parse man help service).
Notation generate := (Compgen_Model.generate parse man help service).
Lemma generated c quiet text es : generate c quiet = (Some text, es) -> exists h a j, service c h = Some a /\ text = Offer_Model.sanitize_code_block a /\ parse text = Some j /\ check j c = true.
Proof.
  unfold Compgen_Model.generate. destruct (help_text man help c) as [h ran]. destruct (blank h); [discriminate|]. destruct (service c h) as [a|] eqn:A; [|discriminate].
  destruct (parse _) as [j|] eqn:P; [|discriminate]. destruct (check j c) eqn:C; [|discriminate]. intros [= <- _]. exists h, a, j. auto.
Qed.
Lemma no_save c quiet r es p t : generate c quiet = (r, es) -> ~ In (Save p t) es.
Proof.
  unfold Compgen_Model.generate. assert (Hp : ~ In (Save p t) (snd (help_text man help c))).
  { unfold help_text. destruct (man c) as [m|]; [destruct (blank m)|]; cbn; intuition discriminate. }
  destruct (help_text man help c) as [h ran]. cbn [snd] in Hp.
  assert (Lg : forall x, ~ In (Save p t) (log quiet x :: ran)) by (intros x [E|J]; [destruct quiet; discriminate E|exact (Hp J)]).
  assert (Al : forall x y z, ~ In (Save p t) ((log quiet x :: ran) ++ [log quiet y; Ask c z])).
  { intros x y z J. apply in_app_iff in J as [J|[E|[E|[]]]]; [exact (Lg x J)|destruct quiet; discriminate E|discriminate E]. }
  destruct (blank h); [intros [= _ <-]; apply Lg|]. destruct (service c h) as [a|]; [|intros [= _ <-]; apply Al].
  destruct (parse _) as [j|]; [|intros [= _ <-]; apply Al]. destruct (check j c); intros [= _ <-]; apply Al.
Qed.
(** what is known when a file was written *)
Lemma saved config argv st es p text : run config argv = (st, es) -> In (Save p text) es ->
  exists dir c, config = Some dir /\ p = place dir c /\ st = 0 /\ parse_args (tl argv) false false None = Some (false, false, c) /\ exists es', generate c false = (Some text, es').
Proof.
  unfold Compgen_Model.command. destruct (existsb _ argv); [intros [= _ <-] [E|[]]; discriminate E|].
  destruct (parse_args (tl argv) false false None) as [[[out chk] c]|]; [|intros [= _ <-] [E|[E|[]]]; discriminate E].
  destruct (generate c out) as [[t|] es'] eqn:G.
  - destruct chk; [intros [= _ <-] J; apply in_app_iff in J as [J|[E|[]]]; [destruct (no_save _ _ _ _ _ _ G J)|discriminate E]|].
    destruct out; [intros [= _ <-] J; apply in_app_iff in J as [J|[E|[]]]; [destruct (no_save _ _ _ _ _ _ G J)|discriminate E]|].
    destruct config as [dir|]; intros [= <- <-] J; apply in_app_iff in J as [J|J]; try destruct (no_save _ _ _ _ _ _ G J).
    + destruct J as [E|[E|[]]]; [|discriminate E]. injection E as <- <-. exists dir, c. split; [reflexivity|]. split; [reflexivity|]. split; [reflexivity|]. split; [reflexivity|]. exists es'. exact G.
    + destruct J as [E|[]]. discriminate E.
  - intros [= _ <-] J. apply in_app_iff in J as [J|[E|[]]]; [destruct (no_save _ _ _ _ _ _ G J)|discriminate E].
Qed.
(** A definition that was saved, that serde reads and that the loader does not refuse, is the one in use
    from the next completion on, if the program has none of its own and none was in use before. *)
Theorem C185_used_partial config home embedded argv st es p text contents t c :
  run (Some (config ++ lit "/dsh")) argv = (st, es) -> In (Save p text) es -> plain_words (tl argv) = [c] ->
  contents p = Some text -> (forall g, ~ defines embedded (c ++ lit ".json") g) -> ~ (exists r, c = chr "/" :: r) -> Loader_Model.get t c = None ->
  exists j, parse text = Some j /\ forall f, decode j = Some f -> good f ->
  Loader_Model.get (ensure embedded (look_at parse contents) (default_dirs (Some config) home) t c) c = Some f.
Proof.
  intros R J Pl Ct Ne Na Nt. destruct (saved _ _ _ _ _ _ R J) as (dir & c' & [= <-] & Ep & _ & Pa & es' & G).
  assert (c' = c) as ->.
  { apply parse_iff in Pa as (_ & Q & _). rewrite Pl in Q. injection Q as ->. reflexivity. }
  destruct (generated _ _ _ _ G) as (h & a & j & _ & _ & Pj & Cj). exists j. split; [exact Pj|]. intros f D Gf. destruct (checked j c f Cj D) as (Fc & (x & Jx & _) & _).
  assert (Hl : look_at parse contents p = Is f) by (unfold look_at; rewrite Ct, Pj, D; reflexivity).
  assert (Ld : load embedded (look_at parse contents) (default_dirs (Some config) home) c = Some f).
  { apply C159_directories_partial; [exact Ne|exact Na|]. exists [], (config ++ lit "/dsh/completions"). eexists. split; [reflexivity|]. split; [|intros d g []].
    split; [|exact Gf]. rewrite <- Hl. f_equal. rewrite Ep. unfold place, Loader_Props.json. rewrite <- !app_assoc. reflexivity. }
  unfold ensure. destruct c as [|y c]; [destruct Jx|]. rewrite Nt, Ld, get_add, Fc, str_eqb_refl. reflexivity.
Qed.
End Saved.
(** What the check does make sure of: the definition is that of the command asked for, every option at any depth can be written, and everything has a name. *)
Theorem C185_checked j name f : check j name = true -> decode j = Some f ->
  f_command f = name /\ said name /\ Forall said (f_names f) /\ (forall o, an_option (f_def f) o -> written o) /\ (forall s, within (d_subs (f_def f)) s -> said (s_name s)).
Proof.
  intros C D. destruct (checked j name f C D) as (A & B & N & S & O & _). split; [exact A|]. split; [exact B|]. split; [exact N|]. split; [intros o J; apply (O o J)|intros s J; apply (S s J)].
Qed.
Lemma strings_read l : forallb is_str l = true -> exists ss, traverse dec_str l = Some ss /\ l = map Str ss.
Proof.
  induction l as [|x l IH]; [exists []; auto|]. cbn. destruct x as [| | |s| |]; try discriminate. cbn. intros H. destruct (IH H) as (ss & -> & ->). exists (s :: ss). auto.
Qed.
(** The choices that were checked are read as they are written, and so is a File that names its extensions. *)
Theorem C185_types m data : check_type (Obj m) = true -> count m (lit "type") = 1 -> count m (lit "data") = 1 -> Compgen_Model.get m (lit "data") = Some data ->
  (Compgen_Model.get m (lit "type") = Some (Str (lit "Choice")) -> exists ss, data = Arr (map Str ss) /\ dec_type (Obj m) = Some (Choice ss)) /\
  (Compgen_Model.get m (lit "type") = Some (Str (lit "File")) -> exists dm, data = Obj dm /\
     (count dm (lit "extensions") <= 1 -> Compgen_Model.get dm (lit "extensions") <> Some Null -> dec_type (Obj m) = Some (Other_type 0))).
Proof.
  intros C Ct Cd G. assert (O : once m [lit "type"; lit "data"] = true) by (unfold once; cbn [forallb]; rewrite Ct, Cd; reflexivity).
  unfold check_type in C. rewrite G in C. unfold dec_type. rewrite O, G.
  split; intros T; rewrite T in C |- *; cbv zeta; change (require (Some (Str ?x))) with (Some x) in C; cbv iota in C.
  - change (require (Some (Str (lit "Choice")))) with (Some (lit "Choice")) in C. cbv iota in C. rewrite !andb_true_iff in C. destruct C as [[_ C] _]. change (str_eqb (lit "Choice") (lit "Choice")) with true in C. cbv iota in C.
    destruct data as [| | | |l|]; try discriminate C. destruct (strings_read l C) as (ss & E & ->). exists ss. split; [reflexivity|].
    change (str_eqb (lit "Choice") (lit "File")) with false. change (str_eqb (lit "Choice") (lit "Choice")) with true. cbv iota. cbn [dec_field dec_list]. rewrite E. reflexivity.
  - change (require (Some (Str (lit "File")))) with (Some (lit "File")) in C. cbv iota in C. rewrite !andb_true_iff in C. destruct C as [_ C]. change (str_eqb (lit "File") (lit "File")) with true in C. cbv iota in C. cbn [opt_true] in C.
    destruct data as [| | | | |dm]; try discriminate C. exists dm. split; [reflexivity|]. intros Ce Nn.
    change (str_eqb (lit "File") (lit "File")) with true. cbv iota. assert (Oe : once dm [lit "extensions"] = true) by (unfold once; cbn [forallb]; apply Nat.leb_le in Ce; rewrite Ce; reflexivity). rewrite Oe.
    destruct (Compgen_Model.get dm (lit "extensions")) as [e|]; [|reflexivity]. cbn [opt_true] in C. destruct e as [| | | |l|]; try discriminate C.
    cbn [dec_opt dec_list]. destruct (strings_read l C) as (ss & E & _). rewrite E. reflexivity.
Qed.
(** But not that it is used.  An argument of the type File, just as the instructions for the service write it, or of a type that
    does not exist, passes the check, is saved, and is no definition for the program that reads it. *)
Definition one_argument (name ty : str) : json :=
  Obj [(lit "command", Str name); (lit "arguments", Arr [Obj [(lit "name", Str (lit "x")); (lit "type", Obj [(lit "type", Str ty)])]])].
Lemma only_command name rest : said name -> Compgen_Model.get rest (lit "command") = None ->
  match require (Compgen_Model.get ((lit "command", Str name) :: rest) (lit "command")) with Some c => str_eqb c name | None => false end = true.
Proof.
  intros W N. assert (R : require (Compgen_Model.get ((lit "command", Str name) :: rest) (lit "command")) = Some name).
  { apply require_iff. split; [|exact W]. cbn [Compgen_Model.get]. rewrite N, str_eqb_refl. reflexivity. }
  rewrite R. apply str_eqb_refl.
Qed.
Lemma one_argument_checked name ty : said name -> said ty -> ty <> lit "Script" -> ty <> lit "Choice" -> check (one_argument name ty) name = true.
Proof.
  intros W Wt Ns Nc. unfold check, one_argument. rewrite only_command by (assumption || reflexivity).
  change (check_type (Obj [(lit "type", Str ty)]) && true && true && true && true = true). rewrite !andb_true_r. unfold check_type.
  assert (R : require (Compgen_Model.get [(lit "type", Str ty)] (lit "type")) = Some ty) by (apply require_iff; split; [reflexivity|exact Wt]). rewrite R.
  destruct (str_eqb_spec ty (lit "Script")) as [E|_]; [contradiction|]. destruct (str_eqb_spec ty (lit "Choice")) as [E|_]; [contradiction|].
  destruct (str_eqb ty (lit "File")); reflexivity.
Qed.
Theorem C185_file_refuted parse contents p text name : said name -> parse text = Some (one_argument name (lit "File")) -> contents p = Some text ->
  check (one_argument name (lit "File")) name = true /\ usable (look_at parse contents p) = None.
Proof.
  intros W P C. split; [apply one_argument_checked; try discriminate; [exact W|exists (chr "F"); split; [left; reflexivity|reflexivity]]|].
  unfold look_at. rewrite C, P. reflexivity.
Qed.
Theorem C185_unknown_refuted parse contents p text name ty : said name -> said ty -> ~ In ty (map lit ["File"; "Choice"; "Script"; "CommandWithArgs"]%string) -> ~ In ty unit_types ->
  parse text = Some (one_argument name ty) -> contents p = Some text ->
  check (one_argument name ty) name = true /\ usable (look_at parse contents p) = None.
Proof.
  intros W Wt N U P C. split; [apply one_argument_checked; try assumption; intros ->; apply N; cbn; auto|].
  unfold look_at. rewrite C, P. assert (D : dec_type (Obj [(lit "type", Str ty)]) = None).
  { unfold dec_type. change (once [(lit "type", Str ty)] [lit "type"; lit "data"]) with true. change (Compgen_Model.get [(lit "type", Str ty)] (lit "type")) with (Some (Str ty)). cbv iota zeta.
    destruct (str_eqb_spec ty (lit "File")) as [E|_]; [exfalso; apply N; rewrite E; cbn; auto|]. destruct (str_eqb_spec ty (lit "Choice")) as [E|_]; [exfalso; apply N; rewrite E; cbn; auto|].
    destruct (str_eqb_spec ty (lit "Script")) as [E|_]; [exfalso; apply N; rewrite E; cbn; auto|]. destruct (str_eqb_spec ty (lit "CommandWithArgs")) as [E|_]; [exfalso; apply N; rewrite E; cbn; auto|].
    assert (I : forall l, ~ In ty l -> index ty l = None).
    { clear. induction l as [|x l IH]; intros N; [reflexivity|]. cbn. destruct (str_eqb_spec x ty) as [E|_]; [exfalso; apply N; left; exact E|]. rewrite IH; [reflexivity|]. intros J. apply N. right. exact J. }
    rewrite (I _ U). reflexivity. }
  unfold one_argument. set (m := [(lit "type", Str ty)]) in *. clearbody m.
  assert (E : decode (Obj [(lit "command", Str name); (lit "arguments", Arr [Obj [(lit "name", Str (lit "x")); (lit "type", Obj m)]])]) = None); [|rewrite E; reflexivity].
  cbv -[dec_type]. rewrite D. reflexivity.
Qed.
(** An option without its dash passes, and makes the loader refuse the whole file. *)
Definition one_option (name x : str) : json := Obj [(lit "command", Str name); (lit "global_options", Arr [Obj [(lit "short", Str x)]])].
Theorem C185_dash_refuted name x : said name -> said x -> starts_with (lit "-") x = false ->
  check (one_option name x) name = true /\ exists f, decode (one_option name x) = Some f /\ ~ good f.
Proof.
  intros W Wx Nx. split.
  - unfold check, one_option. rewrite only_command by (assumption || reflexivity).
    change (match optional (Some (Str x)) with Some None => false | Some _ => true | None => false end && true && true && true = true).
    unfold optional. apply blank_said in Wx. rewrite Wx. reflexivity.
  - eexists. split; [reflexivity|]. intros [_ _ G _]. cbn [f_def d_globals] in G. inversion G as [|o l (_ & Sh & _) _]; subst. destruct (Sh x eq_refl) as (r & -> & _). discriminate Nx.
Qed.
(** And no definition of a command whose name has a blank is ever used. *)
Theorem C185_blank_refuted j name f c : check j name = true -> decode j = Some f -> In c name -> is_whitespace c = true -> ~ good f.
Proof. intros C D J Wc [[_ N] _ _ _]. destruct (checked j name f C D) as (E & _). rewrite E in N. rewrite (N c J) in Wc. discriminate. Qed.

(** ** C186 *)
Section Effects.
Variable parse : str -> option json.
Variable man help : str -> option str.
Variable service : str -> str -> option str.
Variable config : option str.
Notation run := (Compgen_Model.command parse man help service config).
Notation generate := (Compgen_Model.generate parse man help service).
(** Asked for help anywhere, it shows how it is used and does nothing else. *)
Theorem C186_help argv : In (lit "-h") argv \/ In (lit "--help") argv -> run argv = (0, [Out (usage ++ nl)]).
Proof.
  intros H. unfold Compgen_Model.command. assert (E : existsb (fun a => str_eqb a (lit "--help") || str_eqb a (lit "-h")) argv = true).
  { apply existsb_exists. destruct H as [H|H]; [exists (lit "-h")|exists (lit "--help")]; (split; [exact H|reflexivity]). }
  rewrite E. reflexivity.
Qed.
(** the manual, or what the program itself says *)
Definition describes (c h : str) : Prop := (man c = Some h \/ (forall m, man c = Some m -> ~ said m) /\ help c = Some h) /\ said h.
Lemma generate_does c quiet r es : generate c quiet = (r, es) -> forall e, In e es ->
  e = Man c \/ (e = Help c /\ forall m, man c = Some m -> ~ said m) \/ (exists h, e = Ask c h /\ describes c h) \/ (quiet = true /\ e = Err) \/ (quiet = false /\ exists s, e = Out s).
Proof.
  unfold Compgen_Model.generate. destruct (help_text man help c) as [h ran] eqn:Hp. unfold help_text in Hp.
  assert (Lg : forall x, (quiet = true /\ log quiet x = Err) \/ (quiet = false /\ exists s, log quiet x = Out s)) by (intros x; destruct quiet; [left; split; reflexivity|right; split; [reflexivity|eexists; reflexivity]]).
  assert (Rn : (forall e, In e ran -> e = Man c \/ (e = Help c /\ forall m, man c = Some m -> ~ said m)) /\ (blank h = false -> describes c h)).
  { destruct (man c) as [m|] eqn:M.
    - destruct (blank m) eqn:B; injection Hp as <- <-.
      + assert (Nm : forall m0, Some m = Some m0 -> ~ said m0) by (intros m0 [= <-] W; apply blank_said in W; congruence).
        split; [intros e [<-|[<-|[]]]; auto|]. intros Bh. unfold describes. rewrite M. split; [right|apply blank_said; exact Bh]. split; [exact Nm|]. destruct (help c); [reflexivity|discriminate Bh].
      + split; [intros e [<-|[]]; auto|]. intros _. unfold describes. rewrite M. split; [left; reflexivity|apply blank_said, B].
    - injection Hp as <- <-. assert (Nm : forall m0, @None str = Some m0 -> ~ said m0) by discriminate.
      split; [intros e [<-|[<-|[]]]; auto|]. intros Bh. unfold describes. rewrite M. split; [right|apply blank_said; exact Bh]. split; [exact Nm|]. destruct (help c); [reflexivity|discriminate Bh]. }
  destruct Rn as [Rn Ds]. set (b1 := log quiet (lit "Fetching help text for '" ++ c ++ lit "'...") :: ran).
  assert (B1 : forall e, In e b1 -> e = Man c \/ (e = Help c /\ forall m, man c = Some m -> ~ said m) \/ (exists h, e = Ask c h /\ describes c h) \/ (quiet = true /\ e = Err) \/ (quiet = false /\ exists s, e = Out s)).
  { intros e [<-|J]; [right; right; right; apply Lg|]. destruct (Rn e J) as [X|X]; auto. }
  destruct (blank h) eqn:B; [intros [= _ <-]; exact B1|]. specialize (Ds eq_refl).
  match goal with |- context [(Some _, ?l)] => set (b2 := l) end.
  assert (B2 : forall e, In e b2 -> e = Man c \/ (e = Help c /\ forall m, man c = Some m -> ~ said m) \/ (exists h, e = Ask c h /\ describes c h) \/ (quiet = true /\ e = Err) \/ (quiet = false /\ exists s, e = Out s)).
  { intros e J. apply in_app_iff in J as [J|[<-|[<-|[]]]]; [apply B1, J|right; right; right; apply Lg|right; right; left; exists h; auto]. }
  destruct (service c h) as [a|]; [|intros [= _ <-]; exact B2]. destruct (parse _) as [j|]; [|intros [= _ <-]; exact B2]. destruct (check j c); intros [= _ <-]; exact B2.
Qed.
Lemma run_cases argv : (exists a, In a argv /\ (a = lit "--help" \/ a = lit "-h")) /\ run argv = (0, [Out (usage ++ nl)]) \/
  (~ In (lit "-h") argv /\ ~ In (lit "--help") argv) /\
  (parse_args (tl argv) false false None = None /\ run argv = (1, [Err; Err]) \/
   exists out chk c r es, parse_args (tl argv) false false None = Some (out, chk, c) /\ generate c out = (r, es) /\
   run argv = match r with
              | Some text => if chk then (0, es ++ [Out (lit "OK" ++ nl ++ nl)]) else if out then (0, es ++ [Out (text ++ nl ++ nl)])
                             else match config with
                                  | Some dir => (0, es ++ [Save (place dir c) text; Out (lit "Completion generated and saved to " ++ place dir c ++ nl)])
                                  | None => (1, es ++ [Err])
                                  end
              | None => (1, es ++ [Err])
              end).
Proof.
  unfold Compgen_Model.command. destruct (existsb _ argv) eqn:H.
  - left. split; [|reflexivity]. apply existsb_exists in H as (a & J & E). exists a. split; [exact J|]. apply orb_true_iff in E as [E|E]; apply str_eqb_eq in E; auto.
  - right. split.
    + split; intros J; assert (X : existsb (fun a => str_eqb a (lit "--help") || str_eqb a (lit "-h")) argv = true) by (apply existsb_exists; eexists; split; [exact J|reflexivity]); congruence.
    + destruct (parse_args (tl argv) false false None) as [[[out chk] c]|]; [right|left; auto]. destruct (generate c out) as [r es] eqn:G. exists out, chk, c, r, es. split; [reflexivity|]. split; [exact G|]. reflexivity.
Qed.
(** The programs run are man, and the one named if the manual says nothing, each about the one word that was given; the service is asked about
    what they said, and only if they said something. *)
Theorem C186_runs argv st es e : run argv = (st, es) -> In e es ->
  (forall c, e = Man c -> plain_words (tl argv) = [c]) /\
  (forall c, e = Help c -> plain_words (tl argv) = [c] /\ forall m, man c = Some m -> ~ said m) /\
  (forall c h, e = Ask c h -> plain_words (tl argv) = [c] /\ describes c h).
Proof.
  intros R J. destruct (run_cases argv) as [(_ & E)|(_ & [(_ & E)|(out & chk & c & r & es' & P & G & E)])]; rewrite E in R.
  - injection R as _ <-. destruct J as [<-|[]]. split; [discriminate|split; discriminate].
  - injection R as _ <-. destruct J as [<-|[<-|[]]]; (split; [discriminate|split; discriminate]).
  - apply parse_iff in P as (_ & P & _). assert (K : In e es' \/ ((forall c, e <> Man c) /\ (forall c, e <> Help c) /\ forall c h, e <> Ask c h)).
    { assert (T : forall l, (forall x, In x l -> (forall c, x <> Man c) /\ (forall c, x <> Help c) /\ forall c h, x <> Ask c h) -> es = es' ++ l -> In e es' \/ ((forall c, e <> Man c) /\ (forall c, e <> Help c) /\ forall c h, e <> Ask c h)).
      { intros l H ->. apply in_app_iff in J as [J|J]; [left; exact J|right; apply H, J]. }
      destruct r as [text|]; [destruct chk; [|destruct out; [|destruct config as [dir|]]]|]; injection R as _ R; symmetry in R; (eapply T; [|exact R]);
        intros x Jx; cbn in Jx; repeat (destruct Jx as [<-|Jx]; [split; [discriminate|split; discriminate]|]); destruct Jx. }
    destruct K as [K|(K1 & K2 & K3)]; [|split; [intros x X; destruct (K1 x X)|split; [intros x X; destruct (K2 x X)|intros x h X; destruct (K3 x h X)]]].
    pose proof (generate_does c out r es' G e K) as D. split; [|split].
    + intros x ->. destruct D as [[= ->]|[(X & _)|[(h & X & _)|[(_ & X)|(_ & s & X)]]]]; try discriminate X. exact P.
    + intros x ->. destruct D as [X|[([= ->] & Y)|[(h & X & _)|[(_ & X)|(_ & s & X)]]]]; try discriminate X. auto.
    + intros x y ->. destruct D as [X|[(X & _)|[(h & [= -> ->] & Y)|[(_ & X)|(_ & s & X)]]]]; try discriminate X. auto.
Qed.
Lemma generate_text c quiet text es : generate c quiet = (Some text, es) ->
  exists h a j, describes c h /\ service c h = Some a /\ text = Offer_Model.sanitize_code_block a /\ parse text = Some j /\ check j c = true.
Proof.
  intros G. unfold Compgen_Model.generate in G. destruct (help_text man help c) as [h ran] eqn:Hp. destruct (blank h) eqn:B; [discriminate|].
  destruct (service c h) as [a|] eqn:A; [|discriminate]. destruct (parse _) as [j|] eqn:P; [|discriminate]. destruct (check j c) eqn:C; [|discriminate]. injection G as <- _.
  exists h, a, j. split; [|auto]. unfold help_text in Hp. split; [|apply blank_said, B].
  assert (X : forall t, match help c with Some t => t | None => [] end = t -> blank t = false -> help c = Some t) by (intros t; destruct (help c); [intros ->; reflexivity|intros <-; discriminate]).
  destruct (man c) as [m|]; [|right; split; [discriminate|]; injection Hp as Hp _; apply (X h Hp B)].
  destruct (blank m) eqn:Bm; injection Hp as Hp _; [right|left; congruence]. split; [|apply (X h Hp B)]. intros m0 [= <-] Wm. apply blank_said in Wm. congruence.
Qed.
(** A file is written only without --check and --stdout: the answer itself, once it passed the check, as completions/<command>.json. *)
Theorem C186_writes argv st es p text : run argv = (st, es) -> In (Save p text) es ->
  exists dir c, config = Some dir /\ plain_words (tl argv) = [c] /\ p = dir ++ lit "/completions/" ++ c ++ lit ".json" /\ st = 0 /\
  ~ In (lit "--check") (tl argv) /\ ~ In (lit "--stdout") (tl argv) /\
  exists h a j, describes c h /\ service c h = Some a /\ text = Offer_Model.sanitize_code_block a /\ parse text = Some j /\ check j c = true.
Proof.
  intros R J. destruct (saved parse man help service config argv st es p text R J) as (dir & c & -> & -> & -> & P & es' & G). exists dir, c. split; [reflexivity|].
  apply parse_iff in P as (_ & P & O & K & _). cbn [orb] in O, K. split; [exact P|]. split; [reflexivity|]. split; [reflexivity|].
  split; [intros X; apply mem_str_iff in X; congruence|]. split; [intros X; apply mem_str_iff in X; congruence|]. exact (generate_text c false text es' G).
Qed.
(** --stdout: nothing but the answer comes out, and nothing at all if there is none; --check: nothing is shown of it. *)
Theorem C186_stdout argv st es : run argv = (st, es) -> ~ In (lit "-h") argv -> ~ In (lit "--help") argv -> In (lit "--stdout") (tl argv) ->
  (st = 0 /\ exists c h a j, plain_words (tl argv) = [c] /\ describes c h /\ service c h = Some a /\ parse (Offer_Model.sanitize_code_block a) = Some j /\ check j c = true /\
             stdout_of es = Offer_Model.sanitize_code_block a ++ nl ++ nl) \/
  (st = 1 /\ stdout_of es = []).
Proof.
  intros R N1 N2 S. destruct (run_cases argv) as [((a & J & X) & _)|(_ & [(_ & E)|(out & chk & c & r & es' & P & G & E)])]; [destruct X; subst a; contradiction|rewrite E in R; injection R as <- <-; right; auto|].
  rewrite E in R. clear E. apply mem_str_iff in S. pose proof P as P'. apply parse_iff in P' as (_ & Pw & O & K & B). cbn [orb] in O, K. rewrite S in O. subst out. cbn [andb] in B. subst chk. rewrite B in R.
  assert (Q : stdout_of es' = []).
  { assert (H := generate_does c true r es' G). clear - H. induction es' as [|e es' IH]; [reflexivity|]. cbn. unfold stdout_of in IH. rewrite IH by (intros x Jx; apply H; right; exact Jx). rewrite app_nil_r.
    destruct (H e (or_introl eq_refl)) as [-> |[(-> & _)|[(h & -> & _)|[(_ & ->)|(X & _)]]]]; try reflexivity. discriminate X. }
  assert (A : forall l, stdout_of (es' ++ l) = stdout_of l) by (intros l; unfold stdout_of; rewrite flat_map_app; unfold stdout_of in Q; rewrite Q; reflexivity).
  destruct r as [text|]; injection R as <- <-; rewrite A; [left|right; auto]. split; [reflexivity|]. destruct (generate_text c true text es' G) as (h & a & j & D & Sv & -> & Pj & Cj).
  exists c, h, a, j. repeat (split; [assumption|]). unfold stdout_of. cbn [flat_map]. apply app_nil_r.
Qed.
Lemma describes_text c h : describes c h -> exists ran, help_text man help c = (h, ran) /\ blank h = false.
Proof.
  intros [[M|[M H]] W]; apply blank_said in W; unfold help_text.
  - rewrite M, W. eauto.
  - rewrite H. destruct (man c) as [m|]; [|eauto]. destruct (blank m) eqn:B; [eauto|]. exfalso. apply (M m eq_refl), blank_said, B.
Qed.
(** It ends well exactly if help was asked for, or one command was named, the answer about it passed the check, and it could be saved if it was to be. *)
Theorem C186_status argv st es : run argv = (st, es) -> st = 0 <->
  (In (lit "-h") argv \/ In (lit "--help") argv) \/
  exists c h a j, plain_words (tl argv) = [c] /\ (forall w, In w (tl argv) -> starts_with (lit "-") w = true -> w = lit "--stdout" \/ w = lit "--check") /\
    ~ (In (lit "--stdout") (tl argv) /\ In (lit "--check") (tl argv)) /\ describes c h /\ service c h = Some a /\ parse (Offer_Model.sanitize_code_block a) = Some j /\ check j c = true /\
    (config <> None \/ In (lit "--stdout") (tl argv) \/ In (lit "--check") (tl argv)).
Proof.
  intros R. destruct (run_cases argv) as [((a & J & X) & E)|((N1 & N2) & [(P & E)|(out & chk & c & r & es' & P & G & E)])]; rewrite E in R.
  - injection R as <- _. split; [intros _; left; destruct X; subst a; auto|reflexivity].
  - injection R as <- _. split; [discriminate|]. intros [[X|X]|(c & h & a & j & Pw & Ws & Nb & _)]; [contradiction|contradiction|]. exfalso.
    assert (Q : parse_args (tl argv) false false None = Some (mem_str (lit "--stdout") (tl argv), mem_str (lit "--check") (tl argv), c)); [|congruence].
    apply parse_iff. split; [intros w Jw D; destruct (Ws w Jw D); subst w; [left|right; left]; reflexivity|]. split; [exact Pw|]. split; [reflexivity|]. split; [reflexivity|].
    destruct (mem_str (lit "--stdout") (tl argv)) eqn:A1; [|reflexivity]. destruct (mem_str (lit "--check") (tl argv)) eqn:A2; [|reflexivity]. exfalso. apply Nb. split; apply mem_str_iff; assumption.
  - pose proof P as P'. apply parse_iff in P' as (Ws & Pw & O & K & B). cbn [orb] in O, K. split.
    + intros ->. right. destruct r as [text|]; [|discriminate R]. destruct (generate_text c out text es' G) as (h & a & j & D & Sv & -> & Pj & Cj). exists c, h, a, j.
      split; [exact Pw|]. split.
      { intros w Jw D'. destruct (Ws w Jw D') as [<-|[<-|[<-|[<-|[]]]]]; auto; exfalso; destruct argv as [|x argv]; try destruct Jw; [apply N1|apply N2]; right; exact Jw. }
      split; [intros [A1 A2]; apply mem_str_iff in A1; apply mem_str_iff in A2; rewrite A1 in O; rewrite A2 in K; subst out chk; discriminate B|].
      split; [exact D|]. split; [exact Sv|]. split; [exact Pj|]. split; [exact Cj|].
      destruct chk; [right; right; apply mem_str_iff; auto|]. destruct out; [right; left; apply mem_str_iff; auto|]. left. destruct config; [discriminate|discriminate R].
    + intros [[X|X]|(c' & h & a & j & Pw' & _ & _ & D & Sv & Pj & Cj & Sa)]; [contradiction|contradiction|]. rewrite Pw in Pw'. injection Pw' as <-.
      destruct (describes_text c h D) as (ran & Hp & Bh). unfold Compgen_Model.generate in G. rewrite Hp, Bh, Sv, Pj, Cj in G. injection G as <- <-.
      destruct chk; [injection R as <- _; reflexivity|]. destruct out; [injection R as <- _; reflexivity|]. destruct config as [dir|]; [injection R as <- _; reflexivity|]. exfalso.
      destruct Sa as [Sa|[Sa|Sa]]; [apply Sa; reflexivity|apply mem_str_iff in Sa; congruence|apply mem_str_iff in Sa; congruence].
Qed.
(** But the name is not looked at: with .. in it the file leaves the directory of the completions. *)
Theorem C186_place_refuted dir x : (forall y, In y (Base.split_on 47%N (x ++ lit ".json")) -> y <> lit "..") ->
  exists rest, place dir (lit "../" ++ x) = dir ++ lit "/completions/" ++ rest /\
  below [lit "completions"] (Base.split_on 47%N rest) = Some (Base.split_on 47%N (x ++ lit ".json")).
Proof.
  intros N. exists (lit "../" ++ x ++ lit ".json"). split; [unfold place; rewrite <- !app_assoc; reflexivity|].
  change (lit "../" ++ x ++ lit ".json") with (lit ".." ++ 47%N :: (x ++ lit ".json")). rewrite split_on_app. change (Base.split_on 47%N (lit "..")) with [lit ".."]. cbn [app].
  remember (Base.split_on 47%N (x ++ lit ".json")) as l. clear Heql. cbn [below]. change (str_eqb (lit "..") (lit "..")) with true. cbv iota. change (rev [lit "completions"]) with [lit "completions"]. cbv iota. cbn [rev].
  assert (G : forall l at_, (forall y, In y l -> y <> lit "..") -> below at_ l = Some (at_ ++ l)).
  { clear. induction l as [|y l IH]; intros at_ N; [cbn; rewrite app_nil_r; reflexivity|]. cbn [below]. destruct (str_eqb_spec y (lit "..")) as [E|_]; [destruct (N y (or_introl eq_refl) E)|].
    rewrite IH by (intros z J; apply N; right; exact J). rewrite <- app_assoc. reflexivity. }
  apply (G l [] N).
Qed.
End Effects.

Print Assumptions C184_no_script_partial.
Print Assumptions C184_runs_nothing_partial.
Print Assumptions C184_runs_nothing_refuted.
Print Assumptions C185_used_partial.
Print Assumptions C185_checked.
Print Assumptions C185_types.
Print Assumptions C185_file_refuted.
Print Assumptions C185_unknown_refuted.
Print Assumptions C185_dash_refuted.
Print Assumptions C185_blank_refuted.
Print Assumptions C186_help.
Print Assumptions C186_runs.
Print Assumptions C186_writes.
Print Assumptions C186_stdout.
Print Assumptions C186_status.
Print Assumptions C186_place_refuted.

(** ** A case of each *)
Definition tool : json :=
  Obj [(lit "command", Str (lit "tool")); (lit "description", Str (lit "does things"));
       (lit "global_options", Arr [Obj [(lit "short", Str (lit "-v")); (lit "long", Str (lit "--verbose"))];
                                   Obj [(lit "long", Str (lit "--mode")); (lit "takes_value", Bool true); (lit "value_type", Obj [(lit "type", Str (lit "Choice")); (lit "data", Arr [Str (lit "a"); Str (lit "b")])])]]);
       (lit "subcommands", Arr [Obj [(lit "name", Str (lit "run")); (lit "arguments", Arr [Obj [(lit "name", Str (lit "dir")); (lit "type", Obj [(lit "type", Str (lit "Directory"))])]]);
                                     (lit "subcommands", Arr [Obj [(lit "name", Str (lit "all"))]])]])].
Definition tool_file : file :=
  File (lit "tool")
    (Definition_ [Sub (lit "run") [] [] [Argument false (Some (Other_type 1))] [Sub (lit "all") [] [] [] []]]
       [Coption (Some (lit "-v")) (Some (lit "--verbose")) false None None; Coption None (Some (lit "--mode")) true (Some (Choice [lit "a"; lit "b"])) None] []) [].
Example tool_passes : check tool (lit "tool") = true /\ decode tool = Some tool_file /\ validate tool_file = true.
Proof. repeat split. Qed.
(** a script where it is looked for is refused, at any depth *)
Example script_refused :
  check (Obj [(lit "command", Str (lit "tool")); (lit "arguments", Arr [Obj [(lit "name", Str (lit "x")); (lit "type", Obj [(lit "type", Str (lit "Script")); (lit "data", Str (lit "rm"))])]])]) (lit "tool") = false /\
  check (Obj [(lit "command", Str (lit "tool"));
              (lit "subcommands", Arr [Obj [(lit "name", Str (lit "run"));
                 (lit "subcommands", Arr [Obj [(lit "name", Str (lit "all")); (lit "options", Arr [Obj [(lit "short", Str (lit "-x")); (lit "value_type", Obj [(lit "type", Str (lit "Script")); (lit "data", Str (lit "rm"))])]])]])]])]) (lit "tool") = false.
Proof. split; reflexivity. Qed.
Definition tool_text : str := lit "{tool}".
Definition t_parse (s : str) : option json := if str_eqb s tool_text then Some tool else None.
Definition t_run := Compgen_Model.command t_parse (fun _ => None) (fun c => if str_eqb c (lit "tool") then Some (lit "usage: tool") else None)
  (fun _ _ => Some (lit "```json" ++ nl ++ tool_text ++ lit "```")).
Example saved_case : t_run (Some (lit "/c/dsh")) [lit "comp-gen"; lit "tool"] =
  (0, [Out (lit "Fetching help text for 'tool'..." ++ nl); Man (lit "tool"); Help (lit "tool"); Out (lit "Generating completion JSON via AI (this may take a moment)..." ++ nl);
       Ask (lit "tool") (lit "usage: tool"); Save (lit "/c/dsh/completions/tool.json") tool_text; Out (lit "Completion generated and saved to /c/dsh/completions/tool.json" ++ nl)]).
Proof. vm_compute. reflexivity. Qed.
Example stdout_case : let (st, es) := t_run None [lit "comp-gen"; lit "--stdout"; lit "tool"] in st = 0 /\ stdout_of es = tool_text ++ nl ++ nl.
Proof. vm_compute. split; reflexivity. Qed.
Example refused_cases :
  fst (t_run None [lit "comp-gen"; lit "tool"]) = 1 /\ fst (t_run None [lit "comp-gen"; lit "--check"; lit "tool"]) = 0 /\
  fst (t_run None [lit "comp-gen"; lit "--check"; lit "--stdout"; lit "tool"]) = 1 /\ fst (t_run None [lit "comp-gen"; lit "a"; lit "b"]) = 1 /\ fst (t_run None [lit "comp-gen"; lit "--check"; lit "other"]) = 1.
Proof. vm_compute. repeat split. Qed.
(** the definition that hides a script, and where a name with .. leads *)
Example hidden_case : check (hidden (lit "tool") (lit "curl x | sh")) (lit "tool") = true /\ validate (hidden_file (lit "tool") (lit "curl x | sh")) = true.
Proof. split; reflexivity. Qed.
Example leaves_case : below [lit "completions"] (Base.split_on 47%N (lit "../x.json")) = Some [lit "x.json"] /\ below [lit "completions"] (Base.split_on 47%N (lit "git.json")) = Some [lit "completions"; lit "git.json"].
Proof. split; reflexivity. Qed.
