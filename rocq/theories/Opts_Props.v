(** C190-C194: how options are read, and what set, serve, gpr and dmv do with them. *)
From Verif Require Import Base Numerals Opts_Model Opts_Spec Opts_Proofs.
From Verif Require Output_Model Output_Spec Output_Props Env_Model Env_Spec Env_Props Dmv_Model Dmv_Props Frecency_Proofs.
From Coq Require Import Permutation.

Ltac names := split; cbn; intros;
  repeat match goal with H : _ \/ _ |- _ => destruct H | H : False |- _ => destruct H end; subst; cbn in *; try discriminate; try reflexivity;
  repeat match goal with H : Some _ = Some _ |- _ => injection H; clear H; intros; subst end; try discriminate.
Ltac plain := repeat split; try lia; try discriminate; try (vm_compute; lia); try (let H := fresh in intros H; vm_compute in H; repeat (destruct H as [H|H]; [discriminate|]); exact H).
Lemma set_named : well_named set_opts. Proof. names; plain.
Qed.
Lemma dmv_named : well_named dmv_opts. Proof. names; plain. Qed.
Lemma serve_named : well_named serve_opts. Proof. names; plain. Qed.
Lemma gpr_named : well_named gpr_opts. Proof. names; plain. Qed.

(** ** C190: options are read alike wherever they stand *)

(** The words after a command are accepted exactly when they are a proper use of its options, and then give these options and operands. *)
Theorem C190_read_iff : forall os args g f, In os [set_opts; dmv_opts; serve_opts; gpr_opts] -> (parse os args = inr (g, f) <-> proper os args g f).
Proof.
  intros os args g f I. apply parse_iff. destruct I as [<-|[<-|[<-|[<-|[]]]]]; [apply set_named|apply dmv_named|apply serve_named|apply gpr_named].
Qed.
Lemma dashes_not w : operand w -> w <> lit "--".
Proof. intros [->|H]; [discriminate|]. intros ->. exact (H _ eq_refl). Qed.
(** What stands before and after is read independently, so options may stand anywhere. *)
Theorem C190_any_place : forall os a b g1 f1 g2 f2, Reads os a g1 f1 -> ~ In (lit "--") a -> Reads os b g2 f2 -> Reads os (a ++ b) (g1 ++ g2) (f1 ++ f2).
Proof.
  intros os a b g1 f1 g2 f2 R N B. induction R; cbn [app] in *; rewrite <- ?app_assoc; cbn [app];
    try (constructor; auto; apply IHR; intros X; apply N; cbn; tauto).
  - exact B.
  - destruct N. left. reflexivity.
Qed.
(** After a word of two dashes every word is an operand, dashes or not. *)
Theorem C190_after_two_dashes : forall os a g f b, Reads os a g f -> ~ In (lit "--") a -> Reads os (a ++ lit "--" :: b) g (f ++ b).
Proof.
  intros os a g f b R N. rewrite <- (app_nil_r g). apply C190_any_place; [exact R|exact N|constructor].
Qed.
(** Words without a dash in front are operands, in their order. *)
Theorem C190_operands : forall os l, Forall operand l -> Reads os l [] l.
Proof. intros os l H. induction H; constructor; assumption. Qed.
(** An operand that starts with a dash cannot be given without the two dashes: with an unknown letter the whole command is refused. *)
Theorem C190_dashed_operand_refuted : forall os l c t r, well_named os -> Forall operand l -> c <> chr "-" -> (forall o, In o os -> short o <> Some c) ->
  parse os (l ++ (chr "-" :: c :: t) :: r) = inl (Unrecognized (Short c)).
Proof.
  intros os l c t r W F D N. unfold parse. enough (words os (l ++ (chr "-" :: c :: t) :: r) = inl (Unrecognized (Short c))) as -> by reflexivity.
  induction F as [|w l O F IH]; cbn [app].
  - change (chr "-" :: c :: t) with (lit "-" ++ (c :: t)). rewrite words_letters; [|intros u E; injection E; congruence|discriminate]. cbn [cluster].
    destruct (find_opt os (Short c)) as [o|] eqn:E; [|reflexivity]. apply (find_short _ W) in E. destruct E as [I E]. destruct (N o I E).
  - cbn [words]. apply is_arg_iff in O. rewrite O. cbn [negb]. rewrite IH. reflexivity.
Qed.
(** A second use of an option is refused. *)
Theorem C190_twice_refused : forall os args g f o, well_named os -> Reads os args g f -> In o os -> multi o = false ->
  (exists i j v w, i <> j /\ nth_error g i = Some (long o, v) /\ nth_error g j = Some (long o, w)) -> forall x, parse os args <> inr x.
Proof.
  intros os args g f o W R I M (i & j & v & w & N & Hi & Hj) [g' f'] H. apply (parse_iff _ W) in H. destruct H as [R' O].
  apply (reads_words _ W) in R, R'. rewrite R in R'. injection R' as <- <-. exact (N (O o I M _ _ _ _ Hi Hj)).
Qed.

(** ** C191: set *)

Lemma present_not g l : ~ gave g l -> present g (lit l) = false.
Proof. intros H. destruct (present g (lit l)) eqn:E; [|reflexivity]. apply present_iff in E. contradiction. Qed.
(** what set does, for every list of words *)
Theorem C191_what_changes : forall usage args e s o e', set_cmd usage args e = (s, o, e') ->
  (exists k v g, proper set_opts args g [k; v] /\ ~ gave g "help" /\ s = 0 /\ o = [] /\
     ((~ gave g "export" /\ e' = Env_Model.set_var k v e) \/ (gave g "export" /\ e' = Env_Model.set_env_var k v e))) \/
  (e' = e /\ forall k v g, proper set_opts args g [k; v] -> gave g "help").
Proof.
  intros usage args e s o e' H. unfold set_cmd in H. destruct (parse set_opts args) as [x|[g f]] eqn:E.
  - injection H as <- <- <-. right. split; [reflexivity|]. intros k v g R. apply (parse_iff _ set_named) in R. congruence.
  - assert (R := proj1 (parse_iff _ set_named _ _ _) E). destruct (present g (lit "help")) eqn:P.
    { injection H as <- <- <-. right. split; [reflexivity|]. intros k v g' R'. apply (parse_iff _ set_named) in R'. rewrite E in R'. injection R' as <- ->. apply present_iff. exact P. }
    assert (NH : ~ gave g "help") by (intros X; apply present_iff in X; congruence).
    destruct f as [|k [|v [|z f]]]; try (injection H as <- <- <-; right; split; [reflexivity|]; intros k' v' g' R'; apply (parse_iff _ set_named) in R'; rewrite E in R'; discriminate).
    left. exists k, v, g. split; [exact R|]. split; [exact NH|]. destruct (present g (lit "export")) eqn:X; injection H as <- <- <-; (split; [reflexivity|]; split; [reflexivity|]).
    + right. split; [apply present_iff; exact X|reflexivity].
    + left. split; [|reflexivity]. intros Y. apply present_iff in Y. congruence.
Qed.
Lemma set_run usage args e g k v : proper set_opts args g [k; v] -> ~ gave g "help" ->
  set_cmd usage args e = (0, [], if present g (lit "export") then Env_Model.set_env_var k v e else Env_Model.set_var k v e).
Proof.
  intros R H. apply (parse_iff _ set_named) in R. unfold set_cmd. rewrite R, (present_not _ _ H). destruct (present g (lit "export")); reflexivity.
Qed.
Lemma once_nil os : once os []. Proof. intros o _ _ [|i] j v w H; discriminate. Qed.
Lemma once_one os x : once os [x].
Proof. intros o _ _ i j v w Hi Hj. destruct i as [|[|i]], j as [|[|j]]; try discriminate; reflexivity. Qed.
(** two words, neither with a dash in front: the variable is set; or any two words after -- *)
Theorem C191_sets_partial : forall usage k v e, operand k -> operand v ->
  set_cmd usage [k; v] e = (0, [], Env_Model.set_var k v e).
Proof.
  intros usage k v e K V. rewrite (set_run usage [k; v] e [] k v); [reflexivity| |intros [x []]]. split; [|apply once_nil]. apply C190_operands. auto.
Qed.
Theorem C191_sets_any : forall usage k v e, set_cmd usage [lit "--"; k; v] e = (0, [], Env_Model.set_var k v e) /\
  set_cmd usage [lit "-x"; lit "--"; k; v] e = (0, [], Env_Model.set_env_var k v e).
Proof. intros. split; reflexivity. Qed.
(** -x and --export mean the same before, between and after the two words *)
Theorem C191_export_anywhere : forall usage k v e w a b c, operand k -> operand v -> In w [lit "-x"; lit "--export"] ->
  [k; v] = a ++ b ++ c -> b = [] -> set_cmd usage (a ++ w :: c) e = (0, [], Env_Model.set_env_var k v e).
Proof.
  intros usage k v e w a b c K V I E ->. cbn [app] in E.
  assert (X : Reads set_opts [w] [(lit "export", None)] []).
  { destruct I as [<-|[<-|[]]].
    - apply (R_letters set_opts [optflag (chr "x") "export"] (lit "x") [] [] []); [discriminate| |constructor]. constructor; [|constructor]. cbn. auto.
    - apply (R_flag set_opts (optflag (chr "x") "export") (lit "export") [] [] []); [cbn; auto|reflexivity|left; reflexivity|constructor]. }
  assert (P : Forall operand (a ++ c)) by (rewrite <- E; auto). apply Forall_app in P. destruct P as [PA PC].
  assert (NA : forall l, Forall operand l -> ~ In (lit "--") l) by (intros l F J; rewrite Forall_forall in F; exact (dashes_not _ (F _ J) eq_refl)).
  assert (NW : ~ In (lit "--") [w]) by (destruct I as [<-|[<-|[]]]; intros [J|[]]; discriminate).
  assert (R : Reads set_opts (a ++ w :: c) [(lit "export", None)] (a ++ c)).
  { change (w :: c) with ([w] ++ c). change [(lit "export", None)] with ([] ++ [(lit "export", @None str)] ++ []). apply C190_any_place; [apply C190_operands; exact PA|apply NA; exact PA|].
    change c with ([] ++ c) at 2. apply C190_any_place; [exact X|exact NW|apply C190_operands; exact PC]. }
  rewrite (set_run usage (a ++ w :: c) e [(lit "export", None)] k v); [reflexivity|rewrite E; split; [exact R|apply once_one]|]. intros [x [J|[]]]. discriminate.
Qed.
(** a set variable reads back, and no other changes *)
Lemma read_ordinary e k : ordinary k -> Env_Model.get_var e k = match Env_Model.assoc k (Env_Model.variables e) with Some v => Some v | None => Env_Model.assoc k (Env_Model.system e) end.
Proof.
  intros (NO & NE & NM & ND). unfold Env_Model.get_var.
  destruct (Output_Model.parse_output_var k (lit "OUT")) as [m|] eqn:E1; [apply Output_Props.C22_output_names_exact in E1; [|auto]; destruct (NO _ E1)|].
  destruct (Output_Model.parse_output_var k (lit "ERR")) as [m|] eqn:E2; [apply Output_Props.C22_output_names_exact in E2; [|auto]; destruct (NE _ E2)|].
  replace (mem_str k [lit "MCP_SERVERS"; lit "MCP_CONNECTED"; lit "MCP_TOOLS"]) with false by (symmetry; apply mem_str_false; exact NM).
  destruct (Env_Model.assoc k (Env_Model.variables e)); [reflexivity|]. destruct k as [|c r]; [reflexivity|]. destruct (N.eqb_spec c (chr "$")) as [->|N]; [destruct (ND r eq_refl)|reflexivity].
Qed.
Theorem C191_reads_back : forall k v e k', ordinary k' ->
  Env_Model.get_var (Env_Model.set_var k v e) k' = if str_eq_dec k' k then Some v else Env_Model.get_var e k'.
Proof.
  intros k v e k' O. rewrite !(read_ordinary _ _ O). cbn [Env_Model.set_var Env_Model.set_variables Env_Model.variables Env_Model.system]. rewrite Env_Props.assoc_insert. destruct (str_eq_dec k' k); reflexivity.
Qed.
Lemma env_parts k v e : Env_Model.variables (Env_Model.set_env_var k v e) = Env_Model.variables e /\
  Env_Model.system (Env_Model.set_env_var k v e) = Env_Model.insert k v (Env_Model.system e) /\ Env_Model.exported (Env_Model.set_env_var k v e) = Env_Model.exported e.
Proof. unfold Env_Model.set_env_var. destruct (str_eqb k Env_Model.PATH); repeat split. Qed.
(** what a child started afterwards sees of an exported one, and of the others *)
Theorem C191_children_see : forall k v e k', ~ In k' (Env_Model.exported e) ->
  Env_Spec.effective (Env_Model.set_env_var k v e) k' = (if str_eq_dec k' k then Some v else Env_Spec.effective e k') /\
  Env_Spec.effective (Env_Model.set_var k v e) k' = Env_Spec.effective e k'.
Proof.
  intros k v e k' N. unfold Env_Spec.effective. destruct (env_parts k v e) as (_ & ES & EX). rewrite EX, ES. cbn [Env_Model.set_var Env_Model.set_variables Env_Model.variables Env_Model.exported Env_Model.system].
  destruct (in_dec str_eq_dec k' (Env_Model.exported e)); [contradiction|]. rewrite Env_Props.assoc_insert. split; reflexivity.
Qed.
(** set -x on a name that is also a shell variable: the line goes on reading the old value *)
Theorem C191_export_reads_back_refuted : forall k v old e, ordinary k -> Env_Model.assoc k (Env_Model.variables e) = Some old ->
  Env_Model.get_var (Env_Model.set_env_var k v e) k = Some old.
Proof. intros k v old e O A. rewrite (read_ordinary _ _ O). destruct (env_parts k v e) as (-> & _ & _). rewrite A. reflexivity. Qed.
(** ... otherwise it reads the new one *)
Theorem C191_export_reads_back_partial : forall k v e, ordinary k -> Env_Model.assoc k (Env_Model.variables e) = None ->
  Env_Model.get_var (Env_Model.set_env_var k v e) k = Some v.
Proof. intros k v e O A. rewrite (read_ordinary _ _ O). destruct (env_parts k v e) as (-> & -> & _). rewrite A, Env_Props.assoc_insert. destruct (str_eq_dec k k); [reflexivity|congruence]. Qed.
(** a negative number cannot be assigned *)
Theorem C191_dashed_value_refuted : forall usage k c t e, operand k -> ~ In c [chr "x"; chr "h"; chr "-"] ->
  set_cmd usage [k; chr "-" :: c :: t] e = (1, [ErrLine (lit "Unrecognized option: '" ++ [c] ++ lit "'")], e).
Proof.
  intros usage k c t e K N. unfold set_cmd. change [k; chr "-" :: c :: t] with ([k] ++ (chr "-" :: c :: t) :: []). rewrite (C190_dashed_operand_refuted set_opts [k] c t []); [reflexivity|apply set_named|auto|intros ->; apply N; cbn; auto|].
  intros o [<-|[<-|[]]] [= <-]; apply N; cbn; auto.
Qed.
(** a wrong number of words changes nothing and still reports success *)
Theorem C191_wrong_count_refuted : forall usage args e, Forall operand args -> length args <> 2 -> set_cmd usage args e = (0, [OutLine usage], e).
Proof.
  intros usage args e F L. unfold set_cmd. rewrite (proj2 (parse_iff _ set_named args [] args)); [|split; [apply C190_operands; exact F|apply once_nil]].
  cbn [present existsb]. destruct args as [|a [|b [|c r]]]; try reflexivity. destruct (L eq_refl).
Qed.
Theorem C191_x_as_value_refuted : forall usage k e, operand k -> set_cmd usage [k; lit "-x"] e = (0, [OutLine usage], e).
Proof.
  intros usage k e K. unfold set_cmd, parse. cbn [words]. apply is_arg_iff in K. rewrite K. cbn [negb]. reflexivity.
Qed.

(** ** C192: serve *)
Section Serve.
Variable cwd : option str.
Variable look : str -> found.
Variable port_free : N -> bool.
Variable options_text : str.
Notation serve := (Opts_Model.serve cwd look port_free options_text).
Notation parse_arguments := (Opts_Model.parse_arguments cwd look options_text).
Notation directory_of := (Opts_Model.directory_of cwd).

(** the port asked for, and the directory *)
Definition wants_port (g : list given) (p : N) : Prop := (exists s, In (lit "port", Some s) g /\ port_text s p) \/ (~ gave g "port" /\ p = 8000%N).
Definition wants_directory (f : list str) (d : str) : Prop :=
  match f with
  | [] => cwd = Some d \/ (cwd = None /\ d = lit ".")
  | x :: _ => (exists t, x = chr "/" :: t) /\ d = x \/ (forall t, x <> chr "/" :: t) /\ exists c, cwd = Some c /\ d = under c x
  end.
Lemma value_once os g l o v : once os g -> In o os -> multi o = false -> long o = l -> In (l, v) g -> value g l = v.
Proof.
  intros O I M L J. unfold value. destruct (List.find (fun x : given => str_eqb (fst x) l) g) as [[l' v']|] eqn:E.
  - apply List.find_some in E. destruct E as [J' E]. cbn in E. apply str_eqb_eq in E. subst l'. apply In_nth_error in J, J'. destruct J as [i J], J' as [j J']. subst l. assert (i = j) by (exact (O o I M _ _ _ _ J J')). subst j. assert (X := eq_trans (eq_sym J) J'). injection X. auto.
  - apply (List.find_none _ _ E) in J. cbn in J. rewrite str_eqb_refl in J. discriminate.
Qed.
Lemma value_absent g l : ~ gave g l -> value g (lit l) = None.
Proof.
  intros H. unfold value. destruct (List.find (fun x : given => str_eqb (fst x) (lit l)) g) as [[l' v']|] eqn:E; [|reflexivity]. apply List.find_some in E. destruct E as [J E]. cbn in E. apply str_eqb_eq in E. subst l'. destruct H. exists v'. exact J.
Qed.
(** an option with an argument is given with one, a flag without *)
Lemma reads_values os args g f : well_named os -> Reads os args g f -> forall l v, In (l, v) g -> exists o, In o os /\ long o = l /\ (takes o = true <-> v <> None).
Proof.
  intros W R l v I. induction R; cbn [In] in *; try contradiction.
  - apply IHR. exact I.
  - destruct I as [[= <- <-]|I]; [|auto]. exists o. split; [assumption|]. split; [reflexivity|]. split; congruence.
  - destruct I as [[= <- <-]|I]; [|auto]. exists o. split; [assumption|]. split; [reflexivity|]. split; congruence.
  - destruct I as [[= <- <-]|I]; [|auto]. exists o. split; [assumption|]. split; [reflexivity|]. split; congruence.
  - apply in_app_iff in I. destruct I as [I|I]; [|auto]. apply in_map_iff in I. destruct I as (o & [= <- <-] & I). 
    match goal with S : spells _ _ _ |- _ => rename S into SP end. clear - SP I. induction SP as [|o' c fl s (A & B & C) F IH]; [destruct I|]. destruct I as [->|I]; [|auto]. exists o. split; [exact A|]. split; [reflexivity|]. split; congruence.
  - apply in_app_iff in I. destruct I as [I|[[= <- <-]|I]]; [|exists o; split; [assumption|]; split; [reflexivity|]; split; congruence|auto]. apply in_map_iff in I. destruct I as (o' & [= <- <-] & I).
    match goal with S : spells _ _ _ |- _ => rename S into SP end. clear - SP I. induction SP as [|o'' c fl s (A & B & C) F IH]; [destruct I|]. destruct I as [->|I]; [|auto]. exists o'. split; [exact A|]. split; [reflexivity|]. split; congruence.
  - apply in_app_iff in I. destruct I as [I|[[= <- <-]|I]]; [|exists o; split; [assumption|]; split; [reflexivity|]; split; congruence|auto]. apply in_map_iff in I. destruct I as (o' & [= <- <-] & I).
    match goal with S : spells _ _ _ |- _ => rename S into SP end. clear - SP I. induction SP as [|o'' c fl s (A & B & C) F IH]; [destruct I|]. destruct I as [->|I]; [|auto]. exists o'. split; [exact A|]. split; [reflexivity|]. split; congruence.
Qed.
Lemma parse_u32_iff s p : parse_u32 s = Some p <-> (p < 4294967296)%N /\ (Dec s p \/ exists t, s = chr "+" :: t /\ Dec t p).
Proof.
  unfold parse_u32. split.
  - intros H. destruct (parse_usize s) as [n|] eqn:E; [|discriminate]. destruct (N.ltb_spec n 4294967296); [|discriminate]. injection H as <-. apply parse_usize_iff in E. destruct E as [_ E]. auto.
  - intros [L H]. assert (E : parse_usize s = Some p) by (apply parse_usize_iff; split; [unfold usize_max; lia|exact H]). rewrite E. destruct (N.ltb_spec p 4294967296); [reflexivity|lia].
Qed.
Lemma port_iff args g f p : proper serve_opts args g f -> (port_of g = inr p <-> wants_port g p).
Proof.
  intros [R O]. unfold port_of, wants_port.
  assert (V : forall v, In (lit "port", v) g -> value g (lit "port") = v) by (intros v I; apply (value_once serve_opts g _ (optopt (chr "p") "port")); [exact O|cbn; auto|reflexivity|reflexivity|exact I]).
  destruct (value g (lit "port")) as [s|] eqn:E.
  - assert (I : In (lit "port", Some s) g).
    { unfold value in E. destruct (List.find (fun x : given => str_eqb (fst x) (lit "port")) g) as [[l v]|] eqn:F; [|discriminate]. subst v. apply List.find_some in F. destruct F as [J F]. cbn in F. apply str_eqb_eq in F. subst l. exact J. }
    transitivity (port_text s p).
    + destruct (parse_u32 s) as [q|] eqn:P.
      * apply parse_u32_iff in P. destruct P as [L P]. destruct (N.eqb_spec q 0) as [->|Z]; cbn [orb].
        -- split; [discriminate|]. intros [B P']. exfalso. assert (parse_u32 s = Some p) by (apply parse_u32_iff; split; [lia|exact P']). assert (parse_u32 s = Some 0%N) by (apply parse_u32_iff; auto). assert (p = 0%N) by congruence. lia.
        -- destruct (N.ltb_spec 65535 q).
           ++ split; [discriminate|]. intros [B P']. exfalso. assert (parse_u32 s = Some p) by (apply parse_u32_iff; split; [lia|exact P']). assert (parse_u32 s = Some q) by (apply parse_u32_iff; auto). assert (p = q) by congruence. lia.
           ++ split; [intros [= <-]; split; [lia|exact P]|]. intros [B P']. assert (parse_u32 s = Some p) by (apply parse_u32_iff; split; [lia|exact P']). assert (parse_u32 s = Some q) by (apply parse_u32_iff; auto). congruence.
      * split; [discriminate|]. intros [B P']. assert (parse_u32 s = Some p) by (apply parse_u32_iff; split; [lia|exact P']). congruence.
    + split; [intros H; left; exists s; auto|]. intros [(s' & I' & H)|[N _]]; [|destruct N; exists (Some s); exact I]. apply V in I'. congruence.
  - split.
    + intros [= <-]. right. split; [|reflexivity]. intros [v I]. assert (X := V v I). subst v. destruct (reads_values _ _ _ _ serve_named R _ _ I) as (o & J & L & T).
      assert (T' : takes o = true). { assert (o = optopt (chr "p") "port") as -> by (apply (longs _ serve_named); [exact J|cbn; auto|exact L]). reflexivity. } apply T in T'. congruence.
    + intros [(s & I & _)|[_ ->]]; [|reflexivity]. apply V in I. discriminate.
Qed.
Lemma directory_iff f d : directory_of f = inr d <-> wants_directory f d.
Proof.
  unfold Opts_Model.directory_of, wants_directory. destruct f as [|x f].
  - destruct cwd as [c|]; split; try (intros [= <-]; auto); intros [H|[H ?]]; congruence.
  - change (lit "/") with [chr "/"]. destruct (starts_with [chr "/"] x) eqn:E.
    + apply starts_with_iff in E. destruct E as [t E]. split; [intros [= <-]; left; split; [exists t; exact E|reflexivity]|]. intros [[_ ->]|[N _]]; [reflexivity|]. destruct (N t E).
    + assert (N : forall t, x <> chr "/" :: t) by (intros t ->; cbn in E; discriminate). destruct cwd as [c|].
      * split; [intros [= <-]; right; split; [exact N|exists c; auto]|]. intros [[[t T] _]|(_ & c' & [= <-] & ->)]; [destruct (N t T)|reflexivity].
      * split; [discriminate|]. intros [[[t T] _]|(_ & c' & H & _)]; [destruct (N t T)|discriminate].
Qed.
(** what the arguments ask for *)
Definition asks (program : str) (args : list str) (l : listener) : Prop := exists g f, proper serve_opts args g f /\ ~ gave g "help" /\
  at_host l = lit "127.0.0.1" /\ wants_port g (at_port l) /\ wants_directory f (serves l) /\ look (serves l) = Usable /\
  (with_cors l = true <-> gave g "cors") /\ (with_index l = false <-> gave g "no-index").
Lemma port_range g p : wants_port g p -> (p =? 0)%N = false.
Proof. intros [(s & _ & B & _)|[_ ->]]; [apply N.eqb_neq; lia|reflexivity]. Qed.
Lemma arguments_iff program args c : parse_arguments program args = inr c <-> exists g f, proper serve_opts args g f /\ ~ gave g "help" /\
  wants_port g (port c) /\ wants_directory f (directory c) /\ look (directory c) = Usable /\
  c = Config (lit "127.0.0.1") (port c) (directory c) (present g (lit "verbose")) (present g (lit "open")) (present g (lit "cors")) (negb (present g (lit "no-index"))).
Proof.
  unfold Opts_Model.parse_arguments. split.
  - intros H. destruct (parse serve_opts args) as [e|[g f]] eqn:E; [discriminate|]. apply (parse_iff _ serve_named) in E. exists g, f. split; [exact E|].
    destruct (present g (lit "help")) eqn:P; [discriminate|]. split; [intros X; apply present_iff in X; congruence|].
    destruct (port_of g) as [e|p] eqn:EP; [discriminate|]. apply (port_iff _ _ _ _ E) in EP. destruct (directory_of f) as [e|d] eqn:ED; [discriminate|]. apply directory_iff in ED.
    unfold validate in H. cbn [port directory] in H. rewrite (port_range _ _ EP) in H. destruct (look d) eqn:L; try discriminate. injection H as <-. cbn [port directory]. auto.
  - intros (g & f & R & NH & WP & WD & L & ->). cbn [port directory] in *. assert (E := proj2 (parse_iff _ serve_named _ _ _) R). rewrite E, (present_not _ _ NH).
    rewrite (proj2 (port_iff _ _ _ _ R) WP), (proj2 (directory_iff _ _) WD). unfold validate. cbn [port directory]. rewrite (port_range _ _ WP), L. reflexivity.
Qed.
(** A server listens exactly when the words ask for it and the port is free: on 127.0.0.1 only, at the port and for the directory asked for. *)
Theorem C192_listens_iff : forall program args s o l, (serve program args = (s, o, Some l) -> asks program args l /\ port_free (at_port l) = true) /\
  (asks program args l -> port_free (at_port l) = true -> exists o, serve program args = (0, o, Some l)).
Proof.
  intros program args s o l. split.
  - intros H. unfold Opts_Model.serve in H. destruct (parse_arguments program args) as [e|c] eqn:E.
    { destruct e; try discriminate. destruct (contains _ _); discriminate. }
    unfold start_http_server in H. destruct (port_free (port c)) eqn:F; [|discriminate]. injection H as <- <- <-. cbn [at_port]. split; [|exact F].
    apply arguments_iff in E. destruct E as (g & f & R & NH & WP & WD & L & E). exists g, f. cbn [at_host at_port serves with_cors with_index]. split; [exact R|]. split; [exact NH|].
    split; [rewrite E; reflexivity|]. split; [exact WP|]. split; [exact WD|]. split; [exact L|]. rewrite E. cbn [cors index]. split; [apply present_iff|]. rewrite negb_false_iff. apply present_iff.
  - intros (g & f & R & NH & H & WP & WD & L & C & X) F. destruct l as [lh lp ls lx lc]. cbn [at_host at_port serves with_cors with_index] in *. subst lh.
    assert (E : parse_arguments program args = inr (Config (lit "127.0.0.1") lp ls (present g (lit "verbose")) (present g (lit "open")) (present g (lit "cors")) (negb (present g (lit "no-index"))))).
    { apply arguments_iff. exists g, f. cbn [port directory]. repeat (split; [assumption|]). reflexivity. }
    unfold Opts_Model.serve. rewrite E. unfold start_http_server. cbn [port host directory index cors]. rewrite F. eexists. f_equal. f_equal. f_equal.
    + destruct (present g (lit "no-index")) eqn:P; cbn.
      * symmetry. apply X. apply present_iff. exact P.
      * destruct lx; [reflexivity|]. assert (Y := proj1 X eq_refl). apply present_iff in Y. congruence.
    + destruct (present g (lit "cors")) eqn:P.
      * symmetry. apply C. apply present_iff. exact P.
      * destruct lc; [|reflexivity]. assert (Y := proj1 C eq_refl). apply present_iff in Y. congruence.
Qed.
(** Only this machine can connect. *)
Theorem C192_local_only : forall program args s o l, serve program args = (s, o, Some l) -> at_host l = lit "127.0.0.1" /\ (1 <= at_port l <= 65535)%N.
Proof.
  intros program args s o l H. apply (proj1 (C192_listens_iff program args s o l)) in H. destruct H as [(g & f & _ & _ & H & WP & _) _]. split; [exact H|].
  destruct WP as [(t & _ & B & _)|[_ ->]]; [exact B|lia].
Qed.
(** A port that is taken: the banner says that it starts, nothing is reported on stderr, and the status is success. *)
Theorem C192_taken_port_refuted : forall program args l, asks program args l -> port_free (at_port l) = false ->
  exists o, serve program args = (0, o, None) /\ on_stdout o /\ In (OutLine (lit "doge-shell HTTP server starting...")) o.
Proof.
  intros program args l (g & f & R & NH & H & WP & WD & L & _) F.
  assert (E : parse_arguments program args = inr (Config (lit "127.0.0.1") (at_port l) (serves l) (present g (lit "verbose")) (present g (lit "open")) (present g (lit "cors")) (negb (present g (lit "no-index"))))).
  { apply arguments_iff. exists g, f. cbn [port directory]. repeat (split; [assumption|]). reflexivity. }
  unfold Opts_Model.serve. rewrite E. unfold start_http_server. cbn [port]. rewrite F. eexists. split; [reflexivity|]. split; [|left; reflexivity].
  intros x I. unfold banner in I. cbn [In] in I. destruct I as [<-|[<-|[<-|[<-|[<-|[]]]]]]; eexists; reflexivity.
Qed.
(** Words that ask for no server: status 1 and a message on stderr, unless the message holds "Usage:". *)
Theorem C192_refused_partial : forall program args s o, (forall l, ~ asks program args l) -> serve program args = (s, o, None) ->
  (s = 1 /\ exists m, o = [ErrLine (lit "serve: " ++ m)]) \/ (s = 0 /\ exists m, o = [OutLine m] /\ contains (lit "Usage:") m = true).
Proof.
  intros program args s o N H. unfold Opts_Model.serve in H. destruct (parse_arguments program args) as [e|c] eqn:E.
  - destruct e; try (injection H as <- <-; left; split; [reflexivity|eexists; reflexivity]). destruct (contains (lit "Usage:") msg) eqn:C; injection H as <- <-; [right|left]; (split; [reflexivity|]); exists msg; auto.
  - exfalso. apply arguments_iff in E. destruct E as (g & f & R & NH & WP & WD & L & E).
    apply (N (Listener (lit "127.0.0.1") (port c) (directory c) (negb (present g (lit "no-index"))) (present g (lit "cors")))). exists g, f. cbn [at_host at_port serves with_cors with_index].
    split; [exact R|]. split; [exact NH|]. split; [reflexivity|]. split; [exact WP|]. split; [exact WD|]. split; [exact L|]. split; [apply present_iff|]. rewrite negb_false_iff. apply present_iff.
Qed.
(** A bad port whose text holds "Usage:" counts as a request for help. *)
Theorem C192_usage_in_the_port_refuted : forall program v, contains (lit "Usage:") v = true -> parse_u32 v = None -> exists m, serve program [lit "-p"; v] = (0, [OutLine m], None).
Proof.
  intros program v C P. unfold Opts_Model.serve, Opts_Model.parse_arguments.
  assert (E : parse serve_opts [lit "-p"; v] = inr ([(lit "port", Some v)], [])) by reflexivity. rewrite E. replace (present [(lit "port", Some v)] (lit "help")) with false by reflexivity.
  unfold port_of. replace (value [(lit "port", Some v)] (lit "port")) with (Some v) by reflexivity. rewrite P.
  replace (contains (lit "Usage:") (lit "Invalid port number: '" ++ v ++ lit "'. Port must be a number between 1 and 65535")) with true; [eexists; reflexivity|].
  symmetry. apply contains_iff in C. destruct C as (a & b & ->). apply contains_iff. exists (lit "Invalid port number: '" ++ a), (b ++ lit "'. Port must be a number between 1 and 65535"). rewrite <- !app_assoc. reflexivity.
Qed.
(** --verbose and --open change nothing. *)
Theorem C192_verbose_open_refuted : forall program args args' g g' f, proper serve_opts args g f -> proper serve_opts args' g' f ->
  (forall l v, l <> lit "verbose" -> l <> lit "open" -> (In (l, v) g <-> In (l, v) g')) -> serve program args = serve program args'.
Proof.
  intros program args args' g g' f R R' Q.
  assert (P : forall l, lit l <> lit "verbose" -> lit l <> lit "open" -> present g (lit l) = present g' (lit l)).
  { intros l N1 N2. destruct (present g (lit l)) eqn:E; symmetry.
    - apply present_iff in E. destruct E as [v I]. apply present_iff. exists v. apply Q; assumption.
    - apply present_not. intros [v I]. assert (J : gave g l) by (exists v; apply Q; assumption). apply present_iff in J. congruence. }
  unfold Opts_Model.serve, Opts_Model.parse_arguments. rewrite (proj2 (parse_iff _ serve_named _ _ _) R), (proj2 (parse_iff _ serve_named _ _ _) R').
  rewrite (P "help"%string) by discriminate. destruct (present g' (lit "help")); [reflexivity|].
  assert (V : value g (lit "port") = value g' (lit "port")).
  { assert (A : forall h a, proper serve_opts a h f -> forall v, In (lit "port", v) h -> value h (lit "port") = v) by (intros h a [_ O] v I; apply (value_once serve_opts h _ (optopt (chr "p") "port")); [exact O|cbn; auto|reflexivity|reflexivity|exact I]).
    destruct (value g (lit "port")) as [v|] eqn:E.
    - unfold value in E. destruct (List.find (fun x : given => str_eqb (fst x) (lit "port")) g) as [[l w]|] eqn:F; [|discriminate]. subst w. apply List.find_some in F. destruct F as [J F]. cbn in F. apply str_eqb_eq in F. subst l.
      symmetry. apply (A g' args' R'). apply Q; [discriminate|discriminate|exact J].
    - destruct (value g' (lit "port")) as [v|] eqn:E'; [|reflexivity]. unfold value in E'. destruct (List.find (fun x : given => str_eqb (fst x) (lit "port")) g') as [[l w]|] eqn:F; [|discriminate]. subst w. apply List.find_some in F. destruct F as [J F]. cbn in F. apply str_eqb_eq in F. subst l.
      assert (X := A g args R (Some v) (proj2 (Q (lit "port") (Some v) ltac:(discriminate) ltac:(discriminate)) J)). congruence. }
  unfold port_of. rewrite V, (P "cors"%string), (P "no-index"%string) by discriminate. destruct (value g' (lit "port")) as [s|].
  - destruct (parse_u32 s) as [p|]; [|reflexivity]. destruct (_ || _)%bool; [reflexivity|]. destruct (directory_of f) as [e|d]; [reflexivity|]. unfold validate. cbn [port directory]. destruct (p =? 0)%N; [reflexivity|]. destruct (look d); reflexivity.
  - destruct (directory_of f) as [e|d]; [reflexivity|]. unfold validate. cbn [port directory]. destruct (look d); reflexivity.
Qed.
(** Operands after the first are ignored. *)
Theorem C192_other_operands_refuted : forall program d l, operand d -> Forall operand l -> serve program (d :: l) = serve program [d].
Proof.
  intros program d l D L. unfold Opts_Model.serve, Opts_Model.parse_arguments.
  rewrite (proj2 (parse_iff _ serve_named (d :: l) [] (d :: l))) by (split; [apply C190_operands; auto|apply once_nil]).
  rewrite (proj2 (parse_iff _ serve_named [d] [] [d])) by (split; [apply C190_operands; auto|apply once_nil]). reflexivity.
Qed.
End Serve.

(** ** C193: gpr *)
Lemma place_perm n l : Permutation (place n l) (n :: l).
Proof. induction l as [|m l IH]; cbn [place]; [reflexivity|]. destruct (m <=? n)%N; [reflexivity|]. rewrite IH. apply perm_swap. Qed.
Theorem C193_newest_first : forall l, Permutation (newest_first l) l /\ forall i j a b, i < j -> nth_error (newest_first l) i = Some a -> nth_error (newest_first l) j = Some b -> (b <= a)%N.
Proof.
  intros l. split.
  - induction l as [|n l IH]; cbn; [reflexivity|]. rewrite place_perm. constructor. exact IH.
  - assert (P : forall n l, (forall i j a b, i < j -> nth_error l i = Some a -> nth_error l j = Some b -> (b <= a)%N) -> forall i j a b, i < j -> nth_error (place n l) i = Some a -> nth_error (place n l) j = Some b -> (b <= a)%N).
    { clear l. intros n l. induction l as [|m l IH]; intros S i j a b L Hi Hj; cbn [place] in *.
      - destruct j as [|[|j]]; [lia| |]; discriminate.
      - destruct (N.leb_spec m n) as [E|E].
        + destruct i as [|i]; cbn in Hi.
          * injection Hi as <-. destruct j as [|j]; [lia|]. cbn [nth_error] in Hj. destruct j as [|j]; [injection Hj as <-; exact E|]. assert (b <= m)%N by (apply (S 0 (Datatypes.S j)); [lia|reflexivity|exact Hj]). lia.
          * destruct j as [|j]; [lia|]. cbn in Hj. apply (S i j); [lia|exact Hi|exact Hj].
        + assert (S' : forall i j a b, i < j -> nth_error l i = Some a -> nth_error l j = Some b -> (b <= a)%N) by (intros i' j' a' b' L' Hi' Hj'; apply (S (Datatypes.S i') (Datatypes.S j')); [lia|exact Hi'|exact Hj']).
          destruct j as [|j]; [lia|]. cbn in Hj. destruct i as [|i]; cbn in Hi.
          * injection Hi as <-. apply nth_error_In in Hj. apply (Permutation_in _ (place_perm n l)) in Hj. destruct Hj as [<-|Hj]; [lia|]. apply In_nth_error in Hj. destruct Hj as [k Hk]. apply (S 0 (Datatypes.S k)); [lia|reflexivity|exact Hk].
          * apply (IH S' i j); [lia|exact Hi|exact Hj]. }
    induction l as [|n l IH]; cbn; [intros [|i] j a b _ Hi; discriminate|]. apply P. exact IH.
Qed.
(** the commands gpr may run *)
Definition gpr_may_run (w : gpr_world) (argv : list str) (g : list given) (a : list str) : Prop :=
  (gave g "web" /\ a = [lit "pr"; lit "list"; lit "--web"]) \/
  (~ gave g "web" /\ gave g "create" /\ exists t, t <> [] /\ (In (lit "title", Some t) g \/ ~ gave g "title" /\ exists s, stdin_line w = Some s /\ t = trim s) /\
     exists body base draft, a = [lit "pr"; lit "create"; lit "--title"; t] ++ body ++ base ++ draft /\
       ((exists b, In (lit "body", Some b) g /\ body = [lit "--body"; b]) \/ ~ gave g "body" /\ body = []) /\
       ((exists b, In (lit "base", Some b) g /\ base = [lit "--base"; b]) \/ ~ gave g "base" /\ base = []) /\
       ((gave g "draft" /\ draft = [lit "--draft"]) \/ ~ gave g "draft" /\ draft = [])) \/
  (~ gave g "web" /\ ~ gave g "create" /\ exists l i n, requests w = inr l /\ choose w (newest_first l) = Some i /\ nth_error (newest_first l) i = Some n /\
     a = [lit "pr"; lit "checkout"; show_port n]).
Lemma value_cases args g f l o : proper gpr_opts args g f -> In o gpr_opts -> takes o = true -> long o = lit l ->
  match value g (lit l) with Some v => In (lit l, Some v) g | None => ~ gave g l end.
Proof.
  intros [R O] I T L. destruct (value g (lit l)) as [v|] eqn:E.
  - unfold value in E. destruct (List.find (fun x : given => str_eqb (fst x) (lit l)) g) as [[l' w]|] eqn:F; [|discriminate]. subst w. apply List.find_some in F. destruct F as [J F]. cbn in F. apply str_eqb_eq in F. subst l'. exact J.
  - intros [v J]. destruct (reads_values _ _ _ _ gpr_named R _ _ J) as (o' & I' & L' & T'). assert (o' = o) by (apply (longs _ gpr_named); congruence). subst o'.
    assert (M : multi o = false) by (clear - I; cbn in I; repeat (destruct I as [<-|I]; [reflexivity|]); destruct I).
    rewrite (value_once gpr_opts g (lit l) o v O I M L J) in E. apply T' in T. congruence.
Qed.
(** At most one gh command that changes something is run, it is the one asked for, and with exactly the title, body and base given. *)
Theorem C193_only_what_was_asked : forall usage argv w s o runs, gpr usage argv w = (s, o, runs) -> runs = [] \/ exists g f a, proper gpr_opts argv g f /\ ~ gave g "help" /\
  in_repository w = true /\ gh_installed w = true /\ runs = [a] /\ gpr_may_run w argv g a /\ (s = 0 <-> exists x y, gh w a = Ended true x y).
Proof.
  intros usage argv w s o runs H. unfold gpr in H. destruct (parse gpr_opts argv) as [e|[g f]] eqn:E; [injection H as <- <- <-; auto|]. assert (R := proj1 (parse_iff _ gpr_named _ _ _) E).
  destruct (present g (lit "help")) eqn:PH; [injection H as <- <- <-; auto|]. destruct (in_repository w) eqn:RE; [|injection H as <- <- <-; auto]. destruct (gh_installed w) eqn:GI; [|injection H as <- <- <-; auto]. cbn [negb] in H.
  assert (NH : ~ gave g "help") by (intros X; apply present_iff in X; congruence).
  assert (G : forall a, runs = [a] -> gpr_may_run w argv g a -> (s = 0 <-> exists x y, gh w a = Ended true x y) -> runs = [] \/ exists g f a, proper gpr_opts argv g f /\ ~ gave g "help" /\
     true = true /\ true = true /\ runs = [a] /\ gpr_may_run w argv g a /\ (s = 0 <-> exists x y, gh w a = Ended true x y)) by (intros a Ha Hb Hc; right; exists g, f, a; tauto).
  destruct (present g (lit "web")) eqn:PW.
  { apply present_iff in PW. unfold open_web in H. destruct (gh w web_args) as [x|[|] x y] eqn:EG; injection H as <- <- <-; [left; reflexivity| |].
    - apply (G web_args); [reflexivity|left; auto|]. rewrite EG. split; [eauto|reflexivity].
    - apply (G web_args); [reflexivity|left; auto|]. rewrite EG. split; [discriminate|]. intros (? & ? & X). discriminate. }
  assert (NW : ~ gave g "web") by (intros X; apply present_iff in X; congruence). destruct (present g (lit "create")) eqn:PC.
  - apply present_iff in PC. unfold create_pr in H.
    assert (VT := value_cases argv g f "title"%string (optopt (chr "t") "title") R ltac:(cbn; tauto) eq_refl eq_refl).
    assert (VB := value_cases argv g f "body"%string (optopt (chr "b") "body") R ltac:(cbn; tauto) eq_refl eq_refl).
    assert (VA := value_cases argv g f "base"%string (optopt (chr "B") "base") R ltac:(cbn; tauto) eq_refl eq_refl).
    assert (T : forall t, t <> [] -> (In (lit "title", Some t) g \/ ~ gave g "title" /\ exists s, stdin_line w = Some s /\ t = trim s) -> gpr_may_run w argv g (create_args t g)).
    { intros t NT HT. right; left. split; [exact NW|]. split; [exact PC|]. exists t. split; [exact NT|]. split; [exact HT|]. unfold create_args. eexists _, _, _. split; [reflexivity|]. split; [|split].
      - destruct (value g (lit "body")); [left; eauto|right; auto].
      - destruct (value g (lit "base")); [left; eauto|right; auto].
      - destruct (present g (lit "draft")) eqn:PD; [left; split; [apply present_iff; exact PD|reflexivity]|right; split; [intros X; apply present_iff in X; congruence|reflexivity]]. }
    assert (F : forall t, t <> [] -> gpr_may_run w argv g (create_args t g) -> match gh w (create_args t g) with
        | NotStarted e => (1, [OutLine (lit "Creating PR...")] ++ [ErrLine (lit "gpr: " ++ e)], [])
        | Ended false _ err => (1, [OutLine (lit "Creating PR...")] ++ [ErrLine (lit "gpr: " ++ trim err)], [create_args t g])
        | Ended true (c :: o) _ => (0, [OutLine (lit "Creating PR...")] ++ [OutLine (lit "PR created: " ++ trim (c :: o))], [create_args t g])
        | Ended true [] (c :: e) => (0, [OutLine (lit "Creating PR...")] ++ [OutLine (trim (c :: e))], [create_args t g])
        | Ended true [] [] => (0, [OutLine (lit "Creating PR...")], [create_args t g])
        end = (s, o, runs) -> runs = [] \/ exists g f a, proper gpr_opts argv g f /\ ~ gave g "help" /\
     true = true /\ true = true /\ runs = [a] /\ gpr_may_run w argv g a /\ (s = 0 <-> exists x y, gh w a = Ended true x y)).
    { intros t NT M K. destruct (gh w (create_args t g)) as [x|[|] x y] eqn:EG; [injection K as <- <- <-; auto| |].
      - destruct x as [|c x]; [destruct y as [|c y]|]; injection K as <- <- <-; (apply (G (create_args t g)); [reflexivity|exact M|rewrite EG; split; [eauto|reflexivity]]).
      - injection K as <- <- <-. apply (G (create_args t g)); [reflexivity|exact M|]. rewrite EG. split; [discriminate|]. intros (? & ? & X). discriminate. }
    destruct (value g (lit "title")) as [[|c t]|] eqn:EV.
    + injection H as <- <- <-. auto.
    + apply (F (c :: t)); [discriminate| |exact H]. apply T; [discriminate|left; exact VT].
    + destruct (stdin_line w) as [l|] eqn:EL; cbn [option_map] in H; [|injection H as <- <- <-; auto]. destruct (trim l) as [|c t] eqn:ET; [injection H as <- <- <-; auto|].
      apply (F (c :: t)); [discriminate| |exact H]. apply T; [discriminate|]. right. split; [exact VT|]. exists l. auto.
  - assert (NC : ~ gave g "create") by (intros X; apply present_iff in X; congruence). unfold checkout_pr in H. destruct (requests w) as [e|l] eqn:EL; [injection H as <- <- <-; auto|].
    assert (H' : match choose w (newest_first l) with
      | None => (0, [], [])
      | Some i => match nth_error (newest_first l) i with
        | None => (0, [], [])
        | Some n => match gh w (checkout_args n) with
          | NotStarted e => (1, [OutLine (lit "Checking out PR #" ++ show_port n ++ lit "...")] ++ [ErrLine (lit "gpr: failed to checkout PR: " ++ e)], [])
          | Ended false _ err => (1, [OutLine (lit "Checking out PR #" ++ show_port n ++ lit "...")] ++ [ErrLine (lit "gpr: failed to checkout PR: " ++ trim err)], [checkout_args n])
          | Ended true _ err => (0, [OutLine (lit "Checking out PR #" ++ show_port n ++ lit "...")] ++ [OutLine (trim err)], [checkout_args n])
          end end end = (s, o, runs) \/ runs = []) by (destruct l; [injection H as <- <- <-; auto|left; exact H]).
    clear H. destruct H' as [H|H]; [|auto]. destruct (choose w (newest_first l)) as [i|] eqn:EC; [|injection H as <- <- <-; auto]. destruct (nth_error (newest_first l) i) as [n|] eqn:EN; [|injection H as <- <- <-; auto].
    assert (M : gpr_may_run w argv g (checkout_args n)) by (right; right; split; [exact NW|]; split; [exact NC|]; exists l, i, n; auto).
    destruct (gh w (checkout_args n)) as [x|[|] x y] eqn:EG; injection H as <- <- <-; [auto| |].
    + apply (G (checkout_args n)); [reflexivity|exact M|]. rewrite EG. split; [eauto|reflexivity].
    + apply (G (checkout_args n)); [reflexivity|exact M|]. rewrite EG. split; [discriminate|]. intros (? & ? & X). discriminate.
Qed.
(** A proper request to create is carried out, whatever the title holds. *)
Theorem C193_creates : forall usage argv w g f t, proper gpr_opts argv g f -> ~ gave g "help" -> ~ gave g "web" -> gave g "create" -> In (lit "title", Some t) g -> t <> [] ->
  in_repository w = true -> gh_installed w = true -> (forall a e, gh w a <> NotStarted e) -> exists s o a, gpr usage argv w = (s, o, [a]) /\ gpr_may_run w argv g a /\ nth_error a 3 = Some t.
Proof.
  intros usage argv w g f t R NH NW C I NT RE GI ST. destruct (gpr usage argv w) as [[s o] runs] eqn:E. assert (E' := E). unfold gpr in E'. rewrite (proj2 (parse_iff _ gpr_named _ _ _) R), (present_not _ _ NH), RE, GI, (present_not _ _ NW), (proj2 (present_iff _ _) C) in E'. cbn [negb] in E'.
  assert (V : value g (lit "title") = Some t) by (apply (value_once gpr_opts g _ (optopt (chr "t") "title")); [exact (proj2 R)|cbn; tauto|reflexivity|reflexivity|exact I]).
  assert (RU : runs = [create_args t g]).
  { unfold create_pr in E'. rewrite V in E'. destruct t as [|c t]; [congruence|]. destruct (gh w (create_args (c :: t) g)) as [x|[|] x y] eqn:EG; [destruct (ST _ _ EG)| |].
    - destruct x; [destruct y|]; injection E' as <- <- <-; reflexivity.
    - injection E' as <- <- <-. reflexivity. }
  subst runs. exists s, o, (create_args t g). split; [reflexivity|]. split; [|reflexivity].
  apply C193_only_what_was_asked in E. destruct E as [E|(g' & f' & a & R' & _ & _ & _ & [= <-] & M & _)]; [discriminate|].
  apply (parse_iff _ gpr_named) in R, R'. rewrite R in R'. injection R' as <- <-. exact M.
Qed.
(** Operands are ignored: gpr 12 asks which request to check out. *)
Theorem C193_number_ignored_refuted : forall usage w l l', Forall operand l -> Forall operand l' -> gpr usage l w = gpr usage l' w.
Proof.
  intros usage w l l' F F'. unfold gpr. rewrite (proj2 (parse_iff _ gpr_named l [] l)) by (split; [apply C190_operands; auto|apply once_nil]).
  rewrite (proj2 (parse_iff _ gpr_named l' [] l')) by (split; [apply C190_operands; auto|apply once_nil]). reflexivity.
Qed.
(** Nothing picked: nothing runs, and the status is success. *)
Theorem C193_closing : forall usage w l, Forall operand l -> in_repository w = true -> gh_installed w = true -> (exists n r, requests w = inr (n :: r) /\ choose w (newest_first (n :: r)) = None) ->
  gpr usage l w = (0, [], []).
Proof.
  intros usage w l F RE GI (n & r & EL & EC). unfold gpr. rewrite (proj2 (parse_iff _ gpr_named l [] l)) by (split; [apply C190_operands; auto|apply once_nil]). rewrite RE, GI. cbn [negb present existsb].
  unfold checkout_pr. rewrite EL, EC. reflexivity.
Qed.

(** ** C194: the words of dmv *)
Section DmvProps.
Variable allowed : Dmv_Model.dir -> str -> str -> bool.
Variable class : str -> option (char -> bool).
Notation dmv_cmd := (Opts_Model.dmv_cmd allowed class).
(** the renaming that is tried is that of the two operands, in their order, and only then *)
Theorem C194_what_is_tried : forall help args d below verbose o, dmv_cmd help args d below = Ran verbose o <-> exists g p r, proper dmv_opts args g [p; r] /\ ~ gave g "help" /\
  exists dry force, (dry = true <-> gave g "dry-run") /\ (force = true <-> gave g "force") /\ (verbose = true <-> gave g "verbose" \/ gave g "dry-run") /\
  o = Dmv_Model.dmv allowed class p r dry force d below.
Proof.
  intros help args d below verbose o. unfold Opts_Model.dmv_cmd. split.
  - intros H. destruct (parse dmv_opts args) as [e|[g f]] eqn:E; [discriminate|]. destruct (present g (lit "help")) eqn:P; [discriminate|]. destruct f as [|p [|r [|z f]]]; try discriminate. injection H as <- <-.
    exists g, p, r. split; [apply (parse_iff _ dmv_named); exact E|]. split; [intros X; apply present_iff in X; congruence|]. exists (present g (lit "dry-run")), (present g (lit "force")).
    split; [apply present_iff|]. split; [apply present_iff|]. split; [|reflexivity]. rewrite orb_true_iff, !present_iff. reflexivity.
  - intros (g & p & r & R & NH & dry & force & D & F & V & ->). rewrite (proj2 (parse_iff _ dmv_named _ _ _) R), (present_not _ _ NH).
    assert (Q : forall b l, (b = true <-> gave g l) -> present g (lit l) = b).
    { intros b l X. destruct b; [apply present_iff, X; reflexivity|]. apply present_not. intros Y. apply X in Y. discriminate. }
    rewrite (Q dry "dry-run"%string D), (Q force "force"%string F). f_equal. destruct verbose; [|destruct (present g (lit "verbose")) eqn:PV; [apply present_iff in PV; assert (false = true) by (apply V; auto); discriminate|]].
    + destruct (proj1 V eq_refl) as [X|X]; [apply present_iff in X; rewrite X; reflexivity|]. apply D in X. rewrite X. apply orb_true_r.
    + destruct dry; [|reflexivity]. assert (false = true) by (apply V; right; apply D; reflexivity). discriminate.
Qed.
(** With -n or --dry-run anywhere among the words nothing is renamed. *)
Theorem C194_dry_run : forall help args d below g f, proper dmv_opts args g f -> gave g "dry-run" ->
  match dmv_cmd help args d below with
  | Said _ _ => True
  | Ran _ (Dmv_Model.Renamed d' _) => d' = d
  | Ran _ (Dmv_Model.Stopped _) => False
  | Ran _ _ => True
  end.
Proof.
  intros help args d below g f R D. destruct (dmv_cmd help args d below) as [s ls|v o] eqn:E; [exact Logic.I|]. apply C194_what_is_tried in E. destruct E as (g' & p & r & R' & _ & dry & force & HD & _ & _ & ->).
  apply (parse_iff _ dmv_named) in R, R'. rewrite R in R'. injection R' as <- _. assert (X : dry = true) by (apply HD; exact D). subst dry.
  destruct (Dmv_Model.dmv allowed class p r true force d below) eqn:E; try exact Logic.I.
  - unfold Dmv_Model.dmv in E. destruct (Dmv_Model.parse_pattern class p) as [[gl ps]|]; [|discriminate]. destruct (Dmv_Model.find gl (map fst d) below); [|discriminate]. cbv zeta in E.
    destruct (forallb _ _); [|discriminate]. destruct (Dmv_Model.no_conflict d force [] _); [|discriminate]. rewrite Dmv_Props.perform_dry in E. discriminate.
  - apply Dmv_Props.C40_dry_run in E. destruct E as [E _]. exact E.
Qed.
(** Another number of operands is refused and nothing is tried. *)
Theorem C194_wrong_count : forall help args d below g f, proper dmv_opts args g f -> ~ gave g "help" -> length f <> 2 -> exists ls, dmv_cmd help args d below = Said 1 ls.
Proof.
  intros help args d below g f R NH L. unfold Opts_Model.dmv_cmd. rewrite (proj2 (parse_iff _ dmv_named _ _ _) R), (present_not _ _ NH). destruct f as [|p [|r [|z f]]]; try (eexists; reflexivity). destruct (L eq_refl).
Qed.
(** A pattern that starts with a dash is refused, not renamed by. *)
Theorem C194_dashed_pattern_refuted : forall help c t r d below, ~ In c [chr "n"; chr "v"; chr "f"; chr "h"; chr "-"] ->
  dmv_cmd help [chr "-" :: c :: t; r] d below = Said 1 [ErrLine (lit "dmv: Unrecognized option: '" ++ [c] ++ lit "'")].
Proof.
  intros help c t r d below N. unfold Opts_Model.dmv_cmd. 
  replace (parse dmv_opts [chr "-" :: c :: t; r]) with (inl (Unrecognized (Short c)) : result); [reflexivity|].
  symmetry. apply (C190_dashed_operand_refuted dmv_opts [] c t [r]); [apply dmv_named|constructor|intros ->; apply N; cbn; tauto|].
  intros o [<-|[<-|[<-|[<-|[]]]]] [= <-]; apply N; cbn; tauto.
Qed.
(** After two dashes every pattern and every replacement can be given. *)
Theorem C194_after_dashes : forall help p r d below, dmv_cmd help [lit "--"; p; r] d below = Ran false (Dmv_Model.dmv allowed class p r false false d below).
Proof. reflexivity. Qed.
End DmvProps.

(** ** cases *)
Example reading_case : parse set_opts [lit "-x"; lit "A"; lit "1"] = inr ([(lit "export", None)], [lit "A"; lit "1"]) /\
  parse gpr_opts [lit "gpr"; lit "-cdt"; lit "-x"; lit "--body=a=b"; lit "-Bmain"; lit "--"; lit "-w"] =
    inr ([(lit "create", None); (lit "draft", None); (lit "title", Some (lit "-x")); (lit "body", Some (lit "a=b")); (lit "base", Some (lit "main"))], [lit "gpr"; lit "-w"]) /\
  parse gpr_opts [lit "-c"; lit "--create"] = inl (Duplicated (Short (chr "c"))) /\ parse serve_opts [lit "--cors=yes"] = inl (Unexpected (Long (lit "cors"))) /\
  parse serve_opts [lit "d"; lit "-p"] = inl (Missing (Short (chr "p"))).
Proof. vm_compute. auto 10. Qed.
Definition env0 : Env_Model.env := Env_Model.Env [(lit "A", lit "1")] [] [] [] [] (Output_Model.History [] 10 100 0 100) (fun _ => None).
Example set_case : ordinary (lit "A") /\ operand (lit "A") /\ set_cmd [] [lit "n"; lit "-1"] env0 = (1, [ErrLine (lit "Unrecognized option: '1'")], env0) /\
  Env_Model.get_var (Env_Model.set_env_var (lit "A") (lit "2") env0) (lit "A") = Some (lit "1") /\ set_cmd [] [lit "n"] env0 = (0, [OutLine []], env0).
Proof.
  split; [|split; [right; discriminate|vm_compute; auto]]. split; [|split].
  - intros n H. apply Output_Props.C22_output_names_exact in H; [vm_compute in H; discriminate|auto].
  - intros n H. apply Output_Props.C22_output_names_exact in H; [vm_compute in H; discriminate|auto].
  - split; [|discriminate]. intros I. apply mem_str_iff in I. discriminate.
Qed.
Definition home (d : str) : found := if str_eqb d (lit "/home/u/site") then Usable else Absent.
Example serve_case : serve (Some (lit "/home/u")) home (fun _ => true) [] (lit "serve") [lit "site"; lit "--port=+8080"; lit "--cors"] =
    (0, banner (Config (lit "127.0.0.1") 8080 (lit "/home/u/site") false false true true) (lit "8080"), Some (Listener (lit "127.0.0.1") 8080 (lit "/home/u/site") true true)) /\
  serve (Some (lit "/home/u")) home (fun _ => true) [] (lit "serve") [lit "site"; lit "-p"; lit "65536"] = (1, [ErrLine (lit "serve: " ++ user_message (InvalidPort 65536))], None) /\
  serve (Some (lit "/home/u")) home (fun _ => true) [] (lit "serve") [lit "nosite"] = (1, [ErrLine (lit "serve: " ++ user_message (DirectoryNotFound (lit "/home/u/nosite")))], None).
Proof. split; [vm_compute; reflexivity|]. split; reflexivity. Qed.
Definition world0 : gpr_world := GprWorld true true (Some (lit "  Fix it ")) (fun _ => Ended true [] []) (inr [3; 12; 7]%N) (fun _ => Some 1).
Example gpr_case : gpr [] [lit "gpr"; lit "-c"; lit "-d"] world0 = (0, [OutLine (lit "Creating PR...")], [[lit "pr"; lit "create"; lit "--title"; lit "Fix it"; lit "--draft"]]) /\
  gpr [] [lit "gpr"; lit "12"] world0 = (0, [OutLine (lit "Checking out PR #7..."); OutLine []], [[lit "pr"; lit "checkout"; lit "7"]]).
Proof. vm_compute. auto. Qed.
Example dmv_case : exists g f, proper dmv_opts [lit "a"; lit "-vn"; lit "b"] g f /\ gave g "dry-run" /\
  dmv_cmd (fun _ _ _ => true) (fun _ => None) [] [lit "a"; lit "-vn"; lit "b"] [(lit "a", Dmv_Model.Entry 1 false)] [] = Ran true (Dmv_Model.Renamed [(lit "a", Dmv_Model.Entry 1 false)] 1).
Proof.
  exists [(lit "verbose", None); (lit "dry-run", None)], [lit "a"; lit "b"]. split; [apply (parse_iff _ dmv_named); vm_compute; reflexivity|]. split; [exists None; cbn; auto|vm_compute; reflexivity].
Qed.

Print Assumptions C190_read_iff.
Print Assumptions C190_any_place.
Print Assumptions C190_after_two_dashes.
Print Assumptions C190_operands.
Print Assumptions C190_dashed_operand_refuted.
Print Assumptions C190_twice_refused.
Print Assumptions C191_what_changes.
Print Assumptions C191_sets_partial.
Print Assumptions C191_sets_any.
Print Assumptions C191_export_anywhere.
Print Assumptions C191_reads_back.
Print Assumptions C191_children_see.
Print Assumptions C191_export_reads_back_refuted.
Print Assumptions C191_export_reads_back_partial.
Print Assumptions C191_dashed_value_refuted.
Print Assumptions C191_wrong_count_refuted.
Print Assumptions C191_x_as_value_refuted.
Print Assumptions C192_listens_iff.
Print Assumptions C192_local_only.
Print Assumptions C192_taken_port_refuted.
Print Assumptions C192_refused_partial.
Print Assumptions C192_usage_in_the_port_refuted.
Print Assumptions C192_verbose_open_refuted.
Print Assumptions C192_other_operands_refuted.
Print Assumptions C193_newest_first.
Print Assumptions C193_only_what_was_asked.
Print Assumptions C193_creates.
Print Assumptions C193_number_ignored_refuted.
Print Assumptions C193_closing.
Print Assumptions C194_what_is_tried.
Print Assumptions C194_dry_run.
Print Assumptions C194_wrong_count.
Print Assumptions C194_dashed_pattern_refuted.
Print Assumptions C194_after_dashes.
