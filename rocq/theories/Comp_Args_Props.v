(** C108: the options that are offered.  C113: the definition an argument is completed by. *)
From Verif Require Import Base Token_Model Comp_Model Comp_Spec Comp_Proofs Comp_Words Comp_Subs Comp_Ends Comp_Props Comp_Run_Props.

(** ** Specification *)
(** the words [ws] lead to the subcommand [s] *)
Inductive leads : list subcommand -> list str -> subcommand -> Prop :=
| l_last l w s : find_sub l w = Some s -> leads l [w] s
| l_more l w s v ws s' : find_sub l w = Some s -> leads (s_subs s) (v :: ws) s' -> leads l (w :: v :: ws) s'.
(** an option that can be given behind the words [ws] *)
Definition option_of (d : definition) (ws : list str) (o : coption) : Prop :=
  In o (d_globals d) \/ exists s, leads (d_subs d) ws s /\ In o (s_options s).
Definition option_name (o : coption) (n : str) : Prop := short o = Some n \/ long o = Some n.
(** the command runs no other command *)
Definition simple (d : definition) : Prop := forall a, In a (d_arguments d) -> a_type a <> Some Command_with_args.
(** the definition of the argument at a position *)
Definition position_definition (l : list argument) (i : nat) (a : argument) : Prop :=
  nth_error l i = Some a \/ (length l <= i /\ multiple a = true /\ exists l', l = l' ++ [a]).

Lemma leads_current l ws s : leads l ws s <-> current_sub l ws = Some s.
Proof.
  split.
  - induction 1 as [l w s F|l w s v ws s' F _ IH]; [exact F|]. cbn [current_sub]. rewrite F. exact IH.
  - revert l. induction ws as [|w ws IH]; intros l H; [discriminate|]. destruct ws as [|v ws]; [constructor; exact H|].
    cbn [current_sub] in H. destruct (find_sub l w) as [s'|] eqn:F; [|discriminate]. econstructor; [exact F|]. apply IH, H.
Qed.
Lemma follows_leads l ws names subs : follows l ws names subs -> forall s, leads l names s <-> leads l ws s.
Proof.
  induction 1 as [l|l w s ws names subs F N T IH]; intros t; [reflexivity|]. rewrite !leads_current. remember (s_subs s) as q eqn:Q. destruct T as [l'|l' w' s' ws' names' subs' F' N' T'].
  - cbn [current_sub]. rewrite F, N. reflexivity.
  - change (current_sub l (s_name s :: s_name s' :: names')) with (match find_sub l (s_name s) with Some x => current_sub (s_subs x) (s_name s' :: names') | None => None end).
    change (current_sub l (w :: w' :: ws')) with (match find_sub l w with Some x => current_sub (s_subs x) (w' :: ws') | None => None end).
    rewrite F, N, <- Q, <- !leads_current. apply IH.
Qed.
Lemma simple_first d : simple d -> forall args i, first_command i (d_arguments d) args = None.
Proof.
  unfold simple. induction (d_arguments d) as [|a l IH]; intros H args i; [reflexivity|]. destruct args as [|x args]; [reflexivity|]. cbn [first_command].
  assert (R : first_command (S i) l args = None) by (apply IH; intros b I; apply H; right; exact I).
  specialize (H a (or_introl eq_refl)). destruct (a_type a) as [[]|]; try exact R. congruence.
Qed.
Lemma option_not_redirect t : is_option t = true -> is_redirect t = false.
Proof.
  intros O. unfold is_option in O. apply starts_with_iff in O as (r & ->). change (lit "-" ++ r) with (45%N :: r). unfold is_redirect.
  assert (M : mem_str (45%N :: r) (map lit [">"; ">>"; "<"; "&>"; "&>>"]%string) = false).
  { apply mem_str_false. intros I. cbn in I. intuition discriminate. }
  rewrite M. cbn [orb]. 
  assert (G : forall p q, strip_suffix p (45%N :: r) = Some q -> hd 0%N p = 62%N -> p <> [] -> forallb is_digit q = false).
  { intros p q H Hp Np. unfold strip_suffix in H. destruct (ends_with p (45%N :: r)) eqn:E; [|discriminate]. assert (Eq : q = firstn (length (45%N :: r) - length p) (45%N :: r)) by (inversion H; reflexivity). clear H. subst q. apply ends_with_iff in E as (a & E).
    destruct a as [|x a]; [exfalso; cbn [app] in E; rewrite <- E in Hp; discriminate Hp|]. 
    assert (Ex : x = 45%N) by (apply (f_equal (hd 0%N)) in E; cbn in E; congruence). subst x.
    replace (length (45%N :: r) - length p) with (S (length a)) by (rewrite E, app_length; change (length (45%N :: a)) with (S (length a)); lia). reflexivity. }
  destruct (strip_suffix (lit ">>") (45%N :: r)) as [q|] eqn:S2; [apply (G _ _ S2); [reflexivity|discriminate]|].
  destruct (strip_suffix (lit ">") (45%N :: r)) as [q|] eqn:S1; [apply (G _ _ S1); [reflexivity|discriminate]|reflexivity].
Qed.
Lemma rposition_last f l x : f x = true -> rposition f (l ++ [x]) = Some (length l).
Proof. intros H. induction l as [|y l IH]; cbn [app rposition length]; [rewrite H; reflexivity|]. rewrite IH. reflexivity. Qed.
Lemma attached_short t os : blen t <= 2 -> attached t os = None.
Proof.
  intros B. induction os as [|o os IH]; [reflexivity|]. cbn [attached]. destruct (short o) as [s|]; [|exact IH]. destruct (Nat.eqb_spec (blen s) 2) as [Bs|]; [|exact IH]. destruct (expects_value o); [|exact IH]. cbn [andb].
  destruct (starts_with s t) eqn:S; [|exact IH]. apply starts_with_iff in S as (r & ->). rewrite blen_app in B. assert (r = []) as -> by (apply blen_zero; lia). rewrite app_nil_r in *. rewrite skipn_all. exact IH.
Qed.

Section C108.
Variable alphabetic alphanumeric : char -> bool.
Variable db : str -> option definition.
Variable printable : char -> bool.
Variable escape_name : char -> str.
Variable files commands : str -> list candidate.
Variable other : nat -> str -> list candidate.
Variable fuzzy : str -> str -> bool.
Variable shell resolve : str -> str.
Notation complete_at := (complete_at alphabetic alphanumeric db printable escape_name files commands other fuzzy shell resolve).
Notation convert := (convert alphabetic alphanumeric db resolve).
Notation looks_like_sub := (looks_like_sub alphabetic alphanumeric).

Definition typed_option (pre : str) : context := if is_long pre then In_long else if blen pre =? 2 then In_short else In_long.
(** no value is completed when an option is typed *)
Lemma value_option d p l pre : current p = pre -> raw_args p = l ++ [pre] -> is_option pre = true -> split_inline pre = None ->
  is_long pre = true \/ blen pre <= 2 -> value_of_option d p = None.
Proof.
  intros C R O I L. unfold value_of_option.
  assert (T : raw_token p = Some pre).
  { unfold raw_token, raw_index. rewrite C. destruct pre as [|x pre]; [discriminate O|]. destruct (raw_args p) as [|y z]; [destruct l; discriminate R|].
    rewrite R, rposition_last by (rewrite str_eqb_refl; reflexivity). rewrite nth_error_app2, Nat.sub_diag by lia. reflexivity. }
  rewrite T, I, C, O. assert (attached_value pre (available d (path p)) = None) as ->; [|reflexivity].
  unfold attached_value. rewrite O. destruct L as [-> | L]; [reflexivity|]. destruct (negb _); [|reflexivity]. apply attached_short, L.
Qed.
Lemma classify_options os pre : Forall (fun o => is_option o = true /\ split_inline o = None) (os ++ [pre]) -> classify false (os ++ [pre]) = (os ++ [pre], []).
Proof.
  induction os as [|o os IH]; intros F; cbn [app] in *.
  - inversion F as [|? ? (O & I) _]; subst. cbn [classify]. rewrite (option_not_redirect _ O), O, I. reflexivity.
  - inversion F as [|? ? (O & I) F']; subst. cbn [classify]. rewrite (option_not_redirect _ O), O, I.
    assert (V : match os ++ [pre] with n :: _ => negb (is_option n) && option_takes_value o | [] => false end = false).
    { destruct (os ++ [pre]) as [|n r]; [reflexivity|]. inversion F' as [|? ? (On & _) _]; subst. rewrite On. reflexivity. }
    rewrite V, (IH F'). reflexivity.
Qed.
Lemma classify_words ws r o a : Forall (fun w => is_option w = false /\ is_redirect w = false) ws -> classify false r = (o, a) -> classify false (ws ++ r) = (o, ws ++ a).
Proof. intros F E. induction F as [|w ws (O & X) _ IH]; [exact E|]. cbn [app classify]. rewrite X, O, IH. reflexivity. Qed.
Lemma leading_stop ws o r : looks_like_sub o = false -> exists ws1 ws2, ws = ws1 ++ ws2 /\ leading alphabetic alphanumeric (ws ++ o :: r) = (ws1, ws2 ++ o :: r).
Proof.
  intros H. induction ws as [|w ws (ws1 & ws2 & E & L)]; cbn [app leading].
  - exists [], []. rewrite H. split; reflexivity.
  - destruct (looks_like_sub w); [|exists [], (w :: ws); split; reflexivity]. rewrite L. exists (w :: ws1), ws2. subst ws. split; reflexivity.
Qed.
Lemma not_sub o : is_option o = true -> looks_like_sub o = false.
Proof. intros H. unfold Comp_Model.looks_like_sub. rewrite H. reflexivity. Qed.

(** the line of a command, some of its subcommands, some options, and the option being typed *)
Lemma convert_options cmd c d ws names subs os pre :
  word cmd -> resolve cmd = c -> db c = Some d ->
  Forall (fun w => word w /\ is_option w = false /\ is_redirect w = false) ws -> follows (d_subs d) ws names subs ->
  Forall (fun o => word o /\ is_option o = true /\ split_inline o = None /\ find_sub subs o = None) os ->
  plain pre -> is_option pre = true -> split_inline pre = None -> is_long pre = true \/ blen pre <= 2 ->
  find_sub subs pre = None -> existsb (sub_starts pre) subs = false -> Forall (fun w => find_sub subs w = None) ws ->
  let line := line_of (cmd :: ws ++ os) pre in
  exists P ws2, (P = names \/ P = ws) /\
    let p := Parsed c P (ws2 ++ os ++ [pre]) pre (Some pre) (typed_option pre) (os ++ [pre]) ws2 in
    convert line (blen line) = p /\ correct db p = p.
Proof.
  intros Wc Rc Dc Hw F Ho Pp Op Ip Lp Np Sp Nw line.
  assert (Fo : Forall (fun o => is_option o = true /\ split_inline o = None) (os ++ [pre])).
  { apply Forall_app. split; [eapply Forall_impl; [|exact Ho]; cbn; tauto|constructor; [split; assumption|constructor]]. }
  assert (So : exists o r, os ++ [pre] = o :: r /\ is_option o = true /\ find_sub subs o = None /\ (o = pre \/ o <> pre)).
  { destruct os as [|o os]; [exists pre, []; tauto|]. inversion Ho as [|? ? (_ & O & _ & N) _]; subst. exists o, (os ++ [pre]). split; [reflexivity|]. split; [exact O|]. split; [exact N|].
    destruct (str_eqb_spec o pre); tauto. }
  destruct So as (o1 & r1 & Eo & O1 & N1 & _).
  destruct (leading_stop ws o1 r1 (not_sub o1 O1)) as (ws1 & ws2 & Ews & L). rewrite <- Eo in L.
  assert (More : forall w r, w = o1 \/ In w ws -> more_subs pre subs (w :: r) = inr ([], subs, 0)).
  { intros w r Hx. cbn [more_subs]. assert (find_sub subs w = None) as ->.
    { destruct Hx as [-> | I]; [exact N1|]. rewrite Forall_forall in Nw. apply Nw, I. }
    destruct (str_eqb_spec w pre) as [-> |]; [rewrite Sp; reflexivity|reflexivity]. }
  set (final := fun P => Parsed c P (ws2 ++ os ++ [pre]) pre (Some pre) (typed_option pre) (os ++ [pre]) ws2).
  assert (V : forall P, value_of_option d (final P) = None).
  { intros P. apply (value_option d (final P) (ws2 ++ os) pre); try assumption; try reflexivity. cbn [raw_args final]. rewrite app_assoc. reflexivity. }
  assert (Hty : typed_option pre = In_long \/ typed_option pre = In_short).
  { unfold typed_option. destruct (is_long pre); [left; reflexivity|]. destruct (blen pre =? 2); tauto. }
  assert (Again : forall P, walk (d_subs d) P = (names, subs, []) -> correct db (final P) = final P).
  { intros P Hwk. unfold correct. cbn [command final]. rewrite Dc. unfold correct1. change (path (final P)) with P. rewrite Hwk. fold (final P). rewrite V.
    assert (Mo : more_subs (current (final P)) subs (raw_args (final P)) = inr ([], subs, 0)).
    { cbn [current raw_args final]. destruct ws2 as [|w ws2]; cbn [app]; [rewrite Eo; apply More; left; reflexivity|]. apply More. right. rewrite Ews. apply in_app_iff. right. left. reflexivity. }
    rewrite Mo. cbn [Nat.eqb]. change (ctx (final P)) with (typed_option pre). destruct Hty as [-> | ->]; rewrite V; reflexivity. }
  assert (Wk : walk (d_subs d) ws = (names, subs, [])) by (apply walk_follows, F).
  assert (Wn : walk (d_subs d) names = (names, subs, [])) by (apply walk_follows, (follows_names _ _ _ _ F)).
  assert (Cv : convert line (blen line) = correct db (final ws1)).
  { unfold line. rewrite (convert_line alphabetic alphanumeric db resolve cmd (ws ++ os) pre Wc); [|apply Forall_app; split; [eapply Forall_impl; [|exact Hw]; cbn; tauto|eapply Forall_impl; [|exact Ho]; cbn; tauto]|exact Pp].
    f_equal. unfold analyze. rewrite (space_words cmd (ws ++ os) pre Wc), <- app_assoc, L.
    assert (F2 : Forall (fun w => is_option w = false /\ is_redirect w = false) ws2).
    { rewrite Ews in Hw. apply Forall_app in Hw as (_ & Hw). eapply Forall_impl; [|exact Hw]. cbn. tauto. }
    rewrite (classify_words ws2 (os ++ [pre]) (os ++ [pre]) [] F2 (classify_options os pre Fo)), app_nil_r. cbn [Nat.eqb].
    assert (Nc : nth (S (length (ws ++ os))) (cmd :: ws ++ os ++ [pre]) [] = pre) by (cbn [nth]; rewrite app_assoc, app_nth2, Nat.sub_diag by lia; reflexivity).
    rewrite Nc. set (prev := nth (S (length (ws ++ os)) - 1) (cmd :: ws ++ os ++ [pre]) []).
    assert (context_of alphabetic alphanumeric (S (length (ws ++ os))) pre prev ws1 ws2 true = typed_option pre) as ->.
    { unfold context_of, typed_option. rewrite Ip, Op. reflexivity. }
    unfold final, with_command. destruct Hty as [-> | ->]; cbn [command path raw_args current current_arg ctx opts sargs]; rewrite Rc; reflexivity. }
  subst ws. destruct ws2 as [|w2 ws2'] eqn:E2.
  - exists ws1, []. rewrite app_nil_r in *. split; [right; reflexivity|]. rewrite Cv. fold (final ws1). split; apply Again, Wk.
  - exists names, ws2. subst ws2. split; [left; reflexivity|]. rewrite Cv. fold (final names). split; [|apply Again, Wn].
    destruct (follows_app _ _ _ _ _ F) as (n1 & n2 & mid & En & F1 & F2).
    unfold correct. cbn [command final]. rewrite Dc. unfold correct1. change (path (final ws1)) with ws1. rewrite (walk_follows _ _ _ _ F1). fold (final ws1). rewrite V.
    assert (Ne : Forall (fun w => w <> pre) (w2 :: ws2')).
    { apply Forall_app in Hw as (_ & Hw). eapply Forall_impl; [|exact Hw]. cbn. intros a (_ & Oa & _) ->. congruence. }
    assert (Mo : more_subs (current (final ws1)) mid (raw_args (final ws1)) = inr (n2, subs, length n2)).
    { cbn [current raw_args final]. rewrite (more_follows pre _ _ _ _ (os ++ [pre]) F2 Ne), Eo. rewrite (More o1 r1 (or_introl eq_refl)), app_nil_r, Nat.add_0_r. reflexivity. }
    rewrite Mo. assert (Ln : length n2 <> 0) by (inversion F2; subst; cbn; lia). destruct (length n2) as [|k] eqn:Ek; [congruence|]. cbn [Nat.eqb].
    assert (Ex : existsb (sub_matches (current (final ws1))) subs = false).
    { cbn [current final]. destruct (existsb (sub_matches pre) subs) eqn:X; [|reflexivity]. apply existsb_exists in X as (s & I & X). unfold find_sub in Np. pose proof (find_none _ _ Np s I) as Y. cbn in Y. congruence. }
    rewrite Ex. change (is_option (current (final ws1))) with (is_option pre). rewrite Op. cbn [andb negb].
    change (ctx (final ws1)) with (typed_option pre).
    assert (Fp : with_context (typed_option pre) (with_path (n1 ++ n2) (final ws1)) = final names) by (rewrite <- En; reflexivity).
    destruct Hty as [Ht | Ht]; rewrite Ht in *; rewrite Fp, V; reflexivity.
Qed.

Lemma offered_in p k o x : In x (offered p k o) <-> exists n, o = Some n /\ starts_with (current p) n = true /\ ~ In n (opts p) /\ x = Candidate n k 80.
Proof.
  unfold offered. destruct o as [n|].
  - destruct (starts_with (current p) n) eqn:S; cbn [andb].
    + destruct (mem_str n (opts p)) eqn:M; cbn [negb].
      * split; [intros []|]. intros (m & [= <-] & _ & N & _). apply mem_str_iff in M. contradiction.
      * split; [intros [<- | []]; exists n; repeat split; [exact S|]; intros I; apply mem_str_iff in I; congruence|]. intros (m & [= <-] & _ & _ & ->). left. reflexivity.
    + split; [intros []|]. intros (m & [= <-] & E & _). congruence.
  - split; [intros []|]. intros (m & E & _). discriminate.
Qed.

(** behind a command, some of its subcommands and some options, exactly the names of options that
    can stand there, start with what was typed and were not given yet are offered, and nothing is
    run *)
Theorem C108_options_offered_partial : forall cmd c d ws names subs os pre depth,
  word cmd -> ascii cmd -> resolve cmd = c -> db c = Some d -> simple d ->
  Forall (fun w => word w /\ ascii w /\ is_option w = false /\ is_redirect w = false) ws -> follows (d_subs d) ws names subs ->
  Forall (fun o => word o /\ ascii o /\ is_option o = true /\ split_inline o = None /\ find_sub subs o = None) os ->
  plain pre -> ascii pre -> is_long pre = true \/ pre = lit "-" -> split_inline pre = None ->
  (* no subcommand looks like an option or follows itself *)
  find_sub subs pre = None -> existsb (sub_starts pre) subs = false -> Forall (fun w => find_sub subs w = None) ws ->
  let line := line_of (cmd :: ws ++ os) pre in
  exists l, complete_at (S depth) line (length line) = Some (Found l []) /\
    forall n, In n (map text l) <->
      (exists o, option_of d ws o /\ option_name o n) /\ starts_with pre n = true /\ n <> pre /\ ~ In n os.
Proof.
  intros cmd c d ws names subs os pre depth Wc Ac Rc Dc Sd Hw F Ho Pp Ap Lp Ip Np Sp Nw line.
  assert (Op : is_option pre = true).
  { destruct Lp as [L | ->]; [|reflexivity]. unfold is_long in L. apply starts_with_iff in L as (r & ->). reflexivity. }
  assert (Al : ascii line).
  { unfold line, line_of. apply Forall_app. split; [|exact Ap]. apply Forall_flat_map. constructor.
    - apply Forall_app. split; [exact Ac|constructor; [lia|constructor]].
    - apply Forall_app. split; (eapply Forall_impl; [|first [exact Hw|exact Ho]]); intros w (_ & A & _); (apply Forall_app; split; [exact A|constructor; [lia|constructor]]). }
  unfold Comp_Model.complete_at, collect. rewrite <- (ascii_blen line Al).
  destruct (convert_options cmd c d ws names subs os pre Wc Rc Dc) as (P & ws2 & HP & Cv & Cr); try assumption.
  - eapply Forall_impl; [|exact Hw]. cbn. tauto.
  - eapply Forall_impl; [|exact Ho]. cbn. tauto.
  - destruct Lp as [L | ->]; [left; exact L|right; apply Nat.leb_le; reflexivity].
  - fold line in Cv. rewrite Cv. set (p := Parsed c P (ws2 ++ os ++ [pre]) pre (Some pre) (typed_option pre) (os ++ [pre]) ws2) in *.
    assert (Ht : typed_option pre = In_long) by (destruct Lp as [L | ->]; [unfold typed_option; rewrite L; reflexivity|reflexivity]).
    assert (Cp : ctx p = In_long) by exact Ht. rewrite Cp. cbn [Comp_Model.generate]. rewrite Cr, Cp.
    assert (command_argument db p = None) as -> by (unfold command_argument; cbn [command p]; rewrite Dc; apply simple_first, Sd).
    cbn [command p]. rewrite Dc. fold p. exists (long_candidates d p). split; [reflexivity|]. intros n.
    assert (Oo : forall o, In o (sub_options d p) <-> option_of d ws o).
    { intros o. unfold sub_options, option_of. rewrite in_app_iff. cbn [path p].
      assert (E : forall s, leads (d_subs d) ws s <-> current_sub (d_subs d) P = Some s) by (intros s; rewrite <- leads_current; destruct HP as [-> | ->]; [symmetry; apply (follows_leads _ _ _ _ F)|reflexivity]).
      destruct (current_sub (d_subs d) P) as [s|].
      - split; (intros [I|I]; [left; exact I|right]); [exists s; split; [apply E; reflexivity|exact I]|]. destruct I as (s' & L & I). apply E in L. injection L as <-. exact I.
      - split; (intros [I|I]; [left; exact I|right]); [destruct I|]. destruct I as (s' & L & _). apply E in L. discriminate. }
    rewrite in_map_iff. split.
    + intros (k & <- & I). apply in_flat_map in I as (o & Io & I). apply Oo in Io. apply in_app_iff in I as [I|I]; apply offered_in in I as (m & E & S & N & ->); cbn [text opts current p] in *;
        (split; [exists o; split; [exact Io|]; unfold option_name; tauto|]; split; [exact S|]; split; [intros ->; apply N, in_app_iff; right; left; reflexivity|intros J; apply N, in_app_iff; left; exact J]).
    + intros ((o & Io & Nm) & S & Nn & No).
      assert (No' : ~ In n (opts p)) by (cbn [opts p]; intros J; apply in_app_iff in J as [J|[J|[]]]; [contradiction|congruence]).
      apply Oo in Io. destruct Nm as [Nm | Nm].
      * exists (Candidate n K_short 80). split; [reflexivity|]. apply in_flat_map. exists o. split; [exact Io|]. apply in_app_iff. right. apply offered_in. exists n. repeat split; assumption.
      * exists (Candidate n K_long 80). split; [reflexivity|]. apply in_flat_map. exists o. split; [exact Io|]. apply in_app_iff. left. apply offered_in. exists n. repeat split; assumption.
Qed.
(** long names that start with a single dash are not offered when two bytes of them are typed *)
Theorem C108_single_dash_refuted : forall cmd c d ws names subs os pre depth,
  word cmd -> resolve cmd = c -> db c = Some d -> simple d ->
  Forall (fun w => word w /\ is_option w = false /\ is_redirect w = false) ws -> follows (d_subs d) ws names subs ->
  Forall (fun o => word o /\ is_option o = true /\ split_inline o = None /\ find_sub subs o = None) os ->
  plain pre -> is_option pre = true -> is_long pre = false -> blen pre = 2 ->
  find_sub subs pre = None -> existsb (sub_starts pre) subs = false -> Forall (fun w => find_sub subs w = None) ws ->
  let line := line_of (cmd :: ws ++ os) pre in
  exists l, complete_at (S depth) line (blen line) = Some (Found l []) /\ forall k, In k l -> what k = K_short /\ exists o, short o = Some (text k) /\ text k <> pre.
Proof.
  intros cmd c d ws names subs os pre depth Wc Rc Dc Sd Hw F Ho Pp Op Lp Bp Np Sp Nw line.
  assert (Ip : split_inline pre = None) by (unfold split_inline; rewrite Lp; reflexivity).
  unfold Comp_Model.complete_at, collect.
  destruct (convert_options cmd c d ws names subs os pre Wc Rc Dc) as (P & ws2 & HP & Cv & Cr); try assumption; [right; lia|].
  fold line in Cv. rewrite Cv. set (p := Parsed c P (ws2 ++ os ++ [pre]) pre (Some pre) (typed_option pre) (os ++ [pre]) ws2) in *.
  assert (Cp : ctx p = In_short) by (cbn [ctx p]; unfold typed_option; rewrite Lp, Bp; reflexivity). rewrite Cp. cbn [Comp_Model.generate]. rewrite Cr, Cp.
  assert (command_argument db p = None) as -> by (unfold command_argument; cbn [command p]; rewrite Dc; apply simple_first, Sd).
  cbn [command p]. rewrite Dc. fold p. exists (short_candidates d p). split; [reflexivity|]. intros k I. apply in_flat_map in I as (o & _ & I). apply offered_in in I as (m & E & _ & N & ->).
  split; [reflexivity|]. exists o. split; [exact E|]. cbn [text]. intros ->. apply N. cbn [opts p]. apply in_app_iff. right. left. reflexivity.
Qed.
End C108.

(** ** C113 *)
Section C113.
Variable alphabetic alphanumeric : char -> bool.
Variable db : str -> option definition.
Variable printable : char -> bool.
Variable escape_name : char -> str.
Variable files commands : str -> list candidate.
Variable other : nat -> str -> list candidate.
Variable fuzzy : str -> str -> bool.
Variable shell resolve : str -> str.
Notation complete_at := (complete_at alphabetic alphanumeric db printable escape_name files commands other fuzzy shell resolve).
Notation convert := (convert alphabetic alphanumeric db resolve).
Notation looks_like_sub := (looks_like_sub alphabetic alphanumeric).

Lemma walk_none ws : walk [] ws = ([], [], ws).
Proof. destruct ws; reflexivity. Qed.
Lemma more_none cur ts : more_subs cur [] ts = inr ([], [], 0).
Proof. destruct ts as [|t ts]; [reflexivity|]. cbn [more_subs find_sub find existsb]. rewrite andb_false_r. reflexivity. Qed.
Lemma argument_at ws (pre : str) : argument_index (ws ++ [pre]) pre = length ws.
Proof.
  unfold argument_index. assert (mem_str pre (ws ++ [pre]) = true) as -> by (apply mem_str_iff, in_app_iff; right; left; reflexivity). rewrite app_length. cbn. lia.
Qed.
Lemma position_is l i : (forall a, position_definition l i a <-> argument_definition l i = Some a).
Proof.
  intros a. unfold position_definition, argument_definition. destruct (nth_error l i) as [x|] eqn:E.
  - split; [|left; congruence]. intros [H|(L & _)]; [congruence|]. assert (nth_error l i <> None) by congruence. apply nth_error_Some in H. lia.
  - apply nth_error_None in E. split.
    + intros [H|(_ & M & l' & ->)]; [discriminate|]. rewrite rev_app_distr. cbn [rev app]. rewrite M. reflexivity.
    + intros H. right. split; [exact E|]. destruct (rev l) as [|y r] eqn:R; [discriminate|]. destruct (multiple y) eqn:M; [|discriminate]. injection H as <-. split; [exact M|]. exists (rev r).
      rewrite <- (rev_involutive l), R. reflexivity.
Qed.
(** what is offered for an argument *)
Lemma generate_argument d p i depth : db (command p) = Some d -> simple d -> correct db p = p -> path p = [] -> ctx p = In_argument i None ->
  forall a cs, position_definition (d_arguments d) i a -> a_type a = Some (Choice cs) -> (exists x, In x cs /\ fuzzy x (current p) = true) ->
  exists l, generate alphabetic alphanumeric db printable escape_name files commands other fuzzy shell (S depth) p = Some (Found l []) /\
    forall n, In n (map text l) <-> In n cs /\ fuzzy n (current p) = true.
Proof.
  intros D S C P X a cs A T (x & Ix & Fx). cbn [generate]. rewrite C, X. unfold gen_argument. rewrite D, P. cbn [arguments_of].
  apply position_is in A. rewrite A, T. cbn [of_type]. assert (command_argument db p = None) as -> by (unfold command_argument; rewrite D; apply simple_first, S).
  set (l := map _ _). assert (H : forall n, In n (map text l) <-> In n cs /\ fuzzy n (current p) = true).
  { intros n. unfold l. rewrite map_map. cbn [text]. rewrite map_id, filter_In. reflexivity. }
  exists l. split; [|exact H]. destruct l as [|y l']; [|reflexivity]. exfalso. apply (H x). split; assumption.
Qed.

(** behind words that look like subcommands, the argument of a command without subcommands is
    completed by the definition of its position: from a list of choices exactly those that match
    what was typed *)
Theorem C113_argument_position_partial : forall cmd c d ws pre depth a cs,
  word cmd -> ascii cmd -> is_option cmd = false -> is_redirect cmd = false -> resolve cmd = c -> db c = Some d -> dashed d -> simple d -> d_subs d = [] ->
  Forall (fun w => word w /\ ascii w /\ looks_like_sub w = true /\ is_redirect w = false /\ w <> pre) ws ->
  plain pre -> ascii pre -> is_option pre = false -> is_redirect pre = false ->
  position_definition (d_arguments d) (length ws) a -> a_type a = Some (Choice cs) -> (exists x, In x cs /\ fuzzy x pre = true) ->
  let line := line_of (cmd :: ws) pre in
  exists l, complete_at (S depth) line (length line) = Some (Found l []) /\
    forall n, In n (map text l) <-> In n cs /\ fuzzy n pre = true.
Proof.
  intros cmd c d ws pre depth a cs Wc Ac Oc Xc Rc Dc Ds Sd Nd Hw Pp Ap Op Xp A T Ex line.
  assert (Ow : Forall (fun w => is_option w = false) ws).
  { eapply Forall_impl; [|exact Hw]. cbn. intros w (_ & _ & L & _). unfold Comp_Model.looks_like_sub in L. destruct (is_option w); [discriminate L|reflexivity]. }
  assert (Al : ascii line).
  { unfold line, line_of. apply Forall_app. split; [|exact Ap]. apply Forall_flat_map. constructor.
    - apply Forall_app. split; [exact Ac|constructor; [lia|constructor]].
    - eapply Forall_impl; [|exact Hw]. intros w (_ & Aw & _). apply Forall_app. split; [exact Aw|constructor; [lia|constructor]]. }
  unfold Comp_Model.complete_at, collect. rewrite <- (ascii_blen line Al).
  assert (V : forall p r, raw_args p = r -> Forall (fun t => is_option t = false) r -> current p = pre -> value_of_option d p = None) by (intros p r <- F E; apply value_none; [exact Ds|exact F|rewrite E; exact Op]).
  assert (Fin : forall r o, (r = ws ++ [pre] \/ (ws = [] /\ r = [pre])) -> 
     let p := Parsed c [] r pre (Some pre) (In_argument (length ws) None) o r in correct db p = p).
  { intros r o Hr p. assert (Fr : Forall (fun t => is_option t = false) r).
    { destruct Hr as [-> | (_ & ->)]; [apply Forall_app; split; [exact Ow|]|]; constructor; first [exact Op|constructor]. }
    unfold correct. cbn [command p]. rewrite Dc. unfold correct1. rewrite Nd. cbn [path p walk]. fold p. rewrite (V p r eq_refl Fr eq_refl). cbn [ctx p]. fold p.
    assert (combined d p = None) as ->.
    { unfold combined. cbn [raw_args p]. match goal with |- match ?m with _ => _ end = _ => destruct m as [t|] eqn:E; [|reflexivity] end.
      match type of E with match ?i with _ => _ end = _ => destruct i; [|discriminate E] end. apply nth_error_In in E. rewrite Forall_forall in Fr. rewrite (Fr t E). reflexivity. }
    cbn [existsb]. rewrite more_none. cbn [Nat.eqb]. rewrite (V p r eq_refl Fr eq_refl). reflexivity. }
  assert (Cv : exists r o, (r = ws ++ [pre] \/ (ws = [] /\ r = [pre])) /\ convert line (blen line) = Parsed c [] r pre (Some pre) (In_argument (length ws) None) o r).
  { assert (Ww : Forall word ws) by (eapply Forall_impl; [|exact Hw]; cbn; tauto).
    unfold line. rewrite (convert_line alphabetic alphanumeric db resolve cmd ws pre Wc Ww Pp). unfold analyze. rewrite (space_words cmd ws pre Wc).
    assert (Nc : nth (S (length ws)) (cmd :: ws ++ [pre]) [] = pre) by (cbn [nth]; rewrite app_nth2, Nat.sub_diag by lia; reflexivity).
    assert (Np : is_option (nth (S (length ws) - 1) (cmd :: ws ++ [pre]) []) = false /\ is_redirect (nth (S (length ws) - 1) (cmd :: ws ++ [pre]) []) = false).
    { cbn [Nat.sub]. rewrite Nat.sub_0_r. change (cmd :: ws ++ [pre]) with ((cmd :: ws) ++ [pre]). rewrite app_nth1 by (cbn; lia).
      assert (B : Forall (fun w => is_option w = false /\ is_redirect w = false) (cmd :: ws)).
      { constructor; [split; assumption|]. apply Forall_forall. intros w I. rewrite Forall_forall in Hw, Ow. split; [apply Ow, I|apply Hw in I; tauto]. }
      rewrite Forall_forall in B. apply B, nth_In. cbn. lia. }
    destruct Np as (Np & Xn). rewrite Nc. set (prev := nth (S (length ws) - 1) (cmd :: ws ++ [pre]) []) in *. cbn [Nat.eqb].
    assert (Ld : leading alphabetic alphanumeric (ws ++ [pre]) = if looks_like_sub pre then (ws ++ [pre], []) else (ws, [pre])).
    { clear - Hw. induction Hw as [|w ws (_ & _ & L & _) _ IH]; cbn [app leading]; [destruct (looks_like_sub pre); reflexivity|]. rewrite L, IH. destruct (looks_like_sub pre); reflexivity. }
    rewrite Ld.
    assert (G : forall sub args, exists x, (x = In_sub \/ exists i, x = In_argument i None) /\ context_of alphabetic alphanumeric (S (length ws)) pre prev sub args true = x /\ (sub = [] -> x = In_sub \/ x = In_argument (argument_index args pre) None)).
    { intros sub args. eexists. split; [|split; [reflexivity|]]; unfold context_of; rewrite (not_inline pre Op), (not_long pre Op), Op, Np, Xn, Xp; cbn [andb negb]; rewrite andb_false_r.
      - destruct (path_like pre); [right; eexists; reflexivity|]. destruct (match sub with [] => true | _ => _ end); [left; reflexivity|right; eexists; reflexivity].
      - intros ->. destruct (path_like pre); [right|left]; reflexivity. }
    destruct (looks_like_sub pre) eqn:Lp.
    - cbn [classify]. destruct (G (ws ++ [pre]) []) as (x & Hx & Ec & _). exists (ws ++ [pre]), []. split; [left; reflexivity|].
      rewrite Ec, (not_inline pre Op). unfold correct, with_command. cbn [command]. rewrite Rc, Dc. 
      assert (Bad : forall q, path q = ws ++ [pre] -> raw_args q = [] -> current q = pre -> current_arg q = Some pre -> command q = c -> sargs q = [] -> opts q = [] -> ctx q = x ->
        correct1 d q = Parsed c [] (ws ++ [pre]) pre (Some pre) (In_argument (length ws) None) [] (ws ++ [pre])).
      { intros q Q1 Q2 Q3 Q4 Q5 Q6 Q7 Q8. unfold correct1. rewrite Nd, Q1, walk_none.
        assert (Ar : Parsed (command q) [] ((ws ++ [pre]) ++ raw_args q) (current q) (current_arg q)
          (match ctx q with In_short | In_long => ctx q | _ => In_argument (argument_index ((ws ++ [pre]) ++ sargs q) (current q)) None end) (opts q) ((ws ++ [pre]) ++ sargs q) =
          Parsed c [] (ws ++ [pre]) pre (Some pre) (In_argument (length ws) None) [] (ws ++ [pre])).
        { rewrite Q2, Q3, Q4, Q5, Q6, Q7, Q8, !app_nil_r, argument_at. destruct Hx as [-> | (i & ->)]; reflexivity. }
        cbn zeta. destruct (ws ++ [pre]) as [|first more] eqn:E; [destruct ws; discriminate E|]. destruct more as [|m more]; [|exact Ar].
        destruct (str_eqb first (current q)); [|exact Ar]. cbn [existsb andb].
        assert (Of : is_option first = false).
        { assert (B : Forall (fun w => is_option w = false) (ws ++ [pre])) by (apply Forall_app; split; [exact Ow|constructor; [exact Op|constructor]]). rewrite E in B. inversion B; assumption. }
        rewrite Of. exact Ar. }
      destruct x; apply Bad; reflexivity.
    - assert (Ec : classify false [pre] = ([], [pre])) by (cbn [classify]; rewrite Xp, Op; reflexivity). rewrite Ec.
      destruct (G ws [pre]) as (x & Hx & Ecx & H0). exists (ws ++ [pre]), []. split; [left; reflexivity|].
      rewrite Ecx, (not_inline pre Op). unfold correct, with_command. cbn [command]. rewrite Rc, Dc.
      assert (Main : forall q, path q = ws -> raw_args q = [pre] -> current q = pre -> current_arg q = Some pre -> command q = c -> sargs q = [pre] -> opts q = [] -> ctx q = x ->
        correct1 d q = Parsed c [] (ws ++ [pre]) pre (Some pre) (In_argument (length ws) None) [] (ws ++ [pre])).
      { intros q Q1 Q2 Q3 Q4 Q5 Q6 Q7 Q8. unfold correct1. rewrite Nd, Q1, walk_none.
        destruct ws as [|w ws'].
        - assert (Eq : with_context (In_argument 0 None) q = Parsed c [] [pre] pre (Some pre) (In_argument 0 None) [] [pre]) by (unfold with_context; rewrite Q1, Q2, Q3, Q4, Q5, Q6, Q7; reflexivity).
          assert (Fq : Forall (fun t => is_option t = false) [pre]) by (constructor; [exact Op|constructor]). rewrite (V q [pre] Q2 Fq Q3), Q8.
          assert (Hx0 : argument_index [pre] pre = 0) by (apply (argument_at [] pre)). specialize (H0 eq_refl). rewrite Hx0 in H0. destruct H0 as [-> | ->]; [exact Eq|].
          assert (combined d q = None) as -> by (unfold combined; rewrite Q2, Q3; destruct pre; cbn [length Nat.leb Nat.sub nth_error]; [reflexivity|reflexivity]).
          cbn [existsb]. rewrite more_none. cbn [Nat.eqb]. rewrite (V q [pre] Q2 Fq Q3). refine (eq_trans _ Eq). destruct q; cbn in *; subst; reflexivity.
        - assert (Ar : Parsed (command q) [] ((w :: ws') ++ raw_args q) (current q) (current_arg q)
          (match ctx q with In_short | In_long => ctx q | _ => In_argument (argument_index ((w :: ws') ++ sargs q) (current q)) None end) (opts q) ((w :: ws') ++ sargs q) =
          Parsed c [] ((w :: ws') ++ [pre]) pre (Some pre) (In_argument (length (w :: ws')) None) [] ((w :: ws') ++ [pre])).
          { rewrite Q2, Q3, Q4, Q5, Q6, Q7, Q8, argument_at. destruct Hx as [-> | (i & ->)]; reflexivity. }
          cbn zeta. destruct ws' as [|w' ws'']; [|exact Ar]. inversion Hw as [|? ? (_ & _ & _ & _ & Nw) _]; subst. assert (str_eqb w (current q) = false) as -> by (apply str_eqb_neq; exact Nw). exact Ar. }
      destruct x; apply Main; reflexivity. }
  destruct Cv as (r & o & Hr & Cv). rewrite Cv. cbn [ctx]. apply (generate_argument d (Parsed c [] r pre (Some pre) (In_argument (length ws) None) o r) (length ws) depth Dc Sd (Fin r o Hr) eq_refl eq_refl a cs A T Ex).
Qed.
(** behind a word that does not look like a subcommand - a path, a name with a dot, [file] - the
    second argument is completed as if it were the first *)
Theorem C113_argument_position_refuted : forall cmd c d w depth a cs,
  word cmd -> resolve cmd = c -> db c = Some d -> dashed d -> simple d -> d_subs d = [] ->
  word w -> looks_like_sub w = false -> is_option w = false -> is_redirect w = false ->
  position_definition (d_arguments d) 0 a -> a_type a = Some (Choice cs) -> (exists x, In x cs /\ fuzzy x [] = true) ->
  let line := line_of [cmd; w] [] in
  exists l, complete_at (S depth) line (blen line) = Some (Found l []) /\
    forall n, In n (map text l) <-> In n cs /\ fuzzy n [] = true.
Proof.
  intros cmd c d w depth a cs Wc Rc Dc Ds Sd Nd Ww Lw Ow Xw A T Ex line.
  set (p0 := Parsed c [] [w; []] [] (Some []) In_sub [] [w; []]). set (p := Parsed c [] [w; []] [] (Some []) (In_argument 0 None) [] [w; []]).
  assert (V : forall q, raw_args q = [w; []] -> current q = [] -> value_of_option d q = None).
  { intros q Q1 Q2. apply value_none; [exact Ds|rewrite Q1; constructor; [exact Ow|constructor; [reflexivity|constructor]]|rewrite Q2; reflexivity]. }
  assert (C0 : correct db p0 = p).
  { unfold correct. cbn [command p0]. rewrite Dc. unfold correct1. rewrite Nd. cbn [path p0 walk]. fold p0. rewrite (V p0 eq_refl eq_refl). reflexivity. }
  assert (C1 : correct db p = p).
  { unfold correct. cbn [command p]. rewrite Dc. unfold correct1. rewrite Nd. cbn [path p walk]. fold p. rewrite (V p eq_refl eq_refl). cbn [ctx p]. fold p.
    assert (combined d p = None) as -> by reflexivity. cbn [existsb]. rewrite more_none. cbn [Nat.eqb]. rewrite (V p eq_refl eq_refl). reflexivity. }
  assert (Cv : convert line (blen line) = p).
  { unfold line. rewrite (convert_line alphabetic alphanumeric db resolve cmd [w] []); [|exact Wc|constructor; [exact Ww|constructor]|constructor]. rewrite <- C0. f_equal.
    unfold analyze. rewrite (space_words cmd [w] [] Wc). cbn [app leading]. rewrite Lw.
    assert (Ec : classify false [w; []] = ([], [w; []])) by (cbn [classify]; rewrite Xw, Ow; reflexivity).
    match goal with |- context [classify false ?l] => change (classify false l) with (classify false [w; []]) end. rewrite Ec. cbn [length Nat.eqb nth Nat.sub]. unfold context_of.
    change (split_inline []) with (@None (str * str)). change (is_long []) with false. change (is_option []) with false. rewrite Ow, Xw. cbn [andb Nat.eqb].
    change (is_redirect []) with false. change (path_like []) with false. unfold with_command, p0. cbn. rewrite Rc. reflexivity. }
  unfold Comp_Model.complete_at, collect. rewrite Cv. cbn [ctx p]. fold p. apply (generate_argument d p 0 depth Dc Sd C1 eq_refl eq_refl a cs A T Ex).
Qed.
End C113.

(** ** Examples *)
Definition go : definition :=
  Definition_ [Sub (lit "build") [] [Coption None (Some (lit "-race")) false None None; Coption (Some (lit "-o")) (Some (lit "--output")) false None None] [] []]
    [Coption (Some (lit "-v")) (Some (lit "--verbose")) false None None] [].
Definition unit_ : definition :=
  Definition_ [] [] [Argument false (Some (Choice [lit "start"; lit "stop"])); Argument true (Some (Choice [lit "sshd"; lit "cron"]))].
Definition go_db (c : str) : option definition :=
  if str_eqb c (lit "go") then Some go else if str_eqb c (lit "service") then Some unit_ else None.
Definition go_complete (line : string) : option (list str) :=
  match complete_at ascii_letter (fun c => ascii_letter c || is_digit c) go_db (fun _ => true) (fun _ => lit "n") (fun _ => []) (fun _ => []) (fun _ _ => [])
    (fun t p => starts_with p t) (fun s => s) (fun c => c) 5 (lit line) (String.length line) with
  | Some (Found l _) => Some (map text l)
  | _ => None
  end.
Example C108_example :
  go_complete "go build -" = Some [lit "--verbose"; lit "-v"; lit "-race"; lit "--output"; lit "-o"] /\
  go_complete "go build --verbose --" = Some [lit "--output"] /\
  go_complete "go --" = Some [lit "--verbose"] /\
  go_complete "go build -r" = Some [].
Proof. vm_compute. auto. Qed.
Example C108_example_hypotheses : follows (d_subs go) [lit "build"] [lit "build"] [] /\ simple go /\ word (lit "build") /\ is_redirect (lit "build") = false.
Proof.
  split; [|split; [|split]]; try reflexivity.
  - apply (f_step (d_subs go) (lit "build") (hd (Sub [] [] [] [] []) (d_subs go)) [] []); [reflexivity|reflexivity|constructor].
  - intros a [].
  - split; [repeat (constructor; [split; [cbn; intuition discriminate|reflexivity]|]); constructor|discriminate].
Qed.
Example C113_example :
  go_complete "service start s" = Some [lit "sshd"] /\
  go_complete "service start sshd cr" = Some [lit "cron"] /\
  go_complete "service stop.sh s" = Some [lit "start"; lit "stop"].
Proof. vm_compute. auto. Qed.
Example C113_example_hypotheses : simple unit_ /\ dashed unit_ /\ position_definition (d_arguments unit_) 2 (Argument true (Some (Choice [lit "sshd"; lit "cron"]))) /\
  looks_like_sub ascii_letter (fun c => ascii_letter c || is_digit c) (lit "start") = true /\
  looks_like_sub ascii_letter (fun c => ascii_letter c || is_digit c) (lit "stop.sh") = false.
Proof.
  split; [|split; [|split; [|split; reflexivity]]].
  - intros a [<- | [<- | []]]; discriminate.
  - intros p o n I. exfalso. unfold available in I. destruct p; destruct I.
  - right. split; [cbn; lia|]. split; [reflexivity|]. exists [Argument false (Some (Choice [lit "start"; lit "stop"]))]. reflexivity.
Qed.
Print Assumptions C108_options_offered_partial.
Print Assumptions C108_single_dash_refuted.
Print Assumptions C113_argument_position_partial.
Print Assumptions C113_argument_position_refuted.
