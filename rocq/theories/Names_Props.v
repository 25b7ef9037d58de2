(** C138 and C139: the tables of aliases and abbreviations. *)
From Coq Require Import Permutation Sorting.Sorted.
From Verif Require Import Editor_Model.
From Verif Require Import Base Env_Model Env_Props Frecency_Model Frecency_Proofs Offer_Spec Names_Model Names_Spec.
From Verif Require Parse_Model Parse_Spec Expand_Model Expand_Spec Expand_Proofs Expand_Props Offer_Model Offer_Props Check_Spec Editor_Spec Editor_Proofs.

(** ** aliases *)
Section Aliases.
Variable alphabetic alphanumeric : char -> bool.
Notation alias_command := (alias_command alphabetic alphanumeric).
Definition named (n : str) : Prop := alias_name (fun c => alphabetic c = true) (fun c => alphanumeric c = true) n.

Lemma cut_at_iff c s a b : cut_at c s = (a, Some b) <-> s = a ++ c :: b /\ ~ In c a.
Proof.
  revert a b. induction s as [|x s IH]; intros a b; cbn [cut_at].
  - split; [discriminate|]. intros [E _]. destruct a; discriminate E.
  - destruct (x =? c)%N eqn:X.
    + apply N.eqb_eq in X as ->. split.
      * intros E. injection E as <- <-. split; [reflexivity|intros []].
      * intros [E H]. destruct a as [|y a]; cbn [app] in E; [injection E as <-; reflexivity|]. injection E as <- _. exfalso. apply H. left. reflexivity.
    + destruct (cut_at c s) as [u v] eqn:Q. split.
      * intros E. injection E as <- ->. destruct (proj1 (IH u b) eq_refl) as [-> H]. split; [reflexivity|]. intros [->|I]; [|exact (H I)]. rewrite N.eqb_refl in X. discriminate X.
      * intros [E H]. destruct a as [|y a]; cbn [app] in E; [injection E as -> _; rewrite N.eqb_refl in X; discriminate X|]. injection E as <- ->.
        assert (P : (u, v) = (a, Some b)) by (apply IH; split; [reflexivity|intros I; apply H; right; exact I]). injection P as -> ->. reflexivity.
Qed.
Lemma cut_once (c : char) (s a b a' b' : str) : s = a ++ c :: b -> ~ In c a -> s = a' ++ c :: b' -> ~ In c a' -> a = a' /\ b = b'.
Proof.
  intros E H E' H'. pose proof (proj2 (cut_at_iff c s a b) (conj E H)) as P. pose proof (proj2 (cut_at_iff c s a' b') (conj E' H')) as P'.
  rewrite P in P'. injection P' as -> ->. auto.
Qed.
Lemma cut_at_none c s : snd (cut_at c s) = None <-> ~ In c s.
Proof.
  induction s as [|x s IH]; cbn [cut_at snd In]; [tauto|]. destruct (x =? c)%N eqn:X.
  - apply N.eqb_eq in X as ->. split; [discriminate|]. intros H. exfalso. apply H. left. reflexivity.
  - apply N.eqb_neq in X. destruct (cut_at c s) as [u v]. cbn [snd] in *. rewrite IH. tauto.
Qed.
Lemma unquotes v : remove_surrounding_quotes v = Offer_Model.unquote v.
Proof.
  unfold remove_surrounding_quotes, Offer_Model.unquote. change (2 <=? blen v) with (1 <? blen v). rewrite andb_comm. reflexivity.
Qed.
Lemma name_iff n : is_valid_alias_name alphabetic alphanumeric n = true <-> named n.
Proof.
  unfold is_valid_alias_name, named, alias_name. destruct n as [|c r]; [split; [discriminate|intros (? & ? & E & _); discriminate E]|].
  rewrite andb_true_iff, orb_true_iff, N.eqb_eq, forallb_forall. split.
  - intros [A B]. exists c, r. split; [reflexivity|]. split; [exact A|]. intros d D. specialize (B d D). rewrite !orb_true_iff, !N.eqb_eq in B. tauto.
  - intros (? & ? & E & A & B). injection E as <- <-. split; [exact A|]. intros d D. specialize (B d D). rewrite !orb_true_iff, !N.eqb_eq. tauto.
Qed.
Lemma nil_iff s : is_nil s = true <-> s = [].
Proof. destruct s; split; intros H; (reflexivity || discriminate H). Qed.
Lemma insert_defined t n c : defined t (insert n c t) n c.
Proof.
  split; [|intros m M]; rewrite assoc_insert; [destruct (str_eq_dec n n); congruence|destruct (str_eq_dec m n); congruence].
Qed.

(** one argument with an equals sign *)
Lemma set_cases t a :
  (exists n c, assignment a n c /\ named n /\ set_alias_from_assignment alphabetic alphanumeric t a = Answer (insert n c t) [] [] 0) \/
  ((forall n c, assignment a n c -> ~ named n) /\ exists e, set_alias_from_assignment alphabetic alphanumeric t a = Answer t [] [e] 1).
Proof.
  unfold set_alias_from_assignment. destruct (cut_at 61%N a) as [l [r|]] eqn:Q.
  - assert (U : forall n c, assignment a n c -> n = trim l /\ trim r <> [] /\ c = remove_surrounding_quotes (trim r)).
    { intros n c (l' & r' & v & E & H & T1 & T2 & N & W). rewrite (proj2 (cut_at_iff 61%N a l' r') (conj E H)) in Q. injection Q as <- <-.
      apply Offer_Props.trim_iff in T1, T2. apply Offer_Props.unquote_iff in W. rewrite unquotes. subst. auto. }
    apply cut_at_iff in Q as [E H]. destruct (is_nil (trim l)) eqn:N1; [right|].
    { split; [|eexists; reflexivity]. intros n c A M. destruct (U n c A) as (-> & _). apply nil_iff in N1. rewrite N1 in M. destruct M as (? & ? & X & _). discriminate X. }
    destruct (is_nil (trim r)) eqn:N2; [right|].
    { split; [|eexists; reflexivity]. intros n c A _. destruct (U n c A) as (_ & X & _). apply X, nil_iff, N2. }
    destruct (is_valid_alias_name alphabetic alphanumeric (trim l)) eqn:V; cbn [negb].
    + left. exists (trim l), (remove_surrounding_quotes (trim r)). split; [|split; [apply name_iff, V|reflexivity]].
      exists l, r, (trim r). split; [exact E|]. split; [exact H|]. split; [apply Offer_Props.trim_iff; reflexivity|]. split; [apply Offer_Props.trim_iff; reflexivity|].
      split; [intros X; apply nil_iff in X; congruence|]. apply Offer_Props.unquote_iff. symmetry. apply unquotes.
    + right. split; [|eexists; reflexivity]. intros n c A M. destruct (U n c A) as (-> & _). apply name_iff in M. congruence.
  - right. split; [|eexists; reflexivity]. intros n c (l' & r' & v & E & H & _) _. rewrite (proj2 (cut_at_iff 61%N a l' r') (conj E H)) in Q. discriminate Q.
Qed.
Lemma assigned a n c : assignment a n c -> In 61%N a.
Proof. intros (l & r & v & -> & _). apply in_or_app. right. left. reflexivity. Qed.

(** C138: an argument n=c makes n stand for c and touches no other name; any other use changes
    nothing *)
Theorem C138_alias_sets : forall t cmd argv,
  (forall a n c, argv = [cmd; a] -> assignment a n c -> named n ->
     let r := alias_command t argv in status r = 0 /\ complaints r = [] /\ defined t (table r) n c) /\
  ((forall a n c, argv = [cmd; a] -> assignment a n c -> ~ named n) -> argv = cmd :: tl argv -> table (alias_command t argv) = t).
Proof.
  intros t cmd argv. split.
  - intros a n c -> A M. cbn [Names_Model.alias_command]. rewrite (proj2 (mem_char_iff 61%N a) (assigned a n c A)).
    destruct (set_cases t a) as [(n' & c' & A' & M' & ->)|[H _]]; [|destruct (H n c A M)].
    assert (E : n' = n /\ c' = c).
    { destruct A as (l & r & v & E & H & T1 & T2 & N & W), A' as (l' & r' & v' & E' & H' & T1' & T2' & N' & W').
      destruct (cut_once 61%N a l r l' r' E H E' H') as [<- <-].
      apply Offer_Props.trim_iff in T1, T2, T1', T2'. apply Offer_Props.unquote_iff in W, W'. subst. auto. }
    destruct E as [-> ->]. cbn. split; [reflexivity|]. split; [reflexivity|]. apply insert_defined.
  - intros H Ec. destruct argv as [|c0 [|a [|b r]]]; try discriminate Ec.
    + cbn. unfold list_all_aliases. destruct t; reflexivity.
    + injection Ec as ->. cbn [Names_Model.alias_command]. destruct (mem_char 61%N a) eqn:M.
      * destruct (set_cases t a) as [(n' & c' & A' & M' & _)|[_ (e & ->)]]; [|reflexivity]. destruct (H a n' c' eq_refl A' M').
      * unfold show_specific_alias. destruct (assoc a t); reflexivity.
    + reflexivity.
Qed.

(** what is shown is what is defined *)
Theorem C138_alias_shows : forall t cmd n, ~ In 61%N n ->
  let r := alias_command t [cmd; n] in table r = t /\
  (forall c, assoc n t = Some c -> told r = [Says (n ++ lit "='" ++ c ++ lit "'")] /\ complaints r = [] /\ status r = 0) /\
  (assoc n t = None -> told r = [] /\ complaints r <> [] /\ status r = 1).
Proof.
  intros t cmd n H. cbn zeta. cbn [Names_Model.alias_command]. destruct (mem_char 61%N n) eqn:M; [apply mem_char_iff in M; contradiction|].
  unfold show_specific_alias. destruct (assoc n t) as [c|]; cbn; split; try reflexivity; (split; [|intros X; try discriminate X]).
  - intros c' E. injection E as <-. auto.
  - intros c' E. discriminate E.
  - split; [reflexivity|]. split; [discriminate|reflexivity].
Qed.
(** the list has every alias once, in the order of the names *)
Theorem C138_alias_lists : forall t cmd, t <> [] -> NoDup (map fst t) ->
  exists rows, told (alias_command t [cmd]) = [Rows rows] /\ table (alias_command t [cmd]) = t /\ status (alias_command t [cmd]) = 0 /\
    (forall n c, In (n, c) rows <-> assoc n t = Some c) /\ length rows = length t /\ StronglySorted (fun a b => str_cmp (fst a) (fst b) = Lt) rows.
Proof.
  intros t cmd N D. exists (sort name_leb t). cbn. unfold list_all_aliases. destruct t as [|p t']; [congruence|]. set (t := p :: t') in *.
  split; [reflexivity|]. split; [reflexivity|]. split; [reflexivity|]. pose proof (sort_perm name_leb t) as P. split; [|split].
  - intros n c. split.
    + intros I. apply in_assoc; [exact D|]. eapply Permutation_in; [symmetry; exact P|exact I].
    + intros E. eapply Permutation_in; [exact P|]. apply assoc_in, E.
  - symmetry. apply Permutation_length, P.
  - assert (O : ordered name_leb (sort name_leb t)).
    { apply sort_ordered; unfold name_leb.
      - intros x y. destruct (str_cmp (fst x) (fst y)) eqn:C; try discriminate. intros _. apply str_cmp_gt in C. rewrite C. reflexivity.
      - intros x y z. destruct (str_cmp (fst x) (fst y)) eqn:C1; try discriminate; destruct (str_cmp (fst y) (fst z)) eqn:C2; try discriminate; intros _ _.
        + apply str_cmp_eq in C1, C2. rewrite C1, C2, str_cmp_refl. reflexivity.
        + apply str_cmp_eq in C1. rewrite C1, C2. reflexivity.
        + apply str_cmp_eq in C2. rewrite <- C2, C1. reflexivity.
        + assert (L : str_cmp (fst x) (fst z) = Lt) by (eapply str_lt_trans; [exact C1|exact C2]). rewrite L. reflexivity. }
    assert (D' : NoDup (map fst (sort name_leb t))) by (eapply Permutation_NoDup; [apply Permutation_map; exact P|exact D]).
    revert O D'. generalize (sort name_leb t). induction l as [|x l IH]; intros O D'; [constructor|]. destruct O as [O1 O2]. inversion D' as [|? ? Nx D2]; subst.
    constructor; [apply IH; assumption|]. apply Forall_forall. intros y Y. specialize (O1 y Y). unfold name_leb in O1.
    destruct (str_cmp (fst x) (fst y)) eqn:C; [|reflexivity|discriminate O1]. apply str_cmp_eq in C. exfalso. apply Nx. rewrite C. apply in_map, Y.
Qed.

(** ** any sequence of alias commands *)
Definition alias_run (h : list (list str)) : map_ := fold_left (fun t argv => table (alias_command t argv)) h [].
Definition sets (argv : list str) (n c : str) : Prop := exists cmd a, argv = [cmd; a] /\ assignment a n c /\ named n.
Lemma alias_step t argv n :
  (exists c, sets argv n c /\ assoc n (table (alias_command t argv)) = Some c) \/
  ((forall c, ~ sets argv n c) /\ assoc n (table (alias_command t argv)) = assoc n t).
Proof.
  destruct argv as [|cmd [|a [|b r]]].
  - right. split; [intros c (? & ? & E & _); discriminate E|reflexivity].
  - right. split; [intros c (? & ? & E & _); discriminate E|]. cbn. unfold list_all_aliases. destruct t; reflexivity.
  - cbn [Names_Model.alias_command]. destruct (mem_char 61%N a) eqn:M.
    + destruct (set_cases t a) as [(n' & c' & A & Nm & ->)|[H (e & ->)]].
      * destruct (C138_alias_sets t cmd [cmd; a]) as [K _]. destruct (str_eq_dec n n') as [->|D].
        -- left. exists c'. split; [exists cmd, a; auto|]. cbn [table]. apply (insert_defined t n' c').
        -- right. split; [|cbn [table]; apply (insert_defined t n' c'), D]. intros c (cmd' & a' & E & A' & M'). injection E as <- <-. apply D.
           pose proof (K a n c eq_refl A' M') as (_ & _ & P1 & P2). pose proof (K a n' c' eq_refl A Nm) as (_ & _ & Q1 & _).
           destruct A as (l1 & r1 & v1 & E1 & H1 & T1 & _), A' as (l2 & r2 & v2 & E2 & H2 & T2 & _).
           destruct (cut_once 61%N a l1 r1 l2 r2 E1 H1 E2 H2) as [<- <-].
           apply Offer_Props.trim_iff in T1, T2. congruence.
      * right. split; [|reflexivity]. intros c (cmd' & a' & E & A' & M'). injection E as <- <-. exact (H n c A' M').
    + right. split; [|unfold show_specific_alias; destruct (assoc a t); reflexivity]. intros c (cmd' & a' & E & A' & M'). injection E as <- <-.
      apply assigned in A'. apply mem_char_iff in A'. congruence.
  - right. split; [intros c (? & ? & E & _); discriminate E|reflexivity].
Qed.
Theorem C138_alias_history : forall h n c, assoc n (alias_run h) = Some c <-> stands sets (fun _ _ => False) h n c.
Proof.
  intros h. induction h as [|argv h IH] using rev_ind; intros n c.
  - split; [discriminate|]. intros (b & x & a & E & _). destruct b; discriminate E.
  - unfold alias_run. rewrite fold_left_app. cbn [fold_left]. fold (alias_run h). destruct (alias_step (alias_run h) argv n) as [(c' & A & ->)|[A ->]].
    + split.
      * intros E. injection E as ->. exists h, argv, []. split; [reflexivity|]. split; [exact A|intros d []].
      * intros (b & x & a & E & Sx & H). destruct a as [|y a] using rev_ind.
        -- apply app_inj_tail in E as [<- <-]. f_equal. destruct A as (k & w & E & A & M), Sx as (k' & w' & E' & A' & M'). rewrite E in E'. injection E' as <- <-.
           destruct (C138_alias_sets [] k argv) as [K _]. pose proof (K _ _ _ E A M) as (_ & _ & P & _). pose proof (K _ _ _ E A' M') as (_ & _ & Q & _). congruence.
        -- assert (Y : y = argv) by (rewrite app_comm_cons, app_assoc in E; apply app_inj_tail in E as [_ E]; auto). subst y.
           destruct (H argv) as [F _]; [apply in_or_app; right; left; reflexivity|]. destruct (F c' A).
    + rewrite IH. split.
      * intros (b & x & a & -> & Sx & H). exists b, x, (a ++ [argv]). split; [rewrite <- app_assoc; reflexivity|]. split; [exact Sx|].
        intros d D. apply in_app_or in D as [D|[<-|[]]]; [apply H, D|]. split; [exact A|intros []].
      * intros (b & x & a & E & Sx & H). destruct a as [|y a] using rev_ind; [apply app_inj_tail in E as [_ ->]; destruct (A c Sx)|].
        rewrite app_comm_cons, app_assoc in E. apply app_inj_tail in E as [-> ->]. exists b, x, a. split; [reflexivity|]. split; [exact Sx|].
        intros d D. apply H, in_or_app. left. exact D.
Qed.
(** the error text says that unalias removes an alias; there is no such command, and no sequence
    of alias commands removes one *)
Theorem C138_alias_removable_refuted : forall h more n c, stands sets (fun _ _ => False) h n c -> exists c', assoc n (alias_run (h ++ more)) = Some c'.
Proof.
  intros h more n c H. apply C138_alias_history in H. unfold alias_run. rewrite fold_left_app. fold (alias_run h). revert c H. generalize (alias_run h).
  induction more as [|argv more IH]; intros t c H; cbn [fold_left]; [eauto|].
  destruct (alias_step t argv n) as [(c' & _ & E)|[_ E]]; [exact (IH _ c' E)|]. rewrite H in E. exact (IH _ c E).
Qed.

(** ** what is printed, given back *)
(** no letter or digit is white space or an equals sign *)
Definition tables_ok : Prop := forall c, alphabetic c = true \/ alphanumeric c = true -> is_whitespace c = false /\ c <> 61%N.
Lemma named_clean n : tables_ok -> named n -> forall c, In c n -> is_whitespace c = false /\ c <> 61%N.
Proof.
  intros T (c & r & -> & A & B) d [<-|D].
  - destruct A as [A| ->]; [apply T; left; exact A|split; [reflexivity|discriminate]].
  - destruct (B d D) as [X|[->| ->]]; [apply T; right; exact X|split; [reflexivity|discriminate]..].
Qed.
Lemma trimmed_self t : (forall c, In c t -> is_whitespace c = false) -> trimmed t t.
Proof.
  intros H. exists [], []. rewrite app_nil_r. split; [reflexivity|]. split; [intros ? []|]. split; [intros ? []|].
  split; intros c u ->; apply H; [left; reflexivity|apply in_or_app; right; left; reflexivity].
Qed.
Lemma quoted_trimmed c : trimmed (lit "'" ++ c ++ lit "'") (lit "'" ++ c ++ lit "'").
Proof.
  exists [], []. rewrite app_nil_r. split; [reflexivity|]. split; [intros ? []|]. split; [intros ? []|]. split.
  - intros d u E. change (lit "'" ++ c ++ lit "'") with (39%N :: c ++ lit "'") in E. injection E as <- _. reflexivity.
  - intros d u E. rewrite app_assoc in E. change (lit "'") with [39%N] in E. apply app_inj_tail in E as [_ <-]. reflexivity.
Qed.
Lemma printed_assignment n c : tables_ok -> named n -> assignment (n ++ lit "='" ++ c ++ lit "'") n c.
Proof.
  intros T M. exists n, (lit "'" ++ c ++ lit "'"), (lit "'" ++ c ++ lit "'"). split; [reflexivity|].
  split; [intros I; destruct (named_clean n T M _ I) as [_ X]; apply X; reflexivity|].
  split; [apply trimmed_self; intros d D; apply (named_clean n T M d D)|]. split; [apply quoted_trimmed|]. split; [discriminate|].
  left. exists 39%N. split; [right; reflexivity|]. reflexivity.
Qed.
Theorem C138_printed_form_reads_back : forall t t' cmd n c, tables_ok -> named n -> assoc n t = Some c ->
  exists text, told (alias_command t [cmd; n]) = [Says text] /\ status (alias_command t' [cmd; text]) = 0 /\ defined t' (table (alias_command t' [cmd; text])) n c.
Proof.
  intros t t' cmd n c T M E. exists (n ++ lit "='" ++ c ++ lit "'").
  assert (H : ~ In 61%N n) by (intros I; destruct (named_clean n T M _ I) as [_ X]; apply X; reflexivity).
  destruct (C138_alias_shows t cmd n H) as (_ & S1 & _). destruct (S1 c E) as [S2 _]. split; [exact S2|].
  destruct (C138_alias_sets t' cmd [cmd; n ++ lit "='" ++ c ++ lit "'"]) as [K _].
  destruct (K _ n c eq_refl (printed_assignment n c T M) M) as (A & _ & B). auto.
Qed.
End Aliases.
Print Assumptions C138_alias_sets.
Print Assumptions C138_alias_shows.
Print Assumptions C138_alias_lists.
Print Assumptions C138_alias_history.
Print Assumptions C138_alias_removable_refuted.
Print Assumptions C138_printed_form_reads_back.

(** ** the line that is typed *)
Section Typed.
Import Parse_Model Parse_Spec Expand_Model Expand_Spec Expand_Proofs Expand_Props.
Variable alphabetic alphanumeric : char -> bool.
Notation alias_command := (alias_command alphabetic alphanumeric).
Notation named := (named alphabetic alphanumeric).
Variable home : option str.
Variable glob : str -> list str.
Variable e : env.
Variable resolve : str -> found.
Variable substitute : subshell_type -> list job -> list str.
Notation runs := (fun al => get_jobs home glob al e resolve substitute).
(** no variable is called like one of these texts, or like an operator *)
Definition no_variable (l : list str) : Prop := forall t, In t (l ++ operators) -> get_var e t = None.

Lemma one_command al c c' : valid_cmd c -> tame_cmd home al (get_var e) c -> (forall o, In o operators -> get_var e o = None) ->
  cmd_value home al (get_var e) c c' -> known resolve c' ->
  exists j, runs al (typed_cmd c) = Some [j] /\ procs j = [process_for resolve c'] /\ foreground j = true.
Proof.
  intros V T O Cv K. destruct (C63_expansion_keeps_the_line_partial home glob al e resolve substitute (Segment [] [c], []) (Segment [] [c'], [])) as (js & J & M).
  - split; [|exact Logic.I]. split; [constructor; [exact V|constructor]|split; [discriminate|constructor]].
  - split; [cbn; constructor; [exact T|constructor]|]. split; [split; [constructor|exact Logic.I]|exact O].
  - split; [split; [constructor|constructor; [exact Cv|constructor]]|constructor].
  - constructor; [exact K|constructor].
  - assert (E : typed_line (Segment [] [c], []) = typed_cmd c) by (unfold typed_line, typed_segment; cbn; apply app_nil_r). rewrite E in J.
    cbn in M. destruct js as [|j [|? ?]]; try discriminate. injection M as Hp Hf _ _. exists j. auto.
Qed.
Lemma plain_typed t : typed_word (plain_word t) = t.
Proof. pose proof (typed_plain t []) as P. rewrite !app_nil_r in P. exact P. Qed.
Lemma plain_meaning t : meaning (plain_word t) = t.
Proof. unfold meaning, plain_word. rewrite map_map. apply map_id. Qed.
Definition bits (t : str) : list (bool * char) := map (fun c : char => (false, c)) t.
Lemma no_tilde t : hd 0%N t <> 126%N -> tilde_word (bits t) = None.
Proof. destruct t as [|c t]; [reflexivity|]. cbn [hd bits map tilde_word]. intros H. apply N.eqb_neq in H. rewrite H. reflexivity. Qed.
Lemma tame_plain t : get_var e t = None -> hd 0%N t <> 126%N -> tame_word home (get_var e) (plain_word t).
Proof.
  intros G H. change (plain_word t) with (Bare (bits t)). cbn [tame_word tilde_text]. rewrite (no_tilde t H).
  change (Bare (bits t)) with (plain_word t). rewrite plain_typed. auto.
Qed.
Lemma value_plain t : hd 0%N t <> 126%N -> value home (get_var e) (plain_word t) = t.
Proof. intros H. change (plain_word t) with (Bare (bits t)). cbn [value]. rewrite (no_tilde t H). exact (plain_meaning t). Qed.
Definition alias_word : word := plain_word (lit "alias").
Lemma alias_name_tame al its : get_var e (lit "alias") = None -> assoc (lit "alias") al = None -> Forall (tame_item home (get_var e)) its ->
  tame_cmd home al (get_var e) (CmdLine [] alias_word its []) /\
  cmd_value home al (get_var e) (CmdLine [] alias_word its []) (CmdLine [] (literal (lit "alias")) (map (item_value home (get_var e)) its) []).
Proof.
  intros G A T. assert (Q : alias_of home al (get_var e) alias_word = None) by (unfold alias_of, alias_word, plain_word; cbn; exact A). split.
  - split; [|exact T]. unfold tame_name. cbn [name]. rewrite Q. split; [apply tame_plain; [exact G|discriminate]|]. split; [exact A|reflexivity].
  - exact (plain_value home al (get_var e) (CmdLine [] alias_word its []) Q).
Qed.
Lemma alias_valid its : Forall valid_item its -> valid_cmd (CmdLine [] alias_word its []).
Proof. intros V. split; [reflexivity|]. split; [reflexivity|]. split; [apply plain_valid; [discriminate|reflexivity]|exact V]. Qed.
Lemma alias_known its : resolve (lit "alias") = IsBuiltin -> known resolve (CmdLine [] (literal (lit "alias")) its []).
Proof. intros R. split; [discriminate|]. change (meaning _) with (lit "alias"). cbn [name]. change (meaning (literal (lit "alias"))) with (lit "alias"). rewrite R. exact Logic.I. Qed.
Lemma alias_process its : resolve (lit "alias") = IsBuiltin ->
  process_for resolve (CmdLine [] (literal (lit "alias")) its []) = Builtin (lit "alias") (argv (CmdLine [] (literal (lit "alias")) its [])).
Proof. intros R. unfold process_for. cbn [name]. change (meaning (literal (lit "alias"))) with (lit "alias"). rewrite R. reflexivity. Qed.

(** typing the form alias itself prints is an error: the quoted part is an argument of its own *)
Theorem C138_printed_form_typed_refuted : forall al t n c,
  n <> [] -> forallb ordinary n = true -> hd 0%N n <> 126%N -> valid_word (Single c) ->
  resolve (lit "alias") = IsBuiltin -> assoc (lit "alias") al = None ->
  no_variable [lit "alias"; n ++ lit "="; lit "'" ++ c ++ lit "'"] ->
  exists j args, runs al (lit "alias " ++ n ++ lit "='" ++ c ++ lit "'") = Some [j] /\ procs j = [Builtin (lit "alias") args] /\
    args = [lit "alias"; n ++ lit "="; c] /\ table (alias_command t args) = t /\ status (alias_command t args) = 1.
Proof.
  intros al t n c N On Hn V R A G. set (its := [Arg (lit " ") (plain_word (n ++ lit "=")); Arg [] (Single c)]).
  assert (Hd : hd 0%N (n ++ lit "=") <> 126%N) by (destruct n; [congruence|exact Hn]).
  destruct (alias_name_tame al its) as [T Cv]; [apply G; left; reflexivity|exact A| |].
  { constructor; [|constructor; [|constructor]].
    - apply tame_plain; [apply G; right; left; reflexivity|exact Hd].
    - cbn [tame_item tame_word]. apply G. right. right. left. reflexivity. }
  destruct (one_command al (CmdLine [] alias_word its []) (CmdLine [] (literal (lit "alias")) (map (item_value home (get_var e)) its) [])) as (j & J & P & _).
  - apply alias_valid. constructor; [|constructor; [|constructor]].
    + split; [reflexivity|]. split; [left; discriminate|]. apply plain_valid; [destruct n; discriminate|]. rewrite forallb_app, On. reflexivity.
    + split; [reflexivity|]. split; [right; exact Logic.I|exact V].
  - exact T.
  - intros o O. apply G, in_or_app. right. exact O.
  - exact Cv.
  - apply alias_known, R.
  - rewrite alias_process in P by exact R. exists j. eexists. split; [|split; [exact P|]].
    + rewrite <- J. f_equal. unfold typed_cmd, its. cbn [lead name items trail flat_map typed_item app]. rewrite plain_typed, !app_nil_r. unfold alias_word. rewrite plain_typed.
      cbn [typed_word]. rewrite <- !app_assoc. reflexivity.
    + unfold argv. cbn [name items its map item_value flat_map app]. rewrite value_plain by exact Hd. rewrite !snd_literal. cbn [value].
      split; [reflexivity|]. split; reflexivity.
Qed.

(** typed with the whole argument in quotes it defines the alias, and from then on the name runs
    the command, followed by the arguments typed behind the name *)
Theorem C138_typed_alias_runs_partial : forall al n c w its more,
  named n -> forallb ordinary n = true -> hd 0%N n <> 126%N -> (forall d, In d n -> is_whitespace d = false /\ d <> 61%N) ->
  valid_word (Single (n ++ lit "=" ++ c)) -> (forall u, ~ quoted_pair c u) -> trimmed c c ->
  (* the command is a word [w] and arguments [its] *)
  c = typed_word w ++ flat_map typed_item its -> valid_word w -> Forall valid_item its ->
  Forall valid_item more -> Forall (tame_item home (get_var e)) more ->
  resolve (lit "alias") = IsBuiltin -> assoc (lit "alias") al = None ->
  no_variable [lit "alias"; lit "'" ++ n ++ lit "=" ++ c ++ lit "'"; c] ->
  let result := CmdLine [] w (its ++ map (item_value home (get_var e)) more) [] in known resolve result ->
  exists j args, runs al (lit "alias '" ++ n ++ lit "=" ++ c ++ lit "'") = Some [j] /\ procs j = [Builtin (lit "alias") args] /\
    let al' := table (alias_command al args) in
    defined al al' n c /\ status (alias_command al args) = 0 /\
    exists j', runs al' (n ++ flat_map typed_item more) = Some [j'] /\ procs j' = [process_for resolve result] /\ foreground j' = true.
Proof.
  intros al n c w its more M On Hn Cl V U Tc Ec Vw Vi Vm Tm R A G result K.
  assert (Nn : n <> []) by (destruct M as (? & ? & -> & _); discriminate).
  destruct (alias_name_tame al [Arg (lit " ") (Single (n ++ lit "=" ++ c))]) as [T Cv]; [apply G; left; reflexivity|exact A| |].
  { constructor; [|constructor]. cbn [tame_item tame_word]. apply G. right. left. cbn [typed_word app]. rewrite <- !app_assoc. reflexivity. }
  destruct (one_command al (CmdLine [] alias_word [Arg (lit " ") (Single (n ++ lit "=" ++ c))] [])
     (CmdLine [] (literal (lit "alias")) (map (item_value home (get_var e)) [Arg (lit " ") (Single (n ++ lit "=" ++ c))]) [])) as (j & J & P & _); [|exact T| |exact Cv| |].
  - apply alias_valid. constructor; [|constructor]. split; [reflexivity|]. split; [left; discriminate|exact V].
  - intros o O. apply G, in_or_app. right. exact O.
  - apply alias_known, R.
  - rewrite alias_process in P by exact R. exists j. eexists. split; [|split; [exact P|]].
    + rewrite <- J. f_equal. unfold typed_cmd. cbn [lead name items trail flat_map typed_item app]. rewrite !app_nil_r. unfold alias_word. rewrite plain_typed.
      cbn [typed_word]. rewrite <- !app_assoc. reflexivity.
    + unfold argv. cbn [name items map item_value flat_map app]. rewrite !snd_literal. cbn [value]. cbn zeta.
      assert (As : assignment (n ++ lit "=" ++ c) n c).
      { exists n, c, c. split; [reflexivity|]. split; [intros I; apply (Cl _ I); reflexivity|]. split; [apply trimmed_self; intros d D; apply (Cl d D)|].
        split; [exact Tc|]. split; [|right; split; [exact U|reflexivity]]. intros ->. destruct w; try discriminate Ec. destruct l as [|[[] ?] ?]; try discriminate Ec. destruct Vw as [Vw _]. apply Vw. reflexivity. }
      destruct (C138_alias_sets alphabetic alphanumeric al (lit "alias") [lit "alias"; n ++ lit "=" ++ c]) as [S _].
      destruct (S _ n c eq_refl As M) as (S1 & _ & S3). split; [exact S3|]. split; [exact S1|].
      set (al' := table _) in *.
      assert (Q : alias_of home al' (get_var e) (plain_word n) = Some c).
      { assert (X : forall l : str, forallb (fun bc : bool * char => negb (fst bc)) (bits l) = true) by (induction l; [reflexivity|assumption]).
        change (plain_word n) with (Bare (bits n)). cbn [alias_of]. rewrite X. change (Bare (bits n)) with (plain_word n). rewrite value_plain by exact Hn. apply S3. }
      assert (Tr : trim c = c) by (apply Offer_Props.trim_iff; exact Tc).
      destruct (one_command al' (CmdLine [] (plain_word n) more []) result) as (j' & J' & P' & F').
      * split; [reflexivity|]. split; [reflexivity|]. split; [apply plain_valid; assumption|exact Vm].
      * split; [|exact Tm]. unfold tame_name. cbn [name]. rewrite Q, Tr. apply G. right. right. left. reflexivity.
      * intros o O. apply G, in_or_app. right. exact O.
      * apply (alias_value home al' (get_var e) (CmdLine [] (plain_word n) more []) c w its Q); [rewrite Tr; exact Ec|exact Vw|exact Vi].
      * exact K.
      * exists j'. split; [|split; assumption]. rewrite <- J'. f_equal. unfold typed_cmd. cbn [lead name items trail app]. rewrite plain_typed, app_nil_r. reflexivity.
Qed.
End Typed.
Print Assumptions C138_printed_form_typed_refuted.
Print Assumptions C138_typed_alias_runs_partial.

(** the hypotheses are met: ASCII letters, the alias ll='ls -l', and then ll /tmp *)
Definition letter (c : char) : bool := ((65 <=? c) && (c <=? 90) || (97 <=? c) && (c <=? 122))%N%bool.
Definition letter_or_digit (c : char) : bool := (letter c || (48 <=? c) && (c <=? 57))%N%bool.
Example C138_tables : tables_ok letter letter_or_digit.
Proof.
  intros c H. assert (L : (48 <= c <= 122 /\ c <> 61)%N).
  { unfold letter_or_digit, letter in H. rewrite !orb_true_iff, !andb_true_iff, !N.leb_le in H. lia. }
  split; [|lia]. unfold is_whitespace. apply not_true_is_false. intros W. rewrite !orb_true_iff, ?andb_true_iff, ?N.leb_le, ?N.eqb_eq in W. lia.
Qed.
Example C138_example :
  named letter letter_or_digit (lit "ll") /\ assignment (lit "ll=ls -l") (lit "ll") (lit "ls -l") /\
  table (alias_command letter letter_or_digit [] [lit "alias"; lit " ll = 'ls -l' "]) = [(lit "ll", lit "ls -l")] /\
  told (alias_command letter letter_or_digit [(lit "ll", lit "ls -l"); (lit "g", lit "git")] [lit "alias"]) = [Rows [(lit "g", lit "git"); (lit "ll", lit "ls -l")]] /\
  status (alias_command letter letter_or_digit [] [lit "alias"; lit "2x=ls"]) = 1 /\ status (alias_command letter letter_or_digit [] [lit "alias"; lit "x="]) = 1.
Proof.
  split; [exists 108%N, [108%N]; split; [reflexivity|]; split; [left; reflexivity|intros d [<-|[]]; left; reflexivity]|]. split; [|repeat split; vm_compute; reflexivity].
  exists (lit "ll"), (lit "ls -l"), (lit "ls -l"). split; [reflexivity|].
  split; [intros H; cbn in H; repeat (destruct H as [H|H]; [discriminate H|]); exact H|]. split; [apply Offer_Props.trim_iff; reflexivity|].
  split; [apply Offer_Props.trim_iff; reflexivity|]. split; [discriminate|]. apply Offer_Props.unquote_iff. reflexivity.
Qed.
Example C138_typed_example :
  let e := Expand_Props.some_env in let w s := Expand_Spec.plain_word (lit s) in
  Parse_Spec.valid_word (Parse_Spec.Single (lit "ll=ls -l")) /\ (forall u, ~ quoted_pair (lit "ls -l") u) /\ trimmed (lit "ls -l") (lit "ls -l") /\
  lit "ls -l" = Parse_Spec.typed_word (w "ls") ++ flat_map Parse_Spec.typed_item [Parse_Spec.Arg (lit " ") (w "-l")] /\
  no_variable e [lit "alias"; lit "'ll=ls -l'"; lit "ls -l"] /\ no_variable e [lit "alias"; lit "ll="; lit "'ls -l'"].
Proof.
  cbn zeta. split.
  { split; [|reflexivity]. intros H. cbn in H. repeat (destruct H as [H|H]; [discriminate H|]). exact H. }
  split; [intros u H; assert (Q : Offer_Model.unquote (lit "ls -l") = u) by (apply Offer_Props.unquote_iff; left; exact H); vm_compute in Q; subst u; destruct H as (d & [->| ->] & H); discriminate H|].
  split; [apply Offer_Props.trim_iff; reflexivity|]. split; [reflexivity|].
  split; intros t H; cbn in H; repeat (destruct H as [<-|H]; [vm_compute; reflexivity|]); destruct H.
Qed.

(** ** abbreviations *)
Lemma remove_forgotten t n : forgotten t (remove n t) n.
Proof. split; [|intros m M]; rewrite assoc_remove; [destruct (str_eq_dec n n)|destruct (str_eq_dec m n)]; congruence. Qed.
Lemma is_add_iff o : is_add o = true <-> o = lit "-a" \/ o = lit "--add".
Proof. unfold is_add. rewrite orb_true_iff, !str_eqb_eq. reflexivity. Qed.
Lemma abbr_name_iff n : is_nil n || mem_char 32%N n || mem_char 9%N n = false <-> abbr_name n.
Proof.
  unfold abbr_name. rewrite !orb_false_iff. split.
  - intros [[A B] C]. split; [intros ->; discriminate A|]. split; intros I; apply mem_char_iff in I; congruence.
  - intros (A & B & C). split; [split|].
    + destruct n; [congruence|reflexivity].
    + destruct (mem_char 32%N n) eqn:M; [apply mem_char_iff in M; contradiction|reflexivity].
    + destruct (mem_char 9%N n) eqn:M; [apply mem_char_iff in M; contradiction|reflexivity].
Qed.
Definition quiet (t : map_) (argv : list str) : Prop := table (abbr_command t argv) = t.
Lemma add_cases t n x : (abbr_name n /\ exists s, add_abbreviation t n x = Answer (insert n x t) [Says s] [] 0) \/ (~ abbr_name n /\ exists s, add_abbreviation t n x = Answer t [] [s] 1).
Proof.
  unfold add_abbreviation. destruct (is_nil n || mem_char 32%N n || mem_char 9%N n) eqn:B; [right|left].
  - split; [|eexists; reflexivity]. intros A. apply abbr_name_iff in A. congruence.
  - split; [apply abbr_name_iff, B|eexists; reflexivity].
Qed.
Lemma abbr_cases t argv :
  (exists n x s, adds argv n x /\ abbr_command t argv = Answer (insert n x t) [Says s] [] 0) \/
  (exists n, erases argv n /\ (forall m x, ~ adds argv m x) /\ abbr_command t argv = remove_abbreviation t n) \/
  ((forall n x, ~ adds argv n x) /\ (forall n, ~ erases argv n) /\ table (abbr_command t argv) = t).
Proof.
  assert (L : table (list_all_abbreviations t) = t) by (destruct t; reflexivity).
  destruct argv as [|a [|o [|n [|v rest]]]].
  - right. right. split; [intros n x (_ & ? & ? & ? & ? & E & _); discriminate E|]. split; [intros n (? & ? & E & _); discriminate E|reflexivity].
  - right. right. split; [intros n x (_ & ? & ? & ? & ? & E & _); discriminate E|]. split; [intros n (? & ? & E & _); discriminate E|exact L].
  - right. right. split; [intros n x (_ & ? & ? & ? & ? & E & _); discriminate E|]. split; [intros n (? & ? & E & _); discriminate E|].
    cbn [abbr_command]. destruct (mem_str o _); [exact L|]. destruct (starts_with (lit "-e") o); [reflexivity|]. unfold show_specific_abbreviation. destruct (assoc o t); reflexivity.
  - assert (Na : forall m x, ~ adds [a; o; n] m x) by (intros m x (_ & ? & ? & ? & ? & E & _); discriminate E).
    right. cbn [abbr_command]. destruct (str_eqb o (lit "-e") || str_eqb o (lit "--erase")) eqn:B.
    + left. exists n. split; [|split; [exact Na|reflexivity]]. exists a, o. split; [reflexivity|]. rewrite orb_true_iff, !str_eqb_eq in B. exact B.
    + right. split; [exact Na|]. split; [|destruct (is_add o); reflexivity]. intros m (a' & o' & E & O). injection E as <- <- <-.
      assert (X : str_eqb o (lit "-e") || str_eqb o (lit "--erase") = true) by (rewrite orb_true_iff, !str_eqb_eq; exact O). congruence.
  - assert (Ne : forall m, ~ erases (a :: o :: n :: v :: rest) m) by (intros m (? & ? & E & _); discriminate E).
    assert (C : exists s, abbr_command t (a :: o :: n :: v :: rest) = if is_add o then add_abbreviation t n (join_with (lit " ") (v :: rest)) else Answer t [] s 1).
    { exists (match rest with [] => [lit "abbr: invalid option"; usage] | _ => [lit "abbr: too many arguments"; usage] end). destruct rest as [|v' rest]; reflexivity. }
    destruct C as [s C]. rewrite C. destruct (is_add o) eqn:B.
    + destruct (add_cases t n (join_with (lit " ") (v :: rest))) as [[A (s' & E)]|[A (s' & E)]]; rewrite E.
      * left. exists n, (join_with (lit " ") (v :: rest)), s'. split; [|reflexivity]. split; [exact A|]. exists a, o, v, rest. split; [reflexivity|]. split; [apply is_add_iff, B|reflexivity].
      * right. right. split; [|split; [exact Ne|reflexivity]]. intros m x (A' & a' & o' & v' & r' & E' & _). injection E' as _ _ <- _ _. exact (A A').
    + right. right. split; [|split; [exact Ne|reflexivity]]. intros m x (_ & a' & o' & v' & r' & E' & O & _). injection E' as _ <- _ _ _. apply is_add_iff in O. congruence.
Qed.
Lemma adds_once argv n x m y : adds argv n x -> adds argv m y -> m = n /\ y = x.
Proof. intros (_ & a & o & v & r & -> & _ & ->) (_ & a' & o' & v' & r' & E & _ & ->). injection E as <- <- <- <- <-. auto. Qed.

(** C139: what abbr -a and abbr -e change, and that nothing else changes anything *)
Theorem C139_abbr_changes : forall t argv, let r := abbr_command t argv in
  (forall n x, adds argv n x -> status r = 0 /\ defined t (table r) n x) /\
  (forall n, erases argv n -> (assoc n t <> None -> status r = 0 /\ forgotten t (table r) n) /\ (assoc n t = None -> status r = 1 /\ table r = t)) /\
  ((forall n x, ~ adds argv n x) -> (forall n, ~ erases argv n) -> table r = t).
Proof.
  intros t argv. cbn zeta. destruct (abbr_cases t argv) as [(n & x & s & A & E)|[(n & A & N & E)|(A & N & E)]].
  - assert (Ne : forall m, ~ erases argv m) by (intros m (a & o & -> & _); destruct A as (_ & ? & ? & ? & ? & X & _); discriminate X).
    rewrite E. split; [|split; [intros m M; destruct (Ne m M)|intros H; destruct (H n x A)]].
    intros m y B. destruct (adds_once argv n x m y A B) as [-> ->]. split; [reflexivity|apply insert_defined].
  - split; [intros m y B; destruct (N m y B)|]. split; [|intros _ H; destruct (H n A)]. intros m B.
    assert (m = n) as -> by (destruct A as (a & o & -> & _), B as (a' & o' & X & _); injection X as _ _ <-; reflexivity).
    rewrite E. unfold remove_abbreviation. destruct (assoc n t) as [v|] eqn:Q; cbn [status table].
    + split; [intros _; split; [reflexivity|apply remove_forgotten]|discriminate].
    + split; [congruence|auto].
  - split; [intros m y B; destruct (A m y B)|]. split; [intros m B; destruct (N m B)|]. intros _ _. exact E.
Qed.
(** after any sequence of commands *)
Definition abbr_run (h : list (list str)) : map_ := fold_left (fun t argv => table (abbr_command t argv)) h [].
Theorem C139_abbr_history : forall h n x, assoc n (abbr_run h) = Some x <-> stands adds erases h n x.
Proof.
  intros h. induction h as [|argv h IH] using rev_ind; intros n x.
  - split; [discriminate|]. intros (b & c & a & E & _). destruct b; discriminate E.
  - unfold abbr_run. rewrite fold_left_app. cbn [fold_left]. fold (abbr_run h).
    assert (Keep : (forall y, ~ adds argv n y) -> ~ erases argv n -> stands adds erases h n x <-> stands adds erases (h ++ [argv]) n x).
    { intros A B. split.
      - intros (b & c & a & -> & Sx & H). exists b, c, (a ++ [argv]). split; [rewrite <- app_assoc; reflexivity|]. split; [exact Sx|].
        intros d D. apply in_app_or in D as [D|[<-|[]]]; [apply H, D|split; assumption].
      - intros (b & c & a & E & Sx & H). destruct a as [|y a _] using rev_ind; [apply app_inj_tail in E as [_ <-]; destruct (A x Sx)|].
        rewrite app_comm_cons, app_assoc in E. apply app_inj_tail in E as [-> ->]. exists b, c, a. split; [reflexivity|]. split; [exact Sx|].
        intros d D. apply H, in_or_app. left. exact D. }
    assert (Last : forall b c a, h ++ [argv] = b ++ c :: a -> (a = [] /\ c = argv) \/ In argv a).
    { intros b c a E. destruct a as [|y a _] using rev_ind; [left; apply app_inj_tail in E as [_ <-]; auto|right].
      rewrite app_comm_cons, app_assoc in E. apply app_inj_tail in E as [_ <-]. apply in_or_app. right. left. reflexivity. }
    destruct (abbr_cases (abbr_run h) argv) as [(m & y & s & A & E)|[(m & A & N & E)|(A & N & E)]].
    + rewrite E. cbn [table]. rewrite assoc_insert. destruct (str_eq_dec n m) as [->|D].
      * split.
        -- intros X. injection X as ->. exists h, argv, []. split; [reflexivity|]. split; [exact A|intros d []].
        -- intros (b & c & a & X & Sx & H). destruct (Last b c a X) as [[-> ->]|I].
           ++ destruct (adds_once argv m y m x A Sx) as [_ ->]. reflexivity.
           ++ destruct (H argv I) as [F _]. destruct (F y A).
      * rewrite IH. apply Keep.
        -- intros z B. destruct (adds_once argv m y n z A B) as [-> _]. congruence.
        -- intros (a & o & -> & _). destruct A as (_ & ? & ? & ? & ? & X & _). discriminate X.
    + assert (Nn : n <> m -> ~ erases argv n).
      { intros D (a & o & -> & _). destruct A as (? & ? & X & _). injection X as _ _ <-. congruence. }
      rewrite E. unfold remove_abbreviation. destruct (assoc m (abbr_run h)) as [v|] eqn:Q; cbn [table].
      * rewrite assoc_remove. destruct (str_eq_dec n m) as [->|D]; [|rewrite IH; apply Keep; auto].
        split; [discriminate|]. intros (b & c & a & X & Sx & H). destruct (Last b c a X) as [[-> ->]|I]; [destruct (N m x Sx)|]. destruct (H argv I) as [_ F]. destruct (F A).
      * destruct (str_eq_dec n m) as [->|D]; [|rewrite IH; apply Keep; auto]. rewrite Q. split; [discriminate|].
        intros (b & c & a & X & Sx & H). destruct (Last b c a X) as [[-> ->]|I]; [destruct (N m x Sx)|]. destruct (H argv I) as [_ F]. destruct (F A).
    + rewrite E, IH. apply Keep; [apply A|apply N].
Qed.
Print Assumptions C139_abbr_changes.
Print Assumptions C139_abbr_history.

(** ** abbreviations on the line *)
Section Keys.
Import Editor_Model Editor_Spec Editor_Proofs.
(** the space bar: the word in front of the cursor is replaced if it is an abbreviation, and a
    space follows; nothing else on the line changes *)
Theorem C139_space_expands : forall cw os e outs t, run cw new os = Some (e, outs) ->
  let front := firstn (cursor e) (as_str e) in let rest := skipn (cursor e) (as_str e) in
  exists e', press_space cw t e = Some e' /\
  (forall pre w x, ends_with_word front pre w -> Env_Model.assoc w t = Some x ->
     as_str e' = pre ++ x ++ lit " " ++ rest /\ cursor e' = length pre + length x + 1) /\
  ((forall pre w, ends_with_word front pre w -> Env_Model.assoc w t = None) -> as_str e' = front ++ lit " " ++ rest /\ cursor e' = cursor e + 1).
Proof.
  intros cw os e outs t R. destruct (reachable_ed_of cw os e outs R) as [z ->]. cbn zeta.
  assert (F : firstn (cursor (ed_of cw z)) (as_str (ed_of cw z)) = before z) by (change (as_str (ed_of cw z)) with (before z ++ after z); change (cursor (ed_of cw z)) with (length (before z)); rewrite firstn_app, firstn_all, Nat.sub_diag; apply app_nil_r).
  assert (G : skipn (cursor (ed_of cw z)) (as_str (ed_of cw z)) = after z) by (change (as_str (ed_of cw z)) with (before z ++ after z); change (cursor (ed_of cw z)) with (length (before z)); rewrite skipn_app, skipn_all, Nat.sub_diag; reflexivity).
  rewrite F, G. unfold press_space. rewrite get_word_ok, !insert_ok.
  assert (Same : forall t', as_str (ed_of cw (s_insert z [32%N])) = before z ++ lit " " ++ t' -> t' = after z -> as_str (ed_of cw (s_insert z [32%N])) = before z ++ lit " " ++ after z) by (intros ? ? ->; assumption).
  assert (K : as_str (ed_of cw (s_insert z [32%N])) = before z ++ lit " " ++ after z) by (change (as_str (ed_of cw (s_insert z [32%N]))) with ((before z ++ [32%N]) ++ after z); rewrite <- app_assoc; reflexivity).
  assert (Kc : cursor (ed_of cw (s_insert z [32%N])) = cursor (ed_of cw z) + 1) by (change (cursor (ed_of cw (s_insert z [32%N]))) with (length (before z ++ [32%N])); rewrite app_length; reflexivity).
  destruct (suffix_while abbr_char (before z)) as [|c w] eqn:W.
  - eexists. split; [reflexivity|]. split; [|auto]. intros pre w x E. apply Offer_Props.word_iff in E as (E & _ & N). congruence.
  - assert (Ew : ends_with_word (before z) (strip_suffix abbr_char (before z)) (c :: w)) by (apply Offer_Props.word_iff; split; [exact W|split; [reflexivity|discriminate]]).
    destruct (Env_Model.assoc (c :: w) t) as [x|] eqn:A.
    + rewrite replace_word_ok. unfold s_replace_word. rewrite W. rewrite insert_ok. eexists. split; [reflexivity|]. split.
      * intros pre w' x' E X. apply Offer_Props.word_iff in E as (E1 & E2 & _). rewrite W in E1. subst w' pre. rewrite A in X. injection X as <-.
        split; [unfold as_str, ed_of, whole, s_insert; cbn [before after text]|unfold cursor, ed_of, s_insert; cbn [before after cur]].
        -- change (lit " ") with [32%N]. rewrite <- !app_assoc. reflexivity.
        -- rewrite !app_length. reflexivity.
      * intros H. rewrite (H _ _ Ew) in A. discriminate A.
    + eexists. split; [reflexivity|]. split; [|auto]. intros pre w' x E X. apply Offer_Props.word_iff in E as (E1 & _). rewrite W in E1. congruence.
Qed.
(** Not every abbreviation that abbr accepts can be expanded: words on the line end at | & ; ( )
    and at any white space, names of abbreviations only at a space or tab.  Such a name is
    defined, and on no line does it ever expand *)
Theorem C139_every_name_expands_refuted : forall cw n x c os e outs,
  abbr_name n -> In c n -> abbr_char c = false -> run cw new os = Some (e, outs) ->
  let t := table (abbr_command [] [lit "abbr"; lit "-a"; n; x]) in
  t = [(n, x)] /\ exists e', press_space cw t e = Some e' /\ as_str e' = firstn (cursor e) (as_str e) ++ lit " " ++ skipn (cursor e) (as_str e).
Proof.
  intros cw n x c os e outs A I C R. cbn zeta. assert (E : table (abbr_command [] [lit "abbr"; lit "-a"; n; x]) = [(n, x)]).
  { cbn [abbr_command]. change (is_add (lit "-a")) with true. cbv iota. destruct (add_cases [] n x) as [[_ (s & ->)]|[N _]]; [reflexivity|contradiction]. }
  rewrite E. split; [reflexivity|]. destruct (C139_space_expands cw os e outs [(n, x)] R) as (e' & P & _ & H). exists e'. split; [exact P|]. apply H.
  intros pre w (_ & _ & W & _). cbn [Env_Model.assoc]. destruct (str_eqb_spec w n) as [->|]; [|reflexivity]. rewrite (W c I) in C. discriminate C.
Qed.
End Keys.

(** the line [abbr -e n] cannot be typed: Enter expands the abbreviation it is about to erase *)
Section Erase.
Import Parse_Model Parse_Spec Expand_Model Expand_Spec Expand_Proofs Expand_Props.
Lemma same_assoc k t : Offer_Model.assoc k t = Env_Model.assoc k t.
Proof.
  induction t as [|[a b] t IH]; [reflexivity|]. cbn. destruct (str_eqb_spec a k) as [->|D]; [rewrite str_eqb_refl; reflexivity|].
  destruct (str_eqb_spec k a) as [->|]; [congruence|exact IH].
Qed.
Theorem C139_typed_erase_refuted : forall cw home glob e resolve substitute al t n x ws,
  NoDup (map fst t) -> In (n, x) t -> n <> [] -> (forall c, In c n -> Editor_Spec.abbr_char c = true) ->
  Offer_Props.finished (lit "abbr -e " ++ n) -> ~ marked 124%N 33%N (lit "abbr -e " ++ n) ->
  (* the expansion is one or more ordinary words *)
  x = join_with (lit " ") ws -> ws <> [] -> Forall (fun w => plain_text w /\ hd 0%N w <> 126%N) ws -> ws <> [n] ->
  resolve (lit "abbr") = IsBuiltin -> Env_Model.assoc (lit "abbr") al = None -> no_variable e (lit "abbr" :: lit "-e" :: ws) ->
  exists ed outs line j args, Editor_Model.run cw Editor_Model.new [Editor_Model.OInsertStr (lit "abbr -e " ++ n)] = Some (ed, outs) /\
    Offer_Model.press_enter cw t [] ed = Some (Offer_Model.Evals line) /\
    get_jobs home glob al e resolve substitute line = Some [j] /\ procs j = [Builtin (lit "abbr") args] /\
    Env_Model.assoc n (table (abbr_command t args)) = Some x.
Proof.
  intros cw home glob e resolve substitute al t n x ws ND I N An F M Ex Nw Pw Dn R A G.
  destruct (Offer_Props.C127_abbreviation_anywhere_refuted cw t (lit "abbr -e ") n x ND I) as (ed & outs & Re & P); [|exact F|exact M|discriminate|].
  { split; [reflexivity|]. split; [exact N|]. split; [exact An|]. intros u c E. change (lit "abbr -e ") with (lit "abbr -e" ++ [32%N]) in E. apply app_inj_tail in E as [_ <-]. reflexivity. }
  set (its := map (fun w => Arg (lit " ") (plain_word w)) (lit "-e" :: ws)).
  set (c := CmdLine [] (plain_word (lit "abbr")) its []).
  assert (Pl : forall w, In w (lit "-e" :: ws) -> plain_text w /\ hd 0%N w <> 126%N).
  { intros w [<-|W]; [|rewrite Forall_forall in Pw; apply Pw, W]. split; [|discriminate]. split; [discriminate|]. intros d [<-|[<-|[]]]; split; reflexivity. }
  assert (Gv : forall w, In w (lit "-e" :: ws) -> get_var e w = None) by (intros w W; apply G; apply in_or_app; left; right; exact W).
  assert (Q : alias_of home al (get_var e) (plain_word (lit "abbr")) = None) by (unfold alias_of, plain_word; cbn; exact A).
  assert (Ti : Forall (tame_item home (get_var e)) its).
  { apply Forall_forall. intros i Hi. apply in_map_iff in Hi as (w & <- & W). apply tame_plain; [apply Gv, W|apply (Pl w W)]. }
  assert (Arv : argv (CmdLine [] (literal (lit "abbr")) (map (item_value home (get_var e)) its) []) = lit "abbr" :: lit "-e" :: ws).
  { unfold argv. cbn [name items]. change (meaning (literal (lit "abbr"))) with (lit "abbr"). f_equal. unfold its. revert Pl. generalize (lit "-e" :: ws). clear.
    induction l as [|w l IH]; intros Pl; [reflexivity|]. cbn [map item_value flat_map app]. rewrite (value_plain home e) by (apply Pl; left; reflexivity). rewrite snd_literal. f_equal.
    apply IH. intros w' W. apply Pl. right. exact W. }
  destruct (one_command home glob e resolve substitute al c (CmdLine [] (literal (lit "abbr")) (map (item_value home (get_var e)) its) [])) as (j & J & Pj & _).
  - split; [reflexivity|]. split; [reflexivity|]. split; [apply plain_valid; [discriminate|reflexivity]|]. apply Forall_forall. intros i Hi. apply in_map_iff in Hi as (w & <- & W).
    split; [reflexivity|]. split; [left; discriminate|]. destruct (Pl w W) as [[Nn O] _]. apply plain_valid; [exact Nn|]. apply forallb_forall. intros d D. apply O, D.
  - split; [|exact Ti]. unfold tame_name. cbn [name c]. rewrite Q. split; [apply tame_plain; [apply G; left; reflexivity|discriminate]|]. split; [exact A|reflexivity].
  - intros o O. apply G, in_or_app. right. exact O.
  - exact (plain_value home al (get_var e) c Q).
  - split; [discriminate|]. cbn [name]. change (meaning (literal (lit "abbr"))) with (lit "abbr"). rewrite R. exact Logic.I.
  - unfold process_for in Pj. cbn [name] in Pj. change (meaning (literal (lit "abbr"))) with (lit "abbr") in Pj. rewrite R, Arv in Pj.
    exists ed, outs, (lit "abbr -e " ++ x), j, (lit "abbr" :: lit "-e" :: ws). split; [exact Re|]. split; [exact P|]. split; [|split; [exact Pj|]].
    + rewrite <- J. f_equal. unfold typed_cmd, c, its. cbn [lead name items trail app map flat_map typed_item]. rewrite !plain_typed, app_nil_r, Ex.
      assert (X : forall (w : str) l, lit " " ++ join_with (lit " ") (w :: l) = flat_map typed_item (map (fun w => Arg (lit " ") (plain_word w)) (w :: l))).
      { intros w l. rewrite Offer_Props.join_words. cbn [map flat_map typed_item]. rewrite plain_typed, <- app_assoc. f_equal. f_equal.
        induction l as [|w' l IH]; [reflexivity|]. cbn [map flat_map typed_item]. rewrite plain_typed, IH. reflexivity. }
      destruct ws as [|w ws']; [congruence|]. rewrite <- X. reflexivity.
    + assert (An' : Env_Model.assoc n t = Some x) by (apply in_assoc; assumption).
      destruct ws as [|w [|w' ws']]; [congruence| |].
      * cbn [abbr_command]. change (str_eqb (lit "-e") (lit "-e") || str_eqb (lit "-e") (lit "--erase")) with true. cbv iota. unfold remove_abbreviation.
        destruct (Env_Model.assoc w t) as [v|]; cbn [table]; [|exact An']. rewrite assoc_remove. destruct (str_eq_dec n w) as [->|]; [exfalso; apply Dn; reflexivity|exact An'].
      * destruct ws'; exact An'.
Qed.
End Erase.
Print Assumptions C139_space_expands.
Print Assumptions C139_every_name_expands_refuted.
Print Assumptions C139_typed_erase_refuted.
Example C139_example :
  let t := abbr_run [[lit "abbr"; lit "-a"; lit "gs"; lit "git"; lit "status"]; [lit "abbr"; lit "-a"; lit "g"; lit "git"]; [lit "abbr"; lit "-e"; lit "g"]] in
  t = [(lit "gs", lit "git status")] /\ lit "git status" = join_with (lit " ") [lit "git"; lit "status"] /\
  Offer_Props.finished (lit "abbr -e " ++ lit "gs") /\ ~ marked 124%N 33%N (lit "abbr -e " ++ lit "gs") /\
  Forall (fun w => plain_text w /\ hd 0%N w <> 126%N) [lit "git"; lit "status"] /\ no_variable Expand_Props.some_env [lit "abbr"; lit "-e"; lit "git"; lit "status"] /\
  abbr_name (lit "a|b") /\ In 124%N (lit "a|b") /\ Editor_Spec.abbr_char 124%N = false.
Proof.
  cbn zeta. split; [vm_compute; reflexivity|]. split; [reflexivity|]. split; [exact (Offer_Props.finished_lit "abbr -e gs" eq_refl)|].
  split; [change (~ marked Offer_Model.bar Offer_Model.bang (lit "abbr -e gs")); apply Offer_Props.unmarked_lit; reflexivity|]. split.
  { repeat constructor; try discriminate; cbn in H; repeat (destruct H as [<-|H]; [reflexivity|]); destruct H. }
  split; [intros t H; cbn in H; repeat (destruct H as [<-|H]; [vm_compute; reflexivity|]); destruct H|].
  split; [apply abbr_name_iff; reflexivity|]. split; [right; left; reflexivity|reflexivity].
Qed.
(** the form abbr prints is not a form it accepts *)
Theorem C139_printed_form_refuted : forall t n x, assoc n t = Some x -> ~ In n [lit "-l"; lit "-s"; lit "--list"; lit "--erase"] -> starts_with (lit "-e") n = false ->
  told (abbr_command t [lit "abbr"; n]) = [Says (lit "abbr " ++ n ++ lit " '" ++ x ++ lit "'")] /\
  forall t', status (abbr_command t' [lit "abbr"; n; x]) = 1 /\ table (abbr_command t' [lit "abbr"; n; x]) = t'.
Proof.
  intros t n x A L E. cbn [abbr_command]. destruct (mem_str n [lit "-l"; lit "-s"; lit "--list"]) eqn:M; [apply mem_str_iff in M; exfalso; apply L; cbn in *; tauto|].
  rewrite E. unfold show_specific_abbreviation. rewrite A. split; [reflexivity|]. intros t'.
  destruct (str_eqb_spec n (lit "-e")) as [->|]; [discriminate E|]. destruct (str_eqb_spec n (lit "--erase")) as [->|D]; [exfalso; apply L; right; right; right; left; reflexivity|].
  cbn [orb]. destruct (is_add n); split; reflexivity.
Qed.
Print Assumptions C139_printed_form_refuted.
