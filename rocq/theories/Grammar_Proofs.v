(** The shell grammar terminates, and how its rules read well-formed text. *)
From Verif Require Import Base Peg_Model Peg_Proofs Grammar_Model Parse_Model Parse_Spec.

Lemma gram_safe : forall r, safe eats_rule rank (Some (rank r)) (gram r) = true.
Proof. intros []; vm_compute; reflexivity. Qed.
Lemma gram_eats : forall r, eats_rule r = true -> eats eats_rule (gram r) = true.
Proof. intros []; vm_compute; auto. Qed.
Lemma gram_sizes : forall r, size (gram r) <= sizes.
Proof. intros []; apply Nat.leb_le; vm_compute; reflexivity. Qed.
Lemma gram_ranks : forall r, rank r < ranks.
Proof. intros []; apply Nat.ltb_lt; vm_compute; reflexivity. Qed.

Definition prun : expr rule -> nat -> str -> res rule := run gram ranks sizes.
Definition pgood (e : expr rule) : Prop := good eats_rule rank e.

Lemma parse_run s : parse s = prun (Nt commands) 0 s.
Proof. unfold parse, prun, run, cost, fuel. cbn [size]. reflexivity. Qed.

(** [yields e s P c r]: anywhere, [e] reads [c] from [s], leaves [r] and the pairs satisfy [P] *)
Definition yields (e : expr rule) (s : str) (P : list pair_ -> Prop) (c r : str) : Prop :=
  forall pos, exists ns, prun e pos s = Ok ns c r /\ P ns.
Definition fails (e : expr rule) (s : str) : Prop := forall pos, prun e pos s = Fail.

Ltac env := first [exact gram_safe | exact gram_eats | exact gram_sizes | exact gram_ranks].

Lemma y_seq a b s P c r Q c' r' (T : list pair_ -> Prop) : pgood (Seq a b) ->
  yields a s P c r -> yields b r Q c' r' -> (forall n1 n2, P n1 -> Q n2 -> T (n1 ++ n2)) ->
  yields (Seq a b) s T (c ++ c') r'.
Proof.
  intros G Ha Hb HT pos. destruct (Ha pos) as (n1 & E1 & P1). destruct (Hb (pos + length c)) as (n2 & E2 & P2).
  exists (n1 ++ n2). split; [|auto]. unfold prun in *. rewrite (run_seq gram eats_rule rank) by (auto; env). rewrite E1. cbn [then_]. rewrite E2. reflexivity.
Qed.
Lemma f_seq_l a b s : pgood (Seq a b) -> fails a s -> fails (Seq a b) s.
Proof. intros G Ha pos. unfold prun, fails in *. rewrite (run_seq gram eats_rule rank) by (auto; env). unfold prun in Ha. rewrite Ha. reflexivity. Qed.
Lemma f_seq_r a b s P c r : pgood (Seq a b) -> yields a s P c r -> fails b r -> fails (Seq a b) s.
Proof.
  intros G Ha Hb pos. destruct (Ha pos) as (n1 & E1 & _). unfold prun, fails in *. rewrite (run_seq gram eats_rule rank) by (auto; env).
  rewrite E1. cbn [then_]. unfold prun in Hb. rewrite Hb. reflexivity.
Qed.
Lemma y_alt_l a b s P c r : pgood (Alt a b) -> yields a s P c r -> yields (Alt a b) s P c r.
Proof.
  intros G Ha pos. destruct (Ha pos) as (n1 & E1 & P1). exists n1. split; [|auto]. unfold prun in *.
  rewrite (run_alt gram eats_rule rank) by (auto; env). rewrite E1. reflexivity.
Qed.
Lemma y_alt_r a b s P c r : pgood (Alt a b) -> fails a s -> yields b s P c r -> yields (Alt a b) s P c r.
Proof.
  intros G Ha Hb pos. destruct (Hb pos) as (n1 & E1 & P1). exists n1. split; [|auto]. unfold prun, fails in *. unfold prun in Ha.
  rewrite (run_alt gram eats_rule rank) by (auto; env). rewrite Ha. exact E1.
Qed.
Lemma f_alt a b s : pgood (Alt a b) -> fails a s -> fails b s -> fails (Alt a b) s.
Proof. intros G Ha Hb pos. unfold fails, prun in *. rewrite (run_alt gram eats_rule rank) by (auto; env). rewrite Ha. apply Hb. Qed.
Lemma y_star_nil a s (P : list pair_ -> Prop) : pgood (Star a) -> fails a s -> P [] -> yields (Star a) s P [] s.
Proof. intros G Ha HP pos. exists []. split; [|exact HP]. unfold fails, prun in *. rewrite (run_star gram eats_rule rank) by (auto; env). rewrite Ha. reflexivity. Qed.
Lemma y_star_cons a s P c r Q c' r' (T : list pair_ -> Prop) : pgood (Star a) ->
  yields a s P c r -> yields (Star a) r Q c' r' -> (forall n1 n2, P n1 -> Q n2 -> T (n1 ++ n2)) ->
  yields (Star a) s T (c ++ c') r'.
Proof.
  intros G Ha Hb HT pos. destruct (Ha pos) as (n1 & E1 & P1). destruct (Hb (pos + length c)) as (n2 & E2 & P2).
  exists (n1 ++ n2). split; [|auto]. unfold prun in *. rewrite (run_star gram eats_rule rank) by (auto; env). rewrite E1. cbn [then_]. rewrite E2. reflexivity.
Qed.
Lemma y_opt_none a s (P : list pair_ -> Prop) : pgood (Opt a) -> fails a s -> P [] -> yields (Opt a) s P [] s.
Proof. intros G Ha HP pos. exists []. split; [|exact HP]. unfold fails, prun in *. rewrite (run_opt gram eats_rule rank) by (auto; env). rewrite Ha. reflexivity. Qed.
Lemma y_opt_some a s P c r : pgood (Opt a) -> yields a s P c r -> yields (Opt a) s P c r.
Proof. intros G Ha pos. destruct (Ha pos) as (n1 & E1 & P1). exists n1. split; [|exact P1]. unfold prun in *. rewrite (run_opt gram eats_rule rank) by (auto; env). rewrite E1. reflexivity. Qed.
Lemma y_not a s (P : list pair_ -> Prop) : pgood (Not a) -> fails a s -> P [] -> yields (Not a) s P [] s.
Proof. intros G Ha HP pos. exists []. split; [|exact HP]. unfold fails, prun in *. rewrite (run_not gram eats_rule rank) by (auto; env). rewrite Ha. reflexivity. Qed.
Lemma f_not a s P c r : pgood (Not a) -> yields a s P c r -> fails (Not a) s.
Proof. intros G Ha pos. destruct (Ha pos) as (n1 & E1 & P1). unfold prun in *. rewrite (run_not gram eats_rule rank) by (auto; env). rewrite E1. reflexivity. Qed.
Lemma y_nt rl s P c r (T : list pair_ -> Prop) : yields (gram rl) s P c r ->
  (forall pos ns, P ns -> T [Node rl pos c ns]) -> yields (Nt rl) s T c r.
Proof.
  intros H HT pos. destruct (H pos) as (ns & E & HP). exists [Node rl pos c ns]. split; [|auto]. unfold prun in *.
  rewrite (run_nt gram eats_rule rank) by env. rewrite E. reflexivity.
Qed.
Lemma f_nt rl s : fails (gram rl) s -> fails (Nt rl) s.
Proof. intros H pos. unfold fails, prun in *. rewrite (run_nt gram eats_rule rank) by env. rewrite H. reflexivity. Qed.
Lemma y_lit t r (P : list pair_ -> Prop) : P [] -> yields (Lit t) (t ++ r) P t r.
Proof.
  intros HP pos. exists []. split; [|exact HP]. unfold prun. rewrite (run_lit gram eats_rule rank) by env.
  assert (E : starts_with t (t ++ r) = true) by (apply starts_with_iff; eauto). rewrite E.
  rewrite skipn_app, Nat.sub_diag, skipn_all. reflexivity.
Qed.
Lemma f_lit t s : starts_with t s = false -> fails (Lit t) s.
Proof. intros H pos. unfold prun. rewrite (run_lit gram eats_rule rank) by env. rewrite H. reflexivity. Qed.
Lemma y_any c r (P : list pair_ -> Prop) : P [] -> yields Any (c :: r) P [c] r.
Proof. intros HP pos. exists []. split; [|exact HP]. unfold prun. rewrite (run_any gram eats_rule rank) by env. reflexivity. Qed.
Lemma f_any : fails Any [].
Proof. intros pos. unfold prun. rewrite (run_any gram eats_rule rank) by env. reflexivity. Qed.
Lemma y_weaken e s (P Q : list pair_ -> Prop) c r : yields e s P c r -> (forall ns, P ns -> Q ns) -> yields e s Q c r.
Proof. intros H W pos. destruct (H pos) as (ns & E & HP). eauto. Qed.

(** literals that do not match *)
Lemma sw_head a p s : match s with c :: _ => c <> a | [] => True end -> starts_with (a :: p) s = false.
Proof. destruct s as [|c s]; [reflexivity|]. intros H. cbn [starts_with]. destruct (N.eqb_spec a c); [congruence|reflexivity]. Qed.
Lemma sw_second a b p c s : match s with d :: _ => d <> b | [] => True end -> starts_with (a :: b :: p) (c :: s) = false.
Proof. intros H. change ((a =? c)%N && starts_with (b :: p) s = false). rewrite (sw_head b p s H). apply andb_false_r. Qed.

(** ** characters *)
Notation "'nothing'" := (fun ns : list pair_ => ns = []).
Lemma one_of_good l : pgood (one_of l).
Proof. induction l as [|c [|d l] IH]; try reflexivity. change (pgood (Alt (ch c) (one_of (d :: l)))). unfold pgood, good in *. cbn [safe ch]. rewrite IH. reflexivity. Qed.
Lemma y_one_of l c r : In c l -> yields (one_of l) (c :: r) nothing [c] r.
Proof.
  induction l as [|d [|e l] IH]; [intros []| |].
  - intros [-> | []]. apply (y_lit [c] r). reflexivity.
  - intros H. change (one_of (d :: e :: l)) with (Alt (ch d) (one_of (e :: l))).
    destruct (N.eq_dec d c) as [-> | N].
    + apply y_alt_l; [exact (one_of_good (c :: e :: l))|]. apply (y_lit [c] r). reflexivity.
    + apply y_alt_r; [exact (one_of_good (d :: e :: l))| |apply IH; destruct H; [contradiction|assumption]].
      apply f_lit. cbn [starts_with]. destruct (N.eqb_spec d c); [contradiction|reflexivity].
Qed.
Lemma f_one_of l s : l <> [] -> match s with c :: _ => ~ In c l | [] => True end -> fails (one_of l) s.
Proof.
  induction l as [|d [|e l] IH]; [congruence| |]; intros _ H.
  - apply f_lit. destruct s as [|c s]; [reflexivity|]. cbn [starts_with]. destruct (N.eqb_spec d c) as [-> |]; [exfalso; apply H; left; reflexivity|reflexivity].
  - change (one_of (d :: e :: l)) with (Alt (ch d) (one_of (e :: l))). apply f_alt; [exact (one_of_good (d :: e :: l))| |].
    + apply f_lit. destruct s as [|c s]; [reflexivity|]. cbn [starts_with]. destruct (N.eqb_spec d c) as [-> |]; [exfalso; apply H; left; reflexivity|reflexivity].
    + apply IH; [discriminate|]. destruct s; auto. intros Q. apply H. right. exact Q.
Qed.

Lemma meta_special c : In c meta <-> In c special.
Proof.
  assert (K : forall l m, forallb (fun x => mem_char x m) l = true -> In c l -> In c m)
    by (intros l m H I; rewrite forallb_forall in H; apply mem_char_iff, H, I).
  split; apply K; vm_compute; reflexivity.
Qed.
Lemma ordinary_iff c : ordinary c = true <-> ~ In c special.
Proof. unfold ordinary. rewrite negb_true_iff, <- meta_special, <- mem_char_iff. destruct (mem_char c meta); split; congruence. Qed.

Lemma y_word_char c r : ordinary c = true -> yields word_char (c :: r) nothing [c] r.
Proof.
  intros H. apply ordinary_iff in H. change [c] with ([] ++ [c]). eapply y_seq; [reflexivity| | |].
  - apply y_not with (P := nothing); [reflexivity| |reflexivity]. apply f_one_of; [discriminate|exact H].
  - apply y_any with (P := nothing). reflexivity.
  - intros n1 n2 -> ->. reflexivity.
Qed.
Lemma f_word_char s : match s with c :: _ => In c special | [] => True end -> fails word_char s.
Proof.
  intros H. destruct s as [|c s].
  - eapply f_seq_r; [reflexivity| |apply f_any]. apply y_not with (P := nothing); [reflexivity|apply f_one_of; [discriminate|exact I]|reflexivity].
  - apply f_seq_l; [reflexivity|]. eapply f_not; [reflexivity|]. apply y_one_of, H.
Qed.

(** blanks *)
Definition no_blank (r : str) : Prop := match r with c :: _ => blank c = false | [] => True end.
Lemma y_blanks g r : gap g -> no_blank r -> yields (Star sp) (g ++ r) nothing g r.
Proof.
  unfold gap. induction g as [|c g IH]; intros G N; cbn [app forallb] in *.
  - apply y_star_nil; [reflexivity| |reflexivity]. apply f_one_of; [discriminate|]. destruct r as [|c r]; auto.
    intros H. apply mem_char_iff in H. unfold no_blank, blank in N. exact (eq_true_false_abs _ H N).
  - apply andb_true_iff in G as [G1 G2]. change (c :: g) with ([c] ++ g). eapply y_star_cons; [reflexivity| |apply IH; auto|].
    + apply y_one_of. apply mem_char_iff. exact G1.
    + intros n1 n2 -> ->. reflexivity.
Qed.

(** ** words *)
Lemma y_escape c r : yields (Nt escape_sequence) (92%N :: c :: r) (fun _ => True) [92%N; c] r.
Proof.
  eapply y_nt; [|auto]. change [92%N; c] with ([92%N] ++ [c]).
  eapply y_seq with (P := nothing) (Q := nothing) (T := fun _ => True); [reflexivity|apply (y_lit [92%N] (c :: r)); reflexivity|apply y_any; reflexivity|auto].
Qed.
Lemma f_escape s : match s with c :: _ => c <> 92%N | [] => True end -> fails (Nt escape_sequence) s.
Proof.
  intros H. apply f_nt, f_seq_l; [reflexivity|]. apply f_lit. destruct s as [|c s]; [reflexivity|]. cbn [starts_with].
  destruct (N.eqb_spec 92 c); [congruence|reflexivity].
Qed.

(** the typed form of an unquoted word, and what may not follow it *)
Definition bare (l : list (bool * char)) : str := typed_word (Bare l).
Definition valid_bare (l : list (bool * char)) : Prop := forall b c, In (b, c) l -> b = false -> ordinary c = true.
(** the characters after which no further part of a word follows *)
Definition ender (c : char) : Prop := In c [32; 9; 13; 59; 38; 124; 10; 41; 96; 34; 39]%N.
Definition ends (r : str) : Prop := match r with c :: _ => ender c | [] => True end.

(** a repetition that takes each character of the word and stops at [r] *)
Lemma y_bare_star e l r : pgood (Star e) -> valid_bare l ->
  (forall c r, ordinary c = true -> yields e (c :: r) nothing [c] r) ->
  (forall c r, yields e (92%N :: c :: r) (fun _ => True) [92%N; c] r) ->
  fails e r ->
  yields (Star e) (bare l ++ r) (fun _ => True) (bare l) r.
Proof.
  intros G V Ho He Hf. induction l as [|[b c] l IH].
  - apply y_star_nil; auto.
  - assert (Vl : valid_bare l) by (intros b' c' H; apply (V b' c'); right; exact H).
    unfold bare in *. cbn [typed_word flat_map] in *. rewrite <- app_assoc. destruct b.
    + eapply y_star_cons; [exact G|apply He|apply IH, Vl|auto].
    + eapply y_star_cons; [exact G|apply Ho; apply (V false c); [left; reflexivity|reflexivity]|apply IH, Vl|auto].
Qed.
Lemma bare_head l r : valid_bare l -> l <> [] -> exists c s, bare l ++ r = c :: s /\ (c = 92%N \/ ordinary c = true).
Proof.
  intros V H. destruct l as [|[b c] l]; [congruence|]. destruct b.
  - exists 92%N, (c :: bare l ++ r). split; [reflexivity|auto].
  - exists c, (bare l ++ r). split; [reflexivity|]. right. apply (V false c); [left; reflexivity|reflexivity].
Qed.

Lemma ender_special c : ender c -> In c special /\ c <> 92%N /\ ~ In c [42; 63; 91]%N /\ c <> 123%N /\ c <> 93%N /\ c <> 125%N.
Proof.
  unfold ender. intros H. cbn in H. repeat (destruct H as [<- | H]); try contradiction; cbn; intuition discriminate.
Qed.

Lemma y_word l r : valid_bare l -> l <> [] -> ends r ->
  yields (Nt Grammar_Model.word) (bare l ++ r) (fun ns => exists pos kids, ns = [Node Grammar_Model.word pos (bare l) kids]) (bare l) r.
Proof.
  intros V N E. eapply y_nt with (P := fun _ => True); [|eauto].
  assert (Ho : forall c r, ordinary c = true -> yields (Alt (Nt escape_sequence) word_char) (c :: r) nothing [c] r).
  { intros c r0 H. apply y_alt_r; [reflexivity| |apply y_word_char, H]. apply f_escape. intros ->. vm_compute in H. discriminate. }
  assert (He : forall c r, yields (Alt (Nt escape_sequence) word_char) (92%N :: c :: r) (fun _ => True) [92%N; c] r).
  { intros c r0. apply y_alt_l; [reflexivity|apply y_escape]. }
  assert (Hf : fails (Alt (Nt escape_sequence) word_char) r).
  { apply f_alt; [reflexivity| |]; [apply f_escape|apply f_word_char]; destruct r as [|c r]; auto; apply ender_special in E; tauto. }
  destruct l as [|[b c] l]; [congruence|].
  assert (Vl : valid_bare l) by (intros b' c' H; apply (V b' c'); right; exact H).
  change (bare ((b, c) :: l)) with ((if b then [92%N; c] else [c]) ++ bare l). rewrite <- app_assoc.
  eapply y_seq with (Q := fun _ => True); [reflexivity| |apply y_bare_star; auto; reflexivity|intros; exact I].
  destruct b; [apply He|eapply y_weaken; [apply Ho; apply (V false c); [left; reflexivity|reflexivity]|intros; exact I]].
Qed.

Lemma f_glob_word l r : valid_bare l -> ends r -> fails (Nt glob_word) (bare l ++ r).
Proof.
  intros V E. apply f_nt. eapply f_seq_r; [reflexivity|apply y_bare_star; auto|].
  - reflexivity.
  - intros c r0 H. apply y_alt_l; [reflexivity|apply y_word_char, H].
  - intros c r0. apply y_alt_r; [reflexivity|apply f_word_char; vm_compute; auto 30|apply y_escape].
  - apply f_alt; [reflexivity| |]; [apply f_word_char|apply f_escape]; destruct r as [|c r]; auto; apply ender_special in E; tauto.
  - apply f_seq_l; [reflexivity|]. apply f_one_of; [discriminate|]. destruct r as [|c r]; auto; apply ender_special in E; tauto.
Qed.
Lemma f_brace_word l r : valid_bare l -> ends r -> fails (Nt brace_word) (bare l ++ r).
Proof.
  intros V E. apply f_nt. eapply f_seq_r; [reflexivity|apply y_bare_star; auto|].
  - reflexivity.
  - intros c r0 H. apply y_alt_l; [reflexivity|apply y_word_char, H].
  - intros c r0. apply y_alt_r; [reflexivity|apply f_word_char; vm_compute; auto 30|]. apply y_alt_l; [reflexivity|apply y_escape].
  - apply f_alt; [reflexivity| |apply f_alt; [reflexivity| |]]; [apply f_word_char|apply f_escape|apply f_one_of; [discriminate|]];
      destruct r as [|c r]; auto; apply ender_special in E; tauto.
  - apply f_seq_l; [reflexivity|]. apply f_lit. destruct r as [|c r]; [reflexivity|]. apply ender_special in E. cbn [starts_with].
    destruct (N.eqb_spec 123 c); [exfalso; symmetry in e; tauto|reflexivity].
Qed.

Lemma f_first_char rl t a s : gram rl = Seq (Lit (a :: t)) s -> pgood (gram rl) ->
  forall x, match x with c :: _ => c <> a | [] => True end -> fails (Nt rl) x.
Proof.
  intros E G x H. apply f_nt. rewrite E in *. apply f_seq_l; [exact G|]. apply f_lit. destruct x as [|c x]; [reflexivity|].
  cbn [starts_with]. destruct (N.eqb_spec a c); [congruence|reflexivity].
Qed.
Lemma f_d_quoted x : match x with c :: _ => c <> 34%N | [] => True end -> fails (Nt d_quoted) x.
Proof. eapply f_first_char; reflexivity. Qed.
Lemma f_s_quoted x : match x with c :: _ => c <> 39%N | [] => True end -> fails (Nt s_quoted) x.
Proof. eapply f_first_char; reflexivity. Qed.
Lemma f_variable x : match x with c :: _ => c <> 36%N | [] => True end -> fails (Nt variable) x.
Proof. eapply f_first_char; reflexivity. Qed.
Lemma f_subshell x : match x with c :: _ => c <> 40%N | [] => True end -> fails (Nt subshell) x.
Proof. eapply f_first_char; reflexivity. Qed.
Lemma f_command_subst x : match x with c :: _ => c <> 36%N | [] => True end -> fails (Nt command_subst) x.
Proof. eapply f_first_char; reflexivity. Qed.
Lemma f_proc_subst x : starts_with (lit "<(") x = false -> fails (Nt proc_subst) x.
Proof. intros H. apply f_nt, f_seq_l; [reflexivity|]. apply f_nt, f_nt, f_lit, H. Qed.

Lemma f_quoted x : match x with c :: _ => c <> 34%N /\ c <> 39%N | [] => True end -> fails quoted x.
Proof. intros H. apply f_alt; [reflexivity|apply f_d_quoted|apply f_s_quoted]; destruct x; tauto. Qed.

(** ** quoted text *)
Lemma y_s_literal t r : t <> [] -> ~ In 39%N t -> ends_with [92%N] t = false ->
  yields (Nt literal_s_quoted) (t ++ 39%N :: r) (fun ns => exists pos kids, ns = [Node literal_s_quoted pos t kids]) t (39%N :: r).
Proof.
  intros N H L. eapply y_nt with (P := fun _ => True); [|eauto].
  set (e := Alt (Lit [92; 39]%N) (Alt (Seq (Not (ch 39)) Any) sp)).
  assert (Hc : forall c r0, c <> 39%N -> match r0 with d :: _ => ~ (c = 92%N /\ d = 39%N) | [] => True end -> yields e (c :: r0) (fun _ => True) [c] r0).
  { intros c r0 Hc Hd. apply y_alt_r; [reflexivity| |].
    - apply f_lit. cbn [starts_with]. destruct (N.eqb_spec 92 c) as [<- |]; [|reflexivity]. destruct r0 as [|d r0]; [reflexivity|].
      destruct (N.eqb_spec 39 d); [|reflexivity]. exfalso. apply Hd. auto.
    - apply y_alt_l; [reflexivity|]. change [c] with ([] ++ [c]). eapply y_seq with (P := fun _ => True) (Q := fun _ => True); [reflexivity| |apply y_any; exact I|auto].
      apply y_not; [reflexivity| |exact I]. apply f_lit. cbn [starts_with]. destruct (N.eqb_spec 39 c); [congruence|reflexivity]. }
  assert (Hh : forall c u, ends_with [92%N] (c :: u) = false -> ~ In 39%N u ->
    match u ++ 39%N :: r with d :: _ => ~ (c = 92%N /\ d = 39%N) | [] => True end).
  { intros c u Lu Hu. destruct u as [|d u]; cbn [app].
    - intros [-> _]. vm_compute in Lu. discriminate.
    - intros [_ ->]. apply Hu. left. reflexivity. }
  assert (Hl : forall c u, ends_with [92%N] (c :: u) = false -> u <> [] -> ends_with [92%N] u = false).
  { intros c u E Hu. destruct (ends_with [92%N] u) eqn:Q; [|reflexivity]. apply ends_with_iff in Q as [v ->].
    assert (ends_with [92%N] (c :: v ++ [92%N]) = true) by (apply ends_with_iff; exists (c :: v); reflexivity). congruence. }
  assert (Hs : forall t, (t <> [] -> ends_with [92%N] t = false) -> ~ In 39%N t -> yields (Star e) (t ++ 39%N :: r) (fun _ => True) t (39%N :: r)).
  { clear t N H L. induction t as [|c t IH]; intros L H.
    - apply y_star_nil; [reflexivity| |exact I]. apply f_alt; [reflexivity|apply f_lit; reflexivity|].
      apply f_alt; [reflexivity| |apply f_one_of; [discriminate|cbn; intuition discriminate]].
      apply f_seq_l; [reflexivity|]. eapply f_not with (P := nothing); [reflexivity|]. apply (y_lit [39%N] r). reflexivity.
    - change (c :: t) with ([c] ++ t). eapply y_star_cons with (Q := fun _ => True) (P := fun _ => True); [reflexivity| |apply IH|auto].
      + apply Hc; [intros ->; apply H; left; reflexivity|]. apply Hh; [apply L; discriminate|intros Q; apply H; right; exact Q].
      + intros Q. apply (Hl c); [apply L; discriminate|exact Q].
      + intros Q. apply H. right. exact Q. }
  destruct t as [|c t]; [congruence|].
  change (c :: t) with ([c] ++ t). eapply y_seq with (Q := fun _ => True) (P := fun _ => True); [reflexivity| |apply Hs|auto].
  - apply Hc; [intros ->; apply H; left; reflexivity|]. apply Hh; [exact L|intros Q; apply H; right; exact Q].
  - intros Q. apply (Hl c); [exact L|exact Q].
  - intros Q. apply H. right. exact Q.
Qed.

Lemma f_s_literal r : fails (Nt literal_s_quoted) (39%N :: r).
Proof.
  apply f_nt. apply f_seq_l; [reflexivity|]. apply f_alt; [reflexivity|apply f_lit; reflexivity|].
  apply f_alt; [reflexivity| |apply f_one_of; [discriminate|cbn; intuition discriminate]].
  apply f_seq_l; [reflexivity|]. eapply f_not with (P := nothing); [reflexivity|]. apply (y_lit [39%N] r). reflexivity.
Qed.
Lemma f_d_literal r : fails (Nt literal_d_quoted) (34%N :: r).
Proof.
  apply f_nt. apply f_seq_l; [reflexivity|]. apply f_alt; [reflexivity| |apply f_alt; [reflexivity| |]].
  - apply f_seq_l; [reflexivity|]. eapply f_not with (P := nothing); [reflexivity|]. apply y_one_of. left. reflexivity.
  - apply f_seq_l; [reflexivity|]. apply f_lit. reflexivity.
  - apply f_one_of; [discriminate|cbn; intuition discriminate].
Qed.
Lemma y_d_literal t r : t <> [] -> (forall c, In c t -> ~ In c [34; 92; 96; 36]%N) ->
  yields (Nt literal_d_quoted) (t ++ 34%N :: r) (fun ns => exists pos kids, ns = [Node literal_d_quoted pos t kids]) t (34%N :: r).
Proof.
  intros N H. eapply y_nt with (P := fun _ => True); [|eauto].
  set (e := Alt (Seq (Not (one_of [34; 92; 96; 36]%N)) Any) (Alt (Seq (ch 92) Any) sp)).
  assert (Hc : forall c r0, ~ In c [34; 92; 96; 36]%N -> yields e (c :: r0) (fun _ => True) [c] r0).
  { intros c r0 Hc. apply y_alt_l; [reflexivity|]. change [c] with ([] ++ [c]).
    eapply y_seq with (P := fun _ => True) (Q := fun _ => True); [reflexivity| |apply y_any; exact I|auto].
    apply y_not; [reflexivity| |exact I]. apply f_one_of; [discriminate|exact Hc]. }
  assert (Hs : forall t, (forall c, In c t -> ~ In c [34; 92; 96; 36]%N) -> yields (Star e) (t ++ 34%N :: r) (fun _ => True) t (34%N :: r)).
  { clear t N H. induction t as [|c t IH]; intros H.
    - apply y_star_nil; [reflexivity| |exact I]. apply f_alt; [reflexivity| |apply f_alt; [reflexivity| |]].
      + apply f_seq_l; [reflexivity|]. eapply f_not with (P := nothing); [reflexivity|]. apply y_one_of. left. reflexivity.
      + apply f_seq_l; [reflexivity|]. apply f_lit. reflexivity.
      + apply f_one_of; [discriminate|cbn; intuition discriminate].
    - change (c :: t) with ([c] ++ t). eapply y_star_cons with (Q := fun _ => True) (P := fun _ => True); [reflexivity| |apply IH|auto].
      + apply Hc, H. left. reflexivity.
      + intros d Hd. apply H. right. exact Hd. }
  destruct t as [|c t]; [congruence|].
  change (c :: t) with ([c] ++ t). eapply y_seq with (Q := fun _ => True) (P := fun _ => True); [reflexivity| |apply Hs|auto].
  - apply Hc, H. left. reflexivity.
  - intros d Hd. apply H. right. exact Hd.
Qed.

(** a quoted text between its quotes [q] *)
Lemma y_quotes q lr qr t r : gram qr = Seq (ch q) (Seq (Star (Nt lr)) (ch q)) -> eats_rule lr = true ->
  (t <> [] -> yields (Nt lr) (t ++ q :: r) (fun ns => exists pos kids, ns = [Node lr pos t kids]) t (q :: r)) ->
  (forall r, fails (Nt lr) (q :: r)) ->
  yields (Nt qr) ([q] ++ t ++ [q] ++ r)
    (fun ns => exists pos kids, ns = [Node qr pos ([q] ++ t ++ [q]) kids] /\
       match kids with Node _ _ t' _ :: _ => t' | [] => [] end = t) ([q] ++ t ++ [q]) r.
Proof.
  intros E Er Hy Hf.
  assert (G : pgood (gram qr)) by (rewrite E; unfold pgood, good; cbn; rewrite Er; reflexivity).
  eapply y_nt with (P := fun kids => match kids with Node _ _ t' _ :: _ => t' | [] => [] end = t); [|eauto].
  rewrite E in *.
  assert (G2 : pgood (Seq (Star (Nt lr)) (ch q))) by (unfold pgood, good; cbn; rewrite Er; reflexivity).
  assert (G3 : pgood (Star (Nt lr))) by (unfold pgood, good; cbn; rewrite Er; reflexivity).
  eapply y_seq with (P := nothing); [exact G|apply (y_lit [q]); reflexivity| |intros n1 n2 -> H2; exact H2].
  eapply y_seq with (P := fun kids => match kids with Node _ _ t' _ :: _ => t' | [] => [] end = t) (Q := nothing);
    [exact G2| |apply (y_lit [q]); reflexivity|intros n1 n2 H1 ->; rewrite app_nil_r; exact H1].
  destruct t as [|c t].
  - apply y_star_nil; [exact G3|apply Hf|reflexivity].
  - rewrite <- (app_nil_r (c :: t)) at 2. eapply y_star_cons with (Q := nothing); [exact G3|apply Hy; discriminate|apply y_star_nil; [exact G3|apply Hf|reflexivity]|].
    intros n1 n2 (pos & kids & ->) ->. reflexivity.
Qed.

(** ** a span *)
Definition plain (r : rule) : Prop := match r with subshell | proc_subst | command_subst => False | _ => True end.
Definition word_rule (w : word) : rule :=
  match w with Bare _ => Grammar_Model.word | Single _ => s_quoted | Double _ => d_quoted | Var _ => variable end.
Definition span_node (w : word) (n : pair_) : Prop :=
  exists p q, n = Node span p (typed_word w) [q] /\ (rule_of q = word_rule w /\ text_of q = typed_word w) /\ get_string q = meaning w.
Definition one (P : pair_ -> Prop) (ns : list pair_) : Prop := exists n, ns = [n] /\ P n.

Lemma unescape_bare l : valid_bare l -> unescape (bare l) = map snd l.
Proof.
  induction l as [|[b c] l IH]; intros V; [reflexivity|].
  assert (Vl : valid_bare l) by (intros b' c' H; apply (V b' c'); right; exact H).
  change (bare ((b, c) :: l)) with ((if b then [92%N; c] else [c]) ++ bare l). destruct b; cbn [app unescape map snd].
  - cbn [N.eqb Pos.eqb]. rewrite IH by exact Vl. reflexivity.
  - assert (O : ordinary c = true) by (apply (V false c); [left; reflexivity|reflexivity]).
    destruct (N.eqb_spec c 92) as [-> |]; [vm_compute in O; discriminate|]. rewrite IH by exact Vl. reflexivity.
Qed.

Lemma bare_start l r : valid_bare l -> l <> [] -> match bare l ++ r with c :: _ => c = 92%N \/ ordinary c = true | [] => False end.
Proof. intros V N. destruct (bare_head l r V N) as (c & s & -> & H). exact H. Qed.
Lemma ordinary_not c x : ordinary c = true -> ordinary x = false -> c <> x.
Proof. intros A B ->. congruence. Qed.

Lemma bare_of_ordinary f : forallb ordinary f = true ->
  let l := map (fun c => (false, c)) f in f = bare l /\ valid_bare l.
Proof.
  intros H l. split.
  - unfold l. clear. induction f as [|c f IH]; [reflexivity|]. change (c :: f = c :: bare (map (fun c => (false, c)) f)). rewrite <- IH. reflexivity.
  - intros b c Hin _. apply in_map_iff in Hin as (x & [= <- <-] & Hx). rewrite forallb_forall in H. apply H, Hx.
Qed.

(** a dollar sign starts neither a glob nor a brace word *)
Lemma f_no_pattern c s : c = 36%N -> fails (Nt glob_word) (c :: s) /\ fails (Nt brace_word) (c :: s).
Proof.
  intros ->. assert (Fw : fails word_char (36%N :: s)) by (apply f_word_char; vm_compute; auto 30).
  assert (Fe : fails (Nt escape_sequence) (36%N :: s)) by (apply f_escape; discriminate).
  assert (Fg : fails glob_char (36%N :: s)) by (apply f_one_of; [discriminate|cbn; intuition discriminate]).
  split; apply f_nt.
  - eapply f_seq_r with (P := nothing) (c := []) (r := 36%N :: s); [reflexivity| |apply f_seq_l; [reflexivity|exact Fg]].
    apply y_star_nil; [reflexivity| |reflexivity]. apply f_alt; [reflexivity|exact Fw|exact Fe].
  - eapply f_seq_r with (P := nothing) (c := []) (r := 36%N :: s); [reflexivity| |apply f_seq_l; [reflexivity|apply f_lit; reflexivity]].
    apply y_star_nil; [reflexivity| |reflexivity]. apply f_alt; [reflexivity|exact Fw|apply f_alt; [reflexivity|exact Fe|exact Fg]].
Qed.
Lemma y_span w r : valid_word w -> ends r -> yields (Nt span) (typed_word w ++ r) (one (span_node w)) (typed_word w) r.
Proof.
  intros V E.
  eapply y_nt with (P := one (fun q => (rule_of q = word_rule w /\ text_of q = typed_word w) /\ get_string q = meaning w));
    [|intros pos ns (q & -> & H1 & H2); eexists; split; [reflexivity|]; do 2 eexists; split; [reflexivity|split; assumption]].
  destruct w as [l|t|t|n].
  - destruct V as [N V].
    assert (V' : valid_bare l) by exact V.
    pose proof (bare_start l r V' N) as St.
    apply y_alt_r; [reflexivity| |apply y_alt_r; [reflexivity|apply f_glob_word; auto|apply y_alt_r; [reflexivity|apply f_brace_word; auto|]]].
    + apply f_quoted. unfold bare in St. destruct (typed_word (Bare l) ++ r); [exact I|].
      destruct St as [-> | St]; [split; discriminate|split; apply ordinary_not; auto; reflexivity].
    + apply y_alt_l; [reflexivity|]. eapply y_weaken; [apply y_word; auto|].
      intros ns (pos & kids & ->). eexists. split; [reflexivity|]. split; [split; reflexivity|]. cbn [get_string meaning]. exact (unescape_bare l V).
  - destruct V as [V1 V2]. apply y_alt_l; [reflexivity|]. apply y_alt_r; [reflexivity|apply f_d_quoted; discriminate|].
    cbn [typed_word]. rewrite <- !app_assoc. eapply y_weaken; [apply (y_quotes 39%N literal_s_quoted s_quoted)|]; try reflexivity.
    + intros N. apply y_s_literal; auto.
    + intros. apply f_s_literal.
    + intros ns (pos & kids & -> & H). eexists. split; [reflexivity|]. split; [split; reflexivity|]. exact H.
  - apply y_alt_l; [reflexivity|]. apply y_alt_l; [reflexivity|].
    cbn [typed_word]. rewrite <- !app_assoc. eapply y_weaken; [apply (y_quotes 34%N literal_d_quoted d_quoted)|]; try reflexivity.
    + intros N. apply y_d_literal; auto.
    + intros. apply f_d_literal.
    + intros ns (pos & kids & -> & H). eexists. split; [reflexivity|]. split; [split; reflexivity|]. exact H.
  - destruct V as [N O]. destruct (bare_of_ordinary n O) as [En Vn]. set (l := map (fun c => (false, c)) n) in *.
    assert (Nl : l <> []) by (unfold l; destruct n; [congruence|discriminate]).
    cbn [typed_word app].
    apply y_alt_r; [reflexivity|apply f_quoted; split; discriminate|].
    apply y_alt_r; [reflexivity|apply (f_no_pattern 36%N); reflexivity|].
    apply y_alt_r; [reflexivity|apply (f_no_pattern 36%N); reflexivity|].
    apply y_alt_r; [reflexivity| |].
    + apply f_nt. apply f_seq_l; [reflexivity|]. apply f_alt; [reflexivity|apply f_escape; discriminate|apply f_word_char; vm_compute; auto 30].
    + apply y_alt_l; [reflexivity|]. change (36%N :: n) with ([36%N] ++ n). change (36%N :: n ++ r) with ([36%N] ++ n ++ r).
      eapply y_nt with (P := fun _ => True); [|intros pos ns _; eexists; split; [reflexivity|]; split; [split; reflexivity|reflexivity]].
      eapply y_seq with (P := nothing) (Q := fun _ => True); [reflexivity|apply (y_lit [36%N]); reflexivity| |auto].
      rewrite En. eapply y_weaken; [apply y_word; auto|auto].
Qed.

(** ** where an argument list stops *)
Lemma f_dollar_quote r : fails (Nt d_quoted) (34%N :: 36%N :: r).
Proof.
  apply f_nt. eapply f_seq_r with (P := nothing); [reflexivity|apply (y_lit [34%N]); reflexivity|].
  eapply f_seq_r with (P := nothing) (c := []) (r := 36%N :: r); [reflexivity| |apply f_lit; reflexivity].
  apply y_star_nil; [reflexivity| |reflexivity]. apply f_nt. apply f_seq_l; [reflexivity|]. apply f_alt; [reflexivity| |apply f_alt; [reflexivity| |]].
  - apply f_seq_l; [reflexivity|]. eapply f_not with (P := nothing); [reflexivity|]. apply y_one_of. cbn. auto.
  - apply f_seq_l; [reflexivity|]. apply f_lit. reflexivity.
  - apply f_one_of; [discriminate|cbn; intuition discriminate].
Qed.
Definition hard (r : str) : Prop :=
  match r with c :: _ => In c [59; 38; 124; 10; 41; 96; 34]%N | [] => True end /\ starts_with (lit "&>") r = false /\ fails (Nt d_quoted) r.
Lemma hard_ends r : hard r -> ends r.
Proof. intros [H _]. destruct r as [|c r]; [exact I|]. unfold ends, ender. cbn in *. tauto. Qed.
Lemma hard_no_blank r : hard r -> no_blank r.
Proof. intros [H _]. destruct r as [|c r]; [exact I|]. cbn in H |- *. repeat (destruct H as [<- | H]; [reflexivity|]). contradiction. Qed.
Lemma gap_ends g r : gap g -> g <> [] -> ends (g ++ r).
Proof.
  intros G N. destruct g as [|c g]; [congruence|]. unfold gap in G. cbn [forallb] in G. apply andb_true_iff in G as [G _].
  apply mem_char_iff in G. cbn in *. unfold ender. cbn. tauto.
Qed.
Lemma gap_hard_ends g r : gap g -> hard r -> ends (g ++ r).
Proof. intros G H. destruct g; [apply hard_ends, H|apply gap_ends; [exact G|discriminate]]. Qed.

Lemma f_span_hard r : hard r -> fails (Nt span) r.
Proof.
  intros H. pose proof (hard_ends _ H) as E. destruct H as (H & _ & HQ).
  assert (D : forall x, ~ In x [59; 38; 124; 10; 41; 96; 34]%N -> match r with c :: _ => c <> x | [] => True end).
  { intros x Hx. destruct r; [exact I|]. intros ->. contradiction. }
  assert (D39 := D 39%N ltac:(cbn; intuition discriminate)).
  assert (D36 := D 36%N ltac:(cbn; intuition discriminate)). assert (D40 := D 40%N ltac:(cbn; intuition discriminate)).
  assert (D60 := D 60%N ltac:(cbn; intuition discriminate)).
  assert (D92 := D 92%N ltac:(cbn; intuition discriminate)).
  assert (Sp : match r with c :: _ => In c special | [] => True end) by (destruct r; [exact I|]; apply ender_special in E; tauto).
  apply f_nt. repeat (apply f_alt; [reflexivity| |]).
  - exact HQ.
  - apply f_s_quoted, D39.
  - apply (f_glob_word [] r); [intros b c []|exact E].
  - apply (f_brace_word [] r); [intros b c []|exact E].
  - apply f_nt, f_seq_l; [reflexivity|]. apply f_alt; [reflexivity|apply f_escape, D92|apply f_word_char, Sp].
  - apply f_variable, D36.
  - apply f_proc_subst, sw_head, D60.
  - apply f_subshell, D40.
  - apply f_command_subst, D36.
Qed.

(** redirections *)
Lemma f_directions s : starts_with (lit "&>") s = false -> starts_with (lit "2>") s = false ->
  match s with c :: _ => c <> 62%N /\ c <> 60%N | [] => True end -> fails (Nt redirect) s.
Proof.
  intros H1 H2 H3. apply f_nt, f_seq_l; [reflexivity|].
  assert (L : forall p q, starts_with p s = false -> starts_with (p ++ q) s = false).
  { intros p q H. destruct (starts_with (p ++ q) s) eqn:E; [|reflexivity]. apply starts_with_iff in E as [u ->].
    rewrite <- H. symmetry. apply starts_with_iff. exists (q ++ u). rewrite app_assoc. reflexivity. }
  assert (H4 : starts_with (lit ">") s = false) by (apply sw_head; destruct s; tauto).
  assert (H5 : starts_with (lit "<") s = false) by (apply sw_head; destruct s; tauto).
  repeat (apply f_alt; [reflexivity| |]); apply f_nt; try (apply f_alt; [reflexivity| |]); apply f_nt, f_lit; auto.
  - exact (L (lit "&>") (lit ">") H1).
  - exact (L (lit "2>") (lit ">") H2).
  - exact (L (lit ">") (lit ">") H4).
Qed.
Lemma f_redirect_hard r : hard r -> fails (Nt redirect) r.
Proof.
  intros (H1 & H2 & _). apply f_directions; [exact H2| |]; destruct r as [|c r]; try reflexivity; try exact I.
  - cbn in H1. repeat (destruct H1 as [<- | H1]; [reflexivity|]). contradiction.
  - cbn in H1. repeat (destruct H1 as [<- | H1]; [split; discriminate|]). contradiction.
Qed.
Lemma f_redirect_word w r : valid_word w -> ends r -> fails (Nt redirect) (typed_word w ++ r).
Proof.
  intros V E. destruct w as [l|t|t|n]; [|apply f_directions; try reflexivity; split; discriminate..].
  destruct V as [N V]. destruct l as [|[b c] l]; [congruence|]. clear N.
  cbn [typed_word flat_map]. destruct b; [apply f_directions; try reflexivity; split; discriminate|].
  assert (O : ordinary c = true) by (apply (V false c); [left; reflexivity|reflexivity]).
  cbn [app]. apply f_directions.
  - apply sw_head, ordinary_not; auto; reflexivity.
  - apply sw_second. destruct l as [|[b' c'] l]; cbn [flat_map app].
    + destruct r as [|d r]; [exact I|]. unfold ends, ender in E. cbn in E.
      repeat (destruct E as [<- | E]; [discriminate|]). contradiction.
    + destruct b'; [discriminate|]. cbn [app]. apply ordinary_not; [|reflexivity]. apply (V false c'); [right; left; reflexivity|reflexivity].
  - split; apply ordinary_not; auto; reflexivity.
Qed.

Definition dir_node (d : direction) (n : pair_) : Prop :=
  exists p q, n = Node match d with
      | OutTrunc | OutAppend => stdout_redirect_direction
      | ErrTrunc | ErrAppend => stderr_redirect_direction
      | BothTrunc | BothAppend => stdouterr_redirect_direction
      | FromFile => stdin_redirect_direction end p (typed_direction d) [q] /\
    rule_of q = match d with
      | OutTrunc => stdout_redirect_direction_out | OutAppend => stdout_redirect_direction_append
      | ErrTrunc => stderr_redirect_direction_out | ErrAppend => stderr_redirect_direction_append
      | BothTrunc => stdouterr_redirect_direction_out | BothAppend => stdouterr_redirect_direction_append
      | FromFile => stdin_redirect_direction_in end.

Definition redir_node (d : direction) (f : str) (n : pair_) : Prop :=
  exists p t dn sn, n = Node redirect p t [dn; sn] /\ dir_node d dn /\ span_node (Bare (map (fun c => (false, c)) f)) sn /\
    forall j, parse_redirect j [dn; sn] = set_redirect j (Some (redirection_for d f)).

Lemma y_direction d r : match r with c :: _ => blank c = true \/ ordinary c = true | [] => True end ->
  yields (Alt (Nt stdouterr_redirect_direction) (Alt (Nt stderr_redirect_direction)
            (Alt (Nt stdout_redirect_direction) (Nt stdin_redirect_direction)))) (typed_direction d ++ r) (one (dir_node d)) (typed_direction d) r.
Proof.
  intros H.
  assert (N : starts_with (lit ">") r = false).
  { apply sw_head. destruct r as [|c r]; [exact I|]. intros ->. destruct H as [H|H]; vm_compute in H; discriminate. }
  assert (Y : forall rl t, gram rl = Lit t -> yields (Nt rl) (t ++ r) (one (fun q => rule_of q = rl)) t r).
  { intros rl t E. eapply y_nt; [rewrite E; apply y_lit with (P := nothing); reflexivity|]. intros. eexists. split; reflexivity. }
  assert (F : forall rl t, gram rl = Lit t -> starts_with t (typed_direction d ++ r) = false -> fails (Nt rl) (typed_direction d ++ r)).
  { intros rl t E Hs. apply f_nt. rewrite E. apply f_lit, Hs. }
  assert (W : forall rl s t (P : pair_ -> Prop), yields (gram rl) s (one P) t r -> yields (Nt rl) s (one (fun n => exists p q, n = Node rl p t [q] /\ P q)) t r).
  { intros rl s t P HY. eapply y_nt; [exact HY|]. intros pos ns (q & -> & HP). eexists. split; [reflexivity|]. eauto. }
  destruct d; cbn [typed_direction] in *.
  - apply y_alt_r; [reflexivity| |apply y_alt_r; [reflexivity| |apply y_alt_l; [reflexivity|]]].
    + apply f_nt, f_alt; [reflexivity| |]; (eapply F; [reflexivity|reflexivity]).
    + apply f_nt, f_alt; [reflexivity| |]; (eapply F; [reflexivity|reflexivity]).
    + eapply y_weaken; [apply W; apply y_alt_r; [reflexivity| |apply Y; reflexivity]|].
      * eapply F; [reflexivity|]. exact N.
      * intros ns (n & -> & p & q & -> & Q). eexists. split; [reflexivity|]. do 2 eexists. split; [reflexivity|exact Q].
  - apply y_alt_r; [reflexivity| |apply y_alt_r; [reflexivity| |apply y_alt_l; [reflexivity|]]].
    + apply f_nt, f_alt; [reflexivity| |]; (eapply F; [reflexivity|reflexivity]).
    + apply f_nt, f_alt; [reflexivity| |]; (eapply F; [reflexivity|reflexivity]).
    + eapply y_weaken; [apply W; apply y_alt_l; [reflexivity|apply Y; reflexivity]|].
      intros ns (n & -> & p & q & -> & Q). eexists. split; [reflexivity|]. do 2 eexists. split; [reflexivity|exact Q].
  - apply y_alt_r; [reflexivity| |apply y_alt_l; [reflexivity|]].
    + apply f_nt, f_alt; [reflexivity| |]; (eapply F; [reflexivity|reflexivity]).
    + eapply y_weaken; [apply W; apply y_alt_r; [reflexivity| |apply Y; reflexivity]|].
      * eapply F; [reflexivity|]. exact N.
      * intros ns (n & -> & p & q & -> & Q). eexists. split; [reflexivity|]. do 2 eexists. split; [reflexivity|exact Q].
  - apply y_alt_r; [reflexivity| |apply y_alt_l; [reflexivity|]].
    + apply f_nt, f_alt; [reflexivity| |]; (eapply F; [reflexivity|reflexivity]).
    + eapply y_weaken; [apply W; apply y_alt_l; [reflexivity|apply Y; reflexivity]|].
      intros ns (n & -> & p & q & -> & Q). eexists. split; [reflexivity|]. do 2 eexists. split; [reflexivity|exact Q].
  - apply y_alt_l; [reflexivity|].
    eapply y_weaken; [apply W; apply y_alt_r; [reflexivity| |apply Y; reflexivity]|].
    + eapply F; [reflexivity|]. exact N.
    + intros ns (n & -> & p & q & -> & Q). eexists. split; [reflexivity|]. do 2 eexists. split; [reflexivity|exact Q].
  - apply y_alt_l; [reflexivity|].
    eapply y_weaken; [apply W; apply y_alt_l; [reflexivity|apply Y; reflexivity]|].
    intros ns (n & -> & p & q & -> & Q). eexists. split; [reflexivity|]. do 2 eexists. split; [reflexivity|exact Q].
  - apply y_alt_r; [reflexivity| |apply y_alt_r; [reflexivity| |apply y_alt_r; [reflexivity| |]]].
    + apply f_nt, f_alt; [reflexivity| |]; (eapply F; [reflexivity|reflexivity]).
    + apply f_nt, f_alt; [reflexivity| |]; (eapply F; [reflexivity|reflexivity]).
    + apply f_nt, f_alt; [reflexivity| |]; (eapply F; [reflexivity|reflexivity]).
    + eapply y_weaken; [apply W; apply Y; reflexivity|].
      intros ns (n & -> & p & q & -> & Q). eexists. split; [reflexivity|]. do 2 eexists. split; [reflexivity|exact Q].
Qed.

Lemma ordinary_not_blank c : ordinary c = true -> blank c = false.
Proof. intros O. destruct (blank c) eqn:B; [|reflexivity]. apply mem_char_iff in B. cbn in B. repeat (destruct B as [<- | B]; [vm_compute in O; discriminate|]). contradiction. Qed.
Lemma y_redirect d h f r : gap h -> f <> [] -> forallb ordinary f = true -> ends r ->
  yields (Nt redirect) (typed_direction d ++ h ++ f ++ r) (one (redir_node d f)) (typed_direction d ++ h ++ f) r.
Proof.
  intros G Nf O E. destruct (bare_of_ordinary f O) as [Ef Vf]. set (l := map (fun c => (false, c)) f) in *.
  assert (Nl : l <> []) by (unfold l; destruct f; [congruence|discriminate]).
  assert (NB : match f ++ r with c :: _ => ordinary c = true | [] => False end).
  { destruct f as [|c f]; [congruence|]. cbn in *. apply andb_true_iff in O. tauto. }
  eapply y_nt with (P := fun ns => exists dn sn, ns = [dn; sn] /\ dir_node d dn /\ span_node (Bare l) sn).
  - eapply y_seq with (P := one (dir_node d)) (Q := one (span_node (Bare l))); [reflexivity| | |].
    + apply y_direction. destruct h as [|c h]; cbn [app].
      * destruct (f ++ r); [exact I|]. right. exact NB.
      * left. unfold gap in G. cbn in G. apply andb_true_iff in G. tauto.
    + eapply y_seq with (P := nothing); [reflexivity|apply y_blanks; [exact G|]| |intros n1 n2 -> H2; exact H2].
      * destruct (f ++ r); [exact I|]. apply ordinary_not_blank, NB.
      * rewrite Ef. apply (y_span (Bare l)); [split; [exact Nl|exact Vf]|exact E].
    + intros n1 n2 (dn & -> & H1) (sn & -> & H2). exists dn, sn. repeat split; assumption.
  - intros pos ns (dn & sn & -> & Hd & Hs). eexists. split; [reflexivity|]. do 4 eexists. split; [reflexivity|]. split; [exact Hd|]. split; [exact Hs|].
    intros j. destruct Hd as (p & q & -> & Hq). destruct Hs as (p' & q' & -> & _).
    unfold parse_redirect. cbn [fold_left rule_of inner_of text_of]. change (typed_word (Bare l)) with (bare l). rewrite <- Ef.
    destruct d; cbn [rule_of inner_of]; rewrite Hq; reflexivity.
Qed.

(** ** items *)
Definition item_node (i : item) (n : pair_) : Prop :=
  match i with Arg _ w => span_node w n | Redir _ d _ f => redir_node d f n end.
Definition starts_word (s : str) : Prop := match s with c :: _ => blank c = false | [] => False end.
Lemma word_no_blank w r : valid_word w -> no_blank (typed_word w ++ r).
Proof.
  intros V. destruct w as [l|t|t|n]; [|reflexivity..]. destruct V as [N V]. pose proof (bare_start l r V N) as St. unfold bare in St.
  destruct (typed_word (Bare l) ++ r); [exact I|]. destruct St as [-> | O]; [reflexivity|]. cbn. apply ordinary_not_blank, O.
Qed.
Lemma direction_no_blank d r : no_blank (typed_direction d ++ r).
Proof. destruct d; reflexivity. Qed.

Lemma y_item i r : valid_item i -> ends r ->
  yields (Seq (Star sp) (Alt (Nt redirect) (Nt span))) (typed_item i ++ r) (one (item_node i)) (typed_item i) r.
Proof.
  intros V E. destruct i as [g w|g d h f]; cbn [typed_item valid_item item_node] in *.
  - destruct V as (G & N & V). rewrite <- app_assoc. eapply y_seq with (P := nothing); [reflexivity|apply y_blanks; [exact G|apply word_no_blank, V]| |intros n1 n2 -> H2; exact H2].
    apply y_alt_r; [reflexivity|apply f_redirect_word; auto|apply y_span; auto].
  - destruct V as (G & N & H & Nf & O). rewrite <- !app_assoc. eapply y_seq with (P := nothing); [reflexivity|apply y_blanks; [exact G|apply direction_no_blank]| |intros n1 n2 -> H2; exact H2].
    apply y_alt_l; [reflexivity|]. apply y_redirect; auto.
Qed.
Lemma f_item_end g r : gap g -> hard r -> fails (Seq (Star sp) (Alt (Nt redirect) (Nt span))) (g ++ r).
Proof.
  intros G H. eapply f_seq_r; [reflexivity|apply y_blanks; [exact G|apply hard_no_blank, H]|].
  apply f_alt; [reflexivity|apply f_redirect_hard, H|apply f_span_hard, H].
Qed.
Lemma items_ends its g r : Forall valid_item its -> gap g -> hard r -> ends (flat_map typed_item its ++ g ++ r).
Proof.
  intros V G H. destruct its as [|i its]; cbn [flat_map app]; [apply gap_hard_ends; auto|].
  inversion V as [|? ? Vi _]; subst. destruct i as [g' w|g' d h f]; cbn [typed_item valid_item] in *; rewrite <- ?app_assoc; [|apply gap_ends; tauto].
  destruct Vi as (Gg & Q & _). destruct g' as [|b g']; [|apply gap_ends; [exact Gg|discriminate]]. destruct Q as [Q|Q]; [congruence|]. destruct w; try contradiction; unfold ends, ender; cbn; tauto.
Qed.
Lemma y_items its g r : Forall valid_item its -> gap g -> hard r ->
  yields (Star (Seq (Star sp) (Alt (Nt redirect) (Nt span)))) (flat_map typed_item its ++ g ++ r) (Forall2 item_node its) (flat_map typed_item its) (g ++ r).
Proof.
  intros V G H. induction V as [|i its Vi V IH].
  - apply y_star_nil; [reflexivity|apply f_item_end; auto|constructor].
  - cbn [flat_map]. rewrite <- app_assoc. eapply y_star_cons with (P := one (item_node i)); [reflexivity| |exact IH|].
    + apply y_item; [exact Vi|apply items_ends; auto].
    + intros n1 n2 (n & -> & Hn) H2. constructor; assumption.
Qed.

(** the [args] pairs of a command: one with all items, or none *)
Definition args_nodes (its : list item) (ns : list pair_) : Prop :=
  (its = [] /\ ns = []) \/ exists p t inner, ns = [Node args p t inner] /\ Forall2 item_node its inner.
Lemma f_args_end g r : gap g -> hard r -> fails (Nt args) (g ++ r).
Proof. intros G H. apply f_nt, f_seq_l; [reflexivity|]. apply f_item_end; auto. Qed.
Lemma y_args its g r : Forall valid_item its -> gap g -> hard r ->
  yields (Star (Nt args)) (flat_map typed_item its ++ g ++ r) (args_nodes its) (flat_map typed_item its) (g ++ r).
Proof.
  intros V G H. destruct its as [|i its].
  - apply y_star_nil; [reflexivity|apply f_args_end; auto|left; auto].
  - rewrite <- (app_nil_r (flat_map typed_item (i :: its))) at 2.
    eapply y_star_cons with (Q := nothing); [reflexivity| |apply y_star_nil; [reflexivity|apply f_args_end; auto|reflexivity]|].
    + inversion V as [|? ? Vi V']; subst.
      eapply y_nt with (P := Forall2 item_node (i :: its)) (T := args_nodes (i :: its)).
      * cbn [flat_map]. rewrite <- app_assoc. eapply y_seq with (P := one (item_node i)); [reflexivity|apply y_item; [exact Vi|apply items_ends; auto]|apply y_items; auto|].
        intros n1 n2 (n & -> & Hn) H2. constructor; assumption.
      * intros pos ns F. right. do 3 eexists. split; [reflexivity|exact F].
    + intros n1 n2 H1 ->. rewrite app_nil_r. exact H1.
Qed.

(** ** one command *)
Definition simple_node (w : word) (its : list item) (n : pair_) : Prop :=
  exists p t p0 t0 s ns, n = Node simple_command p t (Node argv0 p0 t0 [s] :: ns) /\ span_node w s /\ args_nodes its ns.

Lemma y_simple g w its t r : gap g -> valid_word w -> Forall valid_item its -> gap t -> hard r ->
  yields (Nt simple_command) (g ++ typed_word w ++ flat_map typed_item its ++ t ++ r) (one (simple_node w its))
    (g ++ typed_word w ++ flat_map typed_item its) (t ++ r).
Proof.
  intros G V Vi T H.
  eapply y_nt with (P := fun ns => exists p0 t0 s l, ns = Node argv0 p0 t0 [s] :: l /\ span_node w s /\ args_nodes its l);
    [|intros pos ns (p0 & t0 & s & l & -> & H1 & H2); eexists; split; [reflexivity|]; do 6 eexists; split; [reflexivity|split; assumption]].
  eapply y_seq with (P := nothing); [reflexivity|apply y_blanks; [exact G|apply word_no_blank, V]| |intros n1 n2 -> H2; exact H2].
  eapply y_seq with (P := one (fun n => exists p0 t0 s, n = Node argv0 p0 t0 [s] /\ span_node w s)) (Q := args_nodes its); [reflexivity| |apply y_args; auto|].
  - eapply y_nt; [apply y_span; [exact V|apply items_ends; auto]|]. intros pos ns (s & -> & Hs). eexists. split; [reflexivity|]. eauto 6.
  - intros n1 n2 (n & -> & p0 & t0 & s & -> & Hs) H2. do 4 eexists. split; [reflexivity|split; assumption].
Qed.
Lemma f_argv0_hard g r : gap g -> hard r -> fails (Nt simple_command) (g ++ r).
Proof.
  intros G H. apply f_nt. eapply f_seq_r; [reflexivity|apply y_blanks; [exact G|apply hard_no_blank, H]|].
  apply f_seq_l; [reflexivity|]. apply f_nt, f_span_hard, H.
Qed.
Lemma f_bg_hard g r : gap g -> hard r -> fails (Seq (Star sp) (Nt simple_command_bg)) (g ++ r).
Proof.
  intros G H. eapply f_seq_r; [reflexivity|apply y_blanks; [exact G|apply hard_no_blank, H]|].
  apply f_nt, f_seq_l; [reflexivity|]. apply (f_argv0_hard [] r); [reflexivity|exact H].
Qed.

Definition bg_node (w : word) (its : list item) (g : str) (n : pair_) : Prop :=
  exists p s p' k, n = Node simple_command_bg p (typed_word w ++ flat_map typed_item its ++ g ++ [38%N]) [s; Node background_op p' (lit "&") k] /\ simple_node w its s.
(** after [&]: neither [&>] nor [&&] *)
Definition after_bg (r : str) : Prop := match r with c :: _ => c <> 62%N /\ c <> 38%N | [] => True end.
Lemma hard_amp r : after_bg r -> hard (38%N :: r).
Proof.
  intros A. split; [cbn; auto|]. split; [|apply f_d_quoted; discriminate]. destruct r as [|c r]; [reflexivity|]. destruct A as [A _].
  apply sw_second. exact A.
Qed.
Lemma y_bg w its t r : valid_word w -> Forall valid_item its -> gap t -> after_bg r ->
  yields (Nt simple_command_bg) (typed_word w ++ flat_map typed_item its ++ t ++ 38%N :: r) (one (bg_node w its t))
    (typed_word w ++ flat_map typed_item its ++ t ++ [38%N]) r.
Proof.
  intros V Vi T A. pose proof (hard_amp r A) as H.
  eapply y_nt with (P := fun ns => exists s p' k, ns = [s; Node background_op p' (lit "&") k] /\ simple_node w its s);
    [|intros pos ns (s & p' & k & -> & Hs); eexists; split; [reflexivity|]; do 4 eexists; split; [reflexivity|exact Hs]].
  replace (typed_word w ++ flat_map typed_item its ++ t ++ [38%N]) with (([] ++ typed_word w ++ flat_map typed_item its) ++ t ++ [38%N])
    by (cbn [app]; rewrite <- !app_assoc; reflexivity).
  eapply y_seq with (P := one (simple_node w its)) (Q := fun ns => exists p' k, ns = [Node background_op p' (lit "&") k]);
    [reflexivity|apply (y_simple [] w its t (38%N :: r)); auto; reflexivity| |intros n1 n2 (s & -> & Hs) (p' & k & ->); do 3 eexists; split; [reflexivity|exact Hs]].
  eapply y_seq with (P := nothing) (Q := fun ns => exists p' k, ns = [Node background_op p' (lit "&") k]); [reflexivity|apply y_blanks; [exact T|reflexivity]| |intros n1 n2 -> H2; exact H2].
  eapply y_nt with (P := nothing); [|intros pos ns ->; do 2 eexists; reflexivity]. change [38%N] with ([] ++ [38%N]).
  eapply y_seq with (P := nothing) (Q := nothing); [reflexivity| |apply (y_lit [38%N] r); reflexivity|intros n1 n2 -> ->; reflexivity].
  apply y_not; [reflexivity| |reflexivity]. apply f_lit. destruct r as [|c r]; [reflexivity|]. destruct A as [_ A].
  apply sw_second. exact A.
Qed.
(** not a background command: what follows is not [&], or is [&&] *)
Definition not_amp (r : str) : Prop := starts_with (lit "&") r = false \/ starts_with (lit "&&") r = true.
Lemma f_bg_not g w its t r : gap g -> valid_word w -> Forall valid_item its -> gap t -> hard r -> not_amp r ->
  fails (Nt simple_command_bg) (g ++ typed_word w ++ flat_map typed_item its ++ t ++ r).
Proof.
  intros G V Vi T H A. apply f_nt. eapply f_seq_r; [reflexivity|apply y_simple; auto|].
  eapply f_seq_r; [reflexivity|apply y_blanks; [exact T|apply hard_no_blank, H]|]. apply f_nt. destruct A as [A|A].
  - eapply f_seq_r with (P := nothing) (c := []) (r := r); [reflexivity| |apply f_lit, A].
    apply y_not; [reflexivity| |reflexivity]. apply f_lit. apply sw_head. destruct r as [|c r]; [exact I|]. intros ->. discriminate A.
  - apply f_seq_l; [reflexivity|]. apply starts_with_iff in A as [u ->]. eapply f_not with (P := nothing); [reflexivity|]. apply y_lit. reflexivity.
Qed.

(** ** the commands of a segment *)
Definition cmd_text (c : cmdline) : str := typed_word (name c) ++ flat_map typed_item (items c) ++ trail c.
Definition is_bar (o : pair_) : Prop := exists p, o = Node pipeline_op p (lit "|") [].
Definition pipe_node (c : cmdline) (n : pair_) : Prop :=
  exists p t o s, n = Node pipe_command p t [o; s] /\ is_bar o /\ simple_node (name c) (items c) s.
Definition first_node (c : cmdline) (n : pair_) : Prop := simple_node (name c) (items c) n.
Definition back_node (c : cmdline) (n : pair_) : Prop := bg_node (name c) (items c) (trail c) n.

Lemma blank_not c : blank c = true -> c <> 62%N /\ c <> 58%N /\ c <> 38%N /\ c <> 124%N.
Proof. intros B. apply mem_char_iff in B. cbn in B. repeat (destruct B as [<- | B]; [repeat split; discriminate|]). contradiction. Qed.

Definition bar_ok (r : str) : Prop := not_amp r /\ hard r.

Lemma y_pipe c r : valid_cmd c -> lead c <> [] -> bar_ok r ->
  yields (Nt pipe_command) (124%N :: typed_cmd c ++ r) (one (pipe_node c)) (124%N :: typed_cmd c) r.
Proof.
  intros (G & T & V & Vi) N [A H]. unfold typed_cmd.
  eapply y_nt with (P := fun ns => exists o s, ns = [o; s] /\ is_bar o /\ simple_node (name c) (items c) s);
    [|intros pos ns (o & s & -> & H1 & H2); eexists; split; [reflexivity|]; do 4 eexists; split; [reflexivity|split; assumption]].
  change (124%N :: (lead c ++ typed_word (name c) ++ flat_map typed_item (items c) ++ trail c))
    with ([124%N] ++ (lead c ++ typed_word (name c) ++ flat_map typed_item (items c) ++ trail c)).
  eapply y_seq with (P := one is_bar) (Q := one (simple_node (name c) (items c))); [reflexivity| | |].
  - eapply y_nt with (P := nothing); [|intros pos ns ->; eexists; split; [reflexivity|eexists; reflexivity]]. change [124%N] with ([] ++ [124%N]).
    eapply y_seq with (P := nothing) (Q := nothing); [reflexivity| |apply (y_lit [124%N]); reflexivity|intros n1 n2 -> ->; reflexivity].
    apply y_not; [reflexivity| |reflexivity]. destruct (lead c) as [|b g]; [congruence|]. unfold gap in G. cbn [forallb] in G. apply andb_true_iff in G as [B _].
    apply blank_not in B as (B1 & B2 & _). apply f_alt; [reflexivity| |]; apply f_lit; apply sw_second; assumption.
  - rewrite <- !app_assoc.
    eapply y_seq with (P := nothing); [reflexivity|apply y_blanks; [exact G|apply word_no_blank, V]| |intros n1 n2 -> H2; exact H2].
    replace (typed_word (name c) ++ flat_map typed_item (items c) ++ trail c)
      with ((typed_word (name c) ++ flat_map typed_item (items c)) ++ trail c) by (rewrite <- app_assoc; reflexivity).
    eapply y_seq with (P := one (simple_node (name c) (items c))) (Q := nothing); [reflexivity| |apply y_blanks; [exact T|apply hard_no_blank, H]|intros n1 n2 H1 ->; rewrite app_nil_r; exact H1].
    apply y_alt_r; [reflexivity|apply (f_bg_not [] (name c) (items c) (trail c) r); auto; reflexivity|].
    apply (y_simple [] (name c) (items c) (trail c) r); auto. reflexivity.
  - intros n1 n2 (o & -> & H1) (s & -> & H2). do 2 eexists. split; [reflexivity|split; assumption].
Qed.

(** texts no rule can read further: they begin with a newline, a closing parenthesis, a
    backquote, or a double-quoted text that begins with a dollar sign *)
Definition dead (r : str) : Prop :=
  exists u, r = 10%N :: u \/ r = 41%N :: u \/ r = 96%N :: u \/ r = 34%N :: 36%N :: u.
(** what may follow a segment: the end, an operator, or a dead text *)
Definition segment_end (r : str) : Prop :=
  r = [] \/ (exists u, r = 59%N :: u) \/ (exists u, r = 38%N :: 38%N :: u) \/ (exists u, r = 124%N :: 124%N :: u) \/ dead r.
Ltac ends_cases H := destruct H as [-> | [[? ->] | [[? ->] | [[? ->] | [? [-> | [-> | [-> | ->]]]]]]]].
Lemma segment_end_ok r : segment_end r -> bar_ok r.
Proof. unfold bar_ok, not_amp, hard. intros E. ends_cases E; repeat split; cbn; auto 12; try (apply f_d_quoted; try exact I; discriminate). Qed.
Lemma bar_more r : bar_ok (124%N :: r).
Proof. unfold bar_ok, not_amp, hard. repeat split; cbn; auto. Qed.

Definition pipes_text (cs : list cmdline) : str := flat_map (fun c => 124%N :: typed_cmd c) cs.
Lemma pipes_ok cs r : segment_end r -> bar_ok (pipes_text cs ++ r).
Proof. intros E. destruct cs; cbn; [apply segment_end_ok, E|apply bar_more]. Qed.
Lemma f_pipes_end r : segment_end r -> fails (Alt (Nt struct_pipe_command) (Nt pipe_command)) r.
Proof.
  intros E. apply f_alt; [reflexivity| |].
  - apply f_nt, f_seq_l; [reflexivity|]. apply f_nt, f_lit. ends_cases E; reflexivity.
  - apply f_nt. ends_cases E.
    1-3, 5-8: apply f_seq_l; [reflexivity|]; apply f_nt; eapply f_seq_r with (P := nothing); [reflexivity|apply y_not; [reflexivity| |reflexivity]; apply f_alt; [reflexivity| |]; apply f_lit; reflexivity|apply f_lit; reflexivity].
    eapply f_seq_r with (P := fun _ => True) (c := [124%N]) (r := 124%N :: x); [reflexivity| |].
    + eapply y_nt with (P := nothing); [|auto]. change [124%N] with ([] ++ [124%N]).
      eapply y_seq with (P := nothing) (Q := nothing); [reflexivity| |apply (y_lit [124%N]); reflexivity|intros n1 n2 -> ->; reflexivity].
      apply y_not; [reflexivity| |reflexivity]. apply f_alt; [reflexivity| |]; apply f_lit; reflexivity.
    + destruct (bar_more x) as [_ H].
      eapply f_seq_r; [reflexivity|apply (y_blanks []); [reflexivity|reflexivity]|]. apply f_seq_l; [reflexivity|].
      apply f_alt; [reflexivity|apply f_nt, f_seq_l; [reflexivity|]|]; apply (f_argv0_hard [] (124%N :: x)); auto; reflexivity.
Qed.
Lemma y_pipes cs r : Forall valid_cmd cs -> Forall (fun c => lead c <> []) cs -> segment_end r ->
  yields (Star (Alt (Nt struct_pipe_command) (Nt pipe_command))) (pipes_text cs ++ r) (Forall2 pipe_node cs) (pipes_text cs) r.
Proof.
  intros V L E. induction cs as [|c cs IH].
  - apply y_star_nil; [reflexivity|apply f_pipes_end, E|constructor].
  - inversion V as [|? ? Vc V']; subst. inversion L as [|? ? Lc L']; subst.
    change (pipes_text (c :: cs)) with ((124%N :: typed_cmd c) ++ pipes_text cs). rewrite <- app_assoc.
    eapply y_star_cons with (P := one (pipe_node c)); [reflexivity| |apply IH; auto|intros n1 n2 (n & -> & Hn) H2; constructor; assumption].
    apply y_alt_r; [reflexivity| |apply y_pipe; auto; apply pipes_ok, E].
    apply f_nt, f_seq_l; [reflexivity|]. apply f_nt, f_lit. unfold typed_cmd. destruct (lead c) as [|b g] eqn:Lg; [congruence|].
    destruct Vc as (G & _). rewrite Lg in G. unfold gap in G. cbn [forallb] in G. apply andb_true_iff in G as [B _].
    apply blank_not in B as (_ & B2 & _). apply sw_second. exact B2.
Qed.

Lemma typed_cmd_assoc c r : typed_cmd c ++ r = lead c ++ typed_word (name c) ++ flat_map typed_item (items c) ++ trail c ++ r.
Proof. unfold typed_cmd. rewrite <- !app_assoc. reflexivity. Qed.

Lemma y_back c r : valid_cmd c -> after_bg r ->
  yields (Alt (Seq (Star sp) (Nt simple_command_bg)) (Nt simple_command)) (typed_cmd c ++ 38%N :: r) (one (back_node c)) (typed_cmd c ++ [38%N]) r.
Proof.
  intros (G & T & V & Vi) A. rewrite !typed_cmd_assoc. apply y_alt_l; [reflexivity|].
  eapply y_seq with (P := nothing); [reflexivity|apply y_blanks; [exact G|apply word_no_blank, V]|apply y_bg; auto|intros n1 n2 -> H2; exact H2].
Qed.
Lemma y_first c r : valid_cmd c -> bar_ok r ->
  yields (Alt (Seq (Star sp) (Nt simple_command_bg)) (Nt simple_command)) (typed_cmd c ++ r) (one (first_node c))
    (lead c ++ typed_word (name c) ++ flat_map typed_item (items c)) (trail c ++ r).
Proof.
  intros (G & T & V & Vi) [A H]. rewrite typed_cmd_assoc. apply y_alt_r; [reflexivity| |apply y_simple; auto].
  eapply f_seq_r; [reflexivity|apply y_blanks; [exact G|apply word_no_blank, V]|].
  apply (f_bg_not [] (name c) (items c) (trail c) r); auto. reflexivity.
Qed.
Lemma f_more g r : gap g -> hard r -> fails (Alt (Seq (Star sp) (Nt simple_command_bg)) (Nt simple_command)) (g ++ r).
Proof. intros G H. apply f_alt; [reflexivity|apply f_bg_hard; auto|apply f_argv0_hard; auto]. Qed.

Lemma word_start_ok w r : valid_word w -> after_bg (typed_word w ++ r).
Proof.
  intros V. destruct w as [l|t|t|n]; [|split; discriminate..]. destruct V as [N V]. pose proof (bare_start l r V N) as St. unfold bare in St.
  destruct (typed_word (Bare l) ++ r); [exact I|]. destruct St as [-> | O]; [split; discriminate|]. split; apply ordinary_not; auto; reflexivity.
Qed.
Lemma cmd_start_ok c r : valid_cmd c -> after_bg (typed_cmd c ++ r).
Proof.
  intros (G & _ & V & _). rewrite typed_cmd_assoc. destruct (lead c) as [|b g]; [apply word_start_ok, V|].
  unfold gap in G. cbn [forallb] in G. apply andb_true_iff in G as [B _]. apply blank_not in B. cbn. tauto.
Qed.

Definition segment_nodes (g : segment) (ns : list pair_) : Prop :=
  exists b f p, ns = b ++ f ++ p /\ Forall2 back_node (bgs g) b /\
    Forall2 first_node (firstn 1 (pipe g)) f /\ Forall2 pipe_node (skipn 1 (pipe g)) p.

Definition backs_text (cs : list cmdline) : str := flat_map (fun c => typed_cmd c ++ lit "&") cs.
Lemma y_backs cs r P c r' : Forall valid_cmd cs -> after_bg r ->
  yields (Star (Alt (Seq (Star sp) (Nt simple_command_bg)) (Nt simple_command))) r P c r' ->
  yields (Star (Alt (Seq (Star sp) (Nt simple_command_bg)) (Nt simple_command))) (backs_text cs ++ r)
    (fun ns => exists b f, ns = b ++ f /\ Forall2 back_node cs b /\ P f) (backs_text cs ++ c) r'.
Proof.
  intros V A Y. induction V as [|d cs Vd V IH].
  - cbn [backs_text flat_map app]. eapply y_weaken; [exact Y|]. intros ns H. exists [], ns. auto.
  - change (backs_text (d :: cs)) with ((typed_cmd d ++ [38%N]) ++ backs_text cs). rewrite <- !app_assoc.
    rewrite (app_assoc (typed_cmd d) [38%N] (backs_text cs ++ c)).
    eapply y_star_cons with (P := one (back_node d)); [reflexivity| |exact IH|].
    + apply (y_back d (backs_text cs ++ r)); [exact Vd|]. destruct V as [|e cs Ve V]; [exact A|].
      change (backs_text (e :: cs)) with ((typed_cmd e ++ [38%N]) ++ backs_text cs). rewrite <- !app_assoc. apply cmd_start_ok, Ve.
    + intros n1 n2 (n & -> & Hn) (b & f & -> & H1 & H2). exists (n :: b), f. repeat split; auto.
Qed.

Lemma typed_segment_eq g : typed_segment g =
  backs_text (bgs g) ++ match pipe g with [] => [] | c :: cs => typed_cmd c ++ pipes_text cs end.
Proof.
  unfold typed_segment, backs_text. f_equal. destruct (pipe g) as [|c cs]; [reflexivity|].
  cbn [map]. change (typed_cmd c :: map typed_cmd cs) with ([] ++ typed_cmd c :: map typed_cmd cs). rewrite join_with_mid. cbn [map concat app].
  f_equal. unfold pipes_text. rewrite flat_map_concat_map, map_map. reflexivity.
Qed.

Definition command_text_node (t : str) (g : segment) (n : pair_) : Prop := exists p inner, n = Node command p t inner /\ segment_nodes g inner.
Lemma y_command g r : valid_segment g -> segment_end r -> (pipe g = [] -> after_bg r) ->
  yields (Nt command) (typed_segment g ++ r) (one (command_text_node (typed_segment g) g)) (typed_segment g) r.
Proof.
  intros (V & N & L) E A. apply Forall_app in V as [Vb Vp]. rewrite typed_segment_eq.
  eapply y_nt with (P := segment_nodes g); [|intros pos ns H; eexists; split; [reflexivity|]; do 2 eexists; split; [reflexivity|exact H]].
  pose proof (segment_end_ok _ E) as [Eamp Eh].
  assert (Hcap : yields (Opt (Nt capture_suffix)) r nothing [] r).
  { apply y_opt_none; [reflexivity| |reflexivity]. apply f_nt. eapply f_seq_r; [reflexivity|apply (y_blanks [] r); [reflexivity|apply hard_no_blank, Eh]|].
    apply f_nt, f_lit. ends_cases E; reflexivity. }
  destruct (pipe g) as [|c cs] eqn:Ep.
  - rewrite app_nil_r. rewrite <- (app_nil_r (backs_text (bgs g))) at 2.
    eapply y_seq with (P := fun ns => exists b f, ns = b ++ f /\ Forall2 back_node (bgs g) b /\ f = []) (Q := nothing); [reflexivity| | |].
    + rewrite <- (app_nil_r (backs_text (bgs g))) at 2. apply (y_backs (bgs g) r nothing [] r); [exact Vb|apply A; reflexivity|].
      apply y_star_nil; [reflexivity|apply (f_more [] r); [reflexivity|exact Eh]|reflexivity].
    + change (@nil char) with ((@nil char) ++ []). eapply y_seq with (P := nothing); [reflexivity|apply (y_blanks [] r); [reflexivity|apply hard_no_blank, Eh]| |intros n1 n2 -> H2; exact H2].
      change (@nil char) with ((@nil char) ++ []). eapply y_seq with (P := nothing); [reflexivity|apply y_star_nil; [reflexivity|apply f_pipes_end, E|reflexivity]|exact Hcap|intros n1 n2 -> H2; exact H2].
    + intros n1 n2 (b & f & -> & Hb & ->) ->. exists b, [], []. rewrite Ep. rewrite !app_nil_r. repeat split; auto; constructor.
  - inversion Vp as [|? ? Vc Vcs]; subst. cbn [tl] in L.
    rewrite <- !app_assoc. unfold typed_cmd at 2.
    replace (backs_text (bgs g) ++ (lead c ++ typed_word (name c) ++ flat_map typed_item (items c) ++ trail c) ++ pipes_text cs)
      with ((backs_text (bgs g) ++ lead c ++ typed_word (name c) ++ flat_map typed_item (items c)) ++ trail c ++ pipes_text cs ++ [])
      by (rewrite app_nil_r, <- !app_assoc; reflexivity).
    pose proof (pipes_ok cs r E) as [Pamp Ph].
    eapply y_seq with (P := fun ns => exists b f, ns = b ++ f /\ Forall2 back_node (bgs g) b /\ one (first_node c) f) (Q := Forall2 pipe_node cs); [reflexivity| | |].
    + apply y_backs with (r := typed_cmd c ++ pipes_text cs ++ r); [exact Vb|apply cmd_start_ok, Vc|].
      rewrite <- (app_nil_r (lead c ++ typed_word (name c) ++ flat_map typed_item (items c))).
      eapply y_star_cons with (Q := nothing); [reflexivity|apply y_first; [exact Vc|split; assumption]| |intros n1 n2 H1 ->; rewrite app_nil_r; exact H1].
      apply y_star_nil; [reflexivity|apply f_more; [apply Vc|exact Ph]|reflexivity].
    + eapply y_seq with (P := nothing); [reflexivity|apply y_blanks; [apply Vc|apply hard_no_blank, Ph]| |intros n1 n2 -> H2; exact H2].
      eapply y_seq with (P := Forall2 pipe_node cs); [reflexivity|apply y_pipes; auto|exact Hcap|intros n1 n2 H1 ->; rewrite app_nil_r; exact H1].
    + intros n1 n2 (b & f & -> & Hb & n & -> & Hf) Hp. exists b, [n], n2. rewrite Ep. rewrite <- app_assoc. repeat split; auto. constructor; [exact Hf|constructor].
Qed.

(** ** the line *)
(** the segment without its first blanks: the rule [commands] reads those itself *)
Definition unlead_cmd (c : cmdline) : cmdline := CmdLine [] (name c) (items c) (trail c).
Definition unlead (g : segment) : segment :=
  match bgs g, pipe g with
  | c :: cs, p => Segment (unlead_cmd c :: cs) p
  | [], c :: cs => Segment [] (unlead_cmd c :: cs)
  | [], [] => g
  end.
Definition lead_of (g : segment) : str :=
  match bgs g, pipe g with c :: _, _ => lead c | [], c :: _ => lead c | [], [] => [] end.
Lemma unlead_text g : typed_segment g = lead_of g ++ typed_segment (unlead g).
Proof.
  rewrite !typed_segment_eq. unfold unlead, lead_of. destruct (bgs g) as [|c cs] eqn:Eb, (pipe g) as [|d ds] eqn:Ep; rewrite ?Eb, ?Ep; cbn [bgs pipe backs_text flat_map app]; unfold typed_cmd; cbn [lead name items trail unlead_cmd app];
    rewrite <- ?app_assoc; cbn [app]; reflexivity.
Qed.
Lemma unlead_valid_cmd c : valid_cmd c -> valid_cmd (unlead_cmd c).
Proof. intros (G & T & V & Vi). repeat split; auto. Qed.
Lemma unlead_valid g : valid_segment g -> valid_segment (unlead g).
Proof.
  intros (V & N & L). unfold valid_segment, unlead. destruct (bgs g) as [|c cs], (pipe g) as [|d ds] eqn:Ep; cbn [bgs pipe app tl] in *; try congruence.
  - inversion V; subst. repeat split; [constructor; [apply unlead_valid_cmd; auto|auto]|discriminate|exact L].
  - inversion V; subst. repeat split; [constructor; [apply unlead_valid_cmd; auto|auto]|discriminate|constructor].
  - inversion V; subst. repeat split; [constructor; [apply unlead_valid_cmd; auto|auto]|discriminate|exact L].
Qed.
Lemma unlead_pipe g : pipe (unlead g) = [] <-> pipe g = [].
Proof. unfold unlead. destruct (bgs g) as [|c cs], (pipe g) as [|d ds] eqn:Ep; cbn [pipe]; rewrite ?Ep; split; congruence. Qed.
Lemma unlead_gap g : valid_segment g -> gap (lead_of g).
Proof.
  intros (V & N & L). unfold lead_of. destruct (bgs g) as [|c cs], (pipe g) as [|d ds]; cbn [app] in *; try congruence; inversion V as [|? ? Vc _]; subst; apply Vc.
Qed.
Lemma unlead_no_blank g r : valid_segment g -> no_blank (typed_segment (unlead g) ++ r).
Proof.
  intros (V & N & L). rewrite typed_segment_eq. unfold unlead. destruct (bgs g) as [|c cs], (pipe g) as [|d ds]; cbn [bgs pipe app backs_text flat_map] in *; try congruence;
    inversion V as [|? ? Vc _]; subst; unfold typed_cmd; cbn [lead name items trail unlead_cmd app]; rewrite <- !app_assoc; apply word_no_blank, Vc.
Qed.
Lemma unlead_nodes g ns : segment_nodes (unlead g) ns -> segment_nodes g ns.
Proof.
  unfold segment_nodes, unlead. destruct (bgs g) as [|c cs] eqn:Eb, (pipe g) as [|d ds] eqn:Ep; cbn [bgs pipe]; rewrite ?Eb, ?Ep; cbn [firstn skipn]; intros (b & f & p & -> & H1 & H2 & H3); exists b, f, p; repeat split; auto.
  - inversion H2; subst. constructor; auto.
  - inversion H1; subst. constructor; auto.
  - inversion H1; subst. constructor; auto.
Qed.

Definition command_node (g : segment) (n : pair_) : Prop := command_text_node (typed_segment (unlead g)) g n.
Lemma y_segment g r : valid_segment g -> segment_end r -> (pipe g = [] -> after_bg r) ->
  yields (Seq (Star sp) (Nt command)) (typed_segment g ++ r) (one (command_node g)) (typed_segment g) r.
Proof.
  intros V E A. rewrite unlead_text, <- app_assoc.
  eapply y_seq with (P := nothing); [reflexivity|apply y_blanks; [apply unlead_gap, V|apply unlead_no_blank, V]| |intros n1 n2 -> H2; exact H2].
  eapply y_weaken; [apply y_command; [apply unlead_valid, V|exact E|rewrite unlead_pipe; exact A]|].
  intros ns (n & -> & p & inner & -> & H). eexists. split; [reflexivity|]. do 2 eexists. split; [reflexivity|apply unlead_nodes, H].
Qed.

Definition sep_node (s : separator) (n : pair_) : Prop :=
  exists p q, n = Node command_list_sep p (typed_sep s) [q] /\ rule_of q = match s with Semi => sequential_op | AndIf => and_op | OrIf => or_op end.
Lemma y_sep s r : yields (Nt command_list_sep) (typed_sep s ++ r) (one (sep_node s)) (typed_sep s) r.
Proof.
  eapply y_nt with (P := one (fun q => rule_of q = match s with Semi => sequential_op | AndIf => and_op | OrIf => or_op end));
    [|intros pos ns (q & -> & H); eexists; split; [reflexivity|]; do 2 eexists; split; [reflexivity|exact H]].
  assert (Y : forall rl t, gram rl = Lit t -> yields (Nt rl) (t ++ r) (one (fun q => rule_of q = rl)) t r).
  { intros rl t E. eapply y_nt; [rewrite E; apply y_lit with (P := nothing); reflexivity|]. intros. eexists. split; reflexivity. }
  destruct s; cbn [typed_sep].
  - apply y_alt_l; [reflexivity|]. apply Y. reflexivity.
  - apply y_alt_r; [reflexivity|apply f_nt, f_lit; reflexivity|]. apply y_alt_l; [reflexivity|]. apply Y. reflexivity.
  - apply y_alt_r; [reflexivity|apply f_nt, f_lit; reflexivity|]. apply y_alt_r; [reflexivity|apply f_nt, f_lit; reflexivity|]. apply Y. reflexivity.
Qed.

Definition rest_text (r : list (separator * segment)) : str :=
  flat_map (fun sg : separator * segment => typed_sep (fst sg) ++ typed_segment (snd sg)) r.
Fixpoint rest_nodes (r : list (separator * segment)) (ns : list pair_) : Prop :=
  match r with
  | [] => ns = []
  | (s, g) :: r' => exists a b l, ns = a :: b :: l /\ sep_node s a /\ command_node g b /\ rest_nodes r' l
  end.
Definition stop (t : str) : Prop := t = [] \/ dead t.
Lemma rest_end r t : stop t -> segment_end (rest_text r ++ t).
Proof.
  intros St. destruct r as [|[[] g] r]; [destruct St as [-> | D]; [left; reflexivity|repeat right; exact D]|right; left|right; right; left|right; right; right; left];
    (eexists; unfold rest_text; cbn [flat_map fst snd typed_sep]; rewrite <- !app_assoc; reflexivity).
Qed.
Lemma rest_after prev r t : stop t -> valid_rest prev r -> pipe prev = [] -> after_bg (rest_text r ++ t).
Proof.
  intros St. destruct r as [|[s g] r].
  - intros _ _. destruct St as [-> | [u [-> | [-> | [-> | ->]]]]]; [exact I|split; discriminate..].
  - intros (_ & H & _) E. specialize (H E). destruct s; [split; discriminate|congruence|split; discriminate].
Qed.
Lemma y_rest r t : stop t -> forall prev, valid_rest prev r ->
  yields (Star (Seq (Nt command_list_sep) (Seq (Star sp) (Nt command)))) (rest_text r ++ t) (rest_nodes r) (rest_text r) t.
Proof.
  intros St. induction r as [|[s g] r IH]; intros prev V.
  - apply y_star_nil; [reflexivity| |reflexivity]. apply f_seq_l; [reflexivity|].
    apply f_nt. repeat (apply f_alt; [reflexivity| |]); apply f_nt, f_lit; (destruct St as [-> | [u [-> | [-> | [-> | ->]]]]]; reflexivity).
  - destruct V as (Vg & Hs & Vr). change (rest_text ((s, g) :: r)) with ((typed_sep s ++ typed_segment g) ++ rest_text r). rewrite <- app_assoc.
    eapply y_star_cons with (P := fun ns => exists a b, ns = [a; b] /\ sep_node s a /\ command_node g b); [reflexivity| |apply (IH g), Vr|].
    + rewrite <- app_assoc. eapply y_seq with (P := one (sep_node s)) (Q := one (command_node g)); [reflexivity|apply y_sep|apply y_segment; [exact Vg|apply rest_end, St|apply (rest_after g r t St Vr)]|].
      intros n1 n2 (a & -> & Ha) (b & -> & Hb). exists a, b. repeat split; assumption.
    + intros n1 n2 (a & b & -> & Ha & Hb) H2. exists a, b, n2. repeat split; assumption.
Qed.

Definition line_node (l : line) (n : pair_) : Prop :=
  exists p t c rest, n = Node commands p t (c :: rest) /\ command_node (fst l) c /\ rest_nodes (snd l) rest.
Theorem y_line l t : valid_line l -> stop t -> yields (Nt commands) (typed_line l ++ t) (one (line_node l)) (typed_line l) t.
Proof.
  destruct l as [g r]. intros [Vg Vr] St. cbn [fst snd] in *. unfold typed_line. cbn [fst snd]. fold (rest_text r). rewrite <- app_assoc.
  eapply y_nt with (P := fun ns => exists c rest, ns = c :: rest /\ command_node g c /\ rest_nodes r rest);
    [|intros pos ns (c & rest & -> & H1 & H2); eexists; split; [reflexivity|]; do 4 eexists; split; [reflexivity|split; assumption]].
  eapply y_seq with (P := one (command_node g)) (Q := rest_nodes r); [reflexivity|apply y_segment; [exact Vg|apply rest_end, St|apply (rest_after g r t St Vr)]|apply (y_rest r t St g), Vr|].
  intros n1 n2 (c & -> & H1) H2. exists c, n2. repeat split; assumption.
Qed.
