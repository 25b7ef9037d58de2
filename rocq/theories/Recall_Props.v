(** C231-C233: history, out and read. *)
From Verif Require Import Base Recall_Model Recall_Spec.
From Verif Require Numerals Lread_Model Lread_Props Direnv_Model History_Model History_Spec History_Props Output_Model Output_Spec Output_Props Env_Model Env_Spec Env_Props.

(** ** C231: history *)

Definition applied (o : options) (i : item) : options :=
  match i with
  | IHelp _ => set_help o
  | IVerbose _ => set_verbose o
  | IQuery _ v => set_query o v
  | IScope _ v => set_scope o (parse_scope v)
  | IStatus v => set_status o (parse_status v)
  | ISlow v => set_slow o (Numerals.parse_usize v)
  | ILimit _ v => match Numerals.parse_usize v with Some n => set_limit o (N.max n 1) | None => o end
  | IWord w => match query o with None => set_query o w | Some _ => o end
  end.
Lemma parse_said i r o : (forall w, i = IWord w -> ~ In w option_words) -> parse (said i ++ r) o = parse r (applied o i).
Proof.
  intros W. destruct i as [[]|[]|[] v|[] v|v|v|[] v|w]; try reflexivity. cbn [said app applied parse].
  specialize (W w eq_refl). unfold option_words in W.
  assert (X : forall l, incl l option_words -> mem_str w l = false).
  { intros l H. destruct (mem_str w l) eqn:E; [|reflexivity]. apply mem_str_iff in E. destruct W. apply H. exact E. }
  rewrite !X by (unfold option_words; intros x I; cbn [In] in *; tauto). reflexivity.
Qed.
Lemma parse_items its : forall o, Forall well_said its -> parse (flat_map said its) o = fold_left applied its o.
Proof.
  induction its as [|i its IH]; intros o F; [reflexivity|]. inversion F as [|? ? W F']; subst. cbn [flat_map fold_left].
  rewrite parse_said; [apply IH; exact F'|]. intros w ->. exact W.
Qed.

Lemma last_snoc {A} (f : item -> option A) its i a : Last f its a ->
  Last f (its ++ [i]) (match f i with Some x => Some x | None => a end).
Proof.
  intros L. destruct (f i) as [x|] eqn:E.
  - exists its, i, []. auto.
  - destruct a as [y|]; cbn [Last] in *.
    + destruct L as (b & j & c & -> & F & N). exists b, j, (c ++ [i]). rewrite <- app_assoc. split; [reflexivity|]. split; [exact F|].
      apply Forall_app. auto.
    + apply Forall_app. auto.
Qed.
Lemma first_snoc {A} (f : item -> option A) its i a : First f its a ->
  First f (its ++ [i]) (match a with Some x => Some x | None => f i end).
Proof.
  intros L. destruct a as [x|]; cbn [First] in *.
  - destruct L as (b & j & c & -> & F & N). exists b, j, (c ++ [i]). rewrite <- app_assoc. auto.
  - destruct (f i) as [x|] eqn:E; cbn [First].
    + exists its, i, []. auto.
    + apply Forall_app. auto.
Qed.

Lemma number_parse v n : Number v n -> Numerals.parse_usize v = Some n.
Proof.
  intros [L D]. apply Numerals.parse_usize_iff. split; [|auto]. unfold Numerals.usize_max.
  change (2 ^ 64)%N with 18446744073709551616%N in L. lia.
Qed.
Lemma scope_word v s : Scope_word v s -> parse_scope v = s.
Proof. intros []; reflexivity. Qed.
Lemma status_word v s : Status_word v s -> parse_status v = s.
Proof. intros []; reflexivity. Qed.

Definition query_for (here : place) (o : options) : History_Model.query :=
  History_Model.Query (query o) (scope o) (status o) (slow o) (Some (N.to_nat (limit o))) (at_dir here) (at_project here) (at_session here).

Lemma asked_for here its : Forall well_said its -> Asked its (query_for here (fold_left applied its defaults)).
Proof.
  induction its as [|i its IH] using rev_ind; intros F.
  - constructor; cbn.
    + exists None, None. repeat split; constructor.
    + exists None. repeat split; constructor.
    + exists None. repeat split; constructor.
    + exists None. repeat split; constructor.
    + exists None. split; [constructor|reflexivity].
  - apply Forall_app in F as [F W]. inversion W as [|? ? Wi _]; subst. specialize (IH F). clear F W.
    rewrite fold_left_app. cbn [fold_left]. set (o := fold_left applied its defaults) in *. clearbody o.
    destruct IH as [(qo & w & L1 & L2 & Q) (s & L3 & S') (t & L4 & T) (d & L5 & D) (n & L6 & M)]. cbn in Q, S', T, D, M.
    apply (last_snoc _ _ i) in L1, L3, L4, L5, L6. apply (first_snoc _ _ i) in L2.
    constructor; eexists; cbn.
    + eexists. split; [exact L1|]. split; [exact L2|]. destruct i as [?|?|? v|? v|v|v|? v|v]; cbn; try (destruct w; exact Q).
      * reflexivity.
      * destruct (Numerals.parse_usize v); destruct w; exact Q.
      * rewrite Q. destruct qo; [exact Q|]. destruct w; [exact Q|reflexivity].
    + split; [exact L3|]. destruct i as [?|?|? v|? v|v|v|? v|v]; cbn; try exact S'.
      * destruct Wi as (x & Wi). rewrite (scope_word _ _ Wi). exact Wi.
      * destruct (Numerals.parse_usize v); exact S'.
      * destruct (query o); exact S'.
    + split; [exact L4|]. destruct i as [?|?|? v|? v|v|v|? v|v]; cbn; try exact T.
      * destruct Wi as (x & Wi). rewrite (status_word _ _ Wi). exact Wi.
      * destruct (Numerals.parse_usize v); exact T.
      * destruct (query o); exact T.
    + split; [exact L5|]. destruct i as [?|?|? v|? v|v|v|? v|v]; cbn; try exact D.
      * destruct Wi as (x & Wi). exists x. split; [exact Wi|]. apply number_parse. exact Wi.
      * destruct (Numerals.parse_usize v); exact D.
      * destruct (query o); exact D.
    + split; [exact L6|]. destruct i as [?|?|? v|? v|v|v|? v|v]; cbn; try exact M.
      * destruct Wi as (x & Wi & G). exists x. split; [exact Wi|]. rewrite (number_parse _ _ Wi). cbn. f_equal. f_equal. lia.
      * destruct (query o); exact M.
Qed.
Lemma helped its : forall o, help (fold_left applied its o) = help o || existsb (fun i => match i with IHelp _ => true | _ => false end) its.
Proof.
  induction its as [|i its IH]; intros o; cbn [fold_left existsb]; [rewrite orb_false_r; reflexivity|]. rewrite IH.
  destruct i as [?|?|? v|? v|v|v|? v|v]; cbn; try reflexivity.
  - rewrite orb_true_r. reflexivity.
  - destruct (Numerals.parse_usize v); reflexivity.
  - destruct (query o); reflexivity.
Qed.
Lemma detailed its : forall o, verbose (fold_left applied its o) = verbose o || existsb (fun i => match i with IVerbose _ => true | _ => false end) its.
Proof.
  induction its as [|i its IH]; intros o; cbn [fold_left existsb]; [rewrite orb_false_r; reflexivity|]. rewrite IH.
  destruct i as [?|?|? v|? v|v|v|? v|v]; cbn; try reflexivity.
  - rewrite orb_true_r. reflexivity.
  - destruct (Numerals.parse_usize v); reflexivity.
  - destruct (query o); reflexivity.
Qed.
Lemma filters_iff here o : has_filters o = true <->
  History_Model.text (query_for here o) <> None \/ History_Model.qscope (query_for here o) <> History_Model.Global \/
  History_Model.qstatus (query_for here o) <> History_Model.AnyStatus \/ History_Model.min_duration (query_for here o) <> None.
Proof.
  unfold has_filters. cbn. destruct (query o), (scope o), (status o), (slow o); cbn; split; intros H; try reflexivity; try discriminate;
    try (left; discriminate); try (right; left; discriminate); try (right; right; left; discriminate); try (right; right; right; discriminate);
    destruct H as [H|[H|[H|H]]]; destruct H; reflexivity.
Qed.

(** Whatever was done before and whatever is said, in any order, history lists the newest entries wanted by
    the query that was asked, newest first, in a line each: the command, with details if they are asked for or
    if the entries are filtered. *)
Theorem C231_listed : forall lower stamp here ops name its, Forall well_said its -> (forall l, ~ In (IHelp l) its) ->
  let h := History_Model.run lower History_Model.new_history ops in
  exists q f n line, Asked its q /\
    History_Model.current_cwd q = at_dir here /\ History_Model.current_project q = at_project here /\
    History_Model.current_session q = at_session here /\
    (forall e, f e = true <-> History_Spec.wanted lower q e) /\ History_Model.limit q = Some n /\
    (forall e, ((exists l, In (IVerbose l) its) \/ History_Model.text q <> None \/ History_Model.qscope q <> History_Model.Global \/
                History_Model.qstatus q <> History_Model.AnyStatus \/ History_Model.min_duration q <> None) /\
               line e = format_entry stamp e \/
               (forall l, ~ In (IVerbose l) its) /\ History_Model.text q = None /\ History_Model.qscope q = History_Model.Global /\
               History_Model.qstatus q = History_Model.AnyStatus /\ History_Model.min_duration q = None /\
               line e = History_Model.cmd e) /\
    history lower stamp here h (name :: flat_map said its) = Some (map line (firstn n (filter f (rev (History_Model.hs h))))).
Proof.
  intros lower stamp here ops name its W H h. set (o := fold_left applied its defaults).
  destruct (History_Props.C54_history_search_exact lower ops (query_for here o)) as (f & F & E).
  exists (query_for here o), f, (N.to_nat (limit o)),
    (fun e => if verbose o || has_filters o then format_entry stamp e else History_Model.cmd e).
  split; [apply asked_for; exact W|]. split; [reflexivity|]. split; [reflexivity|]. split; [reflexivity|].
  split; [exact F|]. split; [reflexivity|]. split.
  - intros e. assert (VO : verbose o = existsb (fun i => match i with IVerbose _ => true | _ => false end) its) by (unfold o; rewrite detailed; reflexivity).
    cbv beta. rewrite VO. destruct (existsb _ its) eqn:V; cbn [orb].
    + left. split; [|reflexivity]. left. apply existsb_exists in V as (i & J & V). destruct i; try discriminate. eauto.
    + destruct (has_filters o) eqn:X.
      * left. split; [|reflexivity]. right. apply filters_iff. exact X.
      * right. split.
        { intros l J. assert (Y : existsb (fun i => match i with IVerbose _ => true | _ => false end) its = true); [|congruence].
          apply existsb_exists. exists (IVerbose l). auto. }
        cbn [query_for History_Model.text History_Model.qscope History_Model.qstatus History_Model.min_duration].
        unfold has_filters in X. destruct (query o), (scope o), (status o), (slow o); try discriminate X. repeat split; reflexivity.
  - unfold history. cbn [tl]. rewrite parse_items by exact W. fold o.
    assert (Z : help o = false).
    { unfold o. rewrite helped. cbn [help defaults orb]. destruct (existsb _ its) eqn:X; [|reflexivity].
      apply existsb_exists in X as (i & I & X). destruct i; try discriminate. destruct (H _ I). }
    rewrite Z. cbv zeta. f_equal. f_equal. exact E.
Qed.
(** With -h or --help anywhere, only the help is shown. *)
Theorem C231_help : forall lower stamp here h name its l, Forall well_said its -> In (IHelp l) its ->
  history lower stamp here h (name :: flat_map said its) = None.
Proof.
  intros lower stamp here h name its l W I. unfold history. cbn [tl]. rewrite parse_items by exact W. rewrite helped.
  replace (existsb _ its) with true; [rewrite orb_true_r; reflexivity|]. symmetry. apply existsb_exists. exists (IHelp l). auto.
Qed.
(** The columns of a line with details: the status and the duration as they are kept, the directory, the command. *)
Theorem C231_columns : forall stamp e, exists when status took dir,
  format_entry stamp e = columns [when; status; took; dir; History_Model.cmd e] /\
  when = stamp (History_Model.when e) /\
  match History_Model.exit_code (History_Model.outcome e) with
  | None => status = lit "-"
  | Some c => c = 0%Z /\ status = lit "ok" \/ c <> 0%Z /\ status = lit "err:" ++ Lread_Model.show_int c
  end /\
  match History_Model.duration (History_Model.outcome e) with
  | None => took = lit "-"
  | Some d => exists t, Numerals.Dec t d /\ took = t ++ lit "ms"
  end /\
  match History_Model.cwd (History_Model.outcome e) with None => dir = lit "-" | Some d => dir = d end.
Proof.
  intros stamp e. unfold format_entry, columns. eexists _, _, _, _. cbn [join_with]. split; [reflexivity|]. split; [reflexivity|]. split; [|split].
  - destruct (History_Model.exit_code (History_Model.outcome e)) as [[|p|p]|]; [left; auto|right; split; [discriminate|reflexivity]..|reflexivity].
  - destruct (History_Model.duration (History_Model.outcome e)) as [d|]; [|reflexivity]. eexists. split; [apply Lread_Props.show_nat_Dec|reflexivity].
  - destruct (History_Model.cwd (History_Model.outcome e)); reflexivity.
Qed.

Lemma word_query w o : ~ In w option_words -> query o = None -> forall r, parse (w :: r) o = parse r (set_query o w).
Proof.
  intros W Q r. change (w :: r) with (said (IWord w) ++ r). rewrite parse_said; [|intros w' [= <-]; exact W]. cbn [applied]. rewrite Q. reflexivity.
Qed.
(** A second word is dropped without a message: history cargo build lists what has cargo in it. *)
Theorem C231_second_word_refuted : forall lower stamp here h name w more, ~ In w option_words -> Forall (fun x => ~ In x option_words) more ->
  history lower stamp here h (name :: w :: more) = history lower stamp here h [name; w].
Proof.
  intros lower stamp here h name w more W F. unfold history. cbn [tl]. rewrite !(word_query w) by (exact W || reflexivity).
  replace (parse more (set_query defaults w)) with (parse [] (set_query defaults w)); [reflexivity|].
  clear W. induction F as [|x more X F IH]; [reflexivity|]. rewrite IH. clear IH. symmetry.
  change (x :: more) with (said (IWord x) ++ more). rewrite parse_said; [reflexivity|]. intros w' [= <-]. exact X.
Qed.
(** An option that does not exist is not refused: it is what is searched for. *)
Theorem C231_unknown_option_refuted : forall lower stamp here h name rest,
  history lower stamp here h (name :: (lit "--" ++ rest) :: []) = history lower stamp here h [name; lit "--query"; lit "--" ++ rest] \/
  In (lit "--" ++ rest) option_words.
Proof.
  intros. destruct (in_dec str_eq_dec (lit "--" ++ rest) option_words) as [I|I]; [right; exact I|left].
  unfold history. cbn [tl]. rewrite word_query by (exact I || reflexivity). reflexivity.
Qed.
(** A scope or a status that does not exist is taken for all: nothing is filtered and nothing is said. *)
Theorem C231_unknown_value_refuted : forall lower stamp here h name v,
  (~ (exists s, Scope_word v s) -> history lower stamp here h [name; lit "--scope"; v] = history lower stamp here h [name]) /\
  (~ (exists s, Status_word v s) -> v <> lit "failed" -> history lower stamp here h [name; lit "--status"; v] = history lower stamp here h [name]) /\
  (Numerals.parse_usize v = None -> forall n, history lower stamp here h [name; lit "--slow"; n; lit "--slow"; v] = history lower stamp here h [name]).
Proof.
  intros lower stamp here h name v. split; [|split].
  - intros X. replace (history lower stamp here h [name; lit "--scope"; v])
      with (let o := set_scope defaults (parse_scope v) in
            Some (map (fun e => if verbose o || has_filters o then format_entry stamp e else History_Model.cmd e)
                      (History_Model.search_entries lower (query_for here o) h))) by reflexivity.
    replace (parse_scope v) with History_Model.Global; [reflexivity|]. unfold parse_scope.
    destruct (str_eqb_spec v (lit "session")) as [->|_]; [destruct X; eexists; apply sw_session|].
    destruct (str_eqb_spec v (lit "cwd")) as [->|_]; [destruct X; eexists; apply sw_cwd|].
    destruct (str_eqb_spec v (lit "project")) as [->|_]; [destruct X; eexists; apply sw_project|reflexivity].
  - intros X Y. replace (history lower stamp here h [name; lit "--status"; v])
      with (let o := set_status defaults (parse_status v) in
            Some (map (fun e => if verbose o || has_filters o then format_entry stamp e else History_Model.cmd e)
                      (History_Model.search_entries lower (query_for here o) h))) by reflexivity.
    replace (parse_status v) with History_Model.AnyStatus; [reflexivity|]. unfold parse_status.
    destruct (str_eqb_spec v (lit "success")) as [->|_]; [destruct X; eexists; apply tw_success|].
    destruct (str_eqb_spec v (lit "failure")) as [->|_]; [destruct X; eexists; apply tw_failure|].
    destruct (str_eqb_spec v (lit "failed")) as [->|_]; [destruct Y; reflexivity|reflexivity].
  - intros X n. replace (history lower stamp here h [name; lit "--slow"; n; lit "--slow"; v])
      with (let o := set_slow (set_slow defaults (Numerals.parse_usize n)) (Numerals.parse_usize v) in
            Some (map (fun e => if verbose o || has_filters o then format_entry stamp e else History_Model.cmd e)
                      (History_Model.search_entries lower (query_for here o) h))) by reflexivity.
    rewrite X. reflexivity.
Qed.
(** Without options the whole history is not listed: 200 entries at most. *)
Theorem C231_all_refuted : forall lower stamp here ops name,
  let h := History_Model.run lower History_Model.new_history ops in
  exists l, history lower stamp here h [name] = Some l /\ length l <= 200 /\
    l = firstn 200 (map History_Model.cmd (rev (History_Model.hs h))).
Proof.
  intros lower stamp here ops name h.
  destruct (History_Props.C54_history_search_exact lower ops (query_for here defaults)) as (f & F & E).
  assert (X : filter f (rev (History_Model.hs h)) = rev (History_Model.hs h)).
  { assert (T : forall e, f e = true). { intros e. apply F. unfold History_Spec.wanted. cbn. repeat split; intros; discriminate. }
    generalize (rev (History_Model.hs h)). intros l. induction l as [|e l IH]; [reflexivity|]. cbn [filter]. rewrite T, IH. reflexivity. }
  exists (firstn 200 (map History_Model.cmd (rev (History_Model.hs h)))). split; [|split; [apply firstn_le_length|reflexivity]].
  unfold history. cbn [tl parse help defaults]. cbv zeta. f_equal. rewrite firstn_map. rewrite <- X.
  cbn [verbose has_filters query scope status slow defaults orb]. f_equal. exact E.
Qed.

(** ** C232: out *)

Lemma out_var_number i : (i < 2 ^ 64)%N -> forall e, Env_Model.get_var e (out_var i) = captured e (N.to_nat i).
Proof.
  intros L e. unfold Env_Model.get_var.
  assert (P : Output_Model.parse_output_var (out_var i) (lit "OUT") = Some i).
  { apply Output_Props.C22_output_names_exact; [auto|]. unfold out_var. change (lit "OUT[") with (lit "OUT" ++ lit "["). rewrite <- app_assoc.
    apply Output_Spec.den_index; [left; apply Lread_Props.show_nat_Dec|exact L]. }
  rewrite P. unfold captured, Output_Model.get. destruct (N.to_nat i) as [|k] eqn:K; [reflexivity|].
  destruct ((S k =? 0) || (length (Output_Model.entries (Env_Model.history e)) <? S k)) eqn:B.
  - apply orb_true_iff in B as [B|B]; [discriminate|]. apply Nat.ltb_lt in B.
    replace (nth_error _ k) with (@None Output_Model.entry); [reflexivity|]. symmetry. apply nth_error_None. lia.
  - cbn [Nat.sub]. rewrite Nat.sub_0_r. reflexivity.
Qed.

Definition shows (a : answer) (c : option str) : Prop :=
  match c with
  | Some [] => a = Printed [lit "(empty output)"]
  | Some s => a = Printed [s]
  | None => exists m, a = Refused m
  end.
Lemma show_shows e i : (i < 2 ^ 64)%N -> shows (show_output e i) (captured e (N.to_nat i)).
Proof. intros L. unfold show_output. rewrite (out_var_number i L). destruct (captured e (N.to_nat i)) as [[|c s]|]; cbn; eauto. Qed.

(** out shows what the newest captured command wrote, out N what the N-th newest wrote. *)
Theorem C232_shown : forall e name,
  shows (fst (out e [name])) (captured e 1) /\
  (forall w n more, Number w n -> (1 <= n)%N -> shows (fst (out e (name :: w :: more))) (captured e (N.to_nat n))) /\
  forall w more, Number w 0 -> exists m, fst (out e (name :: w :: more)) = Refused m.
Proof.
  intros e name. split; [exact (show_shows e 1 eq_refl)|].
  assert (X : forall w n, Number w n -> forall l, Forall (fun x => match x with c :: _ => (c = chr "-")%N | [] => False end) l -> mem_str w l = false).
  { intros w n W l F. destruct (mem_str w l) eqn:M; [|reflexivity]. apply mem_str_iff in M. rewrite Forall_forall in F. specialize (F _ M).
    destruct W as [_ D]. apply Numerals.Dec_iff in D as (_ & D & _). destruct w as [|c w]; [destruct F|]. subst c.
    inversion D as [|? ? Z _]; subst. discriminate. }
  split.
  - intros w n more W L. unfold out. cbn [tl fst].
    rewrite !(X w n W) by (repeat (apply Forall_cons; [reflexivity|]); apply Forall_nil). rewrite (number_parse _ _ W).
    destruct n as [|p]; [lia|]. apply show_shows. apply W.
  - intros w more W. unfold out. cbn [tl fst].
    rewrite !(X w 0%N W) by (repeat (apply Forall_cons; [reflexivity|]); apply Forall_nil). rewrite (number_parse _ _ W). eauto.
Qed.

Definition short_first (s : str) : Prop := match Direnv_Model.lines s with l :: _ => blen l <= 60 | [] => True end.
Lemma preview_short s : short_first s -> preview s = Some (match Direnv_Model.lines s with l :: _ => l | [] => lit "(empty)" end).
Proof.
  unfold short_first, preview. destruct (Direnv_Model.lines s) as [|l r]; [reflexivity|]. intros L.
  destruct (Nat.ltb_spec 60 (blen l)); [lia|reflexivity].
Qed.
Definition row_of (i : nat) (s : str) : str :=
  lit "  [" ++ Lread_Model.show_nat (N.of_nat i) ++ lit "] " ++ Lread_Model.show_nat (N.of_nat (length (Direnv_Model.lines s))) ++
  lit " lines, " ++ Lread_Model.show_nat (N.of_nat (blen s)) ++ lit " bytes: " ++
  match Direnv_Model.lines s with l :: _ => l | [] => lit "(empty)" end.

Lemma rows_all e : forall n k, k + n < 100 ->
  (forall c, In c (firstn n (skipn k (Output_Model.entries (Env_Model.history e)))) -> short_first (Output_Model.out c)) ->
  rows e (N.of_nat (S k)) n =
  Some (map (fun p => row_of (fst p) (Output_Model.out (snd p)))
            (combine (seq (S k) n) (firstn n (skipn k (Output_Model.entries (Env_Model.history e)))))).
Proof.
  induction n as [|n IH]; intros k L F; [reflexivity|]. cbn [rows].
  assert (B : (N.of_nat (S k) < 2 ^ 64)%N) by (change (2 ^ 64)%N with 18446744073709551616%N; lia).
  rewrite (out_var_number _ B). rewrite Nat2N.id. cbn [captured].
  destruct (nth_error (Output_Model.entries (Env_Model.history e)) k) as [c|] eqn:E.
  - cbn [option_map].
    assert (Sk : skipn k (Output_Model.entries (Env_Model.history e)) = c :: skipn (S k) (Output_Model.entries (Env_Model.history e))).
    { revert E. generalize (Output_Model.entries (Env_Model.history e)). clear. induction k as [|k IH]; intros [|x l]; cbn; try discriminate; [intros [= <-]; reflexivity|apply IH]. }
    rewrite Sk in F |- *. cbn [firstn seq combine map fst snd].
    rewrite preview_short by (apply F; left; reflexivity).
    replace (N.of_nat (S k) + 1)%N with (N.of_nat (S (S k))) by lia.
    rewrite IH; [reflexivity|lia|]. intros x I. apply F. right. exact I.
  - cbn [option_map]. replace (skipn k _) with (@nil Output_Model.entry); [reflexivity|]. symmetry. apply skipn_all2.
    apply nth_error_None in E. exact E.
Qed.
(** out --list shows the ten newest captures, each with its number, its lines, its bytes and its first line. *)
Theorem C232_list_partial : forall e name l, In l [lit "--list"; lit "-l"] ->
  (forall c, In c (firstn 10 (Output_Model.entries (Env_Model.history e))) -> short_first (Output_Model.out c)) ->
  Output_Model.entries (Env_Model.history e) <> [] ->
  fst (out e [name; l]) =
  Printed (map (fun p => row_of (fst p) (Output_Model.out (snd p)))
               (combine (seq 1 10) (firstn 10 (Output_Model.entries (Env_Model.history e))))).
Proof.
  intros e name l I F N. unfold out. cbn [tl fst]. replace (mem_str l [lit "--list"; lit "-l"]) with true by (symmetry; apply mem_str_iff; exact I).
  unfold list_outputs. change 1%N with (N.of_nat 1). rewrite (rows_all e 10 0); [|lia|exact F].
  rewrite (skipn_O (Output_Model.entries (Env_Model.history e))). destruct (Output_Model.entries (Env_Model.history e)) as [|c r]; [congruence|reflexivity].
Qed.
(** Older captures, which out N still shows, are not in the list. *)
Theorem C232_eleventh_refuted : forall e name c ls, 
  nth_error (Output_Model.entries (Env_Model.history e)) 10 = Some c -> Output_Model.out c <> [] ->
  fst (out e [name; lit "--list"]) = Printed ls ->
  length ls <= 10 /\ fst (out e [name; lit "11"]) = Printed [Output_Model.out c].
Proof.
  intros e name c ls E N H. split.
  - assert (B : forall n i r, rows e i n = Some r -> length r <= n).
    { induction n as [|n IH]; intros i r; cbn [rows]; [intros [= <-]; apply le_n|].
      destruct (Env_Model.get_var e (out_var i)) as [s|]; [|intros [= <-]; apply Nat.le_0_l].
      destruct (preview s); [|discriminate]. destruct (rows e (i + 1) n) as [r'|] eqn:R; [|discriminate]. intros [= <-].
      cbn [length]. apply le_n_S. exact (IH _ _ R). }
    change (list_outputs e = Printed ls) in H. unfold list_outputs in H. destruct (rows e 1 10) as [r|] eqn:R; [|discriminate].
    apply B in R. destruct r as [|x r]; injection H as <-; [cbn; lia|exact R].
  - destruct (C232_shown e name) as [_ [S' _]]. specialize (S' (lit "11") 11%N []).
    assert (Q : captured e (N.to_nat 11) = Some (Output_Model.out c)) by (cbn [captured]; change (N.to_nat 11) with 11; cbn [captured]; rewrite E; reflexivity).
    rewrite Q in S'. assert (X : Number (lit "11") 11%N).
    { split; [reflexivity|]. apply (Numerals.Dec_more (lit "1") 1%N 1%N); [apply (Numerals.Dec_digit 1%N); reflexivity|reflexivity]. }
    specialize (S' X). cbn [shows] in S'. destruct (Output_Model.out c) as [|x s]; [congruence|]. apply S'. lia.
Qed.
(** A long first line whose 57th byte is inside a character stops the shell. *)
Theorem C232_cut_refuted : forall e name c line rest,
  Output_Model.entries (Env_Model.history e) = c :: rest ->
  (exists more, Direnv_Model.lines (Output_Model.out c) = line :: more) ->
  60 < blen line -> split_byte line 57 = None -> fst (out e [name; lit "--list"]) = Panicked.
Proof.
  intros e name c line rest E [more L] B C. change (list_outputs e = Panicked). unfold list_outputs. cbn [rows].
  rewrite (out_var_number 1 eq_refl). change (N.to_nat 1) with 1. cbn [captured]. rewrite E. cbn [nth_error option_map].
  unfold preview. rewrite L. apply Nat.ltb_lt in B. rewrite B, C. reflexivity.
Qed.
(** out --clear clears nothing. *)
Theorem C232_clear_refuted : forall e argv, snd (out e argv) = e /\ (forall n, captured (snd (out e argv)) n = captured e n).
Proof. intros. split; reflexivity. Qed.
(** What the last command wrote is passed on, with a newline at its end. *)
Theorem C232_passed_on : forall e,
  print_last_stdout e = match captured e 1 with
                        | Some s => s ++ (if ends_with [10%N] s then [] else [10%N])
                        | None => []
                        end.
Proof.
  intros e. unfold print_last_stdout. replace (Env_Model.get_var e (lit "OUT")) with (captured e 1).
  - destruct (captured e 1) as [s|]; [|reflexivity]. destruct (ends_with [10%N] s); [rewrite app_nil_r|]; reflexivity.
  - rewrite <- (out_var_number 1 eq_refl). reflexivity.
Qed.

(** ** C233: read *)

Lemma trim_lf_iff s t : trim_lf s = t <-> Chomped s t.
Proof.
  assert (G : forall r, exists k, r = repeat 10%N k ++ drop_lf r /\ (forall u, drop_lf r <> 10%N :: u)).
  { induction r as [|c r IH]; cbn [drop_lf]; [exists 0; split; [reflexivity|discriminate]|].
    destruct (N.eqb_spec c 10) as [->|N].
    - destruct IH as (k & E & F). exists (S k). cbn [repeat app]. split; [f_equal; exact E|exact F].
    - exists 0. split; [reflexivity|]. intros u [= X _]. congruence. }
  assert (R : forall k, rev (repeat 10%N k) = repeat 10%N k).
  { induction k as [|k IH]; [reflexivity|]. cbn [repeat rev]. rewrite IH. clear. induction k as [|k IH]; [reflexivity|]. cbn. f_equal. exact IH. }
  assert (H : Chomped s (trim_lf s)).
  { unfold trim_lf. destruct (G (rev s)) as (k & E & F). exists k. split.
    - rewrite <- (rev_involutive s), E at 1. rewrite rev_app_distr, R. reflexivity.
    - intros u X. apply (f_equal (@rev N)) in X. rewrite rev_involutive, rev_app_distr in X. exact (F _ X). }
  split; [intros <-; exact H|]. intros (k & E & F). set (m := trim_lf s) in *. clearbody m. destruct H as (k' & E' & F'). rewrite E in E'. clear E.
  revert k' E'. induction k as [|k IH]; intros [|k'] E'; cbn [repeat] in *.
  - rewrite !app_nil_r in E'. symmetry. exact E'.
  - rewrite app_nil_r in E'. exfalso. apply (F (m ++ repeat 10%N k')). rewrite E', <- app_assoc. f_equal.
    clear. induction k' as [|k IH]; [reflexivity|]. cbn. f_equal. exact IH.
  - rewrite app_nil_r in E'. exfalso. apply (F' (t ++ repeat 10%N k)). rewrite <- E', <- app_assoc. f_equal.
    clear. induction k as [|k IH]; [reflexivity|]. cbn. f_equal. exact IH.
  - apply (IH k'). assert (X : forall j, 10%N :: repeat 10%N j = repeat 10%N j ++ [10%N]) by (clear; induction j as [|j IH]; [reflexivity|cbn; f_equal; exact IH]).
    rewrite !X, !app_assoc in E'. apply app_inj_tail in E' as [E' _]. exact E'.
Qed.

(** read NAME: afterwards $NAME is all that was read, without the newlines at its end, and every other
    variable is what it was. *)
Theorem C233_read_partial : forall utf8 fds infile cmd name more e bytes s,
  open_at infile fds = Some bytes -> utf8 bytes = Some s ->
  (forall p n, In p [lit "OUT"; lit "ERR"] -> ~ Output_Spec.denotes p (chr "$" :: name) n) ->
  exists e' fds', read_ utf8 fds infile (cmd :: name :: more) e = (Assigned, fds', e') /\
    (exists t, Chomped s t /\ Env_Model.get_var e' (chr "$" :: name) = Some t) /\
    (forall x, x <> chr "$" :: name -> Env_Model.get_var e' x = Env_Model.get_var e x).
Proof.
  intros utf8 fds infile cmd name more e bytes s O U D. unfold read_. rewrite O, U. eexists _, _. split; [reflexivity|].
  assert (P : forall p, In p [lit "OUT"; lit "ERR"] -> Output_Model.parse_output_var (chr "$" :: name) p = None).
  { intros p I. destruct (Output_Model.parse_output_var (chr "$" :: name) p) as [n|] eqn:X; [|reflexivity].
    apply Output_Props.C22_output_names_exact in X; [destruct (D p n I X)|]. cbn in I. intuition auto. }
  split.
  - exists (trim_lf s). split; [apply trim_lf_iff; reflexivity|]. unfold Env_Model.get_var.
    rewrite (P (lit "OUT")), (P (lit "ERR")) by (cbn; tauto).
    replace (mem_str (chr "$" :: name) [lit "MCP_SERVERS"; lit "MCP_CONNECTED"; lit "MCP_TOOLS"]) with false by reflexivity.
    cbn [Env_Model.variables Env_Model.set_variables]. rewrite Env_Props.assoc_insert. destruct (str_eq_dec _ _); congruence.
  - intros x N. unfold Env_Model.get_var. cbn [Env_Model.variables Env_Model.set_variables Env_Model.history Env_Model.mcp Env_Model.system].
    rewrite Env_Props.assoc_insert. destruct (str_eq_dec x (chr "$" :: name)); [congruence|reflexivity].
Qed.
(** Input that is no text is refused and leaves the variables as they are. *)
Theorem C233_refused : forall utf8 fds infile cmd name more e bytes,
  open_at infile fds = Some bytes -> utf8 bytes = None -> exists fds', read_ utf8 fds infile (cmd :: name :: more) e = (Failed, fds', e).
Proof. intros utf8 fds infile cmd name more e bytes O U. unfold read_. rewrite O, U. eauto. Qed.
Print Assumptions C233_refused.
Lemma open_close infile fds : open_at infile (close infile fds) = None.
Proof.
  induction fds as [|[n b] fds IH]; [reflexivity|]. cbn [close filter fst]. destruct (Nat.eqb_spec n infile) as [->|N]; cbn [negb]; [exact IH|].
  cbn [open_at]. apply Nat.eqb_neq in N. rewrite N. exact IH.
Qed.
(** The shell's input does not survive: after a read, whatever came of it, the descriptor it read from is
    closed, and the next read from it fails. *)
Theorem C233_closed_refuted : forall utf8 fds infile argv e r fds' e', read_ utf8 fds infile argv e = (r, fds', e') ->
  open_at infile fds' = None /\ forall argv' e'', read_ utf8 fds' infile argv' e'' = (Failed, fds', e'').
Proof.
  intros utf8 fds infile argv e r fds' e' H.
  assert (X : open_at infile fds' = None).
  { unfold read_ in H. destruct (open_at infile fds) as [b|] eqn:O; [|injection H as _ <- _; exact O].
    assert (Y : fds' = close infile fds); [|rewrite Y; apply open_close].
    destruct argv as [|a [|n m]]; [injection H as _ <- _; reflexivity..|]. destruct (utf8 b); injection H as _ <- _; reflexivity. }
  split; [exact X|]. intros argv' e''. unfold read_. rewrite X. reflexivity.
Qed.
(** Not one line is read but all of them: the value has every line of the input. *)
Theorem C233_line_refuted : forall utf8 fds infile cmd name e bytes a b,
  open_at infile fds = Some bytes -> utf8 bytes = Some (a ++ 10%N :: b) -> (forall u, b <> u ++ [10%N]) -> b <> [] ->
  (forall p n, In p [lit "OUT"; lit "ERR"] -> ~ Output_Spec.denotes p (chr "$" :: name) n) ->
  Env_Model.get_var (snd (read_ utf8 fds infile [cmd; name] e)) (chr "$" :: name) = Some (a ++ 10%N :: b).
Proof.
  intros utf8 fds infile cmd name e bytes a b O U F B D.
  destruct (C233_read_partial utf8 fds infile cmd name [] e bytes _ O U D) as (e' & fds' & R & (t & C & V) & _). rewrite R. cbn [snd]. rewrite V.
  f_equal. apply trim_lf_iff in C. rewrite <- C. apply trim_lf_iff. exists 0. cbn [repeat]. rewrite app_nil_r. split; [reflexivity|].
  intros u X. destruct b as [|c b _] using rev_ind; [congruence|]. change (10%N :: b ++ [c]) with ((10%N :: b) ++ [c]) in X. rewrite app_assoc in X. apply app_inj_tail in X as [_ ->]. exact (F b eq_refl).
Qed.
(** read without a name: the input is used up and the shell is stopped. *)
Theorem C233_no_name_refuted : forall utf8 fds infile cmd e bytes, open_at infile fds = Some bytes ->
  exists fds', read_ utf8 fds infile [cmd] e = (Died, fds', e).
Proof. intros utf8 fds infile cmd e bytes O. unfold read_. rewrite O. eauto. Qed.
(** A variable that was read cannot be exported: a child sees of the name what it saw before. *)
Theorem C233_export_refuted : forall utf8 fds infile cmd name more e,
  Env_Model.assoc name (Env_Model.child_process_env (Env_Model.export_var name (snd (read_ utf8 fds infile (cmd :: name :: more) e)))) =
  Env_Model.assoc name (Env_Model.child_process_env (Env_Model.export_var name e)).
Proof.
  intros utf8 fds infile cmd name more e. rewrite !Env_Props.C34_helper_environment_exact. unfold read_.
  destruct (open_at infile fds) as [b|]; [|reflexivity]. destruct (utf8 b) as [s|]; [|reflexivity]. cbn [snd].
  unfold Env_Spec.child_sees, Env_Spec.effective. unfold Env_Model.export_var, Env_Model.set_exported, Env_Model.set_variables.
  cbn [Env_Model.exported Env_Model.variables Env_Model.system]. set (v := trim_lf s).
  assert (N : name <> chr "$" :: name) by (intros X; apply (f_equal (@length char)) in X; cbn in X; lia).
  assert (Q : Env_Model.assoc name (Env_Model.insert (chr "$" :: name) v (Env_Model.variables e)) = Env_Model.assoc name (Env_Model.variables e)).
  { rewrite Env_Props.assoc_insert. destruct (str_eq_dec _ _); congruence. }
  rewrite Q. reflexivity.
Qed.

Print Assumptions C231_listed. Print Assumptions C231_help. Print Assumptions C231_columns.
Print Assumptions C231_second_word_refuted. Print Assumptions C231_unknown_option_refuted.
Print Assumptions C231_unknown_value_refuted. Print Assumptions C231_all_refuted.
Print Assumptions C232_shown. Print Assumptions C232_list_partial. Print Assumptions C232_eleventh_refuted.
Print Assumptions C232_cut_refuted. Print Assumptions C232_clear_refuted. Print Assumptions C232_passed_on.
Print Assumptions C233_read_partial. Print Assumptions C233_closed_refuted. Print Assumptions C233_line_refuted.
Print Assumptions C233_no_name_refuted. Print Assumptions C233_export_refuted.

(** ** Cases *)

Definition past : History_Model.history :=
  History_Model.run (fun s => s) History_Model.new_history
    [History_Model.OWrite None [(lit "make a", 1%Z); (lit "ls", 2%Z); (lit "make b", 3%Z)];
     History_Model.OOutcome None (lit "make a") (History_Model.Meta (Some 2%Z) (Some 7%N) (Some (lit "/p")) None None)].
Example C231_case : forall here, 
  history (fun s => s) (fun _ => lit "T") here past [lit "history"; lit "make"; lit "--status"; lit "failure"] =
    Some [columns [lit "T"; lit "err:2"; lit "7ms"; lit "/p"; lit "make a"]] /\
  history (fun s => s) (fun _ => lit "T") here past [lit "history"; lit "-n"; lit "2"] = Some [lit "make b"; lit "ls"] /\
  Forall well_said [IWord (lit "make"); IStatus (lit "failure"); ILimit false (lit "2")].
Proof.
  intros here. split; [reflexivity|]. split; [reflexivity|]. apply Forall_cons; [|apply Forall_cons; [|apply Forall_cons; [|apply Forall_nil]]].
  - cbn [well_said]. rewrite <- mem_str_iff. discriminate.
  - eexists. apply tw_failure.
  - exists 2%N. split; [split; [reflexivity|apply (Numerals.Dec_digit 2%N); reflexivity]|lia].
Qed.
Definition shell_with (outs : list str) : Env_Model.env :=
  Env_Model.Env [] [] [] [] [] (Output_Model.History (map (fun o => Output_Model.Entry (lit "c") o [] 0%Z) outs) 100 100 0 100) (fun _ => None).
Example C232_case :
  fst (out (shell_with [lit "new"; lit "old"]) [lit "out"; lit "2"]) = Printed [lit "old"] /\
  fst (out (shell_with [lit "new"; lit "old"]) [lit "out"; lit "-l"]) =
    Printed [lit "  [1] 1 lines, 3 bytes: new"; lit "  [2] 1 lines, 3 bytes: old"] /\
  fst (out (shell_with [repeat 233%N 40]) [lit "out"; lit "-l"]) = Panicked /\
  60 < blen (repeat 233%N 40) /\ split_byte (repeat 233%N 40) 57 = None /\
  nth_error (Output_Model.entries (Env_Model.history (shell_with (repeat (lit "x") 12)))) 10 <> None.
Proof. split; [reflexivity|]. split; [reflexivity|]. split; [reflexivity|]. split; [vm_compute; lia|]. split; [reflexivity|discriminate]. Qed.
Example C233_case :
  let r := read_ (fun b => Some b) [(0, lit "one" ++ [10%N] ++ lit "two" ++ [10%N])] 0 [lit "read"; lit "x"] (shell_with []) in
  Env_Model.get_var (snd r) (lit "$x") = Some (lit "one" ++ [10%N] ++ lit "two") /\ snd (fst r) = [].
Proof. split; reflexivity. Qed.
