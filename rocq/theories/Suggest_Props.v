(** Suggestions: C120 - C124. *)
From Verif Require Import Base Suggest_Model Suggest_Spec.
From Verif Require Direnv_Model History_Model Token_Model.

(** ** Basics *)
Lemma longer_iff i t : longer i t = true <-> continues i t.
Proof.
  unfold longer, continues. rewrite Bool.andb_true_iff, Nat.ltb_lt, starts_with_iff. split.
  - intros [[m ->] L]. exists m. split; [|reflexivity]. rewrite blen_app in L. intros ->. cbn in L. lia.
  - intros (m & N & ->). split; [exists m; reflexivity|]. rewrite blen_app. destruct m as [|c m]; [congruence|].
    pose proof (length_le_blen (c :: m)) as L. cbn [length] in L. lia.
Qed.
Lemma is_nil_iff {A} (l : list A) : is_nil l = true <-> l = [].
Proof. destruct l; split; intros H; (reflexivity || discriminate H). Qed.
Lemma is_nil_false {A} (l : list A) : is_nil l = false <-> l <> [].
Proof. destruct l; split; intros H; congruence || discriminate || reflexivity. Qed.

Lemma try_cached_longer now b r t : try_cached now b r = Some t -> longer (r_input r) t = true.
Proof.
  unfold try_cached. intros E.
  destruct (answer b) as [[a at1]|].
  - destruct ((now - at1 <=? cache_ttl) && longer (r_input r) a) eqn:C.
    + inversion E; subst a. apply Bool.andb_true_iff in C as [_ C]. exact C.
    + destruct (context b) as [[[ts d] at2]|]; [|discriminate E]. destruct (r_cwd r); [|discriminate E].
      destruct (str_eqb d s && (now - at2 <=? cache_ttl)); [|discriminate E]. apply find_some in E as [_ E]. exact E.
  - destruct (context b) as [[[ts d] at2]|]; [|discriminate E]. destruct (r_cwd r); [|discriminate E].
    destruct (str_eqb d s && (now - at2 <=? cache_ttl)); [|discriminate E]. apply find_some in E as [_ E]. exact E.
Qed.
Lemma ai_from_cache now b r b' x : ai_suggestion now b r = (b', Some x) -> b' = b /\ try_cached now b r = Some (full x) /\ src x = FromAi.
Proof.
  unfold ai_suggestion, backend_predict. destruct (try_cached now b r) as [t|].
  - destruct (starts_with (r_input r) t); intros E; inversion E; subst. auto.
  - intros E. inversion E.
Qed.
Lemma ai_nothing now b r b' : ai_suggestion now b r = (b', None) ->
  try_cached now b r = None /\ b' = (if is_nil (trim (r_input r)) then b else enqueue b r).
Proof.
  unfold ai_suggestion, backend_predict. destruct (try_cached now b r) as [t|] eqn:T.
  - pose proof (try_cached_longer _ _ _ _ T) as L. unfold longer in L. apply Bool.andb_true_iff in L as [L _]. rewrite L. intros E. inversion E.
  - intros E. inversion E. auto.
Qed.
Lemma use_cache_some now c i x : use_cache now c i = Some x ->
  exists k, c = Some k /\ c_input k = i /\ c_state k = x /\ continues i (full x) /\ now <= c_at k + ttl_for (src x).
Proof.
  unfold use_cache. destruct c as [k|]; [|discriminate].
  destruct (str_eqb (c_input k) i && longer i (full (c_state k)) && (now - c_at k <=? ttl_for (src (c_state k)))) eqn:C; [|discriminate].
  intros E. inversion E; subst x. apply Bool.andb_true_iff in C as [C T]. apply Bool.andb_true_iff in C as [C L].
  exists k. apply str_eqb_eq in C. apply Nat.leb_le in T. apply longer_iff in L. split; [reflexivity|split; [exact C|split; [reflexivity|split; [exact L|lia]]]].
Qed.

Section Suggest.
Variable path : str -> bool -> option str.
Notation step := (step path).
Notation run := (run path).
Notation predict := (predict path).
Notation refresh := (refresh path).
Notation completion_suggestion := (completion_suggestion path).

Lemma completion_continues i x : completion_suggestion i = Some x -> src x = FromPath /\ continues i (full x).
Proof using.
  unfold Suggest_Model.completion_suggestion. destruct (Token_Model.token_at_char_cursor i (length i) Token_Model.CompletionRange) as [t|]; [|discriminate].
  destruct (is_nil (Token_Model.raw t) || negb (Token_Model.byte_end t =? blen i)); [discriminate|].
  destruct (path (Token_Model.raw t) (is_cd_path_context i t)) as [c|]; [|discriminate]. cbn zeta.
  set (f := firstn (Token_Model.char_start t) i ++ c). destruct (str_eqb f i) eqn:E1; [discriminate|]. cbn [orb].
  destruct (starts_with i f) eqn:E2; [|discriminate]. intros E. inversion E. cbn [src full]. split; [reflexivity|].
  apply starts_with_iff in E2 as [m Q]. exists m. split; [|exact Q]. intros ->. rewrite app_nil_r in Q.
  apply (proj1 (str_eqb_neq _ _)) in E1. congruence.
Qed.
Lemma history_continues h i x : history_suggestion h i = Some x ->
  src x = FromHistory /\ continues i (full x) /\ exists h', h = Some h' /\ History_Model.search_first h' i = Some (full x).
Proof using.
  unfold history_suggestion. destruct h as [h|]; [|discriminate]. destruct (History_Model.search_first h i) as [t|] eqn:S1; [|discriminate].
  destruct (blen i <? blen t) eqn:L; [|discriminate]. intros E. inversion E. cbn [src full]. split; [reflexivity|]. split; [|eauto].
  apply longer_iff. unfold longer. rewrite L, Bool.andb_true_r.
  unfold History_Model.search_first in S1. destruct (find (starts_with i) (rev (History_Model.cache h))) as [c|] eqn:F.
  - inversion S1; subst c. apply find_some in F as [_ F]. exact F.
  - apply find_some in S1 as [_ G]. exact G.
Qed.

(** what the engine shows, one by one *)
Lemma predict_shows now e b i cur h e' b' found : predict now e b i cur h = (e', b', found) -> forall x, In x found ->
  ghost e = true /\ i <> [] /\
  (use_cache now (history_cache e) i = Some x
   \/ history_suggestion h i = Some x
   \/ completion_suggestion i = Some x
   \/ use_cache now (ai_cache e) i = Some x
   \/ try_cached now b (Request i None (history_context h)) = Some (full x) /\ src x = FromAi).
Proof using.
  unfold Suggest_Model.predict. destruct (ghost e); cbn [negb orb]; [|intros E; inversion E; contradiction].
  destruct i as [|c i]; [intros E; inversion E; contradiction|]. cbn [is_nil]. set (l := c :: i). assert (Nl : l <> []) by discriminate. clearbody l. clear c i.
  destruct (length l <? cur); [intros E; inversion E; contradiction|].
  destruct (use_cache now (history_cache e) l) as [y|] eqn:U.
  { intros E x I. inversion E; subst. destruct I as [<-|[]]. auto. }
  destruct (history_suggestion h l) as [y|] eqn:H.
  { intros E x I. inversion E; subst. destruct I as [<-|[]]. auto. }
  destruct (completion_suggestion l) as [y|] eqn:Cs.
  { intros E x I. inversion E; subst. destruct I as [<-|[]]. auto 6. }
  destruct (in_blocklist l || negb (backfill e)); [intros E; inversion E; contradiction|].
  destruct (ai_suggestion now b (Request l None (history_context h))) as [b2 [y|]] eqn:A.
  - apply ai_from_cache in A as (-> & T & Y). intros E x I. inversion E; subst. clear E.
    assert (K : In x (match use_cache now (ai_cache e) l with Some s => [s] | None => [] end) \/ x = y).
    { destruct (existsb (same y) _); [left; exact I|]. apply in_app_or in I as [I|[I|[]]]; auto. }
    destruct K as [K | ->]; [|auto 8]. destruct (use_cache now (ai_cache e) l) as [z|]; [|contradiction K]. destruct K as [->|[]]. auto 8.
  - intros E x I. inversion E; subst. destruct (use_cache now (ai_cache e) l) as [z|]; [|contradiction I]. destruct I as [->|[]]. auto 8.
Qed.

Theorem C120_suggestion_continues_the_line : forall s ev s' shown, step s ev = Some (s', shown) -> forall x, In x shown ->
  exists now input cwd, typed_at ev now input cwd /\ continues input (full x).
Proof using.
  intros s ev s' shown E x I.
  destruct ev as [now g bf i cur h cwd | now i h cwd | cwd | | | now t]; cbn [Suggest_Model.step] in E.
  - exists now, i, cwd. split; [cbn; auto|]. unfold Suggest_Model.refresh in E.
    set (e := if Bool.eqb g (ghost (eng s)) && Bool.eqb bf (backfill (eng s)) then eng s else set_preferences (eng s) g bf) in E. clearbody e.
    destruct (predict now e (back s) i cur h) as [[e' b'] found] eqn:P.
    assert (K : forall y, In y found -> continues i (full y)).
    { intros y J. destruct (predict_shows _ _ _ _ _ _ _ _ _ P y J) as (_ & _ & [U | [U | [U | [U | [U _]]]]]).
      - apply use_cache_some in U as (k & _ & _ & _ & U & _). exact U.
      - apply history_continues in U as (_ & U & _). exact U.
      - apply completion_continues in U as (_ & U). exact U.
      - apply use_cache_some in U as (k & _ & _ & _ & U & _). exact U.
      - apply try_cached_longer, longer_iff in U. exact U. }
    destruct found as [|y ys]; [|inversion E; subst; apply K; exact I].
    destruct bf; [|inversion E; subst; contradiction I].
    destruct (ai_suggestion now b' (Request i (Some cwd) (history_context h))) as [b2 [z|]] eqn:A; inversion E; subst; [|contradiction I].
    destruct I as [<-|[]]. apply ai_from_cache in A as (_ & T & _). apply try_cached_longer, longer_iff in T. exact T.
  - exists now, i, cwd. split; [cbn; auto|].
    destruct (ai_suggestion now (back s) (Request i (Some cwd) (history_context h))) as [b2 [z|]] eqn:A; inversion E; subst; [|contradiction I].
    destruct I as [<-|[]]. apply ai_from_cache in A as (_ & T & _). apply try_cached_longer, longer_iff in T. exact T.
  - inversion E; subst. contradiction I.
  - destruct (at_ (back s)); inversion E; subst; contradiction I.
  - destruct (at_ (back s)); [inversion E| |inversion E]. destruct (permit (back s)); inversion E; subst; contradiction I.
  - destruct (at_ (back s)); inversion E; subst; contradiction I.
Qed.

(** ** Histories of events *)
Lemma run_snoc evs : forall s s1 xs ev s2 x, run s evs = Some (s1, xs) -> step s1 ev = Some (s2, x) -> run s (evs ++ [ev]) = Some (s2, xs ++ [x]).
Proof using.
  induction evs as [|e evs IH]; intros s s1 xs ev s2 x R T; cbn [app Suggest_Model.run] in *.
  - inversion R; subst. rewrite T. reflexivity.
  - destruct (step s e) as [[s3 y]|]; [|discriminate R]. destruct (run s3 evs) as [[s4 ys]|] eqn:Q; [|discriminate R]. inversion R; subst.
    rewrite (IH _ _ _ _ _ _ Q T). reflexivity.
Qed.
(** induction over the events, from the front to the back *)
Lemma run_ind (P : list event -> sys -> Prop) s0 : P [] s0 ->
  (forall evs s xs ev s' x, run s0 evs = Some (s, xs) -> P evs s -> step s ev = Some (s', x) -> P (evs ++ [ev]) s') ->
  forall evs s xs, run s0 evs = Some (s, xs) -> P evs s.
Proof using.
  intros P0 PS.
  assert (G : forall evs pre s1 ys, run s0 pre = Some (s1, ys) -> P pre s1 -> forall s xs, run s1 evs = Some (s, xs) -> P (pre ++ evs) s).
  { induction evs as [|e evs IH]; intros pre s1 ys R Pp s xs Q; cbn [Suggest_Model.run] in Q.
    - inversion Q; subst. rewrite app_nil_r. exact Pp.
    - destruct (step s1 e) as [[s3 y]|] eqn:T; [|discriminate Q]. destruct (run s3 evs) as [[s4 zs]|] eqn:Q'; [|discriminate Q]. inversion Q; subst.
      replace (pre ++ e :: evs) with ((pre ++ [e]) ++ evs) by (rewrite <- app_assoc; reflexivity).
      eapply IH; [exact (run_snoc _ _ _ _ _ _ _ R T)|exact (PS _ _ _ _ _ _ R Pp T)|exact Q']. }
  intros evs s xs R. exact (G evs [] s0 [] eq_refl P0 s xs R).
Qed.

(** ** What a refresh changes *)
Definition enqueues (b b' : backend) (i : str) (hc : list str) (ok : Prop) : Prop :=
  exists rs, b' = fold_left enqueue rs b /\ Forall (fun r => r_input r = i /\ r_history r = hc) rs /\ (rs <> [] -> ok /\ trim i <> []).
Lemma ai_enqueues now b r b' o (ok : Prop) : ok -> ai_suggestion now b r = (b', o) -> enqueues b b' (r_input r) (r_history r) ok.
Proof using.
  intros K A. destruct o as [x|].
  - apply ai_from_cache in A as (-> & _). exists []. repeat split; [constructor|congruence|congruence].
  - apply ai_nothing in A as (_ & ->). destruct (is_nil (trim (r_input r))) eqn:T.
    + exists []. repeat split; [constructor|congruence|congruence].
    + exists [r]. apply is_nil_false in T. split; [reflexivity|]. split; [constructor; [auto|constructor]|]. auto.
Qed.
Lemma enqueues_trans a b c i hc ok : enqueues a b i hc ok -> enqueues b c i hc ok -> enqueues a c i hc ok.
Proof using.
  intros (rs & -> & F & N) (ts & -> & G & M). exists (rs ++ ts). split; [rewrite fold_left_app; reflexivity|]. split; [apply Forall_app; auto|].
  intros Q. destruct rs; [apply M; destruct ts; [contradiction Q; reflexivity|discriminate]|apply N; discriminate].
Qed.
Lemma enqueues_none b i hc ok : enqueues b b i hc ok.
Proof using. exists []. repeat split; [constructor|congruence|congruence]. Qed.

Lemma predict_changes now e b i cur h e' b' found : predict now e b i cur h = (e', b', found) ->
  ghost e' = ghost e /\ backfill e' = backfill e
  /\ (history_cache e' = None \/ history_cache e' = history_cache e
      \/ exists x, history_cache e' = Some (Cached i x now) /\ history_suggestion h i = Some x)
  /\ (ai_cache e' = None \/ ai_cache e' = ai_cache e
      \/ exists x, ai_cache e' = Some (Cached i x now) /\ try_cached now b (Request i None (history_context h)) = Some (full x) /\ src x = FromAi)
  /\ enqueues b b' i (history_context h) (ghost e = true /\ backfill e = true /\ in_blocklist i = false).
Proof using.
  unfold Suggest_Model.predict.
  destruct (negb (ghost e) || is_nil i) eqn:G.
  { intros E. inversion E; subst. cbn. split; [reflexivity|]. split; [reflexivity|]. split; [auto|]. split; [auto|]. apply enqueues_none. }
  destruct (length i <? cur). { intros E. inversion E; subst. split; [reflexivity|]. split; [reflexivity|]. split; [auto|]. split; [auto|]. apply enqueues_none. }
  apply Bool.orb_false_iff in G as [G _]. apply Bool.negb_false_iff in G.
  set (hf := match use_cache now (history_cache e) i with
      | Some s => (history_cache e, [s])
      | None => match history_suggestion h i with Some s => (Some (Cached i s now), [s]) | None => (None, []) end end).
  assert (H : fst hf = None \/ fst hf = history_cache e \/ exists x, fst hf = Some (Cached i x now) /\ history_suggestion h i = Some x).
  { unfold hf. destruct (use_cache now (history_cache e) i); [cbn; auto|]. destruct (history_suggestion h i) as [x|]; cbn; [right; right; exists x; auto|auto]. }
  clearbody hf. destruct hf as [hc found0]. cbn [fst] in H.
  set (found1 := match found0 with [] => match completion_suggestion i with Some s => [s] | None => [] end | _ => found0 end). clearbody found1.
  destruct found1 as [|x1 r1].
  - destruct (in_blocklist i) eqn:Bl; cbn [orb].
    { intros E. inversion E; subst. cbn. split; [reflexivity|]. split; [reflexivity|]. split; [exact H|]. split; [auto|]. apply enqueues_none. }
    destruct (backfill e) eqn:Bf; cbn [negb].
    + destruct (ai_suggestion now b (Request i None (history_context h))) as [b2 [y|]] eqn:A.
      * pose proof (ai_from_cache _ _ _ _ _ A) as (Q1 & Q2 & Q3). intros E. inversion E; subst. cbn. split; [reflexivity|]. split; [auto|]. split; [exact H|].
        split; [right; right; exists y; auto|]. apply enqueues_none.
      * intros E. inversion E; subst. cbn. split; [reflexivity|]. split; [auto|]. split; [exact H|]. split; [auto|].
        apply (ai_enqueues _ _ _ _ _ (ghost e = true /\ true = true /\ false = false) (conj G (conj eq_refl eq_refl)) A).
    + intros E. inversion E; subst. cbn. split; [reflexivity|]. split; [auto|]. split; [exact H|]. split; [auto|]. apply enqueues_none.
  - intros E. inversion E; subst. cbn. split; [reflexivity|]. split; [reflexivity|]. split; [exact H|]. split; [auto|]. apply enqueues_none.
Qed.

Lemma refresh_changes now e b g bf i cur h cwd e' b' found : refresh now e b g bf i cur h cwd = (e', b', found) ->
  ghost e' = g /\ backfill e' = bf
  /\ (history_cache e' = None \/ history_cache e' = history_cache e
      \/ exists x, history_cache e' = Some (Cached i x now) /\ history_suggestion h i = Some x)
  /\ (ai_cache e' = None \/ ai_cache e' = ai_cache e
      \/ exists x, ai_cache e' = Some (Cached i x now) /\ try_cached now b (Request i None (history_context h)) = Some (full x) /\ src x = FromAi)
  /\ enqueues b b' i (history_context h) (bf = true).
Proof using.
  unfold Suggest_Model.refresh.
  set (e0 := if Bool.eqb g (ghost e) && Bool.eqb bf (backfill e) then e else set_preferences e g bf).
  assert (G : ghost e0 = g /\ backfill e0 = bf /\ (history_cache e0 = None \/ history_cache e0 = history_cache e) /\ (ai_cache e0 = None \/ ai_cache e0 = ai_cache e)).
  { unfold e0, set_preferences. destruct (Bool.eqb g (ghost e)) eqn:E1, (Bool.eqb bf (backfill e)) eqn:E2; cbn [andb]; try (destruct g; cbn; auto; fail).
    apply Bool.eqb_prop in E1, E2. auto. }
  clearbody e0. destruct G as (G1 & G2 & G3 & G4).
  destruct (predict now e0 b i cur h) as [[e1 b1] f1] eqn:P. apply predict_changes in P as (P1 & P2 & P3 & P4 & P5).
  assert (R : ghost e1 = g /\ backfill e1 = bf /\
   (history_cache e1 = None \/ history_cache e1 = history_cache e \/ exists x, history_cache e1 = Some (Cached i x now) /\ history_suggestion h i = Some x)
  /\ (ai_cache e1 = None \/ ai_cache e1 = ai_cache e
      \/ exists x, ai_cache e1 = Some (Cached i x now) /\ try_cached now b (Request i None (history_context h)) = Some (full x) /\ src x = FromAi)).
  { split; [congruence|]. split; [congruence|]. split.
    - destruct P3 as [Q|[Q|Q]]; [auto| |auto]. destruct G3 as [G|G]; rewrite G in Q; auto.
    - destruct P4 as [Q|[Q|Q]]; [auto| |auto]. destruct G4 as [G|G]; rewrite G in Q; auto. }
  assert (K : enqueues b b1 i (history_context h) (bf = true)).
  { destruct P5 as (rs & Q1 & Q2 & Q3). exists rs. split; [exact Q1|]. split; [exact Q2|]. intros N. destruct (Q3 N) as ((_ & Q & _) & T). split; [congruence|exact T]. }
  destruct R as (R1 & R2 & R3 & R4).
  destruct f1 as [|x1 r1].
  - destruct bf.
    + destruct (ai_suggestion now b1 (Request i (Some cwd) (history_context h))) as [b2 o] eqn:A. intros E. inversion E; subst e' b' found.
      split; [exact R1|]. split; [exact R2|]. split; [exact R3|]. split; [exact R4|].
      apply (enqueues_trans _ b1); [exact K|]. exact (ai_enqueues _ _ _ _ _ (true = true) eq_refl A).
    + intros E. inversion E; subst. auto.
  - intros E. inversion E; subst. auto.
Qed.

Lemma fold_enqueue_last rs : forall b, rs <> [] -> pending (fold_left enqueue rs b) = Some (last rs (Request [] None [])) .
Proof using.
  induction rs as [|r rs IH]; intros b N; [congruence|]. cbn [fold_left]. destruct rs as [|q rs].
  - cbn. unfold enqueue. destruct (inflight b); reflexivity.
  - rewrite IH by discriminate. reflexivity.
Qed.
Lemma last_in {A} (l : list A) d : l <> [] -> In (last l d) l.
Proof using. induction l as [|x l IH]; intros N; [congruence|]. destruct l as [|y l]; [left; reflexivity|]. right. apply IH. discriminate. Qed.
Lemma fold_enqueue_keeps rs : forall b, answer (fold_left enqueue rs b) = answer b /\ context (fold_left enqueue rs b) = context b /\ at_ (fold_left enqueue rs b) = at_ b.
Proof using.
  induction rs as [|r rs IH]; intros b; [auto|]. cbn [fold_left]. destruct (IH (enqueue b r)) as (-> & -> & ->). unfold enqueue. destruct (inflight b); auto.
Qed.

(** C120: a command shown from the history is the one the history gives for this line, now or
    at a prompt at most 350 ms ago *)
Theorem C120_history_is_current : forall g0 bf0 evs s xs ev s' shown f,
  run (start g0 bf0) evs = Some (s, xs) -> step s ev = Some (s', shown) -> In (Sugg f FromHistory) shown ->
  exists now i t g bf cur h cwd, (exists d, typed_at ev now i d) /\ In (Refresh t g bf i cur (Some h) cwd) (evs ++ [ev])
    /\ History_Model.search_first h i = Some f /\ now <= t + 350.
Proof using.
  intros g0 bf0 evs s xs ev s' shown f R E I.
  set (P := fun (evs : list event) (s : sys) => forall k, history_cache (eng s) = Some k -> src (c_state k) = FromHistory ->
     exists g bf cur h cwd, In (Refresh (c_at k) g bf (c_input k) cur (Some h) cwd) evs /\ History_Model.search_first h (c_input k) = Some (full (c_state k))).
  set (Q := fun s : sys => forall k, ai_cache (eng s) = Some k -> src (c_state k) = FromAi).
  assert (PQ : P evs s /\ Q s).
  { revert R. apply (run_ind (fun evs s => P evs s /\ Q s)).
    - split; intros k K; discriminate K.
    - clear. intros evs s xs ev s' x _ [Ip Iq] E.
      assert (W : forall k, history_cache (eng s) = Some k -> src (c_state k) = FromHistory ->
        exists g bf cur h cwd, In (Refresh (c_at k) g bf (c_input k) cur (Some h) cwd) (evs ++ [ev]) /\ History_Model.search_first h (c_input k) = Some (full (c_state k))).
      { intros k K S0. destruct (Ip k K S0) as (g & bf & cur & h & cwd & J & F). exists g, bf, cur, h, cwd. split; [apply in_or_app; left; exact J|exact F]. }
      destruct ev as [now g bf i cur h cwd | now i h cwd | cwd | | | now t]; cbn [Suggest_Model.step] in E.
      + destruct (refresh now (eng s) (back s) g bf i cur h cwd) as [[e b] fd] eqn:F. inversion E; subst s' x. clear E.
        apply refresh_changes in F as (_ & _ & H & A & _). split.
        * intros k K S0. cbn [eng] in K. destruct H as [H|[H|(y & H & G)]]; rewrite K in H; [discriminate H|symmetry in H; exact (W k H S0)|].
          inversion H; subst k. cbn [c_at c_input c_state] in *. apply history_continues in G as (_ & _ & h' & -> & G).
          exists g, bf, cur, h', cwd. split; [apply in_or_app; right; left; reflexivity|exact G].
        * intros k K. cbn [eng] in K. destruct A as [A|[A|(y & A & _ & G)]]; rewrite K in A; [discriminate A|symmetry in A; exact (Iq k A)|inversion A; exact G].
      + destruct (ai_suggestion now (back s) (Request i (Some cwd) (history_context h))) as [b o]. inversion E; subst. split; [exact W|exact Iq].
      + inversion E; subst. split; [exact W|exact Iq].
      + destruct (at_ (back s)); inversion E; subst; split; [exact W|exact Iq].
      + destruct (at_ (back s)); [discriminate E| |discriminate E]. destruct (permit (back s)); inversion E; subst; split; [exact W|exact Iq].
      + destruct (at_ (back s)); inversion E; subst; split; [exact W|exact Iq]. }
  destruct PQ as [Ip Iq].
  destruct ev as [now g bf i cur h cwd | now i h cwd | cwd | | | now t]; cbn [Suggest_Model.step] in E.
  - destruct (refresh now (eng s) (back s) g bf i cur h cwd) as [[e b] fd] eqn:F. inversion E; subst s' shown. clear E.
    unfold Suggest_Model.refresh in F.
    set (e0 := if Bool.eqb g (ghost (eng s)) && Bool.eqb bf (backfill (eng s)) then eng s else set_preferences (eng s) g bf) in F.
    assert (H0 : (history_cache e0 = None \/ history_cache e0 = history_cache (eng s)) /\ (ai_cache e0 = None \/ ai_cache e0 = ai_cache (eng s))).
    { unfold e0, set_preferences. destruct (Bool.eqb g (ghost (eng s)) && Bool.eqb bf (backfill (eng s))); [auto|]. destruct g; cbn; auto. }
    clearbody e0. destruct H0 as [H0 A0].
    destruct (predict now e0 (back s) i cur h) as [[e1 b1] f1] eqn:Pr.
    assert (J : In (Sugg f FromHistory) f1).
    { destruct f1; [|inversion F; subst; exact I]. destruct bf; [|inversion F; subst; exact I].
      destruct (ai_suggestion now b1 (Request i (Some cwd) (history_context h))) as [b2 [z|]] eqn:A; inversion F; subst; [|exact I].
      destruct I as [->|[]]. apply ai_from_cache in A as (_ & _ & A). discriminate A. }
    destruct (predict_shows _ _ _ _ _ _ _ _ _ Pr _ J) as (_ & _ & [U | [U | [U | [U | [_ U]]]]]).
    + apply use_cache_some in U as (k & K & Ki & Ks & _ & T). destruct H0 as [H0|H0]; rewrite K in H0; [discriminate H0|]. symmetry in H0.
      destruct (Ip k H0) as (g' & bf' & cur' & h' & cwd' & Jn & Sf); [rewrite Ks; reflexivity|].
      exists now, i, (c_at k), g', bf', cur', h', cwd'. rewrite Ki, Ks in *. cbn in T. split; [exists cwd; cbn; auto|]. split; [apply in_or_app; left; exact Jn|]. split; [exact Sf|exact T].
    + apply history_continues in U as (_ & _ & h' & -> & U). exists now, i, now, g, bf, cur, h', cwd.
      split; [exists cwd; cbn; auto|]. split; [apply in_or_app; right; left; reflexivity|]. split; [exact U|lia].
    + apply completion_continues in U as (U & _). discriminate U.
    + apply use_cache_some in U as (k & K & _ & Ks & _). destruct A0 as [A0|A0]; rewrite K in A0; [discriminate A0|]. symmetry in A0.
      apply Iq in A0. rewrite Ks in A0. discriminate A0.
    + discriminate U.
  - destruct (ai_suggestion now (back s) (Request i (Some cwd) (history_context h))) as [b [z|]] eqn:A; inversion E; subst; [|contradiction I].
    destruct I as [->|[]]. apply ai_from_cache in A as (_ & _ & A). discriminate A.
  - inversion E; subst. contradiction I.
  - destruct (at_ (back s)); inversion E; subst; contradiction I.
  - destruct (at_ (back s)); [discriminate E| |discriminate E]. destruct (permit (back s)); inversion E; subst; contradiction I.
  - destruct (at_ (back s)); inversion E; subst; contradiction I.
Qed.

(** ... and what the history gives is shown, alone, and nothing is asked of anyone *)
Theorem C120_history_comes_first : forall s now bf i cur h cwd f, cur <= length i ->
  History_Model.search_first h i = Some f -> continues i f -> i <> [] ->
  (forall k, history_cache (eng s) = Some k -> c_input k <> i) ->
  exists s', step s (Refresh now true bf i cur (Some h) cwd) = Some (s', [Sugg f FromHistory]) /\ back s' = back s /\ sent s' = sent s.
Proof using.
  intros s now bf i cur h cwd f Cu S0 C N K. cbn [Suggest_Model.step]. unfold Suggest_Model.refresh.
  set (e0 := if Bool.eqb true (ghost (eng s)) && Bool.eqb bf (backfill (eng s)) then eng s else set_preferences (eng s) true bf).
  assert (G : ghost e0 = true /\ history_cache e0 = history_cache (eng s)).
  { unfold e0, set_preferences. destruct (Bool.eqb true (ghost (eng s))) eqn:E1, (Bool.eqb bf (backfill (eng s))); cbn; auto. apply Bool.eqb_prop in E1. auto. }
  clearbody e0. destruct G as [G1 G2]. unfold Suggest_Model.predict. rewrite G1. cbn [negb orb].
  assert (Ni : is_nil i = false) by (apply is_nil_false; exact N). rewrite Ni.
  assert (Lc : length i <? cur = false) by (apply Nat.ltb_ge; exact Cu). rewrite Lc.
  assert (U : use_cache now (history_cache e0) i = None).
  { destruct (use_cache now (history_cache e0) i) as [x|] eqn:U; [|reflexivity]. apply use_cache_some in U as (k & Q & Qi & _). rewrite G2 in Q. contradiction (K k Q Qi). }
  rewrite U. unfold history_suggestion. rewrite S0. assert (L : blen i <? blen f = true) by (apply longer_iff in C; unfold longer in C; apply Bool.andb_true_iff in C as [_ C]; exact C).
  rewrite L. eexists. split; [reflexivity|]. split; reflexivity.
Qed.

(** ** C121: the worker *)
Definition good (b : backend) : Prop :=
  (pending b <> None -> inflight b = true) /\ (inflight b = true -> at_ b <> Waiting \/ permit b = true).
Lemma good_enqueue b r : good b -> good (enqueue b r).
Proof using. intros [G1 G2]. unfold enqueue. destruct (inflight b) eqn:F; split; cbn; auto. Qed.
Lemma good_fold rs : forall b, good b -> good (fold_left enqueue rs b).
Proof using. induction rs as [|r rs IH]; intros b G; [exact G|]. cbn [fold_left]. apply IH, good_enqueue, G. Qed.
Lemma good_step s ev s' x : good (back s) -> step s ev = Some (s', x) -> good (back s').
Proof using.
  intros G E. destruct ev as [now g bf i cur h cwd | now i h cwd | cwd | | | now t]; cbn [Suggest_Model.step] in E.
  - destruct (refresh now (eng s) (back s) g bf i cur h cwd) as [[e b] fd] eqn:F. inversion E; subst. cbn [back].
    apply refresh_changes in F as (_ & _ & _ & _ & (rs & -> & _)). apply good_fold, G.
  - destruct (ai_suggestion now (back s) (Request i (Some cwd) (history_context h))) as [b o] eqn:A. inversion E; subst. cbn [back].
    apply (ai_enqueues _ _ _ _ _ True Logic.I) in A as (rs & -> & _). apply good_fold, G.
  - inversion E; subst. cbn [back]. destruct (backfill (eng s)); [|exact G]. unfold backend_prefetch. cbn [is_nil r_input]. apply good_enqueue, G.
  - destruct (at_ (back s)) eqn:W; inversion E; subst. cbn [back]. unfold worker_check. destruct (pending (back s)); split; cbn.
    + intros _. reflexivity.
    + intros _. left. discriminate.
    + intros N. contradiction N. reflexivity.
    + intros N. discriminate N.
  - destruct (at_ (back s)) eqn:W; [discriminate E| |discriminate E]. destruct (permit (back s)); inversion E; subst. cbn [back]. destruct G as [G _].
    unfold worker_wake. split; cbn; [exact G|]. left. discriminate.
  - destruct (at_ (back s)) eqn:W; inversion E; subst. cbn [back]. unfold handle_completion.
    destruct (match fetch_completion r t with Some _ => _ | None => _ end) as [a c]. destruct (pending (back s)) eqn:Pd; split; cbn.
    + intros _. reflexivity.
    + intros _. left. discriminate.
    + intros N. contradiction N. reflexivity.
    + intros N. discriminate N.
Qed.
Lemma good_reach g bf evs s xs : run (start g bf) evs = Some (s, xs) -> good (back s).
Proof using.
  apply (run_ind (fun _ s => good (back s))); [split; cbn; [congruence|discriminate]|].
  intros ? ? ? ? ? ? _ G E. exact (good_step _ _ _ _ G E).
Qed.

Lemma sent_grows s ev s' x r : step s ev = Some (s', x) -> In r (sent s) -> In r (sent s').
Proof using.
  intros E I. destruct ev as [now g bf i cur h cwd | now i h cwd | cwd | | | now t]; cbn [Suggest_Model.step] in E.
  - destruct (refresh now (eng s) (back s) g bf i cur h cwd) as [[e b] fd]. inversion E; subst. exact I.
  - destruct (ai_suggestion now (back s) (Request i (Some cwd) (history_context h))) as [b o]. inversion E; subst. exact I.
  - inversion E; subst. exact I.
  - destruct (at_ (back s)); inversion E; subst. cbn [sent]. apply in_or_app. left. exact I.
  - destruct (at_ (back s)); [discriminate E| |discriminate E]. destruct (permit (back s)); inversion E; subst. exact I.
  - destruct (at_ (back s)); inversion E; subst. exact I.
Qed.
Lemma sent_grows_run evs : forall s s' xs r, run s evs = Some (s', xs) -> In r (sent s) -> In r (sent s').
Proof using.
  induction evs as [|e evs IH]; intros s s' xs r R I; cbn [Suggest_Model.run] in R; [inversion R; subst; exact I|].
  destruct (step s e) as [[s1 x]|] eqn:T; [|discriminate R]. destruct (run s1 evs) as [[s2 ys]|] eqn:Q; [|discriminate R]. inversion R; subst.
  exact (IH _ _ _ _ Q (sent_grows _ _ _ _ _ T I)).
Qed.

(** whichever way keys and worker take turns: a request that waits can go on, and two steps of
    the worker send it, whatever the model answers meanwhile *)
Theorem C121_waiting_request_is_sent : forall g bf evs s xs r, run (start g bf) evs = Some (s, xs) -> pending (back s) = Some r ->
  (exists ev, by_worker ev /\ step s ev <> None)
  /\ forall ws s' ys, Forall by_worker ws -> 2 <= length ws -> run s ws = Some (s', ys) -> In r (sent s').
Proof using.
  intros g bf evs s xs r R Pd. pose proof (good_reach _ _ _ _ _ R) as [G1 G2]. clear R xs evs.
  assert (F : inflight (back s) = true) by (apply G1; congruence). specialize (G2 F).
  assert (One : forall s r ws s' ys, at_ (back s) = Checking -> pending (back s) = Some r -> Forall by_worker ws -> 1 <= length ws -> run s ws = Some (s', ys) -> In r (sent s')).
  { clear. intros s r ws s' ys W Pd B L R. destruct ws as [|w ws]; [cbn in L; lia|]. cbn [Suggest_Model.run] in R.
    destruct (step s w) as [[s1 x]|] eqn:T; [|discriminate R]. destruct (run s1 ws) as [[s2 zs]|] eqn:Q; [|discriminate R]. inversion R; subst.
    apply (sent_grows_run _ _ _ _ _ Q). inversion B as [|? ? Bw _]; subst. destruct w; cbn in Bw; try contradiction; cbn [Suggest_Model.step] in T; rewrite W in T; try discriminate T.
    inversion T; subst. cbn [sent]. rewrite Pd. apply in_or_app. right. left. reflexivity. }
  split.
  - destruct (at_ (back s)) eqn:W.
    + exists WCheck. split; [exact Logic.I|]. cbn [Suggest_Model.step]. rewrite W. discriminate.
    + destruct G2 as [G2|G2]; [congruence|]. exists WWake. split; [exact Logic.I|]. cbn [Suggest_Model.step]. rewrite W, G2. discriminate.
    + exists (WAnswer 0 None). split; [exact Logic.I|]. cbn [Suggest_Model.step]. rewrite W. discriminate.
  - intros ws s' ys B L R. destruct (at_ (back s)) eqn:W.
    + apply (One s r ws s' ys W Pd B); [lia|exact R].
    + destruct ws as [|w ws]; [cbn in L; lia|]. cbn [Suggest_Model.run] in R. destruct (step s w) as [[s1 x]|] eqn:T; [|discriminate R].
      destruct (run s1 ws) as [[s2 zs]|] eqn:Q; [|discriminate R]. inversion R; subst. inversion B as [|? ? Bw B']; subst.
      apply (One s1 r ws s' zs); [| |exact B'|cbn in L; lia|exact Q].
      all: destruct w; cbn in Bw; try contradiction; cbn [Suggest_Model.step] in T; rewrite W in T; try discriminate T; destruct (permit (back s)); inversion T; subst; cbn; [reflexivity || exact Pd].
    + destruct ws as [|w ws]; [cbn in L; lia|]. cbn [Suggest_Model.run] in R. destruct (step s w) as [[s1 x]|] eqn:T; [|discriminate R].
      destruct (run s1 ws) as [[s2 zs]|] eqn:Q; [|discriminate R]. inversion R; subst. inversion B as [|? ? Bw B']; subst.
      assert (K : at_ (back s1) = Checking /\ pending (back s1) = Some r).
      { destruct w; cbn in Bw; try contradiction; cbn [Suggest_Model.step] in T; rewrite W in T; try discriminate T. inversion T; subst. cbn [back]. unfold handle_completion.
        destruct (match fetch_completion r0 text with Some _ => _ | None => _ end) as [a c]. rewrite Pd. cbn. auto. }
      destruct K as [K1 K2]. apply (One s1 r ws s' zs K1 K2 B'); [cbn in L; lia|exact Q].
Qed.

(** the request that waits is the last one made *)
Theorem C121_last_request_waits : forall s now g i cur h cwd s' , trim i <> [] ->
  step s (Refresh now g true i cur h cwd) = Some (s', []) -> pending (back s') = Some (Request i (Some cwd) (history_context h)).
Proof using.
  intros s now g i cur h cwd s' N E. cbn [Suggest_Model.step] in E. unfold Suggest_Model.refresh in E.
  match type of E with context [predict now ?e0 _ _ _ _] => destruct (predict now e0 (back s) i cur h) as [[e1 b1] f1] end.
  destruct f1; [|inversion E]. destruct (ai_suggestion now b1 (Request i (Some cwd) (history_context h))) as [b2 [z|]] eqn:A; [inversion E|].
  inversion E; subst. cbn [back]. apply ai_nothing in A as [_ ->]. cbn [r_input]. assert (Q : is_nil (trim i) = false) by (apply is_nil_false; exact N). rewrite Q.
  unfold enqueue. destruct (inflight b1); reflexivity.
Qed.

(** the worker comes to rest, and then no request is shown as pending *)
Definition work (b : backend) : nat :=
  match at_ b, pending b, permit b with
  | Waiting, _, false => 0
  | Waiting, None, true => 2
  | Waiting, Some _, true => 4
  | Checking, None, false => 1
  | Checking, None, true => 3
  | Checking, Some _, false => 3
  | Checking, Some _, true => 5
  | Fetching _, None, false => 2
  | Fetching _, None, true => 4
  | Fetching _, Some _, _ => 6
  end.
Lemma work_less s ev s' x : by_worker ev -> step s ev = Some (s', x) -> work (back s') < work (back s).
Proof using.
  intros B E. unfold work. destruct ev as [now g bf i cur h cwd | now i h cwd | cwd | | | now t]; cbn in B; try contradiction; cbn [Suggest_Model.step] in E.
  - destruct (at_ (back s)) eqn:W; inversion E; subst. cbn [back]. unfold worker_check. destruct (pending (back s)); cbn; destruct (permit (back s)); lia.
  - destruct (at_ (back s)) eqn:W; [discriminate E| |discriminate E]. destruct (permit (back s)); inversion E; subst. cbn. destruct (pending (back s)); lia.
  - destruct (at_ (back s)) eqn:W; inversion E; subst. cbn [back]. unfold handle_completion.
    destruct (match fetch_completion r t with Some _ => _ | None => _ end) as [a c]. destruct (pending (back s)); cbn; destruct (permit (back s)); lia.
Qed.
Theorem C121_worker_comes_to_rest : forall ws s s' ys, Forall by_worker ws -> run s ws = Some (s', ys) -> length ws <= 6.
Proof using.
  assert (G : forall ws s s' ys, Forall by_worker ws -> run s ws = Some (s', ys) -> length ws <= work (back s)).
  { induction ws as [|w ws IH]; intros s s' ys B R; [cbn; lia|]. cbn [Suggest_Model.run] in R. destruct (step s w) as [[s1 x]|] eqn:T; [|discriminate R].
    destruct (run s1 ws) as [[s2 zs]|] eqn:Q; [|discriminate R]. inversion B as [|? ? Bw B']; subst. pose proof (work_less _ _ _ _ Bw T). specialize (IH _ _ _ B' Q). cbn. lia. }
  intros ws s s' ys B R. specialize (G ws s s' ys B R). unfold work in G. destruct (at_ (back s)), (pending (back s)), (permit (back s)); lia.
Qed.
Theorem C121_rest_is_not_pending : forall g bf evs s xs, run (start g bf) evs = Some (s, xs) ->
  (forall ev, by_worker ev -> step s ev = None) -> is_pending (back s) = false.
Proof using.
  intros g bf evs s xs R N. pose proof (good_reach _ _ _ _ _ R) as [G1 G2].
  destruct (at_ (back s)) eqn:W.
  - specialize (N WCheck Logic.I). cbn [Suggest_Model.step] in N. rewrite W in N. discriminate N.
  - specialize (N WWake Logic.I). cbn [Suggest_Model.step] in N. rewrite W in N. destruct (permit (back s)); [discriminate N|].
    unfold is_pending. destruct (inflight (back s)); [destruct (G2 eq_refl); congruence|]. cbn. destruct (pending (back s)); [|reflexivity]. assert (false = true) by (apply G1; discriminate). congruence.
  - specialize (N (WAnswer 0 None) Logic.I). cbn [Suggest_Model.step] in N. rewrite W in N. discriminate N.
Qed.

(** ** C122: what is sent *)
Lemma some_inj {A} (a b : A) : Some a = Some b -> b = a. Proof using. congruence. Qed.
(** the requests around: sent, waiting, being answered *)
Definition around (s : sys) (r : request) : Prop := In r (sent s) \/ pending (back s) = Some r \/ at_ (back s) = Fetching r.
Lemma recent_context h : recent h (history_context h).
Proof using.
  destruct h as [h|]; [|reflexivity]. cbn [recent history_context]. rewrite map_length. split; [rewrite firstn_length; lia|].
  exists (map History_Model.cmd (rev (skipn 8 (rev (History_Model.hs h))))). split.
  - rewrite <- map_rev, <- map_app, <- rev_app_distr, firstn_skipn, rev_involutive. reflexivity.
  - rewrite firstn_length. destruct (Nat.le_gt_cases 8 (length (rev (History_Model.hs h)))); [left; lia|right]. rewrite skipn_all2 by lia. reflexivity.
Qed.
(** a request around after a step was around before, or the step made it *)
Lemma around_step s ev s' x r : step s ev = Some (s', x) -> around s' r -> around s r \/ asked_for r ev.
Proof using.
  intros E A. destruct ev as [now g bf i cur h cwd | now i h cwd | cwd | | | now t]; cbn [Suggest_Model.step] in E.
  - destruct (refresh now (eng s) (back s) g bf i cur h cwd) as [[e b] fd] eqn:F. inversion E; subst. clear E.
    apply refresh_changes in F as (_ & _ & _ & _ & (rs & -> & Fi & Ok)). destruct rs as [|q rs].
    + left. exact A.
    + destruct (fold_enqueue_keeps (q :: rs) (back s)) as (_ & _ & K). unfold around in A. cbn [sent back] in A. rewrite K in A.
      destruct A as [A|[A|A]]; [left; left; exact A| |left; right; right; exact A]. right. rewrite fold_enqueue_last in A by discriminate. apply some_inj in A. subst r.
      cbn [asked_for]. destruct (proj1 (Forall_forall _ _) Fi (last (q :: rs) (Request [] None []))) as [Q1 Q2]; [apply last_in; discriminate|]. split; [exact Q1|]. split; [apply Ok; discriminate|]. rewrite Q2. apply recent_context.
  - destruct (ai_suggestion now (back s) (Request i (Some cwd) (history_context h))) as [b o] eqn:Q. inversion E; subst. clear E.
    apply (ai_enqueues _ _ _ _ _ True Logic.I) in Q as (rs & -> & Fi & Ok). destruct rs as [|q rs].
    + left. exact A.
    + destruct (fold_enqueue_keeps (q :: rs) (back s)) as (_ & _ & K). unfold around in A. cbn [sent back] in A. rewrite K in A.
      destruct A as [A|[A|A]]; [left; left; exact A| |left; right; right; exact A]. right. rewrite fold_enqueue_last in A by discriminate. apply some_inj in A. subst r.
      cbn [asked_for]. destruct (proj1 (Forall_forall _ _) Fi (last (q :: rs) (Request [] None []))) as [Q1 Q2]; [apply last_in; discriminate|]. split; [exact Q1|]. split; [apply Ok; discriminate|]. rewrite Q2. apply recent_context.
  - inversion E; subst. unfold around in A. cbn [sent back] in A. destruct (backfill (eng s)); [|left; exact A].
    unfold backend_prefetch in A. cbn [r_input is_nil] in A. destruct (fold_enqueue_keeps [Request [] (Some cwd) []] (back s)) as (_ & _ & K). cbn [fold_left] in K. rewrite K in A.
    destruct A as [A|[A|A]]; [left; left; exact A| |left; right; right; exact A]. right. unfold enqueue in A. destruct (inflight (back s)); cbn in A; inversion A; subst; cbn; auto.
  - destruct (at_ (back s)) eqn:W; inversion E; subst. left. unfold around in *. cbn [sent back] in A. unfold worker_check in A.
    destruct (pending (back s)) as [q|] eqn:Pd; cbn in A.
    + destruct A as [A|[A|A]]; [|discriminate A|inversion A; auto]. apply in_app_or in A as [A|[A|[]]]; [auto|subst; auto].
    + rewrite app_nil_r in A. destruct A as [A|[A|A]]; [auto|discriminate A|discriminate A].
  - destruct (at_ (back s)) eqn:W; [discriminate E| |discriminate E]. destruct (permit (back s)); inversion E; subst. left. unfold around in *. cbn in A.
    destruct A as [A|[A|A]]; [auto|auto|discriminate A].
  - destruct (at_ (back s)) eqn:W; inversion E; subst. left. unfold around in *. cbn [sent back] in A. unfold handle_completion in A.
    destruct (match fetch_completion r0 t with Some _ => _ | None => _ end) as [a c]. destruct (pending (back s)) eqn:Pd; cbn in A; rewrite ?Pd in A.
    + destruct A as [A|[A|A]]; [auto|auto|discriminate A].
    + destruct A as [A|[A|A]]; [auto|discriminate A|discriminate A].
Qed.
Lemma around_reach g bf evs s xs : run (start g bf) evs = Some (s, xs) -> forall r, around s r -> exists ev, In ev evs /\ asked_for r ev.
Proof using.
  apply (run_ind (fun evs s => forall r, around s r -> exists ev, In ev evs /\ asked_for r ev)).
  - intros r [[]|[A|A]]; discriminate A.
  - intros evs' s0 xs0 ev s' x _ IH E r A. destruct (around_step _ _ _ _ _ E A) as [B|B].
    + destruct (IH r B) as (ev0 & J & K). exists ev0. split; [apply in_or_app; left; exact J|exact K].
    + exists ev. split; [apply in_or_app; right; left; reflexivity|exact B].
Qed.
Theorem C122_sent_was_typed : forall g bf evs s xs r, run (start g bf) evs = Some (s, xs) -> In r (sent s) ->
  exists ev, In ev evs /\ asked_for r ev.
Proof using. intros g bf evs s xs r R I. apply (around_reach _ _ _ _ _ R). left. exact I. Qed.

(** with the preference off at every prompt, and without the key, nothing is sent.
    Missing: that switching suggestions off, or the list of commands not to ask about,
    prevents it; see below. *)
Theorem C122_not_asked_not_sent_partial : forall g evs s xs, run (start g false) evs = Some (s, xs) -> Forall unwanted evs -> sent s = [].
Proof using.
  intros g evs s xs R.
  assert (G : Forall unwanted evs -> backfill (eng s) = false /\ forall r, ~ around s r).
  { revert R. apply (run_ind (fun evs s => Forall unwanted evs -> backfill (eng s) = false /\ forall r, ~ around s r)).
    - intros _. split; [reflexivity|]. intros r [[]|[A|A]]; discriminate A.
    - clear. intros evs s xs ev s' x _ IH E U. apply Forall_app in U as [U V]. inversion V as [|? ? V1 _]; subst. destruct (IH U) as [B N]. clear IH U V.
      destruct ev as [now g1 bf i cur h cwd | now i h cwd | cwd | | | now t]; cbn [Suggest_Model.step] in E; cbn in V1.
      + subst bf. destruct (refresh now (eng s) (back s) g1 false i cur h cwd) as [[e b] fd] eqn:F. inversion E; subst. clear E.
        apply refresh_changes in F as (_ & F2 & _ & _ & (rs & -> & _ & Ok)). split; [exact F2|]. destruct rs as [|q rs]; [exact N|].
        destruct Ok as [Ok _]; [discriminate|discriminate Ok].
      + contradiction V1.
      + inversion E; subst. cbn [eng]. split; [exact B|]. rewrite B. exact N.
      + assert (K := E). destruct (at_ (back s)) eqn:W; inversion E; subst. cbn [eng]. split; [exact B|]. intros r A.
        destruct (around_step s WCheck _ [] r ltac:(cbn [Suggest_Model.step]; rewrite W; reflexivity) A) as [Q|Q]; [exact (N r Q)|exact Q].
      + destruct (at_ (back s)) eqn:W; [discriminate E| |discriminate E]. destruct (permit (back s)) eqn:Pm; inversion E; subst. cbn [eng]. split; [exact B|]. intros r A.
        destruct (around_step s WWake _ [] r ltac:(cbn [Suggest_Model.step]; rewrite W, Pm; reflexivity) A) as [Q|Q]; [exact (N r Q)|exact Q].
      + destruct (at_ (back s)) eqn:W; inversion E; subst. cbn [eng]. split; [exact B|]. intros q A.
        destruct (around_step s (WAnswer now t) _ [] q ltac:(cbn [Suggest_Model.step]; rewrite W; reflexivity) A) as [Q|Q]; [exact (N q Q)|exact Q]. }
  intros U. destruct (G U) as [_ N]. destruct (sent s) as [|r l] eqn:S0; [reflexivity|]. contradiction (N r). left. rewrite S0. left. reflexivity.
Qed.

(** ** C123: where a suggestion of the model comes from *)
Lemma answered_more g bf evs more t r text : answered path g bf evs t r text -> answered path g bf (evs ++ more) t r text.
Proof using.
  intros (b & a & s & sh & -> & R & W). exists b, (a ++ more), s, sh. split; [rewrite <- app_assoc; reflexivity|]. auto.
Qed.
(** an answer that continues the line is shown on it, for eight seconds: at once when the key is
    pressed, and otherwise unless something else is *)
Lemma live_answer now b r f t : answer b = Some (f, t) -> now <= t + 8 * 1000 -> continues (r_input r) f -> try_cached now b r = Some f.
Proof using.
  intros A T C. unfold try_cached. rewrite A. apply longer_iff in C. rewrite C. assert (L : (now - t <=? cache_ttl) = true) by (apply Nat.leb_le; unfold cache_ttl; lia). rewrite L. reflexivity.
Qed.
Theorem C123_answer_is_shown : forall s r text f t now i h cwd, at_ (back s) = Fetching r -> r_input r <> [] -> fetch_completion r (Some text) = Some f ->
  now <= t + 8 * 1000 -> continues i f ->
  (exists s', run s [WAnswer t (Some text); Force now i h cwd] = Some (s', [[]; [Sugg f FromAi]]))
  /\ forall g cur, exists s' shown, run s [WAnswer t (Some text); Refresh now g true i cur h cwd] = Some (s', [[]; shown]) /\ shown <> [].
Proof using.
  intros s r text f t now i h cwd W N Fc T C. set (b := handle_completion t (back s) r (fetch_completion r (Some text))).
  assert (A : answer b = Some (f, t)).
  { unfold b, handle_completion. rewrite Fc. apply is_nil_false in N. rewrite N. destruct (pending (back s)); reflexivity. }
  assert (S1 : step s (WAnswer t (Some text)) = Some (Sys (eng s) b (sent s), [])) by (cbn [Suggest_Model.step]; rewrite W; reflexivity).
  assert (AI : forall c, answer c = Some (f, t) -> ai_suggestion now c (Request i (Some cwd) (history_context h)) = (c, Some (Sugg f FromAi))).
  { intros c Ac. unfold ai_suggestion, backend_predict. rewrite (live_answer now c (Request i (Some cwd) (history_context h)) f t Ac T C). cbn [r_input].
    apply longer_iff in C. unfold longer in C. apply Bool.andb_true_iff in C as [C _]. rewrite C. reflexivity. }
  clearbody b. split.
  - eexists. cbn [Suggest_Model.run]. rewrite S1. cbn [Suggest_Model.step back]. rewrite (AI b A). reflexivity.
  - intros g cur. cbn [Suggest_Model.run]. rewrite S1. cbn [Suggest_Model.step back eng]. unfold Suggest_Model.refresh.
    match goal with |- context [predict now ?e0 b i cur h] => destruct (predict now e0 b i cur h) as [[e1 b1] f1] eqn:Pr end.
    apply predict_changes in Pr as (_ & _ & _ & _ & (rs & -> & _)). destruct (fold_enqueue_keeps rs b) as (A2 & _). rewrite A in A2.
    destruct f1 as [|x f1]; [rewrite (AI _ A2)|]; eexists _, _; (split; [reflexivity|discriminate]).
Qed.
Section Origin.
Variables (g0 bf0 : bool).
Notation answered := (answered path g0 bf0).
Definition from_answer evs (t : nat) (f : str) : Prop :=
  exists r text, answered evs t r text /\ r_input r <> [] /\ f = sanitize_model_output text /\ starts_with (r_input r) f = true.
Record origin (evs : list event) (s : sys) : Prop := {
  o_answer : forall f t, answer (back s) = Some (f, t) -> from_answer evs t f;
  o_context : forall ts d t, context (back s) = Some (ts, d, t) ->
     exists r text, answered evs t r text /\ r_input r = [] /\ r_cwd r = Some d /\ ts = map trim (Direnv_Model.lines text);
  o_cache : forall k, ai_cache (eng s) = Some k -> src (c_state k) = FromAi /\ exists t, from_answer evs t (full (c_state k)) /\ c_at k <= t + cache_ttl;
  o_dir : forall r, around s r -> r_input r = [] -> r_cwd r <> None }.
Lemma from_answer_more evs more t f : from_answer evs t f -> from_answer (evs ++ more) t f.
Proof using. intros (r & x & A & B). exists r, x. split; [apply answered_more, A|exact B]. Qed.

(** a live answer *)
Lemma try_cached_from now b r f : try_cached now b r = Some f ->
  (exists t, answer b = Some (f, t) /\ now <= t + cache_ttl)
  \/ (exists ts d t, context b = Some (ts, d, t) /\ r_cwd r = Some d /\ In f ts /\ now <= t + cache_ttl).
Proof using.
  unfold try_cached. intros E.
  assert (C : match context b, r_cwd r with
      | Some (ts, dir, at1), Some cwd => if str_eqb dir cwd && (now - at1 <=? cache_ttl) then find (longer (r_input r)) ts else None
      | _, _ => None end = Some f -> exists ts d t, context b = Some (ts, d, t) /\ r_cwd r = Some d /\ In f ts /\ now <= t + cache_ttl).
  { destruct (context b) as [[[ts d] t]|]; [|discriminate]. destruct (r_cwd r) as [cwd|]; [|discriminate].
    destruct (str_eqb d cwd && (now - t <=? cache_ttl)) eqn:K; [|discriminate]. apply Bool.andb_true_iff in K as [K1 K2]. apply str_eqb_eq in K1. apply Nat.leb_le in K2.
    intros F. apply find_some in F as [F _]. exists ts, d, t. subst d. split; [reflexivity|]. split; [reflexivity|]. split; [exact F|lia]. }
  destruct (answer b) as [[a t]|]; [|right; exact (C E)].
  destruct ((now - t <=? cache_ttl) && longer (r_input r) a) eqn:K; [|right; exact (C E)].
  inversion E; subst a. apply Bool.andb_true_iff in K as [K _]. apply Nat.leb_le in K. left. exists t. split; [reflexivity|lia].
Qed.
Lemma fold_origin evs more rs s e : origin evs s -> (forall k, ai_cache e = Some k -> src (c_state k) = FromAi /\ exists t, from_answer (evs ++ more) t (full (c_state k)) /\ c_at k <= t + cache_ttl) ->
  Forall (fun r => r_input r = [] -> r_cwd r <> None) rs -> origin (evs ++ more) (Sys e (fold_left enqueue rs (back s)) (sent s)).
Proof using.
  intros [O1 O2 O3 O4] K F. destruct (fold_enqueue_keeps rs (back s)) as (A & C & W). constructor; cbn [back eng].
  - intros f t. rewrite A. intros Q. apply from_answer_more, O1, Q.
  - intros ts d t. rewrite C. intros Q. destruct (O2 _ _ _ Q) as (r & x & H1 & H2). exists r, x. split; [apply answered_more, H1|exact H2].
  - exact K.
  - intros r B N. destruct B as [B|[B|B]]; cbn [sent back] in B.
    + apply O4; [left; exact B|exact N].
    + destruct rs as [|q rs]; [apply O4; [right; left; exact B|exact N]|]. rewrite fold_enqueue_last in B by discriminate. apply some_inj in B. subst r.
      apply (proj1 (Forall_forall _ _) F); [apply last_in; discriminate|exact N].
    + rewrite W in B. apply O4; [right; right; exact B|exact N].
Qed.
Lemma trim_nil : trim [] = []. Proof using. reflexivity. Qed.
Lemma origin_reach evs s xs : run (start g0 bf0) evs = Some (s, xs) -> origin evs s.
Proof using.
  apply (run_ind origin).
  - constructor; cbn; try discriminate. intros r [[]|[A|A]]; discriminate A.
  - clear. intros evs s xs ev s' x Rn O E. pose proof O as [O1 O2 O3 O4].
    assert (O3' : forall k, ai_cache (eng s) = Some k -> src (c_state k) = FromAi /\ exists t, from_answer (evs ++ [ev]) t (full (c_state k)) /\ c_at k <= t + cache_ttl).
    { intros k K. destruct (O3 k K) as (Q & t & Q1 & Q2). split; [exact Q|]. exists t. split; [apply from_answer_more, Q1|exact Q2]. }
    assert (O4' : forall r, around s' r -> r_input r = [] -> r_cwd r <> None).
    { intros r A N. destruct (around_step _ _ _ _ _ E A) as [B|B]; [exact (O4 r B N)|].
      destruct ev; cbn in B; try contradiction; destruct B as (B1 & B2 & _); try congruence; subst input; rewrite N in B2; contradiction B2; reflexivity. }
    destruct ev as [now g bf i cur h cwd | now i h cwd | cwd | | | now t]; cbn [Suggest_Model.step] in E.
    + destruct (refresh now (eng s) (back s) g bf i cur h cwd) as [[e b] fd] eqn:F. inversion E; subst s' x. clear E.
      apply refresh_changes in F as (_ & _ & _ & F4 & (rs & -> & Fi & Ok)). apply (fold_origin evs _ rs s e O).
      * intros k K. destruct F4 as [F4|[F4|(y & F4 & T & Y)]]; rewrite K in F4; [discriminate F4|symmetry in F4; exact (O3' k F4)|].
        inversion F4; subst k. cbn [c_state c_at]. split; [exact Y|]. destruct (try_cached_from _ _ _ _ T) as [(t & Q1 & Q2)|(ts & d & t & _ & Q & _)]; [|discriminate Q].
        exists t. split; [apply from_answer_more, O1, Q1|exact Q2].
      * apply Forall_forall. intros r I N. rewrite (proj1 (proj1 (Forall_forall _ _) Fi r I)) in N. subst i.
        destruct Ok as [_ Ok]; [intros ->; contradiction I|]. contradiction Ok. reflexivity.
    + destruct (ai_suggestion now (back s) (Request i (Some cwd) (history_context h))) as [b o] eqn:Q. inversion E; subst. clear E.
      apply (ai_enqueues _ _ _ _ _ True Logic.I) in Q as (rs & -> & Fi & Ok). apply (fold_origin evs _ rs s (eng s) O O3').
      apply Forall_forall. intros r I N. rewrite (proj1 (proj1 (Forall_forall _ _) Fi r I)) in N. cbn in N. subst i.
      destruct Ok as [_ Ok]; [intros ->; contradiction I|]. contradiction Ok. reflexivity.
    + inversion E; subst. destruct (backfill (eng s)).
      * apply (fold_origin evs _ [Request [] (Some cwd) []] s (eng s) O O3'). constructor; [|constructor]. intros _. discriminate.
      * apply (fold_origin evs _ [] s (eng s) O O3'). constructor.
    + destruct (at_ (back s)) eqn:W; inversion E; subst. constructor; cbn [eng back]; [| |exact O3'|exact O4'].
      * intros f t Q. apply from_answer_more, O1. unfold worker_check in Q. destruct (pending (back s)); exact Q.
      * intros ts d t Q. unfold worker_check in Q. assert (Q' : context (back s) = Some (ts, d, t)) by (destruct (pending (back s)); exact Q).
        destruct (O2 _ _ _ Q') as (r & y & H1 & H2). exists r, y. split; [apply answered_more, H1|exact H2].
    + destruct (at_ (back s)) eqn:W; [discriminate E| |discriminate E]. destruct (permit (back s)); inversion E; subst. constructor; cbn [eng back]; [| |exact O3'|exact O4'].
      * intros f t Q. apply from_answer_more, O1. exact Q.
      * intros ts d t Q. destruct (O2 _ _ _ Q) as (r & y & H1 & H2). exists r, y. split; [apply answered_more, H1|exact H2].
    + destruct (at_ (back s)) eqn:W; inversion E; subst.
      assert (A : forall text, t = Some text -> answered (evs ++ [WAnswer now t]) now r text).
      { intros text ->. exists evs, [], s, xs. auto. }
      set (ac := match fetch_completion r t with
         | None => (answer (back s), context (back s))
         | Some t => if is_nil (r_input r) then let ts := map trim (Direnv_Model.lines t) in
              (answer (back s), match ts with [] => context (back s) | _ => Some (ts, match r_cwd r with Some d => d | None => [] end, now) end)
             else (Some (t, now), context (back s)) end).
      assert (B : answer (handle_completion now (back s) r (fetch_completion r t)) = fst ac /\ context (handle_completion now (back s) r (fetch_completion r t)) = snd ac).
      { unfold handle_completion. fold ac. destruct ac as [a c]. destruct (pending (back s)); auto. }
      destruct B as [B1 B2]. constructor; cbn [eng back]; [| |exact O3'|exact O4'].
      * intros f t0. rewrite B1. unfold ac. unfold fetch_completion. destruct t as [text|]; [|cbn; intros Q; apply from_answer_more, O1, Q].
        destruct (is_nil (r_input r)) eqn:Ni; [cbn; intros Q; apply from_answer_more, O1, Q|].
        destruct (is_nil (sanitize_model_output text)); [cbn; intros Q; apply from_answer_more, O1, Q|].
        destruct (starts_with (r_input r) (sanitize_model_output text)) eqn:Sw; [|cbn; intros Q; apply from_answer_more, O1, Q].
        cbn. intros Q. inversion Q; subst. exists r, text. split; [apply A; reflexivity|]. split; [apply is_nil_false; exact Ni|]. auto.
      * intros ts d t0. rewrite B2. unfold ac. unfold fetch_completion.
        assert (Old : context (back s) = Some (ts, d, t0) -> exists r0 text, answered (evs ++ [WAnswer now t]) t0 r0 text /\ r_input r0 = [] /\ r_cwd r0 = Some d /\ ts = map trim (Direnv_Model.lines text)).
        { intros Q. destruct (O2 _ _ _ Q) as (q & y & H1 & H2). exists q, y. split; [apply answered_more, H1|exact H2]. }
        destruct t as [text|]; [|exact Old]. destruct (is_nil (r_input r)) eqn:Ni.
        -- cbn. destruct (map trim (Direnv_Model.lines text)) eqn:M; [exact Old|]. intros Q. inversion Q; subst.
           apply is_nil_iff in Ni. exists r, text. split; [apply A; reflexivity|]. split; [exact Ni|]. split; [|symmetry; exact M].
           assert (D : r_cwd r <> None) by (apply O4; [right; right; exact W|exact Ni]). destruct (r_cwd r); [reflexivity|congruence].
        -- destruct (is_nil (sanitize_model_output text)); [exact Old|]. destruct (starts_with (r_input r) (sanitize_model_output text)); [|exact Old]. exact Old.
Qed.

(** Every suggestion of the model is its answer to a request that was sent: to one about a
    line it continues, given at most ten seconds ago; or one of the commands it listed for this
    directory, at most eight seconds ago.
    Missing: that the answer was to a request made in this directory; see below. *)
Theorem C123_suggestion_was_answered_partial : forall evs s xs ev s' shown f,
  run (start g0 bf0) evs = Some (s, xs) -> step s ev = Some (s', shown) -> In (Sugg f FromAi) shown ->
  exists now i cwd t r text, typed_at ev now i cwd /\ answered evs t r text
    /\ ((r_input r <> [] /\ starts_with (r_input r) f = true /\ f = sanitize_model_output text /\ now <= t + 10 * 1000)
        \/ (r_input r = [] /\ r_cwd r = Some cwd /\ In f (map trim (Direnv_Model.lines text)) /\ now <= t + 8 * 1000)).
Proof using.
  intros evs s xs ev s' shown f Rn E I. pose proof (origin_reach _ _ _ Rn) as [O1 O2 O3 _].
  assert (Live : forall now b r, answer b = answer (back s) -> context b = context (back s) -> try_cached now b r = Some f ->
     exists t q text, answered evs t q text
    /\ ((r_input q <> [] /\ starts_with (r_input q) f = true /\ f = sanitize_model_output text /\ now <= t + 8 * 1000)
        \/ (r_input q = [] /\ r_cwd q <> None /\ r_cwd q = r_cwd r /\ In f (map trim (Direnv_Model.lines text)) /\ now <= t + 8 * 1000))).
  { intros now b r A C T. destruct (try_cached_from _ _ _ _ T) as [(t & Q1 & Q2)|(ts & d & t & Q1 & Q2 & Q3 & Q4)].
    - rewrite A in Q1. destruct (O1 _ _ Q1) as (q & text & H1 & H2 & H3 & H4). exists t, q, text. split; [exact H1|]. left. auto.
    - rewrite C in Q1. destruct (O2 _ _ _ Q1) as (q & text & H1 & H2 & H3 & H4). exists t, q, text. split; [exact H1|]. right. split; [exact H2|].
      split; [rewrite H3; discriminate|]. split; [rewrite H3, Q2; reflexivity|]. split; [rewrite <- H4; exact Q3|exact Q4]. }
  assert (Fin : forall now i cwd r b, typed_at ev now i cwd -> r_cwd r = Some cwd \/ r_cwd r = None -> answer b = answer (back s) -> context b = context (back s) -> try_cached now b r = Some f ->
     exists now i cwd t r text, typed_at ev now i cwd /\ answered evs t r text
    /\ ((r_input r <> [] /\ starts_with (r_input r) f = true /\ f = sanitize_model_output text /\ now <= t + 10 * 1000)
        \/ (r_input r = [] /\ r_cwd r = Some cwd /\ In f (map trim (Direnv_Model.lines text)) /\ now <= t + 8 * 1000))).
  { intros now i cwd r b Ty Rc A C T. destruct (Live now b r A C T) as (t & q & text & H1 & H2). exists now, i, cwd, t, q, text. split; [exact Ty|]. split; [exact H1|].
    destruct H2 as [(H2 & H3 & H4 & H5)|(H2 & H3 & H4 & H5 & H6)]; [left; split; [exact H2|]; split; [exact H3|]; split; [exact H4|]; lia|].
    right. split; [exact H2|]. split; [destruct Rc; congruence|auto]. }
  destruct ev as [now g bf i cur h cwd | now i h cwd | cwd | | | now t]; cbn [Suggest_Model.step] in E.
  - destruct (refresh now (eng s) (back s) g bf i cur h cwd) as [[e b] fd] eqn:F. inversion E; subst s' shown. clear E. unfold Suggest_Model.refresh in F.
    set (e0 := if Bool.eqb g (ghost (eng s)) && Bool.eqb bf (backfill (eng s)) then eng s else set_preferences (eng s) g bf) in F.
    assert (A0 : (ai_cache e0 = None \/ ai_cache e0 = ai_cache (eng s))).
    { unfold e0, set_preferences. destruct (Bool.eqb g (ghost (eng s)) && Bool.eqb bf (backfill (eng s))); [auto|]. destruct g; cbn; auto. }
    assert (H0 : history_cache e0 = None \/ history_cache e0 = history_cache (eng s)).
    { unfold e0, set_preferences. destruct (Bool.eqb g (ghost (eng s)) && Bool.eqb bf (backfill (eng s))); [auto|]. destruct g; cbn; auto. }
    clearbody e0. destruct (predict now e0 (back s) i cur h) as [[e1 b1] f1] eqn:Pr.
    assert (J : In (Sugg f FromAi) f1 \/ f1 = [] /\ exists r, r_cwd r = Some cwd /\ try_cached now b1 r = Some f).
    { destruct f1; [|left; inversion F; subst; exact I]. destruct bf; [|left; inversion F; subst; exact I].
      destruct (ai_suggestion now b1 (Request i (Some cwd) (history_context h))) as [b2 [z|]] eqn:A; inversion F; subst; [|contradiction I].
      destruct I as [->|[]]. apply ai_from_cache in A as (_ & A & _). right. split; [reflexivity|]. eexists. split; [|exact A]. reflexivity. }
    destruct J as [J|(_ & r & Rc & T)].
    + destruct (predict_shows _ _ _ _ _ _ _ _ _ Pr _ J) as (_ & _ & [U | [U | [U | [U | [U _]]]]]).
      * apply use_cache_some in U as (k & K & _ & Ks & _). exfalso.
        assert (Hc : forall k, history_cache (eng s) = Some k -> src (c_state k) = FromHistory).
        { revert Rn. apply (run_ind (fun _ s => forall k, history_cache (eng s) = Some k -> src (c_state k) = FromHistory)); [intros k0 Q; discriminate Q|].
          clear. intros evs s xs ev s' x _ IH E. destruct ev as [now g bf i cur h cwd | now i h cwd | cwd | | | now t]; cbn [Suggest_Model.step] in E.
          - destruct (refresh now (eng s) (back s) g bf i cur h cwd) as [[e b] fd] eqn:F. inversion E; subst. apply refresh_changes in F as (_ & _ & H & _ & _).
            intros k K. cbn [eng] in K. destruct H as [H|[H|(y & H & G)]]; rewrite K in H; [discriminate H|symmetry in H; exact (IH k H)|]. inversion H; subst k. apply history_continues in G as (G & _). exact G.
          - destruct (ai_suggestion now (back s) (Request i (Some cwd) (history_context h))). inversion E; subst. exact IH.
          - inversion E; subst. exact IH.
          - destruct (at_ (back s)); inversion E; subst. exact IH.
          - destruct (at_ (back s)); [discriminate E| |discriminate E]. destruct (permit (back s)); inversion E; subst. exact IH.
          - destruct (at_ (back s)); inversion E; subst. exact IH. }
        destruct H0 as [H0|H0]; rewrite K in H0; [discriminate H0|]. symmetry in H0. apply Hc in H0. rewrite Ks in H0. discriminate H0.
      * apply history_continues in U as (U & _). discriminate U.
      * apply completion_continues in U as (U & _). discriminate U.
      * apply use_cache_some in U as (k & K & _ & Ks & _ & T). destruct A0 as [A0|A0]; rewrite K in A0; [discriminate A0|]. symmetry in A0.
        destruct (O3 k A0) as (_ & t & (r & text & H1 & H2 & H3 & H4) & Q). rewrite Ks in *. cbn [full src] in *.
        exists now, i, cwd, t, r, text. split; [cbn; auto|]. split; [exact H1|]. left. split; [exact H2|]. split; [exact H4|]. split; [exact H3|].
        change (ttl_for FromAi) with (2 * 1000) in T. unfold cache_ttl in Q. lia.
      * eapply (Fin now i cwd); [cbn; auto| |reflexivity|reflexivity|exact U]. right. reflexivity.
    + apply predict_changes in Pr as (_ & _ & _ & _ & (rs & -> & _)). destruct (fold_enqueue_keeps rs (back s)) as (A & C & _).
      eapply (Fin now i cwd r); [cbn; auto|left; exact Rc|exact A|exact C|exact T].
  - destruct (ai_suggestion now (back s) (Request i (Some cwd) (history_context h))) as [b [z|]] eqn:A; inversion E; subst; [|contradiction I].
    destruct I as [->|[]]. apply ai_from_cache in A as (_ & A & _). eapply (Fin now i cwd); [cbn; auto| |reflexivity|reflexivity|exact A]. left. reflexivity.
  - inversion E; subst. contradiction I.
  - destruct (at_ (back s)); inversion E; subst; contradiction I.
  - destruct (at_ (back s)); [discriminate E| |discriminate E]. destruct (permit (back s)); inversion E; subst; contradiction I.
  - destruct (at_ (back s)); inversion E; subst; contradiction I.
Qed.
End Origin.
End Suggest.

(** ** What does not hold, and cases *)
Definition no_path : str -> bool -> option str := fun _ _ => None.
(** A command the shell says it does not ask about is sent to the model all the same. *)
Theorem C122_blocklist_refuted : in_blocklist (lit "gco fea") = true
  /\ exists s xs, run no_path (start true true) [Refresh 0 true true (lit "gco fea") 7 None (lit "/d"); WCheck] = Some (s, xs)
     /\ sent s = [Request (lit "gco fea") (Some (lit "/d")) []].
Proof. split; [vm_compute; reflexivity|]. eexists _, _. split; vm_compute; reflexivity. Qed.
(** With suggestions switched off, the line is sent and the answer shown all the same. *)
Theorem C122_suggestions_off_refuted : exists s xs,
  run no_path (start false true) [Refresh 0 false true (lit "git st") 6 None (lit "/d"); WCheck; WAnswer 9 (Some (lit "git status")); Refresh 20 false true (lit "git st") 6 None (lit "/d")] = Some (s, xs)
  /\ sent s = [Request (lit "git st") (Some (lit "/d")) []] /\ last xs [] = [Sugg (lit "git status") FromAi].
Proof. eexists _, _. split; [vm_compute; reflexivity|]. split; vm_compute; reflexivity. Qed.
(** The answer to a line typed in one directory is shown in another one. *)
Theorem C123_other_directory_refuted : exists s xs,
  run no_path (start true true) [Refresh 0 true true (lit "rm ") 3 None (lit "/a"); WCheck; WAnswer 9 (Some (lit "rm -r build")); Refresh 20 true true (lit "rm ") 3 None (lit "/b")] = Some (s, xs)
  /\ sent s = [Request (lit "rm ") (Some (lit "/a")) []] /\ last xs [] = [Sugg (lit "rm -r build") FromAi].
Proof. eexists _, _. split; [vm_compute; reflexivity|]. split; vm_compute; reflexivity. Qed.
(** and, when the line is emptied, on the empty line *)
Theorem C123_empty_line_refuted : exists s xs,
  run no_path (start true true) [Refresh 0 true true (lit "rm ") 3 None (lit "/a"); WCheck; WAnswer 9 (Some (lit "rm -r build")); Refresh 20 true true [] 0 None (lit "/a")] = Some (s, xs)
  /\ last xs [] = [Sugg (lit "rm -r build") FromAi].
Proof. eexists _, _. split; [vm_compute; reflexivity|]. vm_compute; reflexivity. Qed.
(** When the last command that begins with the line is the line itself, no longer one is
    offered from the history. *)
Theorem C120_history_hidden_refuted : forall path s now g bf i cur h cwd, History_Model.search_first h i = Some i ->
  (forall k, history_cache (eng s) = Some k -> c_input k <> i) -> (forall k, ai_cache (eng s) = Some k -> src (c_state k) = FromAi) ->
  forall s' shown f, step path s (Refresh now g bf i cur (Some h) cwd) = Some (s', shown) -> ~ In (Sugg f FromHistory) shown.
Proof.
  intros path s now g bf i cur h cwd S0 K Ka s' shown f E I. cbn [step] in E.
  destruct (refresh path now (eng s) (back s) g bf i cur (Some h) cwd) as [[e b] fd] eqn:F. inversion E; subst s' shown. clear E. unfold refresh in F.
  set (e0 := if Bool.eqb g (ghost (eng s)) && Bool.eqb bf (backfill (eng s)) then eng s else set_preferences (eng s) g bf) in F.
  assert (H0 : (history_cache e0 = None \/ history_cache e0 = history_cache (eng s)) /\ (ai_cache e0 = None \/ ai_cache e0 = ai_cache (eng s))).
  { unfold e0, set_preferences. destruct (Bool.eqb g (ghost (eng s)) && Bool.eqb bf (backfill (eng s))); [auto|]. destruct g; cbn; auto. }
  clearbody e0. destruct H0 as [H0 A0]. destruct (predict path now e0 (back s) i cur (Some h)) as [[e1 b1] f1] eqn:Pr.
  assert (J : In (Sugg f FromHistory) f1).
  { destruct f1; [|inversion F; subst; exact I]. destruct bf; [|inversion F; subst; exact I].
    destruct (ai_suggestion now b1 (Request i (Some cwd) (history_context (Some h)))) as [b2 [z|]] eqn:A; inversion F; subst; [|contradiction I].
    destruct I as [->|[]]. apply ai_from_cache in A as (_ & _ & A). discriminate A. }
  destruct (predict_shows path _ _ _ _ _ _ _ _ _ Pr _ J) as (_ & _ & [U | [U | [U | [U | [_ U]]]]]).
  - apply use_cache_some in U as (k & Kk & Ki & _). destruct H0 as [H0|H0]; rewrite Kk in H0; [discriminate H0|]. symmetry in H0. exact (K k H0 Ki).
  - apply history_continues in U as (_ & (m & N & U) & h' & Eh & Sf). inversion Eh; subst h'. rewrite S0 in Sf. inversion Sf as [Q]. cbn [full] in *. rewrite <- Q in U.
    apply N. apply (app_inv_head i). rewrite app_nil_r. symmetry. exact U.
  - apply completion_continues in U as (U & _). discriminate U.
  - apply use_cache_some in U as (k & Kk & _ & Ks & _). destruct A0 as [A0|A0]; rewrite Kk in A0; [discriminate A0|]. symmetry in A0. apply Ka in A0. rewrite Ks in A0. discriminate A0.
  - discriminate U.
Qed.
Definition two_commands : History_Model.history :=
  History_Model.Hist [History_Model.Entry (lit "git status --short") 1 1 None History_Model.no_meta; History_Model.Entry (lit "git status") 2 1 None History_Model.no_meta] 0 None [] [].
Example C120_hidden_case : History_Model.search_first two_commands (lit "git status") = Some (lit "git status")
  /\ In (lit "git status --short") (map History_Model.cmd (History_Model.hs two_commands)).
Proof. split; [vm_compute; reflexivity|]. left. reflexivity. Qed.
Example C120_first_case : History_Model.search_first two_commands (lit "git s") = Some (lit "git status") /\ continues (lit "git s") (lit "git status").
Proof. split; [vm_compute; reflexivity|]. exists (lit "tatus"). split; [discriminate|reflexivity]. Qed.
(** two lines are typed while the first is being answered; the second is then sent too, and
    the worker rests *)
Example C121_case : exists s xs,
  run no_path (start true true) [Refresh 0 true true (lit "gi") 2 None (lit "/d"); WCheck; Refresh 5 true true (lit "git st") 6 None (lit "/d"); WAnswer 9 None; WCheck; WAnswer 30 (Some (lit "git status")); WCheck; WWake; WCheck] = Some (s, xs)
  /\ map r_input (sent s) = [lit "gi"; lit "git st"] /\ is_pending (back s) = false.
Proof. eexists _, _. split; [vm_compute; reflexivity|]. split; vm_compute; reflexivity. Qed.
Example C122_case : exists s xs,
  run no_path (start true false) [Refresh 0 true false (lit "gi") 2 (Some two_commands) (lit "/d"); Prefetch (lit "/d"); WCheck] = Some (s, xs)
  /\ Forall unwanted [Refresh 0 true false (lit "gi") 2 (Some two_commands) (lit "/d"); Prefetch (lit "/d"); WCheck].
Proof. eexists _, _. split; [vm_compute; reflexivity|]. repeat (constructor; [cbn; auto|]). constructor. Qed.
(** the commands listed for a directory are offered there *)
Example C123_case : exists s xs,
  run no_path (start true true) [Prefetch (lit "/d"); WCheck; WAnswer 9 (Some (lit "git status" ++ [10%N] ++ lit " cargo build")); Refresh 20 true true (lit "car") 3 None (lit "/d")] = Some (s, xs)
  /\ last xs [] = [Sugg (lit "cargo build") FromAi].
Proof. eexists _, _. split; [vm_compute; reflexivity|]. vm_compute; reflexivity. Qed.

Print Assumptions C120_suggestion_continues_the_line.
Print Assumptions C120_history_is_current.
Print Assumptions C120_history_comes_first.
Print Assumptions C120_history_hidden_refuted.
Print Assumptions C121_waiting_request_is_sent.
Print Assumptions C121_last_request_waits.
Print Assumptions C121_worker_comes_to_rest.
Print Assumptions C121_rest_is_not_pending.
Print Assumptions C122_sent_was_typed.
Print Assumptions C122_not_asked_not_sent_partial.
Print Assumptions C122_blocklist_refuted.
Print Assumptions C122_suggestions_off_refuted.
Print Assumptions C123_suggestion_was_answered_partial.
Print Assumptions C123_answer_is_shown.
Print Assumptions C123_other_directory_refuted.
Print Assumptions C123_empty_line_refuted.
