(** C234-C236: the GitHub notifications in the prompt. *)
From Coq Require Import Permutation.
From Verif Require Import Base Notify_Model Notify_Spec.
From Verif Require Numerals.

(** ** C234: the counts *)

Lemma closed_iff s url : is_pr_closed_or_merged s url = true <->
  exists p, pull_at s url = Some p /\ (state p = Some (lit "closed") \/ merged p = Some true).
Proof.
  unfold is_pr_closed_or_merged. destruct (pull_at s url) as [p|]; [|split; [discriminate|intros (p & X & _); discriminate]].
  rewrite orb_true_iff. split.
  - intros [E|E]; exists p; (split; [reflexivity|]).
    + left. destruct (state p) as [x|]; [|discriminate]. apply str_eqb_eq in E. congruence.
    + right. destruct (merged p) as [[]|]; congruence.
  - intros (q & [= <-] & [E|E]); rewrite E; [left|right]; reflexivity.
Qed.
Lemma reason_is n r : r <> [] -> (str_eqb (reason_of n) r = true <-> reason n = Some r).
Proof.
  intros NE. rewrite str_eqb_eq. unfold reason_of. destruct (reason n) as [x|]; split; intros E; [subst x; reflexivity|injection E as E; exact E|destruct NE; symmetry; exact E|discriminate].
Qed.
Lemma over_iff s n : Over s n <->
  str_eqb (reason_of n) (lit "review_requested") = true /\ exists url, subject_url n = Some url /\ is_pr_closed_or_merged s url = true.
Proof.
  unfold Over. rewrite reason_is by discriminate. split; intros [R (url & X)]; (split; [exact R|]).
  - destruct X as (p & U & A & C). exists url. split; [exact U|]. apply closed_iff. eauto.
  - destruct X as (U & C). apply closed_iff in C as (p & A & C). eauto.
Qed.
Lemma judged_dealt s n : fst (judged s n) = false <-> Dealt_with s n.
Proof.
  unfold Dealt_with. rewrite over_iff. unfold judged. destruct (str_eqb (reason_of n) _) eqn:R; cbn [fst].
  - destruct (subject_url n) as [url|]; cbn [fst].
    + destruct (is_pr_closed_or_merged s url) eqn:C; cbn [fst].
      * destruct (id n) as [i|]; cbn [fst].
        -- rewrite negb_false_iff. split; [intros M; split; [eauto|eauto]|]. intros (_ & j & [= <-] & M). exact M.
        -- split; [discriminate|]. intros (_ & j & X & _). discriminate.
      * split; [discriminate|]. intros ((_ & u & [= <-] & X) & _). congruence.
    + split; [discriminate|]. intros ((_ & u & X & _) & _). discriminate.
  - split; [discriminate|]. intros ((X & _) & _). discriminate.
Qed.
Lemma allowed_iff filter r : match allowed_reasons filter with Some l => negb (mem_str r l) | None => false end = false <-> Wanted filter r.
Proof.
  unfold allowed_reasons, Wanted. destruct filter as [f|]; [|split; [discriminate|reflexivity]].
  destruct (starts_with (lit "reason:") f) eqn:E.
  - apply starts_with_iff in E as (g & ->). change (skipn 7 (lit "reason:" ++ g)) with g.
    rewrite negb_false_iff, mem_str_iff, in_map_iff. split.
    + intros (w & T & I) f' [= <-]. eauto.
    + intros X. destruct (X g eq_refl) as (w & I & T). eauto.
  - split; [|reflexivity]. intros _ f' [= X]. exfalso. assert (Y : starts_with (lit "reason:") f = true); [|congruence].
    apply starts_with_iff. exists f'. exact X.
Qed.

Definition kind (n : notification) : sign :=
  if str_eqb (reason_of n) (lit "review_requested") then Reviews
  else if str_eqb (reason_of n) (lit "mention") || str_eqb (reason_of n) (lit "assign") then Mentions else Others.
Definition wants (filter : option str) (n : notification) : bool :=
  negb (match allowed_reasons filter with Some l => negb (mem_str (reason_of n) l) | None => false end).
Definition is_kind (k : sign) (n : notification) : bool :=
  match k, kind n with Reviews, Reviews | Mentions, Mentions | Others, Others => true | _, _ => false end.
Lemma counts_are filter ns : forall st,
  fold_left (counted (allowed_reasons filter)) ns st =
  Status (review_count st + length (List.filter (fun n => wants filter n && is_kind Reviews n) ns))
         (mention_count st + length (List.filter (fun n => wants filter n && is_kind Mentions n) ns))
         (other_count st + length (List.filter (fun n => wants filter n && is_kind Others n) ns)) (has_error st).
Proof.
  induction ns as [|n ns IH]; intros st; cbn [fold_left List.filter length]; [destruct st; cbn; rewrite !Nat.add_0_r; reflexivity|].
  rewrite IH. unfold counted, wants. destruct (match allowed_reasons filter with Some l => negb (mem_str (reason_of n) l) | None => false end); cbn [negb andb]; [reflexivity|].
  unfold is_kind, kind. destruct (str_eqb (reason_of n) (lit "review_requested")); [cbn; f_equal; lia|].
  destruct (str_eqb (reason_of n) (lit "mention") || str_eqb (reason_of n) (lit "assign")); cbn; f_equal; lia.
Qed.

Lemma number_filter (P : notification -> Prop) f ns : (forall n, f n = true <-> P n) -> Number_of P ns (length (List.filter f ns)).
Proof.
  intros H. exists (List.filter f ns). split; [|reflexivity]. induction ns as [|n ns IH]; [constructor|]. cbn [List.filter].
  destruct (f n) eqn:E; [apply sel_yes; [apply H; exact E|exact IH]|apply sel_no; [|exact IH]]. rewrite <- H. congruence.
Qed.
Lemma filter_filter {A} (f g : A -> bool) l : List.filter f (List.filter g l) = List.filter (fun x => g x && f x) l.
Proof. induction l as [|x l IH]; [reflexivity|]. cbn [List.filter]. destruct (g x); cbn [List.filter andb]; [destruct (f x)|]; rewrite IH; reflexivity. Qed.
Lemma kinds_iff n : (is_kind Reviews n = true <-> Review n) /\ (is_kind Mentions n = true <-> Mention n) /\
  (is_kind Others n = true <-> ~ Review n /\ ~ Mention n).
Proof.
  unfold is_kind, kind, Review, Mention. change (reason_text n) with (reason_of n).
  destruct (str_eqb_spec (reason_of n) (lit "review_requested")) as [E|E].
  { rewrite E. split; [tauto|]. split; [split; [discriminate|intros [X|X]; discriminate]|split; [discriminate|tauto]]. }
  destruct (str_eqb_spec (reason_of n) (lit "mention")) as [E2|E2]; cbn [orb].
  { rewrite E2. split; [split; [discriminate|congruence]|]. split; [tauto|split; [discriminate|tauto]]. }
  destruct (str_eqb_spec (reason_of n) (lit "assign")) as [E3|E3].
  { rewrite E3. split; [split; [discriminate|congruence]|]. split; [tauto|split; [discriminate|tauto]]. }
  split; [split; [discriminate|congruence]|]. split; [split; [discriminate|tauto]|tauto].
Qed.
Lemma kind_sum filter l :
  length (List.filter (fun n => wants filter n && is_kind Reviews n) l) + length (List.filter (fun n => wants filter n && is_kind Mentions n) l) +
  length (List.filter (fun n => wants filter n && is_kind Others n) l) = length (List.filter (wants filter) l).
Proof.
  induction l as [|n l IH]; [reflexivity|]. cbn [List.filter]. destruct (wants filter n); cbn [andb]; [|exact IH].
  assert (K : exists k, is_kind Reviews n = match k with Reviews => true | _ => false end /\
    is_kind Mentions n = match k with Mentions => true | _ => false end /\ is_kind Others n = match k with Others => true | _ => false end).
  { exists (kind n). unfold is_kind. destruct (kind n); repeat split. }
  destruct K as (k & -> & -> & ->). destruct k; cbn [length]; lia.
Qed.
Lemma live_iff s filter n : fst (judged s n) && wants filter n = true <-> ~ Dealt_with s n /\ Wanted filter (reason_text n).
Proof.
  rewrite andb_true_iff, <- judged_dealt. unfold wants. rewrite negb_true_iff. change (reason_text n) with (reason_of n). rewrite allowed_iff.
  destruct (fst (judged s n)); split; intros [A B]; split; try congruence; exact B.
Qed.

(** After a check that succeeded the counts are those of the notifications that are wanted and were not
    dealt with, each counted once under what it is. *)
Theorem C234_counts : forall s filter ns, notifications s = Some ns ->
  exists st, fst (fetch s filter) = Some st /\ Right s filter ns st.
Proof.
  intros s filter ns E. unfold fetch. rewrite E. eexists. split; [reflexivity|]. unfold parse_notifications. rewrite counts_are.
  unfold Right, total. cbn [review_count mention_count other_count has_error fresh Nat.add].
  pose proof (kind_sum filter (List.filter (fun n => fst (judged s n)) ns)) as K. rewrite K. clear K. rewrite !filter_filter.
  repeat split; try (apply number_filter; intros n; destruct (kinds_iff n) as (A & B & C)).
  - rewrite andb_assoc, andb_true_iff, live_iff, A. tauto.
  - rewrite andb_assoc, andb_true_iff, live_iff, B. tauto.
  - rewrite andb_assoc, andb_true_iff, live_iff, C. tauto.
  - apply live_iff.
Qed.
Lemma filter_perm {A} (f : A -> bool) l l' : Permutation l l' -> length (List.filter f l) = length (List.filter f l').
Proof.
  induction 1 as [|x l l' H IH|x y l|l m n H1 IH1 H2 IH2]; [reflexivity|cbn [List.filter]; destruct (f x); cbn [length]; lia| |congruence].
  cbn [List.filter]. destruct (f x), (f y); reflexivity.
Qed.
(** In whatever order the answers come back, the counts are the same. *)
Theorem C234_any_order : forall ns ns' filter, Permutation ns ns' -> parse_notifications ns filter = parse_notifications ns' filter.
Proof. intros ns ns' filter P. unfold parse_notifications. rewrite !counts_are. f_equal; cbn; apply filter_perm; exact P. Qed.

(** What the prompt shows in a repository: every count that is not zero, with its sign. *)
Theorem C234_shown : forall st,
  (forall l, shown true st = Counts l -> forall k n, In (k, n) l <->
     0 < n /\ n = match k with Reviews => review_count st | Mentions => mention_count st | Others => other_count st end) /\
  ((exists l, shown true st = Counts l) <-> 0 < total st) /\
  (shown true st = ErrorBadge <-> total st = 0 /\ has_error st = true) /\ shown false st = NoBadge.
Proof.
  intros st. unfold shown, total.
  split; [|split; [|split; [|reflexivity]]].
  - destruct (0 <? _) eqn:T; [|destruct (has_error st); discriminate]. intros l [= <-] k n. rewrite !in_app_iff.
    destruct (Nat.ltb_spec 0 (review_count st)), (Nat.ltb_spec 0 (mention_count st)), (Nat.ltb_spec 0 (other_count st)); cbn [In];
      split; intros X;
      try (repeat (destruct X as [X|X]; try (destruct X; fail); try (injection X as <- <-; split; [assumption|reflexivity])); fail);
      destruct X as [X ->]; destruct k; auto; lia.
  - destruct (Nat.ltb_spec 0 (review_count st + mention_count st + other_count st)); [split; [auto|eauto]|].
    split; [|lia]. destruct (has_error st); intros [l X]; discriminate.
  - destruct (Nat.ltb_spec 0 (review_count st + mention_count st + other_count st)); [split; [discriminate|lia]|].
    destruct (has_error st); split; try discriminate; try (intros [_ X]; discriminate); try reflexivity. intros _. split; [lia|reflexivity].
Qed.

(** the counts at any moment *)
Definition same_counts (a b : status) : Prop :=
  review_count a = review_count b /\ mention_count a = mention_count b /\ other_count a = other_count b.
Definition succeeds (e : event) : Prop := match e with Tick true s => notifications s <> None | _ => False end.
Definition fails (e : event) : Prop := match e with Tick true s => notifications s = None | _ => False end.
Lemma settings_stay sh es : settings (fst (run sh es)) = settings sh.
Proof.
  revert sh. induction es as [|e es IH]; intros sh; [reflexivity|]. cbn [run].
  assert (S' : settings (fst (step sh e)) = settings sh).
  { destruct e as [x v|[] s]; cbn [step]; [reflexivity| |destruct (pat (settings sh)); reflexivity].
    destruct (pat (settings sh)); [|reflexivity]. destruct (fetch s (only (settings sh))) as [[st|] rs]; reflexivity. }
  destruct (step sh e) as [sh' a]. specialize (IH sh'). destruct (run sh' es) as [sh'' b]. cbn [fst] in *. congruence.
Qed.
Lemma run_snoc sh es e : run sh (es ++ [e]) = let (a, x) := run sh es in let (b, y) := step a e in (b, x ++ y).
Proof.
  revert sh. induction es as [|e' es IH]; intros sh; cbn [app run].
  - destruct (step sh e) as [b y]. rewrite app_nil_r. reflexivity.
  - destruct (step sh e') as [sh' a]. rewrite IH. destruct (run sh' es) as [c x]. destruct (step c e) as [b y]. rewrite app_assoc. reflexivity.
Qed.
(** At every moment of every history the counts are those of the last check that succeeded, and the error is
    remembered if and only if a check failed since. *)
Theorem C234_last_check : forall v es token, v (lit "*github-pat*") = Some (Text token) ->
  let filter := match v (lit "*github-notifications-filter*") with Some (Text f) => Some f | _ => None end in
  let st := status_ (fst (run (start v) es)) in
  (Forall (fun e => ~ succeeds e) es /\ same_counts st fresh \/
   exists before s ns after right, es = before ++ Tick true s :: after /\ notifications s = Some ns /\ Forall (fun e => ~ succeeds e) after /\
     Right s filter ns right /\ same_counts st right) /\
  (has_error st = true <-> exists before e after, es = before ++ e :: after /\ fails e /\ Forall (fun e => ~ succeeds e) after).
Proof.
  intros v es token PV filter. assert (P : pat (config_from v) = Some token) by (cbn; rewrite PV; reflexivity).
  change filter with (only (config_from v)). clear filter. induction es as [|e es IH] using rev_ind.
  - cbn. split; [left; split; [constructor|repeat split]|]. split; [discriminate|]. intros (b & e & a & X & _). destruct b; discriminate.
  - cbv zeta in IH |- *. rewrite run_snoc. pose proof (settings_stay (start v) es) as SS.
    destruct (run (start v) es) as [a x]. cbn [fst start settings] in IH, SS.
    assert (Q : (status_ (fst (step a e)) = status_ a /\ ~ succeeds e /\ ~ fails e) \/ succeeds e \/ fails e).
    { destruct e as [y w|[] s]; cbn [step succeeds fails]; [left; repeat split; auto| |left; rewrite SS, P; repeat split; auto].
      right. destruct (notifications s); [left; discriminate|right; reflexivity]. }
    destruct Q as [(Q & N1 & N2)|[Q|Q]].
    + destruct (step a e) as [b y]. cbn [fst] in Q |- *. rewrite Q. destruct IH as [C E]. split.
      * destruct C as [[F C]|(b1 & s & ns & af & r & -> & X & F & R & C)].
        -- left. split; [apply Forall_app; auto|exact C].
        -- right. exists b1, s, ns, (af ++ [e]), r. rewrite <- app_assoc. split; [reflexivity|]. split; [exact X|]. split; [apply Forall_app; auto|auto].
      * rewrite E. split.
        -- intros (b1 & f & af & -> & X & F). exists b1, f, (af ++ [e]). rewrite <- app_assoc. split; [reflexivity|]. split; [exact X|apply Forall_app; auto].
        -- intros (b1 & f & af & X & Y & F). destruct af as [|z af _] using rev_ind.
           ++ apply app_inj_tail in X as [-> ->]. contradiction.
           ++ change (b1 ++ f :: af ++ [z]) with (b1 ++ (f :: af) ++ [z]) in X. rewrite app_assoc in X. apply app_inj_tail in X as [-> ->].
              exists b1, f, af. apply Forall_app in F as [F _]. auto.
    + destruct e as [y w|[] s]; cbn [succeeds] in Q; try contradiction. destruct (notifications s) as [ns|] eqn:Ns; [|congruence].
      destruct (C234_counts s (only (config_from v)) ns Ns) as (r & F & R). cbn [step]. rewrite SS, P.
      destruct (fetch s (only (config_from v))) as [[st|] rs]; cbn [fst] in F; [|discriminate]. injection F as ->. cbn [fst status_]. split.
      * right. exists es, s, ns, [], r. repeat split; auto; apply R.
      * destruct R as (_ & _ & _ & _ & R). rewrite R. split; [discriminate|]. intros (b1 & f & af & X & Y & F). destruct af as [|z af _] using rev_ind.
        -- apply app_inj_tail in X as [_ <-]. cbn in Y. congruence.
        -- change (b1 ++ f :: af ++ [z]) with (b1 ++ (f :: af) ++ [z]) in X. rewrite app_assoc in X. apply app_inj_tail in X as [_ <-].
           apply Forall_app in F as [_ F]. inversion F as [|? ? Z _]; subst. destruct Z. cbn. congruence.
    + destruct e as [y w|[] s]; cbn [fails] in Q; try contradiction. cbn [step]. rewrite SS, P. unfold fetch. rewrite Q. cbn [fst status_].
      destruct IH as [C _].
      assert (NS : ~ succeeds (Tick true s)) by (cbn; congruence). split.
      * destruct C as [[F C]|(b1 & s' & ns & af & r & -> & X & F & R & C)].
        -- left. split; [apply Forall_app; auto|exact C].
        -- right. exists b1, s', ns, (af ++ [Tick true s]), r. rewrite <- app_assoc. split; [reflexivity|]. split; [exact X|]. split; [apply Forall_app; auto|auto].
      * split; [|reflexivity]. intros _. exists es, (Tick true s), []. repeat split; auto.
Qed.
(** While there are counts to show, that checks fail is not shown: the prompt stays as it was. *)
Theorem C234_error_hidden_refuted : forall sh s token under, pat (settings sh) = Some token -> 0 < total (status_ sh) -> notifications s = None ->
  shown under (status_ (fst (step sh (Tick true s)))) = shown under (status_ sh).
Proof.
  intros sh s token under P T Q. cbn [step]. rewrite P. unfold fetch. rewrite Q. cbn [fst status_]. unfold shown. destruct under; [|reflexivity].
  change (total (Status (review_count (status_ sh)) (mention_count (status_ sh)) (other_count (status_ sh)) true)) with (total (status_ sh)).
  apply Nat.ltb_lt in T. rewrite T. reflexivity.
Qed.

(** ** C235: what is asked and changed at the service *)

Lemma judged_requests s n r : In r (snd (judged s n)) <->
  match r with
  | AskAll => False
  | AskPull url => reason n = Some (lit "review_requested") /\ subject_url n = Some url
  | Mark i => Over s n /\ id n = Some i
  end.
Proof.
  unfold judged. destruct r as [|url|i]; rewrite ?over_iff, <- ?(reason_is n) by discriminate;
    destruct (str_eqb (reason_of n) (lit "review_requested")); cbn [snd In]; try tauto;
    try (split; [tauto|]; intros X; exfalso; intuition discriminate);
    destruct (subject_url n) as [u|]; cbn [snd In]; try tauto;
    try (split; [tauto|]; intros X; exfalso; intuition (try discriminate)).
  - destruct (is_pr_closed_or_merged s u); [destruct (id n)|]; cbn [snd In]; intuition discriminate.
  - destruct (is_pr_closed_or_merged s u); [destruct (id n)|]; cbn [snd In]; intuition congruence.
  - destruct (is_pr_closed_or_merged s u) eqn:C; [destruct (id n) as [j|] eqn:D|]; cbn [snd In]; split.
    + intros [X|[[= <-]|[]]]; [discriminate|]. split; [split; [reflexivity|eauto]|reflexivity].
    + intros [_ [= <-]]. auto.
    + intros [X|[]]. discriminate.
    + intros [_ X]. discriminate.
    + intros [X|[]]. discriminate.
    + intros [[_ (x & [= <-] & X)] _]. congruence.
  - match goal with H : exists x : str, None = Some x /\ _ |- _ => destruct H as (x & X' & _); discriminate X' end.
Qed.
(** A thread is marked as read if and only if it is a request for a review of a pull request that is over. *)
Theorem C235_marked : forall s filter i, In (Mark i) (snd (fetch s filter)) <->
  exists ns n, notifications s = Some ns /\ In n ns /\ Over s n /\ id n = Some i.
Proof.
  intros s filter i. unfold fetch. destruct (notifications s) as [ns|]; cbn [snd In].
  - rewrite in_flat_map. split.
    + intros [X|(n & I & J)]; [discriminate|]. apply judged_requests in J as [A B]. eauto 8.
    + intros (ns' & n & [= <-] & I & A & B). right. exists n. split; [exact I|]. apply judged_requests. auto.
  - split; [intros [X|[]]; discriminate|]. intros (ns & n & X & _). discriminate.
Qed.
(** The addresses that get the token are the service's own and those named in its answer. *)
Theorem C235_token_partial : forall s filter url, In (AskPull url) (snd (fetch s filter)) <->
  exists ns n, notifications s = Some ns /\ In n ns /\ reason n = Some (lit "review_requested") /\ subject_url n = Some url.
Proof.
  intros s filter url. unfold fetch. destruct (notifications s) as [ns|]; cbn [snd In].
  - rewrite in_flat_map. split.
    + intros [X|(n & I & J)]; [discriminate|]. apply judged_requests in J as [A B]. eauto 8.
    + intros (ns' & n & [= <-] & I & A & B). right. exists n. split; [exact I|]. apply judged_requests. auto.
  - split; [intros [X|[]]; discriminate|]. intros (ns & n & X & _). discriminate.
Qed.
(** Any address can be among them. *)
Theorem C235_token_refuted : forall url, exists s, In (AskPull url) (snd (fetch s None)).
Proof.
  intros url. exists (Service (Some [Notification (Some (lit "review_requested")) (Some url) None]) (fun _ => None) (fun _ => false)).
  apply C235_token_partial. eexists _, _. split; [reflexivity|]. split; [left; reflexivity|]. split; reflexivity.
Qed.
(** The filter does not protect: notifications that the user has filtered out are marked as read too. *)
Theorem C235_filtered_refuted : forall s f g, snd (fetch s f) = snd (fetch s g).
Proof. intros s f g. unfold fetch. destruct (notifications s); reflexivity. Qed.

(** ** C236: when the service is asked *)

(** Nothing is asked without a token, nor outside repositories. *)
Theorem C236_quiet : forall v es, (forall t, v (lit "*github-pat*") <> Some (Text t)) \/ Forall (fun e => forall s, e <> Tick true s) es ->
  snd (run (start v) es) = [] /\ status_ (fst (run (start v) es)) = fresh.
Proof.
  intros v es H0. assert (H : pat (config_from v) = None \/ Forall (fun e => forall s, e <> Tick true s) es).
  { destruct H0 as [H0|H0]; [left|right; exact H0]. cbn. destruct (v (lit "*github-pat*")) as [[t| |]|]; try reflexivity. destruct (H0 t eq_refl). }
  clear H0. change (config_from v) with (settings (start v)) in H. change fresh with (status_ (start v)). revert H. generalize (start v).
  induction es as [|e es IH]; intros sh H; [split; reflexivity|]. cbn [run].
  assert (X : settings (fst (step sh e)) = settings sh /\ status_ (fst (step sh e)) = status_ sh /\ snd (step sh e) = []).
  { destruct e as [x w|u s]; cbn [step]; [repeat split|]. destruct (pat (settings sh)) eqn:P; [|repeat split].
    destruct H as [H|H]; [congruence|]. inversion H as [|? ? N _]; subst. destruct u; [destruct (N s eq_refl)|repeat split]. }
  destruct (step sh e) as [sh' a]. cbn [fst snd] in X. destruct X as (X1 & X2 & ->). specialize (IH sh'). rewrite X1, X2 in IH.
  destruct (run sh' es) as [sh'' b]. cbn [fst snd app] in *. apply IH. destruct H as [H|H]; [left; exact H|right]. inversion H; assumption.
Qed.
(** Inside one, with a token, every interval the list is asked for. *)
Theorem C236_asked : forall v es s token, v (lit "*github-pat*") = Some (Text token) ->
  In AskAll (snd (step (fst (run (start v) es)) (Tick true s))).
Proof.
  intros v es s token P. cbn [step]. rewrite settings_stay. cbn [start settings config_from pat]. rewrite P. cbn [text_of]. unfold fetch.
  destruct (notifications s); left; reflexivity.
Qed.
(** The interval is the number of seconds set, a minute if it is no number or not positive; it is never zero. *)
Theorem C236_interval : forall v,
  (0 < sleep_seconds (config_from v))%N /\
  (forall z, v (lit "*github-notify-interval*") = Some (Int z) -> (0 < z)%Z -> sleep_seconds (config_from v) = Z.to_N z) /\
  (forall s n, v (lit "*github-notify-interval*") = Some (Text s) -> (0 < n < 2 ^ 64)%N -> Numerals.Dec s n -> sleep_seconds (config_from v) = n) /\
  (v (lit "*github-notify-interval*") = None -> sleep_seconds (config_from v) = 60%N) /\
  (forall z, v (lit "*github-notify-interval*") = Some (Int z) -> (z <= 0)%Z -> sleep_seconds (config_from v) = 60%N).
Proof.
  intros v. unfold sleep_seconds, config_from. cbn [interval]. split; [|split; [|split; [|split]]].
  - destruct (N.ltb_spec 0 (match v (lit "*github-notify-interval*") with
        | Some (Text s) => match Numerals.parse_usize s with Some n => n | None => 60 end
        | Some (Int z) => if (z <? 0)%Z then 60 else Z.to_N z | _ => 60 end)%N); [assumption|reflexivity].
  - intros z -> L. destruct (Z.ltb_spec z 0); [lia|]. destruct (N.ltb_spec 0 (Z.to_N z)); [reflexivity|lia].
  - intros s n -> L D. assert (E : Numerals.parse_usize s = Some n).
    { apply Numerals.parse_usize_iff. split; [|auto]. unfold Numerals.usize_max. change (2 ^ 64)%N with 18446744073709551616%N in L. lia. }
    rewrite E. destruct (N.ltb_spec 0 n); [reflexivity|lia].
  - intros ->. reflexivity.
  - intros z -> L. destruct (Z.ltb_spec z 0); [reflexivity|]. replace z with 0%Z by lia. reflexivity.
Qed.
(** Settings made later do nothing: a token that is set is not used, and one that is replaced or taken away
    is used on; every history does what it does without them. *)
Definition is_tick (e : event) : bool := match e with Tick _ _ => true | SetVar _ _ => false end.
Theorem C236_settings_refuted : forall v es,
  snd (run (start v) es) = snd (run (start v) (filter is_tick es)) /\
  status_ (fst (run (start v) es)) = status_ (fst (run (start v) (filter is_tick es))).
Proof.
  intros v es.
  assert (G : forall es a b, settings a = settings b -> status_ a = status_ b ->
    snd (run a es) = snd (run b (filter is_tick es)) /\ status_ (fst (run a es)) = status_ (fst (run b (filter is_tick es)))).
  { clear. induction es as [|e es IH]; intros a b X Y; [split; [reflexivity|exact Y]|]. destruct e as [x w|u s].
    - cbn [filter is_tick run step]. specialize (IH (Shell (settings a) (fun y => if str_eqb y x then Some w else vars a y) (status_ a)) b X Y).
      destruct (run (Shell (settings a) _ (status_ a)) es) as [sh'' c]. cbn [fst snd app] in *. exact IH.
    - cbn [filter is_tick run].
      assert (Z : settings (fst (step a (Tick u s))) = settings (fst (step b (Tick u s))) /\ status_ (fst (step a (Tick u s))) = status_ (fst (step b (Tick u s))) /\
                  snd (step a (Tick u s)) = snd (step b (Tick u s))).
      { cbn [step]. rewrite X, Y. destruct (pat (settings b)); [|repeat split; assumption]. destruct u; [|repeat split; assumption].
        destruct (fetch s (only (settings b))) as [[st|] rs]; repeat split; assumption. }
      destruct (step a (Tick u s)) as [a' p], (step b (Tick u s)) as [b' q]. cbn [fst snd] in Z. destruct Z as (Z1 & Z2 & ->).
      destruct (IH a' b' Z1 Z2) as [U V]. destruct (run a' es) as [a'' p'], (run b' (filter is_tick es)) as [b'' q']. cbn [fst snd] in *.
      split; [congruence|exact V]. }
  apply G; reflexivity.
Qed.

Print Assumptions C234_counts. Print Assumptions C234_any_order. Print Assumptions C234_shown. Print Assumptions C234_last_check.
Print Assumptions C234_error_hidden_refuted. Print Assumptions C235_marked. Print Assumptions C235_token_partial.
Print Assumptions C235_token_refuted. Print Assumptions C235_filtered_refuted. Print Assumptions C236_quiet. Print Assumptions C236_asked.
Print Assumptions C236_interval. Print Assumptions C236_settings_refuted.

Definition some_service : service :=
  Service (Some [Notification (Some (lit "review_requested")) (Some (lit "u1")) (Some (lit "7"));
                 Notification (Some (lit "review_requested")) (Some (lit "u2")) (Some (lit "8"));
                 Notification (Some (lit "assign")) None None; Notification None None None])
          (fun u => Some (Pull (Some (if str_eqb u (lit "u1") then lit "closed" else lit "open")) None)) (fun _ => true).
Definition some_vars : variables := fun x => if str_eqb x (lit "*github-pat*") then Some (Text (lit "t")) else None.
Example C234_case :
  fetch some_service None = (Some (Status 1 1 1 false), [AskAll; AskPull (lit "u1"); Mark (lit "7"); AskPull (lit "u2")]) /\
  fst (fetch some_service (Some (lit "reason:mention, assign"))) = Some (Status 0 1 0 false) /\
  pat (config_from some_vars) = Some (lit "t") /\
  shown true (status_ (fst (run (start some_vars) [Tick true some_service; Tick true (Service None (fun _ => None) (fun _ => false))]))) =
    Counts [(Reviews, 1); (Mentions, 1); (Others, 1)].
Proof. repeat split. Qed.
