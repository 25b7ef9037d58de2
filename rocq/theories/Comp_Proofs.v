From Verif Require Import Base Token_Model Token_Spec Token_Proofs Comp_Model Comp_Spec.
From Coq Require Import Sorting.Sorted.

(** ** The word at the cursor *)
Lemma blen_firstn_mono (line : str) a : forall b, a <= b -> blen (firstn a line) <= blen (firstn b line).
Proof.
  intros b H. replace (firstn b line) with (firstn a line ++ firstn (b - a) (skipn a line)).
  - rewrite blen_app. lia.
  - rewrite <- (firstn_skipn a (firstn b line)) at 1. rewrite firstn_firstn, Nat.min_l by lia. f_equal. rewrite skipn_firstn_comm. reflexivity.
Qed.
Lemma blen_firstn_lt (line : str) a b : a < b -> b <= length line -> blen (firstn a line) < blen (firstn b line).
Proof.
  intros H L. assert (E : blen (firstn (S a) line) = blen (firstn a line) + match nth_error line a with Some c => utf8_len c | None => 0 end).
  { clear H L. revert a. induction line as [|c l IH]; intros [|a]; try reflexivity.
    - cbn. lia.
    - change (firstn (S (S a)) (c :: l)) with (c :: firstn (S a) l). change (firstn (S a) (c :: l)) with (c :: firstn a l).
      cbn [nth_error blen]. rewrite IH. lia. }
  pose proof (blen_firstn_mono line (S a) b H) as M. rewrite E in M.
  destruct (nth_error line a) as [c|] eqn:N; [pose proof (utf8_len_pos c); lia|]. apply nth_error_None in N. lia.
Qed.
Lemma blen_firstn_le_iff (line : str) a b : a <= length line -> b <= length line ->
  (blen (firstn a line) <=? blen (firstn b line)) = (a <=? b).
Proof.
  intros A B. destruct (Nat.leb_spec a b) as [H|H].
  - apply Nat.leb_le, blen_firstn_mono, H.
  - apply Nat.leb_gt. apply blen_firstn_lt; assumption.
Qed.
Lemma take_bytes_blen (s : str) : forall n, take_bytes (blen (firstn n s)) s = firstn n s.
Proof.
  induction s as [|c s IH]; intros [|n]; try reflexivity.
  - cbn [firstn blen take_bytes]. pose proof (utf8_len_pos c). destruct (Nat.leb_spec (utf8_len c) 0); [lia|reflexivity].
  - cbn [firstn blen take_bytes]. destruct (Nat.leb_spec (utf8_len c) (utf8_len c + blen (firstn n s))); [|lia].
    replace (utf8_len c + blen (firstn n s) - utf8_len c) with (blen (firstn n s)) by lia. rewrite IH. reflexivity.
Qed.

(** where the loop over the spans stops *)
Lemma cursor_token_spec (line : str) k : k <= length line -> forall ts i,
  Forall (denotes line) ts -> StronglySorted before ts ->
  let n := length (filter (fun t => char_end t <? k) ts) in
  cursor_token i ts (blen (firstn k line)) =
    (i + n, match nth_error ts n with Some t => char_start t <=? k | None => false end) /\
  filter (fun t => char_end t <? k) ts = firstn n ts /\
  match nth_error ts n with
  | Some t => k <= char_end t /\ filter (fun t => k <? char_start t) ts = (if char_start t <=? k then skipn (S n) ts else skipn n ts)
  | None => filter (fun t => k <? char_start t) ts = []
  end.
Proof.
  intros K. induction ts as [|t ts IH]; intros i D So; cbn [filter length nth_error cursor_token].
  - rewrite Nat.add_0_r. repeat split.
  - inversion D as [|? ? Dt Dts]; subst. inversion So as [|? ? So' F]; subst. clear D So.
    destruct Dt as ((L1 & L2) & R & B1 & B2). rewrite B2, B1, !blen_firstn_le_iff by lia.
    destruct (Nat.leb_spec k (char_end t)) as [H|H].
    + assert (X : forall u, In u ts -> (char_end u <? k) = false /\ (k <? char_start u) = true).
      { intros u I. rewrite Forall_forall in F. specialize (F u I). unfold before in F. rewrite Forall_forall in Dts. destruct (Dts u I) as ((? & ?) & _).
        split; [apply Nat.ltb_ge; lia|apply Nat.ltb_lt; lia]. }
      assert (E0 : filter (fun t => char_end t <? k) ts = []).
      { clear - X. induction ts as [|u ts IH]; [reflexivity|]. cbn [filter]. rewrite (proj1 (X u (or_introl eq_refl))). apply IH. intros v I. apply X. right. exact I. }
      assert (E1 : filter (fun t => k <? char_start t) ts = ts).
      { clear - X. induction ts as [|u ts IH]; [reflexivity|]. cbn [filter]. rewrite (proj2 (X u (or_introl eq_refl))). f_equal. apply IH. intros v I. apply X. right. exact I. }
      destruct (Nat.ltb_spec (char_end t) k); [lia|]. rewrite E0, E1. cbn [length nth_error firstn skipn]. rewrite Nat.add_0_r.
      split; [reflexivity|]. split; [reflexivity|]. split; [exact H|]. destruct (Nat.leb_spec (char_start t) k); destruct (Nat.ltb_spec k (char_start t)); try lia; reflexivity.
    + destruct (Nat.ltb_spec (char_end t) k); [|lia]. cbn [length nth_error firstn]. destruct (IH (S i) Dts So') as (C & Fi & M).
      destruct (Nat.ltb_spec k (char_start t)); [lia|]. split; [rewrite C; f_equal; lia|]. split; [f_equal; exact Fi|].
      destruct (nth_error ts _) as [u|] eqn:N; [|exact M]. destruct M as (M1 & M2). split; [exact M1|]. rewrite M2. destruct (char_start u <=? k); [|reflexivity]. destruct (length _); reflexivity.
Qed.

Lemma firstn_skipn_nth {A} (l : list A) n x : nth_error l n = Some x -> firstn n l ++ x :: skipn (S n) l = l.
Proof. revert n. induction l as [|y l IH]; intros [|n]; cbn; intros [= H]; [subst; reflexivity|]. f_equal. apply IH, H. Qed.

Lemma typed_gap (line : str) k ts : tokens_of line Parser ts -> k <= length line ->
  (forall t, In t ts -> char_end t < k \/ k < char_start t) -> typed_at line k [].
Proof.
  intros (D & So & Cv) K G. exists k. split; [lia|]. rewrite Nat.sub_diag. split; [reflexivity|]. split; [|intros; lia].
  destruct k as [|k]; [left; reflexivity|right]. replace (S k - 1) with k by lia.
  assert (N : ~ Exists (fun t => covers t k) ts).
  { intros X. apply Exists_exists in X as (t & I & (C1 & C2)). destruct (G t I); lia. }
  destruct (nth_error line k) as [c|] eqn:E; [|apply nth_error_None in E; lia].
  destruct (is_separator c Parser) eqn:S.
  - destruct (quoting (firstn k line)) as [q e] eqn:Q. destruct q, e; try (exfalso; apply N, Cv; [lia|]; intros (c' & E' & _ & Q'); rewrite Q in Q'; discriminate Q').
    exists c. split; [exact E|]. split; [apply splits_iff, S|exact Q].
  - exfalso. apply N, Cv; [lia|]. intros (c' & E' & S' & _). rewrite E in E'. injection E' as <-. apply splits_iff in S'. congruence.
Qed.
Lemma typed_inside (line : str) k ts t : tokens_of line Parser ts -> k <= length line -> In t ts -> char_start t <= k <= char_end t ->
  typed_at line k (firstn (k - char_start t) (raw t)).
Proof.
  intros (D & So & Cv) K I C. rewrite Forall_forall in D. destruct (D t I) as ((L1 & L2) & R & _). exists (char_start t). split; [lia|].
  split. { rewrite R, firstn_firstn. f_equal. lia. }
  split.
  - destruct (char_start t) as [|a] eqn:A; [left; reflexivity|right]. replace (S a - 1) with a by lia.
    assert (N : ~ Exists (fun t => covers t a) ts).
    { intros X. apply Exists_exists in X as (u & Iu & (C1 & C2)). clear - So I Iu C1 C2 A L1. induction So as [|v l S IH F]; [destruct I|].
      rewrite Forall_forall in F. destruct I as [-> | I], Iu as [-> | Iu]; [lia| | |exact (IH I Iu)]; [specialize (F u Iu)|specialize (F t I)]; unfold before in F; lia. }
    destruct (nth_error line a) as [c|] eqn:E; [|apply nth_error_None in E; lia].
    destruct (is_separator c Parser) eqn:S.
    + destruct (quoting (firstn a line)) as [q e] eqn:Q. destruct q, e; try (exfalso; apply N, Cv; [lia|]; intros (c' & E' & _ & Q'); rewrite Q in Q'; discriminate Q').
      exists c. split; [exact E|]. split; [apply splits_iff, S|exact Q].
    + exfalso. apply N, Cv; [lia|]. intros (c' & E' & S' & _). rewrite E in E'. injection E' as <-. apply splits_iff in S'. congruence.
  - intros j J. apply Cv; [lia|]. apply Exists_exists. exists t. split; [exact I|]. split; lia.
Qed.

Lemma cursor_tokens_spec (line : str) k : k <= length line ->
  exists w, typed_at line k w /\
    let ts := tokenize line Parser in
    cursor_tokens line (blen (firstn k line)) = (words_before ts k ++ w :: words_after ts k, length (words_before ts k)).
Proof.
  intros K. pose proof (tokenize_tokens line Parser) as T. pose proof T as (D & So & Cv).
  unfold cursor_tokens, words_before, words_after. set (ts := tokenize line Parser) in *.
  destruct (cursor_token_spec line k K ts 0 D So) as (C & Fi & M). rewrite C. clear C. cbn [Nat.add].
  set (n := length (filter (fun t => char_end t <? k) ts)) in *. rewrite map_length. fold n. rewrite Fi.
  destruct (nth_error ts n) as [t|] eqn:N.
  - destruct M as (M1 & M2). rewrite M2. pose proof (nth_error_In _ _ N) as I. destruct (Nat.leb_spec (char_start t) k) as [H|H].
    + exists (firstn (k - char_start t) (raw t)). split; [apply (typed_inside line k ts t T K I); lia|]. cbn zeta.
      rewrite Forall_forall in D. destruct (D t I) as ((L1 & L2) & R & B1 & B2). rewrite <- firstn_map, <- skipn_map.
      assert (Rel : blen (firstn k line) - byte_start t = blen (firstn (k - char_start t) (raw t))).
      { rewrite B1, R, firstn_firstn. replace (Nat.min (k - char_start t) (char_end t - char_start t)) with (k - char_start t) by lia.
        rewrite <- (firstn_skipn (char_start t) (firstn k line)), blen_app, firstn_firstn, Nat.min_l, skipn_firstn_comm by lia. lia. }
      rewrite Rel, take_bytes_blen. destruct (Nat.ltb_spec (blen (firstn (k - char_start t) (raw t))) (blen (raw t))) as [Lt|Ge]; [reflexivity|].
      assert (F : firstn (k - char_start t) (raw t) = raw t).
      { apply firstn_all2. destruct (Nat.leb_spec (length (raw t)) (k - char_start t)) as [|X]; [assumption|]. exfalso.
        pose proof (blen_firstn_lt (raw t) (k - char_start t) (length (raw t)) X (le_n _)) as Y. rewrite firstn_all in Y. lia. }
      rewrite F. f_equal. rewrite firstn_skipn_nth; [reflexivity|]. apply map_nth_error, N.
    + exists []. split; [|cbn zeta; rewrite <- firstn_map, <- skipn_map; reflexivity].
      apply (typed_gap line k ts T K). intros u Iu. clear - So N H Iu M1 M2 n Fi. 
      destruct (Nat.ltb_spec (char_end u) k) as [|X]; [left; assumption|right].
      assert (In u (skipn n ts)) as J.
      { rewrite <- (firstn_skipn n ts) in Iu. apply in_app_iff in Iu as [Iu|Iu]; [|exact Iu]. rewrite <- Fi in Iu. apply filter_In in Iu as [_ Iu]. apply Nat.ltb_lt in Iu. lia. }
      rewrite <- M2 in J. apply filter_In in J as [_ J]. apply Nat.ltb_lt in J. exact J.
  - rewrite M. exists []. split.
    + apply (typed_gap line k ts T K). intros u Iu. left. apply nth_error_None in N. rewrite <- (firstn_all2 ts N), <- Fi in Iu. apply filter_In in Iu as [_ Iu]. apply Nat.ltb_lt in Iu. exact Iu.
    + cbn zeta. apply nth_error_None in N. rewrite firstn_all2 by (rewrite map_length; exact N). rewrite skipn_all2 by (rewrite map_length; exact N). rewrite (firstn_all2 ts N). reflexivity.
Qed.

Lemma split_once_iff c s a b : split_once c s = Some (a, b) <-> s = a ++ c :: b /\ ~ In c a.
Proof.
  revert a b. induction s as [|x s IH]; intros a b; cbn [split_once].
  - split; [discriminate|]. intros (E & _). destruct a; discriminate.
  - destruct (N.eqb_spec x c) as [-> |N].
    + split; [intros [= <- <-]; split; [reflexivity|intros []]|]. intros (E & H). destruct a as [|y a]; [injection E as <-; reflexivity|]. exfalso. injection E as <- _. apply H. left. reflexivity.
    + destruct (split_once c s) as [[a' b']|].
      * split; [intros [= <- <-]; destruct (proj1 (IH a' b') eq_refl) as (-> & H); split; [reflexivity|]; intros [E|I]; [congruence|contradiction]|].
        intros (E & H). destruct a as [|y a]; [injection E as -> _; congruence|]. injection E as <- E. assert (X : Some (a', b') = Some (a, b)) by (apply IH; split; [exact E|intros I; apply H; right; exact I]). injection X as -> ->. reflexivity.
      * split; [discriminate|]. intros (E & H). destruct a as [|y a]; [injection E as -> _; congruence|]. injection E as <- E. exfalso.
        assert (X : None = Some (a, b)) by (apply IH; split; [exact E|intros I; apply H; right; exact I]). discriminate X.
Qed.
Lemma with_value_iff w name v : with_value w name v <-> split_inline w = Some (name, v).
Proof.
  unfold with_value, split_inline. split.
  - intros (-> & N & c & r & ->). assert (is_long ((lit "--" ++ c :: r) ++ chr "=" :: v) = true) as -> by (unfold is_long; apply starts_with_iff; rewrite <- app_assoc; eexists; reflexivity).
    assert (split_once (chr "=") ((lit "--" ++ c :: r) ++ chr "=" :: v) = Some (lit "--" ++ c :: r, v)) as -> by (apply split_once_iff; split; [reflexivity|exact N]).
    rewrite blen_app. change (blen (lit "--")) with 2. cbn [blen]. pose proof (utf8_len_pos c). destruct (Nat.leb_spec (2 + (utf8_len c + blen r)) 2); [lia|reflexivity].
  - destruct (is_long w) eqn:L; [|discriminate]. destruct (split_once (chr "=") w) as [[n u]|] eqn:S; [|discriminate]. destruct (Nat.leb_spec (blen n) 2) as [|B]; [discriminate|]. intros [= <- <-].
    apply split_once_iff in S as (-> & N). split; [reflexivity|]. split; [exact N|]. unfold is_long in L. apply starts_with_iff in L as (r & E). change (lit "--") with [45%N; 45%N] in *. 
    destruct n as [|a [|b n]]; [cbn in B; lia| |].
    + cbn [app] in E. injection E as -> E _. discriminate E.
    + cbn [app] in E. injection E as -> -> E. destruct n as [|c n]; [cbn in B; lia|]. exists c, n. reflexivity.
Qed.
Section Parse.
Variable alphabetic alphanumeric : char -> bool.
Notation leading := (leading alphabetic alphanumeric).
Notation analyze := (analyze alphabetic alphanumeric).
Notation parse := (parse alphabetic alphanumeric).

Lemma leading_app ts : fst (leading ts) ++ snd (leading ts) = ts.
Proof. induction ts as [|t ts IH]; [reflexivity|]. cbn [Comp_Model.leading]. destruct (looks_like_sub _ _ t); [|reflexivity]. destruct (leading ts); cbn in *. f_equal. exact IH. Qed.

Lemma analyze_parts ts index input : index < length ts ->
  let p := analyze ts index input in
  command p :: path p ++ raw_args p = ts /\
  (current p = nth index ts [] \/
   exists name v, split_inline (nth index ts []) = Some (name, v) /\ ctx p = In_value name None /\ current p = v /\ 0 < index) /\
  current_arg p = Some (current p).
Proof.
  intros L. destruct ts as [|cmd rest]; [cbn in L; lia|]. unfold Comp_Model.analyze. pose proof (leading_app rest) as A. destruct (leading rest) as [sub args]. cbn [fst snd] in A.
  destruct (classify false args) as [o a]. destruct (Nat.eqb_spec index 0) as [-> |N].
  - cbn [command path raw_args current current_arg nth]. rewrite A. auto.
  - set (w := nth index (cmd :: rest) []). set (pr := nth (index - 1) (cmd :: rest) []).
    cbn zeta beta iota. destruct (split_inline w) as [[name v]|] eqn:E; unfold context_of; rewrite E.
    + cbn [command path raw_args current current_arg ctx]. rewrite A. split; [reflexivity|]. split; [|reflexivity]. right. exists name, v. repeat split; lia.
    + set (c := if is_long w then _ else _).
      assert (X : match c with In_value _ _ => w | _ => w end = w) by (destruct c; reflexivity).
      destruct c; cbn; rewrite A; auto.
Qed.
Lemma parse_parts line k : k <= length line ->
  let p := parse line (blen (firstn k line)) in let ts := tokenize line Parser in
  exists w, typed_at line k w /\
    command p :: path p ++ raw_args p = words_before ts k ++ w :: words_after ts k /\
    (current p = w \/ exists name, split_inline w = Some (name, current p) /\ ctx p = In_value name None /\ words_before ts k <> []) /\
    (words_before ts k = [] -> ctx p = In_command).
Proof.
  intros K p ts. destruct (cursor_tokens_spec line k K) as (w & T & C). exists w. split; [exact T|]. unfold p, Comp_Model.parse. rewrite C. fold ts.
  set (l := words_before ts k). set (r := words_after ts k).
  assert (Len : length l < length (l ++ w :: r)) by (rewrite app_length; cbn; lia).
  destruct (analyze_parts (l ++ w :: r) (length l) line Len) as (P & Q & _).
  assert (E : nth (length l) (l ++ w :: r) [] = w) by (rewrite app_nth2, Nat.sub_diag by lia; reflexivity). rewrite E in Q.
  split; [exact P|]. split.
  - destruct Q as [Q | (name & v & Q1 & Q2 & Q3 & Q4)]; [left; exact Q|right]. exists name. rewrite Q3. split; [exact Q1|]. split; [exact Q2|]. destruct l; [cbn in Q4; lia|discriminate].
  - intros ->. cbn [app length]. unfold Comp_Model.analyze. destruct (leading r) as [sub args]. destruct (classify false args). reflexivity.
Qed.
Lemma typed_once line k w w' : typed_at line k w -> typed_at line k w' -> w = w'.
Proof.
  intros (i & I & -> & S & N) (j & J & -> & S' & N'). assert (i = j) as ->; [|reflexivity].
  destruct (Nat.lt_trichotomy i j) as [L|[E|L]]; [|exact E|]; exfalso.
  - destruct S' as [S'|S']; [lia|]. apply (N (j - 1)); [lia|exact S'].
  - destruct S as [S|S]; [lia|]. apply (N' (i - 1)); [lia|exact S].
Qed.
Lemma parse_value line k w name v : k <= length line -> typed_at line k w -> words_before (tokenize line Parser) k <> [] -> split_inline w = Some (name, v) ->
  let p := parse line (blen (firstn k line)) in current p = v /\ ctx p = In_value name None.
Proof.
  intros K T N Sp p. destruct (cursor_tokens_spec line k K) as (w' & T' & C). rewrite (typed_once line k w' w T' T) in C. unfold p, Comp_Model.parse. rewrite C.
  set (l := words_before _ k) in *. set (r := words_after _ k). destruct l as [|x l]; [congruence|]. cbn [app length]. unfold Comp_Model.analyze.
  destruct (leading (l ++ w :: r)) as [sub args]. destruct (classify false args) as [o a]. cbn [Nat.eqb].
  assert (E : nth (S (length l)) (x :: l ++ w :: r) [] = w) by (cbn [nth]; rewrite app_nth2, Nat.sub_diag by lia; reflexivity). rewrite E. unfold context_of. rewrite Sp. split; reflexivity.
Qed.
End Parse.
