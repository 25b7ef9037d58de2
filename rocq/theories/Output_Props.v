From Verif Require Import Base Output_Model Output_Spec.

(** * C21: the output history is bounded and accounted *)

Lemma total_app a b : total (a ++ b) = total a + total b.
Proof. induction a; simpl; lia. Qed.
Lemma bytes_size e : size e = bytes e.
Proof. reflexivity. Qed.

Lemma floor_boundary_spec s b :
  floor_boundary s b <= b /\ exists p q, s = p ++ q /\ blen p = floor_boundary s b.
Proof.
  assert (Z : exists p q, s = p ++ q /\ blen p = 0) by (exists [], s; auto).
  induction b as [|b [IH1 IH2]]; cbn [floor_boundary].
  - split; [destruct (is_char_boundary s 0); lia|]. destruct (is_char_boundary s 0); exact Z.
  - unfold is_char_boundary. destruct (split_byte s (S b)) as [[p q]|] eqn:E.
    + split; [lia|]. apply split_byte_sound in E as [-> E]. eauto.
    + split; [lia|exact IH2].
Qed.

Lemma cut_spec s p q : s = p ++ q ->
  exists s', cut s (blen p) = Some s' /\ shortened s s' /\ blen s' <= blen p + 16 /\ (blen s <= blen p -> s' = s).
Proof.
  intros ->. unfold cut, shortened. destruct (blen p <? blen (p ++ q)) eqn:E.
  - apply Nat.ltb_lt in E. rewrite split_byte_app. exists (p ++ marker). repeat split.
    + right. exists p, q. repeat split. intros ->. rewrite app_nil_r in E. lia.
    + rewrite blen_app. replace (blen marker) with 16 by reflexivity. lia.
    + lia.
  - apply Nat.ltb_ge in E. exists (p ++ q). repeat split; auto. lia.
Qed.

Theorem C21_entry_stored_or_shortened : forall share limit e,
  (forall m a t, share m a t <= m) ->
  exists e', truncate share limit e = Some e' /\ stored limit e e'.
Proof.
  intros share limit e Hs. unfold truncate.
  destruct (blen (out e) + blen (err e) <=? limit) eqn:E.
  - apply Nat.leb_le in E. exists e. split; [reflexivity|]. unfold stored, shortened. repeat split; auto; lia.
  - apply Nat.leb_gt in E. destruct (blen (out e) + blen (err e) =? 0) eqn:E0; [apply Nat.eqb_eq in E0; lia|].
    set (m1 := share limit _ _). assert (Hm : m1 <= limit) by apply Hs.
    destruct (floor_boundary_spec (out e) m1) as [L1 (p1 & q1 & A1 & B1)].
    set (m2 := limit - floor_boundary (out e) m1).
    destruct (floor_boundary_spec (err e) m2) as [L2 (p2 & q2 & A2 & B2)].
    fold m2. rewrite <- B1, <- B2. assert (blen p1 + blen p2 <= limit) by (unfold m2 in *; lia).
    destruct (cut_spec _ _ _ A1) as (s1 & C1 & D1 & F1 & _). destruct (cut_spec _ _ _ A2) as (s2 & C2 & D2 & F2 & _).
    rewrite C1, C2. eexists. split; [reflexivity|]. unfold stored. simpl. repeat split; auto; lia.
Qed.
Print Assumptions C21_entry_stored_or_shortened.

Lemma pop_back_firstn all : forall k, k < length all ->
  exists x, pop_back (firstn (S k) all) = Some (firstn k all, x) /\ total (firstn (S k) all) = total (firstn k all) + size x.
Proof.
  induction all as [|a all IH]; intros k Hk; [simpl in Hk; lia|]. destruct k as [|k].
  - exists a. simpl. unfold bytes, size. split; [reflexivity|lia].
  - simpl in Hk. destruct (IH k) as (x & E & T); [lia|]. exists x.
    cbn [firstn]. destruct all as [|b all]; [simpl in Hk; lia|]. cbn [firstn] in E, T |- *.
    cbn [pop_back] in *. rewrite E. split; [reflexivity|]. cbn [total] in *. lia.
Qed.

Lemma evict_firstn all k : S k <= length all ->
  evict (firstn (S k) all) (total (firstn (S k) all)) = (firstn k all, total (firstn k all)).
Proof.
  intros H. unfold evict. destruct (pop_back_firstn all k) as (x & E & T); [lia|]. rewrite E. f_equal. lia.
Qed.

Lemma evict_count_spec max all : 0 < max -> forall fuel k, k <= length all -> k <= fuel ->
  evict_count fuel max (firstn k all) (total (firstn k all)) =
  Some (firstn (min k (max - 1)) all, total (firstn (min k (max - 1)) all)).
Proof.
  intros Hm. induction fuel as [|f IH]; intros k Hk Hf; cbn [evict_count];
    rewrite firstn_length_le by lia; destruct (max <=? k) eqn:E.
  - apply Nat.leb_le in E. lia.
  - apply Nat.leb_gt in E. replace (min k (max - 1)) with k by lia. reflexivity.
  - apply Nat.leb_le in E. destruct k as [|k]; [lia|]. rewrite evict_firstn by lia. rewrite IH by lia.
    replace (min (S k) (max - 1)) with (min k (max - 1)) by lia. reflexivity.
  - apply Nat.leb_gt in E. replace (min k (max - 1)) with k by lia. reflexivity.
Qed.

Lemma evict_size_spec new max all : forall fuel k, k <= length all -> k <= fuel ->
  exists j, j <= k /\ evict_size fuel new max (firstn k all) (total (firstn k all)) = Some (firstn j all, total (firstn j all)) /\
    (j = 0 \/ total (firstn j all) + new <= max) /\ (j = k \/ max < total (firstn (S j) all) + new).
Proof.
  induction fuel as [|f IH]; intros k Hk Hf; cbn [evict_size]; rewrite firstn_length_le by lia.
  - assert (k = 0) as -> by lia. rewrite andb_false_r. exists 0. auto.
  - destruct ((max <? total (firstn k all) + new) && (0 <? k)) eqn:E.
    + apply andb_true_iff in E as [E1 E2]. apply Nat.ltb_lt in E1, E2. destruct k as [|k]; [lia|].
      rewrite evict_firstn by lia. destruct (IH k) as (j & A & B & C & D); [lia..|].
      exists j. split; [lia|]. split; [exact B|]. split; [exact C|]. right. destruct D as [->|D]; [exact E1|exact D].
    + exists k. split; [lia|]. split; [reflexivity|]. split; [|auto].
      apply andb_false_iff in E as [E|E]; apply Nat.ltb_ge in E; [right|left]; lia.
Qed.

Definition Inv (n budget : nat) (h : history) (all : list entry) : Prop :=
  retained n budget all (entries h) /\ total_size h = total (entries h).

Lemma push_inv share fuel h e all :
  (forall m a t, share m a t <= m) -> 0 < max_entries h -> max_entries h <= fuel ->
  Inv (max_entries h) (max_total h) h all ->
  exists h' e', push share fuel h e = Some h' /\ stored (max_per_entry h) e e' /\
    Inv (max_entries h) (max_total h) h' (e' :: all) /\
    max_entries h' = max_entries h /\ max_per_entry h' = max_per_entry h /\ max_total h' = max_total h.
Proof.
  intros Hs Hm Hf [(k & A & A' & B & C & D & E) T]. unfold push.
  destruct (C21_entry_stored_or_shortened share (max_per_entry h) e Hs) as (e' & -> & He).
  rewrite A in T. rewrite T, A. rewrite evict_count_spec by lia.
  set (k1 := min k (max_entries h - 1)).
  destruct (evict_size_spec (size e') (max_total h) all fuel k1) as (j & J1 & J2 & J3 & J4); [lia..|].
  rewrite J2. do 2 eexists. split; [reflexivity|]. split; [exact He|]. simpl. split; [|auto].
  split; simpl; [|rewrite bytes_size; lia].
  exists (S j). simpl. repeat split; try lia.
  - destruct J3 as [->|J3]; [left; lia|right]. rewrite bytes_size in J3. lia.
  - destruct J4 as [->|J4].
    + unfold k1 in *. destruct (Nat.le_gt_cases (max_entries h - 1) k) as [G|G].
      * right; left. lia.
      * replace (min k (max_entries h - 1)) with k by lia. destruct E as [E|[E|E]]; [left; lia|lia|].
        right; right. cbn [firstn total] in *. lia.
    + right; right. rewrite bytes_size in J4. cbn [firstn total] in *. lia.
Qed.

(** After any sequence of captures and clears the history holds exactly the newest
    captures that fit both limits, each stored as it was or shortened, and the size
    counter is the sum of the stored sizes. *)
Theorem C21_history_is_newest_that_fit : forall share n per budget fuel ops,
  (forall m a t, share m a t <= m) -> 0 < n -> n <= fuel ->
  exists h all, hrun share fuel (with_capacity n per budget) ops = Some h /\
    Forall2 (stored per) (since [] ops) all /\
    retained n budget all (entries h) /\
    total_size h = total (entries h) /\
    length (entries h) <= n.
Proof.
  intros share n per budget fuel ops Hs Hn Hf.
  assert (G : forall ops h acc all, Inv n budget h all -> max_entries h = n -> max_per_entry h = per -> max_total h = budget ->
    Forall2 (stored per) acc all ->
    exists h' all', hrun share fuel h ops = Some h' /\ Forall2 (stored per) (since acc ops) all' /\ Inv n budget h' all').
  { induction ops0 as [|[e|] ops0 IH]; intros h acc all Hi E1 E2 E3 Hall; cbn [hrun since].
    - eauto.
    - subst. destruct (push_inv share fuel h e all Hs) as (h' & e' & -> & He & Hi' & F1 & F2 & F3); auto.
      eapply IH; eauto; congruence.
    - eapply (IH (clear h) [] []); eauto. split; [|reflexivity]. exists 0. simpl. repeat split; auto; try lia. congruence. }
  destruct (G ops (with_capacity n per budget) [] []) as (h & all & A & B & C & D); auto.
  { split; [|reflexivity]. exists 0. simpl. repeat split; auto; try lia. congruence. }
  exists h, all. repeat split; auto. destruct C as (k & -> & _ & L & _). rewrite firstn_length. lia.
Qed.
Print Assumptions C21_history_is_newest_that_fit.

Example C21_history_case :
  option_map (fun h => map out (entries h))
    (hrun (fun m a t => m * a / t) 3 (with_capacity 3 100 10)
       [Push (Entry (lit "a") (lit "111") [] 0); Push (Entry (lit "b") (lit "222") [] 0); Push (Entry (lit "c") (lit "3333") [] 0)])
  = Some [lit "3333"; lit "222"].
Proof. vm_compute. reflexivity. Qed.

(** A history created with room for no entries never finishes a push. *)
Theorem C21_zero_capacity_hangs_refuted : forall share fuel per budget e,
  hrun share fuel (with_capacity 0 per budget) [Push e] = None.
Proof.
  intros share fuel per budget e. cbn [hrun]. unfold push. destruct (truncate _ _ _); [|reflexivity].
  replace (evict_count fuel _ _ _) with (@None (list entry * nat)); [reflexivity|]. simpl.
  induction fuel as [|f IH]; simpl; [reflexivity|exact IH].
Qed.
Print Assumptions C21_zero_capacity_hangs_refuted.

(** * C22: $OUT[n] *)

Lemma get_iff h i e : get h i = Some e <-> 1 <= i /\ nth_error (entries h) (i - 1) = Some e.
Proof.
  unfold get. destruct ((i =? 0) || (length (entries h) <? i)) eqn:E.
  - split; [discriminate|]. intros [A B]. apply orb_true_iff in E as [E|E].
    + apply Nat.eqb_eq in E. lia.
    + apply Nat.ltb_lt in E. assert (nth_error (entries h) (i - 1) <> None) by congruence.
      apply nth_error_Some in H. lia.
  - apply orb_false_iff in E as [E1 E2]. apply Nat.eqb_neq in E1. split; [|tauto]. intros H. split; [lia|exact H].
Qed.

Lemma denotes_strip prefix : (forall r, prefix <> chr "$" :: r) -> prefix <> [] ->
  forall key n, denotes prefix key n <->
  (let k := match key with c :: k => if (c =? chr "$")%N then k else key | [] => key end in
   k = prefix /\ n = 1%N \/
   exists t, k = prefix ++ lit "[" ++ t ++ lit "]" /\ (n < 2 ^ 64)%N /\ (Dec t n \/ exists t', t = chr "+" :: t' /\ Dec t' n)).
Proof.
  intros Hp Hn key n. split.
  - assert (Base : forall k, denotes prefix k n -> (forall r, k <> chr "$" :: r) ->
      k = prefix /\ n = 1%N \/
      exists t, k = prefix ++ lit "[" ++ t ++ lit "]" /\ (n < 2 ^ 64)%N /\ (Dec t n \/ exists t', t = chr "+" :: t' /\ Dec t' n)).
    { intros k Hk Hd. inversion Hk as [|t m Ht Hm|name m Hname Hno]; subst; [auto|right; eauto|]. exfalso. eapply Hd. reflexivity. }
    intros H. destruct key as [|c key]; cbv zeta; [apply Base; [exact H|discriminate]|].
    destruct (c =? chr "$")%N eqn:E.
    + apply N.eqb_eq in E. subst c. remember (chr "$" :: key) as kk eqn:Ekk. destruct H as [|t m Ht Hm|name m Hname Hno].
      * exfalso. eapply Hp. exact Ekk.
      * exfalso. destruct prefix as [|x prefix]; [congruence|]. injection Ekk as Hx _. eapply Hp. rewrite Hx. reflexivity.
      * injection Ekk as ->. apply Base; auto.
    + apply N.eqb_neq in E. apply Base; [exact H|]. intros r Hr. congruence.
  - cbv zeta. intros H.
    assert (Base : forall k, (k = prefix /\ n = 1%N \/
      exists t, k = prefix ++ lit "[" ++ t ++ lit "]" /\ (n < 2 ^ 64)%N /\ (Dec t n \/ exists t', t = chr "+" :: t' /\ Dec t' n)) ->
      denotes prefix k n /\ (forall r, k <> chr "$" :: r)).
    { intros k [[-> ->]|(t & -> & Hm & Ht)].
      - split; [constructor|exact Hp].
      - split; [constructor; auto|]. intros r Hr. destruct prefix as [|x prefix]; [congruence|]. injection Hr as Hx _.
        eapply Hp. rewrite Hx. reflexivity. }
    destruct key as [|c key]; [apply Base, H|]. destruct (c =? chr "$")%N eqn:E; [|apply Base, H].
    apply N.eqb_eq in E. subst c. apply Base in H as [H1 H2]. constructor; assumption.
Qed.

(** The names that denote captures are exactly PREFIX, PREFIX[n] and these with a
    dollar sign, and they denote the number written. *)
Theorem C22_output_names_exact : forall prefix key n,
  prefix = lit "OUT" \/ prefix = lit "ERR" ->
  (parse_output_var key prefix = Some n <-> denotes prefix key n).
Proof.
  intros prefix key n Hp.
  assert (Hd : forall r, prefix <> chr "$" :: r) by (destruct Hp as [-> | ->]; discriminate).
  assert (Hn : prefix <> []) by (destruct Hp as [-> | ->]; discriminate).
  rewrite (denotes_strip prefix Hd Hn). cbv zeta. unfold parse_output_var.
  set (k := match key with c :: k => if (c =? chr "$")%N then k else key | [] => key end).
  assert (Plain : forall t, k <> prefix \/ k <> prefix ++ lit "[" ++ t ++ lit "]").
  { intros t. destruct (str_eqb_spec k prefix) as [E|E]; [right|left; exact E]. intros E2. rewrite E in E2.
    apply (f_equal (@length char)) in E2. rewrite app_length in E2. simpl in E2. lia. }
  destruct (str_eqb_spec k prefix) as [E|E].
  { split; [intros [= <-]; auto|]. intros [[_ ->]|(t & Ht & _)]; [reflexivity|]. destruct (Plain t); congruence. }
  destruct (starts_with (prefix ++ lit "[") k && ends_with (lit "]") k) eqn:Es.
  - apply andb_true_iff in Es as [Es1 Es2].
    apply starts_with_iff in Es1 as (t & Ht). apply ends_with_iff in Es2 as (u & Hu).
    (* k = prefix ++ "[" ++ t, and it ends with "]" *)
    destruct t as [|x t _] using rev_ind.
    { exfalso. rewrite app_nil_r in Ht. rewrite Ht in Hu. apply app_inj_tail in Hu as [_ Hu]. discriminate. }
    rewrite app_assoc in Ht. rewrite Ht in Hu. apply app_inj_tail in Hu as [_ ->].
    assert (Hk : firstn (length k - 1 - length (prefix ++ lit "[")) (skipn (length (prefix ++ lit "[")) k) = t).
    { rewrite Ht. generalize (prefix ++ lit "["). intros P. rewrite <- app_assoc, skipn_app, skipn_all, Nat.sub_diag.
      rewrite !app_length. simpl. rewrite firstn_app.
      replace (length P + (length t + 1) - 1 - length P) with (length t) by lia.
      rewrite firstn_all, Nat.sub_diag. simpl. apply app_nil_r. }
    rewrite Hk, parse_usize_iff. split.
    + intros [A B]. right. exists t. rewrite Ht, <- !app_assoc. repeat split; auto.
      unfold usize_max in A. change (2 ^ 64)%N with 18446744073709551616%N. lia.
    + intros [[A _]|(t2 & A & B & C)]; [congruence|]. rewrite Ht, <- !app_assoc in A.
      apply app_inv_head in A. apply app_inv_head in A. apply app_inj_tail in A as [-> _]. split; [|exact C].
      unfold usize_max. change (2 ^ 64)%N with 18446744073709551616%N in B. lia.
  - split; [discriminate|]. intros [[A _]|(t & A & _)]; [congruence|]. exfalso.
    apply andb_false_iff in Es as [Es|Es].
    + assert (starts_with (prefix ++ lit "[") k = true); [|congruence]. apply starts_with_iff.
      exists (t ++ lit "]"). rewrite A, <- app_assoc. reflexivity.
    + assert (ends_with (lit "]") k = true); [|congruence]. apply ends_with_iff.
      exists (prefix ++ lit "[" ++ t). rewrite A, <- !app_assoc. reflexivity.
Qed.
Print Assumptions C22_output_names_exact.

Example C22_output_names_case :
  map (fun k => parse_output_var k (lit "OUT")) [lit "OUT"; lit "$OUT[12]"; lit "OUT[]"; lit "OUTER"; lit "OUT[0]"; lit "$$OUT"; lit "OUT[-1]"]
  = [Some 1; Some 12; None; None; Some 0; None; None]%N.
Proof. vm_compute. reflexivity. Qed.

(** * C28: newlines on a raw terminal *)

Definition show_byte (prev : option byte) (b : byte) : list byte :=
  if (b =? LF)%N && negb (match prev with Some p => (p =? CR)%N | None => false end) then [CR; LF] else [b].
Fixpoint show (prev : option byte) (data : list byte) : list byte :=
  match data with [] => [] | b :: r => show_byte prev b ++ show (Some b) r end.
Definition last_byte (prev : option byte) (data : list byte) : option byte :=
  match rev data with b :: _ => Some b | [] => prev end.

Lemma last_byte_cons prev b data : last_byte prev (b :: data) = last_byte (Some b) data.
Proof. unfold last_byte. simpl. destruct (rev data); reflexivity. Qed.

Lemma norm_loop_spec data : forall before prev norm,
  norm_loop before prev norm data =
  (last_byte prev data,
   match norm with
   | Some n => Some (n ++ show prev data)
   | None => if list_eq_dec N.eq_dec (show prev data) data then None else Some (before ++ show prev data)
   end).
Proof.
  induction data as [|b data IH]; intros before prev norm; simpl.
  - unfold last_byte. simpl. destruct norm; [rewrite app_nil_r; reflexivity|].
    destruct (list_eq_dec N.eq_dec [] []); congruence.
  - rewrite IH, last_byte_cons. unfold show_byte.
    destruct ((b =? LF)%N && negb match prev with Some p => (p =? CR)%N | None => false end) eqn:E.
    + f_equal. apply andb_true_iff in E as [E _]. apply N.eqb_eq in E. subst b.
      destruct norm as [n|]; [rewrite <- app_assoc; reflexivity|].
      destruct (list_eq_dec _ _ _) as [H|_]; [discriminate H|]. rewrite <- app_assoc. reflexivity.
    + f_equal. destruct norm as [n|]; [rewrite <- app_assoc; reflexivity|]. cbn [app].
      destruct (list_eq_dec N.eq_dec (show (Some b) data) data) as [H|H];
      destruct (list_eq_dec N.eq_dec (b :: show (Some b) data) (b :: data)) as [H2|H2]; try reflexivity; try congruence.
      rewrite <- app_assoc. reflexivity.
Qed.

Lemma show_app a : forall prev b, show prev (a ++ b) = show prev a ++ show (last_byte prev a) b.
Proof.
  induction a as [|x a IH]; intros prev b; simpl; [reflexivity|].
  rewrite IH, last_byte_cons, app_assoc. reflexivity.
Qed.

Lemma process_output_tty chunks : forall last,
  process_output true last chunks = (show last (concat chunks), concat chunks).
Proof.
  induction chunks as [|d chunks IH]; intros last; cbn [process_output concat]; [reflexivity|].
  unfold normalize_tty_newlines. rewrite norm_loop_spec. cbn [fst snd]. rewrite IH, show_app. f_equal.
  f_equal. destruct (list_eq_dec N.eq_dec (show last d) d); [congruence|reflexivity].
Qed.

Lemma nth_error_app_mid {A} (pre : list A) x r : nth_error (pre ++ x :: r) (length pre) = Some x.
Proof. rewrite nth_error_app2, Nat.sub_diag by lia. reflexivity. Qed.

Lemma show_is_shown_stream data : show None data = shown_stream data.
Proof.
  assert (G : forall d pre, data = pre ++ d -> show (last_byte None pre) d = flat_map (shown_byte data) (seq (length pre) (length d))).
  { induction d as [|b d IH]; intros pre Hd; [reflexivity|]. cbn [length seq flat_map show]. f_equal.
    - subst data. unfold shown_byte. rewrite nth_error_app_mid.
      unfold show_byte, LF, CR. destruct pre as [|y pre _] using rev_ind.
      + simpl. destruct (N.eqb_spec b 10) as [->|H]; [reflexivity|]. simpl.
        destruct b as [|[[[[]|[]|]|[[]|[]|]|]|[[[]|[]|]|[[]|[]|]|]|]]; try reflexivity; congruence.
      + unfold last_byte. rewrite rev_app_distr, app_length, Nat.add_1_r. simpl.
        rewrite <- app_assoc. cbn [app]. rewrite nth_error_app_mid.
        destruct (N.eqb_spec b 10) as [->|H].
        * destruct (N.eqb_spec y 13) as [->|H]; [reflexivity|]. simpl.
          destruct y as [|[[[[]|[]|]|[[]|[]|]|]|[[[]|[]|]|[[]|[]|]|]|]]; try reflexivity; congruence.
        * simpl. destruct b as [|[[[[]|[]|]|[[]|[]|]|]|[[[]|[]|]|[[]|[]|]|]|]]; try reflexivity; congruence.
    - specialize (IH (pre ++ [b])). rewrite app_length, Nat.add_1_r in IH. rewrite <- IH.
      + unfold last_byte. rewrite rev_app_distr. reflexivity.
      + rewrite <- app_assoc. exact Hd. }
  exact (G data [] eq_refl).
Qed.

(** However the byte stream is cut into reads: on a terminal exactly the bytes of
    the stream are shown, with a carriage return added before each line feed that
    lacks one; elsewhere they are shown unchanged; the capture is the stream. *)
Theorem C28_newlines_independent_of_chunks : forall chunks,
  process_output true None chunks = (shown_stream (concat chunks), concat chunks) /\
  process_output false None chunks = (concat chunks, concat chunks).
Proof.
  intros chunks. split.
  - rewrite process_output_tty, show_is_shown_stream. reflexivity.
  - generalize (@None byte). induction chunks as [|d chunks IH]; intros last; simpl; [reflexivity|].
    rewrite IH. reflexivity.
Qed.
Print Assumptions C28_newlines_independent_of_chunks.

(** what is shown has no line feed without carriage return, and dropping carriage
    returns gives the same text as dropping them from the stream *)
Theorem C28_every_line_feed_is_preceded : forall data i,
  nth_error (shown_stream data) i = Some LF ->
  exists j, i = S j /\ nth_error (shown_stream data) j = Some CR.
Proof.
  intros data i. rewrite <- show_is_shown_stream.
  assert (G : forall d prev i, nth_error (show prev d) i = Some LF ->
    (i = 0 /\ prev = Some CR) \/ exists j, i = S j /\ nth_error (show prev d) j = Some CR).
  { clear. induction d as [|b d IH]; intros prev i; [destruct i; discriminate|]. cbn [show]. unfold show_byte.
    destruct ((b =? LF)%N && _) eqn:E.
    - cbn [app]. destruct i as [|[|i]]; [discriminate|intros _; right; exists 0; auto|]. simpl. intros H.
      apply IH in H as [[-> H]|(j & -> & H)].
      + apply andb_true_iff in E as [E _]. apply N.eqb_eq in E. subst b. discriminate.
      + right. exists (S (S j)). auto.
    - cbn [app]. destruct i as [|i]; simpl.
      + intros [= ->]. left. split; [reflexivity|]. rewrite N.eqb_refl in E. simpl in E.
        destruct prev as [p|]; [|discriminate]. destruct (p =? CR)%N eqn:Ep; [|discriminate]. apply N.eqb_eq in Ep. congruence.
      + intros H. apply IH in H as [[-> H]|(j & -> & H)].
        * injection H as ->. right. exists 0. auto.
        * right. exists (S j). auto. }
  intros H. apply G in H as [[_ H]|H]; [discriminate|exact H].
Qed.
Print Assumptions C28_every_line_feed_is_preceded.

Theorem C28_only_carriage_returns_added : forall data,
  filter (fun b => negb (b =? CR)%N) (shown_stream data) = filter (fun b => negb (b =? CR)%N) data.
Proof.
  intros data. rewrite <- show_is_shown_stream. generalize (@None byte).
  induction data as [|b d IH]; intros prev; [reflexivity|]. cbn [show]. rewrite filter_app, IH. unfold show_byte.
  destruct ((b =? LF)%N && _) eqn:E; [|simpl; destruct (negb (b =? CR)%N); reflexivity].
  apply andb_true_iff in E as [E _]. apply N.eqb_eq in E. subst b. reflexivity.
Qed.
Print Assumptions C28_only_carriage_returns_added.

Example C28_case :
  process_output true None [[97;13]; [10;10;98]]%N = ([97;13;10;13;10;98], [97;13;10;10;98])%N.
Proof. vm_compute. reflexivity. Qed.

(** * C52: monitored output arrives whole *)

(** A line that is written in two parts more than 200 ms apart loses its first part. *)
Theorem C52_monitored_output_complete_refuted :
  exists s m, output_all 10 true (Monitor false [] []) s = Some (m, []) /\
    all_text s = lit "foobar" ++ [10%N] /\ captured m = lit "bar" ++ [10%N].
Proof.
  exists (map Ch (lit "foo") ++ Pause :: map Ch (lit "bar") ++ [Ch 10%N]). eexists.
  split; [vm_compute; reflexivity|]. split; vm_compute; reflexivity.
Qed.
Print Assumptions C52_monitored_output_complete_refuted.

Lemma read_line_paced s : forall acc st, line_paced st s -> (acc <> [] -> st = false) ->
  match read_line acc s with
  | (Line l, rest) => acc ++ all_text s = l ++ all_text rest /\ line_paced true rest /\ (length rest < length s \/ (s = [] /\ rest = [])) /\ (l = [] -> s = [] /\ rest = [])
  | (TimedOut, rest) => acc = [] /\ all_text s = all_text rest /\ line_paced true rest /\ length rest < length s
  end.
Proof.
  induction s as [|[c|] s IH]; intros acc st Hp Hs; simpl in *.
  - auto 10.
  - destruct (c =? LF)%N eqn:E.
    + split; [rewrite <- app_assoc; reflexivity|]. split; [unfold LF in E; rewrite E in Hp; exact Hp|].
      split; [auto|]. intros H. destruct acc; discriminate.
    + specialize (IH (acc ++ [c]) (c =? 10)%N Hp). unfold LF in E.
      destruct (read_line (acc ++ [c]) s) as [[l|] rest].
      * destruct IH as (A & B & C & D); [auto|]. rewrite <- app_assoc in A. split; [exact A|]. split; [exact B|].
        split; [left; destruct C as [C|[-> ->]]; simpl; lia|]. intros ->. destruct (D eq_refl) as [-> ->].
        exfalso. destruct acc; discriminate.
      * destruct IH as (A & _); [auto|]. destruct acc; discriminate.
  - destruct Hp as [-> Hp]. destruct acc as [|x acc]; [auto|]. discriminate Hs. discriminate.
Qed.

(** When pauses fall between lines, all output is captured and shown, once, after one
    line break. *)
Theorem C52_monitored_output_complete_partial : forall s fuel,
  line_paced true s -> length s < fuel ->
  exists m, output_all fuel true (Monitor false [] []) s = Some (m, []) /\
    captured m = all_text s /\
    shown m = (if started m then [13%N; 10%N] else []) ++ all_text s.
Proof.
  assert (G : forall fuel s m, line_paced true s -> length s < fuel ->
    shown m = (if started m then [13%N; 10%N] else []) ++ captured m -> (started m = false -> captured m = []) ->
    exists m', output_all fuel true m s = Some (m', []) /\ captured m' = captured m ++ all_text s /\
      shown m' = (if started m' then [13%N; 10%N] else []) ++ captured m').
  { induction fuel as [|f IH]; intros s m Hp Hf Hm Hc; [lia|]. cbn [output_all].
    pose proof (read_line_paced s [] true Hp ltac:(congruence)) as R.
    destruct (read_line [] s) as [[l|] rest].
    - destruct R as (A & B & C & D). simpl in A. destruct l as [|c l].
      + (* end of file *)
        destruct (D eq_refl) as [-> ->].
        exists m. rewrite app_nil_r. auto.
      + destruct (IH rest (append_line m (c :: l)) B) as (m' & E1 & E2 & E3).
        * destruct C as [C|[-> ->]]; [lia|discriminate A].
        * unfold append_line. simpl. rewrite Hm. destruct (started m) eqn:Es.
          -- rewrite <- app_assoc. reflexivity.
          -- rewrite (Hc eq_refl). reflexivity.
        * discriminate.
        * exists m'. split; [exact E1|]. split; [|exact E3]. rewrite E2, A. simpl. rewrite <- app_assoc. reflexivity.
    - destruct R as (_ & A & B & C). destruct (IH rest m B ltac:(lia) Hm Hc) as (m' & E1 & E2 & E3).
      exists m'. rewrite A. auto. }
  intros s fuel Hp Hf. destruct (G fuel s (Monitor false [] []) Hp Hf eq_refl ltac:(reflexivity)) as (m & A & B & C).
  exists m. split; [exact A|]. simpl in B. rewrite <- B. auto.
Qed.
Print Assumptions C52_monitored_output_complete_partial.

Example C52_case : line_paced true (map Ch (lit "a") ++ [Ch 10%N; Pause; Pause; Ch 98%N]).
Proof. simpl. auto. Qed.
