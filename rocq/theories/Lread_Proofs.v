From Verif Require Import Base Numerals Lread_Model Lread_Spec.

Section Numeric.
Variable unum : char -> bool.
Notation is_numeric := (is_numeric unum).

Lemma from_app (x s : str) : from (x ++ s) (blen x) = s.
Proof. unfold from. now rewrite split_byte_app. Qed.

Lemma utf8_ascii c : (c < 128)%N -> utf8_len c = 1.
Proof. intros H. unfold utf8_len. apply N.ltb_lt in H. now rewrite H. Qed.

(** a stateless scan that takes [a ++ [z]] and stops *)
Lemma while_take (p : nat -> char -> bool) (a q : str) z off last :
  (forall a1 c a2, a ++ [z] = a1 ++ c :: a2 -> p (off + blen a1) c = true) ->
  match q with [] => True | c :: _ => p (off + blen (a ++ [z])) c = false end ->
  while_last (stateless p) tt off (a ++ z :: q) last = Some (off + blen a, z).
Proof.
  revert off last. induction a as [|c a IH]; intros off last H Hq; cbn [app while_last].
  - unfold stateless at 1. rewrite (H [] z [] eq_refl : p (off + 0) z = true) || (pose proof (H [] z [] eq_refl) as E; cbn [blen] in E; rewrite Nat.add_0_r in E; rewrite E).
    cbn [blen]. rewrite Nat.add_0_r. destruct q as [|d q]; cbn [while_last]; [reflexivity|].
    unfold stateless. cbn [app blen] in Hq. rewrite Nat.add_0_r in Hq. now rewrite Hq.
  - unfold stateless at 1. pose proof (H [] c (a ++ [z]) eq_refl) as E. cbn [blen] in E. rewrite Nat.add_0_r in E. rewrite E.
    cbn [blen]. rewrite Nat.add_assoc. apply IH.
    + intros a1 d a2 E2. specialize (H (c :: a1) d a2). cbn [app blen] in H. rewrite Nat.add_assoc in H. apply H. now rewrite E2.
    + destruct q; [exact I|]. cbn [app blen] in Hq. now rewrite Nat.add_assoc in Hq.
Qed.

Lemma while_none {A} (p : A -> nat -> char -> bool * A) st (q : str) :
  match q with [] => True | c :: _ => fst (p st 0 c) = false end ->
  while_last p st 0 q None = None.
Proof. destruct q as [|c q]; [reflexivity|]. cbn [while_last]. destruct (p st 0 c) as [b st']. cbn [fst]. now intros ->. Qed.

Lemma consume_take (p : nat -> char -> bool) (x a q : str) z :
  (forall a1 c a2, a ++ [z] = a1 ++ c :: a2 -> p (blen a1) c = true) ->
  match q with [] => True | c :: _ => p (blen (a ++ [z])) c = false end ->
  consume_while (stateless p) tt (x ++ a ++ z :: q) (blen x) = Some (blen x + blen a, z).
Proof.
  intros H Hq. unfold consume_while. rewrite from_app, (while_take p a q z 0 None); [reflexivity|exact H|exact Hq].
Qed.

Lemma consume_none (p : nat -> char -> bool) (x q : str) :
  match q with [] => True | c :: _ => p 0 c = false end ->
  consume_while (stateless p) tt (x ++ q) (blen x) = None.
Proof. intros H. unfold consume_while. rewrite from_app, while_none; [reflexivity|]. destruct q; [exact I|exact H]. Qed.

Lemma slice_mid (x a q : str) j : j = blen x + blen a -> slice (x ++ a ++ q) (blen x) j = a.
Proof. intros ->. unfold slice. rewrite split_byte_app. replace (blen x + blen a - blen x) with (blen a) by lia. now rewrite split_byte_app. Qed.

(** ** breaks *)
Lemma special_iff c : special c = true <-> In c (lit "()',;").
Proof. apply mem_char_iff. Qed.
Lemma Break_iff c : Break c <-> is_whitespace c || special c = true.
Proof. unfold Break. rewrite orb_true_iff, special_iff. tauto. Qed.
Lemma not_Break c : ~ Break c <-> is_symbolic c = true.
Proof.
  rewrite Break_iff. unfold is_symbolic. destruct (is_whitespace c), (special c); cbn; split; intros H; try reflexivity; try discriminate; try (now destruct H); congruence.
Qed.
Lemma break_next (x q : str) : ends_word q -> next_is_break (x ++ q) (blen x) = true.
Proof. intros H. unfold next_is_break. rewrite from_app. destruct q as [|c q]; [reflexivity|]. now apply Break_iff. Qed.
Lemma nobreak_next (x q : str) c : ~ Break c -> next_is_break (x ++ c :: q) (blen x) = false.
Proof. intros H. unfold next_is_break. rewrite from_app. rewrite Break_iff in H. now destruct (is_whitespace c || special c). Qed.

Lemma Break_cases c : Break c -> is_whitespace c = true \/ c = 40%N \/ c = 41%N \/ c = 39%N \/ c = 44%N \/ c = 59%N.
Proof. intros [H|H]; [now left|]. change (lit "()',;") with [40;41;39;44;59]%N in H. cbn [In] in H. intuition (subst; auto 10). Qed.
Lemma ws_range c : is_whitespace c = true -> (9 <= c <= 13 \/ c = 32 \/ 128 < c)%N.
Proof.
  unfold is_whitespace. rewrite !orb_true_iff, !andb_true_iff, !N.leb_le, !N.eqb_eq. lia.
Qed.
Lemma Break_range c : Break c -> (c < 33 \/ c = 40 \/ c = 41 \/ c = 39 \/ c = 44 \/ c = 59 \/ 128 < c)%N.
Proof. intros H. apply Break_cases in H as [H|H]; [apply ws_range in H|]; lia. Qed.
Lemma Break_numeric c : Break c -> is_numeric c = false.
Proof.
  intros H. unfold Lread_Model.is_numeric. destruct (c <? 128)%N eqn:E.
  - apply N.ltb_lt in E. apply Break_range in H. unfold is_digit. apply andb_false_iff. rewrite !N.leb_gt. lia.
  - apply Break_cases in H as [H|H]; [now rewrite H|]. apply N.ltb_ge in E. lia.
Qed.
Lemma digit_numeric c : is_digit c = true -> is_numeric c = true.
Proof. intros H. unfold Lread_Model.is_numeric. destruct (c <? 128)%N eqn:E; [exact H|]. unfold is_digit in H. rewrite andb_true_iff, !N.leb_le in H. apply N.ltb_ge in E. lia. Qed.
Lemma digit_range c : is_digit c = true -> (48 <= c <= 57)%N.
Proof. unfold is_digit. rewrite andb_true_iff, !N.leb_le. lia. Qed.

(** ** [consume] and keywords *)
Lemma consume_at (x q : str) w : consume (x ++ q) (blen x) w = if prefix_ci w q then Some (blen x + blen w) else None.
Proof. unfold consume. now rewrite from_app. Qed.

Lemma lower1_eq (x y : char) : (lower1 x =? lower1 y)%N = true <-> lower_char x = lower_char y.
Proof. unfold lower1, lower_char. rewrite N.eqb_eq. reflexivity. Qed.

Lemma prefix1 (w c : char) (q : str) : ~ (65 <= w <= 90 \/ 97 <= w <= 122)%N -> prefix_ci [w] (c :: q) = (w =? c)%N.
Proof.
  intros H. cbn [prefix_ci]. rewrite andb_true_r. unfold lower1.
  destruct (((65 <=? w) && (w <=? 90))%N) eqn:E. { rewrite andb_true_iff, !N.leb_le in E. lia. }
  destruct (((65 <=? c) && (c <=? 90))%N) eqn:E2; [|reflexivity]. rewrite andb_true_iff, !N.leb_le in E2.
  transitivity false; [|symmetry]; apply N.eqb_neq; lia.
Qed.

Lemma prefix_split (w : str) : Forall (fun c => (97 <= c <= 122)%N) w -> forall (s q : str),
  ends_word q -> prefix_ci w (s ++ q) = true -> exists s1 s2, s = s1 ++ s2 /\ lower s1 = w.
Proof.
  induction 1 as [|a w Ha Hw IH]; intros s q Hq E.
  - now exists [], s.
  - destruct s as [|c s].
    + destruct q as [|c q]; [discriminate|]. cbn [app prefix_ci] in E. apply andb_true_iff in E as [E _].
      unfold ends_word in Hq. apply Break_range in Hq. unfold lower1 in E. apply N.eqb_eq in E.
      destruct (((65 <=? a) && (a <=? 90))%N) eqn:E1; [rewrite andb_true_iff, !N.leb_le in E1; lia|].
      destruct (((65 <=? c) && (c <=? 90))%N) eqn:E2; [rewrite andb_true_iff, !N.leb_le in E2; lia|]. lia.
    + cbn [app prefix_ci] in E. apply andb_true_iff in E as [E1 E2]. destruct (IH s q Hq E2) as (s1 & s2 & -> & <-).
      exists (c :: s1), s2. split; [reflexivity|]. cbn [lower map]. f_equal. apply lower1_eq in E1. rewrite <- E1.
      unfold lower_char. destruct (((65 <=? a) && (a <=? 90))%N) eqn:E3; [rewrite andb_true_iff, !N.leb_le in E3; lia|reflexivity].
Qed.
Lemma prefix_lower (s q : str) : prefix_ci (lower s) (s ++ q) = true.
Proof.
  induction s as [|c s IH]; [reflexivity|]. cbn [lower map app prefix_ci]. apply andb_true_iff. split; [|exact IH].
  apply lower1_eq. unfold lower_char. destruct (((65 <=? c) && (c <=? 90))%N) eqn:E; [|now rewrite E].
  rewrite andb_true_iff, !N.leb_le in E. destruct (((65 <=? c + 32) && (c + 32 <=? 90))%N) eqn:E3; [rewrite andb_true_iff, !N.leb_le in E3; lia|reflexivity].
Qed.
Lemma lower_len (s w : str) : Forall (fun c => (97 <= c <= 122)%N) w -> lower s = w -> blen s = blen w.
Proof.
  intros H <-. induction s as [|c s IH]; [reflexivity|]. cbn [lower map blen] in *. inversion H as [|? ? H1 H2]; subst. rewrite (IH H2). f_equal.
  rewrite (utf8_ascii (lower_char c)) by lia. apply utf8_ascii. unfold lower_char in H1.
  destruct (((65 <=? c) && (c <=? 90))%N) eqn:E; [rewrite andb_true_iff, !N.leb_le in E|]; lia.
Qed.
Lemma keyword_word (w : str) v (x s q : str) : Forall (fun c => (97 <= c <= 122)%N) w -> Forall (fun c => ~ Break c) s -> ends_word q ->
  keyword (x ++ s ++ q) (blen x) w v = if str_eqb (lower s) w then Good v (blen x + blen s) else NoParse.
Proof.
  intros Hw Hs Hq. unfold keyword. rewrite consume_at.
  destruct (str_eqb_spec (lower s) w) as [E|E].
  - rewrite <- E at 1. rewrite prefix_lower. rewrite <- (lower_len s w Hw E).
    rewrite app_assoc, <- blen_app, break_next by exact Hq. now rewrite blen_app.
  - destruct (prefix_ci w (s ++ q)) eqn:P; [|reflexivity].
    destruct (prefix_split w Hw s q Hq P) as (s1 & s2 & -> & E1).
    destruct s2 as [|c s2]; [rewrite app_nil_r in E; congruence|].
    rewrite <- (lower_len s1 w Hw E1). apply Forall_app in Hs as [_ Hs]. inversion Hs as [|? ? Hc _]; subst.
    replace (x ++ (s1 ++ c :: s2) ++ q) with ((x ++ s1) ++ c :: s2 ++ q) by (rewrite <- !app_assoc; reflexivity).
    rewrite <- blen_app. now rewrite nobreak_next.
Qed.
Lemma letters_nil : Forall (fun c => (97 <= c <= 122)%N) (lit "nil").
Proof. repeat constructor; discriminate. Qed.
Lemma letters_t : Forall (fun c => (97 <= c <= 122)%N) (lit "t").
Proof. repeat constructor; discriminate. Qed.
Lemma letters_f : Forall (fun c => (97 <= c <= 122)%N) (lit "f").
Proof. repeat constructor; discriminate. Qed.

(** ** Gaps *)
Definition no_gap (r : str) : Prop := match r with [] => True | c :: _ => is_whitespace c = false /\ c <> 59%N end.

Lemma gap_comment (t r : str) n off last : 2 <= n -> ~ In 10%N t ->
  while_last gap_pred n off (t ++ 10%N :: r) last = while_last gap_pred 0 (off + blen t + 1) r (Some (off + blen t, 10%N)).
Proof.
  revert n off last. induction t as [|c t IH]; intros n off last Hn Ht; cbn [app while_last].
  - unfold gap_pred at 1. change (10 =? chr ";")%N with false. change (10 =? 10)%N with true. rewrite orb_true_r.
    change (is_whitespace 10%N) with true. cbn [blen orb]. now rewrite Nat.add_0_r.
  - assert (c <> 10%N) as Hc by (intros ->; apply Ht; now left).
    unfold gap_pred at 1. apply N.eqb_neq in Hc. rewrite Hc. cbn [blen].
    set (m := if (c =? chr ";")%N then S n else if (n <? 2) || false then 0 else n).
    assert (2 <= m) as Hm. { unfold m. destruct (c =? chr ";")%N; [lia|]. destruct (n <? 2) eqn:E; [apply Nat.ltb_lt in E; lia|exact Hn]. }
    assert (2 <=? m = true) as E by now apply Nat.leb_le. rewrite E, orb_true_r.
    rewrite IH; [|exact Hm|intros X; apply Ht; now right]. f_equal; [lia|]. f_equal. f_equal. lia.
Qed.
Lemma gap_while g : Gap g -> forall (r : str) off last, no_gap r -> exists z,
  while_last gap_pred 0 off (g ++ r) last = match g with [] => last | _ => Some (off + blen g - 1, z) end.
Proof.
  induction 1 as [|c g Hc Ha Hg IH|t g Ht Hg IH]; intros r off last Hr.
  - exists 0%N. destruct r as [|c r]; [reflexivity|]. destruct Hr as [H1 H2]. cbn [app while_last]. unfold gap_pred at 1.
    apply N.eqb_neq in H2. change (chr ";") with 59%N. rewrite H2, H1. reflexivity.
  - cbn [app while_last]. unfold gap_pred at 1. rewrite Hc. cbn [orb].
    assert ((c =? chr ";")%N = false) as E. { apply N.eqb_neq. intros ->. discriminate. }
    rewrite E. change (0 <? 2) with true. cbn [orb].
    destruct (IH r (off + utf8_len c) (Some (off, c)) Hr) as (z & ->). rewrite (utf8_ascii c Ha). cbn [blen]. rewrite (utf8_ascii c Ha).
    destruct g as [|d g].
    + exists c. cbn [blen]. f_equal. f_equal. lia.
    + exists z. cbn [blen]. f_equal. f_equal. lia.
  - change (lit ";;") with [59;59]%N. change ([59;59]%N ++ t ++ 10%N :: g) with (59%N :: 59%N :: t ++ 10%N :: g).
    cbn [app while_last]. change (gap_pred 0 off 59%N) with (true, 1). cbn [while_last]. match goal with |- context [gap_pred 1 ?o 59%N] => change (gap_pred 1 o 59%N) with (true, 2) end. cbv iota beta.
    change (utf8_len 59%N) with 1. rewrite <- app_assoc. cbn [app]. rewrite gap_comment by (auto with arith).
    match goal with |- context [while_last gap_pred 0 ?o _ (Some ?l)] => destruct (IH r o (Some l) Hr) as (z & ->) end.
    destruct g as [|d g].
    + exists 10%N. cbn [blen]. rewrite blen_app. cbn [blen]. change (utf8_len 10%N) with 1. change (utf8_len 59%N) with 1. f_equal. f_equal. lia.
    + exists z. cbn [blen]. rewrite blen_app. cbn [blen]. change (utf8_len 10%N) with 1. change (utf8_len 59%N) with 1. f_equal. f_equal. lia.
Qed.
Lemma skip_gap_app (x g r : str) : Gap g -> no_gap r -> skip_gap (x ++ g ++ r) (blen x) = blen (x ++ g).
Proof.
  intros Hg Hr. unfold skip_gap, consume_while. rewrite from_app. destruct (gap_while g Hg r 0 None Hr) as (z & ->).
  rewrite blen_app. destruct g as [|c g]; [cbn [blen]; lia|]. cbn [blen]. pose proof (utf8_len_pos c). lia.
Qed.

(** ** Atoms *)
Definition atoms (code : str) (i : nat) : res :=
  orelse (keyword code i (lit "nil") (VList []))
 (orelse (keyword code i (lit "f") VFalse)
 (orelse (keyword code i (lit "t") VTrue)
 (orelse (number unum code i)
 (orelse (string_atom code i) (symbol unum code i))))).
Lemma expr_atom f (x r : str) c : c <> 40%N -> c <> 39%N -> c <> 44%N -> expr unum (S f) (x ++ c :: r) (blen x) = atoms (x ++ c :: r) (blen x).
Proof.
  intros H1 H2 H3. cbn [expr]. rewrite !consume_at. change (lit "(") with [40%N]. change (lit "'") with [39%N]. change (lit ",") with [44%N].
  rewrite !prefix1 by lia. apply not_eq_sym, N.eqb_neq in H1, H2, H3. rewrite H1, H2, H3. reflexivity.
Qed.
Lemma keyword_head (w : str) v (x r : str) c : Forall (fun c => (97 <= c <= 122)%N) w -> w <> [] -> ~ (65 <= c <= 90 \/ 97 <= c <= 122)%N ->
  keyword (x ++ c :: r) (blen x) w v = NoParse.
Proof.
  intros Hw Hn Hc. unfold keyword. rewrite consume_at. destruct w as [|a w]; [congruence|]. inversion Hw as [|? ? Ha _]; subst.
  assert ((lower1 a =? lower1 c)%N = false) as E.
  { apply N.eqb_neq. unfold lower1. destruct (((65 <=? a) && (a <=? 90))%N) eqn:E1; [rewrite andb_true_iff, !N.leb_le in E1; lia|].
    destruct (((65 <=? c) && (c <=? 90))%N) eqn:E2; [rewrite andb_true_iff, !N.leb_le in E2; lia|]. intros ->. lia. }
  cbn [prefix_ci]. now rewrite E.
Qed.
Lemma atoms_head (x r : str) c : ~ (65 <= c <= 90 \/ 97 <= c <= 122)%N ->
  atoms (x ++ c :: r) (blen x) = orelse (number unum (x ++ c :: r) (blen x)) (orelse (string_atom (x ++ c :: r) (blen x)) (symbol unum (x ++ c :: r) (blen x))).
Proof.
  intros H. unfold atoms. rewrite !keyword_head; try exact H; try discriminate; [reflexivity|exact letters_t|exact letters_f|exact letters_nil].
Qed.

Lemma number_no (x q : str) : match q with [] => True | c :: _ => is_numeric c = false /\ c <> 45%N end -> number unum (x ++ q) (blen x) = NoParse.
Proof.
  intros H. unfold number. rewrite consume_none; [reflexivity|]. destruct q as [|c q]; [exact I|]. destruct H as [H1 H2].
  rewrite H1. apply N.eqb_neq in H2. change (chr "-") with 45%N. now rewrite H2.
Qed.
Lemma number_minus (x q : str) : match q with [] => True | c :: _ => is_numeric c = false end -> number unum (x ++ 45%N :: q) (blen x) = NoParse.
Proof.
  intros H. unfold number. rewrite (consume_take _ x [] q 45%N).
  - reflexivity.
  - intros [|a1 a] c a2 E; cbn [app] in E; [injection E as <- <-; reflexivity|destruct a; discriminate].
  - destruct q as [|c q]; [exact I|]. rewrite H. reflexivity.
Qed.

Lemma dec_value_N (s : str) acc : dec_value (Z.of_N acc) s = Z.of_N (Numerals.value acc s).
Proof. revert acc. induction s as [|c s IH]; intros acc; [reflexivity|]. cbn [dec_value Numerals.value]. rewrite <- IH. f_equal. lia. Qed.
Lemma in_i64_iff z : in_i64 z = true <-> i64 z.
Proof. unfold in_i64, i64. rewrite andb_true_iff, !Z.leb_le. lia. Qed.
Lemma Dec_digits s n : Dec s n -> s <> [] /\ Forall (fun c => is_digit c = true) s /\ dec_value 0 s = Z.of_N n.
Proof. intros H. apply Dec_iff in H as (A & B & ->). split; [exact A|]. split; [exact B|]. apply (dec_value_N s 0). Qed.
Lemma all_digits_iff s : all_digits s = true <-> s <> [] /\ Forall (fun c => is_digit c = true) s.
Proof.
  unfold all_digits. rewrite andb_true_iff, forallb_forall, Forall_forall. destruct s; cbn; intuition congruence.
Qed.
Lemma parse_i64_nat s n : Dec s n -> i64 (Z.of_N n) -> parse_i64 s = Some (Z.of_N n).
Proof.
  intros H Hi. apply Dec_digits in H as (A & B & C). unfold parse_i64. destruct s as [|c r]; [congruence|].
  inversion B as [|? ? Hc _]; subst. assert ((c =? chr "-")%N = false) as E. { apply N.eqb_neq. intros ->. discriminate. }
  rewrite E. rewrite (proj2 (all_digits_iff (c :: r)) (conj A B)). rewrite C. apply in_i64_iff in Hi. now rewrite Hi.
Qed.
Lemma parse_i64_neg s n : Dec s n -> i64 (- Z.of_N n) -> parse_i64 (chr "-" :: s) = Some (- Z.of_N n)%Z.
Proof.
  intros H Hi. apply Dec_digits in H as (A & B & C). unfold parse_i64. rewrite N.eqb_refl.
  rewrite (proj2 (all_digits_iff s) (conj A B)). rewrite C. apply in_i64_iff in Hi. now rewrite Hi.
Qed.

Lemma split_last {A} (s : list A) : s <> [] -> exists a z, s = a ++ [z].
Proof. intros H. destruct (exists_last H) as (a & z & ->). eauto. Qed.

(** the front of a number *)
Lemma number_front (x a q : str) z : Forall (fun c => is_digit c = true) (tl (a ++ [z])) -> is_digit z = true ->
  (forall c r, a = c :: r -> c = 45%N \/ is_digit c = true) ->
  match q with [] => True | c :: _ => is_numeric c = false end ->
  consume_while (stateless (fun o c => ((o =? 0) && (c =? chr "-")%N) || is_numeric c)) tt (x ++ a ++ z :: q) (blen x) = Some (blen x + blen a, z).
Proof.
  intros H Hz Hh Hq. apply consume_take.
  - intros [|b a1] c a2 E; cbn [app] in E.
    + destruct a as [|d a]; cbn [app] in E; injection E as <- <-.
      * rewrite (digit_numeric z Hz). apply orb_true_r.
      * destruct (Hh d a eq_refl) as [->|D]; [reflexivity|]. rewrite (digit_numeric d D). apply orb_true_r.
    + rewrite E in H. cbn [tl] in H. apply Forall_app in H as [_ H]. inversion H as [|? ? Hc _]; subst.
      rewrite (digit_numeric c Hc). apply orb_true_r.
  - destruct q as [|c q]; [exact I|]. rewrite Hq.
    rewrite blen_app. cbn [blen]. rewrite Nat.add_0_r. replace (blen a + utf8_len z =? 0) with false; [reflexivity|].
    symmetry. apply Nat.eqb_neq. pose proof (utf8_len_pos z). lia.
Qed.
Lemma number_int (x s q : str) z n : parse_i64 s = Some n -> (exists a, s = a ++ [z] /\ Forall (fun c => is_digit c = true) (tl (a ++ [z])) /\ (forall c r, a = c :: r -> c = 45%N \/ is_digit c = true)) -> is_digit z = true ->
  ends_word q -> number unum (x ++ s ++ q) (blen x) = Good (VInt n) (blen x + blen s).
Proof.
  intros Hp (a & -> & H1 & H2) Hz Hq. unfold number.
  assert (blen (a ++ [z]) = S (blen a)) as Hl. { rewrite blen_app. cbn [blen]. rewrite (utf8_ascii z); [lia|]. apply digit_range in Hz. lia. }
  replace (x ++ (a ++ [z]) ++ q) with (x ++ a ++ z :: q) by (rewrite <- !app_assoc; reflexivity).
  assert (match q with [] => True | c :: _ => is_numeric c = false end) as Hq'. { destruct q as [|c q]; [exact I|]. now apply Break_numeric. }
  rewrite (number_front x a q z H1 Hz H2 Hq'). rewrite (digit_numeric z Hz).
  replace (x ++ a ++ z :: q) with ((x ++ a ++ [z]) ++ q) by (rewrite <- !app_assoc; reflexivity).
  replace (S (blen x + blen a)) with (blen (x ++ a ++ [z])) by (rewrite blen_app, Hl; lia).
  rewrite consume_none.
  - rewrite break_next by exact Hq.
    rewrite <- app_assoc. rewrite slice_mid by (now rewrite blen_app). rewrite Hp. now rewrite blen_app.
  - destruct q as [|c q]; [exact I|]. rewrite Hq'. cbn [ends_word] in Hq. apply Break_range in Hq.
    replace (c =? chr ".")%N with false; [reflexivity|]. symmetry. apply N.eqb_neq. change (chr ".") with 46%N. lia.
Qed.

Lemma digits_blen (s : str) : Forall (fun c => is_digit c = true) s -> blen s = length s.
Proof. induction 1 as [|c s Hc Hs IH]; [reflexivity|]. cbn [blen length]. rewrite IH, utf8_ascii; [lia|]. apply digit_range in Hc. lia. Qed.

Lemma number_float (x a b q : str) m n : Dec a m -> Dec b n -> ends_word q ->
  number unum (x ++ (a ++ chr "." :: b) ++ q) (blen x) = Good (VFloat (a ++ chr "." :: b)) (blen x + blen (a ++ chr "." :: b)).
Proof.
  intros Ha Hb Hq. apply Dec_digits in Ha as (A1 & A2 & _). apply Dec_digits in Hb as (B1 & B2 & _).
  destruct (split_last a A1) as (a' & z & ->). destruct (split_last b B1) as (b' & y & ->).
  pose proof (proj1 (Forall_app _ _ _) A2) as [A3 A4]. inversion A4 as [|? ? Hz _]; subst.
  pose proof (proj1 (Forall_app _ _ _) B2) as [B3 B4]. inversion B4 as [|? ? Hy _]; subst.
  assert (match q with [] => True | c :: _ => is_numeric c = false end) as Hq'. { destruct q as [|c q]; [exact I|]. now apply Break_numeric. }
  assert (utf8_len z = 1) as Lz by (apply utf8_ascii; apply digit_range in Hz; lia).
  assert (utf8_len y = 1) as Ly by (apply utf8_ascii; apply digit_range in Hy; lia).
  unfold number.
  replace (x ++ ((a' ++ [z]) ++ chr "." :: b' ++ [y]) ++ q) with (x ++ a' ++ z :: (chr "." :: b' ++ [y]) ++ q) by (rewrite <- !app_assoc; reflexivity).
  rewrite number_front; [|destruct a'; cbn [tl app] in *; [constructor|now inversion A2]|exact Hz|intros c r ->; right; now inversion A3|reflexivity].
  rewrite (digit_numeric z Hz).
  replace (x ++ a' ++ z :: (chr "." :: b' ++ [y]) ++ q) with ((x ++ a' ++ [z]) ++ (chr "." :: b') ++ y :: q) by (cbn [app]; rewrite <- !app_assoc; reflexivity).
  replace (S (blen x + blen a')) with (blen (x ++ a' ++ [z])) by (rewrite !blen_app; cbn [blen]; lia).
  rewrite consume_take.
  - replace (blen (x ++ a' ++ [z]) + 2 <=? S (blen (x ++ a' ++ [z]) + blen (chr "." :: b'))) with true.
    2:{ symmetry. apply Nat.leb_le. cbn [blen]. change (utf8_len (chr ".")) with 1. lia. }
    replace ((x ++ a' ++ [z]) ++ (chr "." :: b') ++ y :: q) with ((x ++ (a' ++ [z]) ++ chr "." :: b' ++ [y]) ++ q) by (cbn [app]; rewrite <- !app_assoc; cbn [app]; rewrite <- !app_assoc; reflexivity).
    replace (S (blen (x ++ a' ++ [z]) + blen (chr "." :: b'))) with (blen (x ++ (a' ++ [z]) ++ chr "." :: b' ++ [y])) by (rewrite !blen_app; cbn [blen]; rewrite !blen_app; cbn [blen]; lia).
    rewrite break_next by exact Hq. rewrite <- app_assoc. rewrite slice_mid by (now rewrite blen_app).
    unfold parse_float. replace (forallb _ _) with true; [now rewrite blen_app|]. symmetry. apply forallb_forall. intros c Hc.
    apply in_app_iff in Hc as [Hc|[<-|Hc]]; [|reflexivity|].
    + rewrite Forall_forall in A2. now rewrite (A2 c Hc).
    + rewrite Forall_forall in B2. now rewrite (B2 c Hc).
  - intros [|d a1] c a2 E; cbn [app] in E; injection E as <- E; [reflexivity|].
    assert (is_digit c = true) as Hc. { rewrite Forall_forall in B2. apply B2. rewrite E. apply in_app_iff. right. now left. }
    rewrite (digit_numeric c Hc). apply orb_true_r.
  - destruct q as [|c q]; [exact I|]. rewrite Hq'. cbn [app blen]. change (utf8_len (chr ".")) with 1. reflexivity.
Qed.

(** ** Strings *)
Lemma byte_at (x r : str) c d : byte_is (x ++ c :: r) (blen x) d = (c =? d)%N.
Proof. unfold byte_is. now rewrite split_byte_app. Qed.
Lemma string_no (x q : str) : match q with [] => True | c :: _ => c <> 34%N end -> string_atom (x ++ q) (blen x) = NoParse.
Proof.
  intros H. unfold string_atom. rewrite consume_none; [reflexivity|]. destruct q as [|c q]; [exact I|].
  apply N.eqb_neq in H. unfold quote_char. now rewrite H.
Qed.
Lemma string_take (x a q : str) z : ~ In 34%N (a ++ [z]) -> match q with [] => True | c :: _ => c = 34%N end ->
  consume_while (stateless (fun o c => ((o =? 0) && (c =? quote_char)%N) || ((0 <? o) && negb (c =? quote_char)%N))) tt (x ++ (34%N :: a) ++ z :: q) (blen x) = Some (blen x + S (blen a), z).
Proof.
  intros H Hq. change (S (blen a)) with (blen (34%N :: a)). apply consume_take.
  - intros [|d a1] c a2 E; cbn [app] in E; injection E as <- E; [reflexivity|].
    assert (c <> 34%N) as Hc. { intros ->. apply H. rewrite E. apply in_app_iff. right. now left. }
    apply N.eqb_neq in Hc. unfold quote_char. rewrite Hc. cbn [blen]. change (utf8_len 34%N) with 1. reflexivity.
  - destruct q as [|c q]; [exact I|]. subst c. reflexivity.
Qed.
Lemma string_read (x s q : str) : last_ascii s -> ~ In 34%N s ->
  string_atom (x ++ (34%N :: s ++ [34%N]) ++ q) (blen x) = Good (VString s) (blen x + blen (34%N :: s ++ [34%N])).
Proof.
  intros (a & z & -> & Hz) Hs. unfold string_atom.
  replace (x ++ (34%N :: (a ++ [z]) ++ [34%N]) ++ q) with (x ++ (34%N :: a) ++ z :: 34%N :: q) by (cbn [app]; rewrite <- !app_assoc; reflexivity).
  rewrite string_take; [|exact Hs|reflexivity].
  replace (blen x <? blen x + S (blen a)) with true by (symmetry; apply Nat.ltb_lt; lia).
  assert (utf8_len z = 1) as Lz by now apply utf8_ascii.
  assert (byte_is (x ++ (34%N :: a) ++ z :: 34%N :: q) (blen x + S (blen a) + 1) quote_char = true) as ->.
  { replace (x ++ (34%N :: a) ++ z :: 34%N :: q) with ((x ++ 34%N :: a ++ [z]) ++ 34%N :: q) by (cbn [app]; rewrite <- !app_assoc; cbn [app]; rewrite <- !app_assoc; reflexivity).
    replace (blen x + S (blen a) + 1) with (blen (x ++ 34%N :: a ++ [z])) by (rewrite blen_app; cbn [blen]; rewrite blen_app; cbn [blen]; change (utf8_len 34%N) with 1; lia).
    rewrite byte_at. reflexivity. }
  replace (x ++ (34%N :: a) ++ z :: 34%N :: q) with ((x ++ [34%N]) ++ (a ++ [z]) ++ 34%N :: q) by (cbn [app]; rewrite <- !app_assoc; reflexivity).
  replace (blen x + 1) with (blen (x ++ [34%N])) by (rewrite blen_app; reflexivity).
  rewrite slice_mid by (rewrite !blen_app; cbn [blen]; change (utf8_len 34%N) with 1; lia).
  f_equal. cbn [blen]. rewrite !blen_app. cbn [blen]. change (utf8_len 34%N) with 1. lia.
Qed.

(** ** Names *)
Lemma symbol_take (x a q : str) z : (forall c r, a ++ [z] = c :: r -> is_numeric c = false) -> Forall (fun c => ~ Break c) (a ++ [z]) -> ends_word q ->
  consume_while (stateless (fun o c => ((o =? 0) && is_symbol_start unum c) || ((0 <? o) && is_symbolic c))) tt (x ++ a ++ z :: q) (blen x) = Some (blen x + blen a, z).
Proof.
  intros Hn Hs Hq. apply consume_take.
  - intros [|d a1] c a2 E.
    + cbn [app] in E. pose proof (Hn _ _ E) as Hn'. rewrite E in Hs. inversion Hs as [|? ? Hc _]; subst. apply not_Break in Hc.
      unfold is_symbol_start. now rewrite Hn', Hc.
    + rewrite E in Hs. cbn [app] in Hs. inversion Hs as [|? ? _ Hs']; subst. apply Forall_app in Hs' as [_ Hs']. inversion Hs' as [|? ? Hc _]; subst.
      apply not_Break in Hc. rewrite Hc. cbn [blen]. replace (0 <? utf8_len d + blen a1) with true; [apply orb_true_r|]. symmetry. apply Nat.ltb_lt. pose proof (utf8_len_pos d). lia.
  - destruct q as [|c q]; [exact I|]. cbn [ends_word] in Hq. assert (is_symbolic c = false) as E. { destruct (is_symbolic c) eqn:E; [|reflexivity]. apply not_Break in E. now destruct E. }
    unfold is_symbol_start. rewrite E. now rewrite !andb_false_r.
Qed.
Lemma symbol_read (x s q : str) : last_ascii s -> (forall c r, s = c :: r -> is_numeric c = false) -> Forall (fun c => ~ Break c) s -> ends_word q ->
  symbol unum (x ++ s ++ q) (blen x) = Good (VSymbol s) (blen x + blen s).
Proof.
  intros (a & z & -> & Hz) Hn Hs Hq. unfold symbol.
  assert (utf8_len z = 1) as Lz by now apply utf8_ascii.
  replace (x ++ (a ++ [z]) ++ q) with (x ++ a ++ z :: q) by (rewrite <- !app_assoc; reflexivity).
  rewrite (symbol_take x a q z Hn Hs Hq).
  replace (x ++ a ++ z :: q) with (x ++ (a ++ [z]) ++ q) by (rewrite <- !app_assoc; reflexivity).
  rewrite slice_mid by (rewrite blen_app; cbn [blen]; lia). f_equal. rewrite blen_app. cbn [blen]. lia.
Qed.
Lemma name_read (x s q : str) : Name unum s -> ends_word q -> atoms (x ++ s ++ q) (blen x) = Good (VSymbol s) (blen x + blen s).
Proof.
  intros (Hl & Hs & Hh & Hm & Hk) Hq. unfold atoms.
  assert (forall w, In w [lit "nil"; lit "t"; lit "f"] -> str_eqb (lower s) w = false) as K.
  { intros w Hw. apply str_eqb_neq. intros E. apply Hk. now rewrite E. }
  rewrite (keyword_word (lit "nil")) by (auto using letters_nil). rewrite (keyword_word (lit "f")) by (auto using letters_f). rewrite (keyword_word (lit "t")) by (auto using letters_t).
  rewrite !K by (cbn [In]; auto). cbn [orelse].
  destruct s as [|c s]; [destruct Hl as ([|] & ? & E & _); discriminate|].
  destruct (Hh c s eq_refl) as [H1 H2].
  assert (number unum (x ++ (c :: s) ++ q) (blen x) = NoParse) as ->.
  { cbn [app]. destruct (N.eq_dec c 45) as [->|Hc]; [|apply number_no; now split].
    apply number_minus. destruct s as [|d s]; cbn [app]; [|now apply (Hm d s)]. destruct q as [|d q]; [exact I|]. now apply Break_numeric. }
  rewrite string_no by exact H2. cbn [orelse]. apply symbol_read; auto. intros d r E. now apply (Hh d r E).
Qed.

Scheme Writes_mut := Minimality for Writes Sort Prop with Items_mut := Minimality for Items Sort Prop.
Combined Scheme Writes_Items_ind from Writes_mut, Items_mut.

Lemma not_ws c : (33 <= c < 128)%N -> is_whitespace c = false.
Proof. intros H. destruct (is_whitespace c) eqn:E; [|reflexivity]. apply ws_range in E. lia. Qed.
Definition starts (s : str) : Prop := exists c r, s = c :: r /\ is_whitespace c = false /\ c <> 59%N /\ c <> 41%N.
Lemma starts_lower s d w : lower s = d :: w -> (97 <= d <= 122)%N -> starts s.
Proof.
  destruct s as [|c s]; [discriminate|]. cbn [lower map]. intros [= E _] H. exists c, s. split; [reflexivity|].
  unfold lower_char in E. destruct (((65 <=? c) && (c <=? 90))%N) eqn:E1; [rewrite andb_true_iff, !N.leb_le in E1|]; (split; [apply not_ws; lia|lia]).
Qed.
Lemma starts_Dec s n (t : str) : Dec s n -> starts (s ++ t).
Proof.
  intros H. apply Dec_digits in H as (A & B & _). destruct s as [|c s]; [congruence|]. inversion B as [|? ? Hc _]; subst. apply digit_range in Hc.
  exists c, (s ++ t). split; [reflexivity|]. split; [apply not_ws; lia|lia].
Qed.
Lemma Writes_starts v s : Writes unum v s -> starts s.
Proof.
  destruct 1 as [s H|s H|s H|s n H Hi|s n H Hi|a b m n Ha Hb|s Hl Hs|s H|v s H|v s H|l g s Hg Hl].
  - now apply (starts_lower s 116%N []).
  - now apply (starts_lower s 102%N []).
  - now apply (starts_lower s 110%N [105;108]%N).
  - rewrite <- (app_nil_r s). now apply (starts_Dec s n).
  - exists (chr "-"), s. repeat split; discriminate.
  - now apply (starts_Dec a m).
  - exists 34%N, (s ++ [34%N]). repeat split; discriminate.
  - destruct H as (Hl & Hs & Hh & _). destruct s as [|c s]; [destruct Hl as ([|] & ? & E & _); discriminate|]. exists c, s. split; [reflexivity|].
    inversion Hs as [|? ? Hc _]; subst. destruct (is_whitespace c) eqn:E; [destruct Hc; now left|]. split; [reflexivity|].
    split; intros ->; apply Hc; right; apply special_iff; reflexivity.
  - exists (chr "'"), s. repeat split; discriminate.
  - exists (chr ","), s. repeat split; discriminate.
  - exists (chr "("), (g ++ s ++ [chr ")"]). repeat split; discriminate.
Qed.
Lemma starts_len s : starts s -> 1 <= blen s.
Proof. intros (c & r & -> & _). cbn [blen]. pose proof (utf8_len_pos c). lia. Qed.
Lemma starts_no_gap s (t : str) : starts s -> no_gap (s ++ t).
Proof. intros (c & r & -> & A & B & _). now split. Qed.

(** a word that is one of the keywords *)
Lemma lower_word (s w : str) : Forall (fun c => (97 <= c <= 122)%N) w -> lower s = w -> Forall (fun c => ~ Break c) s /\ (forall c r, s = c :: r -> (65 <= c <= 90 \/ 97 <= c <= 122)%N).
Proof.
  intros H E. assert (Forall (fun c => (65 <= c <= 90 \/ 97 <= c <= 122)%N) s) as Hs.
  { subst w. induction s as [|c s IH]; [constructor|]. cbn [lower map] in H. inversion H as [|? ? H1 H2]; subst. constructor; [|now apply IH].
    unfold lower_char in H1. destruct (((65 <=? c) && (c <=? 90))%N) eqn:E1; [rewrite andb_true_iff, !N.leb_le in E1|]; lia. }
  split.
  - eapply Forall_impl; [|exact Hs]. intros c Hc B. cbv beta in Hc. apply Break_range in B. lia.
  - intros c r ->. now inversion Hs.
Qed.
Lemma keyword_read (w s x q : str) f : In w [lit "nil"; lit "t"; lit "f"] -> lower s = w -> ends_word q ->
  expr unum (S f) (x ++ s ++ q) (blen x) = Good (if str_eqb w (lit "nil") then VList [] else if str_eqb w (lit "t") then VTrue else VFalse) (blen x + blen s).
Proof.
  intros Hw E Hq.
  assert (Forall (fun c => (97 <= c <= 122)%N) w) as HL. { destruct Hw as [<-|[<-|[<-|[]]]]; [exact letters_nil|exact letters_t|exact letters_f]. }
  destruct (lower_word s w HL E) as [Hs Hh].
  destruct s as [|c s]; [destruct Hw as [<-|[<-|[<-|[]]]]; discriminate|]. specialize (Hh c s eq_refl).
  change (x ++ (c :: s) ++ q) with (x ++ c :: s ++ q). rewrite expr_atom by lia. change (x ++ c :: s ++ q) with (x ++ (c :: s) ++ q). unfold atoms.
  rewrite (keyword_word (lit "nil")) by (auto using letters_nil). rewrite (keyword_word (lit "f")) by (auto using letters_f). rewrite (keyword_word (lit "t")) by (auto using letters_t).
  rewrite E. destruct Hw as [<-|[<-|[<-|[]]]]; reflexivity.
Qed.

Lemma expr_close f (x q : str) : expr unum (S f) (x ++ chr ")" :: q) (blen x) = NoParse.
Proof.
  rewrite expr_atom by discriminate. rewrite atoms_head by (change (chr ")") with 41%N; lia).
  rewrite number_no by (split; [reflexivity|discriminate]). rewrite string_no by discriminate. cbn [orelse].
  unfold symbol. rewrite consume_none; [reflexivity|]. reflexivity.
Qed.

Lemma members_S f code i acc : members unum (S f) code i acc =
  match expr unum f code i with
  | Good v j => members unum f code (skip_gap code j) (v :: acc)
  | NoParse => match consume code i (lit ")") with Some j => Good (VList (rev acc)) j | None => Bad end
  | r => r
  end.
Proof. reflexivity. Qed.

(** only lists and strings are closed *)
Lemma word_open (s : str) : Forall (fun c => ~ Break c) s -> (forall r, s <> 34%N :: r) -> ~ closed s.
Proof.
  intros H1 H2 [(a & ->)|(r & E)]; [|now apply (H2 r)]. apply Forall_app in H1 as [_ H1]. inversion H1 as [|? ? Hc _]; subst. apply Hc. right. apply special_iff. reflexivity.
Qed.
Lemma lower_open s w : In w [lit "nil"; lit "t"; lit "f"] -> lower s = w -> ~ closed s.
Proof.
  intros Hw E. assert (Forall (fun c => (97 <= c <= 122)%N) w) as HL. { destruct Hw as [<-|[<-|[<-|[]]]]; [exact letters_nil|exact letters_t|exact letters_f]. }
  destruct (lower_word s w HL E) as [A B]. apply word_open; [exact A|]. intros r ->. specialize (B _ _ eq_refl). lia.
Qed.
Lemma digits_open (a b : str) : Forall (fun c => is_digit c = true \/ c = 45%N \/ c = 46%N) (a ++ b) -> ~ closed (a ++ b).
Proof.
  intros H. apply word_open.
  - eapply Forall_impl; [|exact H]. intros c Hc B. cbv beta in Hc. destruct Hc as [Hc|Hc]; [apply digit_range in Hc|]; apply Break_range in B; lia.
  - intros r E. rewrite E in H. inversion H as [|? ? Hc _]; subst. destruct Hc as [Hc|[Hc|Hc]]; discriminate.
Qed.
Lemma Dec_open s n (a : str) : Dec s n -> a = [] \/ a = [chr "-"] -> ~ closed (a ++ s).
Proof.
  intros H Ha. apply Dec_digits in H as (_ & B & _). apply digits_open. apply Forall_app. split; [destruct Ha as [->| ->]; repeat constructor; right; now left|].
  eapply Forall_impl; [|exact B]. intros c Hc. now left.
Qed.
Lemma float_open a b m n : Dec a m -> Dec b n -> ~ closed (a ++ chr "." :: b).
Proof.
  intros Ha Hb. apply Dec_digits in Ha as (_ & Ha & _). apply Dec_digits in Hb as (_ & Hb & _). apply digits_open. apply Forall_app. split; [|constructor; [right; now right|]].
  - eapply Forall_impl; [|exact Ha]. intros c Hc. now left.
  - eapply Forall_impl; [|exact Hb]. intros c Hc. now left.
Qed.
Lemma closed_tail (c : char) (s : str) : c <> 34%N -> c <> 41%N -> closed (c :: s) -> closed s.
Proof.
  intros H1 H2 [([|d a] & E)|(r & E)].
  - apply (f_equal (hd 0%N)) in E. now destruct (H2 E).
  - apply (f_equal (@tl char)) in E. left. now exists a.
  - apply (f_equal (hd 0%N)) in E. now destruct (H1 E).
Qed.

Theorem Writes_read :
  (forall v s, Writes unum v s -> forall (x q : str) f, ends_word q \/ closed s -> 2 * blen s + 1 <= f -> expr unum f (x ++ s ++ q) (blen x) = Good v (blen x + blen s)) /\
  (forall l s, Items unum l s -> (s = [] \/ starts s) /\ forall (x q : str) f acc, 2 * blen s + 2 <= f -> members unum f (x ++ s ++ chr ")" :: q) (blen x) acc = Good (VList (rev acc ++ l)) (blen x + blen s + 1)).
Proof.
  apply Writes_Items_ind.
  - intros s H x q [|f] [Hq|Hq] Hf; [lia|lia| |now apply (lower_open s (lit "t")) in Hq; [| cbn [In]; auto|]]. now rewrite (keyword_read (lit "t") s x q f) by (cbn [In]; auto).
  - intros s H x q [|f] [Hq|Hq] Hf; [lia|lia| |now apply (lower_open s (lit "f")) in Hq; [| cbn [In]; auto|]]. now rewrite (keyword_read (lit "f") s x q f) by (cbn [In]; auto).
  - intros s H x q [|f] [Hq|Hq] Hf; [lia|lia| |now apply (lower_open s (lit "nil")) in Hq; [| cbn [In]; auto|]]. now rewrite (keyword_read (lit "nil") s x q f) by (cbn [In]; auto).
  - intros s n H Hi x q [|f] [Hq|Hq] Hf; [lia|lia| |now apply (Dec_open s n [] H (or_introl eq_refl)) in Hq]. pose proof (parse_i64_nat s n H Hi) as Hp. apply Dec_digits in H as (A & B & _).
    destruct (split_last s A) as (a & z & ->). pose proof (proj1 (Forall_app _ _ _) B) as [B1 B2]. inversion B2 as [|? ? Hz _]; subst.
    assert (exists c r, a ++ [z] = c :: r /\ is_digit c = true) as (c & r & E & Hc).
    { destruct a as [|c a]; [now exists z, []|]. inversion B1; subst. now exists c, (a ++ [z]). }
    pose proof (digit_range c Hc). rewrite E. change (x ++ (c :: r) ++ q) with (x ++ c :: r ++ q). rewrite expr_atom by lia. rewrite atoms_head by lia.
    change (x ++ c :: r ++ q) with (x ++ (c :: r) ++ q). rewrite <- E.
    rewrite (number_int x (a ++ [z]) q z (Z.of_N n) Hp); [reflexivity| |exact Hz|exact Hq].
    exists a. split; [reflexivity|]. split; [|intros d t ->; right; now inversion B1]. destruct a; cbn [tl app]; [constructor|]. now inversion B.
  - intros s n H Hi x q [|f] [Hq|Hq] Hf; [lia|lia| |now apply (Dec_open s n [chr "-"] H (or_intror eq_refl)) in Hq]. pose proof (parse_i64_neg s n H Hi) as Hp. apply Dec_digits in H as (A & B & _).
    change (x ++ (chr "-" :: s) ++ q) with (x ++ chr "-" :: s ++ q). rewrite expr_atom by discriminate. rewrite atoms_head by (change (chr "-") with 45%N; lia).
    change (x ++ chr "-" :: s ++ q) with (x ++ (chr "-" :: s) ++ q).
    destruct (split_last s A) as (a & z & ->). pose proof (proj1 (Forall_app _ _ _) B) as [B1 B2]. inversion B2 as [|? ? Hz _]; subst.
    rewrite (number_int x (chr "-" :: a ++ [z]) q z (- Z.of_N n)%Z Hp); [reflexivity| |exact Hz|exact Hq].
    exists (chr "-" :: a). split; [reflexivity|]. split; [exact B|]. intros c r [= <- _]. now left.
  - intros a b m n Ha Hb x q [|f] [Hq|Hq] Hf; [lia|lia| |now apply (float_open a b m n Ha Hb) in Hq].
    pose proof (Dec_digits a m Ha) as (A & B & _). destruct a as [|c a]; [congruence|]. inversion B as [|? ? Hc _]; subst. pose proof (digit_range c Hc).
    change (x ++ ((c :: a) ++ chr "." :: b) ++ q) with (x ++ c :: (a ++ chr "." :: b) ++ q). rewrite expr_atom by lia. rewrite atoms_head by lia.
    change (x ++ c :: (a ++ chr "." :: b) ++ q) with (x ++ ((c :: a) ++ chr "." :: b) ++ q).
    rewrite (number_float x (c :: a) b q m n Ha Hb Hq). reflexivity.
  - intros s Hl Hs x q [|f] Hq Hf; [lia|].
    change (x ++ (34%N :: s ++ [34%N]) ++ q) with (x ++ 34%N :: (s ++ [34%N]) ++ q). rewrite expr_atom by discriminate. rewrite atoms_head by lia.
    rewrite number_no by (split; [reflexivity|discriminate]).
    change (x ++ 34%N :: (s ++ [34%N]) ++ q) with (x ++ (34%N :: s ++ [34%N]) ++ q). rewrite string_read by assumption. reflexivity.
  - intros s H x q [|f] [Hq|Hq] Hf; [lia|lia| |apply word_open in Hq; [destruct Hq|apply H|intros r ->; destruct H as (_ & _ & Hh & _); now destruct (Hh _ _ eq_refl)]]. rewrite <- (name_read x s q H Hq).
    destruct H as (Hl & Hs & Hh & _). destruct s as [|c s]; [destruct Hl as ([|] & ? & E & _); discriminate|]. inversion Hs as [|? ? Hc _]; subst.
    cbn [app]. apply expr_atom; intros ->; apply Hc; right; apply special_iff; reflexivity.
  - intros v s H IH x q [|f] Hq Hf; [lia|]. assert (ends_word q \/ closed s) as Hq' by (destruct Hq as [Hq|Hq]; [now left|right; now apply closed_tail in Hq]). cbn [blen] in Hf. change (utf8_len (chr "'")) with 1 in Hf.
    cbn [app expr]. rewrite !consume_at. change (lit "(") with [40%N]. change (lit "'") with [39%N]. rewrite !prefix1 by lia.
    change (40 =? chr "'")%N with false. change (39 =? chr "'")%N with true. cbv iota.
    replace (blen x + blen [39%N]) with (blen (x ++ [39%N])) by apply blen_app.
    replace (x ++ chr "'" :: s ++ q) with ((x ++ [39%N]) ++ s ++ q) by (rewrite <- app_assoc; reflexivity).
    rewrite IH by (try assumption; lia). cbn [wrap orelse]. f_equal. rewrite blen_app. cbn [blen]. change (utf8_len (chr "'")) with 1. change (utf8_len 39%N) with 1. lia.
  - intros v s H IH x q [|f] Hq Hf; [lia|]. assert (ends_word q \/ closed s) as Hq' by (destruct Hq as [Hq|Hq]; [now left|right; now apply closed_tail in Hq]). cbn [blen] in Hf. change (utf8_len (chr ",")) with 1 in Hf.
    cbn [app expr]. rewrite !consume_at. change (lit "(") with [40%N]. change (lit "'") with [39%N]. change (lit ",") with [44%N]. rewrite !prefix1 by lia.
    change (40 =? chr ",")%N with false. change (39 =? chr ",")%N with false. change (44 =? chr ",")%N with true. cbv iota.
    replace (blen x + blen [44%N]) with (blen (x ++ [44%N])) by apply blen_app.
    replace (x ++ chr "," :: s ++ q) with ((x ++ [44%N]) ++ s ++ q) by (rewrite <- app_assoc; reflexivity).
    rewrite IH by (try assumption; lia). cbn [wrap orelse]. f_equal. rewrite blen_app. cbn [blen]. change (utf8_len (chr ",")) with 1. change (utf8_len 44%N) with 1. lia.
  - intros l g s Hg Hl (Hs & IH) x q [|f] Hq Hf; [lia|]. cbn [blen] in Hf. rewrite !blen_app in Hf. cbn [blen] in Hf. change (utf8_len (chr "(")) with 1 in Hf. change (utf8_len (chr ")")) with 1 in Hf.
    cbn [app expr]. rewrite consume_at. change (lit "(") with [40%N]. rewrite prefix1 by lia. change (40 =? chr "(")%N with true. cbv iota.
    replace (blen x + blen [40%N]) with (blen (x ++ [40%N])) by apply blen_app.
    replace (x ++ chr "(" :: (g ++ s ++ [chr ")"]) ++ q) with ((x ++ [40%N]) ++ g ++ s ++ chr ")" :: q) by (rewrite <- !app_assoc; reflexivity).
    rewrite skip_gap_app; [|exact Hg|destruct Hs as [->|Hs]; [split; [reflexivity|discriminate]|now apply starts_no_gap]].
    replace ((x ++ [40%N]) ++ g ++ s ++ chr ")" :: q) with (((x ++ [40%N]) ++ g) ++ s ++ chr ")" :: q) by (rewrite <- !app_assoc; reflexivity).
    rewrite IH by lia. cbn [rev app]. f_equal. cbn [blen]. rewrite !blen_app. cbn [blen]. change (utf8_len (chr "(")) with 1. change (utf8_len (chr ")")) with 1. change (utf8_len 40%N) with 1. lia.
  - split; [now left|]. intros x q [|[|f]] acc Hf; [lia|cbn in Hf; lia|]. cbn [app]. rewrite members_S. rewrite expr_close. rewrite consume_at.
    change (lit ")") with [41%N]. rewrite prefix1 by lia. change (41 =? chr ")")%N with true. cbv iota. rewrite app_nil_r. f_equal. cbn [blen]. change (utf8_len 41%N) with 1. lia.
  - intros v s g Hv IH Hg. pose proof (Writes_starts v s Hv) as Hst. split; [right; destruct Hst as (c & r & -> & Hc); exists c, (r ++ g); now split|].
    intros x q [|f] acc Hf; [lia|]. rewrite blen_app in Hf. pose proof (starts_len s Hst). rewrite members_S.
    assert (ends_word (g ++ chr ")" :: q)) as Hew by (destruct Hg as [|c g Hc Ha Hg|u g Hu Hg]; [right; apply special_iff; reflexivity|now left|right; apply special_iff; reflexivity]).
    rewrite <- app_assoc. rewrite IH; [|now left|lia].
    rewrite <- blen_app. rewrite (app_assoc x s). rewrite skip_gap_app; [|exact Hg|split; [reflexivity|discriminate]].
    destruct f as [|[|f]]; [lia|lia|]. rewrite members_S. rewrite (app_assoc (x ++ s) g). rewrite expr_close. rewrite consume_at.
    change (lit ")") with [41%N]. rewrite prefix1 by lia. change (41 =? chr ")")%N with true. cbv iota. cbn [rev]. f_equal. rewrite !blen_app. cbn [blen]. change (utf8_len 41%N) with 1. lia.
  - intros v s g l t Hv IH Hg Hs Hl (Ht & IHt). pose proof (Writes_starts v s Hv) as Hst. split; [right; destruct Hst as (c & r & -> & Hc); exists c, (r ++ g ++ t); now split|].
    intros x q [|f] acc Hf; [lia|]. rewrite !blen_app in Hf. pose proof (starts_len s Hst). rewrite members_S.
    assert (ends_word (g ++ t ++ chr ")" :: q) \/ closed s) as Hew.
    { destruct Hg as [|c g Hc Ha Hg|u g Hu Hg]; [|left; now left|left; right; apply special_iff; reflexivity]. destruct (Hs eq_refl) as [Hcl|(c & r & -> & Hc)]; [now right|]. left. cbn [app ends_word]. right.
      change (lit "(',") with [40;39;44]%N in Hc. change (lit "()',;") with [40;41;39;44;59]%N. cbn [In] in *. tauto. }
    replace (x ++ (s ++ g ++ t) ++ chr ")" :: q) with (x ++ s ++ g ++ t ++ chr ")" :: q) by (rewrite <- !app_assoc; reflexivity).
    rewrite IH; [|exact Hew|lia].
    rewrite <- blen_app. rewrite (app_assoc x s). rewrite skip_gap_app; [|exact Hg|destruct Ht as [->|Ht]; [split; [reflexivity|discriminate]|now apply starts_no_gap]].
    rewrite (app_assoc (x ++ s) g). rewrite IHt by lia. cbn [rev]. rewrite <- app_assoc. f_equal. rewrite !blen_app. lia.
Qed.
End Numeric.
