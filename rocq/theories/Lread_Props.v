(** C38, C80, C81: what the Lisp reader makes of a text. *)
From Verif Require Import Base Numerals Lread_Model Lread_Spec Lread_Proofs.

Section Numeric.
Variable unum : char -> bool.

(** ** The reader always ends *)
Lemma from_nonempty code i c r : from code i = c :: r -> i < blen code.
Proof.
  unfold from. destruct (split_byte code i) as [[p q]|] eqn:E; [|discriminate]. intros ->. apply split_byte_sound in E as [-> <-].
  rewrite blen_app. cbn [blen]. pose proof (utf8_len_pos c). lia.
Qed.
Lemma consume_progress code i w j : w <> [] -> consume code i w = Some j -> i < blen code /\ i < j.
Proof.
  intros Hw. unfold consume. destruct w as [|a w]; [congruence|]. destruct (from code i) as [|c r] eqn:E; [discriminate|].
  destruct (prefix_ci _ _); [|discriminate]. intros [= <-]. split; [eapply from_nonempty; exact E|]. cbn [blen]. pose proof (utf8_len_pos a). lia.
Qed.
Lemma consume_while_progress {A} (p : A -> nat -> char -> bool * A) st code i l c : consume_while p st code i = Some (l, c) -> i < blen code /\ i <= l.
Proof.
  unfold consume_while. destruct (from code i) as [|d r] eqn:E; [discriminate|]. destruct (while_last _ _ _ _ _) as [[o z]|]; [|discriminate].
  intros [= <- _]. split; [eapply from_nonempty; exact E|lia].
Qed.
Lemma keyword_progress code i w v v' j : w <> [] -> keyword code i w v = Good v' j -> i < blen code /\ i < j.
Proof.
  intros Hw. unfold keyword. destruct (consume code i w) eqn:E; [|discriminate]. destruct (next_is_break _ _); [|discriminate]. intros [= _ <-]. eapply consume_progress; [exact Hw|exact E].
Qed.
Lemma keyword_fuel code i w v : keyword code i w v <> OutOfFuel.
Proof. unfold keyword. destruct (consume code i w); [destruct (next_is_break _ _)|]; discriminate. Qed.
Lemma number_progress code i v j : number unum code i = Good v j -> i < blen code /\ i < j.
Proof.
  unfold number. destruct (consume_while _ _ code i) as [[l c]|] eqn:E; [|discriminate]. apply consume_while_progress in E as [E1 E2].
  destruct (is_numeric unum c); [|discriminate]. cbv zeta.
  set (int := if next_is_break code (S l) then _ else _).
  assert (int = Good v j -> i < blen code /\ i < j) as Hint.
  { unfold int. destruct (next_is_break _ _); [|discriminate]. destruct (parse_i64 _); [|discriminate]. intros [= _ <-]. split; [exact E1|lia]. }
  clearbody int. destruct (consume_while _ _ code (S l)) as [[b d]|] eqn:E3; [|exact Hint]. apply consume_while_progress in E3 as [E3 E4].
  destruct (S l + 2 <=? S b).
  - destruct (next_is_break _ _); [|exact Hint]. destruct (parse_float _); [|exact Hint]. intros [= _ <-]. split; [exact E1|lia].
  - destruct (byte_is _ _ _); [discriminate|exact Hint].
Qed.
Lemma number_fuel code i : number unum code i <> OutOfFuel.
Proof.
  unfold number. destruct (consume_while _ _ code i) as [[l c]|]; [|discriminate]. destruct (is_numeric unum c); [|discriminate]. cbv zeta.
  set (int := if next_is_break code (S l) then _ else _).
  assert (int <> OutOfFuel) as Hint. { unfold int. destruct (next_is_break _ _); [destruct (parse_i64 _)|]; discriminate. }
  clearbody int. destruct (consume_while _ _ code (S l)) as [[b d]|]; [|exact Hint].
  destruct (S l + 2 <=? S b); [destruct (next_is_break _ _); [destruct (parse_float _); [discriminate|exact Hint]|exact Hint]|destruct (byte_is _ _ _); [discriminate|exact Hint]].
Qed.
Lemma string_progress code i v j : string_atom code i = Good v j -> i < blen code /\ i < j.
Proof.
  unfold string_atom. destruct (consume_while _ _ code i) as [[l c]|] eqn:E; [|discriminate]. apply consume_while_progress in E as [E1 E2].
  destruct (i <? l); [|discriminate]. destruct (byte_is _ _ _); [|discriminate]. intros [= _ <-]. split; [exact E1|lia].
Qed.
Lemma string_fuel code i : string_atom code i <> OutOfFuel.
Proof. unfold string_atom. destruct (consume_while _ _ code i) as [[l c]|]; [|discriminate]. destruct (i <? l); [destruct (byte_is _ _ _)|]; discriminate. Qed.
Lemma symbol_progress code i v j : symbol unum code i = Good v j -> i < blen code /\ i < j.
Proof.
  unfold symbol. destruct (consume_while _ _ code i) as [[l c]|] eqn:E; [|discriminate]. apply consume_while_progress in E as [E1 E2].
  intros [= _ <-]. split; [exact E1|lia].
Qed.
Lemma symbol_fuel code i : symbol unum code i <> OutOfFuel.
Proof. unfold symbol. destruct (consume_while _ _ code i) as [[l c]|]; discriminate. Qed.
Lemma skip_gap_ge code i : i <= skip_gap code i.
Proof. unfold skip_gap. destruct (consume_while _ _ code i) as [[l c]|] eqn:E; [|lia]. apply consume_while_progress in E. lia. Qed.

Lemma orelse_good a b v j : orelse a b = Good v j -> a = Good v j \/ b = Good v j.
Proof. destruct a; cbn; auto. Qed.
Lemma orelse_fuel a b : a <> OutOfFuel -> b <> OutOfFuel -> orelse a b <> OutOfFuel.
Proof. destruct a; cbn; auto. Qed.
Lemma expr_S f code i : expr unum (S f) code i =
  match consume code i (lit "(") with
  | Some j => members unum f code (skip_gap code j) []
  | None =>
      orelse (match consume code i (lit "'") with Some j => wrap (lit "quote") (expr unum f code j) | None => NoParse end)
     (orelse (match consume code i (lit ",") with Some j => wrap (lit "comma") (expr unum f code j) | None => NoParse end)
     (atoms unum code i))
  end.
Proof. reflexivity. Qed.
Lemma atoms_progress code i v j : atoms unum code i = Good v j -> i < blen code /\ i < j.
Proof.
  unfold atoms. intros H. repeat (apply orelse_good in H as [H|H]); try (eapply keyword_progress; [|exact H]; discriminate).
  - eapply number_progress; exact H.
  - eapply string_progress; exact H.
  - eapply symbol_progress; exact H.
Qed.
Lemma atoms_fuel code i : atoms unum code i <> OutOfFuel.
Proof. unfold atoms. repeat apply orelse_fuel; auto using keyword_fuel, number_fuel, string_fuel, symbol_fuel. Qed.
Lemma expr_progress code f : (forall i v j, expr unum f code i = Good v j -> i < blen code /\ i < j) /\ (forall i acc v j, members unum f code i acc = Good v j -> i < blen code /\ i < j).
Proof.
  induction f as [|f [IHe IHm]]; [split; discriminate|]. split.
  - intros i v j. rewrite expr_S. destruct (consume code i (lit "(")) as [k|] eqn:E.
    + intros H. apply consume_progress in E as [E1 E2]; [|discriminate]. apply IHm in H. pose proof (skip_gap_ge code k). lia.
    + intros H. apply orelse_good in H as [H|H].
      { destruct (consume code i (lit "'")) as [k|] eqn:E3; [|discriminate]. apply consume_progress in E3 as [E1 E2]; [|discriminate].
        destruct (expr unum f code k) eqn:E4; try discriminate. injection H as _ <-. apply IHe in E4. lia. }
      apply orelse_good in H as [H|H]; [|eapply atoms_progress; exact H].
      destruct (consume code i (lit ",")) as [k|] eqn:E3; [|discriminate]. apply consume_progress in E3 as [E1 E2]; [|discriminate].
      destruct (expr unum f code k) eqn:E4; try discriminate. injection H as _ <-. apply IHe in E4. lia.
  - intros i acc v j. rewrite members_S. destruct (expr unum f code i) as [| |w k|] eqn:E; try discriminate.
    + destruct (consume code i (lit ")")) as [k|] eqn:E2; [|discriminate]. intros [= _ <-]. eapply consume_progress; [|exact E2]. discriminate.
    + intros H. apply IHe in E. apply IHm in H. pose proof (skip_gap_ge code k). lia.
Qed.
Lemma enough_fuel code f : (forall i, 2 * (blen code - i) + 1 <= f -> expr unum f code i <> OutOfFuel) /\ (forall i acc, 2 * (blen code - i) + 2 <= f -> members unum f code i acc <> OutOfFuel).
Proof.
  induction f as [|f [IHe IHm]]; [split; lia|]. split.
  - intros i Hf. rewrite expr_S. destruct (consume code i (lit "(")) as [k|] eqn:E.
    + apply consume_progress in E as [E1 E2]; [|discriminate]. pose proof (skip_gap_ge code k). apply IHm. lia.
    + assert (forall (w u : str) k, u <> [] -> consume code i u = Some k -> wrap w (expr unum f code k) <> OutOfFuel) as W.
      { intros w u k Hu E2. apply consume_progress in E2 as [E2 E3]; [|exact Hu]. pose proof (IHe k) as X. destruct (expr unum f code k); cbn [wrap]; try discriminate. exfalso. apply X; [lia|reflexivity]. }
      apply orelse_fuel.
      { destruct (consume code i (lit "'")) as [k|] eqn:E2; [|discriminate]. eapply W; [|exact E2]. discriminate. }
      apply orelse_fuel; [|apply atoms_fuel].
      destruct (consume code i (lit ",")) as [k|] eqn:E2; [|discriminate]. eapply W; [|exact E2]. discriminate.
  - intros i acc Hf. rewrite members_S. destruct (expr unum f code i) as [| |w k|] eqn:E; try discriminate.
    + destruct (consume code i (lit ")")); discriminate.
    + apply (expr_progress code f) in E. pose proof (skip_gap_ge code k). apply IHm. lia.
    + exfalso. apply (IHe i); [lia|exact E].
Qed.
Theorem C38_reading_ends code : first unum code <> Some OutOfFuel.
Proof.
  unfold first. pose proof (proj1 (enough_fuel code (enough code)) (skip_gap code 0)) as H. destruct (expr _ _ _ _) eqn:E; try discriminate.
  - destruct (_ <? _); discriminate.
  - exfalso. apply H; [unfold enough; lia|reflexivity].
Qed.

(** ** Reading what was written *)
Theorem C38_written_text_is_read v (g s q : str) : Gap g -> Writes unum v s -> ends_word q ->
  first unum (g ++ s ++ q) = Some (Good v (blen (g ++ s))).
Proof.
  intros Hg Hs Hq. unfold first. pose proof (Writes_starts unum v s Hs) as Hst.
  change 0 with (blen []). rewrite <- (app_nil_l (g ++ s ++ q)). rewrite skip_gap_app; [|exact Hg|now apply starts_no_gap].
  cbn [app]. rewrite (proj1 (Writes_read unum) v s Hs g q); [|now left|unfold enough; rewrite !blen_app; lia]. now rewrite blen_app.
Qed.

(** *** printing *)
Lemma digits_Dec f n : (n < 10 ^ N.of_nat f)%N -> f <> 0 -> Dec (digits f n) n.
Proof.
  revert n. induction f as [|f IH]; intros n Hn Hf; [congruence|]. cbn [digits]. destruct (n <? 10)%N eqn:E.
  - apply N.ltb_lt in E. now constructor.
  - apply N.ltb_ge in E. rewrite (N.div_mod n 10) at 3 by discriminate. apply Dec_more; [|apply N.mod_lt; discriminate].
    apply IH.
    + apply N.div_lt_upper_bound; [discriminate|]. rewrite <- N.pow_succ_r'. now rewrite <- Nat2N.inj_succ.
    + intros ->. cbn in Hn. lia.
Qed.
Lemma show_nat_Dec n : Dec (show_nat n) n.
Proof.
  apply digits_Dec; [|discriminate]. pose proof (N.size_gt n) as H.
  assert (N.size n = N.of_nat (N.size_nat n)) as E. { destruct n as [|p]; [reflexivity|]. unfold N.size, N.size_nat. clear H. induction p as [p IH|p IH|]; cbn [Pos.size_nat Pos.size]; [| |reflexivity]; rewrite Nat2N.inj_succ, <- IH; reflexivity. }
  rewrite E in H. eapply N.lt_le_trans; [exact H|]. rewrite Nat2N.inj_succ.
  etransitivity; [apply (N.pow_le_mono_l 2 10); lia|]. apply N.pow_le_mono_r; lia.
Qed.
Lemma value_ind' (P : value -> Prop) : P VTrue -> P VFalse -> (forall z, P (VInt z)) -> (forall t, P (VFloat t)) -> (forall s, P (VString s)) -> (forall s, P (VSymbol s)) ->
  (forall l, Forall P l -> P (VList l)) -> forall v, P v.
Proof.
  intros H1 H2 H3 H4 H5 H6 H7. fix IH 1. intros [| |z|t|s|s|l]; [exact H1|exact H2|exact (H3 z)|exact (H4 t)|exact (H5 s)|exact (H6 s)|]. apply H7. exact ((fix go (l : list value) : Forall P l := match l with [] => Forall_nil P | x :: r => Forall_cons x (IH x) (go r) end) l).
Qed.
Lemma print_list x l : print (VList (x :: l)) = chr "(" :: print x ++ flat_map (fun y => chr " " :: print y) l ++ [chr ")"].
Proof. reflexivity. Qed.
Lemma print_Writes v : Plain unum v -> Writes unum v (print v).
Proof.
  induction v as [| |z|t|s|s|l IH] using value_ind'; intros H; inversion H as [| |? Hz|? Hn|? Hl]; subst.
  - now constructor.
  - now constructor.
  - cbn [print]. unfold show_int. destruct (z <? 0)%Z eqn:E.
    + apply Z.ltb_lt in E. replace (VInt z) with (VInt (- Z.of_N (Z.abs_N z))) by (f_equal; lia). apply W_neg; [apply show_nat_Dec|]. replace (- Z.of_N (Z.abs_N z))%Z with z by lia. exact Hz.
    + apply Z.ltb_ge in E. replace (VInt z) with (VInt (Z.of_N (Z.abs_N z))) by (f_equal; lia). apply W_nat; [apply show_nat_Dec|]. replace (Z.of_N (Z.abs_N z)) with z by lia. exact Hz.
  - now constructor.
  - destruct l as [|x l]; [now constructor|]. rewrite print_list. rewrite (app_assoc (print x)). apply (W_list unum (x :: l) []); [constructor|].
    clear H. revert x IH Hl. induction l as [|y l IHl]; intros x IH Hl.
    + inversion IH; inversion Hl; subst. cbn [flat_map]. apply I_last; [auto|constructor].
    + inversion IH as [|? ? P1 P2]; inversion Hl as [|? ? L1 L2]; subst. cbn [flat_map]. change ((chr " " :: print y) ++ flat_map (fun y0 => chr " " :: print y0) l) with ([chr " "] ++ print y ++ flat_map (fun y0 => chr " " :: print y0) l).
      apply I_cons; [auto|repeat constructor|discriminate|]. now apply IHl.
Qed.
Theorem C38_printed_value_is_read_partial v : Plain unum v -> first unum (print v) = Some (Good v (blen (print v))).
Proof.
  intros H. pose proof (C38_written_text_is_read v [] (print v) [] (G_nil) (print_Writes v H) I) as R. now rewrite app_nil_r in R.
Qed.

(** *** a name that ends in a character beyond ASCII *)
Definition Wide_name (s : str) : Prop :=
  (exists a z, s = a ++ [z] /\ ~ ascii z) /\ Forall (fun c => ~ Break c) s /\
  (forall c r, s = c :: r -> is_numeric unum c = false /\ c <> 34%N) /\ (forall c r, s = chr "-" :: c :: r -> is_numeric unum c = false).
Lemma wide_len z : ~ ascii z -> 2 <= utf8_len z.
Proof. unfold ascii, utf8_len. intros H. destruct (z <? 128)%N eqn:E; [apply N.ltb_lt in E; contradiction|]. destruct (z <? 2048)%N; [lia|]. destruct (z <? 65536)%N; lia. Qed.
Lemma split_inside (a r : str) z k : k < utf8_len z -> 0 < k -> split_byte (a ++ z :: r) (blen a + k) = None.
Proof.
  intros H1 H2. induction a as [|c a IH]; cbn [app blen].
  - cbn [split_byte]. destruct k as [|k]; [lia|]. cbn [Nat.add]. replace (utf8_len z <=? S k) with false by (symmetry; apply Nat.leb_gt; lia). reflexivity.
  - pose proof (utf8_len_pos c). replace (utf8_len c + blen a + k) with (S (utf8_len c + blen a + k - 1)) by lia. cbn [split_byte].
    replace (S (utf8_len c + blen a + k - 1)) with (utf8_len c + (blen a + k)) by lia.
    replace (utf8_len c <=? utf8_len c + (blen a + k)) with true by (symmetry; apply Nat.leb_le; lia).
    replace (utf8_len c + (blen a + k) - utf8_len c) with (blen a + k) by lia. now rewrite IH.
Qed.
Theorem C38_accented_name_refuted (s q : str) : Wide_name s -> ends_word q ->
  exists j, first unum (s ++ q) = Some (Good (VSymbol []) j).
Proof.
  intros ((a & z & -> & Hz) & Hs & Hh & Hm) Hq. unfold first.
  assert (exists c r, a ++ [z] = c :: r) as (c & r & E) by (destruct a; cbn; eauto).
  destruct (Hh c r E) as [Hc1 Hc2]. assert (~ Break c) as Hc. { rewrite E in Hs. now inversion Hs. }
  assert (no_gap ((a ++ [z]) ++ q)) as Hg. { rewrite E. cbn. split; [|intros ->; apply Hc; right; apply special_iff; reflexivity]. destruct (is_whitespace c) eqn:X; [destruct Hc; now left|reflexivity]. }
  pose proof (skip_gap_app [] [] ((a ++ [z]) ++ q) G_nil Hg) as Hk. cbn [app blen] in Hk. rewrite Hk.
  unfold enough. replace (2 * blen ((a ++ [z]) ++ q) + 3) with (S (2 * blen ((a ++ [z]) ++ q) + 2)) by lia.
  exists (S (blen a)).
  assert (forall (w : str) v, Forall (fun c => (97 <= c <= 122)%N) w -> keyword ((a ++ [z]) ++ q) 0 w v = NoParse) as K.
  { intros w v Hw. pose proof (keyword_word unum w v [] (a ++ [z]) q Hw Hs Hq) as X. cbn [app blen] in X. rewrite X. destruct (str_eqb_spec (lower (a ++ [z])) w) as [<-|_]; [|reflexivity].
    exfalso. unfold lower in Hw. rewrite map_app in Hw. apply Forall_app in Hw as [_ Hw]. cbn [map] in Hw. inversion Hw as [|? ? Hw' _]; subst. apply Hz. unfold ascii. unfold lower_char in Hw'.
    destruct (((65 <=? z) && (z <=? 90))%N) eqn:E3; [rewrite andb_true_iff, !N.leb_le in E3|]; lia. }
  assert (number unum ((a ++ [z]) ++ q) 0 = NoParse) as Hnum.
  { rewrite E. destruct (N.eq_dec c 45) as [->|Hd].
    - apply (number_minus unum []). destruct r as [|d r]; cbn [app]; [|now apply (Hm d r)]. destruct q as [|d q]; [exact I|]. now apply Break_numeric.
    - apply (number_no unum []). now split. }
  assert (string_atom ((a ++ [z]) ++ q) 0 = NoParse) as Hstr by (rewrite E; apply (string_no []); exact Hc2).
  assert (symbol unum ((a ++ [z]) ++ q) 0 = Good (VSymbol []) (S (blen a))) as Hsym.
  { unfold symbol. replace ((a ++ [z]) ++ q) with (a ++ z :: q) by (rewrite <- app_assoc; reflexivity).
    pose proof (symbol_take unum [] a q z (fun c r E => proj1 (Hh c r E)) Hs Hq) as X. cbn [app blen] in X. cbn [Nat.add] in X. rewrite X.
    f_equal. unfold slice. cbn [split_byte]. replace (split_byte (a ++ z :: q) 0) with (Some (@nil char, a ++ z :: q)) by now destruct a. replace (S (blen a) - 0) with (blen a + 1) by lia.
    rewrite split_inside; [reflexivity| |lia]. pose proof (wide_len z Hz). lia. }
  replace (expr unum (S (2 * blen ((a ++ [z]) ++ q) + 2)) ((a ++ [z]) ++ q) 0) with (atoms unum ((a ++ [z]) ++ q) 0).
  - unfold atoms. rewrite !K by (auto using letters_nil, letters_t, letters_f). cbn [orelse]. rewrite Hnum, Hstr, Hsym. reflexivity.
  - rewrite E. symmetry. apply (expr_atom unum _ [] (r ++ q) c); intros ->; apply Hc; right; apply special_iff; reflexivity.
Qed.

(** ** C80: strings *)
Theorem C80_string_is_read_partial (g s q : str) : Gap g -> last_ascii s -> ~ In 34%N s -> ends_word q ->
  first unum (g ++ (34%N :: s ++ [34%N]) ++ q) = Some (Good (VString s) (blen (g ++ 34%N :: s ++ [34%N]))).
Proof. intros Hg Hl Hs Hq. apply C38_written_text_is_read; [exact Hg|now constructor|exact Hq]. Qed.
Lemma enough_S code : enough code = S (2 * blen code + 2).
Proof. unfold enough. lia. Qed.
Lemma expr_string f (x r : str) : expr unum (S f) (x ++ 34%N :: r) (blen x) = orelse (string_atom (x ++ 34%N :: r) (blen x)) (symbol unum (x ++ 34%N :: r) (blen x)).
Proof. rewrite expr_atom by discriminate. rewrite atoms_head by lia. rewrite number_no by (split; [reflexivity|discriminate]). reflexivity. Qed.
Theorem C80_accented_string_refuted (g a q : str) (z : char) : Gap g -> ~ ascii z -> ~ In 34%N (a ++ [z]) ->
  first unum (g ++ (34%N :: (a ++ [z]) ++ [34%N]) ++ q) = Some Bad.
Proof.
  intros Hg Hz Hs.
  assert (g ++ (34%N :: (a ++ [z]) ++ [34%N]) ++ q = g ++ 34%N :: a ++ z :: 34%N :: q) as -> by (cbn [app]; rewrite <- !app_assoc; reflexivity).
  unfold first. pose proof (skip_gap_app [] g (34%N :: a ++ z :: 34%N :: q) Hg (conj eq_refl (fun H : 34%N = 59%N => ltac:(discriminate H)))) as Hk. cbn [app blen] in Hk. rewrite Hk.
  rewrite enough_S. rewrite expr_string. unfold string_atom.
  pose proof (string_take g a (34%N :: q) z Hs eq_refl) as X. cbn [app] in X. match type of X with ?l = _ => match goal with |- context [consume_while ?p ?s ?c ?i] => change (consume_while p s c i) with l end end. rewrite X. cbv iota beta. clear X.
  replace (blen g <? blen g + S (blen a)) with true by (symmetry; apply Nat.ltb_lt; lia).
  assert (byte_is (g ++ 34%N :: a ++ z :: 34%N :: q) (blen g + S (blen a) + 1) quote_char = false) as ->; [|reflexivity].
  unfold byte_is. pose proof (split_inside (g ++ 34%N :: a) (34%N :: q) z 1) as X. rewrite <- app_assoc in X. cbn [app] in X. rewrite blen_app in X. cbn [blen] in X. change (utf8_len 34%N) with 1 in X.
  change (S (blen a)) with (1 + blen a). match type of X with _ -> _ -> ?l = _ => match goal with |- context [split_byte ?c ?i] => change (split_byte c i) with l end end. rewrite X; [reflexivity| |lia]. pose proof (wide_len z Hz). lia.
Qed.
Theorem C80_empty_string_refuted (g q : str) : Gap g -> ends_word q ->
  first unum (g ++ [34;34]%N ++ q) = Some (Good (VSymbol [34;34]%N) (blen g + 2)).
Proof.
  intros Hg Hq. unfold first. pose proof (skip_gap_app [] g ([34;34]%N ++ q) Hg (conj eq_refl (fun H : 34%N = 59%N => ltac:(discriminate H)))) as Hk. cbn [app blen] in Hk. cbn [app]. rewrite Hk.
  rewrite enough_S.
  rewrite expr_string. replace (string_atom (g ++ 34%N :: 34%N :: q) (blen g)) with NoParse.
  - cbn [orelse]. pose proof (symbol_read unum g [34;34]%N q) as X. match goal with |- context [symbol unum ?c ?i] => match type of X with _ -> _ -> _ -> _ -> ?l = _ => change (symbol unum c i) with l end end. rewrite X; [reflexivity| | | |exact Hq].
    + exists [34%N], 34%N. now split.
    + now intros c r [= <- _].
    + constructor; [apply (proj2 (not_Break unum _)); reflexivity|]. constructor; [apply (proj2 (not_Break unum _)); reflexivity|constructor].
  - symmetry. unfold string_atom. rewrite (consume_take _ g [] (34%N :: q) 34%N).
    + cbn [blen]. rewrite Nat.add_0_r, Nat.ltb_irrefl. reflexivity.
    + intros [|b a1] d a2 E; [injection E as <- <-; reflexivity|destruct a1; discriminate].
    + reflexivity.
Qed.

(** ** C81: the configuration file *)
Lemma Gap_app g h : Gap g -> Gap h -> Gap (g ++ h).
Proof.
  induction 1 as [|c g Hc Ha Hg IH|t g Ht Hg IH]; intros Hh; [exact Hh|cbn [app]; constructor; auto|].
  rewrite <- app_assoc. rewrite <- app_assoc. cbn [app]. apply G_comment; auto.
Qed.
Lemma Items_gap l s g : Items unum l s -> l <> [] -> Gap g -> Items unum l (s ++ g).
Proof.
  induction 1 as [|v s h Hv Hh|v s h l t Hv Hh Hs Hl IH]; intros Hn Hg; [congruence| |].
  - rewrite <- app_assoc. apply I_last; [exact Hv|now apply Gap_app].
  - rewrite <- !app_assoc. destruct l as [|w l].
    + inversion Hl; subst. cbn [app]. apply I_last; [exact Hv|now apply Gap_app].
    + apply I_cons; [exact Hv|exact Hh| |apply IH; [discriminate|exact Hg]]. intros E. destruct (Hs E) as [Hcl|(c & r & -> & Hc)]; [now left|]. right. exists c, (r ++ g). now split.
Qed.
Definition begin_sym : value := VSymbol (lit "begin").
Lemma Name_begin : Name unum (lit "begin").
Proof.
  change (lit "begin") with [98;101;103;105;110]%N. repeat split.
  - now exists [98;101;103;105]%N, 110%N.
  - repeat constructor; apply (proj2 (not_Break unum _)); reflexivity.
  - injection H as <- _. reflexivity.
  - injection H as <- _. discriminate.
  - discriminate.
  - change (lower [98; 101; 103; 105; 110]%N) with (lit "begin"). intros [H|[H|[H|[]]]]; discriminate.
Qed.
Lemma wrapped_Items vs g s : Gap g -> Items unum vs s -> Items unum (begin_sym :: vs) (lit "begin" ++ chr " " :: g ++ s).
Proof.
  intros Hg Hs. change (lit "begin" ++ chr " " :: g ++ s) with (lit "begin" ++ (chr " " :: g) ++ s).
  destruct Hs as [|v s h Hv Hh|v s h l t Hv Hh Hs Hl].
  - rewrite app_nil_r. apply I_last; [constructor; exact Name_begin|now constructor].
  - apply I_cons; [constructor; exact Name_begin|now constructor|discriminate|now constructor].
  - apply I_cons; [constructor; exact Name_begin|now constructor|discriminate|now constructor].
Qed.
Lemma paren_shape (s : str) : lit "(begin " ++ s = chr "(" :: lit "begin" ++ chr " " :: s.
Proof. reflexivity. Qed.
(** [cfg] is trimmed: a comment at its end has no newline of its own *)
Theorem C81_configuration_is_read vs (cfg g s : str) : cfg ++ [10%N] = g ++ s -> Gap g -> Items unum vs s ->
  first unum (wrapped cfg) = Some (Good (VList (begin_sym :: vs)) (blen (wrapped cfg))).
Proof.
  intros E Hg Hs. unfold wrapped. rewrite paren_shape. pose proof (wrapped_Items vs g s Hg Hs) as Hi. rewrite <- E in Hi.
  assert (Writes unum (VList (begin_sym :: vs)) (chr "(" :: lit "begin" ++ chr " " :: cfg ++ 10%N :: lit ")")) as Hw.
  { pose proof (W_list unum _ [] _ G_nil Hi) as X. cbn [app] in X. rewrite <- !app_assoc in X. cbn [app] in X. rewrite <- !app_assoc in X. cbn [app] in X. exact X. }
  pose proof (C38_written_text_is_read _ [] _ [] G_nil Hw I) as R. cbn [app] in R. rewrite app_nil_r in R. exact R.
Qed.
(** one closing parenthesis too many: whatever follows it is never looked at, and no error is reported *)
Theorem C81_rest_of_configuration_refuted vs (g s rest : str) : Gap g -> Items unum vs s ->
  first unum (wrapped (g ++ s ++ chr ")" :: rest)) = Some (Good (VList (begin_sym :: vs)) (blen (lit "(begin " ++ g ++ s ++ [chr ")"]))).
Proof.
  intros Hg Hs. unfold wrapped. pose proof (wrapped_Items vs g s Hg Hs) as Hi. destruct (proj2 (Writes_read unum) _ _ Hi) as [_ R].
  set (code := lit "(begin " ++ _).
  assert (code = [chr "("] ++ (lit "begin" ++ chr " " :: g ++ s) ++ chr ")" :: rest ++ 10%N :: lit ")") as E.
  { unfold code. rewrite paren_shape. cbn [app]. f_equal. rewrite <- !app_assoc. cbn [app]. f_equal. rewrite <- !app_assoc. reflexivity. }
  unfold first. replace (skip_gap code 0) with 0 by reflexivity.
  unfold enough. replace (2 * blen code + 3) with (S (2 * blen code + 2)) by lia. rewrite expr_S.
  replace (consume code 0 (lit "(")) with (Some 1) by reflexivity. replace (skip_gap code 1) with (blen [chr "("]) by reflexivity.
  assert (2 * blen (lit "begin" ++ chr " " :: g ++ s) + 2 <= 2 * blen code + 2) as Hf by (rewrite E; rewrite !blen_app; lia).
  specialize (R [chr "("] (rest ++ 10%N :: lit ")") (2 * blen code + 2) [] Hf). rewrite <- E in R. rewrite R. cbn [rev app]. do 2 f_equal.
  rewrite !blen_app. cbn [blen]. rewrite !blen_app. change (blen (lit "(begin ")) with 7. change (blen (lit "begin")) with 5. change (utf8_len (chr "(")) with 1. change (utf8_len (chr " ")) with 1. change (utf8_len (chr ")")) with 1. lia.
Qed.
End Numeric.

(** ** The hypotheses can be met *)
Definition no_num (_ : char) : bool := false.
Definition sample : value := VList [VSymbol (lit "setq"); VSymbol (lit "a-1"); VList [VInt 12; VInt (-3); VTrue; VList []]].
Lemma Name_lit s : last_ascii s -> forallb is_symbolic s = true -> (forall c r, s = c :: r -> is_numeric no_num c = false /\ c <> 34%N) ->
  (forall c r, s = chr "-" :: c :: r -> is_numeric no_num c = false) -> mem_str (lower s) [lit "nil"; lit "t"; lit "f"] = false -> Name no_num s.
Proof.
  intros H1 H2 H3 H4 H5. split; [exact H1|]. split; [|split; [exact H3|split; [exact H4|now apply mem_str_false]]].
  rewrite forallb_forall in H2. apply Forall_forall. intros c Hc. apply (proj2 (not_Break no_num c)). now apply H2.
Qed.
Example C38_printed_value_is_read_example : Plain no_num sample /\ print sample = lit "(setq a-1 (12 -3 T NIL))".
Proof.
  split; [|reflexivity]. apply P_list. constructor.
  { constructor. apply Name_lit; [now exists (lit "set"), (chr "q")|reflexivity| |discriminate|reflexivity]. intros c r [= <- _]. now split. }
  constructor.
  { constructor. apply Name_lit; [now exists (lit "a-"), (chr "1")|reflexivity| |discriminate|reflexivity]. intros c r [= <- _]. now split. }
  constructor; [|constructor]. apply P_list. constructor; [constructor; unfold i64; lia|]. constructor; [constructor; unfold i64; lia|]. constructor; [constructor|]. constructor; [apply P_list; constructor|constructor].
Qed.
Example C38_written_text_is_read_example : first no_num (lit "(1 'x(t))") = Some (Good (VList [VInt 1; VList [VSymbol (lit "quote"); VSymbol (lit "x")]; VList [VTrue]]) 9).
Proof. reflexivity. Qed.
Example C38_gap_and_text_example : Gap (lit ";; a (b" ++ 10%N :: lit " ") /\ Writes no_num sample (print sample) /\ Items no_num [sample] (print sample ++ [10%N]).
Proof.
  pose proof (print_Writes no_num sample (proj1 C38_printed_value_is_read_example)) as W.
  split; [apply (G_comment (lit " a (b") (lit " ")); [intros H; apply mem_char_iff in H; discriminate|repeat constructor]|]. split; [exact W|]. apply I_last; [exact W|repeat constructor].
Qed.
Example C38_comment_example : first no_num (lit ";; a (b" ++ 10%N :: lit " (1 ;; two" ++ 10%N :: lit " 3)") = Some (Good (VList [VInt 1; VInt 3]) 22).
Proof. reflexivity. Qed.
Example C38_accented_name_example : Wide_name no_num (lit "caf" ++ [233%N]).
Proof.
  split; [exists (lit "caf"), 233%N; split; [reflexivity|unfold ascii; lia]|].
  assert (forallb is_symbolic (lit "caf" ++ [233%N]) = true) as H by reflexivity. rewrite forallb_forall in H.
  split; [apply Forall_forall; intros c Hc; apply (proj2 (not_Break no_num c)); now apply H|]. split; [intros c r [= <- _]; now split|discriminate].
Qed.
Example C80_accented_string_example : first no_num (lit "(alias ""cd"" ""caf" ++ 233%N :: lit """)") = Some Bad.
Proof. reflexivity. Qed.
Example C80_empty_string_example : first no_num (lit "(setq x """")") = Some (Good (VList [VSymbol (lit "setq"); VSymbol (lit "x"); VSymbol (lit """""")]) 11).
Proof. reflexivity. Qed.
Example C81_rest_example : first no_num (wrapped (lit "(h 1)) (g 2)")) = Some (Good (VList [begin_sym; VList [VSymbol (lit "h"); VInt 1]]) 13) /\ blen (wrapped (lit "(h 1)) (g 2)")) = 21.
Proof. split; reflexivity. Qed.

Print Assumptions C38_reading_ends.
Print Assumptions C38_written_text_is_read.
Print Assumptions C38_printed_value_is_read_partial.
Print Assumptions C38_accented_name_refuted.
Print Assumptions C80_string_is_read_partial.
Print Assumptions C80_accented_string_refuted.
Print Assumptions C80_empty_string_refuted.
Print Assumptions C81_configuration_is_read.
Print Assumptions C81_rest_of_configuration_refuted.
Example C81_configuration_example : exists g s, (lit "(h 1) ;; done") ++ [10%N] = g ++ s /\ Gap g /\ Items no_num [VList [VSymbol (lit "h"); VInt 1]] s.
Proof.
  exists [], (lit "(h 1) ;; done" ++ [10%N]). split; [reflexivity|]. split; [constructor|].
  change (lit "(h 1) ;; done" ++ [10%N]) with ((chr "(" :: [] ++ (lit "h" ++ [32%N] ++ (lit "1" ++ [])) ++ [chr ")"]) ++ 32%N :: lit ";;" ++ lit " done" ++ 10%N :: []).
  apply I_last.
  - apply W_list; [constructor|]. apply I_cons; [|repeat constructor|discriminate|].
    + constructor. apply Name_lit; [now exists [], (chr "h")|reflexivity| |discriminate|reflexivity]. intros c r [= <- _]. now split.
    + apply I_last; [|constructor]. apply (W_nat no_num (lit "1") 1); [|unfold i64; lia]. apply (Dec_digit 1). reflexivity.
  - apply G_blank; [reflexivity|unfold ascii; lia|]. apply G_comment; [intros H; apply mem_char_iff in H; discriminate|constructor].
Qed.
