(** Lemmas about the line editor model. *)
From Verif Require Import Base Editor_Model Editor_Spec.

Section P.
Variable cw : char -> nat.

Notation sw := (sum_width cw).

(** the editor state that represents a zipper *)
Definition ed_of (z : zip) : ed :=
  mkEd (whole z) (char_offsets (whole z)) (length (before z)) (sw (whole z)).

Lemma sw_app a b : sw (a ++ b) = sw a + sw b.
Proof. induction a as [|c a IH]; simpl; [reflexivity | rewrite IH; lia]. Qed.

Lemma sw_list_sum s : sw s = list_sum (map cw s).
Proof. induction s as [|c s IH]; simpl; [reflexivity | rewrite IH; reflexivity]. Qed.

Lemma len_ed_of z : len (ed_of z) = length (whole z).
Proof. apply offsets_from_length. Qed.

Lemma ed_of_eq b a b' a' :
  b ++ a = b' ++ a' -> length b = length b' -> ed_of (Zip b a) = ed_of (Zip b' a').
Proof. unfold ed_of, whole. simpl. intros -> ->. reflexivity. Qed.

Lemma nth_offsets_mid p c q :
  nth_error (char_offsets (p ++ c :: q)) (length p) = Some (blen p).
Proof.
  unfold char_offsets. rewrite nth_error_offsets by (rewrite app_length; simpl; lia).
  rewrite firstn_app, firstn_all, Nat.sub_diag. simpl. rewrite app_nil_r. reflexivity.
Qed.

Lemma byte_index_ed_of z : byte_index (ed_of z) = Some (blen (before z)).
Proof.
  unfold byte_index, ed_of; simpl. unfold whole, char_offsets.
  rewrite offsets_from_length, app_length.
  destruct (after z) as [|c a] eqn:Ea.
  - simpl. rewrite Nat.add_0_r, Nat.eqb_refl, app_nil_r. reflexivity.
  - simpl length. replace (length (before z) =? length (before z) + S (length a)) with false
      by (symmetry; apply Nat.eqb_neq; lia).
    apply nth_offsets_mid.
Qed.

Lemma map_opt_sub k d q :
  map_opt (fun i => checked_sub i d) (offsets_from (k + d) q) = Some (offsets_from k q).
Proof.
  revert k; induction q as [|c q IH]; intros k; simpl; [reflexivity|].
  unfold checked_sub at 1. replace (d <=? k + d) with true by (symmetry; apply Nat.leb_le; lia).
  replace (k + d + utf8_len c) with ((k + utf8_len c) + d) by lia.
  rewrite IH. f_equal. f_equal. lia.
Qed.

Lemma firstn_offs b p k q :
  firstn (length p) (offsets_from b p ++ offsets_from k q) = offsets_from b p.
Proof.
  rewrite firstn_app, offsets_from_length, Nat.sub_diag. simpl.
  rewrite app_nil_r. rewrite firstn_all2; [reflexivity | rewrite offsets_from_length; lia].
Qed.

Lemma skipn_offs b p l :
  skipn (length p) (offsets_from b p ++ l) = l.
Proof.
  rewrite skipn_app, offsets_from_length, Nat.sub_diag. simpl.
  rewrite skipn_all2; [reflexivity | rewrite offsets_from_length; lia].
Qed.

Lemma firstn_offs_gen b p l :
  firstn (length p) (offsets_from b p ++ l) = offsets_from b p.
Proof.
  rewrite firstn_app, offsets_from_length, Nat.sub_diag. simpl.
  rewrite app_nil_r. rewrite firstn_all2; [reflexivity | rewrite offsets_from_length; lia].
Qed.

Lemma shift_pos p k q d :
  shift_indices_from (offsets_from 0 p ++ offsets_from k q) (length p) (Z.of_nat d)
  = Some (offsets_from 0 p ++ offsets_from (k + d) q).
Proof.
  unfold shift_indices_from.
  destruct (Z.eqb_spec (Z.of_nat d) 0) as [Hd|Hd].
  - assert (d = 0) by lia. subst. simpl. rewrite Nat.add_0_r. reflexivity.
  - simpl orb. rewrite app_length, !offsets_from_length.
    destruct (Nat.leb_spec (length p + length q) (length p)) as [H|H].
    + destruct q; [|simpl in H; lia]. reflexivity.
    + replace (0 <? Z.of_nat d)%Z with true by (symmetry; apply Z.ltb_lt; lia).
      rewrite firstn_offs_gen, skipn_offs, Nat2Z.id, offsets_from_shift. reflexivity.
Qed.

Lemma shift_neg p k q d :
  shift_indices_from (offsets_from 0 p ++ offsets_from (k + d) q) (length p) (- Z.of_nat d)
  = Some (offsets_from 0 p ++ offsets_from k q).
Proof.
  unfold shift_indices_from.
  destruct (Z.eqb_spec (- Z.of_nat d) 0) as [Hd|Hd].
  - assert (d = 0) by lia. subst. simpl. rewrite Nat.add_0_r. reflexivity.
  - simpl orb. rewrite app_length, !offsets_from_length.
    destruct (Nat.leb_spec (length p + length q) (length p)) as [H|H].
    + destruct q; [|simpl in H; lia]. reflexivity.
    + replace (0 <? - Z.of_nat d)%Z with false by (symmetry; apply Z.ltb_ge; lia).
      rewrite firstn_offs_gen, skipn_offs.
      replace (Z.to_nat (- - Z.of_nat d)) with d by lia.
      rewrite map_opt_sub. reflexivity.
Qed.

Lemma vec_splice_mid {A} (p q x : list A) : vec_splice (p ++ q) (length p) x = Some (p ++ x ++ q).
Proof.
  unfold vec_splice. rewrite app_length.
  replace (length p <=? length p + length q) with true by (symmetry; apply Nat.leb_le; lia).
  rewrite firstn_app, skipn_app, firstn_all, skipn_all, Nat.sub_diag. simpl.
  rewrite app_nil_r. reflexivity.
Qed.

Lemma vec_splice_offs p l x :
  vec_splice (offsets_from 0 p ++ l) (length p) x = Some (offsets_from 0 p ++ x ++ l).
Proof. rewrite <- (offsets_from_length 0 p) at 1. apply vec_splice_mid. Qed.

Lemma skipn_S_mid {A} (p q : list A) x : skipn (S (length p)) (p ++ x :: q) = q.
Proof. induction p as [|a p IH]; [reflexivity | exact IH]. Qed.

Lemma vec_remove_mid {A} (p q : list A) x : vec_remove (p ++ x :: q) (length p) = Some (p ++ q).
Proof.
  unfold vec_remove. rewrite app_length. cbn [length].
  replace (length p <? length p + S (length q)) with true by (symmetry; apply Nat.ltb_lt; lia).
  rewrite skipn_S_mid, firstn_app, firstn_all, Nat.sub_diag. cbn [firstn]. rewrite app_nil_r.
  reflexivity.
Qed.

Lemma vec_remove_offs p x l :
  vec_remove (offsets_from 0 p ++ x :: l) (length p) = Some (offsets_from 0 p ++ l).
Proof. rewrite <- (offsets_from_length 0 p) at 1. apply vec_remove_mid. Qed.

Lemma insert_str_ok z s : insert_str cw (ed_of z) s = Some (ed_of (s_insert z s)).
Proof.
  destruct s as [|c s'].
  - simpl. unfold s_insert. rewrite app_nil_r. destruct z; reflexivity.
  - unfold insert_str. generalize (c :: s'). clear c s'. intros s.
    rewrite byte_index_ed_of. unfold string_insert.
    change (text (ed_of z)) with (before z ++ after z). rewrite split_byte_app.
    change (idx (ed_of z)) with (offsets_from 0 (before z ++ after z)).
    change (cur (ed_of z)) with (length (before z)).
    rewrite offsets_from_app, Nat.add_0_l, vec_splice_offs.
    rewrite <- app_length, app_assoc.
    replace (offsets_from 0 (before z) ++ offsets_from (blen (before z)) s)
      with (offsets_from 0 (before z ++ s)) by (rewrite offsets_from_app; reflexivity).
    rewrite shift_pos. unfold ed_of, s_insert, whole, char_offsets. cbn [before after width].
    rewrite <- app_assoc, !sw_app. f_equal. f_equal; [|lia].
    rewrite app_assoc, (offsets_from_app 0 (before z ++ s)). f_equal. rewrite blen_app. reflexivity.
Qed.

Lemma insert_ok z c : insert cw (ed_of z) c = Some (ed_of (s_insert z [c])).
Proof.
  rewrite <- insert_str_ok. unfold insert, insert_str.
  destruct (byte_index (ed_of z)) as [b|]; [|reflexivity]. simpl offsets_from.
  destruct (string_insert _ _ _); [|reflexivity].
  destruct (vec_splice _ _ _); [|reflexivity].
  simpl length. simpl blen. simpl sum_width. rewrite !Nat.add_0_r. reflexivity.
Qed.

Lemma insert_chars_ok s z : insert_chars cw s (ed_of z) = Some (ed_of (s_insert z s)).
Proof.
  revert z; induction s as [|c s IH]; intros z; simpl.
  - unfold s_insert. rewrite app_nil_r. destruct z; reflexivity.
  - rewrite insert_ok, IH. unfold s_insert. simpl. rewrite <- app_assoc. reflexivity.
Qed.

Lemma string_replace_mid p m q r :
  string_replace (p ++ m ++ q) (blen p) (blen p + blen m) r = Some (p ++ r ++ q).
Proof.
  unfold string_replace.
  replace (blen p <=? blen p + blen m) with true by (symmetry; apply Nat.leb_le; lia).
  rewrite split_byte_app, <- blen_app, app_assoc, split_byte_app. reflexivity.
Qed.

Lemma char_len_mid p c q k :
  char_len_at (mkEd (p ++ c :: q) (char_offsets (p ++ c :: q)) k (sw (p ++ c :: q))) (length p)
  = Some (utf8_len c).
Proof.
  unfold char_len_at. simpl idx. simpl text.
  unfold char_offsets. rewrite offsets_from_length, app_length. simpl length.
  replace (length p + S (length q) <=? length p) with false by (symmetry; apply Nat.leb_gt; lia).
  fold (char_offsets (p ++ c :: q)). rewrite nth_offsets_mid.
  destruct (Nat.ltb_spec (S (length p)) (length p + S (length q))) as [H|H].
  - destruct q as [|d q]; [simpl in H; lia|].
    replace (p ++ c :: d :: q) with ((p ++ [c]) ++ d :: q) by (rewrite <- app_assoc; reflexivity).
    replace (S (length p)) with (length (p ++ [c])) by (rewrite app_length; simpl; lia).
    rewrite nth_offsets_mid, blen_app. simpl. unfold checked_sub.
    replace (blen p <=? blen p + (utf8_len c + 0)) with true by (symmetry; apply Nat.leb_le; lia).
    f_equal. lia.
  - destruct q; [|simpl in H; lia]. rewrite blen_app. simpl. f_equal. lia.
Qed.

Lemma remove_char_ok p c q k :
  remove_char cw (mkEd (p ++ c :: q) (char_offsets (p ++ c :: q)) k (sw (p ++ c :: q))) (length p)
  = Some (mkEd (p ++ q) (char_offsets (p ++ q)) k (sw (p ++ q))).
Proof.
  unfold remove_char. rewrite char_len_mid. simpl idx. simpl text. rewrite nth_offsets_mid.
  rewrite split_byte_app.
  replace (blen p + utf8_len c) with (blen p + blen [c]) by (simpl; lia).
  change (p ++ c :: q) with (p ++ [c] ++ q) at 1. rewrite string_replace_mid.
  unfold char_offsets. rewrite (offsets_from_app 0 p (c :: q)). simpl offsets_from.
  rewrite vec_remove_offs.
  rewrite shift_neg. simpl app. rewrite (offsets_from_app 0 p q). simpl Nat.add.
  f_equal. f_equal. simpl. rewrite !sw_app. simpl. lia.
Qed.

Lemma delete_char_ok z : delete_char cw (ed_of z) = Some (ed_of (s_delete z)).
Proof.
  unfold delete_char. rewrite len_ed_of. simpl idx. unfold char_offsets.
  rewrite offsets_from_length. simpl cur. unfold whole. rewrite app_length.
  destruct z as [b [|c a]]; simpl.
  - rewrite Nat.add_0_r, Nat.leb_refl. reflexivity.
  - replace (length b + S (length a) <=? length b) with false by (symmetry; apply Nat.leb_gt; lia).
    simpl. unfold ed_of, whole. simpl. apply remove_char_ok.
Qed.

Lemma backspace_snoc b c a : backspace cw (ed_of (Zip (b ++ [c]) a)) = Some (ed_of (Zip b a)).
Proof.
  unfold backspace. simpl cur. simpl idx. unfold char_offsets. rewrite offsets_from_length.
  unfold whole. simpl. rewrite !app_length. simpl.
  replace (0 <? length b + 1) with true by (symmetry; apply Nat.ltb_lt; lia).
  replace (length b + 1 <=? length b + 1 + length a) with true by (symmetry; apply Nat.leb_le; lia).
  simpl. replace (length b + 1 - 1) with (length b) by lia.
  unfold ed_of, whole. simpl. rewrite <- app_assoc. simpl app. rewrite remove_char_ok. reflexivity.
Qed.

Lemma backspace_nil a : backspace cw (ed_of (Zip [] a)) = Some (ed_of (Zip [] a)).
Proof. reflexivity. Qed.

Lemma backspacen_ok n z : backspacen cw n (ed_of z) = Some (ed_of (s_backspace n z)).
Proof.
  revert z; induction n as [|n IH]; intros z.
  - simpl. unfold s_backspace. rewrite Nat.sub_0_r, firstn_all. destruct z; reflexivity.
  - simpl. destruct z as [b a].
    destruct (rev b) as [|c rb] eqn:E.
    + assert (b = []) by (apply (f_equal (@rev _)) in E; rewrite rev_involutive in E; exact E).
      subst. rewrite backspace_nil, IH. unfold s_backspace. simpl.
      reflexivity.
    + assert (b = rev rb ++ [c])
        by (apply (f_equal (@rev _)) in E; rewrite rev_involutive in E; exact E).
      subst. rewrite backspace_snoc, IH. unfold s_backspace. simpl. f_equal. f_equal.
      rewrite app_length. simpl. f_equal.
      replace (length (rev rb) + 1 - S n) with (length (rev rb) - n) by lia.
      rewrite firstn_app. replace (length (rev rb) - n - length (rev rb)) with 0 by lia.
      simpl. rewrite app_nil_r. reflexivity.
Qed.

Lemma backspace_ok z : backspace cw (ed_of z) = Some (ed_of (s_backspace 1 z)).
Proof.
  pose proof (backspacen_ok 1 z) as H. cbn [backspacen] in H.
  destruct (backspace cw (ed_of z)); exact H.
Qed.

(** ** cursor motion *)

Lemma goto_ed z n : n <= length (whole z) ->
  mkEd (whole z) (char_offsets (whole z)) n (sw (whole z)) = ed_of (goto z n).
Proof.
  intros H. assert (Hw : whole (goto z n) = whole z) by apply firstn_skipn.
  unfold ed_of. rewrite Hw. simpl. rewrite firstn_length_le by exact H. reflexivity.
Qed.

Lemma before_le_whole z : length (before z) <= length (whole z).
Proof. unfold whole. rewrite app_length. lia. Qed.

Lemma goto_over z n : length (whole z) <= n -> goto z n = goto z (length (whole z)).
Proof.
  intros H. unfold goto. rewrite !firstn_all2, !skipn_all2 by lia. reflexivity.
Qed.

Lemma move_by_ok z d : move_by (ed_of z) d = ed_of (s_move z d).
Proof.
  unfold move_by, s_move. pose proof (before_le_whole z) as Hb.
  destruct (Z.ltb_spec d 0) as [H|H].
  - change (text (ed_of z)) with (whole z). change (idx (ed_of z)) with (char_offsets (whole z)).
    change (width (ed_of z)) with (sw (whole z)). change (cur (ed_of z)) with (length (before z)).
    replace (length (before z) - Z.to_nat (- d)) with (Z.to_nat (Z.of_nat (length (before z)) + d)) by lia.
    apply goto_ed. lia.
  - rewrite len_ed_of.
    change (text (ed_of z)) with (whole z). change (idx (ed_of z)) with (char_offsets (whole z)).
    change (width (ed_of z)) with (sw (whole z)). change (cur (ed_of z)) with (length (before z)).
    replace (Z.to_nat (Z.of_nat (length (before z)) + d)) with (length (before z) + Z.to_nat d) by lia.
    destruct (Nat.le_gt_cases (length (whole z)) (length (before z) + Z.to_nat d)) as [Hc|Hc].
    + rewrite Nat.min_l by lia. rewrite (goto_over z (_ + _)) by lia. apply goto_ed. lia.
    + rewrite Nat.min_r by lia. apply goto_ed. lia.
Qed.

(** scan_left finds the length of the prefix that remains after stripping *)
Lemma scan_left_ok p b a :
  scan_left p (b ++ a) (length b) = Some (length (strip_suffix p b)).
Proof.
  revert a. induction b as [|c b IH] using rev_ind; intros a; [reflexivity|].
  rewrite app_length. simpl length. rewrite Nat.add_1_r. simpl scan_left.
  rewrite <- app_assoc. simpl app.
  rewrite nth_error_app2, Nat.sub_diag by lia. simpl.
  unfold strip_suffix. rewrite rev_app_distr. simpl.
  destruct (p c).
  - apply IH.
  - simpl. rewrite app_length, !rev_length. simpl. f_equal. lia.
Qed.

Lemma drop_take p s : s = take_while p s ++ drop_while p s.
Proof. induction s as [|c s IH]; simpl; [reflexivity|]. destruct (p c); [simpl; congruence | reflexivity]. Qed.

Lemma strip_suffix_split p s : s = strip_suffix p s ++ suffix_while p s.
Proof.
  unfold strip_suffix, suffix_while. rewrite <- rev_app_distr, <- drop_take, rev_involutive. reflexivity.
Qed.

Lemma strip_suffix_prefix p s : exists t, s = strip_suffix p s ++ t.
Proof. exists (suffix_while p s). apply strip_suffix_split. Qed.

Lemma before_word_prefix b : exists t, b = before_word b ++ t.
Proof.
  unfold before_word. destruct (strip_suffix_prefix blank b) as [t1 H1].
  destruct (strip_suffix_prefix nonblank (strip_suffix blank b)) as [t2 H2].
  exists (t2 ++ t1). rewrite app_assoc, <- H2. exact H1.
Qed.

Lemma word_left_pos_ok z : word_left_pos (ed_of z) = Some (length (before_word (before z))).
Proof.
  unfold word_left_pos. simpl text. simpl cur. unfold whole.
  fold blank. rewrite scan_left_ok.
  destruct (strip_suffix_prefix blank (before z)) as [t Ht].
  replace (before z ++ after z) with (strip_suffix blank (before z) ++ (t ++ after z))
    by (rewrite app_assoc, <- Ht; reflexivity).
  change not_ws with nonblank. rewrite scan_left_ok. reflexivity.
Qed.

Lemma firstn_before_word b : firstn (length (before_word b)) b = before_word b.
Proof.
  destruct (before_word_prefix b) as [t Ht]. rewrite Ht at 2.
  rewrite firstn_app, Nat.sub_diag, firstn_all. simpl. apply app_nil_r.
Qed.

Lemma before_word_le b : length (before_word b) <= length b.
Proof. destruct (before_word_prefix b) as [t Ht]. rewrite Ht at 2. rewrite app_length. lia. Qed.

Lemma delete_word_backward_ok z :
  delete_word_backward cw (ed_of z) = Some (ed_of (s_delete_word_backward z)).
Proof.
  unfold delete_word_backward. simpl cur.
  destruct (Nat.eqb_spec (length (before z)) 0) as [H|H].
  - unfold s_delete_word_backward. destruct z as [b a]; simpl in *.
    apply length_zero_iff_nil in H. subst. reflexivity.
  - rewrite word_left_pos_ok, backspacen_ok. unfold s_backspace, s_delete_word_backward.
    pose proof (before_word_le (before z)).
    replace (length (before z) - (length (before z) - length (before_word (before z))))
      with (length (before_word (before z))) by lia.
    rewrite firstn_before_word. reflexivity.
Qed.

Lemma goto_before z : goto z (length (before z)) = z.
Proof.
  unfold goto, whole. rewrite firstn_app, skipn_app, Nat.sub_diag, firstn_all, skipn_all.
  simpl. rewrite app_nil_r. destruct z; reflexivity.
Qed.

Lemma move_word_left_ok z : move_word_left (ed_of z) = Some (ed_of (s_word_left z)).
Proof.
  unfold move_word_left. simpl cur. unfold s_word_left.
  destruct (Nat.eqb_spec (length (before z)) 0) as [H|H].
  - destruct z as [b a]; simpl in *.
    apply length_zero_iff_nil in H. subst. reflexivity.
  - rewrite word_left_pos_ok. f_equal. apply goto_ed.
    pose proof (before_word_le (before z)). pose proof (before_le_whole z). lia.
Qed.

Lemma scan_right_ok p rest i : scan_right p rest i = i + length (take_while p rest).
Proof.
  revert i; induction rest as [|c rest IH]; intros i; simpl; [lia|].
  destruct (p c); simpl; [rewrite IH; lia | lia].
Qed.

Lemma take_while_le p s : length (take_while p s) <= length s.
Proof. induction s as [|c s IH]; simpl; [lia|]. destruct (p c); simpl; lia. Qed.

Lemma skipn_take_while p s : skipn (length (take_while p s)) s = drop_while p s.
Proof. induction s as [|c s IH]; simpl; [reflexivity|]. destruct (p c); simpl; [exact IH | reflexivity]. Qed.

Lemma drop_while_le p s : length (take_while p s) + length (drop_while p s) = length s.
Proof. rewrite <- app_length, <- drop_take. reflexivity. Qed.

Lemma move_word_right_ok z : move_word_right (ed_of z) = ed_of (s_word_right z).
Proof.
  unfold move_word_right. rewrite len_ed_of. simpl cur. unfold s_word_right.
  destruct (Nat.leb_spec (length (whole z)) (length (before z))) as [H|H].
  - unfold whole in H. rewrite app_length in H. assert (Ha : after z = []).
    { destruct (after z); [reflexivity | simpl in H; lia]. }
    rewrite Ha. simpl. rewrite !Nat.add_0_r, goto_before. reflexivity.
  - simpl text.
    rewrite !scan_right_ok.
    change not_ws with nonblank. fold blank.
    assert (Hs : skipn (length (before z)) (whole z) = after z).
    { unfold whole. rewrite skipn_app, Nat.sub_diag, skipn_all. reflexivity. }
    rewrite Hs.
    assert (Hs2 : skipn (length (before z) + length (take_while nonblank (after z))) (whole z)
                  = drop_while nonblank (after z)).
    { rewrite <- skipn_take_while, <- Hs, skipn_skipn. f_equal. lia. }
    rewrite Hs2. apply goto_ed.
    unfold whole. rewrite app_length.
    pose proof (drop_while_le nonblank (after z)).
    pose proof (take_while_le blank (drop_while nonblank (after z))). lia.
Qed.

Lemma delete_to_end_ok z : delete_to_end cw (ed_of z) = Some (ed_of (Zip (before z) [])).
Proof.
  unfold delete_to_end. rewrite len_ed_of, byte_index_ed_of. simpl cur.
  destruct (Nat.leb_spec (length (whole z)) (length (before z))) as [H|H].
  - unfold whole in H. rewrite app_length in H. destruct z as [b [|c a]]; [reflexivity | simpl in H; lia].
  - simpl text. simpl idx. unfold whole. rewrite split_byte_app.
    unfold recalculate_display_width, ed_of, whole. simpl. rewrite app_nil_r.
    unfold char_offsets. rewrite offsets_from_app, firstn_offs_gen. reflexivity.
Qed.

Lemma delete_to_beginning_ok z : delete_to_beginning cw (ed_of z) = Some (ed_of (Zip [] (after z))).
Proof.
  unfold delete_to_beginning. rewrite byte_index_ed_of. simpl cur.
  destruct (Nat.eqb_spec (length (before z)) 0) as [H|H].
  - destruct z as [b a]; simpl in *. apply length_zero_iff_nil in H. subst. reflexivity.
  - simpl text. simpl idx. unfold whole. rewrite split_byte_app.
    unfold char_offsets. rewrite offsets_from_length, app_length.
    replace (length (before z) <=? length (before z) + length (after z)) with true
      by (symmetry; apply Nat.leb_le; lia).
    rewrite offsets_from_app, skipn_offs, map_opt_sub.
    reflexivity.
Qed.

Lemma reset_ok e s : reset cw e s = ed_of (Zip s []).
Proof.
  unfold reset, move_to_end, recalculate_display_width, update_indices, ed_of, whole, len. simpl.
  unfold char_offsets. rewrite app_nil_r, offsets_from_length. reflexivity.
Qed.

Lemma byte_of_ok z i : i <= length (whole z) ->
  (if i =? len (ed_of z) then Some (blen (text (ed_of z))) else nth_error (idx (ed_of z)) i)
  = Some (blen (firstn i (whole z))).
Proof.
  intros Hi. rewrite len_ed_of. simpl text. simpl idx.
  destruct (Nat.eqb_spec i (length (whole z))) as [->|H].
  - rewrite firstn_all. reflexivity.
  - unfold char_offsets. rewrite nth_error_offsets by lia. reflexivity.
Qed.

Lemma firstn_mid {A} (s : list A) a b : a <= b -> 
  s = firstn a s ++ firstn (b - a) (skipn a s) ++ skipn b s.
Proof.
  intros H. rewrite <- (firstn_skipn a s) at 1. f_equal.
  rewrite <- (firstn_skipn (b - a) (skipn a s)) at 1. f_equal.
  rewrite skipn_skipn. f_equal. lia.
Qed.

Lemma replace_range_ok z a b r :
  replace_range_chars cw (ed_of z) a b r =
  let (z', ok) := s_replace_range z a b r in Some (ed_of z', ok).
Proof.
  unfold replace_range_chars, s_replace_range. rewrite len_ed_of.
  destruct (Nat.ltb_spec b a) as [H1|H1]; destruct (Nat.leb_spec a b) as [H2|H2]; try lia;
    simpl orb; simpl andb; [reflexivity|].
  destruct (Nat.ltb_spec (length (whole z)) b) as [H3|H3];
    destruct (Nat.leb_spec b (length (whole z))) as [H4|H4]; try lia; [reflexivity|].
  rewrite <- len_ed_of. rewrite !byte_of_ok by lia.
  simpl text. set (s := whole z) in *.
  set (m := firstn (b - a) (skipn a s)).
  assert (Hs : s = firstn a s ++ m ++ skipn b s) by (apply firstn_mid; lia).
  assert (Hb : blen (firstn b s) = blen (firstn a s) + blen m).
  { rewrite <- blen_app. f_equal. unfold m.
    rewrite <- (firstn_skipn a (firstn b s)), firstn_firstn, Nat.min_l by lia.
    f_equal. rewrite skipn_firstn_comm. reflexivity. }
  rewrite Hb. rewrite Hs at 1. rewrite string_replace_mid.
  unfold recalculate_display_width, update_indices. simpl.
  f_equal. f_equal. unfold ed_of, whole. simpl. rewrite <- app_assoc, app_length.
  rewrite firstn_length_le by lia. reflexivity.
Qed.

(** ** abbreviation words *)

Lemma abbr_sep_char c : negb (abbr_sep c) = abbr_char c.
Proof.
  unfold abbr_sep, abbr_char. f_equal. unfold mem_char. simpl existsb.
  rewrite orb_false_r. rewrite !orb_assoc. reflexivity.
Qed.

Lemma scan_left_ext p q cs i : (forall c, p c = q c) -> scan_left p cs i = scan_left q cs i.
Proof.
  intros H. induction i as [|i IH]; simpl; [reflexivity|].
  destruct (nth_error cs i); [|reflexivity]. rewrite H, IH. reflexivity.
Qed.

Lemma take_while_all p s : forallb p (take_while p s) = true.
Proof. induction s as [|c s IH]; simpl; [reflexivity|]. destruct (p c) eqn:E; simpl; [rewrite E; exact IH | reflexivity]. Qed.

Lemma suffix_while_all p s : Forall (fun c => p c = true) (suffix_while p s).
Proof.
  unfold suffix_while. apply Forall_rev. apply Forall_forall. intros x Hx.
  pose proof (take_while_all p (rev s)) as H. rewrite forallb_forall in H. auto.
Qed.

Lemma trim_start_nonws c s : is_whitespace c = false -> trim_start (c :: s) = c :: s.
Proof. intros H. simpl. rewrite H. reflexivity. Qed.

Lemma trim_nonnil s : s <> [] -> Forall (fun c => is_whitespace c = false) s -> trim s <> [].
Proof.
  intros Hne Hall. unfold trim, trim_end. destruct s as [|c s]; [congruence|].
  inversion_clear Hall as [|? ? Hc Hs]. rewrite trim_start_nonws by exact Hc.
  assert (Hall : Forall (fun c => is_whitespace c = false) (rev (c :: s)))
    by (apply Forall_rev; constructor; assumption).
  assert (Hn : rev (c :: s) <> []).
  { intros E. apply (f_equal (@length _)) in E. rewrite rev_length in E. discriminate. }
  destruct (rev (c :: s)) as [|d r]; [congruence|].
  inversion_clear Hall as [|? ? Hd Hr]. rewrite trim_start_nonws by exact Hd.
  intros E. apply (f_equal (@length _)) in E. rewrite rev_length in E. discriminate.
Qed.

Lemma abbr_char_not_ws c : abbr_char c = true -> is_whitespace c = false.
Proof.
  unfold abbr_char. rewrite negb_true_iff. intros H.
  do 5 (apply orb_false_iff in H as [H _]). exact H.
Qed.

Lemma get_word_ok z :
  get_current_word_for_abbr (ed_of z) =
  Some (match suffix_while abbr_char (before z) with [] => None | w => Some w end).
Proof.
  unfold get_current_word_for_abbr. simpl text. simpl cur.
  destruct z as [b a]. unfold whole. simpl before. simpl after.
  destruct (b ++ a) as [|x t] eqn:Et.
  - apply app_eq_nil in Et as [-> ->]. reflexivity.
  - rewrite <- Et. clear x t Et.
    destruct (Nat.eqb_spec (length b) 0) as [H|H].
    + apply length_zero_iff_nil in H. subst. reflexivity.
    + rewrite (scan_left_ext _ abbr_char) by apply abbr_sep_char.
      rewrite scan_left_ok.
      pose proof (strip_suffix_split abbr_char b) as Hb.
      set (w := suffix_while abbr_char b) in *. set (p := strip_suffix abbr_char b) in *.
      assert (Hl : length b = length p + length w) by (rewrite Hb at 1; apply app_length).
      destruct (Nat.ltb_spec (length p) (length b)) as [H1|H1].
      * rewrite app_length.
        replace (length b <=? length b + length a) with true by (symmetry; apply Nat.leb_le; lia).
        assert (Hw : firstn (length b - length p) (skipn (length p) (b ++ a)) = w).
        { rewrite Hb at 2. rewrite <- app_assoc, skipn_app, skipn_all, Nat.sub_diag. simpl.
          replace (length b - length p) with (length w) by lia.
          rewrite firstn_app, Nat.sub_diag, firstn_all. simpl. apply app_nil_r. }
        rewrite Hw.
        destruct w as [|c w'] eqn:Ew; [simpl in Hl; lia|].
        rewrite <- Ew.
        destruct (trim w) eqn:Et; [|rewrite Ew; reflexivity].
        exfalso. revert Et. apply trim_nonnil; [rewrite Ew; discriminate|].
        eapply Forall_impl; [apply abbr_char_not_ws|].
        rewrite Ew. unfold w in Ew. rewrite <- Ew. apply suffix_while_all.
      * destruct w; [reflexivity | simpl in Hl; lia].
Qed.

Lemma delete_chars_ok w p a :
  delete_chars cw (length w) (ed_of (Zip p (w ++ a))) = Some (ed_of (Zip p a)).
Proof.
  revert p a. induction w as [|c w IH]; intros p a; [reflexivity|].
  cbn [length delete_chars]. rewrite len_ed_of, delete_char_ok.
  unfold s_delete. cbn [before after app tl].
  replace (cur (ed_of (Zip p (c :: w ++ a))) <? length (whole (Zip p (c :: w ++ a)))) with true.
  - apply IH.
  - symmetry. apply Nat.ltb_lt. unfold whole, ed_of. simpl. rewrite app_length. simpl. lia.
Qed.

Lemma replace_word_ok z r :
  replace_current_word cw (ed_of z) r =
  let (z', ok) := s_replace_word z r in Some (ed_of z', ok).
Proof.
  unfold replace_current_word, s_replace_word. rewrite get_word_ok.
  pose proof (strip_suffix_split abbr_char (before z)) as Hb.
  destruct (suffix_while abbr_char (before z)) as [|c w'] eqn:Ew; [reflexivity|].
  rewrite <- Ew in *. set (w := suffix_while abbr_char (before z)) in *.
  set (p := strip_suffix abbr_char (before z)) in *.
  assert (Hl : length (before z) = length p + length w) by (rewrite Hb at 1; apply app_length).
  simpl cur. replace (length w <=? length (before z)) with true by (symmetry; apply Nat.leb_le; lia).
  replace (length (before z) - length w) with (length p) by lia.
  assert (He : mkEd (text (ed_of z)) (idx (ed_of z)) (length p) (width (ed_of z))
               = ed_of (Zip p (w ++ after z))).
  { unfold ed_of, whole. simpl. rewrite Hb at 1 2 3. rewrite <- !app_assoc. reflexivity. }
  rewrite He, delete_chars_ok, insert_chars_ok. reflexivity.
Qed.

(** ** clicks *)

Lemma cursor_for_width_spec t s cur0 n :
  cursor_for_width cw t s cur0 n =
  n + length (filter (fun i => cur0 + column cw s i + (cur0 + column cw s (S i)) <=? 2 * t)
                     (seq 0 (length s))).
Proof.
  revert cur0 n; induction s as [|c s IH]; intros cur0 n; [simpl; lia|].
  cbn [cursor_for_width]. 
  assert (Hcol : forall i, column cw (c :: s) (S i) = cw c + column cw s i) by reflexivity.
  assert (Hmono : forall i, column cw (c :: s) 1 <= column cw (c :: s) (S i)).
  { intros i. rewrite !Hcol. unfold column at 1. simpl. lia. }
  destruct (Nat.ltb_spec (2 * t) (2 * cur0 + cw c)) as [H|H].
  - assert (Hf : filter (fun i => cur0 + column cw (c :: s) i + (cur0 + column cw (c :: s) (S i)) <=? 2 * t)
                     (seq 0 (length (c :: s))) = []).
    { generalize (seq 0 (length (c :: s))). intros l. induction l as [|i l IHl]; [reflexivity|].
      cbn [filter]. destruct (Nat.leb_spec (cur0 + column cw (c :: s) i + (cur0 + column cw (c :: s) (S i))) (2 * t)) as [Hi|Hi].
      - rewrite Hcol in Hi. lia.
      - exact IHl. }
    rewrite Hf. simpl. lia.
  - rewrite IH. cbn [length seq filter].
    replace (cur0 + column cw (c :: s) 0 + (cur0 + column cw (c :: s) 1) <=? 2 * t) with true
      by (symmetry; apply Nat.leb_le; rewrite Hcol; unfold column; simpl; lia).
    rewrite <- seq_shift. cbn [length].
    assert (Hm : forall l,
       length (filter (fun i => cur0 + column cw (c :: s) i + (cur0 + column cw (c :: s) (S i)) <=? 2 * t) (map S l))
       = length (filter (fun i => cur0 + cw c + column cw s i + (cur0 + cw c + column cw s (S i)) <=? 2 * t) l)).
    { induction l as [|i l IHl]; [reflexivity|]. cbn [map filter]. rewrite !Hcol.
      replace (cur0 + (cw c + column cw s i) + (cur0 + (cw c + column cw s (S i))))
        with (cur0 + cw c + column cw s i + (cur0 + cw c + column cw s (S i))) by lia.
      destruct (_ <=? _); cbn [length]; rewrite IHl; reflexivity. }
    rewrite Hm. lia.
Qed.

Lemma filter_length_le {A} (p : A -> bool) l : length (filter p l) <= length l.
Proof. induction l as [|x l IH]; simpl; [lia|]. destruct (p x); simpl; lia. Qed.

Lemma click_ok z t : set_cursor_from_display_width cw (ed_of z) t = ed_of (s_click cw z t).
Proof.
  unfold set_cursor_from_display_width, s_click. simpl text. rewrite cursor_for_width_spec.
  simpl Nat.add. apply goto_ed. etransitivity; [apply filter_length_le|]. rewrite seq_length. lia.
Qed.

(** ** every operation, every sequence *)

Lemma step_ok z o : step cw (ed_of z) o = let (z', b) := s_step cw z o in Some (ed_of z', b).
Proof.
  destruct o; simpl step; simpl s_step.
  - rewrite insert_ok. reflexivity.
  - rewrite insert_str_ok. reflexivity.
  - rewrite backspace_ok. reflexivity.
  - rewrite backspacen_ok. reflexivity.
  - rewrite delete_char_ok. reflexivity.
  - rewrite delete_word_backward_ok. reflexivity.
  - rewrite delete_to_end_ok. reflexivity.
  - rewrite delete_to_beginning_ok. reflexivity.
  - rewrite move_by_ok. reflexivity.
  - unfold move_to_begin. rewrite <- (goto_ed z 0) by lia. reflexivity.
  - unfold move_to_end. rewrite len_ed_of. rewrite <- (goto_ed z (length (whole z))) by lia. reflexivity.
  - rewrite move_word_left_ok. reflexivity.
  - rewrite move_word_right_ok. reflexivity.
  - rewrite reset_ok. reflexivity.
  - reflexivity.
  - apply replace_range_ok.
  - apply replace_word_ok.
  - rewrite click_ok. reflexivity.
Qed.

Lemma run_ok os : forall z,
  run cw (ed_of z) os = let (z', bs) := s_run cw z os in Some (ed_of z', bs).
Proof.
  induction os as [|o os IH]; intros z; [reflexivity|].
  simpl. rewrite step_ok. destruct (s_step cw z o) as [z1 b]. rewrite IH.
  destruct (s_run cw z1 os) as [z2 bs]. reflexivity.
Qed.

Lemma new_ed_of : new = ed_of (Zip [] []).
Proof. reflexivity. Qed.

(** every state the editor can reach represents a zipper *)
Lemma reachable_ed_of os e bs : run cw new os = Some (e, bs) -> exists z, e = ed_of z.
Proof.
  rewrite new_ed_of, run_ok. destruct (s_run cw _ os) as [z bs']. intros [= <- _].
  exists z. reflexivity.
Qed.

Lemma run_total os : exists e bs, run cw new os = Some (e, bs).
Proof.
  rewrite new_ed_of, run_ok. destruct (s_run cw _ os) as [z bs]. eauto.
Qed.

Lemma split_current_pos_ok z :
  split_current_pos (ed_of z) =
  Some (match after z with [] => None | a => Some (before z, a) end).
Proof.
  unfold split_current_pos. rewrite byte_index_ed_of. simpl text. unfold whole.
  rewrite blen_app, split_byte_app.
  destruct (after z) as [|c a]; simpl.
  - rewrite Nat.add_0_r, Nat.eqb_refl. reflexivity.
  - pose proof (utf8_len_pos c).
    replace (blen (before z) =? blen (before z) + (utf8_len c + blen a)) with false
      by (symmetry; apply Nat.eqb_neq; lia). reflexivity.
Qed.

Lemma char_at_ok z i : char_at (ed_of z) i = Some (nth_error (whole z) i).
Proof.
  unfold char_at. simpl idx. simpl text. unfold char_offsets. rewrite offsets_from_length.
  destruct (Nat.leb_spec (length (whole z)) i) as [H|H].
  - f_equal. symmetry. apply nth_error_None. exact H.
  - rewrite nth_error_offsets by exact H. simpl.
    rewrite <- (firstn_skipn i (whole z)) at 1. rewrite split_byte_app. f_equal.
    rewrite <- (firstn_skipn i (whole z)) at 2.
    rewrite nth_error_app2; rewrite firstn_length_le by lia; [|lia].
    rewrite Nat.sub_diag. destruct (skipn i (whole z)); reflexivity.
Qed.

(** ** words *)

Lemma drop_while_hd p s : drop_while p s = [] \/ exists c t, drop_while p s = c :: t /\ p c = false.
Proof.
  induction s as [|c s IH]; simpl; [left; reflexivity|].
  destruct (p c) eqn:E; [exact IH | right; eauto].
Qed.

Lemma strip_suffix_last p s :
  strip_suffix p s = [] \/ exists t c, strip_suffix p s = t ++ [c] /\ p c = false.
Proof.
  unfold strip_suffix. destruct (drop_while_hd p (rev s)) as [-> | (c & t & -> & Hc)].
  - left. reflexivity.
  - right. exists (rev t), c. split; [reflexivity | exact Hc].
Qed.

Lemma take_while_Forall p s : Forall (fun c => p c = true) (take_while p s).
Proof.
  apply Forall_forall. intros x Hx. pose proof (take_while_all p s) as H.
  rewrite forallb_forall in H. auto.
Qed.

Lemma strip_suffix_app_last p t c : p c = true -> strip_suffix p (t ++ [c]) = strip_suffix p t.
Proof. intros H. unfold strip_suffix. rewrite rev_app_distr. simpl. rewrite H. reflexivity. Qed.

Lemma word_split b :
  exists w sp, b = before_word b ++ w ++ sp
    /\ Forall (fun c => is_whitespace c = true) sp
    /\ Forall (fun c => is_whitespace c = false) w
    /\ (before_word b = [] \/ exists t c, before_word b = t ++ [c] /\ is_whitespace c = true)
    /\ (w = [] -> before_word b = []).
Proof.
  exists (suffix_while nonblank (strip_suffix blank b)), (suffix_while blank b).
  unfold before_word. split; [|split; [|split; [|split]]].
  - rewrite app_assoc, <- strip_suffix_split. apply strip_suffix_split.
  - apply suffix_while_all.
  - eapply Forall_impl; [|apply suffix_while_all]. intros c. unfold nonblank. rewrite negb_true_iff. auto.
  - destruct (strip_suffix_last nonblank (strip_suffix blank b)) as [->|(t & c & -> & Hc)]; [left; reflexivity|].
    right. exists t, c. split; [reflexivity|]. unfold nonblank in Hc. rewrite negb_false_iff in Hc. exact Hc.
  - intros Hw. destruct (strip_suffix_last blank b) as [E|(t & c & E & Hc)].
    + rewrite E. reflexivity.
    + exfalso. unfold suffix_while in Hw. rewrite E, rev_app_distr in Hw. simpl in Hw.
      unfold nonblank in Hw. unfold blank in Hc. rewrite Hc in Hw. simpl in Hw.
      apply (f_equal (@length _)) in Hw. rewrite app_length in Hw. simpl in Hw. lia.
Qed.

(** ** wrapping *)

Lemma wrap_lines_shift columns s w l k :
  fold_left (wrap_step cw columns) s (w, l + k)
  = (fst (fold_left (wrap_step cw columns) s (w, l)), snd (fold_left (wrap_step cw columns) s (w, l)) + k).
Proof.
  revert w l; induction s as [|c s IH]; intros w l; [reflexivity|].
  cbn [fold_left]. unfold wrap_step at 2 4 6.
  destruct (c =? 10)%N; [apply (IH 0 (S l))|].
  destruct ((0 <? columns) && (columns <? w + cw c)); [apply (IH (cw c) (S l)) | apply IH].
Qed.

Lemma wrap_lines_mono columns s w l :
  l <= snd (fold_left (wrap_step cw columns) s (w, l)).
Proof.
  revert w l; induction s as [|c s IH]; intros w l; [simpl; lia|].
  cbn [fold_left]. unfold wrap_step at 2.
  destruct (c =? 10)%N; [specialize (IH 0 (S l)); lia|].
  destruct (_ && _); [specialize (IH (cw c) (S l)); lia | apply IH].
Qed.

Lemma wrap_col columns s w l :
  0 < columns -> w <= columns -> (forall c, In c s -> cw c <= columns) ->
  fst (fold_left (wrap_step cw columns) s (w, l)) <= columns.
Proof.
  revert w l; induction s as [|c s IH]; intros w l H0 Hw Hs; [exact Hw|].
  cbn [fold_left]. unfold wrap_step at 2.
  destruct (c =? 10)%N; [apply IH; [exact H0 | lia | intros d Hd; apply Hs; right; exact Hd]|].
  replace (0 <? columns) with true by (symmetry; apply Nat.ltb_lt; lia). simpl andb.
  destruct (Nat.ltb_spec columns (w + cw c)) as [H|H];
    (apply IH; [exact H0 | | intros d Hd; apply Hs; right; exact Hd]).
  - apply Hs. left. reflexivity.
  - exact H.
Qed.

Lemma wrap_unbounded s w l :
  ~ In 10%N s -> fold_left (wrap_step cw 0) s (w, l) = (w + list_sum (map cw s), l).
Proof.
  revert w; induction s as [|c s IH]; intros w H; simpl.
  - rewrite Nat.add_0_r. reflexivity.
  - destruct (N.eqb_spec c 10) as [->|Hc]; [exfalso; apply H; left; reflexivity|].
    rewrite IH by (intros Hin; apply H; right; exact Hin). f_equal. lia.
Qed.

Lemma cursor_pos_ok z columns pw :
  cursor_pos cw (ed_of z) columns pw = Some (fold_left (wrap_step cw columns) (before z) (pw, 0)).
Proof.
  unfold cursor_pos. rewrite byte_index_ed_of. simpl cur. simpl text.
  destruct (Nat.eqb_spec (length (before z)) 0) as [H|H].
  - apply length_zero_iff_nil in H. rewrite H. reflexivity.
  - unfold whole. rewrite split_byte_app. reflexivity.
Qed.

Lemma line_count_ok z columns pw :
  line_count cw (ed_of z) columns pw
  = S (snd (fold_left (wrap_step cw columns) (whole z) (pw, 0))).
Proof.
  unfold line_count. simpl text.
  assert (H : snd (fold_left (wrap_step cw columns) (whole z) (pw, 1))
              = S (snd (fold_left (wrap_step cw columns) (whole z) (pw, 0)))).
  { change (pw, 1) with (pw, 0 + 1). rewrite (wrap_lines_shift columns (whole z) pw 0 1). simpl. lia. }
  destruct (whole z); [reflexivity | exact H].
Qed.

Lemma cursor_line_lt z columns pw col line :
  cursor_pos cw (ed_of z) columns pw = Some (col, line) ->
  line < line_count cw (ed_of z) columns pw.
Proof.
  rewrite cursor_pos_ok, line_count_ok. intros [= E]. unfold whole.
  rewrite fold_left_app, E. pose proof (wrap_lines_mono columns (after z) col line). lia.
Qed.

(** ** nearest column *)

Lemma column_S s i : i < length s -> exists c, nth_error s i = Some c /\ column cw s (S i) = column cw s i + cw c.
Proof.
  revert i; induction s as [|x s IH]; intros i Hi; simpl in Hi; [lia|].
  destruct i as [|i].
  - exists x. split; [reflexivity|]. unfold column. simpl. lia.
  - destruct (IH i) as (c & Hc & E); [lia|]. exists c. split; [exact Hc|].
    unfold column in *. simpl. simpl in E. lia.
Qed.

Lemma column_mono s i j : i <= j -> column cw s i <= column cw s j.
Proof.
  intros H. unfold column. replace (firstn j s) with (firstn i s ++ firstn (j - i) (skipn i s)).
  - rewrite map_app, list_sum_app. lia.
  - rewrite <- (firstn_skipn i (firstn j s)), firstn_firstn, Nat.min_l by exact H.
    rewrite skipn_firstn_comm. reflexivity.
Qed.

Lemma cursor_for_width_bounds t s cur0 n :
  let r := cursor_for_width cw t s cur0 n in
  n <= r <= n + length s
  /\ (forall i, i < r - n -> cur0 + column cw s i + (cur0 + column cw s (S i)) <= 2 * t)
  /\ (r - n < length s -> 2 * t < cur0 + column cw s (r - n) + (cur0 + column cw s (S (r - n)))).
Proof.
  revert cur0 n; induction s as [|c s IH]; intros cur0 n r.
  - simpl in r. subst r. simpl. split; [lia|]. split; intros; lia.
  - subst r. cbn [cursor_for_width].
    assert (Hcol : forall i, column cw (c :: s) (S i) = cw c + column cw s i) by reflexivity.
    destruct (Nat.ltb_spec (2 * t) (2 * cur0 + cw c)) as [H|H].
    + split; [lia|]. split; [intros; lia|]. intros _. rewrite Nat.sub_diag, Hcol.
      unfold column. simpl. lia.
    + destruct (IH (cur0 + cw c) (S n)) as (H1 & H2 & H3).
      set (r := cursor_for_width cw t s (cur0 + cw c) (S n)) in *.
      split; [simpl; lia|]. split.
      * intros [|i] Hi.
        -- rewrite Hcol. unfold column. simpl. lia.
        -- specialize (H2 i). rewrite !Hcol. lia.
      * intros Hl. simpl in Hl. replace (r - n) with (S (r - S n)) by lia. rewrite !Hcol.
        assert (r - S n < length s) by lia. specialize (H3 H0). lia.
Qed.

(** distance between two columns *)
Definition dist (a b : nat) : nat := (a - b) + (b - a).

Lemma click_nearest e t j :
  j <= length (text e) ->
  dist t (column cw (text e) (cur (set_cursor_from_display_width cw e t)))
  <= dist t (column cw (text e) j).
Proof.
  intros Hj. simpl.
  destruct (cursor_for_width_bounds t (text e) 0 0) as (H1 & H2 & H3).
  set (r := cursor_for_width cw t (text e) 0 0) in *. rewrite Nat.sub_0_r in H2, H3. simpl in H2, H3.
  unfold dist. destruct (Nat.lt_trichotomy j r) as [Hlt|[->|Hgt]]; [| lia |].
  - (* j < r *)
    pose proof (H2 (r - 1) ltac:(lia)) as Hr. replace (S (r - 1)) with r in Hr by lia.
    pose proof (column_mono (text e) j (r - 1) ltac:(lia)).
    pose proof (column_mono (text e) (r - 1) r ltac:(lia)). lia.
  - assert (Hl : r < length (text e)) by lia. specialize (H3 Hl).
    pose proof (column_mono (text e) (S r) j ltac:(lia)).
    pose proof (column_mono (text e) r (S r) ltac:(lia)). lia.
Qed.

End P.
