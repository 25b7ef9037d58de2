(** Lines of plain words. *)
From Verif Require Import Base Token_Model Comp_Model Comp_Spec Comp_Proofs.

Lemma plain_cons c w : plain (c :: w) -> (is_separator c Parser = false /\ c <> 39%N /\ c <> 34%N /\ c <> 92%N /\ is_whitespace c = false) /\ plain w.
Proof.
  intros H. inversion H as [|? ? [A B] C]; subst. split; [|exact C]. cbn in A. repeat split; try (intros ->; apply A; tauto); [|exact B].
  cbn. destruct (N.eqb_spec c 32) as [-> |]; [exfalso; apply A; tauto|]. destruct (N.eqb_spec c 9) as [-> |]; [exfalso; apply A; tauto|]. reflexivity.
Qed.
Lemma scan_plain (w : str) : plain w -> forall r b i ss cur st,
  scan_from Parser b i (w ++ r) (Scan ss cur st Unquoted false) =
  scan_from Parser (b + blen w) (i + length w) r (Scan ss (cur ++ w) (match w with [] => st | _ => ensure st b i end) Unquoted false).
Proof.
  induction w as [|c w IH]; intros P r b i ss cur st.
  - cbn [app blen length]. rewrite app_nil_r, !Nat.add_0_r. reflexivity.
  - apply plain_cons in P as ((S & Q1 & Q2 & Q3 & _) & P). cbn [app scan_from]. unfold scan1. cbn [escaped quote spans Token_Model.current token_start].
    rewrite S. destruct (N.eqb_spec c 39); [congruence|]. destruct (N.eqb_spec c 34); [congruence|]. destruct (N.eqb_spec c 92); [congruence|].
    rewrite (IH P). cbn [blen length]. rewrite <- app_assoc. cbn [app]. f_equal; try lia.
    destruct w; [reflexivity|]. f_equal. unfold ensure. destruct st; reflexivity.
Qed.
Fixpoint spans_of (b i : nat) (ws : list str) (pre : str) : list span :=
  match ws with
  | [] => match pre with [] => [] | _ => [Span pre b (b + blen pre) i (i + length pre)] end
  | w :: r => Span w b (b + blen w) i (i + length w) :: spans_of (b + blen w + 1) (i + length w + 1) r pre
  end.
Definition word (w : str) : Prop := plain w /\ w <> [].
Lemma scan_words ws pre : Forall word ws -> plain pre -> forall b i ss,
  spans (scan_from Parser b i (line_of ws pre) (Scan ss [] None Unquoted false)) = ss ++ spans_of b i ws pre.
Proof.
  intros H P. unfold line_of. induction H as [|w ws [Pw Nw] _ IH]; intros b i ss.
  - cbn [flat_map app spans_of]. rewrite <- (app_nil_r pre) at 1. rewrite (scan_plain pre P). cbn [scan_from]. unfold push_current. cbn [token_start].
    destruct pre as [|c pre]; cbn [ensure spans Token_Model.current app]; [rewrite app_nil_r; reflexivity|reflexivity].
  - cbn [flat_map spans_of]. rewrite <- !app_assoc. rewrite (scan_plain w Pw). cbn [app scan_from]. unfold scan1. cbn [escaped quote is_separator mem_char existsb N.eqb Pos.eqb orb].
    unfold push_current. cbn [token_start ensure]. destruct w as [|c w]; [congruence|]. cbn [ensure Token_Model.current spans quote escaped app].
    rewrite IH. rewrite <- app_assoc. cbn [app]. change (utf8_len 32%N) with 1. replace (S (i + length (c :: w))) with (i + length (c :: w) + 1) by lia. reflexivity.
Qed.
Lemma line_cons w ws pre : line_of (w :: ws) pre = w ++ 32%N :: line_of ws pre.
Proof. unfold line_of. cbn [flat_map]. rewrite <- !app_assoc. reflexivity. Qed.
Lemma blen_line_cons w ws pre : blen (line_of (w :: ws) pre) = blen w + 1 + blen (line_of ws pre).
Proof. rewrite line_cons, blen_app. cbn [blen]. change (utf8_len 32%N) with 1. lia. Qed.
Lemma cursor_spans ws pre : forall j b i,
  cursor_token j (spans_of b i ws pre) (b + blen (line_of ws pre)) = (j + length ws, match pre with [] => false | _ => true end).
Proof.
  induction ws as [|w ws IH]; intros j b i; cbn [spans_of cursor_token length].
  - unfold line_of. cbn [flat_map app]. rewrite Nat.add_0_r. destruct pre as [|c pre]; [reflexivity|]. cbn [cursor_token byte_end byte_start].
    rewrite Nat.leb_refl. destruct (Nat.leb_spec b (b + blen (c :: pre))); [reflexivity|lia].
  - cbn [byte_end]. rewrite blen_line_cons. destruct (Nat.leb_spec (b + (blen w + 1 + blen (line_of ws pre))) (b + blen w)); [lia|].
    replace (b + (blen w + 1 + blen (line_of ws pre))) with (b + blen w + 1 + blen (line_of ws pre)) by lia. rewrite IH. f_equal. lia.
Qed.
Lemma raw_spans ws pre : forall b i, map raw (spans_of b i ws pre) = ws ++ match pre with [] => [] | _ => [pre] end.
Proof. induction ws as [|w ws IH]; intros b i; cbn [spans_of]; [destruct pre; reflexivity|]. cbn [map raw app]. f_equal. apply IH. Qed.
Lemma nth_spans ws c pre : forall b i, exists b' i', nth_error (spans_of b i ws (c :: pre)) (length ws) = Some (Span (c :: pre) b' (b' + blen (c :: pre)) i' (i' + length (c :: pre))) /\ b + blen (line_of ws (c :: pre)) = b' + blen (c :: pre).
Proof.
  induction ws as [|w ws IH]; intros b i.
  - exists b, i. split; reflexivity.
  - cbn [spans_of length nth_error]. destruct (IH (b + blen w + 1) (i + length w + 1)) as (b' & i' & E1 & E2). exists b', i'. split; [exact E1|]. rewrite blen_line_cons. lia.
Qed.
Lemma cursor_words ws pre : Forall word ws -> plain pre -> cursor_tokens (line_of ws pre) (blen (line_of ws pre)) = (ws ++ [pre], length ws).
Proof.
  intros H P. unfold cursor_tokens, tokenize. rewrite (scan_words ws pre H P 0 0 []). cbn [app].
  pose proof (cursor_spans ws pre 0 0 0) as C. cbn [Nat.add] in C. rewrite C, raw_spans. destruct pre as [|c pre].
  - rewrite app_nil_r, firstn_all, skipn_all. reflexivity.
  - destruct (nth_spans ws c pre 0 0) as (b & i & E1 & E2). rewrite E1. cbn [byte_start raw]. cbn [Nat.add] in E2. rewrite E2.
    replace (b + blen (c :: pre) - b) with (blen (c :: pre)) by lia. rewrite Nat.ltb_irrefl. reflexivity.
Qed.
Lemma space_words cmd ws pre : word cmd -> space_after (line_of (cmd :: ws) pre) cmd = true.
Proof.
  intros [P N]. rewrite line_cons. unfold space_after. destruct cmd as [|c cmd]; [congruence|]. pose proof (plain_cons _ _ P) as ((_ & _ & _ & _ & W) & _).
  assert (trim_start ((c :: cmd) ++ 32%N :: line_of ws pre) = (c :: cmd) ++ 32%N :: line_of ws pre) as ->.
  { unfold trim_start. cbn [app]. cbn. rewrite W. reflexivity. }
  assert (starts_with (c :: cmd) ((c :: cmd) ++ 32%N :: line_of ws pre) = true) as -> by (apply starts_with_iff; eexists; reflexivity).
  rewrite nth_error_app2, Nat.sub_diag by lia. reflexivity.
Qed.
Lemma parse_words al an cmd ws pre : word cmd -> Forall word ws -> plain pre ->
  let line := line_of (cmd :: ws) pre in
  parse al an line (blen line) = analyze al an (cmd :: ws ++ [pre]) (S (length ws)) line.
Proof. intros C H P line. unfold parse, line. rewrite (cursor_words (cmd :: ws) pre); [reflexivity|constructor; assumption|exact P]. Qed.
Lemma ascii_blen (s : str) : ascii s -> blen s = length s.
Proof.
  induction 1 as [|c s H _ IH]; [reflexivity|]. cbn [blen length]. rewrite IH. unfold utf8_len. destruct (N.ltb_spec c 128); [reflexivity|lia].
Qed.
