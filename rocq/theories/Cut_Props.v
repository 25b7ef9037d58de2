(** Shortening text: C73, C74. *)
From Verif Require Import Base Cut_Model Cut_Spec.

(** ** C73: cuts at a fixed byte offset *)
Lemma split_none s n : split_byte s n = None <-> (blen s < n \/ exists p c q, splits n p c q s).
Proof.
  revert n. induction s as [|c s IH]; intros n.
  - destruct n as [|n].
    + cbn. split; [discriminate|]. intros [H|(p & c & q & E & _)]; [lia|destruct p; discriminate].
    + cbn. split; [intros _; left; lia|reflexivity].
  - destruct n as [|n].
    + cbn. split; [discriminate|]. intros [H|(p & d & q & _ & H)]; lia.
    + cbn [split_byte blen]. destruct (Nat.leb_spec (utf8_len c) (S n)) as [Le|Gt].
      * destruct (split_byte s (S n - utf8_len c)) as [[a b]|] eqn:E.
        -- split; [discriminate|]. intros H. exfalso. assert (N : split_byte s (S n - utf8_len c) = None); [|congruence].
           apply IH. destruct H as [H|(p & d & q & Es & H)]; [left; lia|]. destruct p as [|e p].
           ++ injection Es as <- <-. cbn in H. lia.
           ++ injection Es as <- ->. cbn [blen] in H. right. exists p, d, q. split; [reflexivity|]. lia.
        -- split; [|reflexivity]. intros _. apply IH in E. destruct E as [E|(p & d & q & -> & H)]; [left; lia|].
           right. exists (c :: p), d, q. split; [reflexivity|]. cbn [blen]. lia.
      * split; [|reflexivity]. intros _. right. exists [], c, s. split; [reflexivity|]. cbn [blen]. lia.
Qed.
(** What every cut of this form does: a short text is kept, a long one keeps its first [keep]
    bytes, and the program fails exactly when these end inside a character. *)
Theorem C73_cut_exact : forall limit keep mark s, keep <= limit ->
  (blen s <= limit -> cut limit keep mark s = Some s) /\
  (limit < blen s -> forall a b, s = a ++ b -> blen a = keep -> cut limit keep mark s = Some (a ++ mark)) /\
  (cut limit keep mark s = None <-> limit < blen s /\ exists p c q, splits keep p c q s).
Proof.
  intros limit keep mark s K. unfold cut. split; [|split].
  - intros H. destruct (Nat.ltb_spec limit (blen s)); [lia|reflexivity].
  - intros H a b -> E. destruct (Nat.ltb_spec limit (blen (a ++ b))); [|lia]. rewrite <- E, split_byte_app. reflexivity.
  - destruct (Nat.ltb_spec limit (blen s)) as [L|G].
    + destruct (split_byte s keep) as [[a b]|] eqn:E.
      * split; [discriminate|]. intros [_ H]. assert (N : split_byte s keep = None) by (apply split_none; right; exact H). congruence.
      * split; [|reflexivity]. intros _. split; [exact L|]. apply split_none in E. destruct E as [E|E]; [lia|exact E].
    + split; [discriminate|]. intros [H _]. lia.
Qed.
Lemma ascii_blen s : ascii s -> blen s = length s.
Proof. induction 1 as [|c s H _ IH]; [reflexivity|]. cbn. rewrite IH. unfold utf8_len. replace (c <? 128)%N with true by (symmetry; apply N.ltb_lt; exact H). reflexivity. Qed.
Lemma ascii_app a b : ascii (a ++ b) <-> ascii a /\ ascii b.
Proof. apply Forall_app. Qed.
Lemma ascii_app2 a b : ascii a -> ascii b -> ascii (a ++ b).
Proof. intros A B. apply ascii_app. split; assumption. Qed.
Lemma ascii_no_split n p c q s : ascii s -> ~ splits n p c q s.
Proof. intros A [-> H]. apply ascii_app in A. destruct A as [_ A]. inversion A; subst. unfold utf8_len in H. replace (c <? 128)%N with true in H by (symmetry; apply N.ltb_lt; assumption). lia. Qed.
Lemma ascii_cut limit keep mark s : keep <= limit -> ascii s -> exists r, cut limit keep mark s = Some r.
Proof.
  intros K A. destruct (cut limit keep mark s) as [r|] eqn:E; [eauto|]. apply C73_cut_exact in E; [|exact K]. destruct E as [_ (p & c & q & H)]. exfalso. exact (ascii_no_split _ _ _ _ _ A H).
Qed.
Lemma ascii_trim_start s : ascii s -> ascii (trim_start s).
Proof. induction 1; cbn; [constructor|]. destruct (is_whitespace x); [assumption|constructor; assumption]. Qed.
Lemma ascii_rev s : ascii s -> ascii (rev s). Proof. apply Forall_rev. Qed.
Lemma ascii_trim s : ascii s -> ascii (trim s).
Proof. intros A. unfold trim, trim_end. apply ascii_rev, ascii_trim_start, ascii_rev, ascii_trim_start, A. Qed.
Lemma ascii_digits f n : ascii (digits f n).
Proof.
  revert n. induction f as [|f IH]; intros n; [constructor|]. cbn [digits]. apply ascii_app. split; [destruct (n <? 10); [constructor|apply IH]|].
  constructor; [|constructor]. pose proof (Nat.mod_upper_bound n 10). lia.
Qed.
Lemma ascii_lit x : forallb (fun c => (c <? 128)%N) (lit x) = true -> ascii (lit x).
Proof. intros H. apply Forall_forall. intros c I. rewrite forallb_forall in H. apply N.ltb_lt, H, I. Qed.
Lemma ascii_before_newline s : ascii s -> ascii (before_newline s).
Proof. induction 1; cbn; [constructor|]. destruct (x =? 10)%N; [constructor|constructor; assumption]. Qed.
Lemma ascii_drop_cr s : ascii s -> ascii (drop_cr s).
Proof.
  intros B. unfold drop_cr. destruct (rev s) as [|d r] eqn:R; [exact B|]. destruct (d =? 13)%N; [|exact B].
  apply ascii_rev. apply ascii_rev in B. rewrite R in B. inversion B; assumption.
Qed.
Lemma ascii_first_line s l : ascii s -> first_line s = Some l -> ascii l.
Proof.
  intros A E. assert (B := ascii_before_newline s A). assert (D : l = if has_newline s then drop_cr (before_newline s) else before_newline s).
  { destruct s; [discriminate|]. unfold first_line in E. cbv zeta in E. congruence. }
  rewrite D. destruct (has_newline s); [apply ascii_drop_cr, B|exact B].
Qed.
Lemma cut_ascii l k m s r : ascii s -> ascii m -> cut l k m s = Some r -> ascii r.
Proof.
  intros A M E. unfold cut in E. destruct (l <? blen s); [|congruence]. destruct (split_byte s k) as [[a b]|] eqn:S; [|discriminate].
  apply split_byte_sound in S. destruct S as [S _]. rewrite S in A. apply ascii_app in A. replace r with (a ++ m) by congruence. apply ascii_app2; [apply A|exact M].
Qed.
(** No text of plain ASCII makes any of these displays fail.  Other texts: see below. *)
Theorem C73_ascii_displays_partial : forall s, ascii s ->
  notification_preview s <> None /\ bookmark_row s <> None /\ snippet_row s <> None /\ mcp_row s <> None /\ out_row s <> None /\
  safe_run_preview s <> None /\ analysis_text s <> None /\ head_name s <> None.
Proof.
  intros s A. assert (C : forall l k m t, k <= l -> ascii t -> cut l k m t <> None) by (intros l k m t K B; destruct (ascii_cut l k m t K B) as [r ->]; discriminate).
  split; [apply C; [lia|exact A]|]. split; [apply C; [lia|exact A]|]. split; [apply C; [lia|exact A]|]. split; [apply C; [lia|exact A]|].
  split; [|split; [|split]].
  - unfold out_row. apply C; [lia|]. destruct (first_line s) as [l|] eqn:E; [exact (ascii_first_line s l A E)|apply ascii_lit; reflexivity].
  - unfold safe_run_preview. match goal with |- context [cut ?l ?k ?m s] => destruct (ascii_cut l k m s (le_n _) A) as [r E]; rewrite E end.
    assert (AR : ascii r).
    { refine (cut_ascii _ _ _ _ _ A _ E). apply ascii_app2; [apply ascii_lit; reflexivity|]. apply ascii_app2; [apply ascii_digits|apply ascii_lit; reflexivity]. }
    match goal with |- context [cut ?l ?k ?m r] => destruct (ascii_cut l k m r (le_n _) AR) as [r' ->] end. discriminate.
  - unfold analysis_text. apply C; [lia|exact A].
  - unfold head_name. destruct (starts_with _ _); [discriminate|]. destruct (Nat.leb_spec 7 (blen (trim s))) as [L|]; [|discriminate].
    destruct (split_byte (trim s) 7) as [[a b]|] eqn:E; [discriminate|]. apply split_none in E. destruct E as [E|(p & c & q & E)]; [lia|].
    exfalso. exact (ascii_no_split _ _ _ _ _ (ascii_trim s A) E).
Qed.
(** A long text with a character across the cut makes the display fail: any command, bookmark,
    snippet, description or output line.  The texts below are one run of such texts; [c] is any
    character of two bytes or more. *)
Definition across (n : nat) (c : char) (rest : str) : str := repeat 97%N n ++ c :: rest.
Lemma across_splits n c rest : 1 < utf8_len c -> splits (S n) (repeat 97%N n) c rest (across n c rest).
Proof. intros U. split; [reflexivity|]. assert (B : blen (repeat 97%N n) = n) by (rewrite ascii_blen, repeat_length; [reflexivity|]; apply Forall_forall; intros x I; apply repeat_spec in I; subst; reflexivity). rewrite B. lia. Qed.
Lemma across_blen n c rest : blen (across n c rest) = n + utf8_len c + blen rest.
Proof. unfold across. rewrite blen_app. cbn [blen]. assert (B : blen (repeat 97%N n) = n) by (rewrite ascii_blen, repeat_length; [reflexivity|]; apply Forall_forall; intros x I; apply repeat_spec in I; subst; reflexivity). lia. Qed.
Theorem C73_long_text_shown_refuted : forall c rest, 1 < utf8_len c -> 10 <= blen rest -> 
  notification_preview (across 46 c rest) = None /\ bookmark_row (across 46 c rest) = None /\ snippet_row (across 46 c rest) = None /\ mcp_row (across 46 c rest) = None.
Proof.
  intros c rest U L. assert (H : cut 50 47 dots (across 46 c rest) = None).
  { apply C73_cut_exact; [lia|]. split; [rewrite across_blen; lia|]. do 3 eexists. apply across_splits, U. }
  split; [exact H|]. split; [exact H|]. split; exact H.
Qed.
Lemma before_newline_none s : ~ In 10%N s -> before_newline s = s /\ has_newline s = false.
Proof.
  intros N. split.
  - induction s as [|c s IH]; [reflexivity|]. cbn [before_newline]. destruct (N.eqb_spec c 10) as [->|Q]; [exfalso; apply N; left; reflexivity|].
    rewrite IH; [reflexivity|]. intros H. apply N. right. exact H.
  - unfold has_newline, mem_char. destruct (existsb _ s) eqn:E; [|reflexivity]. apply existsb_exists in E. destruct E as (x & I & X). apply N.eqb_eq in X. subst x. contradiction.
Qed.
Theorem C73_long_output_shown_refuted : forall c rest, 1 < utf8_len c -> 10 <= blen rest -> ~ In 10%N (c :: rest) -> out_row (across 56 c rest) = None.
Proof.
  intros c rest U L N. unfold out_row. assert (NN : ~ In 10%N (across 56 c rest)).
  { unfold across. rewrite in_app_iff. intros [I|I]; [apply repeat_spec in I; discriminate|exact (N I)]. }
  destruct (before_newline_none _ NN) as [B H]. unfold first_line. change (across 56 c rest) with (97%N :: repeat 97%N 55 ++ c :: rest) at 1. cbv iota. rewrite B, H.
  apply C73_cut_exact; [lia|]. split; [rewrite across_blen; lia|]. do 3 eexists. apply across_splits, U.
Qed.
Theorem C73_downloaded_script_shown_refuted : forall c rest, 1 < utf8_len c -> blen (across (2 * 1000 - 1) c rest) <= 8 * 1000 -> safe_run_preview (across (2 * 1000 - 1) c rest) = None.
Proof.
  intros c rest U L. unfold safe_run_preview. match goal with |- context [cut ?l ?k ?m (across ?n c rest)] => rewrite (proj1 (C73_cut_exact l k m (across n c rest) (le_n _)) L) end.
  match goal with |- context [cut ?l ?k ?m (across ?n c rest)] => replace (cut l k m (across n c rest)) with (@None str); [reflexivity|symmetry] end.
  apply C73_cut_exact; [reflexivity|]. split; [rewrite across_blen; lia|]. do 3 eexists. replace (2 * 1000) with (S (2 * 1000 - 1)) by lia. apply (across_splits (2 * 1000 - 1) c rest), U.
Qed.
Theorem C73_git_head_shown_refuted : forall c, 1 < utf8_len c -> is_whitespace c = false -> head_name (across 6 c []) = None.
Proof.
  intros c U W. unfold head_name. assert (T : trim (across 6 c []) = across 6 c []).
  { unfold trim. change (trim_start (across 6 c [])) with (across 6 c []). unfold trim_end. unfold across. rewrite rev_app_distr. cbn [rev app trim_start repeat].
    rewrite W. cbn. reflexivity. }
  rewrite T. change (starts_with (lit "ref: refs/heads/") (across 6 c [])) with false. cbv iota. rewrite across_blen.
  replace (7 <=? 6 + utf8_len c + blen []) with true by (symmetry; apply Nat.leb_le; lia).
  replace (split_byte (across 6 c []) 7) with (@None (str * str)); [reflexivity|]. symmetry. apply split_none. right. do 3 eexists. apply across_splits, U.
Qed.

(** ** Careful cuts *)
Lemma floor_prefix_spec n s : longest_within n s (floor_prefix n s).
Proof.
  revert n. induction s as [|c s IH]; intros n; cbn [floor_prefix].
  - split; [exists []; reflexivity|]. split; [cbn; lia|]. intros a [b E] _. symmetry in E. apply app_eq_nil in E. destruct E as [-> _]. exists []. reflexivity.
  - destruct (Nat.leb_spec (utf8_len c) n) as [L|G].
    + destruct (IH (n - utf8_len c)) as ([b P] & B & M). split; [exists b; cbn; rewrite <- P; reflexivity|]. split; [cbn [blen]; lia|].
      intros a [b' E] BA. destruct a as [|d a]; [exists (c :: floor_prefix (n - utf8_len c) s); reflexivity|]. injection E as <- E. cbn [blen] in BA.
      destruct (M a) as [x X]; [exists b'; exact E|lia|]. exists x. cbn. rewrite <- X. reflexivity.
    + split; [exists (c :: s); reflexivity|]. split; [cbn; lia|]. intros a [b' E] BA. destruct a as [|d a]; [exists []; reflexivity|]. injection E as <- _. cbn [blen] in BA. lia.
Qed.
(** What the tools send and show: the whole text when it is short enough, the longest whole
    characters that fit otherwise. *)
Theorem C73_tool_text_cut : forall s,
  (blen s <= 80 -> truncate_args s = s) /\ (80 < blen s -> exists a, longest_within 80 s a /\ truncate_args s = a ++ dots) /\
  (blen s <= 4096 -> truncate_output s = s) /\
  (4096 < blen s -> exists a note, longest_within 4096 s a /\ truncate_output s = a ++ 10%N :: note).
Proof.
  intros s. unfold truncate_args, truncate_output. split; [|split; [|split]].
  - intros H. destruct (Nat.ltb_spec 80 (blen s)); [lia|reflexivity].
  - intros H. destruct (Nat.ltb_spec 80 (blen s)); [|lia]. exists (floor_prefix 80 s). split; [apply floor_prefix_spec|reflexivity].
  - intros H. destruct (Nat.ltb_spec 4096 (blen s)); [lia|reflexivity].
  - intros H. destruct (Nat.ltb_spec 4096 (blen s)); [|lia]. cbv zeta. do 2 eexists. split; [apply floor_prefix_spec|]. reflexivity.
Qed.
(** Cuts counted in characters: the first [max] (or [max] less three) characters and dots. *)
Theorem C73_character_cut : forall s max,
  (length s <= max -> truncate_chars s max = Some s /\ truncate_string s max = s) /\
  (max < length s -> truncate_chars s max = Some (firstn max s ++ dots) /\ truncate_string s max = firstn (max - 3) s ++ dots).
Proof.
  intros s max. unfold truncate_chars, truncate_string. split; intros H; destruct (Nat.leb_spec (length s) max); try lia; [split; reflexivity|].
  split; [|reflexivity]. unfold char_offsets. rewrite nth_error_offsets by exact H. cbn [plus].
  rewrite <- (firstn_skipn max s) at 1. rewrite split_byte_app. reflexivity.
Qed.
(** Cuts to a display width: the result fits, and is the text or a prefix of it and an
    ellipsis (taken to be one column wide). *)
Lemma take_width_spec cw max s used : cw ellipsis <= 1 -> 0 < max -> used <= max - 1 -> max < used + width cw s ->
  exists a, prefix a s /\ take_width cw max used s = a ++ [ellipsis] /\ used + width cw a <= max - 1.
Proof.
  intros E M. revert used. induction s as [|c s IH]; intros used U W; cbn [take_width].
  - unfold width in W. cbn in W. lia.
  - destruct (Nat.ltb_spec (max - 1) (used + cw c)) as [G|L].
    + exists []. split; [exists (c :: s); reflexivity|]. split; [reflexivity|]. unfold width. cbn. lia.
    + destruct (IH (used + cw c)) as (a & [b ->] & E2 & B); [lia| |]. { unfold width in *. cbn [map list_sum fold_right] in W. unfold list_sum in *. lia. }
      exists (c :: a). split; [exists b; reflexivity|]. split; [rewrite E2; reflexivity|]. unfold width in *. cbn [map list_sum fold_right]. unfold list_sum in *. lia.
Qed.
Theorem C73_width_cut : forall cw s max, cw ellipsis <= 1 ->
  width cw (truncate_to_width cw s max) <= max /\
  (0 < max -> width cw s <= max -> truncate_to_width cw s max = s) /\
  (0 < max -> max < width cw s -> exists a, prefix a s /\ truncate_to_width cw s max = a ++ [ellipsis]).
Proof.
  intros cw s max E. unfold truncate_to_width. destruct (Nat.eqb_spec max 0) as [->|N].
  - split; [unfold width; cbn; lia|]. split; intros; lia.
  - destruct (Nat.leb_spec (width cw s) max) as [L|G].
    + split; [exact L|]. split; [reflexivity|intros; lia].
    + destruct (take_width_spec cw max s 0 E) as (a & P & Q & B); [lia|lia|lia|]. split; [|split; [intros; lia|intros; exists a; split; [exact P|exact Q]]].
      rewrite Q. unfold width in *. rewrite map_app, list_sum_app. cbn [map list_sum fold_right]. unfold list_sum in *. lia.
Qed.
(** The token before the cursor is found also with the cursor inside a character. *)
Lemma step_back_spec s b : b <= blen s -> split_byte s (step_back s b) = Some (floor_prefix b s, skipn (length (floor_prefix b s)) s).
Proof.
  intros H. destruct (floor_prefix_spec b s) as ([q P] & B & M).
  assert (K : forall n, n <= b -> blen (floor_prefix b s) <= n -> split_byte s (step_back s n) = Some (floor_prefix b s, q)).
  { induction n as [|n IH]; intros L G.
    - assert (Z : floor_prefix b s = []) by (apply blen_zero; lia). rewrite Z in *. cbn [app] in P. subst q.
      replace (step_back s 0) with 0 by (cbn [step_back]; destruct (on_boundary s 0); reflexivity). exact (split_byte_app [] s).
    - cbn [step_back]. unfold on_boundary. destruct (split_byte s (S n)) as [[a c]|] eqn:E.
      + rewrite E. apply split_byte_sound in E. destruct E as [E1 E2]. destruct (M a) as [x X]; [exists c; exact E1|lia|].
        assert (x = []). { rewrite X, blen_app in G. apply blen_zero. lia. } subst x. rewrite app_nil_r in X. assert (QC : c = q) by (rewrite X in P; apply (app_inv_head a); congruence). rewrite QC, X. reflexivity.
      + apply IH; [lia|]. destruct (Nat.eq_dec (blen (floor_prefix b s)) (S n)) as [Q|]; [|lia].
        rewrite P, <- Q in E. rewrite split_byte_app in E. discriminate. }
  rewrite (K b (le_n _) B). f_equal. f_equal. rewrite P at 2. rewrite skipn_app, skipn_all, Nat.sub_diag. reflexivity.
Qed.
Theorem C73_token_to_cursor : forall raw b,
  (blen raw <= b -> token_to_cursor raw b = Some raw) /\ (b < blen raw -> exists a, longest_within b raw a /\ token_to_cursor raw b = Some a).
Proof.
  intros raw b. unfold token_to_cursor. split; intros H; destruct (Nat.ltb_spec b (blen raw)); try lia; [reflexivity|].
  exists (floor_prefix b raw). split; [apply floor_prefix_spec|]. rewrite step_back_spec by lia. reflexivity.
Qed.
(** The cached prefix used for a typed text is the longest one that is alive. *)
Lemma rev_eq_nil {A} (l : list A) : rev l = [] -> l = [].
Proof. intros H. rewrite <- (rev_involutive l), H. reflexivity. Qed.
Lemma shorter_prefix_spec live r : match shorter_prefix live r with
  | Some k => live k = true /\ (exists x t, rev r = k ++ x :: t) /\ (forall k', live k' = true -> (exists x t, rev r = k' ++ x :: t) -> length k' <= length k)
  | None => forall k', live k' = true -> ~ exists x t, rev r = k' ++ x :: t end.
Proof.
  induction r as [|c r IH]; cbn [shorter_prefix].
  - intros k' _ (x & t & E). destruct k'; discriminate.
  - cbn [rev]. destruct (live (rev r)) eqn:L.
    + split; [exact L|]. split; [exists c, []; reflexivity|]. intros k' _ (x & t & E). apply (f_equal (@length char)) in E. rewrite !app_length in E. cbn [length] in E. lia.
    + assert (ST : forall k', live k' = true -> (exists x t, rev r ++ [c] = k' ++ x :: t) -> exists x t, rev r = k' ++ x :: t).
      { intros k' LK (x & t & E). destruct (rev t) as [|y u] eqn:R.
        - apply rev_eq_nil in R. subst t. apply app_inj_tail in E. destruct E as [E _]. congruence.
        - apply (f_equal (@rev char)) in R. rewrite rev_involutive in R. cbn in R. subst t. exists x, (rev u). rewrite app_comm_cons, app_assoc in E. apply app_inj_tail in E. apply E. }
      destruct (shorter_prefix live r) as [k|].
      * destruct IH as (I1 & (x & t & E) & I3). split; [exact I1|]. split; [exists x, (t ++ [c]); rewrite E, <- app_assoc; reflexivity|].
        intros k' LK H. apply I3; [exact LK|]. apply ST; assumption.
      * intros k' LK H. apply (IH k' LK). apply ST; assumption.
Qed.
Theorem C73_longest_cached_prefix : forall live s, match longest_live_prefix live s with
  | Some (k, exact_) => prefix k s /\ live k = true /\ (exact_ = true <-> k = s) /\ (forall k', prefix k' s -> live k' = true -> length k' <= length k)
  | None => forall k, prefix k s -> live k = false end.
Proof.
  intros live s. unfold longest_live_prefix. destruct (live s) eqn:L.
  - split; [exists []; symmetry; apply app_nil_r|]. split; [exact L|]. split; [tauto|]. intros k' [b ->] _. rewrite app_length. lia.
  - pose proof (shorter_prefix_spec live (rev s)) as H. rewrite rev_involutive in H.
    assert (ST : forall k', prefix k' s -> live k' = true -> exists x t, s = k' ++ x :: t).
    { intros k' [[|x t] E] LK; [rewrite app_nil_r in E; congruence|eauto]. }
    destruct (shorter_prefix live (rev s)) as [k|].
    + destruct H as (H1 & (x & t & E) & H3). split; [exists (x :: t); exact E|]. split; [exact H1|]. split; [split; [discriminate|intros ->; congruence]|].
      intros k' P LK. apply H3; [exact LK|]. apply ST; assumption.
    + intros k P. destruct (live k) eqn:LK; [|reflexivity]. exfalso. apply (H k LK). apply ST; assumption.
Qed.

(** ** C74: completing a form at the prompt *)
Lemma symbol_sep_iff c : symbol_sep c = true <-> separator c.
Proof. unfold symbol_sep, separator. rewrite !orb_true_iff, !N.eqb_eq. tauto. Qed.
Lemma symbol_sep_no c : symbol_sep c = false <-> ~ separator c.
Proof. rewrite <- symbol_sep_iff. destruct (symbol_sep c); split; congruence. Qed.
Lemma last_sep_none s : Forall (fun c => ~ separator c) s -> forall b, last_sep b s = None.
Proof. induction 1 as [|c s H _ IH]; intros b; [reflexivity|]. cbn. rewrite IH. apply symbol_sep_no in H. rewrite H. reflexivity. Qed.
Lemma last_sep_some a c t : separator c -> Forall (fun c => ~ separator c) t -> forall b, last_sep b (a ++ c :: t) = Some (b + blen a).
Proof.
  intros S T. induction a as [|d a IH]; intros b; cbn [app last_sep blen].
  - rewrite last_sep_none by exact T. apply symbol_sep_iff in S. rewrite S. f_equal. lia.
  - rewrite IH. f_equal. lia.
Qed.
Lemma last_word_ex s : exists o t, last_word s o t.
Proof.
  induction s as [|c s (o & t & IH)]; [exists None, []; constructor; constructor|]. destruct IH as [t H|a d t S H].
  - destruct (symbol_sep c) eqn:E; [exists (Some c), t; apply (lw_behind [] c t); [apply symbol_sep_iff, E|exact H]|exists None, (c :: t); constructor; constructor; [apply symbol_sep_no, E|exact H]].
  - exists (Some d), t. apply (lw_behind (c :: a) d t); assumption.
Qed.
Lemma trailing_symbol_spec s o t : last_word s o t ->
  trailing_symbol s = match o with Some c => if 1 <? utf8_len c then None else Some t | None => Some t end.
Proof.
  intros [u H|a c u SP H]; unfold trailing_symbol.
  - rewrite last_sep_none by exact H. destruct u; reflexivity.
  - rewrite last_sep_some by assumption. cbn [plus]. destruct (Nat.ltb_spec 1 (utf8_len c)) as [G|L].
    + replace (split_byte (a ++ c :: u) (S (blen a))) with (@None (str * str)); [reflexivity|]. symmetry. apply split_none. right. exists a, c, u. split; [reflexivity|]. lia.
    + pose proof (utf8_len_pos c). replace (a ++ c :: u) with ((a ++ [c]) ++ u) by (rewrite <- app_assoc; reflexivity).
      replace (S (blen a)) with (blen (a ++ [c])) by (rewrite blen_app; cbn [blen]; lia). rewrite split_byte_app. reflexivity.
Qed.
(** Drawing the line asks for the completion of a form: it never fails when the last blank or
    parenthesis is a plain one, and the text proposed keeps the line and completes its last word. *)
Lemma trim_end_prefix s : exists w, s = trim_end s ++ w /\ Forall (fun c => is_whitespace c = true) w.
Proof.
  enough (G : forall l, exists w, rev l = rev (trim_start l) ++ w /\ Forall (fun c => is_whitespace c = true) w) by (specialize (G (rev s)); rewrite rev_involutive in G; exact G).
  induction l as [|c l IH]; [exists []; split; [reflexivity|constructor]|].
  cbn [trim_start]. destruct (is_whitespace c) eqn:W; [|exists []; split; [rewrite app_nil_r; reflexivity|constructor]].
  destruct IH as (w & E & F). exists (w ++ [c]). split; [cbn [rev]; rewrite E at 1; rewrite <- app_assoc; reflexivity|]. apply Forall_app. split; [exact F|]. constructor; [exact W|constructor].
Qed.
Theorem C74_form_completion_partial : forall s o t, last_word (trim_end s) o t -> (forall c, o = Some c -> utf8_len c = 1) ->
  exists r, mcp_form_completion s = Some r /\
    forall full, r = Some full -> exists line blanks form rest, s = (line ++ t) ++ blanks /\ full = (line ++ t ++ rest) ++ blanks /\ form = t ++ rest /\ rest <> [] /\ In form mcp_forms.
Proof.
  intros s o t H P. unfold mcp_form_completion. cbv zeta. destruct (trim_end s) as [|x l] eqn:TE; [eexists; split; [reflexivity|discriminate]|].
  rewrite (trailing_symbol_spec _ _ _ H). assert (E : (match o with Some c => if 1 <? utf8_len c then None else Some t | None => Some t end) = Some t).
  { destruct o as [c|]; [|reflexivity]. rewrite (P c eq_refl). reflexivity. }
  rewrite E. destruct (_ || _); [eexists; split; [reflexivity|discriminate]|].
  destruct (find _ mcp_forms) as [c|] eqn:F; [|eexists; split; [reflexivity|discriminate]]. eexists. split; [reflexivity|]. intros full FE.
  match type of FE with Some ?v = _ => assert (FF : full = v) by congruence end. rewrite FF. clear FE FF.
  apply find_some in F. destruct F as [I F]. apply andb_true_iff in F. destruct F as [F1 F2]. apply starts_with_iff in F1. destruct F1 as [rest ->]. apply Nat.ltb_lt in F2. rewrite app_length in F2.
  destruct (trim_end_prefix s) as (w & ES & W). rewrite TE in ES.
  assert (LT : exists a, x :: l = a ++ t) by (inversion H; subst; [exists []; reflexivity|eexists (_ ++ [_]); rewrite <- app_assoc; reflexivity]). destruct LT as [a LT].
  exists a, w, (t ++ rest), rest. rewrite <- LT. split; [exact ES|]. split.
  - replace (skipn (length t) (t ++ rest)) with rest by (rewrite skipn_app, skipn_all, Nat.sub_diag; reflexivity).
    replace (skipn (length (x :: l)) s) with w by (rewrite ES, skipn_app, skipn_all, Nat.sub_diag; reflexivity).
    rewrite (app_assoc a), <- LT, <- app_assoc. reflexivity.
  - split; [reflexivity|]. split; [|exact I]. intros ->. cbn in F2. lia.
Qed.
(** Otherwise it fails: every line with a wide blank (a no-break space, an ideographic space)
    before its last word. *)
Lemma trim_start_app u v : u <> [] -> Forall (fun c => is_whitespace c = false) u -> trim_start (u ++ v) = u ++ v.
Proof. intros N F. destruct F as [|c u H F]; [contradiction N; reflexivity|]. cbn. rewrite H. reflexivity. Qed.
Theorem C74_form_completion_refuted : forall a c t blanks, is_whitespace c = true -> 1 < utf8_len c -> t <> [] -> Forall (fun d => ~ separator d) t ->
  Forall (fun d => is_whitespace d = true) blanks -> mcp_form_completion (a ++ c :: t ++ blanks) = None.
Proof.
  intros a c t blanks W U N F B.
  assert (TE : trim_end (a ++ c :: t ++ blanks) = a ++ c :: t).
  { unfold trim_end. replace (a ++ c :: t ++ blanks) with ((a ++ [c]) ++ t ++ blanks) by (rewrite <- app_assoc; reflexivity). rewrite !rev_app_distr.
    assert (FB : Forall (fun d => is_whitespace d = true) (rev blanks)) by (apply Forall_rev, B). revert FB. generalize (rev blanks). intros u FU. rewrite <- app_assoc.
    induction FU as [|d u H _ IH].
    - cbn [app]. rewrite trim_start_app.
      + rewrite !rev_app_distr, !rev_involutive. cbn [rev app]. rewrite <- app_assoc. reflexivity.
      + intros H. apply N. apply rev_eq_nil, H.
      + apply Forall_rev. apply Forall_forall. intros d I. rewrite Forall_forall in F. specialize (F d I). destruct (is_whitespace d) eqn:E; [exfalso; apply F; left; exact E|reflexivity].
    - cbn [app trim_start]. rewrite H. exact IH. }
  unfold mcp_form_completion. cbv zeta. rewrite TE. destruct (a ++ c :: t) eqn:E; [destruct a; discriminate|]. rewrite <- E.
  rewrite (trailing_symbol_spec _ (Some c) t) by (apply lw_behind; [left; exact W|exact F]). destruct (Nat.ltb_spec 1 (utf8_len c)); [reflexivity|lia].
Qed.
(** Choosing a candidate marked as a history entry always fails; any other candidate is inserted as it is. *)
Theorem C74_marked_candidate_refuted : forall command, choose (clock ++ command) = None.
Proof. reflexivity. Qed.
Theorem C74_plain_candidate_inserted : forall val, (forall command, val <> clock ++ command) -> choose val = Some (InsertValue val).
Proof. intros val H. unfold choose. destruct (starts_with clock val) eqn:E; [|reflexivity]. apply starts_with_iff in E. destruct E as [t ->]. exfalso. exact (H t eq_refl). Qed.

(** ** Concrete cases *)
Example wide_char : utf8_len 233%N = 2 /\ utf8_len 160%N = 2 /\ is_whitespace 160%N = true /\ is_whitespace 12288%N = true. Proof. repeat split. Qed.
Example C73_met : notification_preview (across 46 233%N (lit " and more text")) = None /\ notification_preview (across 47 233%N (lit " and more text")) = Some (repeat 97%N 47 ++ dots).
Proof. split; vm_compute; reflexivity. Qed.
Example C73_width_met : truncate_to_width (fun c => if (c <? 128)%N then 1 else if (c =? ellipsis)%N then 1 else 2) [26085; 26412; 35486]%N 5 = [26085; 26412; ellipsis]%N.
Proof. reflexivity. Qed.
Example C74_met : mcp_form_completion (lit "(mcp-cle") = Some (Some (lit "(mcp-clear")) /\ mcp_form_completion (lit "ls" ++ [160%N] ++ lit "-l") = None.
Proof. split; vm_compute; reflexivity. Qed.
Example C74_last_word_met : last_word (trim_end (lit "(mcp-cle ")) (Some (chr "(")) (lit "mcp-cle").
Proof.
  change (trim_end (lit "(mcp-cle ")) with ([] ++ chr "(" :: lit "mcp-cle"). apply lw_behind; [right; left; reflexivity|].
  repeat (constructor; [intros [H|[H|H]]; vm_compute in H; discriminate|]). constructor.
Qed.

Print Assumptions C73_cut_exact.
Print Assumptions C73_ascii_displays_partial.
Print Assumptions C73_long_text_shown_refuted.
Print Assumptions C73_long_output_shown_refuted.
Print Assumptions C73_downloaded_script_shown_refuted.
Print Assumptions C73_git_head_shown_refuted.
Print Assumptions C73_tool_text_cut.
Print Assumptions C73_character_cut.
Print Assumptions C73_width_cut.
Print Assumptions C73_token_to_cursor.
Print Assumptions C73_longest_cached_prefix.
Print Assumptions C74_form_completion_partial.
Print Assumptions C74_form_completion_refuted.
Print Assumptions C74_marked_candidate_refuted.
Print Assumptions C74_plain_candidate_inserted.
