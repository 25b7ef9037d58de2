(** Keys at the prompt: C69 to C72, C75, C76. *)
From Verif Require Import Base Editor_Model Editor_Spec Editor_Proofs Check_Model Check_Spec Check_Props Keys_Model Keys_Spec.

Section P.
Variable cw : char -> nat.
Notation eo := (ed_of cw).
Notation press := (press cw).
Notation presses := (presses cw).
Notation redraw := (redraw).

(** the line editor of the prompt holds the text [before] and [after] the cursor *)
Definition line (r : rs) (z : zip) : Prop := input r = eo z.

(** ** basics *)
Lemma redraw_input w b r : input (redraw w b r) = input r.
Proof.
  unfold Keys_Model.redraw.
  repeat match goal with
  | |- context [match ?x with _ => _ end] => lazymatch x with
      | context [match _ with _ => _ end] => fail
      | _ => destruct x
      end
  end; reflexivity.
Qed.
Lemma text_eo z : text (eo z) = whole z. Proof. reflexivity. Qed.
Lemma cur_eo z : cur (eo z) = length (before z). Proof. reflexivity. Qed.
Lemma clear_eo e : clear e = eo (Zip [] []). Proof. reflexivity. Qed.
Lemma expand_abbr_ok r z : line r z -> exists b r' z', expand_abbr cw r = Some (r', b) /\ line r' z' /\ mgr_ r' = mgr_ r.
Proof.
  intros L. unfold expand_abbr. rewrite L, get_word_ok.
  destruct (suffix_while abbr_char (before z)) as [|c w]; [eauto 6|].
  destruct (look (abbrs r) (c :: w)) as [x|]; [|eauto 6].
  rewrite replace_word_ok. destruct (s_replace_word z x) as [z' ok]. exists ok, (set_input r (eo z')), z'. repeat split.
Qed.
Lemma begin_ok z : move_to_begin (eo z) = eo (goto z 0).
Proof. unfold move_to_begin, ed_of, goto, whole. cbn. destruct z; reflexivity. Qed.
Lemma end_ok z : move_to_end (eo z) = eo (Zip (whole z) []).
Proof. unfold move_to_end. rewrite len_ed_of. unfold ed_of, whole. cbn. rewrite app_nil_r. reflexivity. Qed.

Lemma accept_ok word r z : line r z -> exists b r' z', accept_suggestion cw word r = Some (r', b) /\ line r' z'.
Proof.
  intros L. unfold accept_suggestion. destruct (active (mgr_ r)) as [[f k]|]; [|eauto 6].
  destruct (strip (text (input r)) f) as [[|c s]|]; [eauto 6| |eauto 6].
  rewrite L, insert_str_ok. exists true. destruct word; [exists (set_input r (eo (s_insert z (next_word_chunk (c :: s)))))|exists (set_mgr (set_input r (eo (s_insert z (c :: s)))) mgr_clear)];
    eexists; split; reflexivity.
Qed.
Lemma handle_backspace_ok r z : line r z -> exists r' z', handle_backspace cw r = Some r' /\ line r' z'.
Proof.
  intros L. unfold handle_backspace. rewrite L. rewrite !char_at_ok.
  destruct (auto_pair r && (0 <? cur (eo z)) && (cur (eo z) <? len (eo z))).
  - destruct (nth_error (whole z) (cur (eo z) - 1)) as [p|]; destruct (nth_error (whole z) (cur (eo z))) as [n|]; cbv iota;
      try (rewrite backspace_ok; eexists; eexists; split; reflexivity).
    match goal with |- context [existsb ?f pairs] => destruct (existsb f pairs) end; rewrite ?delete_char_ok; rewrite backspace_ok; eexists; eexists; split; reflexivity.
  - rewrite backspace_ok. eexists; eexists; split; reflexivity.
Qed.
Lemma execute_ok r z : line r z -> exists r' s z', handle_execute cw r = Some (r', s) /\ line r' z'.
Proof.
  intros L. unfold handle_execute. destruct (enter (buffer r) (text (input r))) as [b|t]; [eexists; eexists; eexists (Zip [] []); split; reflexivity|].
  assert (L1 : exists z1, line (match buffer r with [] => r | _ => set_buffer (set_input r (reset cw (input r) t)) [] end) z1)
    by (destruct (buffer r); [eauto|eexists; apply reset_ok]).
  destruct L1 as [z1 L1]. set (r1 := match buffer r with [] => r | _ => _ end) in *. clearbody r1.
  destruct (detect_ai_pipe (text (input r1))) as [[c q]|]; [eexists; eexists; eexists (Zip [] []); split; reflexivity|].
  destruct (expand_abbr_ok r1 z1 L1) as (b & r2 & z2 & -> & L2 & _).
  destruct (text (input (set_comp r2 None))); [eexists; eexists; exists z2; split; [reflexivity|exact L2]|eexists; eexists; eexists (Zip [] []); split; reflexivity].
Qed.

Lemma apply_ok w a r z : line r z -> exists r' n s z', apply_action cw w a r = Some (r', n, s) /\ line r' z'.
Proof.
  intros L. unfold apply_action, edited. rewrite ?L.
  destruct a; try solve [eexists; eexists; eexists; exists z; split; [reflexivity|exact L]];
    try solve [rewrite ?insert_ok, ?move_word_left_ok, ?delete_word_backward_ok, ?delete_to_end_ok, ?delete_to_beginning_ok;
               eexists; eexists; eexists; eexists; split; [reflexivity|]; unfold line; cbn;
               first [reflexivity | apply clear_eo | apply reset_ok | apply begin_ok | apply end_ok | apply move_word_right_ok | apply move_by_ok]].
  - destruct (0 <? cur (eo z)); eexists; eexists; eexists; eexists; (split; [reflexivity|]); [apply move_by_ok|exact L].
  - destruct (cur (eo z) <? len (eo z)); eexists; eexists; eexists; eexists; (split; [reflexivity|]); [apply move_by_ok|exact L].
  - destruct (recalled w); do 4 eexists; (split; [reflexivity|]); [apply reset_ok|exact L].
  - destruct (recalled w); do 4 eexists; (split; [reflexivity|]); [apply reset_ok|exact L].
  - destruct (recalled w); do 4 eexists; (split; [reflexivity|]); [apply reset_ok|exact L].
  - rewrite insert_ok, insert_ok. eexists; eexists; eexists; eexists; split; [reflexivity|]. apply move_by_ok.
  - destruct (handle_backspace_ok r z L) as (r' & z' & -> & L'). eexists; eexists; eexists; eexists; split; [reflexivity|exact L'].
  - unfold handle_tab, edited. rewrite ?L. destruct (tab w) as [t|a b t|n t|].
    + eexists; eexists; eexists; eexists; split; [reflexivity|]. apply reset_ok.
    + rewrite replace_range_ok. destruct (s_replace_range z a b t) as [z' ok]. eexists; eexists; eexists; eexists; split; reflexivity.
    + rewrite backspacen_ok, insert_str_ok. eexists; eexists; eexists; eexists; split; reflexivity.
    + destruct (accept_ok true r z L) as (b & r' & z' & -> & L'). eexists; eexists; eexists; eexists; split; [reflexivity|exact L'].
  - destruct (comp r); do 4 eexists; (split; [reflexivity|]); [apply reset_ok|exact L].
  - destruct (accept_ok false r z L) as (b & r' & z' & E & L'). rewrite E.
    destruct (text (eo z)); destruct (autofix r); eexists; eexists; eexists; eexists; (split; [reflexivity|]); first [exact L' | apply reset_ok].
  - destruct (accept_ok true r z L) as (b & r' & z' & -> & L'). eexists; eexists; eexists; eexists; split; [reflexivity|exact L'].
  - unfold handle_execute_background. destruct (text (input (set_comp r None))); do 4 eexists; (split; [reflexivity|]); [exact L|]. apply clear_eo.
  - destruct (recalled w); do 4 eexists; (split; [reflexivity|]); [apply reset_ok|exact L].
  - destruct (clipboard w); [rewrite insert_str_ok|]; eexists; eexists; eexists; eexists; (split; [reflexivity|]); [reflexivity|exact L].
  - unfold toggle_sudo. destruct (esc_twice w); do 4 eexists; (split; [reflexivity|]); [apply reset_ok|exact L].
  - do 4 eexists. split; [reflexivity|]. apply move_by_ok.
  - destruct (expand_abbr_ok r z L) as (b & r1 & z1 & -> & L1 & _). rewrite L1, insert_ok. do 4 eexists. split; reflexivity.
Qed.

(** ** C72: typing, pasting, and which keys run something *)
Lemma press_ok r z k : line r z -> exists r' s z', press r k = Some (r', s) /\ line r' z'.
Proof.
  intros L. destruct k as [k w]. unfold Keys_Model.press.
  destruct (match k_code k with KChar x => _ | _ => false end); [do 3 eexists; split; [reflexivity|exact L]|].
  destruct (ctrl_x r && _).
  - destruct (recalled w); do 3 eexists; (split; [reflexivity|]); [apply reset_ok|exact L].
  - set (r0 := set_ctrl_x r false). assert (L0 : line r0 z) by exact L. clearbody r0. unfold context. rewrite L0, char_at_ok.
    match goal with |- context [determine_key_action k ?c] => set (x := c) end.
    destruct (apply_ok w (determine_key_action k x) r0 z L0) as (r1 & n & s & z1 & -> & L1).
    destruct n as [|b|].
    + do 3 eexists. split; [reflexivity|exact L1].
    + do 3 eexists. split; [reflexivity|]. unfold line. rewrite redraw_input. exact L1.
    + destruct (execute_ok r1 z1 L1) as (r2 & s2 & z2 & -> & L2). do 3 eexists. split; [reflexivity|exact L2].
Qed.
Theorem C72_no_key_crashes : forall l r z, line r z -> exists r' ss z', presses r l = Some (r', ss) /\ line r' z'.
Proof.
  induction l as [|k l IH]; intros r z L; cbn; [do 3 eexists; split; [reflexivity|exact L]|].
  destruct (press_ok r z k L) as (r1 & s & z1 & -> & L1). destruct (IH r1 z1 L1) as (r2 & ss & z2 & -> & L2).
  do 3 eexists. split; [reflexivity|exact L2].
Qed.


(** the settings and the buffer are left alone by the keys below *)
Definition same (r r' : rs) : Prop := auto_pair r' = auto_pair r /\ abbrs r' = abbrs r /\ buffer r' = buffer r /\ ctrl_x r' = false.
Lemma redraw_same w b r : auto_pair (redraw w b r) = auto_pair r /\ abbrs (redraw w b r) = abbrs r /\ buffer (redraw w b r) = buffer r /\ ctrl_x (redraw w b r) = ctrl_x r.
Proof.
  unfold Keys_Model.redraw.
  repeat match goal with
  | |- context [match ?x with _ => _ end] => lazymatch x with
      | context [match _ with _ => _ end] => fail
      | _ => destruct x
      end
  end; repeat split.
Qed.
Lemma press_char c m w r z : line r z -> m = none \/ m = shift ->
  press r (Key (KChar c) m, w) =
  match apply_action cw w (char_action c m (KCtx (cur (input r) =? len (input r))
                         (match active (mgr_ r) with Some _ => true | None => match text (input r), autofix r with [], Some _ => true | _, _ => false end end)
                         (match comp r with Some _ => true | None => false end) (nth_error (whole z) (length (before z))) (auto_pair r))) (set_ctrl_x r false) with
  | None => None
  | Some (r', Done, s) => Some (r', s)
  | Some (r', Draw b, s) => Some (redraw w b r', s)
  | Some (r', RunLine, _) => handle_execute cw r'
  end.
Proof.
  intros L M. unfold Keys_Model.press. cbn [k_code k_mods].
  assert (E : mods_eqb m ctrl = false) by (destruct M as [-> | ->]; reflexivity). rewrite E, !andb_false_r. cbn iota.
  unfold context, determine_key_action. cbn [k_code k_mods input set_ctrl_x active comp autofix auto_pair mgr_].
  rewrite !L, char_at_ok. reflexivity.
Qed.
Lemma expand_abbr_none r z : line r z -> abbrs r = [] -> expand_abbr cw r = Some (r, false).
Proof.
  intros L A. unfold expand_abbr. rewrite L, get_word_ok. rewrite A. destruct (suffix_while abbr_char (before z)); reflexivity.
Qed.
(** a key that inserts its character *)
Definition plain_key (ap : bool) (c : char) (m : mods) : Prop :=
  (m = none \/ m = shift) /\ (ap = false \/ m = shift \/ mem_char c [40; 123; 91; 39; 34; 41; 125; 93]%N = false).
Lemma mem_char_app c a b : mem_char c (a ++ b) = mem_char c a || mem_char c b.
Proof. apply existsb_app. Qed.
Lemma plain_action ap c m x : plain_key ap c m -> c_auto_pair x = ap ->
  char_action c m x = InsertChar c \/ (c = 32%N /\ char_action c m x = ExpandAbbreviationAndInsertSpace).
Proof.
  intros [M P] A. unfold char_action. assert (E1 : mods_eqb m alt = false) by (destruct M as [-> | ->]; reflexivity).
  assert (E2 : mods_eqb m ctrl = false) by (destruct M as [-> | ->]; reflexivity). rewrite E1, E2, !andb_false_r. cbn [andb].
  assert (E3 : mods_eqb m none && c_auto_pair x && mem_char c [40; 123; 91; 39; 34]%N = false /\ mods_eqb m none && c_auto_pair x && mem_char c [41; 125; 93]%N = false).
  { rewrite A. destruct P as [-> | [-> | P]]; [rewrite andb_false_r; auto|auto|].
    change ([40; 123; 91; 39; 34; 41; 125; 93]%N) with ([40; 123; 91; 39; 34]%N ++ [41; 125; 93]%N) in P. rewrite mem_char_app in P.
    apply orb_false_iff in P as [-> ->]. rewrite !andb_false_r. auto. }
  destruct E3 as [-> ->].
  destruct (N.eqb_spec c 32) as [-> |].
  - cbn [andb]. destruct (mods_eqb m none) eqn:E; [right; auto|]. left. destruct M as [-> | ->]; [discriminate|]. reflexivity.
  - left. cbn [andb]. destruct M as [-> | ->]; reflexivity.
Qed.
Lemma press_plain r z c m w : line r z -> plain_key (auto_pair r) c m -> abbrs r = [] ->
  exists r', press r (Key (KChar c) m, w) = Some (r', None) /\ line r' (s_insert z [c]) /\ same r r' /\
             r' = redraw w false (set_input (set_ctrl_x r false) (eo (s_insert z [c]))).
Proof.
  intros L P A. rewrite (press_char c m w r z L (proj1 P)).
  match goal with |- context [char_action c m ?x] => destruct (plain_action (auto_pair r) c m x P eq_refl) as [-> | [-> ->]] end.
  - cbn [apply_action]. unfold edited. cbn [input set_ctrl_x]. rewrite L, insert_ok. eexists. split; [reflexivity|]. split; [unfold line; rewrite redraw_input; reflexivity|].
    split; [|reflexivity]. unfold same. destruct (redraw_same w false (set_input (set_ctrl_x r false) (eo (s_insert z [c])))) as (-> & -> & -> & ->). auto.
  - unfold apply_action, edited. rewrite (expand_abbr_none _ z) by assumption. cbn [input set_ctrl_x]. rewrite L, insert_ok. eexists. split; [reflexivity|].
    split; [unfold line; rewrite redraw_input; reflexivity|]. split; [|reflexivity].
    unfold same. destruct (redraw_same w false (set_input (set_ctrl_x r false) (eo (s_insert z [32%N])))) as (E1 & E2 & E3 & E4). repeat split; assumption.
Qed.

Lemma s_insert_insert z a b : s_insert (s_insert z a) b = s_insert z (a ++ b).
Proof. unfold s_insert. cbn. rewrite app_assoc. reflexivity. Qed.
Lemma typed_arrives : forall s l r z,
  typed s l -> line r z -> auto_pair r = false -> abbrs r = [] ->
  exists r', presses r l = Some (r', []) /\ line r' (s_insert z s) /\ buffer r' = buffer r /\ auto_pair r' = false /\ abbrs r' = [].
Proof.
  intros s l r z T. revert r z. induction T as [|c s w l T IH|c s w l T IH]; intros r z L A B.
  - exists r. split; [reflexivity|]. split; [|auto]. unfold s_insert. rewrite app_nil_r. destruct z. exact L.
  - destruct (press_plain r z c none w L) as (r1 & E & L1 & (S1 & S2 & S3 & S4) & _); [split; [left; reflexivity|left; exact A]|exact B|].
    destruct (IH r1 _ L1) as (r2 & E2 & L2 & B2 & Q); [congruence|congruence|]. exists r2. cbn [Keys_Model.presses]. rewrite E, E2. split; [reflexivity|].
    rewrite s_insert_insert in L2. split; [exact L2|split; [congruence|exact Q]].
  - destruct (press_plain r z c shift w L) as (r1 & E & L1 & (S1 & S2 & S3 & S4) & _); [split; [right; reflexivity|left; exact A]|exact B|].
    destruct (IH r1 _ L1) as (r2 & E2 & L2 & B2 & Q); [congruence|congruence|]. exists r2. cbn [Keys_Model.presses]. rewrite E, E2. split; [reflexivity|].
    rewrite s_insert_insert in L2. split; [exact L2|split; [congruence|exact Q]].
Qed.
(** Typing text inserts exactly that text at the cursor, whatever is suggested meanwhile, and
    runs nothing (no automatic pairs, no abbreviations). *)
Theorem C72_typed_text_arrives : forall s l r z,
  typed s l -> line r z -> auto_pair r = false -> abbrs r = [] ->
  exists r', presses r l = Some (r', []) /\ line r' (s_insert z s) /\ buffer r' = buffer r.
Proof. intros s l r z T L A B. destruct (typed_arrives s l r z T L A B) as (r' & E & L' & B' & _). eauto. Qed.

Lemma normalize_unix t : unix_lines t (normalize_newlines t).
Proof.
  unfold normalize_newlines, str, char in *. remember (length t) as n eqn:E. assert (H : length t <= n) by lia. clear E. revert t H.
  induction n as [|n IH]; intros t H; [destruct t; [constructor|cbn in H; lia]|].
  destruct t as [|c t]; [constructor|]. cbn in H.
  destruct (N.eq_dec c 13) as [-> | N13].
  - destruct t as [|d t].
    + cbn. apply ul_cr; [discriminate|constructor].
    + destruct (N.eq_dec d 10) as [-> | N10].
      * change (replace_crlf (13%N :: 10%N :: t)) with (replace_crlf (10%N :: t)).
        assert (E : replace_crlf (10%N :: t) = 10%N :: replace_crlf t) by (destruct t; reflexivity). rewrite E. cbn [map].
        change (if (10 =? 13)%N then 10%N else 10%N) with 10%N. apply ul_crlf. apply IH. cbn in H. lia.
      * assert (E : replace_crlf (13%N :: d :: t) = 13%N :: replace_crlf (d :: t)).
        { cbn [replace_crlf]. destruct d as [|p]; [reflexivity|]. do 4 (destruct p as [p|p|]; try reflexivity). exfalso; apply N10; reflexivity. }
        rewrite E. cbn [map]. change (if (13 =? 13)%N then 10%N else 13%N) with 10%N. apply ul_cr; [cbn; congruence|]. apply IH. lia.
  - assert (E : replace_crlf (c :: t) = c :: replace_crlf t).
    { destruct c as [|p]; [destruct t; reflexivity|]. destruct t as [|d t]; [do 4 (destruct p as [p|p|]; try reflexivity)|].
      do 4 (destruct p as [p|p|]; try reflexivity). exfalso; apply N13; reflexivity. }
    rewrite E. cbn [map]. destruct (N.eqb_spec c 13); [contradiction|]. apply ul_char; [exact N13|]. apply IH. lia.
Qed.
Lemma unix_no_cr s t : unix_lines s t -> ~ In 13%N t.
Proof. induction 1; cbn; intuition (discriminate || congruence). Qed.
(** Pasted text, whatever it contains, is inserted at the cursor with its line ends made into
    newlines; pasting never runs anything. *)
Theorem C72_pasted_text_arrives : forall r z t w, line r z ->
  exists r' u, paste cw r t w = Some r' /\ unix_lines t u /\ ~ In 13%N u /\ line r' (s_insert z u) /\ buffer r' = buffer r.
Proof.
  intros r z t w L. unfold paste. rewrite L, insert_str_ok. eexists. exists (normalize_newlines t). split; [reflexivity|].
  split; [apply normalize_unix|]. split; [eapply unix_no_cr, normalize_unix|]. split; [unfold line; rewrite redraw_input; reflexivity|].
  destruct (redraw_same w true (set_input r (eo (s_insert z (normalize_newlines t))))) as (_ & _ & -> & _). reflexivity.
Qed.

Lemma mods_eqb_eq a b : mods_eqb a b = true -> a = b.
Proof. destruct a as [[] [] [] []], b as [[] [] [] []]; cbn; intros H; (reflexivity || discriminate H). Qed.
Lemma is_char_eq a c : is_char a c = true -> c = chr a.
Proof. apply N.eqb_eq. Qed.
Lemma char_action_runs c m x a : char_action c m x = a ->
  match a with Execute | ExecuteBackground => False | AiSmartCommit => c = chr "c" /\ m = alt | _ => True end.
Proof.
  unfold char_action. intros <-.
  repeat match goal with |- context [if ?b then _ else _] => destruct b eqn:?; try exact I end; try (destruct (next_char x) as [n|]; [destruct (n =? c)%N|]; exact I).
  split; [apply is_char_eq; assumption|apply mods_eqb_eq; assumption].
Qed.
Lemma action_runs k x a : determine_key_action k x = a ->
  match a with Execute => k = Key KEnter none | ExecuteBackground => k = Key KEnter alt | AiSmartCommit => k = Key (KChar (chr "c")) alt | _ => True end.
Proof.
  destruct k as [k m]. unfold determine_key_action. cbn [k_code k_mods].
  destruct k; intros <-; try solve [repeat match goal with |- context [if ?b then _ else _] => destruct b end; exact I].
  - destruct (char_action c m x) eqn:E; try exact I; apply char_action_runs in E; [contradiction E|contradiction E|]. destruct E as [-> ->]. reflexivity.
  - destruct (mods_eqb m none) eqn:E; [apply mods_eqb_eq in E as ->; reflexivity|]. destruct (mods_eqb m alt) eqn:E'; [apply mods_eqb_eq in E' as ->; reflexivity|exact I].
Qed.
Lemma apply_runs w a r r' n s : apply_action cw w a r = Some (r', n, s) ->
  (n = RunLine -> a = Execute \/ a = AiSmartCommit) /\ (s <> None -> a = ExecuteBackground).
Proof.
  destruct a; unfold apply_action, handle_tab, edited;
    repeat match goal with
    | |- context [match ?x with _ => _ end] => lazymatch x with
        | context [match _ with _ => _ end] => fail
        | _ => destruct x
        end
    end; intros E; try discriminate E; injection E as <- <- <-; (split; intros H; try discriminate H; try (contradiction H; reflexivity); auto).
Qed.
(** Only Enter, Alt+Enter, Alt+c and the editor chord start anything. *)
Theorem C72_only_these_keys_run : forall r z k w r' x, line r z -> press r (k, w) = Some (r', Some x) -> running_key k.
Proof.
  intros r z k w r' x L. unfold Keys_Model.press.
  match goal with |- (if ?b then _ else _) = _ -> _ => destruct b; [discriminate|] end.
  match goal with |- (if ctrl_x r && ?b then _ else _) = _ -> _ => destruct (ctrl_x r && b) eqn:E end.
  - intros _. apply andb_true_iff in E as [_ E]. destruct k as [[c| | | | | | | | | |] m]; cbn [k_code k_mods] in E; try discriminate. apply andb_true_iff in E as [E1 E2].
    apply is_char_eq in E1 as ->. apply mods_eqb_eq in E2 as ->. right; right; right; reflexivity.
  - clear E. destruct (context (set_ctrl_x r false)) as [c|]; [|discriminate].
    destruct (apply_action cw w (determine_key_action k c) (set_ctrl_x r false)) as [[[r1 n] s]|] eqn:E1; [|discriminate].
    apply apply_runs in E1 as [R1 R2]. pose proof (action_runs k c _ eq_refl) as R.
    destruct n as [|b|]; intros E.
    + injection E as _ ->. rewrite R2 in R by discriminate. right; left; exact R.
    + injection E as _ ->. rewrite R2 in R by discriminate. right; left; exact R.
    + destruct (R1 eq_refl) as [X|X]; rewrite X in R; [left; exact R|right; right; left; exact R].
Qed.

(** ** C71: automatic pairs *)
Lemma presses_app l1 l2 r r1 s1 : presses r l1 = Some (r1, s1) ->
  presses r (l1 ++ l2) = match presses r1 l2 with Some (r2, s2) => Some (r2, s1 ++ s2) | None => None end.
Proof.
  revert r r1 s1. induction l1 as [|k l1 IH]; intros r r1 s1 E; cbn [Keys_Model.presses app] in *.
  - injection E as <- <-. destruct (presses r l2) as [[]|]; reflexivity.
  - destruct (press r k) as [[r0 s]|]; [|discriminate]. destruct (presses r0 l1) as [[r0' ss]|] eqn:E1; [|discriminate]. injection E as <- <-.
    rewrite (IH _ _ _ E1). destruct (presses r0' l2) as [[]|]; [|reflexivity]. destruct s; reflexivity.
Qed.
Lemma typed_plainly_app a b l : typed_plainly (a ++ b) l -> exists l1 l2, l = l1 ++ l2 /\ typed_plainly a l1 /\ typed_plainly b l2.
Proof.
  revert l. induction a as [|c a IH]; intros l T; [exists [], l; repeat split; [constructor|exact T]|]. cbn in T. inversion T as [|c' s' w l' T']; subst.
  destruct (IH _ T') as (l1 & l2 & -> & T1 & T2). exists ((Key (KChar c) none, w) :: l1), l2. repeat split; [constructor; exact T1|exact T2].
Qed.
Definition opener (o : char) : Prop := left_bracket o \/ quote_mark o.
Lemma press_open r z o w : line r z -> auto_pair r = true -> opener o ->
  exists r', press r (Key (KChar o) none, w) = Some (r', None) /\ line r' (Zip (before z ++ [o]) (closing o :: after z)) /\ same r r'.
Proof.
  intros L A O. rewrite (press_char o none w r z L (or_introl eq_refl)). rewrite A.
  match goal with |- context [char_action o none ?x] => assert (E : char_action o none x = InsertPairedChar o (closing o)) by (destruct O as [[-> | [-> | ->]] | [-> | ->]]; reflexivity) end.
  rewrite E. cbn [apply_action]. cbn [input set_ctrl_x]. rewrite L, insert_ok, insert_ok, move_by_ok. eexists. split; [reflexivity|]. split.
  - unfold line. rewrite redraw_input. cbn [input set_input]. unfold s_move, goto, s_insert, whole. cbn [before after].
    apply ed_of_eq.
    + rewrite firstn_skipn. rewrite <- !app_assoc. reflexivity.
    + rewrite firstn_length, !app_length. cbn. lia.
  - unfold same. match goal with |- context [redraw w false ?x] => destruct (redraw_same w false x) as (-> & -> & -> & ->) end. auto.
Qed.
Lemma press_close r b a c w : line r (Zip b (c :: a)) -> auto_pair r = true -> right_bracket c ->
  exists r', press r (Key (KChar c) none, w) = Some (r', None) /\ line r' (Zip (b ++ [c]) a) /\ same r r'.
Proof.
  intros L A O. rewrite (press_char c none w r _ L (or_introl eq_refl)). rewrite A.
  assert (N : nth_error (whole (Zip b (c :: a))) (length (before (Zip b (c :: a)))) = Some c).
  { unfold whole. cbn. rewrite nth_error_app2, Nat.sub_diag by lia. reflexivity. }
  rewrite N.
  match goal with |- context [char_action c none ?x] => assert (E : char_action c none x = OvertypeClosingBracket c) by (destruct O as [-> | [-> | ->]]; reflexivity) end.
  rewrite E. cbn [apply_action]. cbn [input set_ctrl_x]. rewrite L, move_by_ok. eexists. split; [reflexivity|]. split.
  - unfold line. cbn [input set_input]. unfold s_move, goto, whole. cbn [before after]. replace (Z.to_nat (Z.of_nat (length b) + 1)) with (S (length b)) by lia.
    apply ed_of_eq; [rewrite firstn_skipn, <- app_assoc; reflexivity|]. rewrite firstn_length, !app_length. cbn [length]. lia.
  - repeat split.
Qed.
Lemma matching_closing o c : matching o c -> left_bracket o /\ right_bracket c /\ closing o = c.
Proof. destruct 1; unfold left_bracket, right_bracket; auto 10. Qed.
(** With automatic pairs, text in which all brackets are closed arrives as typed. *)
Theorem C71_balanced_text_arrives_partial : forall s, balanced s -> forall l r z,
  typed_plainly s l -> line r z -> auto_pair r = true -> abbrs r = [] ->
  exists r', presses r l = Some (r', []) /\ line r' (s_insert z s) /\ same r (set_ctrl_x r' false).
Proof.
  induction 1 as [|c s N1 N2 N3 B IH|o c s1 s2 M B1 IH1 B2 IH2]; intros l r z T L A E.
  - inversion T; subst. exists r. split; [reflexivity|]. split; [|repeat split]. unfold s_insert. rewrite app_nil_r. destruct z; exact L.
  - inversion T as [|c' s' w l' T']; subst.
    assert (P : plain_key (auto_pair r) c none).
    { split; [left; reflexivity|]. right; right. destruct (mem_char c [40; 123; 91; 39; 34; 41; 125; 93]%N) eqn:Q; [|reflexivity]. exfalso.
      apply mem_char_iff in Q. unfold left_bracket, right_bracket, quote_mark in *. cbn in Q. change (chr "(") with 40%N in *. change (chr ")") with 41%N in *.
      change (chr "[") with 91%N in *. change (chr "]") with 93%N in *. change (chr "{") with 123%N in *. change (chr "}") with 125%N in *. intuition congruence. }
    destruct (press_plain r z c none w L P E) as (r1 & E1 & L1 & (S1 & S2 & S3 & S4) & _).
    destruct (IH l' r1 _ T' L1) as (r2 & E2 & L2 & (Q1 & Q2 & Q3 & Q4)); [congruence|congruence|].
    exists r2. cbn [Keys_Model.presses]. rewrite E1, E2. split; [reflexivity|]. rewrite s_insert_insert in L2. split; [exact L2|].
    repeat split; cbn in *; congruence.
  - destruct (matching_closing o c M) as (Lo & Rc & C).
    inversion T as [|c' s' w l' T']; subst c' s' l. apply typed_plainly_app in T' as (l1 & l2 & -> & T1 & T2). inversion T2 as [|c' s' w' l3 T3]; subst c' s' l2.
    destruct (press_open r z o w L A (or_introl Lo)) as (r1 & E1 & L1 & (S1 & S2 & S3 & S4)). rewrite C in L1.
    destruct (IH1 l1 r1 _ T1 L1) as (r2 & E2 & L2 & (Q1 & Q2 & Q3 & Q4)); [congruence|congruence|]. cbn in Q1, Q2, Q3.
    destruct (press_close r2 (before z ++ o :: s1) (after z) c w') as (r3 & E3 & L3 & (U1 & U2 & U3 & U4)).
    { unfold line in *. rewrite L2. unfold s_insert. cbn. rewrite <- app_assoc. reflexivity. }
    { congruence. } { exact Rc. }
    destruct (IH2 l3 r3 _ T3 L3) as (r4 & E4 & L4 & (V1 & V2 & V3 & V4)); [congruence|congruence|]. cbn in V1, V2, V3.
    exists r4. split; [|split].
    + cbn [Keys_Model.presses]. rewrite E1. rewrite (presses_app l1 _ _ _ _ E2). cbn [Keys_Model.presses]. rewrite E3, E4. reflexivity.
    + unfold line in *. rewrite L4. unfold s_insert. cbn. repeat (rewrite <- app_assoc; cbn). reflexivity.
    + repeat split; cbn; congruence.
Qed.
(** With automatic pairs, a text in quotes never arrives as typed: the closing quote brings two
    more. *)
Theorem C71_quoted_text_arrives_refuted : forall q t l r, quote_mark q -> balanced t ->
  typed_plainly (q :: t ++ [q]) l -> line r (Zip [] []) -> auto_pair r = true -> abbrs r = [] ->
  exists r', presses r l = Some (r', []) /\ line r' (Zip (q :: t ++ [q]) [q; q]).
Proof.
  intros q t l r Q B T L A E. assert (C : closing q = q) by (destruct Q as [-> | ->]; reflexivity).
  inversion T as [|c' s' w l' T']; subst c' s' l. apply typed_plainly_app in T' as (l1 & l2 & -> & T1 & T2). inversion T2 as [|c' s' w' l3 T3]; subst c' s' l2. inversion T3; subst l3.
  destruct (press_open r _ q w L A (or_intror Q)) as (r1 & E1 & L1 & (S1 & S2 & S3 & S4)). rewrite C in L1.
  destruct (C71_balanced_text_arrives_partial t B l1 r1 _ T1 L1) as (r2 & E2 & L2 & (Q1 & Q2 & Q3 & Q4)); [congruence|congruence|]. cbn in Q1, Q2, Q3.
  destruct (press_open r2 _ q w' L2) as (r3 & E3 & L3 & _); [congruence|right; exact Q|]. rewrite C in L3. cbn in L3.
  exists r3. split; [|exact L3]. cbn [Keys_Model.presses]. rewrite E1, (presses_app l1 _ _ _ _ E2). cbn [Keys_Model.presses]. rewrite E3. reflexivity.
Qed.
(** Backspace right after an opening bracket or quote takes the pair away again. *)
Theorem C71_backspace_undoes_pair : forall r z o w w', line r z -> auto_pair r = true -> opener o ->
  exists r', presses r [(Key (KChar o) none, w); (Key KBackspace none, w')] = Some (r', []) /\ line r' z.
Proof.
  intros r z o w w' L A O. destruct (press_open r z o w L A O) as (r1 & E1 & L1 & (S1 & S2 & S3 & S4)).
  cbn [Keys_Model.presses]. rewrite E1. unfold Keys_Model.press at 1. cbn [k_code k_mods]. rewrite andb_false_r. unfold context.
  cbn [input set_ctrl_x]. rewrite L1, char_at_ok. cbn [determine_key_action k_code k_mods]. change (mods_eqb none none) with true. cbv iota.
  unfold apply_action, handle_backspace. cbn [input set_ctrl_x auto_pair]. rewrite L1, S1, A, len_ed_of, cur_eo. cbn [before after].
  destruct z as [b a]. cbn [before after] in *.
  assert (W : whole (Zip (b ++ [o]) (closing o :: a)) = b ++ o :: closing o :: a) by (unfold whole; cbn; rewrite <- app_assoc; reflexivity).
  rewrite !W. rewrite !app_length. cbn [length]. replace (0 <? length b + 1) with true by (symmetry; apply Nat.ltb_lt; lia).
  replace (length b + 1 <? length b + S (S (length a))) with true by (symmetry; apply Nat.ltb_lt; lia). cbn [andb].
  rewrite !char_at_ok, !W. replace (length b + 1 - 1) with (length b) by lia.
  rewrite nth_error_app2, Nat.sub_diag by lia. cbn [nth_error]. rewrite nth_error_app2 by lia. replace (length b + 1 - length b) with 1 by lia. cbn [nth_error].
  replace (existsb _ pairs) with true by (destruct O as [[-> | [-> | ->]] | [-> | ->]]; reflexivity).
  rewrite delete_char_ok. unfold s_delete. cbn [before after tl]. rewrite backspace_ok. eexists. split; [reflexivity|].
  unfold line. rewrite redraw_input. cbn [input set_input]. unfold s_backspace. cbn [before after]. f_equal. f_equal.
  rewrite app_length. cbn [length]. replace (length b + 1 - 1) with (length b) by lia. rewrite firstn_app, firstn_all, Nat.sub_diag. cbn. apply app_nil_r.
Qed.

(** ** C70: suggestions *)
Lemma strip_app p t : strip p (p ++ t) = Some t.
Proof. induction p as [|c p IH]; [reflexivity|]. cbn. rewrite N.eqb_refl. exact IH. Qed.
Lemma strip_some p t s : strip p t = Some s -> t = p ++ s.
Proof.
  revert t. induction p as [|c p IH]; intros t E; [injection E as ->; reflexivity|]. destruct t as [|d t]; [discriminate|]. cbn in E.
  destruct (N.eqb_spec c d) as [-> |]; [|discriminate]. rewrite (IH _ E). reflexivity.
Qed.
Lemma whole_end t : whole (Zip t []) = t. Proof. apply app_nil_r. Qed.
Lemma chunk_blank b s : Forall (fun c => is_whitespace c = true) b -> chunk_end false (b ++ s) = let '(n, w) := chunk_end false s in (length b + n, w).
Proof.
  induction 1 as [|c b H F IH]; [cbn; destruct (chunk_end false s); reflexivity|]. cbn. rewrite H, IH. destruct (chunk_end false s). reflexivity.
Qed.
Lemma chunk_word w : Forall (fun c => is_whitespace c = false) w -> forall r, (match r with [] => True | c :: _ => is_whitespace c = true end) ->
  chunk_end true (w ++ r) = (length w + match r with [] => 0 | _ => 1 end, true).
Proof.
  induction 1 as [|c w H F IH]; intros r R.
  - cbn. destruct r as [|c r]; [reflexivity|]. cbn. rewrite R. reflexivity.
  - cbn. rewrite H, (IH r R). reflexivity.
Qed.
Lemma span_split (f : char -> bool) s : exists a b, s = a ++ b /\ Forall (fun c => f c = true) a /\ match b with [] => True | c :: _ => f c = false end.
Proof.
  induction s as [|c s (a & b & -> & F & H)]; [exists [], []; repeat split; constructor|]. destruct (f c) eqn:E.
  - exists (c :: a), b. repeat split; [constructor; assumption|exact H].
  - exists [], (c :: a ++ b). repeat split; [constructor|exact E].
Qed.
Lemma chunk_first_word s : first_word s (next_word_chunk s).
Proof.
  unfold next_word_chunk. destruct (span_split is_whitespace s) as (b & t & -> & B & H). rewrite (chunk_blank b t B).
  destruct t as [|c t].
  - cbn. rewrite app_nil_r. apply fw_blanks. exact B.
  - destruct (span_split (fun c => negb (is_whitespace c)) t) as (w & r & -> & W & R).
    assert (W' : Forall (fun c => is_whitespace c = false) (c :: w)) by (constructor; [exact H|]; eapply Forall_impl; [|exact W]; intros x Hx; apply negb_true_iff in Hx; exact Hx).
    assert (R' : match r with [] => True | c :: _ => is_whitespace c = true end) by (destruct r; [exact I|]; apply negb_false_iff in R; exact R).
    cbn [chunk_end]. rewrite H. rewrite (chunk_word w (Forall_inv_tail W') r R'). cbv iota beta.
    destruct r as [|d r].
    + rewrite app_nil_r. replace (length b + S (length w + 0)) with (length (b ++ c :: w)) by (rewrite app_length; cbn; lia). rewrite firstn_all. apply fw_last; [exact B|discriminate|exact W'].
    + replace (b ++ c :: w ++ d :: r) with ((b ++ (c :: w) ++ [d]) ++ r) by (cbn; repeat (rewrite <- app_assoc; cbn); reflexivity).
      replace (length b + S (length w + 1)) with (length (b ++ (c :: w) ++ [d])) by (rewrite !app_length; cbn; lia).
      rewrite firstn_app, firstn_all, Nat.sub_diag. cbn [firstn]. rewrite app_nil_r.
      replace ((b ++ (c :: w) ++ [d]) ++ r) with (b ++ (c :: w) ++ d :: r) by (cbn; repeat (rewrite <- app_assoc; cbn); reflexivity). apply fw_word; [exact B|discriminate|exact W'|exact R'].
Qed.
Lemma first_word_prefix s u : first_word s u -> exists v, s = u ++ v.
Proof.
  destruct 1; [exists []; symmetry; apply app_nil_r|exists []; symmetry; apply app_nil_r|]. exists r. rewrite <- !app_assoc. reflexivity.
Qed.
Lemma first_word_nonempty s u : first_word s u -> s <> [] -> u <> [].
Proof. destruct 1; auto. intros _ E. apply app_eq_nil in E as [_ E]. apply app_eq_nil in E as [_ E]. discriminate. Qed.

(** the context of a key pressed with the cursor at the end of a line that shows grey text *)
Lemma accept_at_end word r t s f k : line r (Zip t []) -> active (mgr_ r) = Some (f, k) -> f = t ++ s -> s <> [] ->
  exists r', accept_suggestion cw word r = Some (r', true) /\ line r' (Zip (t ++ if word then next_word_chunk s else s) []) /\
    mgr_ r' = (if word then mgr_ r else mgr_clear) /\ comp r' = comp r.
Proof.
  intros L A -> N. unfold accept_suggestion. rewrite A, L, text_eo, whole_end, strip_app. destruct s as [|c s]; [contradiction N; reflexivity|].
  rewrite insert_str_ok. destruct word; eexists; (split; [reflexivity|]); repeat split.
Qed.
Definition accepts_all (k : key) : Prop := k = Key (KChar (chr "f")) ctrl \/ (k_code k = KRight /\ m_ctrl (k_mods k) = false).
Definition accepts_word (k : key) : Prop := k = Key (KChar (chr "f")) alt \/ (k_code k = KRight /\ m_ctrl (k_mods k) = true).
Lemma accept_press r t s k w : line r (Zip t []) -> comp r = None -> (t <> [] \/ autofix r = None) -> ghost (mgr_ r) t = Some s ->
  (accepts_all k -> exists r' b, accept_suggestion cw false (set_ctrl_x r false) = Some (r', b) /\ press r (k, w) = Some (redraw w b r', None)) /\
  (accepts_word k -> exists r' b, accept_suggestion cw true (set_ctrl_x r false) = Some (r', b) /\ press r (k, w) = Some (redraw w b r', None)).
Proof.
  intros L C T G. unfold ghost in G. destruct (active (mgr_ r)) as [[f j]|] eqn:A; [|discriminate]. destruct (strip t f) as [[|c s']|] eqn:S; try discriminate. injection G as <-.
  assert (L0 : line (set_ctrl_x r false) (Zip t [])) by exact L.
  assert (X : context (set_ctrl_x r false) = Some (KCtx true true false (nth_error t (length t)) (auto_pair r))).
  { unfold context. cbv zeta. unfold line in L0. rewrite !L0, char_at_ok, whole_end.
    rewrite len_ed_of, whole_end. cbn [cur ed_of before mgr_ set_ctrl_x comp auto_pair].
    unfold str, char in *. rewrite A, C, Nat.eqb_refl. reflexivity. }
  split; intros K.
  - destruct (accept_ok false _ _ L0) as (b & r' & z' & E & _). exists r', b. split; [exact E|]. unfold Keys_Model.press.
    assert (F : apply_action cw w AcceptSuggestionFull (set_ctrl_x r false) = Some (r', Draw b, None)).
    { unfold apply_action. rewrite E. cbn [input set_ctrl_x autofix]. rewrite L, text_eo, whole_end. destruct t; [|reflexivity]. destruct T as [T|T]; [contradiction T; reflexivity|]. rewrite T. reflexivity. }
    destruct K as [-> | [K M]].
    + cbn [k_code k_mods]. change (is_char "x" (chr "f")) with false. change (is_char "e" (chr "f")) with false. cbn [andb]. rewrite andb_false_r. rewrite X.
      change (determine_key_action (Key (KChar (chr "f")) ctrl) (KCtx true true false (nth_error t (length t)) (auto_pair r))) with AcceptSuggestionFull. rewrite F. reflexivity.
    + rewrite K. rewrite andb_false_r, X. unfold determine_key_action. rewrite K, M. cbn [andb negb has_suggestion has_completion cursor_at_end]. rewrite F. reflexivity.
  - destruct (accept_ok true _ _ L0) as (b & r' & z' & E & _). exists r', b. split; [exact E|]. unfold Keys_Model.press.
    assert (F : apply_action cw w AcceptSuggestionWord (set_ctrl_x r false) = Some (r', Draw b, None)) by (unfold apply_action; rewrite E; reflexivity).
    destruct K as [-> | [K M]].
    + cbn [k_code k_mods]. change (is_char "x" (chr "f")) with false. change (is_char "e" (chr "f")) with false. cbn [andb]. rewrite andb_false_r. rewrite X.
      change (determine_key_action (Key (KChar (chr "f")) alt) (KCtx true true false (nth_error t (length t)) (auto_pair r))) with AcceptSuggestionWord. rewrite F. reflexivity.
    + rewrite K. rewrite andb_false_r, X. unfold determine_key_action. rewrite K, M. cbn [andb negb has_suggestion has_completion cursor_at_end]. rewrite F. reflexivity.
Qed.
Lemma ghost_active m t s : ghost m t = Some s -> exists k, active m = Some (t ++ s, k) /\ s <> [].
Proof.
  unfold ghost. destruct (active m) as [[f k]|]; [|discriminate]. destruct (strip t f) as [[|c s']|] eqn:S; try discriminate. intros E. injection E as <-.
  apply strip_some in S as ->. exists k. split; [reflexivity|discriminate].
Qed.
(** With the cursor at the end, the right arrow (or Ctrl+f) makes the grey text part of the
    line; with Ctrl (or Alt+f) the next word of it. *)
Theorem C70_accepting_at_end_partial : forall r t s k w, line r (Zip t []) -> comp r = None -> (t <> [] \/ autofix r = None) -> ghost (mgr_ r) t = Some s ->
  (accepts_all k -> exists r', press r (k, w) = Some (r', None) /\ line r' (Zip (t ++ s) [])) /\
  (accepts_word k -> exists r' u v, press r (k, w) = Some (r', None) /\ line r' (Zip (t ++ u) []) /\ s = u ++ v /\ first_word s u /\ u <> []).
Proof.
  intros r t s k w L C T G. destruct (accept_press r t s k w L C T G) as [H1 H2]. destruct (ghost_active _ _ _ G) as (j & A & N).
  assert (L0 : line (set_ctrl_x r false) (Zip t [])) by exact L. assert (A0 : active (mgr_ (set_ctrl_x r false)) = Some (t ++ s, j)) by exact A. split; intros K.
  - destruct (H1 K) as (r' & b & E & P). destruct (accept_at_end false _ _ _ _ _ L0 A0 eq_refl N) as (r2 & E2 & L2 & _). rewrite E2 in E. injection E as <- <-.
    exists (redraw w true r2). split; [exact P|]. unfold line. rewrite redraw_input. exact L2.
  - destruct (H2 K) as (r' & b & E & P). destruct (accept_at_end true _ _ _ _ _ L0 A0 eq_refl N) as (r2 & E2 & L2 & _). rewrite E2 in E. injection E as <- <-.
    pose proof (chunk_first_word s) as F. destruct (first_word_prefix _ _ F) as [v V].
    exists (redraw w true r2), (next_word_chunk s), v. split; [exact P|]. split; [unfold line; rewrite redraw_input; exact L2|]. split; [exact V|]. split; [exact F|].
    exact (first_word_nonempty _ _ F N).
Qed.
(** Tab, when nothing is found to complete, takes the next word of the suggestion and puts it
    at the cursor, also when the cursor is inside the line: the line is then no beginning of
    the suggestion. *)
Theorem C70_tab_inside_the_line_refuted : forall r b a s k w, line r (Zip b a) -> a <> [] -> s <> [] ->
  active (mgr_ r) = Some (b ++ a ++ s, k) -> tab w = TabNone ->
  exists r', press r (Key KTab none, w) = Some (r', None) /\ line r' (Zip (b ++ next_word_chunk s) a).
Proof.
  intros r b a s k w L N NS A TN. unfold Keys_Model.press. cbn [k_code k_mods]. rewrite andb_false_r. unfold context. cbn [input set_ctrl_x]. rewrite L, char_at_ok.
  cbn [determine_key_action k_code k_mods]. change (mods_eqb none none) with true. cbv iota. unfold apply_action, handle_tab. rewrite TN.
  unfold accept_suggestion. cbn [mgr_ set_ctrl_x input]. rewrite A, L, text_eo. unfold whole. cbn [before after]. rewrite app_assoc, strip_app.
  destruct s as [|c s]; [contradiction NS; reflexivity|]. rewrite insert_str_ok. eexists. split; [reflexivity|]. unfold line. rewrite redraw_input. reflexivity.
Qed.

(** the suggestion shown is always one of the candidates, at the index kept *)
Definition mgr_ok (m : mgr) : Prop := active m = nth_error (cands m) (sindex m) /\ (cands m <> [] -> sindex m < length (cands m)).
Lemma clear_mgr_ok : mgr_ok mgr_clear. Proof. split; [reflexivity|]. intros H. contradiction H. reflexivity. Qed.
Lemma rem_bounds i n step : (0 <= i < n)%Z -> (step = 1 \/ step = -1)%Z -> (1 < n)%Z ->
  (let x := Z.rem (i + step) n in if (x <? 0)%Z then x + n else x)%Z = ((i + step) mod n)%Z.
Proof.
  intros I S N. cbv zeta. destruct (Z.ltb_spec (i + step) 0) as [H|H].
  - assert (i = 0 /\ step = -1)%Z as [-> ->] by lia. replace (Z.rem (0 + -1) n) with (-1)%Z.
    + cbn [Z.ltb Z.compare]. symmetry. change (0 + -1)%Z with (-1)%Z. replace (-1)%Z with (n - 1 + (-1) * n)%Z at 1 by lia. rewrite Z.mod_add by lia. rewrite Z.mod_small by lia. lia.
    + change (0 + -1)%Z with (-(1))%Z. rewrite Z.rem_opp_l by lia. rewrite Z.rem_small by lia. reflexivity.
  - rewrite Z.rem_mod_nonneg by lia. destruct (Z.ltb_spec ((i + step) mod n) 0) as [H'|H']; [|reflexivity]. pose proof (Z.mod_pos_bound (i + step) n). lia.
Qed.
(** rotating goes round the candidates, and back again *)
Theorem C70_rotation : forall m, mgr_ok m -> forall step, (step = 1 \/ step = -1)%Z ->
  mgr_ok (fst (rotate m step)) /\ cands (fst (rotate m step)) = cands m /\
  (1 < length (cands m) -> Z.of_nat (sindex (fst (rotate m step))) = ((Z.of_nat (sindex m) + step) mod Z.of_nat (length (cands m)))%Z) /\
  fst (rotate (fst (rotate m step)) (- step)) = m.
Proof.
  intros m [A I] step S. unfold rotate at 1 2 3 5. destruct (Nat.leb_spec (length (cands m)) 1) as [H|H].
  - cbn [fst]. split; [split; [exact A|exact I]|]. split; [reflexivity|]. split; [lia|]. unfold rotate. destruct (Nat.leb_spec (length (cands m)) 1); [reflexivity|lia].
  - assert (Hi : sindex m < length (cands m)) by (apply I; intros E; rewrite E in H; cbn in H; lia).
    pose proof (rem_bounds (Z.of_nat (sindex m)) (Z.of_nat (length (cands m))) step) as R. cbv zeta in R.
    set (n := length (cands m)) in *. set (i := sindex m) in *. cbv zeta. rewrite R by lia.
    pose proof (Z.mod_pos_bound (Z.of_nat i + step) (Z.of_nat n)) as B. set (j := ((Z.of_nat i + step) mod Z.of_nat n)%Z) in *.
    assert (J : j <> Z.of_nat i).
    { unfold j. intros E. assert (D : ((Z.of_nat i + step - Z.of_nat i) mod Z.of_nat n = 0)%Z).
      { rewrite Zminus_mod, E, (Z.mod_small (Z.of_nat i)) by lia. rewrite Z.sub_diag. apply Z.mod_0_l. lia. }
      replace (Z.of_nat i + step - Z.of_nat i)%Z with step in D by lia. destruct S as [-> | ->].
      - rewrite Z.mod_small in D by lia. lia.
      - replace (-1)%Z with (Z.of_nat n - 1 + (-1) * Z.of_nat n)%Z in D at 1 by lia. rewrite Z.mod_add in D by lia. rewrite Z.mod_small in D by lia. lia. }
    destruct (Nat.eqb_spec (Z.to_nat j) i) as [E|E]; [lia|]. cbn [fst cands sindex active].
    split; [split; cbn; [reflexivity|intros _; fold n; lia]|]. split; [reflexivity|]. split; [intros _; rewrite Z2Nat.id by lia; reflexivity|].
    unfold rotate. cbn [cands sindex]. fold n. destruct (Nat.leb_spec n 1); [lia|].
    pose proof (rem_bounds (Z.of_nat (Z.to_nat j)) (Z.of_nat n) (- step)) as R2. cbv zeta in R2. rewrite R2 by lia. rewrite Z2Nat.id by lia.
    replace ((j + - step) mod Z.of_nat n)%Z with (Z.of_nat i).
    + rewrite Nat2Z.id. destruct (Nat.eqb_spec i (Z.to_nat j)); [lia|]. cbn [fst]. rewrite <- A. destruct m; reflexivity.
    + unfold j. rewrite Z.add_opp_r, Zminus_mod_idemp_l. replace (Z.of_nat i + step - step)%Z with (Z.of_nat i) by lia. symmetry. apply Z.mod_small. lia.
Qed.

(** every state of the prompt keeps that invariant *)
Lemma dedup_nil p l : dedup p l = [] -> l = [] \/ p <> None.
Proof. destruct l as [|x l]; [auto|]. destruct p; [right; discriminate|]. cbn. discriminate. Qed.
Lemma update_mgr_ok m l : mgr_ok m -> mgr_ok (update_candidates m l).
Proof.
  intros [A I]. unfold update_candidates. destruct (dedup None l) as [|x d] eqn:D; [apply clear_mgr_ok|].
  destruct (suggs_eqb (x :: d) (cands m)); split; cbn; auto; lia.
Qed.
Lemma redraw_mgr_ok w b r : mgr_ok (mgr_ r) -> mgr_ok (mgr_ (redraw w b r)).
Proof.
  intros M. unfold Keys_Model.redraw.
  repeat match goal with
  | |- context [match ?x with _ => _ end] => lazymatch x with
      | context [match _ with _ => _ end] => fail
      | _ => destruct x
      end
  end; cbn; first [apply clear_mgr_ok | apply update_mgr_ok, M].
Qed.
Lemma rotate_mgr_ok m step : mgr_ok m -> (step = 1 \/ step = -1)%Z -> mgr_ok (fst (rotate m step)).
Proof. intros M S. apply (C70_rotation m M step S). Qed.
Lemma accept_mgr_ok word r r' b : mgr_ok (mgr_ r) -> accept_suggestion cw word r = Some (r', b) -> mgr_ok (mgr_ r').
Proof.
  intros M. unfold accept_suggestion.
  repeat match goal with
  | |- context [match ?x with _ => _ end] => lazymatch x with
      | context [match _ with _ => _ end] => fail
      | _ => destruct x
      end
  end; intros E; try discriminate E; injection E as <- <-; first [exact M | apply clear_mgr_ok].
Qed.
Lemma expand_mgr r r' b : expand_abbr cw r = Some (r', b) -> mgr_ r' = mgr_ r.
Proof.
  unfold expand_abbr.
  repeat match goal with
  | |- context [match ?x with _ => _ end] => lazymatch x with
      | context [match _ with _ => _ end] => fail
      | _ => destruct x
      end
  end; intros E; try discriminate E; injection E as <- <-; reflexivity.
Qed.
Lemma execute_mgr_ok r r' s : mgr_ok (mgr_ r) -> handle_execute cw r = Some (r', s) -> mgr_ok (mgr_ r').
Proof.
  intros M. unfold handle_execute. destruct (enter (buffer r) (text (input r))) as [b|t]; [intros E; injection E as <- <-; apply clear_mgr_ok|].
  assert (M1 : mgr_ok (mgr_ (match buffer r with [] => r | _ => set_buffer (set_input r (reset cw (input r) t)) [] end))) by (destruct (buffer r); exact M).
  set (r1 := match buffer r with [] => r | _ => _ end) in *. clearbody r1.
  destruct (detect_ai_pipe (text (input r1))) as [[c q]|]; [intros E; injection E as <- <-; exact M1|].
  destruct (expand_abbr cw r1) as [[r2 b]|] eqn:X; [|discriminate]. apply expand_mgr in X.
  destruct (text (input (set_comp r2 None))); intros E; injection E as <- <-; [cbn; rewrite X; exact M1|apply clear_mgr_ok].
Qed.
Lemma apply_mgr_ok w a r r' n s : mgr_ok (mgr_ r) -> apply_action cw w a r = Some (r', n, s) -> mgr_ok (mgr_ r').
Proof.
  intros M. assert (MR : forall step, (step = 1 \/ step = -1)%Z -> mgr_ok (fst (rotate (mgr_ r) step))) by (intros; apply rotate_mgr_ok; assumption).
  destruct a; unfold apply_action, handle_tab, handle_execute_background, handle_backspace, toggle_sudo, edited;
    try (destruct (accept_suggestion cw true r) as [[ra ba]|] eqn:AT; [apply accept_mgr_ok in AT; [|exact M]|]);
    try (destruct (accept_suggestion cw false r) as [[rb bb]|] eqn:AF; [apply accept_mgr_ok in AF; [|exact M]|]);
    try (destruct (expand_abbr cw r) as [[rc bc]|] eqn:AX; [apply expand_mgr in AX|]);
    repeat match goal with
    | |- context [match ?x with _ => _ end] => lazymatch x with
        | context [match _ with _ => _ end] => fail
        | _ => destruct x
        end
    end; intros E; try discriminate E; injection E as <- <- <-;
    first [exact M | apply clear_mgr_ok | assumption | (cbn; rewrite AX; exact M) | (apply MR; auto)].
Qed.
Theorem C70_suggestion_is_a_candidate : forall l r r' ss, mgr_ok (mgr_ r) -> presses r l = Some (r', ss) -> mgr_ok (mgr_ r').
Proof.
  induction l as [|[k w] l IH]; intros r r' ss M; cbn [Keys_Model.presses]; [intros E; injection E as <- <-; exact M|].
  destruct (press r (k, w)) as [[r1 s]|] eqn:P; [|discriminate]. destruct (presses r1 l) as [[r2 s2]|] eqn:Q; [|discriminate]. intros E. injection E as <- <-.
  apply (IH r1 r2 s2); [|exact Q]. clear IH Q. unfold Keys_Model.press in P.
  match goal with H : (if ?b then _ else _) = _ |- _ => destruct b; [injection H as <- <-; exact M|] end.
  match goal with H : (if ?b then _ else _) = _ |- _ => destruct b; [destruct (recalled w); injection H as <- <-; exact M|] end.
  destruct (context (set_ctrl_x r false)) as [c|]; [|discriminate].
  destruct (apply_action cw w (determine_key_action k c) (set_ctrl_x r false)) as [[[r0 n] s0]|] eqn:A; [|discriminate].
  apply apply_mgr_ok in A; [|exact M]. destruct n as [|b|]; [injection P as <- <-; exact A|injection P as <- <-; apply redraw_mgr_ok, A|eapply execute_mgr_ok; eassumption].
Qed.

(** ** C75: the completion shown behind the line *)
Lemma ghost_clear t : ghost mgr_clear t = None. Proof. reflexivity. Qed.
Lemma press_right r t s : line r (Zip t []) -> t <> [] -> comp r = Some s -> active (mgr_ r) = None -> forall w,
  press r (Key KRight none, w) = Some (redraw w false (set_comp (set_input (set_ctrl_x r false) (reset cw (input r) s)) None), None).
Proof.
  intros L T C A w. unfold Keys_Model.press. cbn [k_code k_mods]. rewrite andb_false_r. unfold context. cbv zeta. cbn [input set_ctrl_x mgr_ comp autofix auto_pair].
  unfold line in L. rewrite !L, char_at_ok, C, A, text_eo, whole_end, len_ed_of, whole_end, cur_eo. cbn [before]. rewrite Nat.eqb_refl.
  destruct t as [|c t]; [contradiction T; reflexivity|]. unfold determine_key_action. cbn [k_code k_mods m_ctrl none has_suggestion has_completion cursor_at_end andb negb].
  unfold apply_action. cbn [comp set_ctrl_x input]. rewrite C, L. reflexivity.
Qed.
Section Shown.
Variables (w : world) (reset_ : bool) (r0 : rs) (t : str).
(** a path completion of the last word of the line completes the line *)
Hypothesis paths_complete : forall lw suffix full, paths_ w lw = Some (suffix, full) -> full = t ++ suffix.
Lemma analyze_words_full l f s : analyze_words (names_ w) (paths_ w) t l = (Some f, Some s) -> f = t ++ s.
Proof.
  induction l as [|lw l IH]; cbn; [discriminate|]. destruct (w_text lw) as [|c x]; [exact IH|]. destruct (w_current lw); [|exact IH].
  destruct (if w_cmd lw then names_ w (c :: x) else None) as [file|]; [intros E; injection E as <- E; apply strip_some; exact E|].
  destruct (paths_ w lw) as [[suffix full]|] eqn:P; [intros E; injection E as <- <-; eapply paths_complete; exact P|exact IH].
Qed.
Lemma analyze_words_none l : snd (analyze_words (names_ w) (paths_ w) t l) <> None -> fst (analyze_words (names_ w) (paths_ w) t l) <> None.
Proof.
  induction l as [|lw l IH]; cbn; [auto|]. destruct (w_text lw) as [|c x]; [exact IH|]. destruct (w_current lw); [|exact IH].
  destruct (if w_cmd lw then names_ w (c :: x) else None) as [file|]; [discriminate|].
  destruct (paths_ w lw) as [[suffix full]|]; [discriminate|exact IH].
Qed.
End Shown.
(** If grey text is shown behind the line, the cursor is at the end of the line, and path
    completions complete the line, then the right arrow makes exactly the shown text part of
    the line. *)
Theorem C75_shown_text_is_accepted_partial : forall w reset_ r0 t s w',
  line r0 (Zip t []) -> shown_suffix w reset_ r0 = Some s -> (t <> [] \/ autofix r0 = None) ->
  (forall lw suffix full, paths_ w lw = Some (suffix, full) -> full = t ++ suffix) ->
  exists r', press (redraw w reset_ r0) (Key KRight none, w') = Some (r', None) /\ line r' (Zip (t ++ s) []).
Proof.
  intros w reset_ r0 t s w' L S T P. set (r := redraw w reset_ r0) in *.
  assert (Lr : line r (Zip t [])) by (unfold line, r; rewrite redraw_input; exact L).
  assert (AF : autofix r = autofix r0).
  { unfold r, Keys_Model.redraw. repeat match goal with |- context [match ?x with _ => _ end] => lazymatch x with context [match _ with _ => _ end] => fail | _ => destruct x end end; reflexivity. }
  assert (D : (comp r = None /\ ghost (mgr_ r) t = Some s) \/ (t <> [] /\ comp r = Some (t ++ s) /\ active (mgr_ r) = None)).
  { unfold shown_suffix in S. fold r in S. unfold r, Keys_Model.redraw. unfold r, Keys_Model.redraw in S. unfold line in L. rewrite !L, !text_eo, !whole_end in *.
    destruct ((match t with [] => true | _ => false end) || reset_) eqn:B.
    - left. cbn [comp set_comp set_mgr mgr_] in *. split; [reflexivity|exact S].
    - assert (TN : t <> []) by (intros ->; discriminate B).
      destruct (history_hit w) as [entry|].
      + destruct (strip t entry) as [x|] eqn:X.
        * apply strip_some in X. subst entry. unfold analyze_input in *. destruct t as [|c t']; [contradiction TN; reflexivity|]. 
          right. destruct (is_char "!" c); cbn [snd] in S; injection S as ->; cbn; auto.
        * destruct (analyze_input (names_ w) (paths_ w) t (cur (eo (Zip t []))) None) as [full suffix] eqn:E. cbn [snd] in S.
          assert (F : forall y, suffix = Some y -> full = Some (t ++ y)).
          { intros y ->. unfold analyze_input in E. destruct t as [|c t']; [contradiction TN; reflexivity|]. destruct (is_char "!" c); [discriminate|].
            destruct (get_words (c :: t') _) as [lws|]; [|discriminate]. destruct full as [f|].
            - rewrite (analyze_words_full w (c :: t') P lws f y E). reflexivity.
            - exfalso. apply (analyze_words_none w (c :: t') lws); rewrite E; [discriminate|reflexivity]. }
          destruct suffix as [y|]; [injection S as ->; rewrite (F s eq_refl); right; cbn; auto|].
          destruct full as [f|]; cbn in S; discriminate.
      + destruct (analyze_input (names_ w) (paths_ w) t (cur (eo (Zip t []))) None) as [full suffix] eqn:E. cbn [snd] in S.
        assert (F : forall y, suffix = Some y -> full = Some (t ++ y)).
        { intros y ->. unfold analyze_input in E. destruct t as [|c t']; [contradiction TN; reflexivity|]. destruct (is_char "!" c); [discriminate|].
          destruct (get_words (c :: t') _) as [lws|]; [|discriminate]. destruct full as [f|].
          - rewrite (analyze_words_full w (c :: t') P lws f y E). reflexivity.
          - exfalso. apply (analyze_words_none w (c :: t') lws); rewrite E; [discriminate|reflexivity]. }
        destruct suffix as [y|]; [injection S as ->; rewrite (F s eq_refl); right; cbn; auto|].
        destruct full as [f|]; [cbn in S; discriminate|]. destruct (comp r0) as [x|] eqn:C; cbn [comp set_mgr mgr_] in *; rewrite ?C in *; cbn [comp set_mgr mgr_] in *; [discriminate|].
        left. split; [reflexivity|exact S]. }
  destruct D as [[C G] | (TN & C & A)].
  - assert (T' : t <> [] \/ autofix r = None) by (destruct T as [T|T]; [left; exact T|right; rewrite AF; exact T]).
    destruct (proj1 (C70_accepting_at_end_partial r t s (Key KRight none) w' Lr C T' G) (or_intror (conj eq_refl eq_refl))) as (r' & E & L').
    exists r'. split; [exact E|exact L'].
  - eexists. rewrite (press_right r t (t ++ s) Lr TN C A w'). split; [reflexivity|]. unfold line. rewrite redraw_input. apply reset_ok.
Qed.

(** a world in which neither the history nor the path nor the commands have a completion *)
Definition quiet (w : world) : Prop := history_hit w = None /\ (forall x, names_ w x = None) /\ (forall x, paths_ w x = None).
Lemma quiet_words w t l : quiet w -> analyze_words (names_ w) (paths_ w) t l = (None, None).
Proof.
  intros (_ & N & P). induction l as [|lw l IH]; [reflexivity|]. cbn. destruct (w_text lw); [exact IH|]. destruct (w_current lw); [|exact IH].
  rewrite N, P. destruct (w_cmd lw); exact IH.
Qed.
Lemma quiet_analyze w t n : quiet w -> analyze_input (names_ w) (paths_ w) t n None = (None, None).
Proof. intros Q. unfold analyze_input. destruct t as [|c t]; [reflexivity|]. destruct (is_char "!" c); [reflexivity|]. destruct (get_words (c :: t) n); [|reflexivity]. apply quiet_words. exact Q. Qed.
Lemma quiet_redraw w r c : quiet w -> text (input r) <> [] -> comp r = Some c ->
  comp (redraw w false r) = Some c /\ active (mgr_ (redraw w false r)) = None /\ shown_suffix w false r = None.
Proof.
  intros Q T C. pose proof Q as (H & _). unfold shown_suffix, Keys_Model.redraw. rewrite H.
  destruct (text (input r)) as [|x t] eqn:E; [contradiction T; reflexivity|]. cbn [orb].
  rewrite !(quiet_analyze w (x :: t) _ Q). cbn [snd]. rewrite !C. cbn. rewrite C. auto.
Qed.
(** A completion found for an earlier text of the line stays behind.  Type any text for which
    there is no completion: nothing is shown, yet Ctrl+e (go to the end of the line) or the
    right arrow replace the whole line by the old completion. *)
Theorem C75_hidden_completion_refuted : forall s l r t c w, s <> [] -> typed s l -> Forall (fun kw => quiet (snd kw)) l ->
  line r (Zip t []) -> comp r = Some c -> auto_pair r = false -> abbrs r = [] ->
  exists r1 r2, presses r l = Some (r1, []) /\ line r1 (Zip (t ++ s) []) /\ (forall w', quiet w' -> shown_suffix w' false r1 = None) /\
    press r1 (Key (KChar (chr "e")) ctrl, w) = Some (r2, None) /\ line r2 (Zip c []).
Proof.
  intros s l r t c w NS T F L C A B.
  assert (G : exists r1, presses r l = Some (r1, []) /\ line r1 (Zip (t ++ s) []) /\ comp r1 = Some c /\ ctrl_x r1 = false).
  { clear w. revert r t c L C A B F NS. induction T as [|x s w l T IH|x s w l T IH]; intros r t c L C A B F NS; [contradiction NS; reflexivity| |].
    - destruct (press_plain r _ x none w L) as (r1 & E & L1 & (S1 & S2 & S3 & S4) & R1); [split; [left; reflexivity|left; exact A]|exact B|].
      inversion F as [|? ? F1 F2]; subst. cbn in F1.
      assert (C1 : comp (redraw w false (set_input (set_ctrl_x r false) (eo (s_insert (Zip t []) [x])))) = Some c).
      { apply quiet_redraw; [exact F1| |exact C]. cbn. rewrite app_nil_r. intros X. apply app_eq_nil in X as [_ X]. discriminate. }
      destruct s as [|y s].
      + inversion T; subst. eexists. cbn [Keys_Model.presses]. rewrite E. split; [reflexivity|]. split; [exact L1|]. split; [exact C1|exact S4].
      + destruct (IH _ (t ++ [x]) c L1 C1) as (r2 & E2 & L2 & C2 & X2); [congruence|congruence|exact F2|discriminate|].
        exists r2. cbn [Keys_Model.presses]. rewrite E, E2. split; [reflexivity|]. rewrite <- app_assoc in L2. split; [exact L2|]. split; [exact C2|exact X2].
    - destruct (press_plain r _ x shift w L) as (r1 & E & L1 & (S1 & S2 & S3 & S4) & R1); [split; [right; reflexivity|left; exact A]|exact B|].
      inversion F as [|? ? F1 F2]; subst. cbn in F1.
      assert (C1 : comp (redraw w false (set_input (set_ctrl_x r false) (eo (s_insert (Zip t []) [x])))) = Some c).
      { apply quiet_redraw; [exact F1| |exact C]. cbn. rewrite app_nil_r. intros X. apply app_eq_nil in X as [_ X]. discriminate. }
      destruct s as [|y s].
      + inversion T; subst. eexists. cbn [Keys_Model.presses]. rewrite E. split; [reflexivity|]. split; [exact L1|]. split; [exact C1|exact S4].
      + destruct (IH _ (t ++ [x]) c L1 C1) as (r2 & E2 & L2 & C2 & X2); [congruence|congruence|exact F2|discriminate|].
        exists r2. cbn [Keys_Model.presses]. rewrite E, E2. split; [reflexivity|]. rewrite <- app_assoc in L2. split; [exact L2|]. split; [exact C2|exact X2]. }
  destruct G as (r1 & E & L1 & C1 & X1). exists r1. eexists. split; [exact E|]. split; [exact L1|]. split.
  - intros w' Q. apply (quiet_redraw w' r1 c Q); [|exact C1]. unfold line in L1. rewrite L1, text_eo, whole_end. intros X. apply app_eq_nil in X as [_ X]. contradiction.
  - unfold Keys_Model.press. cbn [k_code k_mods]. change (is_char "x" (chr "e")) with false. rewrite X1. cbn [andb].
    unfold context. cbv zeta. cbn [input set_ctrl_x comp mgr_ autofix auto_pair]. unfold line in L1. rewrite L1, char_at_ok, C1. unfold determine_key_action. cbn [k_code k_mods].
    match goal with |- context [char_action (chr "e") ctrl ?x] => change (char_action (chr "e") ctrl x) with AcceptCompletion end.
    unfold apply_action. cbn [comp set_ctrl_x]. rewrite C1. split; [reflexivity|]. unfold line. rewrite redraw_input. apply reset_ok.
Qed.

(** ** C69: what Enter runs *)
Lemma rsplit_none p s : p <> [] -> ~ occurs p s -> rsplit p s = None.
Proof.
  intros N. induction s as [|c s IH]; intros H; [reflexivity|]. cbn [rsplit]. rewrite IH.
  - destruct (strip p (c :: s)) as [b|] eqn:E; [|reflexivity]. exfalso. apply strip_some in E. apply H. exists [], b. exact E.
  - intros (a & b & ->). apply H. exists (c :: a), b. reflexivity.
Qed.
(** A complete line without the mark of the AI pipe runs in the shell as it stands. *)
Theorem C69_line_runs_as_typed_partial : forall r z t w, line r z -> t = whole z -> t <> [] -> buffer r = [] -> abbrs r = [] ->
  complete None t -> ~ ends_in_operator t -> ~ occurs (lit "|!") t ->
  exists r', press r (Key KEnter none, w) = Some (r', Some (ShellLine t false)) /\ line r' (Zip [] []).
Proof.
  intros r z t w L -> N B A C O P. unfold Keys_Model.press. cbn [k_code k_mods]. rewrite andb_false_r. unfold context. cbv zeta. cbn [input set_ctrl_x].
  rewrite L, char_at_ok. cbn [determine_key_action k_code k_mods]. change (mods_eqb none none) with true. cbv iota. cbn [apply_action].
  unfold handle_execute. cbn [buffer set_ctrl_x input]. rewrite B, L, text_eo. unfold enter.
  rewrite (proj2 (C41_complete_iff (whole z)) (conj C O)). cbn [input set_ctrl_x buffer]. rewrite L, text_eo.
  unfold detect_ai_pipe. rewrite (rsplit_none (lit "|!")) by (exact P || discriminate).
  rewrite (expand_abbr_none (set_ctrl_x r false) z L A). cbv zeta. cbn [input set_comp set_ctrl_x]. rewrite L, text_eo.
  destruct (whole z) as [|c t]; [contradiction N; reflexivity|]. eexists. split; reflexivity.
Qed.
Lemma complete_app_none a b : complete None a -> complete None b -> complete None (a ++ b).
Proof.
  intros C. remember (@None char) as o. induction C; subst; intros D; cbn; try rewrite <- !app_assoc; cbn; auto.
  - apply c_char; auto.
  - apply c_esc; auto.
  - apply c_single; auto.
  - apply c_double; auto.
  - apply c_group; auto.
Qed.
Lemma rsplit_last p a b : p <> [] -> rsplit p b = None -> (forall b1 b2, tl p ++ b <> b1 ++ p ++ b2) -> rsplit p (a ++ p ++ b) = Some (a, b).
Proof.
  intros N R U. induction a as [|c a IH].
  - destruct p as [|x p]; [contradiction N; reflexivity|]. cbn [app rsplit tl] in *.
    destruct (rsplit (x :: p) (p ++ b)) as [[b1 b2]|] eqn:E.
    + exfalso. assert (H : forall s u v, rsplit (x :: p) s = Some (u, v) -> s = u ++ (x :: p) ++ v).
      { clear. induction s as [|c s IH]; intros u v E; [discriminate|]. cbn [rsplit] in E. destruct (rsplit (x :: p) s) as [[a b]|].
        - injection E as <- <-. cbn. rewrite (IH a b eq_refl). reflexivity.
        - destruct (strip (x :: p) (c :: s)) as [y|] eqn:S; [|discriminate]. injection E as <- <-. apply strip_some in S. exact S. }
      exact (U b1 b2 (H _ _ _ E)).
    + change (x :: p ++ b) with ((x :: p) ++ b). rewrite strip_app. reflexivity.
  - cbn [app rsplit]. rewrite IH. reflexivity.
Qed.
(** Every complete command followed by the AI mark is handed to sh as it stands: it is not
    parsed, not checked by the safety guard and not recorded. *)
Theorem C69_ai_pipe_refuted : forall r z c w, line r z -> whole z = c ++ lit " |! explain" -> buffer r = [] ->
  complete None c -> c <> [] -> trim (c ++ lit " ") = c ->
  exists r', press r (Key KEnter none, w) = Some (r', Some (RawSh c (lit "explain"))).
Proof.
  intros r z c w L Z B C N T. unfold Keys_Model.press. cbn [k_code k_mods]. rewrite andb_false_r. unfold context. cbv zeta. cbn [input set_ctrl_x].
  rewrite L, char_at_ok. cbn [determine_key_action k_code k_mods]. change (mods_eqb none none) with true. cbv iota. cbn [apply_action].
  unfold handle_execute. cbn [buffer set_ctrl_x input]. rewrite B, L, text_eo. unfold enter. rewrite Z.
  assert (I : is_incomplete_input (c ++ lit " |! explain") = false).
  { apply C41_complete_iff. split.
    - apply complete_app_none; [exact C|]. repeat (apply c_char; [cbn; intuition discriminate|discriminate|]). constructor.
    - intros (t & v & E & W & u & U).
      assert (E' : c ++ lit " |! explain" = (c ++ lit " |! explai") ++ [110%N]) by (rewrite <- app_assoc; reflexivity). rewrite E' in E.
      destruct v as [|v0 v] using rev_ind.
      + rewrite app_nil_r in E. destruct U as [-> | ->]; [|replace (u ++ lit "&&") with ((u ++ lit "&") ++ lit "&") in E by (rewrite <- app_assoc; reflexivity)];
          apply app_inj_tail in E as [_ E]; discriminate.
      + rewrite app_assoc in E. apply app_inj_tail in E as [_ <-]. rewrite forallb_app in W. apply andb_true_iff in W as [_ W]. vm_compute in W. discriminate. }
  rewrite I. cbn [input set_ctrl_x buffer]. rewrite L, text_eo, Z.
  assert (D : detect_ai_pipe (c ++ lit " |! explain") = Some (c, lit "explain")).
  { unfold detect_ai_pipe. replace (c ++ lit " |! explain") with ((c ++ lit " ") ++ lit "|!" ++ lit " explain") by (rewrite <- app_assoc; reflexivity).
    rewrite rsplit_last; [|discriminate|reflexivity|].
    - rewrite T. destruct c as [|x c]; [contradiction N; reflexivity|]. reflexivity.
    - intros b1 b2 E. do 9 (destruct b1 as [|? b1]; [discriminate E|injection E as _ E]). destruct b1; discriminate. }
  rewrite D. eexists. reflexivity.
Qed.


(** ** C76: pending lines *)
Lemma press_enter r z w : line r z -> press r (Key KEnter none, w) = handle_execute cw (set_ctrl_x r false).
Proof.
  intros L. unfold Keys_Model.press. cbn [k_code k_mods]. rewrite andb_false_r. unfold context. cbv zeta. cbn [input set_ctrl_x].
  unfold line in L. rewrite L, char_at_ok. cbn [determine_key_action k_code k_mods]. change (mods_eqb none none) with true. reflexivity.
Qed.
Lemma execute_joined r z b s : line r z -> whole z = s -> buffer r = b -> b ++ s <> [] -> abbrs r = [] -> complete None (b ++ s) -> ~ ends_in_operator (b ++ s) -> ~ occurs (lit "|!") (b ++ s) ->
  exists r', handle_execute cw r = Some (r', Some (ShellLine (b ++ s) false)) /\ line r' (Zip [] []) /\ buffer r' = [].
Proof.
  intros L W B NE A C O P. unfold handle_execute. unfold line in L. rewrite B, L, text_eo, W. unfold enter.
  assert (I : is_incomplete_input (b ++ s) = false) by (apply C41_complete_iff; split; assumption).
  destruct b as [|x b].
  - cbn [app] in *. rewrite I. rewrite L, text_eo, W. unfold detect_ai_pipe. rewrite (rsplit_none (lit "|!")) by (exact P || discriminate).
    rewrite (expand_abbr_none r z L A). cbv zeta. cbn [input set_comp]. rewrite L, text_eo, W. destruct s as [|c s]; [contradiction NE; reflexivity|]. eexists. split; [reflexivity|]. split; [reflexivity|exact B].
  - rewrite I. cbv zeta. cbn [input set_input set_buffer]. rewrite reset_ok, text_eo, whole_end. unfold detect_ai_pipe. rewrite (rsplit_none (lit "|!")) by (exact P || discriminate).
    rewrite (expand_abbr_none _ (Zip ((x :: b) ++ s) [])) by (reflexivity || exact A). cbn [input set_comp set_input set_buffer]. rewrite text_eo, whole_end. cbn [app]. eexists. split; [reflexivity|]. split; reflexivity.
Qed.
Lemma type_and_enter r s l w b : line r (Zip [] []) -> typed s l -> buffer r = b -> auto_pair r = false -> abbrs r = [] -> b ++ s <> [] ->
  complete None (b ++ s) -> ~ ends_in_operator (b ++ s) -> ~ occurs (lit "|!") (b ++ s) ->
  exists r', presses r (l ++ [(Key KEnter none, w)]) = Some (r', [ShellLine (b ++ s) false]) /\ line r' (Zip [] []) /\ buffer r' = [].
Proof.
  intros L T B A AB N C O P. destruct (typed_arrives s l r _ T L A AB) as (r2 & E2 & L2 & B2 & A2 & AB2).
  rewrite (presses_app l _ _ _ _ E2). cbn [Keys_Model.presses]. rewrite (press_enter _ _ _ L2).
  destruct (execute_joined (set_ctrl_x r2 false) _ b s L2) as (r3 & -> & L3 & B3); auto; [cbn; apply app_nil_r|cbn; congruence|].
  exists r3. auto.
Qed.
(** Ctrl+c forgets the line and the pending lines: the next command is exactly what is typed
    after it, with one restriction (no mark of the AI pipe, see C69). *)
Theorem C76_interrupt_forgets_partial : forall r z s l w w', line r z -> typed s l -> s <> [] -> auto_pair r = false -> abbrs r = [] ->
  complete None s -> ~ ends_in_operator s -> ~ occurs (lit "|!") s ->
  exists r', presses r ((Key (KChar (chr "c")) ctrl, w) :: l ++ [(Key KEnter none, w')]) = Some (r', [ShellLine s false]).
Proof.
  intros r z s l w w' L T N A B C O P.
  assert (E : press r (Key (KChar (chr "c")) ctrl, w) = Some (set_mgr (set_buffer (set_input (set_ctrl_x r false) (eo (Zip [] []))) []) mgr_clear, None)).
  { unfold Keys_Model.press. cbn [k_code k_mods]. change (is_char "x" (chr "c")) with false. change (is_char "e" (chr "c")) with false. cbn [andb]. rewrite andb_false_r.
    unfold context. cbv zeta. cbn [input set_ctrl_x]. unfold line in L. rewrite L, char_at_ok. unfold determine_key_action. cbn [k_code k_mods].
    match goal with |- context [char_action (chr "c") ctrl ?x] => change (char_action (chr "c") ctrl x) with Interrupt end. reflexivity. }
  cbn [Keys_Model.presses]. rewrite E. set (r1 := set_mgr _ mgr_clear).
  destruct (type_and_enter r1 s l w' [] eq_refl T eq_refl A B N C O P) as (r3 & -> & _). eexists. reflexivity.
Qed.
(** A command typed and run in full runs alone.  False: with lines pending, Alt+Enter runs the
    line typed next in the background and leaves the pending lines waiting, so that the
    following command is run glued to them. *)
Theorem C76_pending_lines_refuted : forall r z b u s l w w', line r z -> whole z = u -> u <> [] -> buffer r = b -> b <> [] ->
  typed s l -> auto_pair r = false -> abbrs r = [] -> complete None (b ++ s) -> ~ ends_in_operator (b ++ s) -> ~ occurs (lit "|!") (b ++ s) ->
  exists r', presses r ((Key KEnter alt, w) :: l ++ [(Key KEnter none, w')]) = Some (r', [ShellLine u true; ShellLine (b ++ s) false]).
Proof.
  intros r z b u s l w w' L W N B NB T A AB C O P.
  assert (E : exists r1, press r (Key KEnter alt, w) = Some (r1, Some (ShellLine u true)) /\ line r1 (Zip [] []) /\ buffer r1 = b /\ auto_pair r1 = false /\ abbrs r1 = []).
  { unfold Keys_Model.press. cbn [k_code k_mods]. rewrite andb_false_r. unfold context. cbv zeta. cbn [input set_ctrl_x]. unfold line in L. rewrite L, char_at_ok.
    cbn [determine_key_action k_code k_mods]. change (mods_eqb alt none) with false. change (mods_eqb alt alt) with true. cbv iota. unfold apply_action, handle_execute_background.
    cbn [input set_ctrl_x set_comp]. rewrite L, text_eo, W. destruct u as [|c u]; [contradiction N; reflexivity|]. eexists. split; [reflexivity|]. split; [reflexivity|]. split; [exact B|]. split; [exact A|exact AB]. }
  destruct E as (r1 & E & L1 & B1 & A1 & AB1). cbn [Keys_Model.presses]. rewrite E.
  assert (NE : b ++ s <> []) by (intros H; apply app_eq_nil in H; tauto).
  destruct (type_and_enter r1 s l w' b L1 T B1 A1 AB1 NE C O P) as (r3 & -> & _). eexists. reflexivity.
Qed.
(** Clearing the screen erases the line being typed as well, and keeps the pending ones. *)
Theorem C76_clear_screen_erases_refuted : forall r z w, line r z ->
  exists r', press r (Key (KChar (chr "l")) ctrl, w) = Some (r', None) /\ line r' (Zip [] []) /\ buffer r' = buffer r.
Proof.
  intros r z w L. unfold Keys_Model.press. cbn [k_code k_mods]. change (is_char "x" (chr "l")) with false. change (is_char "e" (chr "l")) with false. cbn [andb]. rewrite andb_false_r.
  unfold context. cbv zeta. cbn [input set_ctrl_x]. unfold line in L. rewrite L, char_at_ok. unfold determine_key_action. cbn [k_code k_mods].
  match goal with |- context [char_action (chr "l") ctrl ?x] => change (char_action (chr "l") ctrl x) with ClearScreen end. eexists. split; [reflexivity|]. split; reflexivity.
Qed.

(** ** C77: Esc Esc puts sudo in front and takes it away again *)
Lemma press_esc r z w : line r z -> active (mgr_ r) = None -> comp r = None -> autofix r = None -> esc_twice w = true ->
  press r (Key KEsc none, w) = Some (redraw w true (toggle_sudo cw (set_ctrl_x r false)), None).
Proof.
  intros L A C F T. unfold Keys_Model.press. cbn [k_code k_mods]. rewrite andb_false_r. unfold context. cbv zeta. cbn [input set_ctrl_x active mgr_ comp autofix].
  unfold line in L. rewrite L, char_at_ok, A, C, F. cbn [determine_key_action k_code k_mods]. change (mods_eqb none none) with true.
  destruct (text (eo z)); cbn [has_suggestion has_completion orb]; cbv iota; unfold apply_action; rewrite T; reflexivity.
Qed.
Definition sudo : str := lit "sudo ".
Theorem C77_toggle_adds : forall r z w, line r z -> active (mgr_ r) = None -> comp r = None -> autofix r = None -> esc_twice w = true ->
  (forall u, whole z <> sudo ++ u) -> exists r', press r (Key KEsc none, w) = Some (r', None) /\ line r' (Zip (sudo ++ whole z) []).
Proof.
  intros r z w L A C F T N. rewrite (press_esc r z w L A C F T). eexists. split; [reflexivity|]. unfold line. rewrite redraw_input. unfold toggle_sudo.
  cbn [input set_input set_ctrl_x]. unfold line in L. rewrite L, text_eo. rewrite reset_ok. destruct (strip (lit "sudo ") (whole z)) as [u|] eqn:E; [|reflexivity].
  apply strip_some in E. exfalso. exact (N u E).
Qed.
Theorem C77_toggle_removes : forall r z u w, line r z -> active (mgr_ r) = None -> comp r = None -> autofix r = None -> esc_twice w = true ->
  whole z = sudo ++ u -> exists r', press r (Key KEsc none, w) = Some (r', None) /\ line r' (Zip u []).
Proof.
  intros r z u w L A C F T N. rewrite (press_esc r z w L A C F T). eexists. split; [reflexivity|]. unfold line. rewrite redraw_input. unfold toggle_sudo.
  cbn [input set_input set_ctrl_x]. unfold line in L. rewrite L, text_eo. rewrite reset_ok. rewrite N. unfold sudo. rewrite strip_app. reflexivity.
Qed.

(** ** C78: what choosing a completion replaces *)
Lemma press_tab r z w : line r z -> press r (Key KTab none, w) =
  match handle_tab cw w (set_ctrl_x r false) with
  | None => None | Some (r', Done, s) => Some (r', s) | Some (r', Draw b, s) => Some (redraw w b r', s) | Some (r', RunLine, _) => handle_execute cw r' end.
Proof.
  intros L. unfold Keys_Model.press. cbn [k_code k_mods]. rewrite andb_false_r. unfold context. cbv zeta. cbn [input set_ctrl_x].
  unfold line in L. rewrite L, char_at_ok. reflexivity.
Qed.
(** A candidate that says which part of the line it replaces replaces exactly that part. *)
Theorem C78_range_replaced : forall r z a m b t w, line r z -> whole z = a ++ m ++ b -> tab w = TabRange (length a) (length a + length m) t ->
  exists r', press r (Key KTab none, w) = Some (r', None) /\ line r' (Zip (a ++ t) b).
Proof.
  intros r z a m b t w L W T. rewrite (press_tab r z w L). unfold handle_tab. rewrite T. cbn [input set_ctrl_x]. unfold line in L. rewrite L, replace_range_ok. unfold s_replace_range.
  rewrite W. assert (E1 : length a <=? length a + length m = true) by (apply Nat.leb_le; lia).
  assert (E2 : length a + length m <=? length (a ++ m ++ b) = true) by (apply Nat.leb_le; rewrite !app_length; lia). rewrite E1, E2. cbn [andb].
  rewrite firstn_app, Nat.sub_diag, firstn_all, firstn_O, app_nil_r. rewrite app_assoc, skipn_app, <- app_length, Nat.sub_diag, skipn_all, skipn_O. cbn [app].
  eexists. split; [reflexivity|]. unfold line. rewrite redraw_input. reflexivity.
Qed.
(** Otherwise the characters counted are erased before the cursor: right when the cursor is
    behind the word, ... *)
Theorem C78_word_before_cursor_partial : forall r p q a t w, line r (Zip (p ++ q) a) -> tab w = TabPatch (length q) t ->
  exists r', press r (Key KTab none, w) = Some (r', None) /\ line r' (Zip (p ++ t) a).
Proof.
  intros r p q a t w L T. rewrite (press_tab r _ w L). unfold handle_tab, edited. rewrite T. cbn [input set_ctrl_x]. unfold line in L. rewrite L, backspacen_ok, insert_str_ok.
  eexists. split; [reflexivity|]. unfold line. rewrite redraw_input. cbn [input set_input]. unfold s_insert, s_backspace. cbn [before after].
  rewrite app_length. replace (length p + length q - length q) with (length p) by lia. rewrite firstn_app, Nat.sub_diag, firstn_all, firstn_O, app_nil_r. reflexivity.
Qed.
(** ... and wrong when it is inside: as many characters of the text before the word are lost as
    the word has behind the cursor, and these stay. *)
Theorem C78_cursor_inside_word_refuted : forall r p u v t w, line r (Zip (p ++ u) v) -> tab w = TabPatch (length (u ++ v)) t ->
  exists r', press r (Key KTab none, w) = Some (r', None) /\ line r' (Zip (firstn (length p - length v) p ++ t) v).
Proof.
  intros r p u v t w L T. rewrite (press_tab r _ w L). unfold handle_tab, edited. rewrite T. cbn [input set_ctrl_x]. unfold line in L. rewrite L, backspacen_ok, insert_str_ok.
  eexists. split; [reflexivity|]. unfold line. rewrite redraw_input. cbn [input set_input]. unfold s_insert, s_backspace. cbn [before after].
  rewrite !app_length. replace (length p + length u - (length u + length v)) with (length p - length v) by lia. rewrite firstn_app. replace (length p - length v - length p) with 0 by lia.
  rewrite firstn_O, app_nil_r. reflexivity.
Qed.
(** ** C79: the editing keys *)
Lemma press_ctrl c r z w : line r z -> ctrl_x r = false -> is_char "x" (chr c) = false -> press r (ctrl_key c, w) =
  match apply_action cw w (char_action (chr c) ctrl (KCtx (cur (input r) =? len (input r))
                         (match active (mgr_ r) with Some _ => true | None => match text (input r), autofix r with [], Some _ => true | _, _ => false end end)
                         (match comp r with Some _ => true | None => false end) (nth_error (whole z) (length (before z))) (auto_pair r))) (set_ctrl_x r false) with
  | None => None
  | Some (r', Done, s) => Some (r', s)
  | Some (r', Draw b, s) => Some (redraw w b r', s)
  | Some (r', RunLine, _) => handle_execute cw r'
  end.
Proof.
  intros L X N. unfold Keys_Model.press, ctrl_key. cbn [k_code k_mods]. rewrite N, X. cbn [andb]. unfold context, determine_key_action.
  cbn [k_code k_mods input set_ctrl_x active comp autofix auto_pair mgr_]. unfold line in L. rewrite !L, char_at_ok. reflexivity.
Qed.
Lemma existsb_pairs p n : existsb (fun q => (fst q =? p)%N && (snd q =? n)%N) pairs = true <-> pair_of_marks p n.
Proof.
  unfold pairs. cbn [existsb fst snd]. rewrite !orb_true_iff, !andb_true_iff, !N.eqb_eq. unfold pair_of_marks, quote_mark. split.
  - intros [[<- <-] | [[<- <-] | [[<- <-] | [[<- <-] | [[<- <-] | H]]]]]; [left; constructor|left; constructor|left; constructor|right; auto|right; auto|discriminate].
  - intros [M|[[-> | ->] <-]]; [destruct M|..]; tauto.
Qed.
Lemma firstn_snoc (b : str) c : firstn (length (b ++ [c]) - 1) (b ++ [c]) = b.
Proof. rewrite app_length. cbn [length]. replace (length b + 1 - 1) with (length b) by lia. rewrite firstn_app, firstn_all, Nat.sub_diag. cbn. apply app_nil_r. Qed.
Theorem C79_editing_keys : forall r z z' k w, line r z -> comp r = None -> ctrl_x r = false -> edit_key (auto_pair r) k z z' ->
  exists r', press r (k, w) = Some (r', None) /\ line r' z' /\ buffer r' = buffer r.
Proof.
  intros r z z' k w L C X E.
  assert (FIN : forall r1 n, match n with RunLine => False | _ => True end -> line r1 z' -> buffer r1 = buffer r ->
      exists r', (match n with Done => Some (r1, None) | Draw b => Some (redraw w b r1, @None started) | RunLine => handle_execute cw r1 end) = Some (r', None) /\ line r' z' /\ buffer r' = buffer r).
  { intros r1 n N L1 B1. destruct n as [|b|]; [eauto| |contradiction]. eexists. split; [reflexivity|]. split; [unfold line; rewrite redraw_input; exact L1|].
    rewrite (proj1 (proj2 (proj2 (redraw_same w b r1)))). exact B1. }
  destruct E as [b a|b a|b a|b a|b a|b c a|a|b c a|b c a NP|b c d a AP PM|a].
  - rewrite (press_ctrl _ r _ w L X) by reflexivity. match goal with |- context [char_action ?c ctrl ?x] => change (char_action c ctrl x) with CursorToBegin end.
    unfold apply_action. cbn [input set_ctrl_x]. rewrite L, begin_ok. apply (FIN _ Done I); reflexivity.
  - rewrite (press_ctrl _ r _ w L X) by reflexivity. rewrite C. match goal with |- context [char_action ?c ctrl ?x] => change (char_action c ctrl x) with CursorToEnd end.
    unfold apply_action. cbn [input set_ctrl_x]. rewrite L, end_ok. apply (FIN _ Done I); reflexivity.
  - rewrite (press_ctrl _ r _ w L X) by reflexivity. match goal with |- context [char_action ?c ctrl ?x] => change (char_action c ctrl x) with DeleteToEnd end.
    unfold apply_action, edited. cbn [input set_ctrl_x]. rewrite L, delete_to_end_ok. apply (FIN _ (Draw true) I); reflexivity.
  - rewrite (press_ctrl _ r _ w L X) by reflexivity. match goal with |- context [char_action ?c ctrl ?x] => change (char_action c ctrl x) with DeleteToBeginning end.
    unfold apply_action, edited. cbn [input set_ctrl_x]. rewrite L, delete_to_beginning_ok. apply (FIN _ (Draw true) I); reflexivity.
  - rewrite (press_ctrl _ r _ w L X) by reflexivity. match goal with |- context [char_action ?c ctrl ?x] => change (char_action c ctrl x) with DeleteWordBackward end.
    unfold apply_action, edited. cbn [input set_ctrl_x]. rewrite L, delete_word_backward_ok. apply (FIN _ (Draw true) I); reflexivity.
  - unfold Keys_Model.press. cbn [k_code k_mods]. rewrite andb_false_r. unfold context. cbv zeta. cbn [input set_ctrl_x]. unfold line in L. rewrite L, char_at_ok.
    cbn [determine_key_action k_code k_mods m_ctrl none]. unfold apply_action. cbn [input set_ctrl_x]. rewrite L, cur_eo. cbn [before].
    replace (0 <? length (b ++ [c])) with true by (symmetry; apply Nat.ltb_lt; rewrite app_length; cbn; lia).
    rewrite move_by_ok. apply (FIN _ Done I); [|reflexivity]. unfold line. cbn [input set_input set_comp]. unfold s_move, goto, whole. cbn [before after].
    rewrite app_length. cbn [length]. replace (Z.to_nat (Z.of_nat (length b + 1) + -1)) with (length b) by lia. rewrite <- app_assoc.
    rewrite firstn_app, firstn_all, Nat.sub_diag, skipn_app, skipn_all, Nat.sub_diag. cbn [firstn skipn app]. rewrite app_nil_r. reflexivity.
  - unfold Keys_Model.press. cbn [k_code k_mods]. rewrite andb_false_r. unfold context. cbv zeta. cbn [input set_ctrl_x]. unfold line in L. rewrite L, char_at_ok.
    cbn [determine_key_action k_code k_mods m_ctrl none]. unfold apply_action. cbn [input set_ctrl_x]. rewrite L, cur_eo. cbn [before length].
    change (0 <? 0) with false. cbv iota. apply (FIN _ Done I); [exact L|reflexivity].
  - unfold Keys_Model.press. cbn [k_code k_mods]. rewrite andb_false_r. unfold context. cbv zeta. cbn [input set_ctrl_x comp]. unfold line in L. rewrite L, char_at_ok, C.
    cbn [determine_key_action k_code k_mods m_ctrl none]. rewrite cur_eo, len_ed_of. unfold whole. cbn [before after]. rewrite app_length. cbn [length].
    replace (length b =? length b + S (length a)) with false by (symmetry; apply Nat.eqb_neq; lia). cbn [has_suggestion has_completion cursor_at_end andb negb]. rewrite andb_false_r. cbv iota.
    unfold apply_action. cbn [input set_ctrl_x]. rewrite L, cur_eo, len_ed_of. unfold whole at 1. cbn [before after]. rewrite app_length. cbn [length].
    replace (length b <? length b + S (length a)) with true by (symmetry; apply Nat.ltb_lt; lia).
    rewrite move_by_ok. apply (FIN _ Done I); [|reflexivity]. unfold line. cbn [input set_input set_comp]. unfold s_move, goto, whole. cbn [before after].
    replace (Z.to_nat (Z.of_nat (length b) + 1)) with (length (b ++ [c])) by (rewrite app_length; cbn; lia).
    replace (b ++ c :: a) with ((b ++ [c]) ++ a) by (rewrite <- app_assoc; reflexivity).
    rewrite firstn_app, firstn_all, Nat.sub_diag, skipn_app, skipn_all, Nat.sub_diag. cbn [firstn skipn app]. rewrite app_nil_r. reflexivity.
  - unfold Keys_Model.press. cbn [k_code k_mods]. rewrite andb_false_r. unfold context. cbv zeta. cbn [input set_ctrl_x comp]. unfold line in L. rewrite L, char_at_ok.
    cbn [determine_key_action k_code k_mods]. change (mods_eqb none none) with true. cbv iota.
    assert (B : handle_backspace cw (set_ctrl_x r false) = Some (set_input (set_ctrl_x r false) (eo (Zip b a)))).
    { unfold handle_backspace. cbv zeta. cbn [input set_ctrl_x auto_pair]. rewrite L, !char_at_ok, cur_eo. unfold whole. cbn [before after].
      assert (BS : backspace cw (eo (Zip (b ++ [c]) a)) = Some (eo (Zip b a))) by (rewrite backspace_ok; unfold s_backspace; cbn [before after]; rewrite firstn_snoc; reflexivity).
      destruct (auto_pair r && _ && _) eqn:G; [|rewrite BS; reflexivity]. apply andb_true_iff in G. destruct G as [G _]. apply andb_true_iff in G. destruct G as [G _].
      rewrite app_length. cbn [length]. replace (length b + 1 - 1) with (length b) by lia. rewrite <- app_assoc. rewrite nth_error_app2, Nat.sub_diag by lia. cbn [nth_error app].
      rewrite nth_error_app2 by lia. replace (length b + 1 - length b) with 1 by lia. cbn [nth_error]. destruct a as [|d a]; cbn [nth_error]; [rewrite BS; reflexivity|].
      match goal with |- context [existsb ?f pairs] => destruct (existsb f pairs) eqn:EX end; [|rewrite BS; reflexivity]. apply existsb_pairs in EX. exfalso. exact (NP G d eq_refl EX). }
    unfold apply_action. rewrite B. apply (FIN _ (Draw true) I); reflexivity.
  - unfold Keys_Model.press. cbn [k_code k_mods]. rewrite andb_false_r. unfold context. cbv zeta. cbn [input set_ctrl_x comp]. unfold line in L. rewrite L, char_at_ok.
    cbn [determine_key_action k_code k_mods]. change (mods_eqb none none) with true. cbv iota.
    assert (B : handle_backspace cw (set_ctrl_x r false) = Some (set_input (set_ctrl_x r false) (eo (Zip b a)))).
    { unfold handle_backspace. cbv zeta. cbn [input set_ctrl_x auto_pair]. rewrite L, !char_at_ok, cur_eo, len_ed_of. unfold whole. cbn [before after].
      rewrite AP. rewrite !app_length. cbn [length].
      replace (0 <? length b + 1) with true by (symmetry; apply Nat.ltb_lt; lia). replace (length b + 1 <? length b + 1 + S (length a)) with true by (symmetry; apply Nat.ltb_lt; lia). cbn [andb].
      replace (length b + 1 - 1) with (length b) by lia. rewrite <- app_assoc. rewrite nth_error_app2, Nat.sub_diag by lia. cbn [nth_error app].
      rewrite nth_error_app2 by lia. replace (length b + 1 - length b) with 1 by lia. cbn [nth_error].
      rewrite (proj2 (existsb_pairs c d) PM). rewrite delete_char_ok. unfold s_delete. cbn [before after tl]. rewrite backspace_ok. unfold s_backspace. cbn [before after]. rewrite firstn_snoc. reflexivity. }
    unfold apply_action. rewrite B. apply (FIN _ (Draw true) I); reflexivity.
  - unfold Keys_Model.press. cbn [k_code k_mods]. rewrite andb_false_r. unfold context. cbv zeta. cbn [input set_ctrl_x comp]. unfold line in L. rewrite L, char_at_ok.
    cbn [determine_key_action k_code k_mods]. change (mods_eqb none none) with true. cbv iota. unfold apply_action, handle_backspace. cbv zeta. cbn [input set_ctrl_x auto_pair]. rewrite L, cur_eo. cbn [before length].
    change (0 <? 0) with false. rewrite andb_false_r. cbn [andb]. rewrite backspace_ok. apply (FIN _ (Draw true) I); reflexivity.
Qed.
(** A closing bracket that is not already there is inserted. *)
Theorem C71_lone_bracket_arrives : forall r z c w, line r z -> right_bracket c -> hd_error (after z) <> Some c ->
  exists r', press r (Key (KChar c) none, w) = Some (r', None) /\ line r' (s_insert z [c]).
Proof.
  intros r z c w L O N. rewrite (press_char c none w r _ L (or_introl eq_refl)).
  assert (NX : nth_error (whole z) (length (before z)) = hd_error (after z)).
  { unfold whole. rewrite nth_error_app2, Nat.sub_diag by lia. destruct (after z); reflexivity. }
  rewrite NX.
  match goal with |- context [char_action c none ?x] => assert (E : char_action c none x = InsertChar c) end.
  { destruct (hd_error (after z)) as [n|]; [destruct (n =? c)%N eqn:E; [apply N.eqb_eq in E; congruence|]|]; destruct (auto_pair r); destruct O as [-> | [-> | ->]]; try reflexivity;
      match goal with |- char_action ?c none ?x = _ => transitivity (if (n =? c)%N then OvertypeClosingBracket c else InsertChar c); [reflexivity|rewrite E; reflexivity] end. }
  rewrite E. unfold apply_action, edited. cbn [input set_ctrl_x]. unfold line in L. rewrite L, insert_ok. eexists. split; [reflexivity|]. unfold line. rewrite redraw_input. reflexivity.
Qed.
(** With a suggestion or a completion Esc only dismisses it. *)
Theorem C77_esc_dismisses : forall r z w, line r z -> active (mgr_ r) <> None \/ comp r <> None ->
  exists r', press r (Key KEsc none, w) = Some (r', None) /\ line r' z.
Proof.
  intros r z w L H. unfold Keys_Model.press. cbn [k_code k_mods]. rewrite andb_false_r. unfold context. cbv zeta. cbn [input set_ctrl_x active mgr_ comp autofix].
  unfold line in L. rewrite L, char_at_ok. cbn [determine_key_action k_code k_mods]. change (mods_eqb none none) with true. cbn [has_completion has_suggestion].
  match goal with |- context [if ?b || ?c then CancelCompletion else _] => assert (E : b || c = true) end.
  { destruct H as [H|H]; [destruct (active (mgr_ r)); [apply orb_true_r|contradiction H; reflexivity]|destruct (comp r); [reflexivity|contradiction H; reflexivity]]. }
  rewrite E. unfold apply_action. eexists. split; [reflexivity|]. unfold line. rewrite redraw_input. exact L.
Qed.
(** What Enter sends to sh is the part of the text before the last mark, never empty, and it is
    sent only with a question. *)
Lemma rsplit_some p s a b : rsplit p s = Some (a, b) -> s = a ++ p ++ b.
Proof.
  revert a b. induction s as [|c s IH]; intros a b E; [discriminate|]. cbn [rsplit] in E. destruct (rsplit p s) as [[a' b']|].
  - injection E as <- <-. cbn. rewrite (IH a' b' eq_refl). reflexivity.
  - destruct (strip p (c :: s)) as [y|] eqn:S; [|discriminate]. injection E as <- <-. apply strip_some in S. exact S.
Qed.
Theorem C69_ai_pipe_exact : forall r z w r' c q, line r z -> press r (Key KEnter none, w) = Some (r', Some (RawSh c q)) ->
  exists a b, buffer r ++ whole z = a ++ lit "|!" ++ b /\ c = trim a /\ c <> [] /\ q <> [].
Proof.
  intros r z w r' c q L E. rewrite (press_enter r z w L) in E. unfold handle_execute in E. cbn [buffer set_ctrl_x input] in E. unfold line in L. rewrite L, text_eo in E.
  unfold enter in E. destruct (is_incomplete_input _); [discriminate|].
  assert (T : exists t, t = buffer r ++ whole z /\ exists r1, match detect_ai_pipe t with Some (command, query) => Some (set_input r1 (clear (input r1)), Some (RawSh command query))
      | None => match expand_abbr cw r1 with None => None | Some (r2, _) => let r3 := set_comp r2 None in match text (input r3) with [] => Some (r3, None)
         | t => Some (set_mgr (set_input r3 (clear (input r3))) mgr_clear, Some (ShellLine t false)) end end end = Some (r', Some (RawSh c q))).
  { destruct (buffer r) as [|x b].
    - cbn [input set_ctrl_x] in E. rewrite L, text_eo in E. exists (whole z). split; [reflexivity|]. eexists. exact E.
    - cbn [input set_ctrl_x set_input set_buffer] in E. rewrite reset_ok, text_eo, whole_end in E. eexists. split; [reflexivity|]. eexists. exact E. }
  destruct T as (t & -> & r1 & T). unfold detect_ai_pipe in T. destruct (rsplit (lit "|!") (buffer r ++ whole z)) as [[a b]|] eqn:R.
  - apply rsplit_some in R. cbv zeta in T. destruct (trim a) as [|x ca] eqn:TA.
    + exfalso. clear R. revert T. match goal with |- context [expand_abbr cw ?x] => destruct (expand_abbr cw x) as [[r2 b2]|] end; [|discriminate]. destruct (text (input (set_comp r2 None))); discriminate.
    + match type of T with context [if ?bb then removelast (tl (trim ?x)) else trim ?x] => set (qs := if bb then removelast (tl (trim x)) else trim x) in T end. destruct qs as [|y qq].
      * exfalso. clear R. revert T. match goal with |- context [expand_abbr cw ?x] => destruct (expand_abbr cw x) as [[r2 b2]|] end; [|discriminate]. destruct (text (input (set_comp r2 None))); discriminate.
      * injection T as _ <- <-. exists a, b. split; [exact R|]. split; [symmetry; exact TA|]. split; discriminate.
  - exfalso. revert T. match goal with |- context [expand_abbr cw ?x] => destruct (expand_abbr cw x) as [[r2 b2]|] end; [|discriminate]. destruct (text (input (set_comp r2 None))); discriminate.
Qed.
End P.


(** ** Concrete cases: the hypotheses are met, and runs from an empty prompt *)
Definition one (c : char) : nat := 1.
Definition idle : world := World None (fun _ => None) (fun _ => None) [] TabNone None None false.
Definition fresh : rs := Rs (ed_of one (Zip [] [])) None mgr_clear None [] false [] false.
Fixpoint keys (w : world) (s : str) : list (key * world) := match s with [] => [] | c :: s' => (Key (KChar c) none, w) :: keys w s' end.
Definition enter_key : key * world := (Key KEnter none, idle).
Definition shown (r : option (rs * list started)) : option (str * list started) := match r with Some (r, l) => Some (text (input r), l) | None => None end.
Lemma keys_typed w s : typed s (keys w s).
Proof. induction s; cbn; constructor; assumption. Qed.

(** C69: a quoted mark is enough; the part before it goes to sh *)
Theorem C69_quoted_mark_refuted : shown (presses one fresh (keys idle (lit "echo ""a |! b""") ++ [enter_key])) = Some ([], [RawSh (lit "echo ""a") (lit "b""")]).
Proof. vm_compute. reflexivity. Qed.
Example C69_runs : shown (presses one fresh (keys idle (lit "ls | wc") ++ [enter_key])) = Some ([], [ShellLine (lit "ls | wc") false]).
Proof. vm_compute. reflexivity. Qed.
(** C75: the name of a command completes the last word, and the completion put in place of the
    whole line is that name alone *)
Definition git : world := World None (fun s => if str_eqb s (lit "gi") then Some (lit "git") else None) (fun _ => None) [] TabNone None None false.
Definition ls : world := World None (fun s => if str_eqb s (lit "l") then Some (lit "ls") else None) (fun _ => None) [] TabNone None None false.
Definition ctrl_e : key * world := (Key (KChar (chr "e")) ctrl, idle).
Theorem C75_second_command_refuted : shown (presses one fresh (keys git (lit "make && gi") ++ [ctrl_e])) = Some (lit "git", []).
Proof. vm_compute. reflexivity. Qed.
Theorem C75_stale_completion_refuted : shown (presses one fresh (keys ls (lit "ls -l") ++ [ctrl_e])) = Some (lit "ls", []).
Proof. vm_compute. reflexivity. Qed.
(** C76 *)
Example C76_run : shown (presses one fresh (keys idle (lit "echo '") ++ [enter_key] ++ keys idle (lit "make") ++ [(Key KEnter alt, idle)] ++ keys idle (lit "'; ls") ++ [enter_key])) =
  Some ([], [ShellLine (lit "make") true; ShellLine (lit "echo '" ++ [10%N] ++ lit "'; ls") false]).
Proof. vm_compute. reflexivity. Qed.
Example C76_interrupt_run : shown (presses one fresh (keys idle (lit "echo '") ++ [enter_key] ++ [(Key (KChar (chr "c")) ctrl, idle)] ++ keys idle (lit "ls") ++ [enter_key])) =
  Some ([], [ShellLine (lit "ls") false]).
Proof. vm_compute. reflexivity. Qed.
(** C77: two toggles restore the text, unless it starts with sudo twice *)
Definition esc : key * world := (Key KEsc none, World None (fun _ => None) (fun _ => None) [] TabNone None None true).
Example C77_run : shown (presses one fresh (keys idle (lit "ls") ++ [esc])) = Some (lit "sudo ls", []) /\ shown (presses one fresh (keys idle (lit "ls") ++ [esc; esc])) = Some (lit "ls", []).
Proof. split; vm_compute; reflexivity. Qed.
(** C78: the word the fallback completion takes as its query is the whole word, also when the
    cursor is inside *)
Theorem C78_query_is_whole_word_refuted : exists line pos n t, get_pos_word line pos = Some (lit "abcd") /\ fallback_choice line pos t = Some (n, t) /\
  let w := World None (fun _ => None) (fun _ => None) [] (TabPatch n t) None None false in
  shown (presses one fresh (keys idle line ++ [(Key KLeft none, idle); (Key KLeft none, idle); (Key KTab none, w)])) = Some (lit "echabcdexcd", []).
Proof. exists (lit "echo abcd"), 7, 4, (lit "abcdex"). split; [vm_compute; reflexivity|]. split; vm_compute; reflexivity. Qed.

(** every hypothesis about the start is met by an empty prompt *)
Example start_met : line one fresh (Zip [] []) /\ abbrs fresh = [] /\ auto_pair fresh = false /\ mgr_ok (mgr_ fresh).
Proof. split; [reflexivity|]. split; [reflexivity|]. split; [reflexivity|]. exact clear_mgr_ok. Qed.
Example typed_met : typed (lit "ls") (keys idle (lit "ls")). Proof. apply keys_typed. Qed.
Example balanced_met : balanced (lit "f(a[1])").
Proof.
  assert (Q : forall c, existsb (N.eqb c) (lit "f0a1") = true -> ~ left_bracket c /\ ~ right_bracket c /\ ~ quote_mark c).
  { intros c H. apply existsb_exists in H. destruct H as (x & I & E). apply N.eqb_eq in E. subst x. unfold left_bracket, right_bracket, quote_mark.
    vm_compute in I. repeat (destruct I as [I|I]; [subst c; repeat split; intuition discriminate|]). contradiction. }
  apply bal_char; try (apply Q; vm_compute; reflexivity). change (balanced (chr "(" :: (lit "a[1]") ++ chr ")" :: [])). apply bal_group; [constructor| |constructor].
  apply bal_char; try (apply Q; vm_compute; reflexivity). change (balanced (chr "[" :: lit "1" ++ chr "]" :: [])). apply bal_group; [constructor| |constructor].
  apply bal_char; try (apply Q; vm_compute; reflexivity). constructor.
Qed.
(** C79 *)
Example C79_met : line one (set_input fresh (ed_of one (Zip (lit "git commit") (lit " -m x")))) (Zip (lit "git commit") (lit " -m x")) /\
  edit_key false (ctrl_key "w") (Zip (lit "git commit") (lit " -m x")) (Zip (lit "git ") (lit " -m x")).
Proof. split; [reflexivity|]. apply (ek_kill_word false (lit "git commit") (lit " -m x")). Qed.

Print Assumptions C72_no_key_crashes.
Print Assumptions C72_typed_text_arrives.
Print Assumptions C72_pasted_text_arrives.
Print Assumptions C72_only_these_keys_run.
Print Assumptions C71_balanced_text_arrives_partial.
Print Assumptions C71_quoted_text_arrives_refuted.
Print Assumptions C71_backspace_undoes_pair.
Print Assumptions C70_accepting_at_end_partial.
Print Assumptions C70_tab_inside_the_line_refuted.
Print Assumptions C70_rotation.
Print Assumptions C70_suggestion_is_a_candidate.
Print Assumptions C75_shown_text_is_accepted_partial.
Print Assumptions C75_hidden_completion_refuted.
Print Assumptions C69_line_runs_as_typed_partial.
Print Assumptions C69_ai_pipe_refuted.
Print Assumptions C76_interrupt_forgets_partial.
Print Assumptions C76_pending_lines_refuted.
Print Assumptions C76_clear_screen_erases_refuted.
Print Assumptions C77_toggle_adds.
Print Assumptions C77_toggle_removes.
Print Assumptions C78_range_replaced.
Print Assumptions C78_word_before_cursor_partial.
Print Assumptions C78_cursor_inside_word_refuted.
Print Assumptions C79_editing_keys.
Print Assumptions C71_lone_bracket_arrives.
Print Assumptions C77_esc_dismisses.
Print Assumptions C69_ai_pipe_exact.
Print Assumptions C69_quoted_mark_refuted.
Print Assumptions C75_second_command_refuted.
Print Assumptions C75_stale_completion_refuted.
Print Assumptions C78_query_is_whole_word_refuted.
