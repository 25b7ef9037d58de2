(** C187-C189: the menu of candidates, what Tab puts into the line, declared completions. *)
From Verif Require Import Base Token_Model Token_Spec Token_Proofs Token_Props Editor_Model Editor_Spec Editor_Proofs Pick_Model Pick_Spec.

Section Pick.
Variable numeral : nat -> str.
Variable width : str -> nat.
Variable cw : char -> nat.
Variable cursor_word : str -> nat -> option str.
Notation new_menu := (new_menu numeral).
Notation interact := (interact width).
Notation open_menu := (open_menu numeral width).
Notation select := (select numeral width).
Notation tab := (tab numeral width cw cursor_word).
Notation draw := (draw width).

(** ** C187: the menu *)
(** what the list of a menu is *)
Definition of_items (items : list str) (max : nat) (d : menu) : Prop :=
  at_ d < length (shown d) /\
  ((more d = false /\ shown d = items /\ length items <= max) \/
   (more d = true /\ shown d = firstn max items ++ [message (numeral (length items - max))] /\ max < length items)).
Lemma new_of items max : items <> [] -> of_items items max (new_menu items max).
Proof.
  intros N. unfold Pick_Model.new_menu. destruct (max <? length items) eqn:L.
  - apply Nat.ltb_lt in L. split; [cbn [at_ shown]; rewrite app_length; cbn; lia|]. right. auto.
  - apply Nat.ltb_ge in L. split; [cbn [at_ shown]; destruct items; [congruence|cbn; lia]|]. left. auto.
Qed.
Lemma draw_of items max w d d' : of_items items max d -> draw w d = Some d' -> of_items items max d' /\ at_ d' = at_ d /\ shown d' = shown d /\ more d' = more d.
Proof. intros I D. unfold Pick_Model.draw in D. destruct w as [w|]; [|discriminate]. injection D as <-. auto. Qed.
Lemma up_of items max d : of_items items max d -> of_items items max (move_up d).
Proof.
  intros [A L]. unfold move_up. destruct (layout d) as [n|]; [|split; auto]. destruct (n <=? at_ d) eqn:E; [|split; auto].
  split; [cbn; lia|exact L].
Qed.
Lemma down_of items max d : of_items items max d -> of_items items max (move_down d).
Proof.
  intros [A L]. unfold move_down. destruct (layout d) as [n|]; [|split; auto]. destruct (at_ d + n <? length (shown d)) eqn:E; [|split; auto].
  apply Nat.ltb_lt in E. split; [exact E|exact L].
Qed.
Lemma left_of items max d : of_items items max d -> of_items items max (move_left d).
Proof. intros [A L]. unfold move_left. destruct (0 <? at_ d) eqn:E; [|split; auto]. split; [cbn; lia|exact L]. Qed.
Lemma right_of items max d : of_items items max d -> of_items items max (move_right d).
Proof.
  intros [A L]. unfold move_right. destruct (at_ d + 1 <? length (shown d)) eqn:E; [|split; auto].
  apply Nat.ltb_lt in E. split; [exact E|exact L].
Qed.
Lemma selected_of items max d v : of_items items max d -> selected d = Some v -> nth_error (firstn max items) (at_ d) = Some v.
Proof.
  intros [A [(M & S & L)|(M & S & L)]] H; unfold selected in H; rewrite M, S in H.
  - rewrite firstn_all2 by exact L. destruct (nth_error items (at_ d)); cbn [andb] in H; congruence.
  - cbn [andb] in H. rewrite S in A. rewrite app_length, firstn_length_le in A by lia. rewrite app_length, firstn_length_le in H by lia. cbn [length] in *.
    destruct (Nat.eq_dec (at_ d) max) as [E|E].
    + rewrite E in H. rewrite nth_error_app2 in H by (rewrite firstn_length; lia). rewrite firstn_length_le in H by lia. rewrite Nat.sub_diag in H. cbn [nth_error] in H.
      replace (max =? max + 1 - 1) with true in H by (symmetry; apply Nat.eqb_eq; lia). cbn in H. discriminate.
    + rewrite nth_error_app1 in H by (rewrite firstn_length_le; lia). destruct (nth_error (firstn max items) (at_ d)) eqn:Z; [|discriminate].
      replace (at_ d =? max + 1 - 1) with false in H by (symmetry; apply Nat.eqb_neq; lia). cbn in H. congruence.
Qed.
Lemma of_selected items max d v : of_items items max d -> nth_error (firstn max items) (at_ d) = Some v -> selected d = Some v.
Proof.
  intros [A [(M & S & L)|(M & S & L)]] H; unfold selected; rewrite M, S.
  - rewrite firstn_all2 in H by exact L. rewrite H. reflexivity.
  - assert (B : at_ d < max) by (apply nth_error_Some_lt in H || (assert (K : nth_error (firstn max items) (at_ d) <> None) by congruence; apply nth_error_Some in K; rewrite firstn_length in K; lia)).
    rewrite nth_error_app1 by (rewrite firstn_length_le; lia). rewrite H, app_length, firstn_length_le by lia. cbn [length andb].
    replace (at_ d =? max + 1 - 1) with false by (symmetry; apply Nat.eqb_neq; lia). reflexivity.
Qed.
Lemma interact_of items max ev : forall d, of_items items max d -> forall v r, interact ev d = Some (Submitted v, r) -> In v (firstn max items).
Proof.
  induction ev as [|[e w] ev IH]; intros d I v r H; [discriminate|]. cbn [Pick_Model.interact] in H.
  assert (Go : forall d', of_items items max d' -> match draw w d' with Some d'' => interact ev d'' | None => Some (Failed, ev) end = Some (Submitted v, r) -> In v (firstn max items)).
  { intros d' I' H'. destruct (draw w d') as [d''|] eqn:D; [|discriminate]. exact (IH d'' (proj1 (draw_of _ _ _ _ _ I' D)) v r H'). }
  destruct (interpret e).
  - exact (Go _ (up_of _ _ _ I) H).
  - exact (Go _ (down_of _ _ _ I) H).
  - exact (Go _ (left_of _ _ _ I) H).
  - exact (Go _ (right_of _ _ _ I) H).
  - exact (Go _ I H).
  - exact (Go _ I H).
  - exact (Go _ I H).
  - exact (Go _ I H).
  - destruct (selected d) as [x|] eqn:X; [|discriminate]. injection H as -> _. exact (nth_error_In _ _ (selected_of _ _ _ _ I X)).
  - discriminate.
  - discriminate.
  - exact (IH d I v r H).
Qed.
(** whatever keys are pressed, in terminals of whatever widths: what Enter takes is one of the
    listed candidates, and never the line that counts the others *)
Theorem C187_only_what_is_listed : forall items max ev v r, items <> [] -> open_menu items max ev = Some (Submitted v, r) -> In v (firstn max items).
Proof.
  intros items max [|[e w] ev] v r N H; [discriminate|]. unfold Pick_Model.open_menu in H. destruct (draw w (new_menu items max)) as [d|] eqn:D; [|discriminate].
  exact (interact_of _ _ _ _ (proj1 (draw_of _ _ _ _ _ (new_of items max N) D)) _ _ H).
Qed.
Lemma rights ws : forall items max d k ev, of_items items max d -> at_ d = k -> k + length ws < length (firstn max items) ->
  exists d', of_items items max d' /\ at_ d' = k + length ws /\ interact (map (press Right) ws ++ ev) d = interact ev d'.
Proof.
  induction ws as [|w ws IH]; intros items max d k ev I A L; cbn [length map app] in *.
  - exists d. split; [exact I|]. split; [lia|reflexivity].
  - assert (Z : at_ (move_right d) = k + 1).
    { unfold move_right. destruct I as [_ [(_ & S & B)|(_ & S & B)]]; rewrite S, A; rewrite firstn_length in L.
      - replace (k + 1 <? length items) with true by (symmetry; apply Nat.ltb_lt; lia). reflexivity.
      - rewrite app_length, firstn_length. cbn [length]. replace (k + 1 <? Nat.min max (length items) + 1) with true by (symmetry; apply Nat.ltb_lt; lia). reflexivity. }
    set (d1 := Menu (shown (move_right d)) (at_ (move_right d)) (Some (columns width (shown (move_right d)) w)) (more (move_right d))).
    destruct (IH items max d1 (k + 1) ev) as (d' & I' & A' & E).
    + exact (right_of _ _ _ I).
    + exact Z.
    + lia.
    + exists d'. split; [exact I'|]. split; [lia|]. cbn [Pick_Model.interact press interpret Pick_Model.draw]. exact E.
Qed.
(** every listed candidate can be picked: Right as often as there are candidates before it, then
    Enter, also when the terminal changes its width meanwhile *)
Theorem C187_every_listed_can_be_picked : forall items max v w ws w' r, nth_error (firstn max items) (length ws) = Some v ->
  open_menu items max (pick w ws w' ++ r) = Some (Submitted v, r).
Proof.
  intros items max v w ws w' r H. assert (L : nth_error (firstn max items) (length ws) <> None) by congruence. apply nth_error_Some in L.
  assert (N : items <> []) by (intros ->; rewrite firstn_nil in L; cbn in L; lia).
  unfold pick, opens. cbn [app]. unfold Pick_Model.open_menu, Pick_Model.draw. rewrite <- app_assoc. cbn [app].
  set (d := Menu _ _ _ _).
  assert (I : of_items items max d) by exact (new_of items max N).
  assert (A : at_ d = 0) by (unfold d, Pick_Model.new_menu; cbn [at_]; destruct (max <? length items); reflexivity).
  destruct (rights ws items max d 0 (press Enter w' :: r) I A ltac:(lia)) as (d' & I' & A' & E).
  rewrite E. cbn [Pick_Model.interact press interpret]. rewrite (of_selected items max d' v I'); [reflexivity|]. rewrite A'. exact H.
Qed.
(** a candidate that is only behind the first [max] cannot be picked by any keys *)
Theorem C187_all_can_be_picked_refuted : forall items max v, In v items -> ~ In v (firstn max items) -> forall ev r, open_menu items max ev <> Some (Submitted v, r).
Proof. intros items max v I N ev r H. apply N, (C187_only_what_is_listed items max ev v r); [intros ->; destruct I|exact H]. Qed.
(** rows and columns: Down goes to the candidate below in the same column, Up above; at the edge
    the selection stays *)
Theorem C187_rows : forall d n row col, layout d = Some n -> col < n -> at_ d = row * n + col ->
  at_ (move_down d) = (if (row + 1) * n + col <? length (shown d) then (row + 1) * n + col else row * n + col) /\
  at_ (move_up d) = (row - 1) * n + col /\ shown (move_down d) = shown d /\ shown (move_up d) = shown d.
Proof.
  intros d n row col L C A. unfold move_down, move_up. rewrite L, A. replace (row * n + col + n) with ((row + 1) * n + col) by lia.
  destruct ((row + 1) * n + col <? length (shown d)) eqn:E, (n <=? row * n + col) eqn:F; cbn [at_ shown]; rewrite ?A; (split; [lia|split; [|split; reflexivity]]);
    try (apply Nat.leb_le in F); try (apply Nat.leb_gt in F); destruct row; cbn [Nat.sub]; try (rewrite Nat.sub_0_r); nia.
Qed.
(** the columns are as many as fit: at least one, and with their widths and the gaps they fit into
    the terminal less a margin of four unless there is only one *)
Theorem C187_columns : forall items t, let n := columns width items t in
  1 <= n /\ (1 < n -> n <= length items /\ forall c, In c items -> n * (width c + 3) <= t - 4).
Proof.
  intros items t n. unfold columns in n. set (widest := Nat.max (fold_right Nat.max 0 (map width items)) 10) in *.
  split; [subst n; lia|]. intros G. assert (n <= length items) by (subst n; lia). split; [assumption|]. intros c Hc.
  assert (W : width c <= widest).
  { unfold widest. clear - Hc. induction items as [|x l IH]; [destruct Hc|]. cbn [map fold_right]. destruct Hc as [->|Hc]; [lia|]. specialize (IH Hc). lia. }
  assert (B : n <= (t - 4) / (widest + 1 + 2)) by (subst n; lia).
  assert (M : (widest + 1 + 2) * ((t - 4) / (widest + 1 + 2)) <= t - 4) by (apply Nat.mul_div_le; lia). nia.
Qed.
(** "Home goes to the first and End to the last candidate": they do nothing, nor do PageUp and PageDown *)
Theorem C187_paging_refuted : forall items max v u w1 w2 w3 w4 r k, nth_error (firstn max items) 0 = Some u -> nth_error (firstn max items) 1 = Some v ->
  In k [Home; End_; PageUp; PageDown] ->
  open_menu items max ([opens w1; press Right w2; press k w3; press Enter w4] ++ r) = Some (Submitted v, r) /\
  open_menu items max ([opens w1; press k w3; press Enter w4] ++ r) = Some (Submitted u, r).
Proof.
  intros items max v u w1 w2 w3 w4 r k U V K.
  assert (N : items <> []) by (intros ->; rewrite firstn_nil in U; cbn in U; discriminate).
  pose proof (C187_every_listed_can_be_picked items max v w1 [w2] w4 r V) as P1. pose proof (C187_every_listed_can_be_picked items max u w1 [] w4 r U) as P0.
  unfold pick, opens, press in *. cbn [map app Pick_Model.open_menu Pick_Model.draw Pick_Model.interact interpret] in *.
  destruct K as [<-|[<-|[<-|[<-|[]]]]]; cbn [Pick_Model.interact interpret Pick_Model.draw] in *; split; assumption.
Qed.
(** a key that closes the menu closes it at once, nothing chosen; any other character is the outcome *)
Theorem C187_closing : forall items max ws e w1 w r, closing e -> length items <> 0 ->
  open_menu items max (opens w1 :: map (fun p => (Pressed (fst p) (snd p), Some w1)) ws ++ (e, w) :: r) = Some (Cancelled, r) \/
  exists o r', open_menu items max (opens w1 :: map (fun p => (Pressed (fst p) (snd p), Some w1)) ws) = Some (o, r').
Proof.
  intros items max ws e w1 w r C N. unfold opens, Pick_Model.open_menu, Pick_Model.draw. generalize (Menu (shown (new_menu items max)) (at_ (new_menu items max)) (Some (columns width (shown (new_menu items max)) w1)) (more (new_menu items max))).
  induction ws as [|[k m] ws IH]; intros d; cbn [map app Pick_Model.interact fst snd].
  - left. assert (Z : interpret e = Cancel) by (destruct C as [[m ->]|[[m ->]|[-> |[-> | ->]]]]; reflexivity). rewrite Z. reflexivity.
  - destruct (interpret (Pressed k m)); unfold Pick_Model.draw; try apply IH; right; eauto.
Qed.
(** "q is a letter as any other": it closes the menu.  "Ctrl and Alt with a letter type nothing":
    they type the letter, but for Ctrl-C and Ctrl-G *)
Theorem C187_letters : forall c m d w r,
  interact ((Pressed (Char c) m, w) :: r) d =
  Some (if match m with Plain => (c =? 113)%N | Control => (c =? 99)%N || (c =? 103)%N | OtherMods => false end then Cancelled else Typed c, r).
Proof.
  intros c [] d w r; cbn [Pick_Model.interact interpret]; try reflexivity.
  - destruct (c =? 113)%N; reflexivity.
  - destruct ((c =? 99)%N || (c =? 103)%N); reflexivity.
Qed.
Theorem C187_control_letter_refuted : forall c d w r, c <> 99%N -> c <> 103%N -> interact ((Pressed (Char c) Control, w) :: r) d = Some (Typed c, r).
Proof. intros c d w r A B. rewrite C187_letters. apply N.eqb_neq in A, B. rewrite A, B. reflexivity. Qed.

(** ** C188: the line *)
Lemma select_two items input max ev : 2 <= length items -> select items input max Inline ev =
  match open_menu items max ev with
  | None => None
  | Some (Submitted v, r) => Some (Selected v, r)
  | Some (Typed c, r) => Some (Selected (continue_input input c), r)
  | Some (_, r) => Some (Nothing, r)
  end.
Proof. intros L. destruct items as [|a [|b l]]; cbn in L; [lia|lia|]. reflexivity. Qed.
Lemma put_range z a b v back : starts_with clock v = false -> a <= b <= length (whole z) ->
  put cw (ed_of cw z) (Some (a, b)) back v = Done (ed_of cw (replaced (whole z) a b v)).
Proof.
  intros C L. unfold put. rewrite C, replace_range_ok. unfold s_replace_range.
  replace ((a <=? b) && (b <=? length (whole z))) with true by (symmetry; apply andb_true_iff; split; apply Nat.leb_le; lia). reflexivity.
Qed.
Lemma put_back p q a v : starts_with clock v = false -> put cw (ed_of cw (Zip (p ++ q) a)) None (Some (length q)) v = Done (ed_of cw (Zip (p ++ v) a)).
Proof.
  intros C. unfold put. rewrite C, backspacen_ok, insert_str_ok. cbn [lift]. unfold s_backspace, s_insert. cbn [before after].
  rewrite app_length. replace (length p + length q - length q) with (length p) by lia. rewrite firstn_app, Nat.sub_diag, firstn_all, firstn_O, app_nil_r. reflexivity.
Qed.
Lemma put_insert z v : starts_with clock v = false -> put cw (ed_of cw z) None None v = Done (ed_of cw (Zip (before z ++ v) (after z))).
Proof. intros C. unfold put. rewrite C, insert_str_ok. reflexivity. Qed.
Lemma text_of z : text (ed_of cw z) = whole z. Proof. destruct z. reflexivity. Qed.
Lemma cur_of z : cur (ed_of cw z) = length (before z). Proof. destruct z. reflexivity. Qed.
Lemma token_range line pos t : token_at_char_cursor line pos CompletionRange = Some t ->
  char_start t < char_end t <= length line /\ raw t = firstn (char_end t - char_start t) (skipn (char_start t) line) /\
  char_start t <= Nat.min pos (length line) <= char_end t.
Proof.
  intros T. destruct (C14_token_contains_cursor line pos _ _ T) as [I B]. destruct (tokenize_tokens line CompletionRange) as (F & _ & _).
  rewrite Forall_forall in F. destruct (F t I) as (A & R & _). auto.
Qed.
Lemma token_parts line pos t : token_at_char_cursor line pos CompletionRange = Some t ->
  exists p b, line = p ++ raw t ++ b /\ length p = char_start t /\ char_end t = length p + length (raw t) /\
    firstn (char_start t) line = p /\ skipn (char_end t) line = b.
Proof.
  intros T. destruct (token_range _ _ _ T) as (B & R & _).
  set (p := firstn (char_start t) line). set (b := skipn (char_end t) line).
  assert (Lp : length p = char_start t) by (unfold p; rewrite firstn_length; lia).
  assert (Lr : length (raw t) = char_end t - char_start t) by (rewrite R, firstn_length, skipn_length; lia).
  exists p, b. split; [|split; [exact Lp|split; [lia|split; reflexivity]]].
  unfold p, b. rewrite R. rewrite <- (firstn_skipn (char_start t) line) at 1. f_equal.
  rewrite <- (firstn_skipn (char_end t - char_start t) (skipn (char_start t) line)) at 1. f_equal.
  rewrite <- (firstn_skipn (char_start t) line) at 2. rewrite skipn_app, firstn_length_le by lia.
  rewrite (skipn_all2 (n := char_end t) (firstn (char_start t) line)) by (rewrite firstn_length; lia). reflexivity.
Qed.
Lemma value_range_within token start o a b : value_range token start o = Some (a, b) -> start <= a <= b /\ b = start + length token.
Proof.
  assert (P : forall x y : str, starts_with x y = true -> length x <= length y).
  { intros x y H. apply starts_with_iff in H as [r ->]. rewrite app_length. lia. }
  unfold value_range. set (short := if _ && _ && _ then _ else _).
  assert (Sh : short = Some (a, b) -> start <= a <= b /\ b = start + length token).
  { unfold short. destruct ((blen o =? 2) && negb (starts_with (lit "--") o) && starts_with o token) eqn:C; [|discriminate].
    apply andb_true_iff in C as [_ C]. apply P in C. destruct (skipn (length o) token) as [|c l]; [discriminate|].
    destruct (c =? 61)%N; [discriminate|]. intros [= <- <-]. lia. }
  destruct (starts_with (lit "--") o); [|exact Sh]. destruct (starts_with (o ++ [61%N]) token) eqn:C; [|exact Sh].
  apply P in C. intros [= <- <-]. lia.
Qed.
Lemma range_within line pos o a b : replacement_range line pos o = Some (a, b) -> a <= b <= length line.
Proof.
  unfold replacement_range. destruct (token_at_char_cursor line pos CompletionRange) as [t|] eqn:T; [|discriminate].
  destruct (token_range _ _ _ T) as (B & R & _). rewrite <- R.
  assert (L : length (raw t) = char_end t - char_start t) by (rewrite R, firstn_length, skipn_length; lia).
  assert (D : Some (char_start t, char_end t) = Some (a, b) -> a <= b <= length line) by (intros [= <- <-]; lia).
  destruct o as [o|]; [|exact D]. destruct (value_range (raw t) (char_start t) o) as [[x y]|] eqn:V; [|exact D].
  intros [= <- <-]. apply value_range_within in V as [V ->]. lia.
Qed.

(** several candidates of the engine: Right as often as needed and Enter put exactly that candidate
    in the place of the word the cursor is at; what is before and behind stays *)
Theorem C188_chosen_takes_the_place : forall z engine own s chunk max t v w ws w', 2 <= length engine ->
  token_at_char_cursor (whole z) (length (before z)) CompletionRange = Some t ->
  nth_error (firstn max engine) (length ws) = Some v -> starts_with clock v = false ->
  tab (ed_of cw z) engine Inline own None s chunk max (pick w ws w') = Done (ed_of cw (replaced (whole z) (char_start t) (char_end t) v)).
Proof.
  intros z engine own s chunk max t v w ws w' L T H C. pose proof (C187_every_listed_can_be_picked engine max v w ws w' [] H) as P. rewrite app_nil_r in P.
  unfold Pick_Model.tab. destruct engine as [|x engine]; [cbn in L; lia|]. rewrite select_two by exact L. rewrite P.
  unfold replacement_range. rewrite text_of, cur_of, T. apply put_range; [exact C|]. destruct (token_range _ _ _ T) as (B & _). lia.
Qed.
(** the value of an option is replaced, not the option *)
Theorem C188_chosen_value : forall z engine own s chunk max t opt val v w ws w', 2 <= length engine ->
  token_at_char_cursor (whole z) (length (before z)) CompletionRange = Some t -> raw t = opt ++ lit "=" ++ val -> starts_with (lit "--") opt = true ->
  nth_error (firstn max engine) (length ws) = Some v -> starts_with clock v = false ->
  tab (ed_of cw z) engine Inline own (Some opt) s chunk max (pick w ws w') =
  Done (ed_of cw (Zip (firstn (char_start t) (whole z) ++ opt ++ lit "=" ++ v) (skipn (char_end t) (whole z)))).
Proof.
  intros z engine own s chunk max t opt val v w ws w' L T R O H C. pose proof (C187_every_listed_can_be_picked engine max v w ws w' [] H) as P. rewrite app_nil_r in P.
  unfold Pick_Model.tab. destruct engine as [|x engine]; [cbn in L; lia|]. rewrite select_two by exact L. rewrite P.
  destruct (token_range _ _ _ T) as (B & E & _).
  assert (V : replacement_range (whole z) (length (before z)) (Some opt) = Some (char_start t + length (opt ++ [61%N]), char_end t)).
  { unfold replacement_range. rewrite T, <- E, R. unfold value_range. rewrite O.
    assert (Pf : starts_with (opt ++ [61%N]) (opt ++ lit "=" ++ val) = true) by (apply starts_with_iff; exists val; rewrite <- app_assoc; reflexivity).
    rewrite Pf. do 2 f_equal. rewrite <- R, E, firstn_length, skipn_length. lia. }
  rewrite text_of, cur_of, V, put_range; [|exact C|].
  - do 2 f_equal. unfold replaced. f_equal.
    destruct (token_parts _ _ _ T) as (p & b & W & Lp & Le & Fp & Sb).
    rewrite Fp, W, R. rewrite <- Lp. replace (p ++ (opt ++ lit "=" ++ val) ++ b) with ((p ++ opt ++ [61%N]) ++ val ++ b) by (rewrite <- !app_assoc; reflexivity).
    replace (length p + length (opt ++ [61%N])) with (length (p ++ opt ++ [61%N])) by (rewrite app_length; reflexivity).
    rewrite firstn_app, firstn_all, Nat.sub_diag, firstn_O, app_nil_r, <- !app_assoc. reflexivity.
  - exact (range_within _ _ _ _ _ V).
Qed.
(** a single candidate is put in at once, without a menu *)
Theorem C188_single : forall z k own s chunk max t v ev,
  token_at_char_cursor (whole z) (length (before z)) CompletionRange = Some t -> starts_with clock v = false ->
  tab (ed_of cw z) [v] k own None s chunk max ev = Done (ed_of cw (replaced (whole z) (char_start t) (char_end t) v)).
Proof.
  intros z k own s chunk max t v ev T C. unfold Pick_Model.tab. cbn [Pick_Model.select]. unfold replacement_range. rewrite text_of, cur_of, T.
  apply put_range; [exact C|]. destruct (token_range _ _ _ T) as (B & _). lia.
Qed.

(** typing on *)
Lemma tab_typed z engine own o s chunk max w c w' ev : 2 <= length engine -> (c =? 113)%N = false ->
  tab (ed_of cw z) engine Inline own o s chunk max (opens w :: (Pressed (Char c) Plain, w') :: ev) =
  put cw (ed_of cw z) (replacement_range (whole z) (length (before z)) o) (option_map (@length char) (query cursor_word (ed_of cw z))) (continue_input (whole z) c).
Proof.
  intros L Q. unfold Pick_Model.tab. destruct engine as [|x engine]; [cbn in L; lia|]. rewrite select_two by exact L.
  unfold opens. cbn [Pick_Model.open_menu Pick_Model.draw]. rewrite C187_letters, Q, text_of, cur_of. reflexivity.
Qed.
Lemma continue_at_end line c t : token_at_char_cursor line (length line) CompletionRange = Some t -> continue_input line c = raw t ++ [c].
Proof.
  intros T. unfold continue_input. rewrite T. destruct (token_range _ _ _ T) as (B & _).
  replace (length line <=? char_start t) with false by (symmetry; apply Nat.leb_gt; lia). reflexivity.
Qed.
(** with the cursor at the end of the line, typing a character while the menu is open goes on with
    the line.  Missing: the cursor elsewhere, the value of an option, q, and the menus of declared
    commands, where it fails *)
Theorem C188_typing_goes_on_partial : forall line engine own s chunk max w c w' ev, 2 <= length engine -> (c =? 113)%N = false ->
  (cursor_word line (length line) <> None -> token_at_char_cursor line (length line) CompletionRange <> None) ->
  starts_with clock (continue_input line c) = false ->
  tab (ed_of cw (Zip line [])) engine Inline own None s chunk max (opens w :: (Pressed (Char c) Plain, w') :: ev) = Done (ed_of cw (Zip (line ++ [c]) [])).
Proof.
  intros line engine own s chunk max w c w' ev L Q N C. rewrite tab_typed by assumption. unfold whole. cbn [before after]. rewrite app_nil_r. unfold replacement_range.
  destruct (token_at_char_cursor line (length line) CompletionRange) as [t|] eqn:T.
  - destruct (token_range _ _ _ T) as (B & R & P). rewrite put_range; [|exact C|unfold whole; cbn [before after]; rewrite app_nil_r; lia].
    rewrite (continue_at_end _ _ _ T). unfold whole. cbn [before after]. rewrite app_nil_r. destruct (token_parts _ _ _ T) as (p & b & W & Lp & Le & Fp & Sb).
    unfold replaced. rewrite Fp, Sb. assert (Eb : b = []).
    { apply length_zero_iff_nil. apply (f_equal (@length char)) in W. rewrite !app_length in W. rewrite Nat.min_id in P. lia. }
    rewrite Eb in W |- *. rewrite app_nil_r in W. do 2 f_equal. f_equal. rewrite W at 1. rewrite <- app_assoc. reflexivity.
  - assert (Qn : query cursor_word (ed_of cw (Zip line [])) = None).
    { unfold query. rewrite text_of, cur_of. unfold whole. cbn [before after]. rewrite app_nil_r. destruct (cursor_word line (length line)); [exfalso; apply N; [discriminate|reflexivity]|].
      unfold word_fallback. rewrite text_of, cur_of. unfold whole. cbn [before after]. rewrite app_nil_r. destruct line; [reflexivity|]. destruct (length (c0 :: line) =? 0); [reflexivity|]. rewrite T. reflexivity. }
    rewrite Qn. cbn [option_map]. rewrite put_insert by exact C. cbn [before after]. unfold continue_input. rewrite T. reflexivity.
Qed.
(** "what is typed goes on with the line" fails for the value of an option: the option is written twice *)
Theorem C188_typing_in_a_value_refuted : forall line engine own s chunk max w c w' ev t opt val, 2 <= length engine -> (c =? 113)%N = false ->
  token_at_char_cursor line (length line) CompletionRange = Some t -> raw t = opt ++ lit "=" ++ val -> starts_with (lit "--") opt = true ->
  tab (ed_of cw (Zip line [])) engine Inline own (Some opt) s chunk max (opens w :: (Pressed (Char c) Plain, w') :: ev) =
  Done (ed_of cw (Zip (firstn (char_start t) line ++ opt ++ lit "=" ++ opt ++ lit "=" ++ val ++ [c]) [])).
Proof.
  intros line engine own s chunk max w c w' ev t opt val L Q T R O. rewrite tab_typed by assumption. unfold whole. cbn [before after]. rewrite app_nil_r.
  destruct (token_range _ _ _ T) as (B & E & P). destruct (token_parts _ _ _ T) as (p & b & W & Lp & Le & Fp & Sb).
  assert (V : replacement_range line (length line) (Some opt) = Some (char_start t + length (opt ++ [61%N]), char_end t)).
  { unfold replacement_range. rewrite T, <- E, R. unfold value_range. rewrite O.
    assert (Pf : starts_with (opt ++ [61%N]) (opt ++ lit "=" ++ val) = true) by (apply starts_with_iff; exists val; rewrite <- app_assoc; reflexivity).
    rewrite Pf. do 2 f_equal. rewrite <- R, E, firstn_length, skipn_length. lia. }
  rewrite V, (continue_at_end _ _ _ T), put_range; unfold whole; cbn [before after]; rewrite ?app_nil_r.
  - do 2 f_equal. unfold replaced. rewrite Sb. assert (Eb : b = []).
    { apply length_zero_iff_nil. apply (f_equal (@length char)) in W. rewrite !app_length in W. rewrite Nat.min_id in P. lia. }
    rewrite Eb in W |- *. f_equal. rewrite Fp, R. rewrite W at 1. rewrite R, app_nil_r, <- Lp.
    replace (p ++ opt ++ lit "=" ++ val) with ((p ++ opt ++ [61%N]) ++ val) by (rewrite <- !app_assoc; reflexivity).
    replace (length p + length (opt ++ [61%N])) with (length (p ++ opt ++ [61%N])) by (rewrite app_length; reflexivity).
    rewrite firstn_app, firstn_all, Nat.sub_diag, firstn_O, app_nil_r, <- !app_assoc. reflexivity.
  - rewrite R. apply starts_with_iff in O as [r ->]. reflexivity.
  - pose proof (range_within _ _ _ _ _ V). assumption.
Qed.
(** and with the cursor in an earlier word: that word is replaced by the last one and the character *)
Theorem C188_typing_elsewhere_refuted : forall z engine own s chunk max w c w' ev t u, 2 <= length engine -> (c =? 113)%N = false ->
  token_at_char_cursor (whole z) (length (before z)) CompletionRange = Some t ->
  token_at_char_cursor (whole z) (length (whole z)) CompletionRange = Some u -> starts_with clock (raw u ++ [c]) = false ->
  tab (ed_of cw z) engine Inline own None s chunk max (opens w :: (Pressed (Char c) Plain, w') :: ev) =
  Done (ed_of cw (replaced (whole z) (char_start t) (char_end t) (raw u ++ [c]))).
Proof.
  intros z engine own s chunk max w c w' ev t u L Q T U C. rewrite tab_typed by assumption. rewrite (continue_at_end _ _ _ U). unfold replacement_range. rewrite T.
  apply put_range; [exact C|]. destruct (token_range _ _ _ T) as (B & _). lia.
Qed.
(** and in the menu of a declared command: the word is replaced by the character alone *)
Theorem C188_typing_at_declared_refuted : forall p q d r vis fs own_out items chunk max w c w' ev k, (c =? 113)%N = false -> c <> 42%N -> c <> 128338%N ->
  query cursor_word (ed_of cw (Zip (p ++ q) [])) = Some q -> applies d (p ++ q) -> gives d = ByCommand (Some own_out) ->
  items = filter (fun x => negb (match x with [] => true | _ => false end)) (map trim (lines own_out)) -> 2 <= length items ->
  tab (ed_of cw (Zip (p ++ q) [])) [] k Inline None (Rest (d :: r) vis fs) chunk max (opens w :: (Pressed (Char c) Plain, w') :: ev) = Done (ed_of cw (Zip (p ++ [c]) [])).
Proof.
  intros p q d r vis fs out items chunk max w c w' ev k Q St Ck Hq [x A] G I L. unfold Pick_Model.tab. rewrite Hq, text_of. unfold whole. cbn [before after option_map]. rewrite app_nil_r.
  unfold input_completion. cbn [decls from_declared]. replace (starts_with (target d) (replace_space (p ++ q))) with true by (symmetry; apply starts_with_iff; exists x; exact A).
  rewrite G. unfold from_command. rewrite <- I. rewrite select_two by exact L. unfold opens. cbn [Pick_Model.open_menu Pick_Model.draw]. rewrite C187_letters, Q.
  change (continue_input [] c) with [c].
  assert (E : starts_with (lit "*") [c] = false) by (change (lit "*") with [42%N]; cbn [starts_with]; apply N.eqb_neq in St; rewrite N.eqb_sym in St; rewrite St; reflexivity).
  rewrite E. apply put_back. unfold clock. cbn [starts_with]. apply N.eqb_neq in Ck. rewrite N.eqb_sym in Ck. rewrite Ck. reflexivity.
Qed.

(** cancelling *)
Lemma tab_cancelled z engine own o s chunk max w e w' ev : 2 <= length engine -> closing e ->
  tab (ed_of cw z) engine Inline own o s chunk max (opens w :: (e, w') :: ev) = tab (ed_of cw z) [] Inline own o s chunk max ev.
Proof.
  intros L C. unfold Pick_Model.tab. destruct engine as [|x engine]; [cbn in L; lia|]. rewrite select_two by exact L.
  unfold opens. cbn [Pick_Model.open_menu Pick_Model.draw Pick_Model.interact].
  assert (Z : interpret e = Cancel) by (destruct C as [[m ->]|[[m ->]|[-> |[-> | ->]]]]; reflexivity). rewrite Z. reflexivity.
Qed.
Lemma none_declared l line max k ev : (forall d, In d l -> ~ applies d line) -> from_declared numeral width l line max k ev = Some (Nothing, ev).
Proof.
  induction l as [|d l IH]; intros H; [reflexivity|]. cbn [from_declared]. destruct (starts_with (target d) (replace_space line)) eqn:S.
  - exfalso. apply (H d (or_introl eq_refl)). apply starts_with_iff in S. exact S.
  - apply IH. intros d' I. apply H. right. exact I.
Qed.
(** closing the menu leaves the line as it was when nothing else can be offered: no declaration
    applies, the line is not for z, there is no file or command and no suggestion is drawn *)
Theorem C188_cancel_partial : forall z engine own o s max w e w' ev, 2 <= length engine -> closing e ->
  (forall d, In d (decls s) -> ~ applies d (whole z)) ->
  visited s = None \/ (trim (whole z) <> lit "z" /\ ~ exists r, trim_start (whole z) = lit "z " ++ r) -> files s = [] ->
  tab (ed_of cw z) engine Inline own o s None max (opens w :: (e, w') :: ev) = Done (ed_of cw z).
Proof.
  intros z engine own o s max w e w' ev L C D Z F. rewrite tab_cancelled by assumption. unfold Pick_Model.tab, input_completion. rewrite text_of, none_declared by exact D.
  assert (Fz : for_z numeral width (visited s) (whole z) max own ev = Some (Nothing, ev)).
  { unfold for_z. destruct Z as [V|[A B]].
    - rewrite V. destruct (negb _ && negb _); reflexivity.
    - replace (starts_with (lit "z ") (trim_start (whole z))) with false by (symmetry; apply Bool.not_true_is_false; intros K; apply B; apply starts_with_iff in K; exact K).
      replace (str_eqb (trim (whole z)) (lit "z")) with false by (symmetry; apply str_eqb_neq; exact A). reflexivity. }
  rewrite Fz, F. reflexivity.
Qed.
(** "closing the menu leaves the line as it was": the one file or command that fits is put in *)
Theorem C188_cancel_inserts_refuted : forall p q a engine own o s chunk max w e w' ev f, 2 <= length engine -> closing e -> decls s = [] -> visited s = None -> files s = [f] ->
  query cursor_word (ed_of cw (Zip (p ++ q) a)) = Some q -> starts_with clock f = false ->
  tab (ed_of cw (Zip (p ++ q) a)) engine Inline own o s chunk max (opens w :: (e, w') :: ev) = Done (ed_of cw (Zip (p ++ f) a)).
Proof.
  intros p q a engine own o s chunk max w e w' ev f L C D V F Q K. rewrite tab_cancelled by assumption. unfold Pick_Model.tab, input_completion. rewrite D, V, F, Q. cbn [from_declared option_map].
  unfold for_z. destruct (negb _ && negb _); cbn [Pick_Model.select]; apply put_back; exact K.
Qed.
(** and when there are several, a second menu opens *)
Theorem C188_cancel_asks_again_refuted : forall z engine own o s chunk max w e w', 2 <= length engine -> closing e -> decls s = [] -> visited s = None -> 2 <= length (files s) ->
  tab (ed_of cw z) engine Inline Inline o s chunk max [opens w; (e, w')] = Waiting /\
  (forall v ws w'' r, nth_error (firstn max (files s)) (length ws) = Some v -> own = Inline ->
     tab (ed_of cw z) engine Inline own o s chunk max ([opens w; (e, w')] ++ pick w ws w'' ++ r) =
     put cw (ed_of cw z) None (option_map (@length char) (query cursor_word (ed_of cw z))) v).
Proof.
  intros z engine own o s chunk max w e w' L C D V F.
  assert (Z : forall ev, for_z numeral width None (text (ed_of cw z)) max Inline ev = Some (Nothing, ev)) by (intros ev; unfold for_z; destruct (negb _ && negb _); reflexivity).
  split.
  - rewrite tab_cancelled by assumption. unfold Pick_Model.tab, input_completion. rewrite D, V. cbn [from_declared]. rewrite Z, select_two by exact F. reflexivity.
  - intros v ws w'' r N ->. cbn [app]. rewrite tab_cancelled by assumption. unfold Pick_Model.tab, input_completion. rewrite D, V. cbn [from_declared]. rewrite Z, select_two by exact F.
    rewrite (C187_every_listed_can_be_picked _ _ _ w ws w'' r N). reflexivity.
Qed.
(** and a drawn suggestion is taken up *)
Theorem C188_cancel_takes_suggestion_refuted : forall z engine own o s chunk max w e w' ev, 2 <= length engine -> closing e -> decls s = [] -> visited s = None -> files s = [] ->
  tab (ed_of cw z) engine Inline own o s (Some chunk) max (opens w :: (e, w') :: ev) = Done (ed_of cw (Zip (before z ++ chunk) (after z))).
Proof.
  intros z engine own o s chunk max w e w' ev L C D V F. rewrite tab_cancelled by assumption. unfold Pick_Model.tab, input_completion. rewrite D, V, F. cbn [from_declared].
  unfold for_z. destruct (negb _ && negb _); cbn [Pick_Model.select suggestion_word]; rewrite insert_str_ok; reflexivity.
Qed.

(** what is put in, whatever the sources and the keys: Tab panics only on a text that starts with
    the clock, and else the line is that before with one text put in, or as it was *)
Lemma put_any z range back v : starts_with clock v = false -> exists z', put cw (ed_of cw z) range back v = Done (ed_of cw z').
Proof.
  intros C. unfold put. rewrite C. destruct range as [[a b]|].
  - rewrite replace_range_ok. destruct (s_replace_range z a b v) as [z' x]. exists z'. reflexivity.
  - destruct back as [n|]; [rewrite backspacen_ok|]; rewrite insert_str_ok; eexists; reflexivity.
Qed.
Theorem C188_panics_only_on_the_clock : forall z engine k own o s chunk max ev, 
  tab (ed_of cw z) engine k own o s chunk max ev = Panicked -> exists v ev' r,
    (select engine (whole z) max k ev = Some (Selected v, r) \/ input_completion numeral width s (whole z) max own ev' = Some (Selected v, r)) /\ starts_with clock v = true.
Proof.
  intros z engine k own o s chunk max ev H. unfold Pick_Model.tab in H. rewrite text_of in H.
  assert (P : forall range v, put cw (ed_of cw z) range (option_map (@length char) (query cursor_word (ed_of cw z))) v = Panicked -> starts_with clock v = true).
  { intros range v P. destruct (starts_with clock v) eqn:C; [reflexivity|]. destruct (put_any z range (option_map (@length char) (query cursor_word (ed_of cw z))) v C) as [z' E]. congruence. }
  assert (F : forall ev', match input_completion numeral width s (whole z) max own ev' with
    | None => Waiting
    | Some (Selected v, _) => put cw (ed_of cw z) None (option_map (@length char) (query cursor_word (ed_of cw z))) v
    | Some (Interactive items, _) => Asks items None (match option_map (@length char) (query cursor_word (ed_of cw z)) with Some n => n | None => 0 end)
    | Some (Nothing, _) => suggestion_word cw (ed_of cw z) chunk
    end = Panicked -> exists v ev'' r, (select engine (whole z) max k ev = Some (Selected v, r) \/ input_completion numeral width s (whole z) max own ev'' = Some (Selected v, r)) /\ starts_with clock v = true).
  { intros ev' F. destruct (input_completion numeral width s (whole z) max own ev') as [[[v| |items] r]|] eqn:E; try discriminate.
    - exists v, ev', r. split; [right; exact E|exact (P _ _ F)].
    - exfalso. unfold suggestion_word in F. destruct chunk as [x|]; [rewrite insert_str_ok in F|]; discriminate. }
  destruct engine as [|x engine]; [exact (F _ H)|]. destruct (select (x :: engine) (whole z) max k ev) as [[[v| |items] r]|] eqn:E; try discriminate.
  - exists v, [], r. split; [left; reflexivity|exact (P _ _ H)].
  - exact (F _ H).
Qed.

(** Tab inside the menu moves as Right does. *)
Theorem C187_tab_moves_right : forall w r d,
  Pick_Model.interact width ((Pressed Tab Plain, w) :: r) d = Pick_Model.interact width ((Pressed Right Plain, w) :: r) d.
Proof. reflexivity. Qed.
(** With the cursor in front of a word, no word counts as typed: what is put in erases nothing. *)
Theorem C188_in_front_of_a_word : forall z t, token_at_char_cursor (whole z) (length (before z)) CompletionRange = Some t -> length (before z) <= char_start t ->
  cursor_word (whole z) (length (before z)) = None -> query cursor_word (ed_of cw z) = None.
Proof.
  intros z t T L C. unfold query, word_fallback. rewrite text_of, cur_of, C, T. destruct (whole z); [reflexivity|]. destruct (_ =? 0); [reflexivity|].
  replace (length (before z) <=? char_start t) with true by (symmetry; apply Nat.leb_le; exact L). reflexivity.
Qed.
(** A file whose name starts with a clock and a blank, offered alone, ends the shell. *)
Theorem C188_clock_name_refuted : forall z k own o s chunk max v ev, starts_with clock v = true -> tab (ed_of cw z) [v] k own o s chunk max ev = Panicked.
Proof.
  intros z k own o s chunk max v ev C. unfold Pick_Model.tab. cbn [Pick_Model.select]. unfold put. rewrite C.
  apply starts_with_iff in C. destruct C as [t ->]. reflexivity.
Qed.

(** ** C189: declared completions *)
Lemma rs_plain s r : no_blank s -> forall b, replace_space_from b (s ++ r) = s ++ replace_space_from (match s with [] => b | _ => false end) r.
Proof. induction 1 as [|c s C _ IH]; intros b; [reflexivity|]. cbn [replace_space_from app]. rewrite C, IH. f_equal. f_equal. destruct s; reflexivity. Qed.
Lemma rs_no_blank s : forall b, no_blank (replace_space_from b s).
Proof.
  induction s as [|c s IH]; intros b; [constructor|]. cbn [replace_space_from]. destruct (is_whitespace c) eqn:C; [destruct b; [apply IH|]|]; constructor; auto; apply IH.
Qed.
(** the first declaration that applies is the one that counts; its candidates, trimmed, are the
    menu, when the engine has none of its own *)
Theorem C189_declared_list_partial : forall p q a k l1 d l2 vis fs chunk max items v w ws w', 
  query cursor_word (ed_of cw (Zip (p ++ q) a)) = Some q ->
  (forall d', In d' l1 -> ~ applies d' (p ++ q ++ a)) -> applies d (p ++ q ++ a) -> gives d = ByList items -> 2 <= length items ->
  nth_error (firstn max (map trim items)) (length ws) = Some v -> starts_with clock v = false ->
  tab (ed_of cw (Zip (p ++ q) a)) [] k Inline None (Rest (l1 ++ d :: l2) vis fs) chunk max (pick w ws w') = Done (ed_of cw (Zip (p ++ v) a)).
Proof.
  intros p q a k l1 d l2 vis fs chunk max items v w ws w' Q N [x A] G L H C. unfold Pick_Model.tab. rewrite Q, text_of. unfold whole. cbn [before after option_map]. rewrite <- app_assoc.
  unfold input_completion. cbn [decls visited files].
  assert (E : from_declared numeral width (l1 ++ d :: l2) (p ++ q ++ a) max Inline (pick w ws w') = Some (Selected v, [])).
  { revert N. induction l1 as [|d' l1 IH]; intros N.
    - cbn [app from_declared]. replace (starts_with (target d) (replace_space (p ++ q ++ a))) with true by (symmetry; apply starts_with_iff; exists x; exact A).
      rewrite G, select_two by (rewrite map_length; exact L). pose proof (C187_every_listed_can_be_picked (map trim items) max v w ws w' [] H) as P. rewrite app_nil_r in P. rewrite P. reflexivity.
    - cbn [app from_declared]. destruct (starts_with (target d') (replace_space (p ++ q ++ a))) eqn:S.
      + exfalso. apply (N d' (or_introl eq_refl)). apply starts_with_iff in S. exact S.
      + apply IH. intros d'' I. apply N. right. exact I. }
  rewrite E. apply put_back. exact C.
Qed.
(** "a declared completion is offered": not when the engine offers anything that is then chosen,
    typed over or handed to another program *)
Theorem C189_engine_first_refuted : forall e engine k own o s s' chunk max ev, engine <> [] -> (forall r, select engine (text e) max k ev <> Some (Nothing, r)) ->
  tab e engine k own o s chunk max ev = tab e engine k own o s' chunk max ev.
Proof.
  intros e engine k own o s s' chunk max ev N H. unfold Pick_Model.tab. destruct engine; [congruence|]. destruct (select (s0 :: engine) (text e) max k ev) as [[[v| |items] r]|] eqn:E; try reflexivity.
  exfalso. exact (H r eq_refl).
Qed.
(** "a declaration is for its command": it applies to every line that starts with its name, so also
    to other commands whose names start so *)
Theorem C189_other_command_refuted : forall name how rest, no_blank name -> applies (Declared name how) (name ++ rest).
Proof. intros name how rest N. unfold applies, replace_space. rewrite rs_plain by exact N. eexists. reflexivity. Qed.
(** a line that starts with a blank has no declaration, nor has a name with a blank in it a line *)
Theorem C189_blank_refuted : forall d line, (exists c, In c (target d) /\ is_whitespace c = true) -> ~ applies d line.
Proof.
  intros d line (c & I & W) [r E]. pose proof (rs_no_blank line false) as N. unfold replace_space in E. rewrite E in N. unfold no_blank in N. rewrite Forall_forall in N.
  rewrite (N c (in_or_app _ _ _ (or_introl I))) in W. discriminate.
Qed.
Theorem C189_indented_refuted : forall name how c line x, is_whitespace c = true -> x <> 95%N -> ~ applies (Declared (x :: name) how) (c :: line).
Proof. intros name how c line x W X [r E]. unfold replace_space in E. cbn [replace_space_from target app] in E. rewrite W in E. injection E as <- _. congruence. Qed.
(** "a command whose name has a dash can be given a completion": the name is kept with _ and the
    line keeps its dash *)
Theorem C189_dashed_refuted : forall name how rest, no_blank name -> In 45%N name -> ~ applies (Declared (kept_name name) how) (name ++ rest).
Proof.
  intros name how rest N I [r E]. unfold replace_space in E. rewrite rs_plain in E by exact N. cbn [target] in E. clear N.
  generalize dependent (replace_space_from (match name with [] => false | _ => false end) rest). intros t E.
  revert r t E. induction name as [|c name IH]; intros r t E; [destruct I|]. cbn [kept_name map app] in E. injection E as E1 E2. destruct I as [->|I].
  - cbn in E1. discriminate.
  - exact (IH I r t E2).
Qed.
(** what it is for: the words of a name stand for the words of the line, and _ for a blank *)
Theorem C189_words : forall a b how rest, no_blank a -> no_blank b -> ~ In 45%N a -> ~ In 45%N b ->
  applies (Declared (kept_name (a ++ lit "-" ++ b)) how) (a ++ lit " " ++ b ++ rest).
Proof.
  assert (K : forall a, ~ In 45%N a -> kept_name a = a).
  { induction a as [|c a IH]; intros N; [reflexivity|]. cbn [kept_name map]. destruct (c =? 45)%N eqn:C; [apply N.eqb_eq in C; subst; exfalso; apply N; left; reflexivity|].
    f_equal. apply IH. intros I. apply N. right. exact I. }
  intros a b how rest A B Na Nb. unfold applies, replace_space. cbn [target]. assert (KA : forall x y, kept_name (x ++ y) = kept_name x ++ kept_name y) by (intros; apply map_app). rewrite !KA, (K a Na), (K b Nb).
  rewrite (rs_plain a (lit " " ++ b ++ rest) A). replace (match a with [] => false | _ :: _ => false end) with false by (destruct a; reflexivity).
  change (replace_space_from false (lit " " ++ b ++ rest)) with (95%N :: replace_space_from true (b ++ rest)). rewrite (rs_plain b rest B).
  eexists. rewrite <- app_assoc. reflexivity.
Qed.
(** an applying declaration hides the later ones, even if it gives nothing *)
Theorem C189_first_hides : forall d l l' line max k ev, applies d line -> from_declared numeral width (d :: l) line max k ev = from_declared numeral width (d :: l') line max k ev.
Proof. intros d l l' line max k ev [r A]. cbn [from_declared]. replace (starts_with (target d) (replace_space line)) with true by (symmetry; apply starts_with_iff; exists r; exact A). reflexivity. Qed.
Lemma trim_no_blank s : no_blank s -> trim s = s.
Proof.
  assert (T : forall s, no_blank s -> trim_start s = s) by (intros [|c r] N; [reflexivity|]; cbn [trim_start]; inversion N as [|? ? C _]; rewrite C; reflexivity).
  intros N. unfold trim, trim_end. rewrite (T s N). rewrite T by (apply Forall_rev; exact N). apply rev_involutive.
Qed.
Lemma lines_one s : no_blank s -> forall cur, cur ++ s <> [] -> lines_from cur s = [cur ++ s].
Proof.
  induction 1 as [|c s C _ IH]; intros cur N; cbn [lines_from].
  - rewrite app_nil_r in *. destruct cur; [congruence|reflexivity].
  - destruct (c =? 10)%N eqn:E; [apply N.eqb_eq in E; subst; discriminate|]. rewrite IH; rewrite <- app_assoc; [reflexivity|]. intros K. destruct cur; discriminate.
Qed.
(** the mark of the current one in the output of a declared command: the star and the character
    behind it are cut off, whether that is a blank or not *)
Theorem C189_star_cuts_two : forall p q a k d l vis fs chunk max c v ev, query cursor_word (ed_of cw (Zip (p ++ q) a)) = Some q -> applies d (p ++ q ++ a) ->
  gives d = ByCommand (Some (42%N :: c :: v)) -> no_blank (c :: v) -> starts_with clock v = false ->
  tab (ed_of cw (Zip (p ++ q) a)) [] k Inline None (Rest (d :: l) vis fs) chunk max ev = Done (ed_of cw (Zip (p ++ v) a)).
Proof.
  intros p q a k d l vis fs chunk max c v ev Q [x A] G N C. unfold Pick_Model.tab. rewrite Q, text_of. unfold whole. cbn [before after option_map]. rewrite <- app_assoc.
  unfold input_completion. cbn [decls from_declared]. replace (starts_with (target d) (replace_space (p ++ q ++ a))) with true by (symmetry; apply starts_with_iff; exists x; exact A).
  assert (N' : no_blank (42%N :: c :: v)) by (constructor; [reflexivity|exact N]).
  rewrite G. unfold from_command, lines. rewrite (lines_one _ N' []) by discriminate. cbn [map app]. rewrite (trim_no_blank _ N'). cbn [filter negb Pick_Model.select].
  change (starts_with (lit "*") (42%N :: c :: v)) with true. cbn [skipn]. apply put_back. exact C.
Qed.
End Pick.

(** ** Cases *)
Definition num (n : nat) : str := repeat 49%N n.
Definition many : list str := map (fun n => lit "f" ++ repeat 120%N n) (seq 1 6).
(** a menu of six with room for four: the third is picked with two steps, or down a row of two *)
Example menu_case : open_menu num (@length char) many 4 (pick 80 [80; 20] 80) = Some (Submitted (lit "fxxx"), []) /\
  open_menu num (@length char) many 4 [opens 33; press Down 33; press Enter 33] = Some (Submitted (lit "fxx"), []) /\
  open_menu num (@length char) many 4 [opens 80; press Down 80; press Enter 80] = Some (Submitted (lit "fxxx"), []).
Proof. vm_compute. auto. Qed.
(** the line that counts the others cannot be taken, nor the fifth candidate *)
Example menu_end : open_menu num (@length char) many 4 [opens 80; press Right 80; press Right 80; press Right 80; press Right 80; press Right 80; press Enter 80] = Some (NoSelection, []) /\
  In (lit "fxxxxx") many /\ ~ In (lit "fxxxxx") (firstn 4 many).
Proof.
  split; [vm_compute; reflexivity|]. split; [vm_compute; tauto|]. intros H. assert (M : mem_str (lit "fxxxxx") (firstn 4 many) = true) by (apply mem_str_iff; exact H). vm_compute in M. discriminate.
Qed.
Definition no_word (s : str) (n : nat) : option str := None.
Definition one_wide (c : char) : nat := 1.
Definition run_tab (z : zip) (engine : list str) (o : option str) (s : rest_) (chunk : option str) (ev : list (event * option nat)) : result :=
  tab num (@length char) one_wide no_word (ed_of one_wide z) engine Inline Inline o s chunk 30 ev.
Definition none : rest_ := Rest [] None [].
(** git che| -b: the second candidate is put in *)
Example chosen_case : run_tab (Zip (lit "git che") (lit " -b")) [lit "checkout"; lit "cherry"] None none None (pick 80 [80] 80) = Done (ed_of one_wide (Zip (lit "git cherry") (lit " -b"))) /\
  token_at_char_cursor (lit "git che -b") 7 CompletionRange = Some (Span (lit "che") 4 7 4 7).
Proof. vm_compute. auto. Qed.
Example value_case : run_tab (Zip (lit "ls --sort=na") []) [lit "name"; lit "none"] (Some (lit "--sort")) none None (pick 80 [80] 80) = Done (ed_of one_wide (Zip (lit "ls --sort=none") [])).
Proof. vm_compute. reflexivity. Qed.
Example typed_case : run_tab (Zip (lit "git che") []) [lit "checkout"; lit "cherry"] None none None [opens 80; press (Char 114%N) 80] = Done (ed_of one_wide (Zip (lit "git cher") [])) /\
  run_tab (Zip (lit "ls --sort=na") []) [lit "name"; lit "none"] (Some (lit "--sort")) none None [opens 80; press (Char 109%N) 80] = Done (ed_of one_wide (Zip (lit "ls --sort=--sort=nam") [])) /\
  run_tab (Zip (lit "git che") (lit " foo")) [lit "checkout"; lit "cherry"] None none None [opens 80; press (Char 114%N) 80] = Done (ed_of one_wide (Zip (lit "git foor") (lit " foo"))) /\
  run_tab (Zip (lit "gco ma") []) [] None (Rest [Declared (lit "gco") (ByCommand (Some (lit "main
master")))] None []) None [opens 80; press (Char 105%N) 80] = Done (ed_of one_wide (Zip (lit "gco i") [])).
Proof. vm_compute. auto. Qed.
Example cancel_case : run_tab (Zip (lit "git che") []) [lit "checkout"; lit "cherry"] None none None [opens 80; press Esc 80] = Done (ed_of one_wide (Zip (lit "git che") [])) /\
  run_tab (Zip (lit "git che") []) [lit "checkout"; lit "cherry"] None (Rest [] None [lit "chess.txt"]) None [opens 80; press Esc 80] = Done (ed_of one_wide (Zip (lit "git chess.txt") [])) /\
  run_tab (Zip (lit "git che") []) [lit "checkout"; lit "cherry"] None none (Some (lit "ckout main")) [opens 80; press Backspace 80] = Done (ed_of one_wide (Zip (lit "git checkout main") [])).
Proof. vm_compute. auto. Qed.
Example declared_case : run_tab (Zip (lit "gco ma") []) [] None (Rest [Declared (kept_name (lit "gco")) (ByList [lit " main "; lit "master"])] None []) None (pick 80 [] 80) = Done (ed_of one_wide (Zip (lit "gco main") [])) /\
  run_tab (Zip (lit "docker-compose u") []) [] None (Rest [Declared (kept_name (lit "docker-compose")) (ByList [lit "up"])] None []) None [] = Done (ed_of one_wide (Zip (lit "docker-compose u") [])) /\
  run_tab (Zip (lit "gco m") []) [] None (Rest [Declared (lit "gco") (ByCommand (Some (lit "*main")))] None []) None [] = Done (ed_of one_wide (Zip (lit "gco ain") [])).
Proof. vm_compute. auto. Qed.

Print Assumptions C187_only_what_is_listed.
Print Assumptions C187_every_listed_can_be_picked.
Print Assumptions C187_all_can_be_picked_refuted.
Print Assumptions C187_rows.
Print Assumptions C187_columns.
Print Assumptions C187_paging_refuted.
Print Assumptions C187_closing.
Print Assumptions C187_letters.
Print Assumptions C187_control_letter_refuted.
Print Assumptions C188_chosen_takes_the_place.
Print Assumptions C188_chosen_value.
Print Assumptions C188_single.
Print Assumptions C188_typing_goes_on_partial.
Print Assumptions C188_typing_in_a_value_refuted.
Print Assumptions C188_typing_elsewhere_refuted.
Print Assumptions C188_typing_at_declared_refuted.
Print Assumptions C188_cancel_partial.
Print Assumptions C188_cancel_inserts_refuted.
Print Assumptions C188_cancel_asks_again_refuted.
Print Assumptions C188_cancel_takes_suggestion_refuted.
Print Assumptions C188_panics_only_on_the_clock.
Print Assumptions C189_declared_list_partial.
Print Assumptions C189_engine_first_refuted.
Print Assumptions C189_other_command_refuted.
Print Assumptions C189_blank_refuted.
Print Assumptions C189_indented_refuted.
Print Assumptions C189_dashed_refuted.
Print Assumptions C189_words.
Print Assumptions C189_first_hides.
Print Assumptions C189_star_cuts_two.
Print Assumptions C187_tab_moves_right.
Print Assumptions C188_clock_name_refuted.
Print Assumptions C188_in_front_of_a_word.
Example front_case : token_at_char_cursor (lit "git  checkout") 5 CompletionRange = Some (Span (lit "checkout") 5 13 5 13) /\ 
  query no_word (ed_of one_wide (Zip (lit "git  ") (lit "checkout"))) = None /\
  run_tab (Zip (lit "git ") []) [[128338; 32; 120]%N] None none None [] = Panicked.
Proof. vm_compute. auto. Qed.
