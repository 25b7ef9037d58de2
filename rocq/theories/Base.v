(** Shared vocabulary: Rust characters and strings.

    A Rust [char] is represented by its code point, a Rust [str]/[String] by
    the list of its characters.  UTF-8 only shows up through [utf8_len], the
    number of bytes of one character, so byte offsets are sums of [utf8_len]
    and a byte offset that falls inside a character is visible as [None] of
    [split_byte] (the Rust program panics there). *)
From Coq Require Export Ascii String.
From Coq Require Export List Arith ZArith NArith Lia Bool.
Export ListNotations.
#[global] Open Scope string_scope.
#[global] Open Scope nat_scope.
#[global] Open Scope list_scope.

Definition char := N.
Definition str := list char.

(** Literal ASCII strings, for examples and for constants of the source. *)
Fixpoint lit (s : string) : str :=
  match s with
  | EmptyString => []
  | String c s' => N_of_ascii c :: lit s'
  end.
Arguments lit s%string : simpl never.
Definition chr (c : ascii) : char := N_of_ascii c.
Arguments chr c%char : simpl never.

(** char::len_utf8 *)
Definition utf8_len (c : char) : nat :=
  if (c <? 128)%N then 1
  else if (c <? 2048)%N then 2
  else if (c <? 65536)%N then 3
  else 4.

(** str::len (bytes) *)
Fixpoint blen (s : str) : nat :=
  match s with
  | [] => 0
  | c :: s' => utf8_len c + blen s'
  end.

(** Splitting a string at a byte offset, [None] when the offset is outside the
    string or not on a character boundary (str::split_at, &s[..b], &s[b..],
    String::truncate, String::insert, String::drain all panic then). *)
Fixpoint split_byte (s : str) (b : nat) : option (str * str) :=
  match b with
  | 0 => Some ([], s)
  | _ =>
      match s with
      | [] => None
      | c :: s' =>
          if utf8_len c <=? b then
            match split_byte s' (b - utf8_len c) with
            | Some (p, q) => Some (c :: p, q)
            | None => None
            end
          else None
      end
  end.

(** str::char_indices: byte offset of each character. *)
Fixpoint offsets_from (b : nat) (s : str) : list nat :=
  match s with
  | [] => []
  | c :: s' => b :: offsets_from (b + utf8_len c) s'
  end.
Definition char_offsets (s : str) : list nat := offsets_from 0 s.

(** char::is_whitespace: the Unicode White_Space property. *)
Definition is_whitespace (c : char) : bool :=
  (((9 <=? c) && (c <=? 13)) || (c =? 32) || (c =? 133) || (c =? 160)
   || (c =? 5760) || ((8192 <=? c) && (c <=? 8202)) || (c =? 8232)
   || (c =? 8233) || (c =? 8239) || (c =? 8287) || (c =? 12288))%N.

Fixpoint str_eqb (a b : str) : bool :=
  match a, b with
  | [], [] => true
  | x :: a', y :: b' => (x =? y)%N && str_eqb a' b'
  | _, _ => false
  end.

Lemma str_eqb_eq a b : str_eqb a b = true <-> a = b.
Proof.
  revert b; induction a as [|x a IH]; intros [|y b]; simpl; split; try congruence; auto.
  - intros H. apply andb_true_iff in H as [H1 H2]. apply N.eqb_eq in H1.
    apply IH in H2. congruence.
  - intros [= -> ->]. rewrite N.eqb_refl. simpl. apply IH. reflexivity.
Qed.

Lemma str_eqb_refl a : str_eqb a a = true.
Proof. apply str_eqb_eq. reflexivity. Qed.

Lemma str_eqb_neq a b : str_eqb a b = false <-> a <> b.
Proof.
  split.
  - intros H E. apply str_eqb_eq in E. congruence.
  - intros H. destruct (str_eqb a b) eqn:E; [|reflexivity]. apply str_eqb_eq in E. congruence.
Qed.

Lemma str_eqb_spec a b : reflect (a = b) (str_eqb a b).
Proof.
  destruct (str_eqb a b) eqn:E; constructor.
  - apply str_eqb_eq, E.
  - apply str_eqb_neq, E.
Qed.

Definition str_eq_dec (a b : str) : {a = b} + {a <> b} := list_eq_dec N.eq_dec a b.

(** str::starts_with *)
Fixpoint starts_with (p s : str) : bool :=
  match p, s with
  | [], _ => true
  | x :: p', y :: s' => (x =? y)%N && starts_with p' s'
  | _ :: _, [] => false
  end.

Lemma starts_with_iff p s : starts_with p s = true <-> exists t, s = p ++ t.
Proof.
  revert s; induction p as [|x p IH]; intros s; simpl.
  - split; [intros _; exists s; reflexivity | reflexivity].
  - destruct s as [|y s].
    + split; [discriminate | intros [t Ht]; discriminate].
    + rewrite andb_true_iff, N.eqb_eq, IH. split.
      * intros [-> [t ->]]. exists t. reflexivity.
      * intros [t [= -> ->]]. split; [reflexivity | exists t; reflexivity].
Qed.

(** str::ends_with *)
Definition ends_with (p s : str) : bool := starts_with (rev p) (rev s).

Lemma ends_with_iff p s : ends_with p s = true <-> exists t, s = t ++ p.
Proof.
  unfold ends_with. rewrite starts_with_iff. split; intros [t Ht].
  - exists (rev t). rewrite <- (rev_involutive s), Ht, rev_app_distr, rev_involutive. reflexivity.
  - exists (rev t). rewrite Ht, rev_app_distr. reflexivity.
Qed.

(** str::contains (substring) *)
Fixpoint contains (p s : str) : bool :=
  starts_with p s ||
  match s with
  | [] => false
  | _ :: s' => contains p s'
  end.

Lemma contains_iff p s : contains p s = true <-> exists a b, s = a ++ p ++ b.
Proof.
  induction s as [|y s IH]; simpl.
  - rewrite orb_false_r, starts_with_iff. split.
    + intros [t Ht]. exists [], t. exact Ht.
    + intros (a & b & H). destruct a; [|discriminate]. exists b. exact H.
  - rewrite orb_true_iff, starts_with_iff, IH. split.
    + intros [[t Ht] | (a & b & H)].
      * exists [], t. exact Ht.
      * exists (y :: a), b. rewrite H. reflexivity.
    + intros ([|z a] & b & H).
      * left. exists b. exact H.
      * injection H as -> ->. right. exists a, b. reflexivity.
Qed.

(** char in a set of characters *)
Definition mem_char (c : char) (l : str) : bool := existsb (N.eqb c) l.

Lemma mem_char_iff c l : mem_char c l = true <-> In c l.
Proof.
  unfold mem_char. rewrite existsb_exists. split.
  - intros (x & Hx & E). apply N.eqb_eq in E. subst. exact Hx.
  - intros H. exists c. split; [exact H | apply N.eqb_refl].
Qed.

Definition mem_str (x : str) (l : list str) : bool := existsb (str_eqb x) l.

Lemma mem_str_iff x l : mem_str x l = true <-> In x l.
Proof.
  unfold mem_str. rewrite existsb_exists. split.
  - intros (y & Hy & E). apply str_eqb_eq in E. subst. exact Hy.
  - intros H. exists x. split; [exact H | apply str_eqb_refl].
Qed.

Lemma mem_str_false x l : mem_str x l = false <-> ~ In x l.
Proof.
  rewrite <- mem_str_iff. destruct (mem_str x l); split; congruence.
Qed.

(** ASCII lower case (str::to_ascii_lowercase; to_lowercase on ASCII text). *)
Definition lower_char (c : char) : char :=
  if ((65 <=? c) && (c <=? 90))%N then (c + 32)%N else c.
Definition lower (s : str) : str := map lower_char s.

(** str::trim *)
Fixpoint trim_start (s : str) : str :=
  match s with
  | [] => []
  | c :: s' => if is_whitespace c then trim_start s' else s
  end.
Definition trim_end (s : str) : str := rev (trim_start (rev s)).
Definition trim (s : str) : str := trim_end (trim_start s).

(** str::split_whitespace: the maximal runs of non-white-space characters.
    [cur] is the (reversed) run being read. *)
Fixpoint split_ws_aux (cur : str) (s : str) : list str :=
  match s with
  | [] => match cur with [] => [] | _ => [rev cur] end
  | c :: s' =>
      if is_whitespace c then
        match cur with
        | [] => split_ws_aux [] s'
        | _ => rev cur :: split_ws_aux [] s'
        end
      else split_ws_aux (c :: cur) s'
  end.
Definition split_whitespace (s : str) : list str := split_ws_aux [] s.

(** str::split(char) *)
Fixpoint split_on_aux (sep : char) (cur : str) (s : str) : list str :=
  match s with
  | [] => [rev cur]
  | c :: s' =>
      if (c =? sep)%N then rev cur :: split_on_aux sep [] s'
      else split_on_aux sep (c :: cur) s'
  end.
Definition split_on (sep : char) (s : str) : list str := split_on_aux sep [] s.

(** slice::join *)
Fixpoint join_with (sep : str) (l : list str) : str :=
  match l with
  | [] => []
  | [a] => a
  | a :: rest => a ++ sep ++ join_with sep rest
  end.

(** ** Facts about splitting *)

(** [Words s ws]: [ws] are the maximal runs of non-white-space characters of [s],
    in order. *)
Inductive Words : str -> list str -> Prop :=
| Words_none s : (forall c, In c s -> is_whitespace c = true) -> Words s []
| Words_word gap w rest ws :
    (forall c, In c gap -> is_whitespace c = true) ->
    w <> [] -> (forall c, In c w -> is_whitespace c = false) ->
    (rest = [] \/ exists c r, rest = c :: r /\ is_whitespace c = true) ->
    Words rest ws -> Words (gap ++ w ++ rest) (w :: ws).

Lemma split_ws_aux_gap gap s :
  (forall c, In c gap -> is_whitespace c = true) -> split_ws_aux [] (gap ++ s) = split_ws_aux [] s.
Proof.
  induction gap as [|c gap IH]; intros H; simpl; [reflexivity|].
  rewrite (H c) by (left; reflexivity). apply IH. intros d Hd. apply H. right. exact Hd.
Qed.

Lemma split_ws_aux_word cur w s :
  (forall c, In c w -> is_whitespace c = false) ->
  split_ws_aux cur (w ++ s) = split_ws_aux (rev w ++ cur) s.
Proof.
  revert cur; induction w as [|c w IH]; intros cur H; simpl; [reflexivity|].
  rewrite (H c) by (left; reflexivity). rewrite IH by (intros d Hd; apply H; right; exact Hd).
  rewrite <- app_assoc. reflexivity.
Qed.

Lemma Words_split s ws : Words s ws -> split_whitespace s = ws.
Proof.
  unfold split_whitespace. induction 1 as [s H | gap w rest ws Hg Hne Hw Hr _ IH].
  - rewrite <- (app_nil_r s). rewrite split_ws_aux_gap by exact H. reflexivity.
  - rewrite split_ws_aux_gap by exact Hg. rewrite split_ws_aux_word by exact Hw. rewrite app_nil_r.
    assert (Hrw : rev w <> []).
    { intros E. apply Hne. rewrite <- (rev_involutive w), E. reflexivity. }
    destruct Hr as [-> | (c & r & -> & Hc)].
    + simpl in *. subst ws. destruct (rev w) eqn:E; [congruence|]. rewrite <- E, rev_involutive. reflexivity.
    + simpl in *. rewrite Hc in *. destruct (rev w) eqn:E; [congruence|].
      rewrite <- E, rev_involutive, IH. reflexivity.
Qed.

Lemma Words_of_aux s : forall cur,
  (forall c, In c cur -> is_whitespace c = false) ->
  Words (rev cur ++ s) (split_ws_aux cur s).
Proof.
  induction s as [|c s IH]; intros cur Hcur; simpl.
  - rewrite app_nil_r. destruct cur as [|d cur]; simpl.
    + apply Words_none. intros c [].
    + pose proof (Words_word [] (rev cur ++ [d]) [] []) as W. simpl in W. rewrite app_nil_r in W.
      apply W.
      * intros c [].
      * intros E. apply app_eq_nil in E as [_ E]. discriminate.
      * intros c Hc. apply Hcur. apply in_rev. simpl. exact Hc.
      * left. reflexivity.
      * apply Words_none. intros c [].
  - destruct (is_whitespace c) eqn:Hc.
    + assert (Hrest : Words (c :: s) (split_ws_aux [] s)).
      { pose proof (IH [] (fun d (H : In d []) => match H with end)) as W. simpl in W.
        inversion W as [t Ht Et Ews | gap w rest ws Hg Hne Hw Hr Hws Et Ews].
        - apply Words_none. intros d [<- | Hd]; [exact Hc | apply Ht, Hd].
        - change (c :: gap ++ w ++ rest) with ((c :: gap) ++ w ++ rest).
          apply Words_word; try assumption. intros d [<- | Hd]; [exact Hc | apply Hg, Hd]. }
      destruct cur as [|d cur]; simpl.
      * exact Hrest.
      * change ((rev cur ++ [d]) ++ c :: s) with ([] ++ (rev cur ++ [d]) ++ c :: s).
        apply Words_word.
        -- intros x [].
        -- intros E. apply app_eq_nil in E as [_ E]. discriminate.
        -- intros x Hx. apply Hcur. apply in_rev. simpl. exact Hx.
        -- right. exists c, s. split; [reflexivity | exact Hc].
        -- exact Hrest.
    + replace (rev cur ++ c :: s) with (rev (c :: cur) ++ s) by (simpl; rewrite <- app_assoc; reflexivity).
      apply IH. intros d [<- | Hd]; [exact Hc | apply Hcur, Hd].
Qed.

Lemma Words_iff s ws : Words s ws <-> split_whitespace s = ws.
Proof.
  split; [apply Words_split|]. intros <-. apply (Words_of_aux s []). intros c [].
Qed.

Lemma split_on_aux_app sep a b cur :
  split_on_aux sep cur (a ++ sep :: b) = split_on_aux sep cur a ++ split_on sep b.
Proof.
  revert cur; induction a as [|c a IH]; intros cur; simpl.
  - rewrite N.eqb_refl. reflexivity.
  - destruct (c =? sep)%N; rewrite IH; reflexivity.
Qed.

Lemma split_on_app sep a b : split_on sep (a ++ sep :: b) = split_on sep a ++ split_on sep b.
Proof. apply split_on_aux_app. Qed.

Lemma split_on_aux_none sep s cur : ~ In sep s -> split_on_aux sep cur s = [rev cur ++ s].
Proof.
  revert cur; induction s as [|c s IH]; intros cur H; simpl.
  - rewrite app_nil_r. reflexivity.
  - destruct (N.eqb_spec c sep) as [->|_]; [exfalso; apply H; left; reflexivity|].
    rewrite IH by (intros Hs; apply H; right; exact Hs). simpl. rewrite <- app_assoc. reflexivity.
Qed.

Lemma split_on_none sep s : ~ In sep s -> split_on sep s = [s].
Proof. intros H. unfold split_on. rewrite split_on_aux_none by exact H. reflexivity. Qed.

Lemma split_on_aux_join sep s cur : join_with [sep] (split_on_aux sep cur s) = rev cur ++ s.
Proof.
  revert cur; induction s as [|c s IH]; intros cur; simpl.
  - rewrite app_nil_r. reflexivity.
  - destruct (N.eqb_spec c sep) as [->|_].
    + assert (H : forall l, l <> [] -> join_with [sep] (rev cur :: l) = rev cur ++ [sep] ++ join_with [sep] l).
      { intros [|x l] Hl; [congruence | reflexivity]. }
      rewrite H, IH; [reflexivity|].
      destruct s as [|d s]; simpl; [discriminate|]. destruct (d =? sep)%N; [discriminate|].
      clear. generalize [d]. induction s as [|e s IH]; intros l; simpl; [discriminate|].
      destruct (e =? sep)%N; [discriminate | apply IH].
    + rewrite IH. simpl. rewrite <- app_assoc. reflexivity.
Qed.

Lemma split_on_join sep s : join_with [sep] (split_on sep s) = s.
Proof. apply (split_on_aux_join sep s []). Qed.

Lemma split_on_aux_no_sep sep s cur p :
  ~ In sep cur -> In p (split_on_aux sep cur s) -> ~ In sep p.
Proof.
  revert cur; induction s as [|c s IH]; intros cur Hc; simpl.
  - intros [<- | []]. rewrite <- in_rev. exact Hc.
  - destruct (N.eqb_spec c sep) as [->|Hne].
    + intros [<- | H]; [rewrite <- in_rev; exact Hc | apply (IH [] (fun F => F) H)].
    + intros H. apply (IH (c :: cur)); [|exact H]. intros [E | E]; [congruence | exact (Hc E)].
Qed.

Lemma split_on_no_sep sep s p : In p (split_on sep s) -> ~ In sep p.
Proof. apply split_on_aux_no_sep. intros []. Qed.

Lemma split_on_nonempty sep s : split_on sep s <> [].
Proof.
  unfold split_on. generalize (@nil char). induction s as [|c s IH]; intros cur; simpl; [discriminate|].
  destruct (c =? sep)%N; [discriminate | apply IH].
Qed.

(** joining a list around one of its elements *)
Lemma join_with_mid sep A n B :
  join_with sep (A ++ n :: B) =
  concat (map (fun x => x ++ sep) A) ++ n ++ concat (map (fun x => sep ++ x) B).
Proof.
  induction A as [|a A IH].
  - simpl. revert n; induction B as [|b B IHB]; intros n; simpl; [rewrite app_nil_r; reflexivity|].
    simpl in IHB. rewrite (IHB b). rewrite <- !app_assoc. reflexivity.
  - destruct A as [|a' A].
    + simpl in *. rewrite IH. rewrite app_nil_r, <- !app_assoc. reflexivity.
    + change (join_with sep ((a :: a' :: A) ++ n :: B))
        with (a ++ sep ++ join_with sep ((a' :: A) ++ n :: B)).
      rewrite IH. simpl. rewrite <- !app_assoc. reflexivity.
Qed.

(** * Facts about UTF-8 lengths and byte splits *)

Lemma utf8_len_pos c : 1 <= utf8_len c.
Proof. unfold utf8_len. repeat (destruct (_ <? _)%N); lia. Qed.

Lemma blen_app a b : blen (a ++ b) = blen a + blen b.
Proof. induction a as [|c a IH]; simpl; [reflexivity | rewrite IH; lia]. Qed.

Lemma length_le_blen s : length s <= blen s.
Proof. induction s as [|c s IH]; simpl; [lia | pose proof (utf8_len_pos c); lia]. Qed.

Lemma blen_zero s : blen s = 0 -> s = [].
Proof. destruct s as [|c s]; simpl; [reflexivity | pose proof (utf8_len_pos c); lia]. Qed.

Lemma split_byte_app p q : split_byte (p ++ q) (blen p) = Some (p, q).
Proof.
  induction p as [|c p IH].
  - destruct q; reflexivity.
  - simpl app. simpl blen. pose proof (utf8_len_pos c) as Hc.
    destruct (utf8_len c + blen p) as [|n] eqn:E; [lia|].
    cbn [split_byte]. rewrite <- E.
    replace (utf8_len c <=? utf8_len c + blen p) with true by (symmetry; apply Nat.leb_le; lia).
    replace (utf8_len c + blen p - utf8_len c) with (blen p) by lia.
    rewrite IH. reflexivity.
Qed.

Lemma split_byte_sound s b p q : split_byte s b = Some (p, q) -> s = p ++ q /\ blen p = b.
Proof.
  revert b p q; induction s as [|c s IH]; intros b p q.
  - destruct b; simpl; [|discriminate]. intros [= <- <-]. split; reflexivity.
  - destruct b as [|b].
    + simpl. intros [= <- <-]. split; reflexivity.
    + cbn [split_byte]. destruct (Nat.leb_spec (utf8_len c) (S b)) as [Hle|]; [|discriminate].
      destruct (split_byte s (S b - utf8_len c)) as [[p' q']|] eqn:E; [|discriminate].
      intros [= <- <-]. destruct (IH _ _ _ E) as [-> Hb]. simpl. split; [reflexivity | lia].
Qed.

Lemma split_byte_iff s b p q : split_byte s b = Some (p, q) <-> s = p ++ q /\ blen p = b.
Proof.
  split; [apply split_byte_sound|]. intros [-> <-]. apply split_byte_app.
Qed.

Lemma offsets_from_app b s t :
  offsets_from b (s ++ t) = offsets_from b s ++ offsets_from (b + blen s) t.
Proof.
  revert b; induction s as [|c s IH]; intros b; simpl.
  - rewrite Nat.add_0_r. reflexivity.
  - rewrite IH. f_equal. f_equal. f_equal. lia.
Qed.

Lemma offsets_from_length b s : length (offsets_from b s) = length s.
Proof. revert b; induction s as [|c s IH]; intros b; simpl; [reflexivity | rewrite IH; reflexivity]. Qed.

Lemma offsets_from_shift k b s : map (fun i => i + k) (offsets_from b s) = offsets_from (b + k) s.
Proof.
  revert b; induction s as [|c s IH]; intros b; simpl; [reflexivity|].
  rewrite IH. f_equal. f_equal. lia.
Qed.

Lemma nth_error_offsets b s i :
  i < length s -> nth_error (offsets_from b s) i = Some (b + blen (firstn i s)).
Proof.
  revert b i; induction s as [|c s IH]; intros b i Hi; simpl in *; [lia|].
  destruct i as [|i]; simpl; [f_equal; lia|].
  rewrite IH by lia. f_equal. lia.
Qed.

(** * Missing list facts *)

Lemma skipn_skipn {A} (x y : nat) (l : list A) : skipn x (skipn y l) = skipn (x + y) l.
Proof.
  revert l; induction y as [|y IH]; intros l.
  - rewrite Nat.add_0_r. reflexivity.
  - rewrite Nat.add_succ_r. destruct l as [|a l]; [rewrite !skipn_nil; reflexivity|]. simpl. apply IH.
Qed.
