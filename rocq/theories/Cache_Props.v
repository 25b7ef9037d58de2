(** C111: the candidates shown are those of the line. *)
From Verif Require Import Base Menu_Model Menu_Spec.
From Coq Require Import Permutation.

(** the answer to a press and the cache it leaves; a session starts with an empty cache *)
Definition press_tab (c : cache cand) (p : press) : list cand * cache cand :=
  complete text menu_ttl (at_ p) (line p) (is_dynamic (cmd p)) (now_right p) c.
Definition after (ps : list press) : cache cand := fold_left (fun c p => snd (press_tab c p)) ps [].
Definition answer (ps : list press) (p : press) : list cand := fst (press_tab (after ps) p).

(** ** The cache *)
Lemma get_in {A} (c : cache A) k e : get c k = Some e -> In (k, e) c.
Proof.
  unfold get. destruct (find _ c) as [[k' e']|] eqn:E; [|discriminate]. intros [= <-]. apply find_some in E as (H & K).
  cbn in K. apply str_eqb_eq in K. now subst.
Qed.
Lemma get_head {A} k (e : entry A) c : get ((k, e) :: c) k = Some e.
Proof. unfold get. cbn. now rewrite str_eqb_refl. Qed.
Lemma purge_in {A} now (c : cache A) x : In x (purge now c) -> In x c /\ live now (snd x) = true.
Proof. unfold purge. rewrite filter_In. tauto. Qed.
Lemma set_in {A} ttl now k l (c : cache A) k' e : In (k', e) (set ttl now k l c) -> k' = k /\ e = Entry l (now + ttl) \/ In (k', e) c.
Proof.
  unfold set. intros [[= <- <-]|H]; [left; auto|]. apply filter_In in H as (H & _). apply purge_in in H as (H & _). auto.
Qed.
Lemma extend_in {A} ttl now k (c : cache A) k' e : In (k', e) (extend ttl now k c) ->
  In (k', e) c \/ k' = k /\ expires e = now + ttl /\ exists e0, In (k, e0) c /\ kept e0 = kept e.
Proof.
  unfold extend. intros H. apply in_map_iff in H as ((k0 & e0) & E & H). cbn [fst snd] in E. apply purge_in in H as (H & _).
  destruct (str_eqb_spec k0 k) as [->|Hn].
  - injection E as <- <-. right. split; [reflexivity|split; [reflexivity|]]. eauto.
  - injection E as <- <-. now left.
Qed.
Lemma shorter_ok {A} now input (c : cache A) n k : shorter now input c n = Some k ->
  exists m e, m <= n /\ k = firstn m input /\ get c k = Some e /\ live now e = true.
Proof.
  induction n as [|n IH]; cbn [shorter].
  - destruct (get c (firstn 0 input)) as [e|] eqn:E; [|discriminate]. destruct (live now e) eqn:L; [|discriminate].
    intros [= <-]. exists 0, e. auto.
  - assert (K : shorter now input c n = Some k -> exists m e, m <= S n /\ k = firstn m input /\ get c k = Some e /\ live now e = true).
    { intros H. destruct (IH H) as (m & e & H1 & H2). exists m, e. split; [lia|exact H2]. }
    destruct (get c (firstn (S n) input)) as [e|] eqn:E; [|exact K]. destruct (live now e) eqn:L; [|exact K].
    intros [= <-]. exists (S n), e. auto.
Qed.
Lemma longest_ok {A} now input (c : cache A) k exact : longest_live now input c = Some (k, exact) ->
  exists e rest, get c k = Some e /\ live now e = true /\ input = k ++ rest /\ (exact = true <-> rest = []).
Proof.
  unfold longest_live.
  assert (K : match input with [] => None | _ => option_map (fun k => (k, false)) (shorter now input c (length input - 1)) end = Some (k, exact) ->
    exists e rest, get c k = Some e /\ live now e = true /\ input = k ++ rest /\ (exact = true <-> rest = [])).
  { destruct input as [|x r]; [discriminate|]. destruct (shorter now (x :: r) c (length (x :: r) - 1)) as [k'|] eqn:E; [|discriminate].
    intros [= <- <-]. destruct (shorter_ok _ _ _ _ _ E) as (m & e & L & Hk & G & V). exists e, (skipn m (x :: r)).
    split; [exact G|split; [exact V|split]].
    - rewrite Hk. symmetry. apply firstn_skipn.
    - split; [discriminate|]. intros Z. apply (f_equal (@length _)) in Z. rewrite skipn_length in Z. cbn [length] in Z, L. lia. }
  destruct (get c input) as [e|] eqn:G; [|exact K]. destruct (live now e) eqn:V; [|exact K].
  intros [= <- <-]. exists e, []. rewrite app_nil_r. split; [exact G|split; [exact V|split; [reflexivity|tauto]]].
Qed.
Lemma last_token_ok s : last_word s (last_token s).
Proof.
  induction s as [|c r IH]; [split; [constructor|now left]|]. cbn [last_token].
  change (existsb is_whitespace (c :: r)) with (is_whitespace c || existsb is_whitespace r).
  destruct (existsb is_whitespace r) eqn:E.
  - rewrite orb_true_r. destruct IH as (F & IH). split; [exact F|]. right. destruct IH as [IH|(a & d & IH & W)].
    + exfalso. assert (existsb is_whitespace r = false); [|congruence]. rewrite IH. clear - F.
      induction F as [|x l Hx F IH]; [reflexivity|]. cbn. now rewrite Hx.
    + exists (c :: a), d. split; [cbn; now rewrite <- IH|exact W].
  - rewrite orb_false_r.
    assert (F : Forall (fun c => is_whitespace c = false) r).
    { clear - E. induction r as [|x l IH]; constructor; cbn in E; apply orb_false_elim in E as (E1 & E2); auto. }
    destruct (is_whitespace c) eqn:W.
    + split; [exact F|]. right. exists [], c. auto.
    + split; [now constructor|]. now left.
Qed.
Lemma last_word_fun s w v : last_word s w -> last_word s v -> w = v.
Proof.
  intros (F & H) (G & K). assert (Hno : forall a c (w v : str), is_whitespace c = true -> Forall (fun c => is_whitespace c = false) v -> v <> a ++ c :: w).
  { intros a c w0 v0 W F0 ->. rewrite Forall_forall in F0. rewrite F0 in W; [discriminate|]. apply in_or_app. right. now left. }
  destruct H as [->|(a & c & -> & W)], K as [K|(b & d & K & V)].
  - exact K.
  - exfalso. eapply Hno; [exact V|exact F|exact K].
  - exfalso. symmetry in K. eapply Hno; [exact W|exact G|exact K].
  - revert b K. induction a as [|x a IH]; intros [|y b] K; cbn in K.
    + now injection K.
    + exfalso. injection K as _ K. eapply Hno; [exact V|exact F|exact K].
    + exfalso. injection K as _ K. symmetry in K. eapply Hno; [exact W|exact G|exact K].
    + injection K as _ K. eauto.
Qed.
Lemma fits_iff l s : starts_with l s || (negb (str_eqb (last_token l) []) && starts_with (last_token l) s) = true <-> still_fits l s.
Proof.
  rewrite orb_true_iff, andb_true_iff, negb_true_iff, starts_with_iff, starts_with_iff. unfold still_fits, begins_with.
  split; intros [H|H]; auto.
  - right. exists (last_token l). split; [apply last_token_ok|]. destruct H as (H & K). split; [|exact K]. intros Z. rewrite Z in H. discriminate.
  - right. destruct H as (w & H & N & K). rewrite (last_word_fun _ _ _ (last_token_ok l) H).
    split; [|exact K]. destruct (str_eqb_spec w []); [contradiction|reflexivity].
Qed.
Lemma lookup_ok {A} (text_of : A -> str) now input (c : cache A) k l exact : lookup text_of now input c = Some (k, l, exact) ->
  exists e rest, In (k, e) c /\ now < expires e /\ input = k ++ rest /\
    (exact = true /\ rest = [] /\ l = kept e \/
     exact = false /\ rest <> [] /\ (forall x, In x l <-> In x (kept e) /\ still_fits input (text_of x))).
Proof.
  unfold lookup. destruct (longest_live now input c) as [(k' & ex)|] eqn:E; [|discriminate].
  destruct (longest_ok _ _ _ _ _ E) as (e & rest & G & V & I & X). rewrite G. intros H. injection H as <- <- <-.
  exists e, rest. split; [now apply get_in|]. split; [now apply Nat.ltb_lt|]. split; [exact I|]. destruct ex.
  - left. split; [reflexivity|]. split; [now apply X|reflexivity].
  - right. split; [reflexivity|]. split; [intros Z; apply X in Z; discriminate|]. intros x. rewrite filter_In, fits_iff. tauto.
Qed.

Lemma is_dynamic_iff c : is_dynamic c = true <-> always_fresh c.
Proof. apply mem_str_iff. Qed.
Lemma is_nil_iff {A} (l : list A) : is_nil l = true <-> l = [].
Proof. destruct l; cbn; split; congruence. Qed.

(** ** What is kept was right once *)
Definition from (ps : list press) (x : str * entry cand) : Prop :=
  (exists q, In q ps /\ line q = fst x /\ now_right q = kept (snd x) /\ now_right q <> [] /\ ~ always_fresh (cmd q)) /\
  (exists r, In r ps /\ begins_with (fst x) (line r) /\ expires (snd x) = at_ r + 3000).
Lemma from_more ps p x : from ps x -> from (ps ++ [p]) x.
Proof.
  intros ((q & H & K) & (r & H' & K')). split; [exists q|exists r]; (split; [apply in_or_app; now left|assumption]).
Qed.
Lemma after_from ps : forall x, In x (after ps) -> from ps x.
Proof.
  induction ps as [|p ps IH] using rev_ind; [intros x []|]. intros (k & e) H. unfold after in H. rewrite fold_left_app in H. cbn in H.
  fold (after ps) in H. unfold press_tab, complete in H.
  set (miss := (now_right p, if is_dynamic (cmd p) || is_nil (line p) || is_nil (now_right p) then after ps else set menu_ttl (at_ p) (line p) (now_right p) (after ps))) in H.
  assert (M : In (k, e) (snd miss) -> from (ps ++ [p]) (k, e)).
  { unfold miss. cbn [snd]. destruct (is_dynamic (cmd p) || is_nil (line p) || is_nil (now_right p)) eqn:E.
    - intros K. apply from_more. now apply IH.
    - apply orb_false_elim in E as (E & E3). apply orb_false_elim in E as (E1 & E2). intros K. apply set_in in K as [(-> & ->)|K].
      + split.
        * exists p. split; [apply in_or_app; right; now left|]. split; [reflexivity|split; [reflexivity|split]].
          -- intros Z. apply is_nil_iff in Z. congruence.
          -- intros Z. apply is_dynamic_iff in Z. congruence.
        * exists p. split; [apply in_or_app; right; now left|]. split; [exists []; now rewrite app_nil_r|reflexivity].
      + apply from_more. now apply IH. }
  destruct (is_dynamic (cmd p) || is_nil (line p)); [now apply M|].
  destruct (lookup text (at_ p) (line p) (after ps)) as [((k' & l) & exact)|] eqn:L; [|now apply M].
  destruct (exact || negb (is_nil l)); [|now apply M]. cbn [snd] in H.
  apply extend_in in H as [H|(-> & X & e0 & H & Ke)]; [apply from_more; now apply IH|].
  destruct (lookup_ok _ _ _ _ _ _ _ L) as (e1 & rest & _ & _ & I & _).
  destruct (IH _ H) as ((q & Hq & Q) & _). split.
  - exists q. split; [apply in_or_app; now left|]. cbn [fst snd] in *. rewrite <- Ke. exact Q.
  - exists p. split; [apply in_or_app; right; now left|]. split; [exists rest; exact I|exact X].
Qed.

(** ** C111 *)
(** Every answer is what is right now, or what was right at an earlier press on the same line, or
    what of the answer to an earlier press on the beginning of the line still fits; and then a
    line with this beginning was completed less than three seconds ago. *)
Theorem C111_answers_partial : forall ps p,
  answer ps p = now_right p \/
  ~ always_fresh (cmd p) /\
  exists q, In q ps /\ ~ always_fresh (cmd q) /\ answer ps p <> [] /\
    (exists r, In r ps /\ begins_with (line q) (line r) /\ at_ p < at_ r + 3000) /\
    (line p = line q /\ answer ps p = now_right q \/
     (exists rest, rest <> [] /\ line p = line q ++ rest) /\
     forall x, In x (answer ps p) <-> In x (now_right q) /\ still_fits (line p) (text x)).
Proof.
  intros ps p. unfold answer, press_tab, complete.
  destruct (is_dynamic (cmd p) || is_nil (line p)) eqn:D; [now left|]. apply orb_false_elim in D as (D & _).
  destruct (lookup text (at_ p) (line p) (after ps)) as [((k & l) & exact)|] eqn:L; [|now left].
  destruct (exact || negb (is_nil l)) eqn:X; [|now left]. right. cbn [fst].
  split; [intros Z; apply is_dynamic_iff in Z; congruence|].
  destruct (lookup_ok _ _ _ _ _ _ _ L) as (e & rest & Hin & T & I & O).
  destruct (after_from _ _ Hin) as ((q & Hq & Q1 & Q2 & Q3 & Q4) & (r & Hr & R1 & R2)). cbn [fst snd] in *.
  exists q. split; [exact Hq|split; [exact Q4|split]].
  - destruct O as [(_ & _ & ->)|(-> & _)]; [congruence|]. cbn in X. intros ->. discriminate.
  - split; [exists r; rewrite Q1; split; [exact Hr|split; [exact R1|lia]]|]. destruct O as [(_ & -> & ->)|(_ & N & O)].
    + left. rewrite app_nil_r in I. split; [congruence|now rewrite Q2].
    + right. split; [exists rest; split; [exact N|congruence]|]. intros x. rewrite O, Q2. tauto.
Qed.
Print Assumptions C111_answers_partial.
Corollary C111_after_a_pause : forall ps p,
  (forall r, In r ps -> at_ r + 3000 <= at_ p) -> answer ps p = now_right p.
Proof.
  intros ps p H. destruct (C111_answers_partial ps p) as [E|(_ & q & _ & _ & _ & (r & Hr & _ & T) & _)]; [exact E|].
  apply H in Hr. lia.
Qed.
Print Assumptions C111_after_a_pause.
Corollary C111_changing_commands : forall ps p, always_fresh (cmd p) -> answer ps p = now_right p.
Proof. intros ps p H. destruct (C111_answers_partial ps p) as [E|(K & _)]; [exact E|contradiction]. Qed.
Print Assumptions C111_changing_commands.

(** ** What is shown can be wrong for ever *)
(** [rs] are presses on one line, each less than three seconds after the one before *)
Fixpoint in_time (t : nat) (rs : list press) : Prop :=
  match rs with [] => True | r :: rs => t <= at_ r < t + 3000 /\ in_time (at_ r) rs end.
Lemma press_again l t0 k c p : line p = k -> k <> [] -> ~ always_fresh (cmd p) -> at_ p < t0 + 3000 -> l <> [] ->
  exists c', press_tab ((k, Entry l (t0 + 3000)) :: c) p = (l, (k, Entry l (at_ p + 3000)) :: c').
Proof.
  intros E N D T Nl. unfold press_tab, complete. rewrite E.
  replace (is_dynamic (cmd p)) with false by (symmetry; destruct (is_dynamic (cmd p)) eqn:Z; [apply is_dynamic_iff in Z; contradiction|reflexivity]).
  replace (is_nil k) with false by (destruct k; [contradiction|reflexivity]). cbn [orb].
  assert (V : live (at_ p) (Entry l (t0 + 3000)) = true) by (apply Nat.ltb_lt; exact T).
  assert (Lk : lookup text (at_ p) k ((k, Entry l (t0 + 3000)) :: c) = Some (k, l, true)).
  { unfold lookup, longest_live. rewrite get_head, V, get_head. reflexivity. }
  rewrite Lk. cbn [orb]. unfold extend, purge. cbn [filter snd]. rewrite V. cbn [map fst snd]. rewrite str_eqb_refl.
  eexists. reflexivity.
Qed.
Theorem C111_stale_refuted : forall first rs p,
  line first <> [] -> ~ always_fresh (cmd first) -> now_right first <> [] ->
  (forall r, In r (rs ++ [p]) -> line r = line first /\ cmd r = cmd first) ->
  in_time (at_ first) (rs ++ [p]) ->
  answer (first :: rs) p = now_right first.
Proof.
  intros first rs p N D Nl Hall Hin.
  assert (E : exists c, after [first] = (line first, Entry (now_right first) (at_ first + 3000)) :: c).
  { unfold after. cbn [fold_left]. unfold press_tab, complete, lookup, longest_live, get. cbn [find option_map].
    replace (is_dynamic (cmd first)) with false by (symmetry; destruct (is_dynamic (cmd first)) eqn:Z; [apply is_dynamic_iff in Z; contradiction|reflexivity]).
    destruct (line first) as [|x r] eqn:Ex; [contradiction|]. cbn [is_nil orb].
    assert (Sh : forall n, shorter (A:=cand) (at_ first) (x :: r) [] n = None) by (induction n as [|n IH]; cbn; auto).
    rewrite Sh. cbn [option_map]. replace (is_nil (now_right first)) with false by (destruct (now_right first); [contradiction|reflexivity]).
    eexists. reflexivity. }
  assert (G : forall c t, after (first :: rs) = fold_left (fun c p => snd (press_tab c p)) rs ((line first, Entry (now_right first) (t + 3000)) :: c) ->
    in_time t (rs ++ [p]) -> answer (first :: rs) p = now_right first).
  { unfold answer. generalize (after (first :: rs)). clear E Hin. induction rs as [|r rs IH]; intros fin c t -> Ht.
    - cbn [fold_left]. destruct (Hall p) as (Hl & Hc); [now left|]. destruct Ht as (Ht & _).
      destruct (press_again (now_right first) t (line first) c p Hl N) as (c' & ->); [now rewrite Hc|lia|exact Nl|reflexivity].
    - cbn [app] in Ht. destruct Ht as (Ht & Ht').
      destruct (Hall r) as (Hl & Hc); [now left|].
      destruct (press_again (now_right first) t (line first) c r Hl N) as (c' & Ec); [now rewrite Hc|lia|exact Nl|].
      apply (IH (fun x Hx => Hall x (or_intror Hx)) _ c' (at_ r)); [|exact Ht']. cbn [fold_left]. now rewrite Ec. }
  destruct E as (c & E). apply (G c (at_ first)); [|exact Hin]. unfold after. cbn [fold_left]. unfold after in E. cbn [fold_left] in E. now rewrite E.
Qed.
Print Assumptions C111_stale_refuted.
(** pressing Tab every two seconds shows the file that is long gone, for any number of presses *)
Example C111_stale_example : forall n,
  let old := Press 0 (lit "cat ") (lit "cat") [Cand (lit "gone") File 50] in
  let later i := Press (2000 * S i) (lit "cat ") (lit "cat") [Cand (lit "new") File 50] in
  answer (old :: map later (seq 0 n)) (later n) = [Cand (lit "gone") File 50].
Proof.
  intros n old later. apply (C111_stale_refuted old (map later (seq 0 n)) (later n)).
  - discriminate.
  - intros H. assert (Z : is_dynamic (lit "cat") = true) by now apply is_dynamic_iff. discriminate Z.
  - discriminate.
  - intros r Hr. apply in_app_or in Hr as [Hr|[<-|[]]]; [|split; reflexivity]. apply in_map_iff in Hr as (i & <- & _). split; reflexivity.
  - replace (map later (seq 0 n) ++ [later n]) with (map later (seq 0 (S n))) by (rewrite seq_S, map_app; reflexivity).
    assert (K : forall m s, in_time (2000 * s) (map later (seq s m))).
    { induction m as [|m IH]; intros s; [exact I|]. cbn [seq map in_time]. split; [|apply IH]. unfold later. cbn [at_]. lia. }
    exact (K (S n) 0).
Qed.

(** Candidates of one word are shown for another one: the answer to [q] is searched for the last
    word of every longer line typed within three seconds. *)
Theorem C111_other_word_refuted : forall q p rest,
  line q <> [] -> ~ always_fresh (cmd q) -> ~ always_fresh (cmd p) -> rest <> [] -> line p = line q ++ rest ->
  at_ p < at_ q + 3000 ->
  (exists x, In x (now_right q) /\ still_fits (line p) (text x)) ->
  forall x, In x (answer [q] p) <-> In x (now_right q) /\ still_fits (line p) (text x).
Proof.
  intros q p rest N Dq Dp Nr El T (x0 & X1 & X2).
  assert (Nl : now_right q <> []) by (intros Z; rewrite Z in X1; contradiction).
  assert (Hdyn : forall p, ~ always_fresh (cmd p) -> is_dynamic (cmd p) = false).
  { intros y Hy. destruct (is_dynamic (cmd y)) eqn:Z; [apply is_dynamic_iff in Z; contradiction|reflexivity]. }
  assert (E : after [q] = [(line q, Entry (now_right q) (at_ q + 3000))]).
  { unfold after. cbn [fold_left]. unfold press_tab, complete, lookup, longest_live, get. cbn [find option_map]. rewrite Hdyn by assumption.
    destruct (line q) as [|x r] eqn:Ex; [contradiction|]. cbn [is_nil orb].
    assert (Sh : forall n, shorter (A:=cand) (at_ q) (x :: r) [] n = None) by (induction n as [|n IH]; cbn; auto).
    rewrite Sh. cbn [option_map]. replace (is_nil (now_right q)) with false by (destruct (now_right q); [contradiction|reflexivity]).
    reflexivity. }
  unfold answer, press_tab, complete. rewrite E, (Hdyn p Dp).
  assert (Np : line p <> []) by (rewrite El; destruct (line q); [contradiction|discriminate]).
  replace (is_nil (line p)) with false by (destruct (line p); [contradiction|reflexivity]). cbn [orb].
  assert (L : lookup text (at_ p) (line p) [(line q, Entry (now_right q) (at_ q + 3000))] =
    Some (line q, filter (fun x => starts_with (line p) (text x) || (negb (str_eqb (last_token (line p)) []) && starts_with (last_token (line p)) (text x))) (now_right q), false)).
  { assert (V : live (at_ p) (Entry (now_right q) (at_ q + 3000)) = true) by (apply Nat.ltb_lt; exact T).
    assert (NE : forall m, m <= length (line p) -> firstn m (line p) = line q -> m = length (line q)).
    { intros m Hm Z. apply (f_equal (@length _)) in Z. rewrite firstn_length_le in Z by exact Hm. exact Z. }
    assert (Lp : length (line p) = length (line q) + length rest) by (rewrite El; apply app_length).
    assert (Lr : 0 < length rest) by (destruct rest; [contradiction|cbn; lia]).
    assert (G : forall k, get [(line q, Entry (now_right q) (at_ q + 3000))] k = if str_eqb (line q) k then Some (Entry (now_right q) (at_ q + 3000)) else None).
    { intros k. unfold get. cbn [find fst]. destruct (str_eqb (line q) k); reflexivity. }
    assert (Sh : forall d, shorter (at_ p) (line p) [(line q, Entry (now_right q) (at_ q + 3000))] (length (line q) + d) = Some (line q) \/ length (line p) < length (line q) + d).
    { induction d as [|d IH].
      - left. rewrite Nat.add_0_r. assert (F : firstn (length (line q)) (line p) = line q) by (rewrite El, firstn_app, Nat.sub_diag, firstn_all; cbn; apply app_nil_r).
        destruct (length (line q)) as [|m] eqn:Lq; [destruct (line q); [contradiction|discriminate]|]. cbn [shorter].
        rewrite F, G, str_eqb_refl, V. reflexivity.
      - destruct (Nat.lt_ge_cases (length (line p)) (length (line q) + S d)) as [Hd|Hd]; [now right|left].
        destruct IH as [IH|IH]; [|lia]. replace (length (line q) + S d) with (S (length (line q) + d)) by lia. cbn [shorter].
 rewrite G.
        destruct (str_eqb_spec (line q) (firstn (S (length (line q) + d)) (line p))) as [Z|Z]; [|exact IH].
        symmetry in Z. apply NE in Z; lia. }
    unfold lookup, longest_live. rewrite G. destruct (str_eqb_spec (line q) (line p)) as [Z|Z].
    { apply (f_equal (@length _)) in Z. lia. }
    assert (S1 := Sh (length rest - 1)).
    replace (length (line p) - 1) with (length (line q) + (length rest - 1)) by lia.
    destruct S1 as [S1|S1]; [|lia]. destruct (line p) as [|y l] eqn:Ep; [contradiction|]. rewrite S1. cbn [option_map]. rewrite G, str_eqb_refl. reflexivity. }
  rewrite L. cbn [orb].
  set (l := filter _ _). assert (Hx : In x0 l) by (apply filter_In; split; [exact X1|now apply fits_iff]).
  replace (is_nil l) with false by (destruct l; [contradiction|reflexivity]). cbn [negb fst]. intros x. unfold l. rewrite filter_In, fits_iff. tauto.
Qed.
Print Assumptions C111_other_word_refuted.
(** the subcommands of cargo, asked for one second ago, are offered as arguments of one of them *)
Example C111_other_word_example :
  answer [Press 0 (lit "cargo ") (lit "cargo") [Cand (lit "build") SubCommand 100; Cand (lit "bench") SubCommand 100; Cand (lit "test") SubCommand 100]]
         (Press 1000 (lit "cargo test b") (lit "cargo") [Cand (lit "bar_test") Argument 50])
  = [Cand (lit "build") SubCommand 100; Cand (lit "bench") SubCommand 100].
Proof. vm_compute. reflexivity. Qed.
