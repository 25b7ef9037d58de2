(** Facts about the list of candidates. *)
From Verif Require Import Base Menu_Model Menu_Spec.
From Verif Require Frecency_Model Frecency_Proofs.
From Coq Require Import Sorted Permutation.

(** ** Points from the history *)
Definition line_points (command : option str) (w l : str) : nat :=
  if mem_str w (split_whitespace l) then 10 + context_bonus command l else 0.
Definition step1 (b : bool) (n : nat) (s : nat) : nat := if b && (s <=? score_cap) then s + n else s.

Lemma of_command_bonus command l :
  context_bonus command l = 500 /\ of_command command l \/ context_bonus command l = 0 /\ ~ of_command command l.
Proof.
  unfold context_bonus, of_command. destruct command as [c|].
  - destruct (str_eqb_spec l c) as [->|Hn]; cbn [orb].
    + left. split; [reflexivity|]. exists c. auto.
    + destruct (starts_with (c ++ lit " ") l) eqn:E.
      * apply starts_with_iff in E as [r ->]. left. split; [reflexivity|]. exists c. split; [reflexivity|]. right.
        exists r. now rewrite <- app_assoc.
      * right. split; [reflexivity|]. intros (c' & [= <-] & [->|[r ->]]); [now apply Hn|].
        rewrite app_assoc in E. assert (starts_with (c ++ lit " ") ((c ++ lit " ") ++ r) = true) by (apply starts_with_iff; eauto).
        congruence.
  - right. split; [reflexivity|]. intros (c & H & _). discriminate.
Qed.
Lemma line_points_ok command w l : points command w l (line_points command w l).
Proof.
  unfold line_points. destruct (mem_str w (split_whitespace l)) eqn:E.
  - apply mem_str_iff in E. destruct (of_command_bonus command l) as [(-> & H)|(-> & H)].
    + now constructor 3.
    + now constructor 2.
  - constructor 1. intros H. apply mem_str_iff in H. congruence.
Qed.

Lemma add_token_map bonus t (f : cand -> nat) cs :
  add_token bonus t (map (fun c => (c, f c)) cs) =
  map (fun c => (c, step1 (boosted c && str_eqb (text c) t) (10 + bonus) (f c))) cs.
Proof.
  unfold add_token. rewrite map_map. apply map_ext. intros c. unfold step1.
  destruct (boosted c && str_eqb (text c) t && (f c <=? score_cap)); reflexivity.
Qed.
Lemma add_tokens_map bonus ts : forall seen (f : cand -> nat) cs,
  add_tokens bonus seen ts (map (fun c => (c, f c)) cs) =
  map (fun c => (c, step1 (boosted c && mem_str (text c) ts && negb (mem_str (text c) seen)) (10 + bonus) (f c))) cs.
Proof.
  induction ts as [|t ts IH]; intros seen f cs; cbn [add_tokens].
  - apply map_ext. intros c. unfold step1. cbn [mem_str existsb]. now rewrite andb_false_r.
  - destruct (mem_str t seen) eqn:E.
    + rewrite IH. apply map_ext. intros c. f_equal. f_equal. cbn [mem_str existsb].
      destruct (str_eqb_spec (text c) t) as [->|Hn].
      * rewrite E. cbn. now rewrite !andb_false_r.
      * reflexivity.
    + rewrite add_token_map, (IH (t :: seen) (fun c => step1 (boosted c && str_eqb (text c) t) (10 + bonus) (f c))).
      apply map_ext. intros c. f_equal. cbn [mem_str existsb]. unfold mem_str in *.
      destruct (str_eqb_spec (text c) t) as [->|Hn]; cbn [orb negb].
      * rewrite E. cbn [negb]. rewrite !andb_false_r, !andb_true_r. unfold step1. cbn [andb]. reflexivity.
      * rewrite andb_false_r. unfold step1 at 2. cbn [andb]. reflexivity.
Qed.
Fixpoint own (command : option str) (c : cand) (es : list str) (s : nat) : nat :=
  match es with
  | [] => s
  | e :: r => own command c r (step1 (boosted c && mem_str (text c) (split_whitespace e)) (10 + context_bonus command e) s)
  end.
Lemma own_capped command c es s : boosted c = false \/ score_cap < s -> own command c es s = s.
Proof.
  revert s. induction es as [|e es IH]; intros s H; cbn [own]; [reflexivity|].
  assert (E : step1 (boosted c && mem_str (text c) (split_whitespace e)) (10 + context_bonus command e) s = s).
  { unfold step1. destruct H as [->|H]; [reflexivity|]. apply Nat.leb_gt in H. rewrite H. now rewrite andb_false_r. }
  rewrite E. now apply IH.
Qed.
Lemma scan_map command es : forall (f : cand -> nat) cs,
  scan command es (map (fun c => (c, f c)) cs) = map (fun c => (c, own command c es (f c))) cs.
Proof.
  induction es as [|e es IH]; intros f cs; cbn [scan own]; [reflexivity|].
  rewrite add_tokens_map. cbn [mem_str existsb negb]. 
  rewrite (map_ext (fun c => (c, step1 (boosted c && mem_str (text c) (split_whitespace e) && true) (10 + context_bonus command e) (f c)))
                   (fun c => (c, step1 (boosted c && mem_str (text c) (split_whitespace e)) (10 + context_bonus command e) (f c))))
    by (intros c; now rewrite andb_true_r).
  destruct (all_capped _) eqn:E.
  - unfold all_capped in E. rewrite forallb_forall in E. apply map_ext_in. intros c Hc. f_equal.
    specialize (E _ (in_map _ _ _ Hc)). cbn beta iota in E. symmetry. apply own_capped.
    apply orb_prop in E as [E|E]; [left; now apply negb_true_iff in E|right; now apply Nat.ltb_lt in E].
  - rewrite (IH (fun c => step1 (boosted c && mem_str (text c) (split_whitespace e)) (10 + context_bonus command e) (f c)) cs).
    reflexivity.
Qed.
Lemma own_collected command c : boosted c = true -> forall es s, collected command (text c) es s (own command c es s).
Proof.
  intros Hb. induction es as [|e es IH]; intros s; cbn [own]; [constructor|].
  unfold step1 at 1. rewrite Hb. cbn [andb]. destruct (s <=? score_cap) eqn:E.
  - apply Nat.leb_le in E. rewrite andb_true_r. apply (More _ _ _ _ _ (line_points command (text c) e)); [exact E|apply line_points_ok|].
    unfold line_points. destruct (mem_str (text c) (split_whitespace e)); [apply IH|].
    rewrite Nat.add_0_r. apply IH.
  - apply Nat.leb_gt in E. rewrite andb_false_r. rewrite own_capped by (right; exact E). now constructor.
Qed.
Lemma points_fun command w l n m : points command w l n -> points command w l m -> n = m.
Proof. intros [H|H1 H2|H1 H2] [K|K1 K2|K1 K2]; try reflexivity; tauto. Qed.
Lemma collected_fun command w es s t u : collected command w es s t -> collected command w es s u -> t = u.
Proof.
  intros H. revert u. induction H as [s|l ls s H|l ls s n t H1 H2 H3 IH]; intros u K.
  - now inversion K.
  - inversion K; subst; [reflexivity|lia].
  - inversion K as [|? ? ? K1|? ? ? m ? K1 K2 K3]; subst; [lia|]. apply IH. now rewrite (points_fun _ _ _ _ _ H2 K2).
Qed.
Definition lifted (command : option str) (history : option (list str)) (c : cand) : cand :=
  match history with
  | Some h => Cand (text c) (what c) (saturating_add (score c) (N.of_nat (own command c (firstn scan_limit (rev h)) 0)))
  | None => c
  end.
Lemma with_history_map command history cs : with_history command history cs = map (lifted command history) cs.
Proof.
  unfold with_history, lifted. destruct history as [h|].
  - unfold raise, boosts. rewrite (scan_map command _ (fun _ => 0)), map_map. reflexivity.
  - symmetry. apply map_id.
Qed.
Lemma boosted_iff c : boosted c = true <-> may_be_boosted c.
Proof.
  unfold boosted, may_be_boosted. destruct (what c); split; try discriminate; try (split; discriminate); try reflexivity;
    intros [H1 H2]; congruence.
Qed.
Definition fits (c : cand) : Prop := (score c <= u32_max)%N.
Lemma lifted_ok command history c : fits c -> listed_as command history c (lifted command history c).
Proof.
  intros F. unfold listed_as, lifted, boost. destruct history as [h|].
  - exists (own command c (firstn scan_limit (rev h)) 0). split; [split|split; [|split]]; try reflexivity.
    + intros H. apply own_collected. now apply boosted_iff.
    + intros H. apply own_capped. left. destruct (boosted c) eqn:E; [|reflexivity]. apply boosted_iff in E. tauto.
  - exists 0. cbn [N.of_nat]. split; [reflexivity|split; [reflexivity|split; [reflexivity|]]].
    unfold fits, u32_max in F. rewrite N.add_0_r. symmetry. apply N.min_l. exact F.
Qed.
Lemma listed_fun command history c x y : listed_as command history c x -> listed_as command history c y -> x = y.
Proof.
  intros (n & B1 & T1 & W1 & S1) (m & B2 & T2 & W2 & S2). assert (n = m).
  { unfold boost in *. destruct history as [h|]; [|congruence]. destruct B1 as (P1 & Q1), B2 as (P2 & Q2).
    destruct (boosted c) eqn:E.
    - apply boosted_iff in E. eapply collected_fun; eauto.
    - assert (~ may_be_boosted c) by (rewrite <- boosted_iff; congruence). rewrite Q1, Q2; auto. }
  subst m. destruct x, y; cbn in *; congruence.
Qed.

(** ** Sorting *)
Lemma str_cmp_eq a b : Frecency_Model.str_cmp a b = Eq <-> a = b.
Proof.
  revert b. induction a as [|x a IH]; intros [|y b]; cbn; split; intros H; try discriminate; try reflexivity.
  - destruct (N.compare_spec x y); try discriminate. subst. f_equal. now apply IH.
  - injection H as -> ->. rewrite N.compare_refl. now apply IH.
Qed.
Lemma str_cmp_anti a b : Frecency_Model.str_cmp b a = CompOpp (Frecency_Model.str_cmp a b).
Proof.
  revert b. induction a as [|x a IH]; intros [|y b]; cbn; try reflexivity.
  rewrite (N.compare_antisym x y). destruct (x ?= y)%N; cbn; [apply IH|reflexivity|reflexivity].
Qed.
Definition text_before (a b : str) : Prop := Frecency_Model.str_cmp a b = Lt.
Lemma kind_above_iff a b : kind_above a b <-> sort_order a < sort_order b.
Proof.
  split.
  - intros (l & r & E & Ha & Hb).
    do 9 (destruct l as [|? l]; [cbn [app] in E; subst r; cbn in Ha, Hb; intuition subst; cbn; lia|
      injection E as <- E || discriminate]).
  - intros H. exists (firstn (sort_order a) kinds), (skipn (sort_order a) kinds). split; [symmetry; apply firstn_skipn|].
    destruct a, b; cbn in H; try lia; cbn; intuition.
Qed.
Lemma before_text_iff a b : before_text a b = true <->
  (score b < score a)%N \/ score a = score b /\ (text a = text b \/ text_before (text a) (text b)).
Proof.
  unfold before_text, text_before. destruct (N.compare_spec (score b) (score a)) as [E|E|E].
  - destruct (Frecency_Model.str_cmp (text a) (text b)) eqn:C; split; intros H; try discriminate; try reflexivity.
    + right. split; [congruence|]. left. now apply str_cmp_eq.
    + right. split; [congruence|]. now right.
    + destruct H as [H|(_ & [H|H])]; [lia| |discriminate]. rewrite H in C. rewrite (proj2 (str_cmp_eq _ _) eq_refl) in C. discriminate.
  - split; auto.
  - split; [discriminate|]. intros [H|(H & _)]; lia.
Qed.
Lemma before_kind_iff a b : before_kind a b = true <->
  above a b \/ score a = score b /\ what a = what b /\ text a = text b.
Proof.
  unfold before_kind, above. destruct (N.compare_spec (score b) (score a)) as [E|E|E].
  - destruct (Nat.compare_spec (sort_order (what a)) (sort_order (what b))) as [K|K|K].
    + assert (W : what a = what b) by (destruct (what a), (what b); cbn in K; congruence || discriminate K).
      destruct (Frecency_Model.str_cmp (text a) (text b)) eqn:C; split; intros H; try discriminate; try reflexivity.
      * right. split; [congruence|]. split; [exact W|]. now apply str_cmp_eq.
      * left. right. split; [congruence|]. now right.
      * destruct H as [[H|(_ & [H|(_ & H)])]|(_ & _ & H)]; [lia|apply kind_above_iff in H; lia|discriminate|].
        rewrite H in C. rewrite (proj2 (str_cmp_eq _ _) eq_refl) in C. discriminate.
    + split; [intros _|reflexivity]. left. right. split; [congruence|]. left. now apply kind_above_iff.
    + split; [discriminate|]. intros [[H|(_ & [H|(H & _)])]|(_ & H & _)]; [lia|apply kind_above_iff in H; lia|rewrite H in K; lia|rewrite H in K; lia].
  - split; [intros _; now left; left|reflexivity].
  - split; [discriminate|]. intros [[H|(H & _)]|(H & _)]; lia.
Qed.
Lemma text_before_trans a b c : text_before a b -> text_before b c -> text_before a c.
Proof. apply Frecency_Proofs.str_lt_trans. Qed.
Lemma text_total a b : a = b \/ text_before a b \/ text_before b a.
Proof.
  unfold text_before. rewrite (str_cmp_anti a b). destruct (Frecency_Model.str_cmp a b) eqn:C; cbn; auto.
  left. now apply str_cmp_eq.
Qed.
Lemma before_text_total x y : before_text x y = false -> before_text y x = true.
Proof.
  intros H. apply before_text_iff. destruct (N.lt_trichotomy (score x) (score y)) as [C|[C|C]].
  - now left.
  - right. split; [congruence|]. destruct (text_total (text y) (text x)) as [T|[T|T]]; [auto|auto|].
    assert (before_text x y = true); [|congruence]. apply before_text_iff. auto.
  - assert (before_text x y = true); [|congruence]. apply before_text_iff. auto.
Qed.
Lemma before_text_trans x y z : before_text x y = true -> before_text y z = true -> before_text x z = true.
Proof.
  rewrite !before_text_iff. intros [A|(A1 & A2)] [B|(B1 & B2)]; [left; lia|left; lia|left; lia|]. right. split; [congruence|].
  destruct A2 as [A2|A2], B2 as [B2|B2]; [left; congruence|right; congruence|right; congruence|right]. eapply text_before_trans; eauto.
Qed.
Lemma above_trans x y z : above x y -> above y z -> above x z.
Proof.
  unfold above. intros [A|(A1 & A2)] [B|(B1 & B2)]; [left; lia|left; lia|left; lia|]. right. split; [congruence|].
  rewrite !kind_above_iff in *.
  destruct A2 as [A2|(A2 & A3)], B2 as [B2|(B2 & B3)]; [left; lia|left; congruence|left; congruence|right].
  split; [congruence|]. eapply text_before_trans; eauto.
Qed.
Lemma before_kind_total x y : before_kind x y = false -> before_kind y x = true.
Proof.
  intros H. apply before_kind_iff. assert (N : ~ (above x y \/ score x = score y /\ what x = what y /\ text x = text y)) by (rewrite <- before_kind_iff; congruence).
  unfold above in *. rewrite kind_above_iff in *.
  destruct (N.lt_trichotomy (score x) (score y)) as [C|[C|C]]; [auto| |exfalso; apply N; auto].
  destruct (Nat.lt_trichotomy (sort_order (what x)) (sort_order (what y))) as [D|[D|D]]; [exfalso; apply N; auto 6| |auto 6].
  assert (W : what x = what y) by (destruct (what x), (what y); cbn in D; congruence || discriminate D).
  destruct (text_total (text y) (text x)) as [T|[T|T]]; [right; auto|left; right; auto|].
  exfalso. apply N. left. right. split; [exact C|]. right. auto.
Qed.
Lemma before_kind_trans x y z : before_kind x y = true -> before_kind y z = true -> before_kind x z = true.
Proof.
  rewrite !before_kind_iff. intros [A|(A1 & A2 & A3)] [B|(B1 & B2 & B3)].
  - left. eapply above_trans; eauto.
  - left. unfold above in *. now rewrite <- B1, <- B2, <- B3.
  - left. unfold above in *. now rewrite A1, A2, A3.
  - right. split; [|split]; congruence.
Qed.
Lemma ordered_strong {A} (leb : A -> A -> bool) l : Frecency_Proofs.ordered leb l -> StronglySorted (fun a b => leb a b = true) l.
Proof.
  induction l as [|x l IH]; intros H; constructor.
  - apply IH, H.
  - apply Forall_forall. apply H.
Qed.

(** ** Keeping one of each text *)
Lemma retain_sub seen cs : incl (retain seen cs) cs.
Proof.
  revert seen. induction cs as [|c cs IH]; intros seen x H; cbn [retain] in H; [contradiction|].
  destruct (mem_str (text c) seen); [right; eapply IH; eauto|]. destruct H as [->|H]; [now left|right; eapply IH; eauto].
Qed.
Lemma retain_seen cs : forall seen x, In x (retain seen cs) -> ~ In (text x) seen.
Proof.
  induction cs as [|c cs IH]; intros seen x H; cbn [retain] in H; [contradiction|].
  destruct (mem_str (text c) seen) eqn:E; [eapply IH; eauto|]. destruct H as [->|H].
  - apply mem_str_false. exact E.
  - apply IH in H. intros K. apply H. now right.
Qed.
Lemma retain_nodup cs : forall seen, NoDup (map text (retain seen cs)).
Proof.
  induction cs as [|c cs IH]; intros seen; cbn [retain]; [constructor|].
  destruct (mem_str (text c) seen) eqn:E; [apply IH|]. cbn [map]. constructor; [|apply IH].
  intros H. apply in_map_iff in H as (x & T & H). apply retain_seen in H. apply H. left. congruence.
Qed.
(** the first of its text is kept *)
Lemma retain_first leb cs : (forall x y : cand, leb x y = false -> leb y x = true) -> Frecency_Proofs.ordered leb cs -> forall seen c, In c cs -> ~ In (text c) seen ->
  exists x, In x (retain seen cs) /\ text x = text c /\ (x = c \/ leb x c = true).
Proof.
  intros Tot. induction cs as [|d cs IH]; intros O seen c H Hs; [contradiction|]. cbn [retain].
  destruct O as (O1 & O2). destruct (mem_str (text d) seen) eqn:E.
  - destruct H as [->|H]; [apply mem_str_iff in E; contradiction|]. now apply IH.
  - destruct H as [->|H].
    + exists c. split; [now left|]. auto.
    + destruct (str_eqb_spec (text d) (text c)) as [T|T].
      * exists d. split; [now left|]. auto.
      * destruct (IH O2 (text d :: seen) c H) as (x & Hx & Tx & Lx).
        { intros [K|K]; [now apply T|contradiction]. }
        exists x. split; [now right|]. auto.
Qed.
