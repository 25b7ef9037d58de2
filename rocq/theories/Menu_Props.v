(** C110: the list shown has every candidate once, the best first, and leaves out only the last.
    C114: what was used before comes first. *)
From Verif Require Import Base Menu_Model Menu_Spec Menu_Proofs.
From Verif Require Frecency_Model Frecency_Proofs.
From Coq Require Import Sorted Permutation.

Lemma firstn_in {A} n (l : list A) x : In x (firstn n l) -> In x l.
Proof. intros H. rewrite <- (firstn_skipn n l). apply in_or_app. now left. Qed.
Lemma firstn_sorted {A} (R : A -> A -> Prop) n l : StronglySorted R l -> StronglySorted R (firstn n l).
Proof.
  intros H. revert n. induction H as [|x l H IH F]; intros [|n]; cbn; try constructor; auto.
  rewrite Forall_forall in *. intros y Hy. apply F. eapply firstn_in; eauto.
Qed.
Lemma firstn_nodup {A} n (l : list A) : NoDup l -> NoDup (firstn n l).
Proof.
  intros H. revert n. induction H as [|x l H N IH]; intros [|n]; cbn; constructor; auto.
  intros K. apply H. eapply firstn_in; eauto.
Qed.
Lemma strict_sorted l : NoDup (map text l) -> StronglySorted (fun a b => before_kind a b = true) l -> StronglySorted above l.
Proof.
  intros N H. induction H as [|x l H IH F]; constructor; inversion N as [|? ? N1 N2]; subst.
  - now apply IH.
  - rewrite Forall_forall in *. intros y Hy. specialize (F y Hy). apply before_kind_iff in F as [F|(_ & _ & F)]; [exact F|].
    exfalso. apply N1. rewrite F. now apply in_map.
Qed.

Section Menu.
Variables (command : option str) (history : option (list str)) (cs : list cand).
Let sorted := Frecency_Model.sort before_text (with_history command history cs).
Let all := Frecency_Model.sort before_kind (retain [] sorted).
Lemma all_perm : Permutation (retain [] sorted) all.
Proof. apply Frecency_Proofs.sort_perm. Qed.
Lemma sorted_in x : In x sorted <-> exists c, In c cs /\ x = lifted command history c.
Proof.
  unfold sorted. split.
  - intros H. apply (Permutation_in _ (Permutation_sym (Frecency_Proofs.sort_perm _ _))) in H.
    rewrite with_history_map in H. apply in_map_iff in H as (c & E & H). eauto.
  - intros (c & H & ->). apply (Permutation_in _ (Frecency_Proofs.sort_perm _ _)).
    rewrite with_history_map. now apply in_map.
Qed.
Lemma sorted_ordered : Frecency_Proofs.ordered before_text sorted.
Proof. apply Frecency_Proofs.sort_ordered; [apply before_text_total|apply before_text_trans]. Qed.
Lemma all_ordered : Frecency_Proofs.ordered before_kind all.
Proof. apply Frecency_Proofs.sort_ordered; [apply before_kind_total|apply before_kind_trans]. Qed.
Lemma all_nodup : NoDup (map text all).
Proof. eapply Permutation_NoDup; [apply Permutation_map, all_perm|apply retain_nodup]. Qed.
Lemma all_has c : In c cs ->
  exists x, In x all /\ text x = text c /\ (score (lifted command history c) <= score x)%N.
Proof.
  intros H. assert (T : text (lifted command history c) = text c) by (unfold lifted; destruct history; reflexivity).
  destruct (retain_first before_text sorted before_text_total sorted_ordered [] (lifted command history c)) as (x & Hx & Tx & L).
  - apply sorted_in. eauto.
  - intros [].
  - exists x. split; [|split].
    + eapply Permutation_in; [apply all_perm|exact Hx].
    + congruence.
    + destruct L as [->|L]; [lia|]. apply before_text_iff in L as [L|(L & _)]; lia.
Qed.
Lemma all_from x : In x all -> exists c, In c cs /\ x = lifted command history c.
Proof. intros H. apply (Permutation_in _ (Permutation_sym all_perm)), retain_sub in H. now apply sorted_in. Qed.
End Menu.

(** ** C110 *)
Theorem C110_menu : forall command history max cs, Forall (fun c => score c < 2 ^ 32)%N cs ->
  let shown := menu command history max cs in
  NoDup (map text shown) /\
  StronglySorted above shown /\
  length shown <= max /\
  (forall x, In x shown -> exists c, In c cs /\ listed_as command history c x) /\
  (forall c y x, In c cs -> listed_as command history c y -> In x shown -> text x = text c -> (score y <= score x)%N) /\
  (forall c y, In c cs -> listed_as command history c y ->
     In (text c) (map text shown) \/
     length shown = max /\ forall x, In x shown -> (score y <= score x)%N).
Proof.
  intros command history max cs F shown. rewrite Forall_forall in F.
  assert (F' : forall c, In c cs -> fits c) by (intros c H; apply F in H; unfold fits, u32_max; change (2 ^ 32)%N with 4294967296%N in H; lia).
  set (all := Frecency_Model.sort before_kind (retain [] (Frecency_Model.sort before_text (with_history command history cs)))).
  assert (E : shown = firstn max all) by reflexivity. clearbody shown. subst shown.
  assert (ND := all_nodup command history cs). fold all in ND.
  split; [|split; [|split; [|split; [|split]]]].
  - rewrite <- firstn_map. now apply firstn_nodup.
  - apply firstn_sorted, strict_sorted; [exact ND|]. apply ordered_strong, all_ordered.
  - apply firstn_le_length.
  - intros x H. apply firstn_in, all_from in H as (c & H & ->). exists c. split; [exact H|]. apply lifted_ok. auto.
  - intros c y x H L Hx T. rewrite (listed_fun _ _ _ _ _ L (lifted_ok command history c (F' c H))).
    destruct (all_has command history cs c H) as (z & Hz & Tz & S). fold all in Hz.
    assert (x = z); [|now subst]. apply firstn_in in Hx. clear - ND Hx Hz T Tz. rewrite <- Tz in T. clear Tz.
    induction all as [|a l IH]; [contradiction|]. inversion ND as [|? ? N1 N2]; subst.
    destruct Hx as [->|Hx], Hz as [->|Hz]; [reflexivity| | |now apply IH].
    + exfalso. apply N1. rewrite T. now apply in_map.
    + exfalso. apply N1. rewrite <- T. now apply in_map.
  - intros c y H L. rewrite (listed_fun _ _ _ _ _ L (lifted_ok command history c (F' c H))).
    destruct (all_has command history cs c H) as (z & Hz & Tz & S). fold all in Hz.
    rewrite <- (firstn_skipn max all) in Hz. apply in_app_or in Hz as [Hz|Hz].
    + left. rewrite <- Tz. now apply in_map.
    + right. split.
      * apply firstn_length_le. destruct (Nat.le_gt_cases max (length all)) as [K|K]; [exact K|].
        rewrite skipn_all2 in Hz by lia. contradiction.
      * intros x Hx. assert (B := Frecency_Proofs.ordered_split before_kind all max (all_ordered command history cs) x z Hx Hz).
        apply before_kind_iff in B as [[B|(B & _)]|(B & _)]; lia.
Qed.
Print Assumptions C110_menu.
Example C110_example :
  menu (Some (lit "git")) (Some [lit "git checkout main"]) 2
    [Cand (lit "commit") SubCommand 50; Cand (lit "main") Argument 10; Cand (lit "commit") Argument 60; Cand (lit "zzz") File 1] =
  [Cand (lit "main") Argument 520; Cand (lit "commit") Argument 60].
Proof. vm_compute. reflexivity. Qed.

(** ** C114 *)
(** [a] was used in every line in which [b] was used *)
Lemma points_mono command a b l n m : (has_word b l -> has_word a l) -> points command a l n -> points command b l m -> m <= n.
Proof. intros H [H1|H1 H2|H1 H2] [K1|K1 K2|K1 K2]; try lia; tauto. Qed.
Inductive total (command : option str) (w : str) : list str -> nat -> Prop :=
| T_nil : total command w [] 0
| T_cons l ls n t : points command w l n -> total command w ls t -> total command w (l :: ls) (n + t).
Lemma total_ex command w ls : exists t, total command w ls t.
Proof.
  induction ls as [|l ls (t & IH)]; [exists 0; constructor|]. exists (line_points command w l + t). constructor; [apply line_points_ok|exact IH].
Qed.
Lemma total_collected command w ls t : total command w ls t -> forall s, s + t <= 5000 -> collected command w ls s (s + t).
Proof.
  induction 1 as [|l ls n t P T IH]; intros s H.
  - rewrite Nat.add_0_r. constructor.
  - apply (More _ _ _ _ _ n); [lia|exact P|]. rewrite Nat.add_assoc. apply IH. lia.
Qed.
Lemma total_mono command a b ls t u : (forall l, In l ls -> has_word b l -> has_word a l) -> total command a ls t -> total command b ls u -> u <= t.
Proof.
  intros H Ta. revert u H. induction Ta as [|l ls n t P T IH]; intros u H Tb; inversion Tb as [|? ? m v Q U]; subst; [lia|].
  assert (m <= n) by (eapply points_mono; [|exact P|exact Q]; apply H; now left).
  assert (v <= t) by (apply IH; [intros l' H'; apply H; now right|exact U]). lia.
Qed.
Lemma total_strict command a b ls t u : (forall l, In l ls -> has_word b l -> has_word a l) ->
  (exists l, In l ls /\ has_word a l /\ ~ has_word b l) -> total command a ls t -> total command b ls u -> u < t.
Proof.
  intros H (l & Hl & A & B) Ta. revert u H Hl. induction Ta as [|x ls n t P T IH]; intros u H Hl Tb; [contradiction|].
  inversion Tb as [|? ? m v Q U]; subst.
  assert (m <= n) by (eapply points_mono; [|exact P|exact Q]; apply H; now left).
  assert (v <= t) by (eapply total_mono; [|exact T|exact U]; intros y Hy; apply H; now right).
  destruct Hl as [->|Hl].
  - assert (m = 0) by (inversion Q; tauto). assert (0 < n) by (inversion P; [tauto|lia|lia]). lia.
  - assert (v < t) by (apply IH; [intros y Hy; apply H; now right|exact Hl|exact U]). lia.
Qed.

(** Of two candidates of the same kind with the same priority, the one that was used wherever the
    other was, and once more, is listed first, as long as its points stay below the limit and
    only one candidate has each text. *)
Theorem C114_used_first_partial : forall command h max cs a b t,
  Forall (fun c => score c < 2 ^ 31)%N cs -> NoDup (map text cs) ->
  In a cs -> In b cs -> what a = what b -> score a = score b -> may_be_boosted a ->
  let recent := firstn 2000 (rev h) in
  (forall l, In l recent -> has_word (text b) l -> has_word (text a) l) ->
  (exists l, In l recent /\ has_word (text a) l /\ ~ has_word (text b) l) ->
  total command (text a) recent t -> t <= 5000 ->
  let shown := menu command (Some h) max cs in
  forall y, In y shown -> text y = text b -> exists x l m r, text x = text a /\ shown = l ++ x :: m ++ y :: r.
Proof.
  intros command h max cs a b t F ND Ha Hb W S MB recent Hall Hsome Ta Lt shown y Hy Ty.
  rewrite Forall_forall in F. change (2 ^ 31)%N with 2147483648%N in F.
  assert (F' : Forall (fun c => score c < 2 ^ 32)%N cs).
  { apply Forall_forall. intros c Hc. apply F in Hc. change (2 ^ 32)%N with 4294967296%N. lia. }
  destruct (C110_menu command (Some h) max cs F') as (P1 & P2 & P3 & P4 & P5 & P6). fold shown in P1, P2, P3, P4, P5, P6.
  destruct (total_ex command (text b) recent) as (u & Tb).
  assert (U : u < t) by (eapply total_strict; eauto).
  assert (La : listed_as command (Some h) a (Cand (text a) (what a) (score a + N.of_nat t))).
  { exists t. split; [|split; [reflexivity|split; [reflexivity|]]].
    - split; [|tauto]. intros _. apply (total_collected _ _ _ _ Ta 0). exact Lt.
    - cbn [score]. apply F in Ha. change (2 ^ 32 - 1)%N with 4294967295%N. lia. }
  assert (Lb : listed_as command (Some h) b (Cand (text b) (what b) (score b + N.of_nat u))).
  { exists u. split; [|split; [reflexivity|split; [reflexivity|]]].
    - split; [|unfold may_be_boosted in *; rewrite <- W; tauto]. intros _. apply (total_collected _ _ _ _ Tb 0). lia.
    - cbn [score]. apply F in Hb. change (2 ^ 32 - 1)%N with 4294967295%N. lia. }
  assert (Uniq : forall c d, In c cs -> In d cs -> text c = text d -> c = d).
  { clear - ND. intros c d Hc Hd T. induction cs as [|x l IH]; [contradiction|]. inversion ND as [|? ? N1 N2]; subst.
    destruct Hc as [->|Hc], Hd as [->|Hd]; [reflexivity| | |now apply IH].
    + exfalso. apply N1. rewrite T. now apply in_map.
    + exfalso. apply N1. rewrite <- T. now apply in_map. }
  assert (Ey : y = Cand (text b) (what b) (score b + N.of_nat u)).
  { destruct (P4 y Hy) as (c & Hc & Lc). assert (c = b).
    { apply Uniq; auto. destruct Lc as (? & _ & E & _). congruence. }
    subst c. eapply listed_fun; eauto. }
  destruct (P6 a _ Ha La) as [Hin|(_ & Hin)].
  - apply in_map_iff in Hin as (x & Tx & Hx).
    assert (Ex : x = Cand (text a) (what a) (score a + N.of_nat t)).
    { destruct (P4 x Hx) as (c & Hc & Lc). assert (c = a).
      { apply Uniq; auto. destruct Lc as (? & _ & E & _). congruence. }
      subst c. eapply listed_fun; eauto. }
    apply in_split in Hx as (l & r & E). rewrite E in Hy, P2. apply in_app_or in Hy as [Hy|[Hy|Hy]].
    + exfalso. clear - P2 Hy Ex Ey U S. induction l as [|z l IH]; [contradiction|]. cbn [app] in P2. inversion P2 as [|? ? P2' Fz]; subst z l0.
      destruct Hy as [->|Hy]; [|now apply IH]. rewrite Forall_forall in Fz.
      assert (A : above y x) by (apply Fz; apply in_or_app; right; now left).
      rewrite Ex, Ey in A. unfold above in A. cbn [score] in A. destruct A as [A|(A & _)]; lia.
    + exfalso. subst x. rewrite Ex in Ey. injection Ey as _ _ Ey. lia.
    + apply in_split in Hy as (m & r' & ->). exists x, l, m, r'. auto.
  - exfalso. specialize (Hin y Hy). rewrite Ey in Hin. cbn [score] in Hin. lia.
Qed.
Print Assumptions C114_used_first_partial.
Example C114_example : exists t,
  let h := [lit "git checkout dev"; lit "git checkout main"; lit "git merge main"] in
  total (Some (lit "git")) (lit "main") (firstn 2000 (rev h)) t /\ t = 1020 /\
  menu (Some (lit "git")) (Some h) 5 [Cand (lit "dev") Argument 10; Cand (lit "main") Argument 10] =
  [Cand (lit "main") Argument 1030; Cand (lit "dev") Argument 520].
Proof.
  exists 1020. cbn zeta. split; [|split; [reflexivity|vm_compute; reflexivity]].
  change (firstn 2000 (rev [lit "git checkout dev"; lit "git checkout main"; lit "git merge main"]))
    with [lit "git merge main"; lit "git checkout main"; lit "git checkout dev"].
  change 1020 with (510 + (510 + (0 + 0))).
  constructor; [|constructor; [|constructor; [|constructor]]].
  - exact (line_points_ok (Some (lit "git")) (lit "main") (lit "git merge main")).
  - exact (line_points_ok (Some (lit "git")) (lit "main") (lit "git checkout main")).
  - exact (line_points_ok (Some (lit "git")) (lit "main") (lit "git checkout dev")).
Qed.

(** At the limit the order turns round: a candidate used in all the lines the other one was used
    in and in more of them is listed below it. *)
Fixpoint numbered (n : nat) : str := match n with 0 => [] | S m => chr "x" :: numbered m end.
(** newest first: nine lines of the command and forty-one of other commands with both, one with
    [a] only, one of the command with both *)
Definition odd_history : list str :=
  rev (map (fun n => lit "git a b " ++ numbered n) (seq 1 9) ++ map (fun n => lit "echo a b " ++ numbered n) (seq 1 41) ++
       [lit "echo a"; lit "git a b"]).
Theorem C114_used_first_refuted :
  (forall l, In l odd_history -> has_word (lit "b") l -> has_word (lit "a") l) /\
  (exists l, In l odd_history /\ has_word (lit "a") l /\ ~ has_word (lit "b") l) /\
  NoDup odd_history /\ length odd_history < 2000 /\
  menu (Some (lit "git")) (Some odd_history) 5 [Cand (lit "a") Argument 10; Cand (lit "b") Argument 10] =
  [Cand (lit "b") Argument 5520; Cand (lit "a") Argument 5020].
Proof.
  split; [|split; [|split; [|split]]].
  - assert (E : forallb (fun l => implb (mem_str (lit "b") (split_whitespace l)) (mem_str (lit "a") (split_whitespace l))) odd_history = true)
      by (vm_compute; reflexivity).
    rewrite forallb_forall in E. intros l Hl Hb. apply E in Hl. unfold has_word in *. apply mem_str_iff in Hb. rewrite Hb in Hl.
    now apply mem_str_iff.
  - exists (lit "echo a"). split; [|split].
    + apply mem_str_iff. vm_compute. reflexivity.
    + apply mem_str_iff. vm_compute. reflexivity.
    + apply mem_str_false. vm_compute. reflexivity.
  - assert (E : (fix nd l := match l with [] => true | x :: r => negb (mem_str x r) && nd r end) odd_history = true) by (vm_compute; reflexivity).
    revert E. generalize odd_history. induction l as [|x l IH]; intros E; constructor; apply andb_prop in E as (E1 & E2); [|now apply IH].
    apply mem_str_false. now apply negb_true_iff.
  - apply Nat.ltb_lt. vm_compute. reflexivity.
  - vm_compute. reflexivity.
Qed.
Print Assumptions C114_used_first_refuted.
