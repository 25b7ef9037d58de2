(** C102: the statistics are exact and kept; C103: clearing them, and what is shown. *)
From Coq Require Import Lia Permutation Sorted.
From Verif Require Import Base Timing_Model Timing_Spec.

(** ** The table *)
Lemma get_record c d ok now t c' :
  get c' (record c d ok now t) =
  if str_eqb c c' then Some (match get c t with Some s => record_stats s d ok now | None => new_stats d ok now end) else get c' t.
Proof.
  induction t as [|[x s] t IH]; [cbn; now destruct (str_eqb c c')|]. cbn [record get].
  destruct (str_eqb_spec x c) as [->|Hx]; cbn [get].
  - now destruct (str_eqb c c').
  - rewrite IH. destruct (str_eqb_spec x c') as [->|Hx']; [|reflexivity].
    destruct (str_eqb_spec c c') as [->|_]; [congruence|reflexivity].
Qed.
Lemma record_keys c d ok now t : NoDup (map fst t) -> NoDup (map fst (record c d ok now t)) /\ forall k, In k (map fst (record c d ok now t)) -> k = c \/ In k (map fst t).
Proof.
  induction t as [|[x s] t IH]; intros H; cbn.
  - split; [repeat constructor; intros []|]. intros k [<-|[]]. now left.
  - inversion H as [|? ? Hx Ht]; subst. destruct (str_eqb_spec x c) as [->|Hc]; cbn.
    + split; [constructor; assumption|]. intros k [<-|Hk]; [now left|right; now right].
    + destruct (IH Ht) as [IH1 IH2]. split.
      * constructor; [|exact IH1]. intros Hi. destruct (IH2 x Hi); [congruence|contradiction].
      * intros k [<-|Hk]; [right; now left|]. destruct (IH2 k Hk); [now left|right; now right].
Qed.
Lemma summary_new x : summary [x] (new_stats (took x) (well x) (at_ x)).
Proof.
  repeat split; cbn.
  - lia.
  - destruct H as [<-|[]]. lia.
  - destruct H as [<-|[]]. lia.
  - exists x. split; [now left|reflexivity].
  - exists x. split; [now left|reflexivity].
  - now destruct (well x).
  - exists [], x. split; reflexivity.
Qed.
Lemma summary_more l s x : summary l s -> summary (l ++ [x]) (record_stats s (took x) (well x) (at_ x)).
Proof.
  intros (H1 & H2 & H3 & (xl & H4 & H4') & (xs & H5 & H5') & H6 & _). unfold record_stats, summary. cbn.
  assert (Hb : forall y, In y (l ++ [x]) -> In y l \/ y = x) by (intros y Hy; apply in_app_iff in Hy as [Hy|[Hy|[]]]; auto).
  split; [rewrite app_length; cbn; lia|].
  split; [rewrite map_app, list_sum_app; cbn; lia|].
  split; [intros y Hy; destruct (Hb y Hy) as [Hy'| ->]; [specialize (H3 y Hy')|]; lia|].
  split.
  { destruct (Nat.max_spec (longest s) (took x)) as [[_ E]|[_ E]]; rewrite E.
    - exists x. split; [apply in_or_app; right; now left|reflexivity].
    - exists xl. split; [apply in_or_app; now left|exact H4']. }
  split.
  { destruct (Nat.min_spec (shortest s) (took x)) as [[_ E]|[_ E]]; rewrite E.
    - exists xs. split; [apply in_or_app; now left|exact H5'].
    - exists x. split; [apply in_or_app; right; now left|reflexivity]. }
  split; [rewrite filter_app, app_length; cbn; destruct (well x); cbn; lia|].
  exists l, x. split; reflexivity.
Qed.
Lemma says_nil : says [] [].
Proof. split; [constructor|]. intros c. reflexivity. Qed.
Lemma says_record t l x : says t l -> says (record (what x) (took x) (well x) (at_ x) t) (l ++ [x]).
Proof.
  intros [Hn H]. split; [now apply record_keys|]. intros c. rewrite get_record. unfold of_command. rewrite filter_app. cbn [filter].
  destruct (str_eqb_spec (what x) c) as [<-|Hc].
  - specialize (H (what x)). unfold of_command in H. destruct (get (what x) t) as [s|].
    + now apply summary_more.
    + rewrite H. apply summary_new.
  - rewrite app_nil_r. apply H.
Qed.

(** ** One shell between start and end *)
(** the file says all but the last [dirty_records] executions *)
Definition keeps (t : timing) (f : file) (l : list execution) : Prop :=
  says (tab t) l /\ dirty_records t < 10 /\ (dirty t = false -> dirty_records t = 0) /\
  exists l1 l2, l = l1 ++ l2 /\ length l2 = dirty_records t /\ file_says f l1.
Lemma keeps_saved now t l : says (tab t) l -> keeps (mark_clean now t) (Some (Some (tab t))) l.
Proof.
  intros H. split; [exact H|]. cbn. split; [lia|]. split; [reflexivity|].
  exists l, []. rewrite app_nil_r. split; [reflexivity|]. split; [reflexivity|exact H].
Qed.
Lemma keeps_load now f l : file_says f l -> keeps (load now f) f l.
Proof.
  intros H. destruct f as [[t|]|]; cbn in H; [|destruct H|].
  - split; [exact H|]. cbn. split; [lia|]. split; [reflexivity|]. exists l, []. rewrite app_nil_r. split; [reflexivity|]. split; [reflexivity|exact H].
  - subst l. split; [exact says_nil|]. cbn. split; [lia|]. split; [reflexivity|]. exists [], []. split; [reflexivity|]. split; reflexivity.
Qed.
Lemma keeps_step i e w l : ordinary e -> keeps (shells w i) (stored w) l ->
  keeps (shells (step w (i, e)) i) (stored (step w (i, e))) (l ++ execution_of e).
Proof.
  destruct e as [|c d ok now wr|now wr| |]; try (intros []; fail).
  - destruct wr; try (intros []; fail). intros _ (H1 & H2 & H3 & l1 & l2 & -> & H4 & H5).
    cbn [step execution_of]. set (t := shells w i) in *.
    assert (S : says (record c d ok now (tab t)) ((l1 ++ l2) ++ [Execution c d ok now])) by (apply (says_record (tab t) (l1 ++ l2) (Execution c d ok now) H1)).
    unfold save_if_due, save. cbn [dirty dirty_records last_saved tab].
    set (el := match last_saved t with None => true | Some a => 5000 <=? now - a end).
    destruct (el || (10 <=? dirty_records t + 1)) eqn:E; cbn [write].
    + unfold set_shell. cbn [shells stored]. rewrite Nat.eqb_refl. now apply (keeps_saved now (Timing (record c d ok now (tab t)) true (dirty_records t + 1) (last_saved t))).
    + cbn [shells stored]. unfold set_shell. rewrite Nat.eqb_refl. split; [exact S|]. cbn.
      apply orb_false_iff in E as [_ E]. apply Nat.leb_gt in E. split; [lia|]. split; [discriminate|].
      exists l1, (l2 ++ [Execution c d ok now]). split; [now rewrite app_assoc|]. split; [rewrite app_length; cbn; lia|exact H5].
  - destruct wr; try (intros []; fail). intros _ K. cbn [step execution_of]. rewrite app_nil_r.
    unfold save_if_due, save. destruct (dirty (shells w i)); [destruct (_ || _)|]; cbn [write shells stored]; unfold set_shell; rewrite Nat.eqb_refl; try exact K.
    apply keeps_saved. exact (proj1 K).
Qed.
Lemma keeps_steps i es : forall w l, Forall ordinary es -> keeps (shells w i) (stored w) l ->
  keeps (shells (steps (map (pair i) es) w) i) (stored (steps (map (pair i) es) w)) (l ++ flat_map execution_of es).
Proof.
  induction es as [|e es IH]; intros w l H K; [cbn; now rewrite app_nil_r|]. inversion H; subst. cbn [map flat_map].
  change (steps ((i, e) :: map (pair i) es) w) with (steps (map (pair i) es) (step w (i, e))).
  rewrite app_assoc. apply IH; [assumption|]. now apply keeps_step.
Qed.

(** * C102 *)
(** When one shell at a time is used, every session ends by quitting and writing works,
    the file says exactly what happened, over all sessions. *)
Theorem C102_statistics_are_exact_partial : forall sessions w l,
  Forall (fun s => Forall ordinary (during s)) sessions ->
  file_says (stored w) l ->
  file_says (stored (steps (flat_map events sessions) w)) (l ++ flat_map executions sessions).
Proof.
  induction sessions as [|s sessions IH]; intros w l Hs Hf; [cbn; now rewrite app_nil_r|].
  inversion Hs as [|? ? Hd Hs']; subst. cbn [flat_map]. unfold steps. rewrite fold_left_app, app_assoc. apply IH; [exact Hs'|].
  unfold events. cbn [fold_left]. rewrite fold_left_app. cbn [fold_left].
  set (w1 := step w (shell s, Start (started s))).
  assert (K0 : keeps (shells w1 (shell s)) (stored w1) l).
  { unfold w1. cbn [step shells stored]. unfold set_shell. rewrite Nat.eqb_refl. now apply keeps_load. }
  assert (K := keeps_steps (shell s) (during s) w1 l Hd K0). unfold steps in K. set (w2 := fold_left step _ w1) in *.
  cbn [step]. unfold save. destruct (dirty (shells w2 (shell s))) eqn:D; cbn [write stored].
  - exact (proj1 K).
  - destruct K as (_ & _ & K3 & l1 & l2 & E & K4 & K5). rewrite (K3 D) in K4. destruct l2; [|discriminate K4].
    rewrite app_nil_r in E. unfold executions. rewrite E. exact K5.
Qed.
Print Assumptions C102_statistics_are_exact_partial.

(** A shell that is killed between two events has lost fewer than ten executions, the last
    ones. *)
Theorem C102_killed_shell_loses_few : forall i now es w l,
  Forall ordinary es -> file_says (stored w) l ->
  exists kept lost, l ++ flat_map execution_of es = kept ++ lost /\ length lost < 10 /\
    file_says (stored (steps ((i, Start now) :: map (pair i) es) w)) kept.
Proof.
  intros i now es w l He Hf. cbn [steps fold_left]. set (w1 := step w (i, Start now)).
  assert (K0 : keeps (shells w1 i) (stored w1) l).
  { unfold w1. cbn [step shells stored]. unfold set_shell. rewrite Nat.eqb_refl. now apply keeps_load. }
  destruct (keeps_steps i es w1 l He K0) as (_ & H1 & _ & l1 & l2 & H2 & H3 & H4).
  exists l1, l2. split; [exact H2|]. split; [lia|exact H4].
Qed.
Print Assumptions C102_killed_shell_loses_few.

(** Two shells open at the same time: what the first one to quit recorded is lost. *)
Theorem C102_two_shells_refuted : forall w l i j t1 t2 a b c d ok now q1 q2,
  i <> j -> file_says (stored w) l -> Forall ordinary a -> Forall ordinary b ->
  file_says (stored (steps ([(i, Start t1); (j, Start t2)] ++ map (pair i) a ++ [(i, Quit q1 Written)] ++ map (pair j) (b ++ [Executed c d ok now Written]) ++ [(j, Quit q2 Written)]) w))
            (l ++ flat_map execution_of b ++ [Execution c d ok now]).
Proof.
  intros w l i j t1 t2 a b c d ok now q1 q2 Hij Hf Ha Hb.
  assert (Other : forall es w0, shells (steps (map (pair i) es) w0) j = shells w0 j).
  { induction es as [|e es IH]; intros w0; [reflexivity|]. cbn [map]. change (steps ((i, e) :: map (pair i) es) w0) with (steps (map (pair i) es) (step w0 (i, e))).
    rewrite IH. assert (Z : (j =? i) = false) by (apply Nat.eqb_neq; congruence).
    destruct e; cbn [step]; try (destruct (save_if_due _ _ _ _)); try (destruct (save _ _ _ _)); cbn [shells]; unfold set_shell; rewrite ?Z; reflexivity. }
  unfold steps. cbn [app fold_left]. rewrite fold_left_app. cbn [fold_left].
  set (w1 := step (step w (i, Start t1)) (j, Start t2)).
  set (w2 := fold_left step (map (pair i) a) w1). set (w3 := step w2 (i, Quit q1 Written)).
  rewrite fold_left_app. cbn [fold_left].
  assert (S1 : says (tab (shells w1 j)) l).
  { unfold w1. cbn [step shells stored]. unfold set_shell at 1. rewrite Nat.eqb_refl. cbn [step stored].
    exact (proj1 (keeps_load t2 (stored w) l Hf)). }
  assert (S3 : says (tab (shells w3 j)) l).
  { assert (E : shells w3 j = shells w1 j).
    { transitivity (shells w2 j); [exact (Other [Quit q1 Written] w2)|exact (Other a w1)]. }
    rewrite E. exact S1. }
  assert (Go : forall es v m, Forall ordinary es -> says (tab (shells v j)) m ->
            says (tab (shells (fold_left step (map (pair j) es) v) j)) (m ++ flat_map execution_of es)).
  { induction es as [|e es IH]; intros v m He Hm; [cbn; now rewrite app_nil_r|]. inversion He as [|? ? He1 He2]; subst.
    cbn [map fold_left flat_map]. rewrite app_assoc. apply IH; [exact He2|].
    destruct e as [|c' d' ok' now' wr|now' wr| |]; try (destruct He1; fail).
    - cbn [step execution_of]. assert (R := says_record _ _ (Execution c' d' ok' now') Hm).
      unfold save_if_due, save. cbn [dirty dirty_records last_saved tab]. destruct (_ || _); destruct wr; cbn [write shells]; unfold set_shell; rewrite Nat.eqb_refl; exact R.
    - cbn [step execution_of]. rewrite app_nil_r. unfold save_if_due, save.
      destruct (dirty _); [destruct (_ || _)|]; destruct wr; cbn [write shells]; unfold set_shell; rewrite Nat.eqb_refl; exact Hm. }
  rewrite map_app, fold_left_app. cbn [map fold_left].
  set (w4 := fold_left step (map (pair j) b) w3). assert (S4 : says (tab (shells w4 j)) (l ++ flat_map execution_of b)) by (apply (Go b w3 l Hb S3)).
  assert (S5 := says_record _ _ (Execution c d ok now) S4). rewrite <- app_assoc in S5. cbn [what took well at_] in S5.
  cbn [step]. unfold save_if_due, save. cbn [dirty dirty_records last_saved tab].
  destruct (_ || _); cbn [write shells stored]; unfold set_shell; rewrite !Nat.eqb_refl; cbn [dirty mark_clean write stored tab]; rewrite ?Nat.eqb_refl; exact S5.
Qed.
Print Assumptions C102_two_shells_refuted.

(** A write that is cut short loses everything: the next shell starts from nothing. *)
Theorem C102_interrupted_write_refuted : forall w i j c d ok now q,
  last_saved (shells w i) = None ->
  tab (shells (steps [(i, Executed c d ok now Torn); (j, Start q)] w) j) = [].
Proof.
  intros w i j c d ok now q E. cbn [steps fold_left step]. unfold save_if_due. cbn [dirty last_saved]. rewrite E. cbn.
  unfold set_shell. now rewrite Nat.eqb_refl.
Qed.
Print Assumptions C102_interrupted_write_refuted.
(** and it may not even be noticed *)
Theorem C102_unnoticed_write_refuted : forall w i q1 j q2,
  dirty (shells w i) = true ->
  let w' := steps [(i, Quit q1 Torn_silently)] w in
  dirty (shells w' i) = false /\ tab (shells (steps [(j, Start q2)] w') j) = [].
Proof.
  intros w i q1 j q2 D. cbn [steps fold_left step]. unfold save. rewrite D. cbn. unfold set_shell.
  rewrite !Nat.eqb_refl. split; reflexivity.
Qed.
Print Assumptions C102_unnoticed_write_refuted.

Definition empty_world : world := World (fun _ => Timing [] false 0 None) None.
Definition one_session : session :=
  Session 0 0 [Executed (lit "git") 100 true 1 Written; Executed (lit "ls") 5 true 2 Written; Executed (lit "git") 40 false 3 Written; Tick 9000 Written] 10000.
Example C102_example :
  Forall ordinary (during one_session) /\ file_says (stored empty_world) [] /\
  stored (steps (events one_session) empty_world) = Some (Some [(lit "git", Stats 2 140 100 40 1 3); (lit "ls", Stats 1 5 5 5 0 2)]).
Proof. split; [repeat constructor|]. split; [reflexivity|]. vm_compute. reflexivity. Qed.

(** * C103 *)
(** timing --clear is undone: the shell it is run in still has the old statistics and
    writes them back, at the latest when it quits (running the command is itself an
    execution to be recorded). *)
Theorem C103_clear_refuted : forall w i d ok now q l,
  says (tab (shells w i)) l ->
  file_says (stored (steps [(i, Clear); (i, Executed (lit "timing") d ok now Written); (i, Quit q Written)] w))
            (l ++ [Execution (lit "timing") d ok now]).
Proof.
  intros w i d ok now q l H. cbn [steps fold_left step].
  assert (R := says_record _ _ (Execution (lit "timing") d ok now) H). cbn [what took well at_] in R.
  unfold save_if_due, save. cbn [dirty dirty_records last_saved tab shells stored].
  destruct (_ || _); cbn [write shells stored]; unfold set_shell; rewrite !Nat.eqb_refl; cbn [dirty mark_clean write stored tab]; rewrite ?Nat.eqb_refl; exact R.
Qed.
Print Assumptions C103_clear_refuted.
(** It holds when nothing was recorded by the shells that are open. *)
Theorem C103_clear_partial : forall w i, 
  stored (step w (i, Clear)) = Some (Some []) /\ forall j q, tab (shells (step (step w (i, Clear)) (j, Start q)) j) = [].
Proof. intros w i. split; [reflexivity|]. intros j q. cbn. unfold set_shell. now rewrite Nat.eqb_refl. Qed.
Print Assumptions C103_clear_partial.

(** The commands that failed recently are among the ones shown... *)
Lemma get_in c s t : NoDup (map fst t) -> (get c t = Some s <-> In (c, s) t).
Proof.
  induction t as [|[x y] t IH]; intros H; [split; [discriminate|intros []]|]. cbn. inversion H as [|? ? Hx Ht]; subst.
  destruct (str_eqb_spec x c) as [->|Hc].
  - split; [intros [= ->]; now left|]. intros [[= ->]|Hi]; [reflexivity|]. exfalso. apply Hx. now apply (in_map fst) in Hi.
  - rewrite (IH Ht). split; [now right|]. intros [[= -> _]|Hi]; [congruence|exact Hi].
Qed.
Lemma shown_iff t l hours now c : says t l ->
  (In c (recent_failures hours now t) <->
   (exists x, In x l /\ what x = c /\ well x = false) /\ exists before x, of_command c l = before ++ [x] /\ now - hours < at_ x).
Proof.
  intros [Hn H]. unfold recent_failures. rewrite in_map_iff. specialize (H c). split.
  - intros ([k s] & <- & Hi). apply filter_In in Hi as [Hi Hf]. cbn [fst snd] in *. apply (get_in k s t Hn) in Hi. rewrite Hi in H.
    destruct H as (_ & _ & _ & _ & _ & H6 & b & x & H7 & H8). apply andb_true_iff in Hf as [F1 F2]. apply Nat.ltb_lt in F1, F2. split.
    + rewrite H6 in F1. destruct (filter (fun x => negb (well x)) (of_command k l)) as [|y r] eqn:E; [cbn in F1; lia|].
      assert (Hy : In y (y :: r)) by now left. rewrite <- E in Hy. apply filter_In in Hy as [Hy1 Hy2]. apply filter_In in Hy1 as [Hy1 Hy3].
      apply str_eqb_eq in Hy3. exists y. split; [exact Hy1|]. split; [exact Hy3|]. now destruct (well y).
    + exists b, x. split; [exact H7|]. lia.
  - intros ((x & Hx & Hc & Hw) & b & y & Hl & Ht).
    destruct (get c t) as [s|] eqn:G; [|rewrite H in Hl; destruct b; discriminate Hl].
    exists (c, s). split; [reflexivity|]. apply filter_In. split; [now apply (get_in c s t Hn)|]. cbn [snd].
    destruct H as (_ & _ & _ & _ & _ & H6 & b' & y' & H7 & H8). apply andb_true_iff. split.
    + apply Nat.ltb_lt. rewrite H6. assert (Hi : In x (filter (fun x => negb (well x)) (of_command c l))).
      { apply filter_In. split; [apply filter_In; split; [exact Hx|now apply str_eqb_eq]|now rewrite Hw]. }
      destruct (filter _ _); [destruct Hi|cbn; lia].
    + apply Nat.ltb_lt. rewrite H8. rewrite H7 in Hl. apply app_inj_tail in Hl as [_ ->]. exact Ht.
Qed.
Theorem C103_recent_failures_partial : forall t l hours now x,
  says t l -> In x l -> well x = false -> (forall y b a, l = b ++ y :: a -> In x b -> at_ x <= at_ y) -> now - hours < at_ x ->
  In (what x) (recent_failures hours now t).
Proof.
  intros t l hours now x Hs Hx Hw Ho Ht. apply (shown_iff t l); [exact Hs|]. split; [exists x; auto|].
  assert (Hc : In x (of_command (what x) l)) by (apply filter_In; split; [exact Hx|apply str_eqb_refl]).
  destruct (exists_last (l := of_command (what x) l)) as (b & y & E); [intros E; rewrite E in Hc; destruct Hc|].
  exists b, y. split; [exact E|]. rewrite E in Hc. apply in_app_iff in Hc as [Hb|[<-|[]]]; [|exact Ht].
  assert (Y : at_ x <= at_ y); [|lia].
  (* y is after x in l *)
  clear -E Hb Ho. assert (G : exists u v, l = u ++ y :: v /\ In x u).
  { clear Ho. revert b E Hb. unfold of_command. induction l as [|z l IH]; intros b E Hb; [destruct b; discriminate E|]. cbn [filter] in E.
    destruct (str_eqb (what z) (what x)) eqn:Z.
    - destruct b as [|z' b]; [destruct Hb|]. cbn in E. injection E as <- E. destruct Hb as [->|Hb].
      + assert (Hy : In y l). { assert (In y (b ++ [y])) by (apply in_or_app; right; now left). rewrite <- E in H. now apply filter_In in H. }
        apply in_split in Hy as (u & v & ->). exists (x :: u), v. split; [reflexivity|now left].
      + destruct (IH b E Hb) as (u & v & -> & Hu). exists (z :: u), v. split; [reflexivity|now right].
    - destruct (IH b E Hb) as (u & v & -> & Hu). exists (z :: u), v. split; [reflexivity|now right]. }
  destruct G as (u & v & G1 & G2). exact (Ho y u v G1 G2).
Qed.
Print Assumptions C103_recent_failures_partial.
(** ...and so are commands that failed long ago and work now. *)
Theorem C103_recent_failures_refuted : forall t l hours now x y,
  says t (l ++ [y]) -> In x l -> what x = what y -> well x = false -> well y = true -> now - hours < at_ y ->
  In (what y) (recent_failures hours now t).
Proof.
  intros t l hours now x y Hs Hx He Hw _ Ht. apply (shown_iff t _ hours now _ Hs). split.
  - exists x. split; [apply in_or_app; now left|]. now split.
  - exists (of_command (what y) l), y. split; [|exact Ht]. unfold of_command. rewrite filter_app. cbn. now rewrite str_eqb_refl.
Qed.
Print Assumptions C103_recent_failures_refuted.

(** The slowest and the most frequent commands are shown, in order. *)
Lemma insert_by_perm key x l : Permutation (insert_by key x l) (x :: l).
Proof.
  induction l as [|y l IH]; [reflexivity|]. cbn [insert_by]. destruct (key x <? key y); [|reflexivity].
  rewrite IH. apply perm_swap.
Qed.
Lemma sorted_insert key x l : StronglySorted (fun a b => key b <= key a) l -> StronglySorted (fun a b => key b <= key a) (insert_by key x l).
Proof.
  induction 1 as [|y l Hl IH Hy]; [repeat constructor|]. cbn [insert_by]. destruct (key x <? key y) eqn:E.
  - apply Nat.ltb_lt in E. constructor; [exact IH|]. rewrite Forall_forall in *. intros z Hz.
    apply (Permutation_in _ (insert_by_perm key x l)) in Hz as [<-|Hz]; [lia|now apply Hy].
  - apply Nat.ltb_ge in E. constructor; [now constructor|]. constructor; [exact E|]. rewrite Forall_forall in *. intros z Hz. specialize (Hy z Hz). lia.
Qed.
Theorem C103_top_is_the_top : forall key n all,
  let shown := top key n all in
  StronglySorted (fun a b => key b <= key a) shown /\
  exists hidden, Permutation all (shown ++ hidden) /\ (length shown < n -> hidden = []) /\ length shown <= n /\
    forall a b, In a shown -> In b hidden -> key b <= key a.
Proof.
  intros key n all shown. set (sorted := fold_right (insert_by key) [] all).
  assert (P : Permutation all sorted).
  { unfold sorted. clear shown sorted. induction all as [|x all IH]; [constructor|]. cbn. rewrite insert_by_perm. now constructor. }
  assert (S : StronglySorted (fun a b => key b <= key a) sorted).
  { unfold sorted. clear shown P sorted. induction all as [|x all IH]; [constructor|]. cbn. now apply sorted_insert. }
  assert (Cut : forall (l : list stats) m, StronglySorted (fun a b => key b <= key a) l ->
     StronglySorted (fun a b => key b <= key a) (firstn m l) /\ forall a b, In a (firstn m l) -> In b (skipn m l) -> key b <= key a).
  { induction l as [|y l IH]; intros m Hl; [rewrite firstn_nil, skipn_nil; split; [constructor|intros a b []]|].
    inversion Hl as [|? ? Hl' Hy]; subst. rewrite Forall_forall in Hy. destruct m as [|m]; cbn; [split; [constructor|intros a b []]|].
    destruct (IH m Hl') as [I1 I2]. split.
    - constructor; [exact I1|]. apply Forall_forall. intros z Hz. apply Hy. rewrite <- (firstn_skipn m l). apply in_or_app. now left.
    - intros a b [<-|Ha] Hb; [apply Hy; rewrite <- (firstn_skipn m l); apply in_or_app; now right|now apply I2]. }
  unfold top in shown. fold sorted in shown. destruct (Cut sorted n S) as [C1 C2]. split; [exact C1|].
  exists (skipn n sorted). unfold shown. split; [now rewrite firstn_skipn|]. split; [|split; [|exact C2]].
  - intros Hl. rewrite firstn_length in Hl. apply skipn_all2. lia.
  - rewrite firstn_length. lia.
Qed.
Print Assumptions C103_top_is_the_top.

(** The command a line is counted for is the file name of its first word. *)
Theorem C103_counted_by_file_name : forall gap dirs c rest,
  Forall (fun x => is_whitespace x = true) gap ->
  Forall (fun d => Forall (fun x => is_whitespace x = false /\ x <> chr "/") d) dirs ->
  match c with x :: _ => x <> chr "!" /\ x <> chr "?" | [] => False end ->
  Forall (fun x => is_whitespace x = false /\ x <> chr "/") c ->
  match rest with x :: _ => is_whitespace x = true | [] => True end ->
  command_name (gap ++ flat_map (fun d => d ++ lit "/") dirs ++ c ++ rest) = Some c.
Proof.
  intros gap dirs c rest Hg Hd Hc Hn Hr. set (w := flat_map (fun d => d ++ lit "/") dirs ++ c).
  assert (Hw : Forall (fun x => is_whitespace x = false) w).
  { unfold w. apply Forall_app. split; [|revert Hn; apply Forall_impl; tauto]. clear -Hd.
    induction Hd as [|d dirs Hd _ IH]; [constructor|]. cbn [flat_map]. apply Forall_app. split; [|exact IH].
    apply Forall_app. split; [revert Hd; apply Forall_impl; tauto|repeat constructor]. }
  assert (W0 : w <> []). { unfold w. intros E. apply app_eq_nil in E as [_ ->]. exact Hc. }
  assert (E : exists more, split_whitespace (trim (gap ++ w ++ rest)) = w :: more).
  { assert (T : exists rest', trim (gap ++ w ++ rest) = w ++ rest' /\ match rest' with x :: _ => is_whitespace x = true | [] => True end).
    { unfold trim. assert (T1 : trim_start (gap ++ w ++ rest) = w ++ rest).
      { clear -Hg Hw W0. induction Hg as [|x gap Hx _ IH]; cbn; [|rewrite Hx; exact IH].
        destruct w as [|y w]; [congruence|]. inversion Hw; subst. cbn. now rewrite H1. }
      rewrite T1. destruct (exists_last W0) as (w0 & y & Ew). rewrite Ew in *. apply Forall_app in Hw as [_ Hy]. inversion Hy as [|? ? Hy' _]; subst.
      exists (trim_end rest). split.
      - unfold trim_end. rewrite !rev_app_distr. cbn [rev app].
        induction (rev rest) as [|z r IH]; cbn; [rewrite Hy'; cbn; now rewrite rev_involutive, app_nil_r|].
        destruct (is_whitespace z); [exact IH|]. cbn [rev]. rewrite rev_app_distr. cbn. rewrite rev_involutive, <- !app_assoc. reflexivity.
      - unfold trim_end. destruct rest as [|z r]; [exact I|]. cbn [rev].
        destruct (rev (trim_start (rev r ++ [z]))) as [|u v] eqn:Q; [exact I|].
        assert (Hu : exists k, u :: v = z :: k).
        { clear -Q. revert u v Q. induction (rev r) as [|a k IH]; intros u v Q; cbn in Q.
          - destruct (is_whitespace z); [discriminate Q|]. cbn in Q. injection Q as <- <-. eexists; reflexivity.
          - destruct (is_whitespace a); [now apply IH|]. cbn [rev] in Q. rewrite rev_app_distr in Q. cbn in Q. injection Q as <- <-. eexists; reflexivity. }
        destruct Hu as [k Hu]. injection Hu as -> _. exact Hr. }
    destruct T as (rest' & -> & Hr'). unfold split_whitespace. rewrite split_ws_aux_word by (apply Forall_forall; exact Hw). cbn [app].
    destruct rest' as [|z r].
    - cbn [split_ws_aux]. rewrite app_nil_r. destruct (rev w) eqn:R; [apply (f_equal (@rev char)) in R; rewrite rev_involutive in R; contradiction|].
      exists []. rewrite <- R, rev_involutive. reflexivity.
    - cbn [split_ws_aux]. rewrite Hr', app_nil_r. destruct (rev w) eqn:R; [apply (f_equal (@rev char)) in R; rewrite rev_involutive in R; contradiction|].
      eexists. rewrite <- R, rev_involutive. reflexivity. }
  destruct E as [more E]. unfold command_name. replace (gap ++ flat_map (fun d => d ++ lit "/") dirs ++ c ++ rest) with (gap ++ w ++ rest) by (unfold w; now rewrite <- !app_assoc).
  rewrite E.
  assert (L : List.last (split_on (chr "/") w) w = c).
  { assert (G : forall d, List.last (split_on (chr "/") w) d = c); [|apply G]. unfold w. clear -Hd Hn. induction Hd as [|d dirs Hd _ IH]; intros dflt.
    - cbn [flat_map app]. rewrite split_on_none; [reflexivity|]. intros Hi. rewrite Forall_forall in Hn. now apply (Hn _ Hi).
    - cbn [flat_map]. rewrite <- !app_assoc. change (lit "/" ++ flat_map (fun d0 => d0 ++ lit "/") dirs ++ c) with (chr "/" :: flat_map (fun d0 => d0 ++ lit "/") dirs ++ c).
      rewrite split_on_app. assert (Nn := split_on_nonempty (chr "/") (flat_map (fun d0 => d0 ++ lit "/") dirs ++ c)).
      specialize (IH dflt). destruct (split_on (chr "/") (flat_map (fun d0 => d0 ++ lit "/") dirs ++ c)) as [|p ps] eqn:Sp; [congruence|].
      clear -IH. set (L := split_on (chr "/") d). clearbody L. induction L as [|a L IHL]; [exact IH|]. cbn [app]. destruct (L ++ p :: ps) eqn:Q; [destruct L; discriminate Q|]. cbn [List.last]. cbn [List.last] in IHL. exact IHL. }
  rewrite L. destruct c as [|x c]; [destruct Hc|]. destruct Hc as [H1 H2].
  apply N.eqb_neq in H1, H2. now rewrite H1, H2.
Qed.
Print Assumptions C103_counted_by_file_name.
Example C103_name_example : map command_name (map lit ["  /usr/bin/ls -la"; "./run.sh"; "!help"; "FOO=1 make"; "/usr/bin/"]%string)
  = [Some (lit "ls"); Some (lit "run.sh"); None; Some (lit "FOO=1"); None].
Proof. vm_compute. reflexivity. Qed.
