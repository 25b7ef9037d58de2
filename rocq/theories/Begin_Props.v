(** C274: the history while the shell starts. *)
From Verif Require Import Base Begin_Model Begin_Spec.

Lemma filter_none {A} (f : A -> bool) l : (forall x, In x l -> f x = false) -> filter f l = [].
Proof. induction l as [|x l IH]; intros H; [reflexivity|]. cbn. rewrite (H x) by (left; reflexivity). apply IH. intros y I. apply H. right. exact I. Qed.
Lemma filter_every {A} (f : A -> bool) l : (forall x, In x l -> f x = true) -> filter f l = l.
Proof. induction l as [|x l IH]; intros H; [reflexivity|]. cbn. rewrite (H x) by (left; reflexivity). f_equal. apply IH. intros y I. apply H. right. exact I. Qed.
Lemma firstn_both {A} n m (l : list A) : firstn (n + m) l = firstn n l ++ firstn m (skipn n l).
Proof. revert l. induction n as [|n IH]; intros l; [reflexivity|]. destruct l as [|x l]; cbn; [rewrite firstn_nil; reflexivity|]. f_equal. apply IH. Qed.
(** The time of the oldest row of the first part *)
Lemma first_time_spec d n : newest_first d -> firstn n d <> [] ->
  (exists x, In x (firstn n d) /\ snd x = first_time (recent n d)) /\ (forall x, In x (firstn n d) -> (first_time (recent n d) <= snd x)%N).
Proof.
  intros O N. unfold recent. destruct (exists_last N) as (l & x & E). rewrite E, rev_app_distr. cbn [rev app first_time]. split.
  - exists x. split; [apply in_or_app; right; left; reflexivity|reflexivity].
  - intros y I. apply in_app_or in I as [I|[<-|[]]]; [|apply N.le_refl].
    assert (O' : newest_first (l ++ [x])).
    { rewrite <- E. clear -O. revert n. induction d as [|a d IH]; intros n; [rewrite firstn_nil; exact O|]. destruct n as [|n]; [exact Logic.I|]. destruct O as [O1 O2]. cbn. split; [|apply IH, O2].
      intros y I. apply O1. rewrite <- (firstn_skipn n d). apply in_or_app. left. exact I. }
    clear -O' I. induction l as [|a l IH]; [destruct I|]. destruct O' as [O1 O2]. destruct I as [<-|I]; [apply O1, in_or_app; right; left; reflexivity|apply IH; assumption].
Qed.
Lemma split_db (d : list row) : firstn first_part d ++ skipn first_part d = d.
Proof. apply firstn_skipn. Qed.
(** C274: when nothing else happens and times tell the first thousand rows from the others, the history is the ten thousand newest commands, oldest first. *)
Theorem C274_all_partial d : newest_first d -> (forall r, In r d -> (0 < snd r)%N) -> clear_cut d ->
  mem (steps [Swap; Fetch; Prepend] (start d)) = rev (firstn (1000 * 10) d).
Proof.
  intros O P C. unfold steps, start. cbn [fold_left go at_ db queue mem].
  assert (G : forall n m, (forall x y, In x (firstn n d) -> In y (skipn n d) -> (snd y < snd x)%N) -> 0 < n ->
    (if (0 <? first_time (recent n d))%N then older (first_time (recent n d)) m d else []) ++ recent n d = rev (firstn (n + m) d)).
  { intros n m C' Hn. destruct (firstn n d) as [|z zs] eqn:E.
    - assert (D : d = []) by (destruct d; [reflexivity|]; destruct n; [lia|discriminate E]). subst d. unfold recent. rewrite !firstn_nil. reflexivity.
    - assert (E' : firstn n d <> []) by (rewrite E; discriminate). rewrite <- E in C'. destruct (first_time_spec d n O E') as [(x & I & T) L].
      replace (0 <? first_time (recent n d))%N with true.
      2:{ symmetry. apply N.ltb_lt. rewrite <- T. apply P. rewrite <- (firstn_skipn n d). apply in_or_app. left. exact I. }
      unfold older. assert (F : filter (fun r => (snd r <? first_time (recent n d))%N) d = skipn n d).
      { transitivity (filter (fun r => (snd r <? first_time (recent n d))%N) (firstn n d ++ skipn n d)); [rewrite firstn_skipn; reflexivity|].
        rewrite filter_app, filter_none, filter_every; [reflexivity| |].
        - intros y J. apply N.ltb_lt. rewrite <- T. apply C'; assumption.
        - intros y J. apply N.ltb_ge, L, J. }
      rewrite F. unfold recent. rewrite <- rev_app_distr, firstn_both. reflexivity. }
  specialize (G first_part second_part C). assert (H1 : 0 < first_part) by (unfold first_part; lia). specialize (G H1).
  replace (1000 * 10) with (first_part + second_part) by (unfold second_part, first_part; lia).
  rewrite <- G. destruct (0 <? first_time (recent first_part d))%N; cbn [go at_ mem]; reflexivity.
Qed.
(** Refuted without that: of the rows after the thousandth, those of the same second as it are left out. *)
Theorem C274_tie_refuted d r : newest_first d -> NoDup d -> In r (skipn 1000 d) -> (exists x, In x (firstn 1000 d) /\ snd x = snd r) ->
  ~ In r (mem (steps [Swap; Fetch; Prepend] (start d))).
Proof.
  intros O ND I (x & X & T) H. unfold steps, start in H. cbn [fold_left go at_ db queue mem] in H. change 1000 with first_part in I, X.
  assert (E : firstn first_part d <> []) by (intros E; rewrite E in X; destruct X).
  destruct (first_time_spec d first_part O E) as [_ L].
  assert (A : ~ In r (recent first_part d)).
  { intros J. unfold recent in J. apply in_rev in J. rewrite <- (split_db d) in ND. clear -ND I J. revert ND I J. generalize (firstn first_part d) as a, (skipn first_part d) as b.
    intros a b ND I J. induction a as [|y a IH]; [destruct J|]. cbn in ND. apply NoDup_cons_iff in ND as [N1 N2]. destruct J as [->|J]; [|apply IH; assumption].
    apply N1, in_or_app. right. exact I. }
  destruct (0 <? first_time (recent first_part d))%N; cbn [go at_ mem] in H; [|exact (A H)].
  apply in_app_or in H as [H|H]; [|exact (A H)]. unfold older in H. apply in_rev in H.
  assert (K : In r (filter (fun r0 => (snd r0 <? first_time (recent first_part d))%N) d)).
  { rewrite <- (firstn_skipn second_part (filter _ d)). apply in_or_app. left. exact H. }
  apply filter_In in K as [_ K]. apply N.ltb_lt in K. specialize (L x X). lia.
Qed.

(** ** Commands run meanwhile *)
Lemma place_in r d x : In x (place r d) <-> x = r \/ In x d.
Proof.
  induction d as [|y d IH]; cbn [place].
  - cbn. split; [intros [H|[]]; auto|intros [H|[]]; auto].
  - destruct (snd y <=? snd r)%N; cbn [In]; [|rewrite IH]; split; intros H; repeat (destruct H as [H|H]); auto.
Qed.
Lemma not_of_iff c r : not_of c r = true <-> fst r <> c.
Proof. unfold not_of. destruct (str_eqb_spec (fst r) c); cbn; split; congruence. Qed.
Lemma ready_go s e : ready s -> ready (go s e).
Proof.
  unfold ready. intros R. destruct e; cbn [go]; [exact R| | | |].
  - destruct (queue s); exact R.
  - destruct (at_ s) eqn:E; [congruence| | |]; congruence.
  - destruct (at_ s) eqn:E; try congruence. cbn. destruct (0 <? first)%N; discriminate.
  - destruct (at_ s) eqn:E; try congruence. cbn. discriminate.
Qed.
(** What is known of a command that was run: it is in memory, and in the table or on its way to it, and no other row of it is on the way. *)
Definition held (c : str) (t : N) (s : state) : Prop :=
  In (c, t) (mem s) /\ ((exists a b, queue s = a ++ (c, t) :: b /\ forall u, ~ In (c, u) b) \/ (In (c, t) (db s) /\ forall u, ~ In (c, u) (queue s))).
Lemma held_go c t s e : ready s -> held c t s -> (forall u, e <> Run c u) -> held c t (go s e).
Proof.
  intros R [M Q] NE. destruct e as [c' t'| | | |]; cbn [go].
  - assert (D : c' <> c) by (intros ->; apply (NE t'); reflexivity). split; cbn [mem queue db].
    + unfold add. apply in_or_app. left. apply filter_In. split; [exact M|]. apply not_of_iff. cbn. congruence.
    + destruct (at_ s) eqn:E; [exfalso; apply R; exact E| | |];
      (destruct Q as [(a & b & Q & NB)|[I NB]];
       [left; exists a, (b ++ [(c', t')]); split; [rewrite Q, <- app_assoc; reflexivity|]; intros u J; apply in_app_or in J as [J|[J|[]]]; [exact (NB u J)|congruence]
       |right; split; [exact I|]; intros u J; apply in_app_or in J as [J|[J|[]]]; [exact (NB u J)|congruence]]).
  - destruct (queue s) as [|[c' t'] q] eqn:E; [split; [exact M|rewrite E; exact Q]|]. split; [exact M|]. cbn [queue db].
    destruct Q as [(a & b & Q & NB)|[I NB]].
    + destruct a as [|y a].
      * cbn in Q. injection Q as -> -> ->. right. split; [apply place_in; left; reflexivity|exact NB].
      * cbn in Q. injection Q as <- ->. left. exists a, b. split; [reflexivity|exact NB].
    + right. split; [|intros u J; apply (NB u); right; exact J]. apply place_in. right. apply filter_In. split; [exact I|]. apply not_of_iff. cbn.
      intros ->. apply (NB t'). left. reflexivity.
  - destruct (at_ s) eqn:E; [exfalso; apply R; exact E| | |]; split; assumption.
  - destruct (at_ s) eqn:E; try (split; assumption).
  - destruct (at_ s) eqn:E; try (split; assumption). split; cbn [mem queue db]; [apply in_or_app; right; exact M|exact Q].
Qed.
Lemma held_steps c t es : forall s, ready s -> held c t s -> not_run c es -> held c t (steps es s).
Proof.
  induction es as [|e es IH]; intros s R H N; [exact H|]. cbn [steps fold_left]. apply IH; [apply ready_go, R| |intros u J; apply (N u); right; exact J].
  apply held_go; [exact R|exact H|]. intros u ->. apply (N u). left. reflexivity.
Qed.
(** C274: a command run after the first part was read, at any moment, stays in the history with its time, and in the table once the writer has caught up. *)
Theorem C274_typed d before c t after_ : ready (steps before (start d)) -> not_run c after_ ->
  let s := steps (before ++ Run c t :: after_) (start d) in In (c, t) (mem s) /\ (queue s = [] -> In (c, t) (db s)).
Proof.
  intros R N. cbn zeta. unfold steps. rewrite fold_left_app. cbn [fold_left]. fold (steps before (start d)).
  assert (H : held c t (steps after_ (go (steps before (start d)) (Run c t)))).
  { apply held_steps; [apply ready_go, R| |exact N]. split; cbn [go mem queue db].
    - unfold add. apply in_or_app. right. left. reflexivity.
    - left. unfold ready in R. destruct (at_ (steps before (start d))); [congruence| | |]; eexists; exists []; (split; [reflexivity|intros u []]). }
  destruct H as [M Q]. split; [exact M|]. intros E. destruct Q as [(a & b & Q & _)|[I _]]; [|exact I].
  exfalso. assert (E2 : queue (steps after_ (go (steps before (start d)) (Run c t))) = []) by exact E. rewrite E2 in Q. destruct a; discriminate Q.
Qed.
(** C274: and it is the newest of the history until another one is run. *)
Theorem C274_newest d before c t after_ : ready (steps before (start d)) -> (forall c' u, ~ In (Run c' u) after_) ->
  exists l, mem (steps (before ++ Run c t :: after_) (start d)) = l ++ [(c, t)].
Proof.
  intros R N. unfold steps. rewrite fold_left_app. cbn [fold_left]. fold (steps before (start d)).
  assert (G : forall es s, ready s -> (exists l, mem s = l ++ [(c, t)]) -> (forall c' u, ~ In (Run c' u) es) -> exists l, mem (fold_left go es s) = l ++ [(c, t)]).
  { clear. induction es as [|e es IH]; intros s R (l & M) N; [exists l; exact M|]. cbn [fold_left]. apply IH; [apply ready_go, R| |intros c' u J; apply (N c' u); right; exact J].
    destruct e as [c' t'| | | |]; cbn [go].
    - destruct (N c' t'). left. reflexivity.
    - destruct (queue s); exists l; exact M.
    - destruct (at_ s) eqn:E; [destruct R; exact E| | |]; exists l; exact M.
    - destruct (at_ s); exists l; exact M.
    - destruct (at_ s) as [| |rows|]; [exists l; exact M|exists l; exact M| |exists l; exact M]. exists (rows ++ l). cbn [mem]. rewrite M, app_assoc. reflexivity. }
  apply G; [apply ready_go, R| |exact N]. eexists. reflexivity.
Qed.
(** Refuted for a command run before: it is in neither, whatever happens then. *)
Definition absent (c : str) (s : state) : Prop := (forall u, ~ In (c, u) (db s)) /\ (forall u, ~ In (c, u) (queue s)) /\
  (ready s -> forall u, ~ In (c, u) (mem s)) /\ (forall rows, at_ s = Read rows -> forall u, ~ In (c, u) rows).
Lemma sub_firstn {A} n (l : list A) x : In x (firstn n l) -> In x l.
Proof. intros H. rewrite <- (firstn_skipn n l). apply in_or_app. left. exact H. Qed.
Lemma absent_go c s e : absent c s -> (ready s -> forall u, e <> Run c u) -> absent c (go s e).
Proof.
  intros (D & Q & M & P) N. destruct e as [c' t'| | | |]; cbn [go].
  - split; [exact D|]. cbn [queue mem at_ db]. split; [|split; [|exact P]].
    + intros u J. destruct (at_ s) eqn:E; [exact (Q u J)| | |];
      (apply in_app_or in J as [J|[J|[]]]; [exact (Q u J)|]; apply (N ltac:(unfold ready; rewrite E; discriminate) t'); congruence).
    + intros R u J. unfold ready in R. cbn in R. unfold add in J. apply in_app_or in J as [J|[J|[]]].
      * apply filter_In in J as [J _]. exact (M R u J).
      * apply (N R t'). congruence.
  - destruct (queue s) as [|r q] eqn:E; [unfold absent; rewrite E; auto|]. split; [|split; [|split]]; cbn [queue mem at_ db].
    + intros u J. apply place_in in J as [J|J]; [apply (Q u); left; congruence|]. apply filter_In in J as [J _]. exact (D u J).
    + intros u J. apply (Q u). right. exact J.
    + exact M.
    + exact P.
  - destruct (at_ s) eqn:E; [|unfold absent; rewrite ?E; auto..]. split; [exact D|]. split; [exact Q|]. split; cbn [mem at_]; [|discriminate].
    intros _ u J. unfold recent in J. apply in_rev in J. apply sub_firstn in J. exact (D u J).
  - destruct (at_ s) eqn:E; try (unfold absent; rewrite ?E; auto; fail). split; [exact D|]. split; [exact Q|]. cbn [mem at_]. split.
    + intros _. apply M. unfold ready. rewrite E. discriminate.
    + intros rows H u J. destruct (0 <? first)%N; [|discriminate H]. injection H as <-. unfold older in J. apply in_rev in J. apply sub_firstn in J.
      apply filter_In in J as [J _]. exact (D u J).
  - destruct (at_ s) eqn:E; try (unfold absent; rewrite ?E; auto; fail). split; [exact D|]. split; [exact Q|]. cbn [mem at_]. split; [|discriminate].
    intros _ u J. apply in_app_or in J as [J|J]; [exact (P _ eq_refl u J)|]. apply (M ltac:(unfold ready; rewrite E; discriminate) u J).
Qed.
Theorem C274_lost_refuted d c t after_ : (forall u, ~ In (c, u) d) -> not_run c after_ ->
  let s := steps (Run c t :: Swap :: after_) (start d) in (forall u, ~ In (c, u) (mem s)) /\ (forall u, ~ In (c, u) (db s)).
Proof.
  intros D N. cbn zeta.
  assert (A : absent c (steps [Run c t; Swap] (start d)) /\ ready (steps [Run c t; Swap] (start d))).
  { split; [|cbn; discriminate]. cbn [steps fold_left]. apply absent_go; [|intros _ u; discriminate]. apply absent_go; [|intros R; destruct R; reflexivity].
    split; [exact D|]. split; [intros u []|]. split; [intros R; destruct R; reflexivity|discriminate]. }
  assert (G : forall es s, absent c s -> ready s -> not_run c es -> absent c (steps es s) /\ ready (steps es s)).
  { clear. induction es as [|e es IH]; intros s A R N; [auto|]. cbn [steps fold_left]. apply IH; [|apply ready_go, R|intros u J; apply (N u); right; exact J].
    apply absent_go; [exact A|]. intros _ u ->. apply (N u). left. reflexivity. }
  destruct A as [A R]. destruct (G after_ _ A R N) as [(D' & _ & M & _) R']. split; [apply M, R'|exact D'].
Qed.
(** Refuted: a command of the second part that is run again between the two steps of the thread is in the history twice. *)
Theorem C274_twice_refuted d c t u rows : at_ (steps [Swap; Fetch] (start d)) = Read rows -> In (c, t) rows ->
  let s := steps [Swap; Fetch; Run c u; Prepend] (start d) in exists a b, mem s = a ++ b /\ In (c, t) a /\ In (c, u) b.
Proof.
  intros A I. cbn zeta. unfold steps in *. change (fold_left go [Swap; Fetch; Run c u; Prepend] (start d)) with (go (go (fold_left go [Swap; Fetch] (start d)) (Run c u)) Prepend).
  remember (fold_left go [Swap; Fetch] (start d)) as s. cbn [go at_]. rewrite A. cbn [mem].
  exists rows, (add (c, u) (mem s)). split; [reflexivity|]. split; [exact I|]. unfold add. apply in_or_app. right. left. reflexivity.
Qed.
Example C274_ex : let s := steps [Swap; Fetch; Run (lit "ls") 9; Prepend; Write] (start [(lit "b", 5%N); (lit "ls", 4%N)]) in
  mem s = [(lit "b", 5%N); (lit "ls", 9%N)] /\ db s = [(lit "ls", 9%N); (lit "b", 5%N)].
Proof. vm_compute. auto. Qed.

(** The hypotheses of the two on more than a thousand rows are met. *)
Definition many : list row := map (fun i => ([N.of_nat i], 5%N)) (seq 0 1001).
Example C274_tie_ex : newest_first many /\ NoDup many /\ In ([1000%N], 5%N) (skipn 1000 many) /\ exists x, In x (firstn 1000 many) /\ snd x = 5%N.
Proof.
  split; [|split; [|split]].
  - unfold many. generalize (seq 0 1001). intros l. induction l as [|i l IH]; cbn; [exact Logic.I|]. split; [|exact IH].
    intros y H. apply in_map_iff in H as (j & <- & _). apply N.le_refl.
  - unfold many. generalize (seq_NoDup 1001 0). generalize (seq 0 1001). intros l. induction 1 as [|i l N _ IH]; cbn; constructor; [|exact IH].
    intros H. apply in_map_iff in H as (j & E & J). injection E as E. apply Nat2N.inj in E. subst j. exact (N J).
  - vm_compute. left. reflexivity.
  - exists ([0%N], 5%N). split; [vm_compute; left; reflexivity|reflexivity].
Qed.
Example C274_twice_ex : at_ (steps [Swap; Fetch] (start (many ++ [(lit "ls", 4%N)]))) = Read [(lit "ls", 4%N)].
Proof. vm_compute. reflexivity. Qed.

Print Assumptions C274_all_partial. Print Assumptions C274_tie_refuted. Print Assumptions C274_typed. Print Assumptions C274_newest. Print Assumptions C274_lost_refuted. Print Assumptions C274_twice_refuted.
