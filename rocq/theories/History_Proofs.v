From Verif Require Import Base History_Model History_Spec.

(** * by_last_use *)
Definition neq (c x : str) : bool := negb (str_eqb x c).
Lemma neq_true c x : neq c x = true <-> x <> c.
Proof. unfold neq. rewrite negb_true_iff. apply str_eqb_neq. Qed.
Lemma neq_false c x : neq c x = false <-> x = c.
Proof. unfold neq. rewrite negb_false_iff. apply str_eqb_eq. Qed.

Lemma blu_in c l : In c (by_last_use l) <-> In c l.
Proof.
  induction l as [|x l IH]; simpl; [tauto|]. destruct (in_dec str_eq_dec x l) as [H|H]; simpl; rewrite IH; [|tauto].
  split; [auto|]. intros [<-|?]; auto.
Qed.
Lemma blu_snoc l c : by_last_use (l ++ [c]) = filter (neq c) (by_last_use l) ++ [c].
Proof.
  induction l as [|x l IH]; [reflexivity|]. cbn [app by_last_use].
  destruct (in_dec str_eq_dec x (l ++ [c])) as [H|H]; destruct (in_dec str_eq_dec x l) as [H'|H'].
  - exact IH.
  - apply in_app_iff in H as [H|[<-|[]]]; [contradiction|]. cbn [filter].
    replace (neq c c) with false by (symmetry; apply neq_false; reflexivity). exact IH.
  - exfalso. apply H, in_app_iff. auto.
  - cbn [filter]. replace (neq c x) with true; [cbn [app]; rewrite IH; reflexivity|].
    symmetry. apply neq_true. intros ->. apply H, in_app_iff. right. left. reflexivity.
Qed.
Lemma blu_nodup l : NoDup l -> by_last_use l = l.
Proof.
  induction 1 as [|x l Hx Hl IH]; [reflexivity|]. cbn [by_last_use]. destruct (in_dec str_eq_dec x l); [contradiction|].
  rewrite IH. reflexivity.
Qed.
Lemma blu_NoDup l : NoDup (by_last_use l).
Proof.
  induction l as [|x l IH]; cbn [by_last_use]; [constructor|]. destruct (in_dec str_eq_dec x l); [exact IH|].
  constructor; [rewrite blu_in; assumption|exact IH].
Qed.
(** dropping the head of by_last_use is by_last_use of a suffix *)
Lemma blu_tail x rest q : by_last_use q = x :: rest -> exists p q2, q = p ++ q2 /\ by_last_use q2 = rest.
Proof.
  induction q as [|y q IH]; cbn [by_last_use]; [discriminate|]. destruct (in_dec str_eq_dec y q).
  - intros H. destruct (IH H) as (p & q2 & -> & E). exists (y :: p), q2. auto.
  - intros [= -> E]. exists [x], q. auto.
Qed.
Lemma filter_filter {A} (f g : A -> bool) l : filter f (filter g l) = filter (fun x => g x && f x) l.
Proof. induction l as [|x l IH]; simpl; [reflexivity|]. destruct (g x); simpl; [destruct (f x)|]; rewrite ?IH; reflexivity. Qed.
Lemma blu_filter c l : by_last_use (filter (neq c) l) = filter (neq c) (by_last_use l).
Proof.
  induction l as [|x l IH]; [reflexivity|]. cbn [filter by_last_use]. destruct (neq c x) eqn:E.
  - cbn [by_last_use]. destruct (in_dec str_eq_dec x (filter (neq c) l)) as [H|H], (in_dec str_eq_dec x l) as [H'|H'].
    + exact IH.
    + apply filter_In in H. tauto.
    + exfalso. apply H, filter_In. auto.
    + cbn [filter]. rewrite E, IH. reflexivity.
  - rewrite IH. destruct (in_dec str_eq_dec x l); [reflexivity|]. cbn [filter]. rewrite E. reflexivity.
Qed.

(** * one write *)
Lemma position_none {A} (f : A -> bool) l : position f l = None -> forall x, In x l -> f x = false.
Proof.
  induction l as [|y l IH]; simpl; [tauto|]. destruct (f y) eqn:E; [discriminate|].
  destruct (position f l); [discriminate|]. intros _ x [<-|H]; auto.
Qed.
Lemma position_some {A} (f : A -> bool) l n : position f l = Some n ->
  exists a x b, l = a ++ x :: b /\ length a = n /\ f x = true /\ forall y, In y a -> f y = false.
Proof.
  revert n. induction l as [|y l IH]; simpl; intros n; [discriminate|]. destruct (f y) eqn:E.
  - intros [= <-]. exists [], y, l. repeat split; auto. intros z [].
  - destruct (position f l) as [m|]; [|discriminate]. intros [= <-]. destruct (IH m eq_refl) as (a & x & b & -> & <- & H1 & H2).
    exists (y :: a), x, b. repeat split; auto. intros z [<-|H]; auto.
Qed.
Lemma remove_at_mid {A} (a : list A) x b : remove_at (length a) (a ++ x :: b) = a ++ b.
Proof.
  unfold remove_at. rewrite firstn_app, Nat.sub_diag, firstn_all. cbn [firstn]. rewrite app_nil_r. f_equal.
  rewrite skipn_app. replace (S (length a) - length a) with 1 by lia. rewrite skipn_all2 by lia. reflexivity.
Qed.

(** the entries after one write: the first entry with the command goes, a new one is
    appended *)
Lemma write_one_shape lower ctx h c t :
  (exists a e b, hs h = a ++ e :: b /\ cmd e = c /\ (forall y, In y a -> cmd y <> c) /\
     hs (write_one lower ctx h (c, t)) = a ++ b ++ [Entry c t (count e + 1) ctx no_meta]) \/
  ((forall y, In y (hs h) -> cmd y <> c) /\ hs (write_one lower ctx h (c, t)) = hs h ++ [Entry c t 1 ctx no_meta]).
Proof.
  unfold write_one. destruct (position _ (hs h)) as [n|] eqn:E.
  - left. apply position_some in E as (a & e & b & E & <- & H1 & H2). exists a, e, b. split; [exact E|].
    split; [apply str_eqb_eq, H1|]. split; [intros y Hy; apply str_eqb_neq, (H2 y Hy)|].
    cbn [hs]. rewrite E, remove_at_mid, nth_error_app2, Nat.sub_diag by lia. simpl. rewrite app_assoc. reflexivity.
  - right. split; [|reflexivity]. intros y Hy. apply str_eqb_neq. exact (position_none _ _ E y Hy).
Qed.

Definition old_count (c : str) (es : list entry) : Z := match known c es with Some e => count e | None => 0%Z end.

Lemma known_none c es : known c es = None <-> ~ In c (map cmd es).
Proof.
  unfold known. induction es as [|e es IH]; simpl; [tauto|]. destruct (str_eqb_spec (cmd e) c) as [E|E].
  - split; [discriminate|]. intros H. exfalso. auto.
  - rewrite IH. tauto.
Qed.
Lemma known_some c es e : known c es = Some e -> In e es /\ cmd e = c.
Proof. unfold known. intros H. apply find_some in H as [H1 H2]. apply str_eqb_eq in H2. auto. Qed.
Lemma known_app c a b : known c (a ++ b) = match known c a with Some e => Some e | None => known c b end.
Proof. unfold known. induction a as [|e a IH]; simpl; [reflexivity|]. destruct (str_eqb _ _); auto. Qed.
Lemma known_in c es e : NoDup (map cmd es) -> In e es -> cmd e = c -> known c es = Some e.
Proof.
  unfold known. intros H Hi <-. induction es as [|x es IH]; [destruct Hi|]. simpl in *. inversion H as [|? ? A B]; subst.
  destruct (str_eqb_spec (cmd x) (cmd e)) as [E|E].
  - destruct Hi as [->|Hi]; [reflexivity|]. exfalso. apply A. rewrite E. apply in_map, Hi.
  - destruct Hi as [->|Hi]; [congruence|]. auto.
Qed.

Lemma write_one_nodup lower ctx h c t : NoDup (map cmd (hs h)) ->
  hs (write_one lower ctx h (c, t)) =
    filter (fun e => neq c (cmd e)) (hs h) ++ [Entry c t (old_count c (hs h) + 1) ctx no_meta].
Proof.
  assert (Keep : forall l, (forall y, In y l -> cmd y <> c) -> filter (fun e => neq c (cmd e)) l = l).
  { induction l as [|y l IH]; intros H; [reflexivity|]. simpl. rewrite (proj2 (neq_true c (cmd y))) by (apply H; left; reflexivity).
    rewrite IH; [reflexivity|]. intros z Hz. apply H. right. exact Hz. }
  intros Hn. destruct (write_one_shape lower ctx h c t) as [(a & e & b & E & Hc & Ha & ->)|[H ->]].
  - assert (Hb : forall y, In y b -> cmd y <> c).
    { intros y Hy Ey. rewrite E, map_app in Hn. simpl in Hn. apply NoDup_remove_2 in Hn. apply Hn. rewrite Hc, <- Ey.
      apply in_app_iff. right. apply in_map, Hy. }
    rewrite E, filter_app. cbn [filter]. rewrite (proj2 (neq_false c (cmd e)) Hc), !Keep by assumption.
    rewrite <- app_assoc. repeat f_equal. unfold old_count. rewrite known_app.
    replace (known c a) with (@None entry).
    + unfold known. simpl. rewrite Hc, str_eqb_refl. reflexivity.
    + symmetry. apply known_none. intros Hi. apply in_map_iff in Hi as (y & Ey & Hy). exact (Ha y Hy Ey).
  - rewrite Keep by exact H. unfold old_count. replace (known c (hs h)) with (@None entry); [reflexivity|].
    symmetry. apply known_none. intros Hi. apply in_map_iff in Hi as (y & Ey & Hy). exact (H y Hy Ey).
Qed.

Lemma filter_map_cmd c es : map cmd (filter (fun e => neq c (cmd e)) es) = filter (neq c) (map cmd es).
Proof. induction es as [|e es IH]; simpl; [reflexivity|]. destruct (neq c (cmd e)); simpl; rewrite IH; reflexivity. Qed.

Lemma NoDup_filter_ {A} (f : A -> bool) l : NoDup l -> NoDup (filter f l).
Proof. induction 1; simpl; [constructor|]. destruct (f x); [constructor; [rewrite filter_In; tauto|]|]; assumption. Qed.

Lemma write_one_keeps_nodup lower ctx h c t : NoDup (map cmd (hs h)) -> NoDup (map cmd (hs (write_one lower ctx h (c, t)))).
Proof.
  intros H. rewrite write_one_nodup by exact H. rewrite map_app, filter_map_cmd. simpl.
  rewrite <- (blu_nodup _ H), <- blu_snoc. apply blu_NoDup.
Qed.

Lemma write_batch_hs lower ctx batch h :
  hs (write_batch lower ctx batch h) = hs (fold_left (write_one lower ctx) batch (if length (normalized h) =? length (hs h) then h else rebuild lower h)).
Proof. reflexivity. Qed.

(** one write seen through [known] *)
Lemma known_write_one lower ctx h c t c' : NoDup (map cmd (hs h)) ->
  known c' (hs (write_one lower ctx h (c, t))) =
    if str_eqb c c' then Some (Entry c t (old_count c (hs h) + 1) ctx no_meta) else known c' (hs h).
Proof.
  intros H. rewrite write_one_nodup by exact H. rewrite known_app.
  assert (F : known c' (filter (fun e => neq c (cmd e)) (hs h)) = if str_eqb c c' then None else known c' (hs h)).
  { clear H. unfold known. induction (hs h) as [|e es IH]; simpl; [destruct (str_eqb c c'); reflexivity|].
    destruct (neq c (cmd e)) eqn:E; simpl.
    - apply neq_true in E. destruct (str_eqb_spec (cmd e) c') as [E2|E2]; [|exact IH].
      destruct (str_eqb_spec c c') as [->|]; [congruence|reflexivity].
    - apply neq_false in E. rewrite IH. destruct (str_eqb_spec (cmd e) c'), (str_eqb_spec c c'); congruence. }
  rewrite F. unfold known at 2. simpl. destruct (str_eqb_spec c c') as [->|Hc]; [reflexivity|].
  destruct (known c' (hs h)); reflexivity.
Qed.
