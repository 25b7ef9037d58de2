(** Lemmas about path resolution. *)
From Verif Require Import Base Fs_Model.

(** a path every part of which is a directory *)
Definition dirpath (f : fs) (p : path) : Prop :=
  forall a b, p = a ++ b -> a = [] \/ (f a = Some KDir).
(** names of a canonical path are never ".." *)
Definition plain (p : path) : Prop := Forall (fun c => str_eqb c dotdot = false) p.
(** a path that resolution returns: directories, then a directory or file *)
Definition real (f : fs) (p : path) : Prop :=
  plain p /\ (dirpath f p \/ exists d c x, p = d ++ [c] /\ dirpath f d /\ f p = Some (KFile x)).

Lemma dirpath_nil f : dirpath f [].
Proof. intros a b H. left. destruct a; [reflexivity|discriminate]. Qed.
Lemma dirpath_snoc f p c : dirpath f p -> f (p ++ [c]) = Some KDir -> dirpath f (p ++ [c]).
Proof.
  intros H E a b Hab. destruct b as [|x b] using rev_ind.
  - rewrite app_nil_r in Hab. subst a. auto.
  - rewrite app_assoc in Hab. apply app_inj_tail in Hab as [Hab _]. eapply H; eauto.
Qed.
Lemma dirpath_prefix f a b : dirpath f (a ++ b) -> dirpath f a.
Proof. intros H x y E. apply (H x (y ++ b)). rewrite E, app_assoc. reflexivity. Qed.
Lemma dirpath_last f p c : dirpath f (p ++ [c]) -> f (p ++ [c]) = Some KDir.
Proof.
  intros H. destruct (H (p ++ [c]) []) as [E|E]; [rewrite app_nil_r; reflexivity| |exact E].
  destruct p; discriminate.
Qed.
Lemma removelast_prefix {A} (p : list A) : exists t, p = removelast p ++ t.
Proof.
  destruct p as [|x p] using rev_ind; [exists []; reflexivity|].
  rewrite removelast_last. exists [x]. reflexivity.
Qed.
Lemma dirpath_removelast f p : dirpath f p -> dirpath f (removelast p).
Proof. intros H. destruct (removelast_prefix p) as [t E]. rewrite E in H. eapply dirpath_prefix; eauto. Qed.
Lemma plain_removelast p : plain p -> plain (removelast p).
Proof. intros H. destruct (removelast_prefix p) as [t E]. rewrite E in H. apply Forall_app in H. tauto. Qed.
Lemma plain_snoc p c : plain p -> str_eqb c dotdot = false -> plain (p ++ [c]).
Proof. intros H E. apply Forall_app. split; auto. Qed.

Lemma resolve_nil f n cur : resolve f n cur [] = Some cur.
Proof. destruct n; reflexivity. Qed.
Lemma resolve_cons f n cur c rest : resolve f n cur (c :: rest) =
  if str_eqb c dotdot then resolve f n (removelast cur) rest
  else match f (cur ++ [c]) with
       | None => None
       | Some KDir => resolve f n (cur ++ [c]) rest
       | Some (KFile _) => match rest with [] => Some (cur ++ [c]) | _ => None end
       | Some (KLink a t) => match n with 0 => None | S n' => resolve f n' (if a then [] else cur) (t ++ rest) end
       end.
Proof. destruct n; reflexivity. Qed.

(** what resolution returns is real: it contains no link and no ".." *)
Lemma resolve_real f n : forall cs cur p, dirpath f cur -> plain cur -> resolve f n cur cs = Some p -> real f p.
Proof.
  induction n as [|n IHn]; induction cs as [|c rest IH]; intros cur p D P H;
    try (rewrite resolve_nil in H; injection H as <-; split; [exact P|left; exact D]); rewrite resolve_cons in H;
    (destruct (str_eqb c dotdot) eqn:Ec;
     [eapply IH; [apply dirpath_removelast, D|apply plain_removelast, P|exact H]|]);
    (destruct (f (cur ++ [c])) as [[x| |a t]|] eqn:E; try discriminate).
  - destruct rest; [|discriminate]. injection H as <-. split; [apply plain_snoc; auto|]. right. eauto 10.
  - eapply IH; [apply dirpath_snoc; eauto|apply plain_snoc; auto|exact H].
  - destruct rest; [|discriminate]. injection H as <-. split; [apply plain_snoc; auto|]. right. eauto 10.
  - eapply IH; [apply dirpath_snoc; eauto|apply plain_snoc; auto|exact H].
  - eapply IHn; [| |exact H]; destruct a; auto using dirpath_nil. constructor.
Qed.

(** resolving a path of directories just walks it *)
Lemma resolve_walk f n : forall b a, dirpath f (a ++ b) -> plain b -> forall rest,
  resolve f n a (b ++ rest) = resolve f n (a ++ b) rest.
Proof.
  induction b as [|c b IH]; intros a D P rest.
  - rewrite app_nil_r. reflexivity.
  - inversion P; subst. cbn [app]. rewrite resolve_cons, H1.
    replace (a ++ c :: b) with ((a ++ [c]) ++ b) in * by (rewrite <- app_assoc; reflexivity).
    pose proof (dirpath_prefix _ _ _ D) as D1. rewrite (dirpath_last _ _ _ D1). apply IH; auto.
Qed.

(** resolution is idempotent *)
Lemma resolve_canonical f n p : real f p -> resolve f n [] p = Some p.
Proof.
  intros [P [D|(d & c & x & -> & D & E)]].
  - rewrite <- (app_nil_r p) at 1. rewrite resolve_walk; auto. apply resolve_nil.
  - apply Forall_app in P as [P1 P2]. rewrite (resolve_walk f n d []); auto. cbn [app].
    inversion P2; subst. rewrite resolve_cons, H1, E. reflexivity.
Qed.

(** a path that does not resolve does not resolve when extended either *)
Lemma resolve_none_app f n : forall a cur b, resolve f n cur a = None -> resolve f n cur (a ++ b) = None.
Proof.
  induction n as [|n IHn]; induction a as [|c a IH]; intros cur b H;
    try (rewrite resolve_nil in H; discriminate); cbn [app]; rewrite resolve_cons in *;
    (destruct (str_eqb c dotdot); [apply IH; exact H|]);
    (destruct (f (cur ++ [c])) as [[x| |ab t]|] eqn:E; try reflexivity; auto).
  - destruct a; [discriminate|reflexivity].
  - destruct a; [discriminate|reflexivity].
  - rewrite app_assoc. apply IHn. exact H.
Qed.

Lemma path_starts_with_iff r p : path_starts_with r p = true <-> exists t, p = r ++ t.
Proof.
  revert p; induction r as [|a r IH]; intros p; cbn [path_starts_with].
  - split; [exists p; reflexivity|reflexivity].
  - destruct p as [|b p]; [split; [discriminate|intros (t & H); discriminate]|].
    rewrite andb_true_iff, str_eqb_eq, IH. split.
    + intros (<- & t & ->). exists t. reflexivity.
    + intros (t & [= -> ->]). eauto.
Qed.

Lemma canonicalize_real f p q : canonicalize f p = Some q -> real f q.
Proof.
  unfold canonicalize. destruct (resolve f max_links [] (comps p)) as [r|] eqn:E; [|discriminate].
  intros H. assert (r = q) by (destruct (must_dir p && negb (is_dir_at f r)); congruence). subst.
  eapply resolve_real; [apply dirpath_nil|constructor|exact E].
Qed.

Lemma put_same f p k : put f p k p = Some k.
Proof. unfold put, path_eqb. destruct (list_eq_dec str_eq_dec p p); congruence. Qed.
Lemma put_other f p k q : q <> p -> put f p k q = f q.
Proof. unfold put, path_eqb. destruct (list_eq_dec str_eq_dec q p); congruence. Qed.
