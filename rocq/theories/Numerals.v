(** Decimal numbers as Rust's [str::parse::<usize>] reads them, and their
    specification. *)
From Verif Require Import Base.

Definition is_digit (c : char) : bool := ((48 <=? c) && (c <=? 57))%N.

(** <usize as FromStr>::from_str (core::num from_str_radix): one optional '+',
    then decimal digits; [None] is an error (empty, invalid digit, overflow) *)
Definition usize_max : N := 18446744073709551615.
Fixpoint parse_digits (acc : N) (s : str) : option N :=
  match s with
  | [] => Some acc
  | c :: s' =>
      if is_digit c then
        let acc' := (acc * 10 + (c - 48))%N in
        if (acc' <=? usize_max)%N then parse_digits acc' s' else None
      else None
  end.
Definition parse_usize (s : str) : option N :=
  match s with
  | [] => None
  | [c] => if is_digit c then parse_digits 0 s else None
  | c :: s' => if (c =? chr "+")%N then parse_digits 0 s' else parse_digits 0 s
  end.

(** decimal numerals *)
Inductive Dec : str -> N -> Prop :=
| Dec_digit d : (d < 10)%N -> Dec [(48 + d)%N] d
| Dec_more s n d : Dec s n -> (d < 10)%N -> Dec (s ++ [(48 + d)%N]) (10 * n + d)%N.

Lemma is_digit_iff c : is_digit c = true <-> exists d, (d < 10)%N /\ c = (48 + d)%N.
Proof.
  unfold is_digit. rewrite andb_true_iff, !N.leb_le. split.
  - intros [A B]. exists (c - 48)%N. split; lia.
  - intros [d [A ->]]. split; lia.
Qed.

Fixpoint value (acc : N) (s : str) : N :=
  match s with [] => acc | c :: s' => value (acc * 10 + (c - 48)) s' end.

Lemma value_ge acc s : (acc <= value acc s)%N.
Proof. revert acc; induction s as [|c s IH]; intros acc; simpl; [lia|]. specialize (IH (acc * 10 + (c - 48))%N). lia. Qed.

Lemma parse_digits_iff s : forall acc n, (acc <= usize_max)%N ->
  (parse_digits acc s = Some n <-> Forall (fun c => is_digit c = true) s /\ n = value acc s /\ (n <= usize_max)%N).
Proof.
  induction s as [|c s IH]; intros acc n Ha; simpl.
  - split; [intros [= <-]; auto | intros (_ & -> & _); reflexivity].
  - destruct (is_digit c) eqn:E.
    + destruct (acc * 10 + (c - 48) <=? usize_max)%N eqn:El.
      * apply N.leb_le in El. rewrite IH by exact El. split.
        { intros (A & B & C). auto. }
        { intros (A & B & C). inversion A; subst. auto. }
      * apply N.leb_gt in El. split; [discriminate|]. intros (_ & -> & C).
        pose proof (value_ge (acc * 10 + (c - 48)) s). lia.
    + split; [discriminate|]. intros (A & _). inversion A; congruence.
Qed.

Lemma value_app acc s d : value acc (s ++ [d]) = (value acc s * 10 + (d - 48))%N.
Proof. revert acc; induction s as [|c s IH]; intros acc; simpl; [reflexivity|apply IH]. Qed.

Lemma Dec_iff s n : Dec s n <-> s <> [] /\ Forall (fun c => is_digit c = true) s /\ n = value 0 s.
Proof.
  split.
  - induction 1 as [d Hd|s n d H (A & B & C) Hd].
    + split; [discriminate|]. split.
      * constructor; [apply is_digit_iff; eauto|constructor].
      * cbn [value]. lia.
    + split; [destruct s; discriminate|]. split.
      * apply Forall_app. split; [exact B|]. constructor; [apply is_digit_iff; eauto|constructor].
      * rewrite value_app, <- C. lia.
  - revert n. induction s as [|c s IH] using rev_ind; intros n (A & B & C); [congruence|].
    apply Forall_app in B as [B1 B2]. inversion B2 as [|? ? Hc _]; subst.
    apply is_digit_iff in Hc as (d & Hd & ->). rewrite value_app.
    destruct s as [|x s].
    + cbn [value app]. replace (0 * 10 + (48 + d - 48))%N with d by lia. apply Dec_digit, Hd.
    + replace (value 0 (x :: s) * 10 + (48 + d - 48))%N with (10 * value 0 (x :: s) + d)%N by lia.
      apply Dec_more; [|exact Hd]. apply IH. split; [discriminate|]. auto.
Qed.

Lemma parse_usize_iff s n :
  parse_usize s = Some n <->
  (n <= usize_max)%N /\ (Dec s n \/ exists t, s = chr "+" :: t /\ Dec t n).
Proof.
  assert (P : forall s, s <> [] -> (parse_digits 0 s = Some n <-> Dec s n /\ (n <= usize_max)%N)).
  { intros t Ht. rewrite parse_digits_iff by (unfold usize_max; lia). rewrite Dec_iff. tauto. }
  assert (Plus : forall t m, ~ Dec (chr "+" :: t) m).
  { intros t m H. apply Dec_iff in H as (_ & H & _). inversion H; subst. discriminate. }
  unfold parse_usize. destruct s as [|c [|c2 s]].
  - split; [discriminate|]. intros [_ [H|[t [H _]]]]; [|discriminate].
    apply Dec_iff in H as (H & _). congruence.
  - destruct (is_digit c) eqn:E.
    + rewrite P by discriminate. split; [tauto|]. intros [A [B|[t [B C]]]]; [tauto|].
      injection B as -> <-. apply Dec_iff in C as (C & _). congruence.
    + split; [discriminate|]. intros [_ [H|[t [H C]]]].
      * apply Dec_iff in H as (_ & H & _). inversion H; congruence.
      * injection H as -> <-. apply Dec_iff in C as (C & _). congruence.
  - destruct (c =? chr "+")%N eqn:E.
    + apply N.eqb_eq in E. subst c. rewrite P by discriminate. split.
      * intros [A B]. split; [exact B|]. right. eauto.
      * intros [A [B|[t [B C]]]]; [destruct (Plus _ _ B)|]. injection B as <-. auto.
    + apply N.eqb_neq in E. rewrite P by discriminate. split; [tauto|].
      intros [A [B|[t [B C]]]]; [tauto|]. congruence.
Qed.
