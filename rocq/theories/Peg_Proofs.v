(** Facts about parsing expression grammars: soundness of spans, monotonicity in the fuel,
    and termination of grammars without left recursion. *)
From Verif Require Import Base Peg_Model.

Section P.
Context {rule : Type} (gram : rule -> expr rule).
Notation peg := (peg gram).

Lemma starts_with_skipn t s : starts_with t s = true -> s = t ++ skipn (length t) s.
Proof.
  intros H. apply starts_with_iff in H as [u ->]. rewrite skipn_app, Nat.sub_diag, skipn_all. reflexivity.
Qed.

Lemma peg_split n : forall e pos s ns c r, peg n e pos s = Ok ns c r -> s = c ++ r.
Proof.
  induction n as [|n IH]; intros e pos s ns c r H; [discriminate|].
  destruct e as [t| |a b|a b|a|a|a|rl]; cbn [Peg_Model.peg] in H.
  - destruct (starts_with t s) eqn:E; [|discriminate]. injection H as <- <- <-. apply starts_with_skipn, E.
  - destruct s; [discriminate|]. injection H as <- <- <-. reflexivity.
  - destruct (peg n a pos s) as [| |n1 c1 r1] eqn:E1; try discriminate.
    destruct (peg n b _ r1) as [| |n2 c2 r2] eqn:E2; try discriminate. injection H as <- <- <-.
    apply IH in E1. apply IH in E2. subst. rewrite app_assoc. reflexivity.
  - destruct (peg n a pos s) as [| |n1 c1 r1] eqn:E1; try discriminate; [eapply IH, H|]. injection H as <- <- <-. eapply IH, E1.
  - destruct (peg n a pos s) as [| |n1 c1 r1] eqn:E1; try discriminate; [injection H as <- <- <-; reflexivity|].
    destruct (peg n (Star a) _ r1) as [| |n2 c2 r2] eqn:E2; try discriminate. injection H as <- <- <-.
    apply IH in E1. apply IH in E2. subst. rewrite app_assoc. reflexivity.
  - destruct (peg n a pos s) as [| |n1 c1 r1] eqn:E1; try discriminate; [injection H as <- <- <-; reflexivity|]. injection H as <- <- <-. eapply IH, E1.
  - destruct (peg n a pos s) as [| |n1 c1 r1] eqn:E1; try discriminate. injection H as <- <- <-; reflexivity.
  - destruct (peg n (gram rl) pos s) as [| |n1 c1 r1] eqn:E1; try discriminate. injection H as <- <- <-. eapply IH, E1.
Qed.

(** more fuel changes nothing *)
Lemma peg_mono n : forall m e pos s, n <= m -> peg n e pos s <> Out -> peg m e pos s = peg n e pos s.
Proof.
  induction n as [|n IH]; intros m e pos s L H; [exfalso; apply H; reflexivity|].
  destruct m as [|m]; [lia|]. assert (L' : n <= m) by lia.
  destruct e as [t| |a b|a b|a|a|a|rl]; cbn [Peg_Model.peg] in *; auto.
  - destruct (peg n a pos s) as [| |n1 c1 r1] eqn:E1; [congruence|rewrite (IH m a pos s L') by congruence; rewrite E1; reflexivity|].
    rewrite (IH m a pos s L') by congruence. rewrite E1.
    destruct (peg n b (pos + length c1) r1) as [| |n2 c2 r2] eqn:E2; [congruence| |]; rewrite (IH m b _ _ L') by congruence; rewrite E2; reflexivity.
  - destruct (peg n a pos s) as [| |n1 c1 r1] eqn:E1; [congruence| |]; rewrite (IH m a pos s L') by congruence; rewrite E1; auto.
  - destruct (peg n a pos s) as [| |n1 c1 r1] eqn:E1; [congruence|rewrite (IH m a pos s L') by congruence; rewrite E1; reflexivity|].
    rewrite (IH m a pos s L') by congruence. rewrite E1.
    destruct (peg n (Star a) (pos + length c1) r1) as [| |n2 c2 r2] eqn:E2; [congruence| |]; rewrite (IH m (Star a) _ _ L') by congruence; rewrite E2; reflexivity.
  - destruct (peg n a pos s) as [| |n1 c1 r1] eqn:E1; [congruence| |]; rewrite (IH m a pos s L') by congruence; rewrite E1; reflexivity.
  - destruct (peg n a pos s) as [| |n1 c1 r1] eqn:E1; [congruence| |]; rewrite (IH m a pos s L') by congruence; rewrite E1; reflexivity.
  - destruct (peg n (gram rl) pos s) as [| |n1 c1 r1] eqn:E1; [congruence| |]; rewrite (IH m (gram rl) pos s L') by congruence; rewrite E1; reflexivity.
Qed.

(** ** termination *)
(** [eats e]: a success consumes something *)
Variable eats_rule : rule -> bool.
Fixpoint eats (e : expr rule) : bool :=
  match e with
  | Lit t => match t with [] => false | _ => true end
  | Any => true
  | Seq a b => eats a || eats b
  | Alt a b => eats a && eats b
  | Star _ | Opt _ | Not _ => false
  | Nt r => eats_rule r
  end.
(** [safe (Some k) e]: rules reached before anything is consumed have rank below [k];
    repeated expressions consume.  [safe None]: no constraint on ranks. *)
Variable rank : rule -> nat.
Fixpoint safe (k : option nat) (e : expr rule) : bool :=
  match e with
  | Lit _ | Any => true
  | Seq a b => safe k a && safe (if eats a then None else k) b
  | Alt a b => safe k a && safe k b
  | Star a => safe k a && eats a
  | Opt a | Not a => safe k a
  | Nt r => match k with Some k => rank r <? k | None => true end
  end.
Fixpoint size (e : expr rule) : nat :=
  match e with
  | Seq a b | Alt a b => S (size a + size b)
  | Star a | Opt a | Not a => S (size a)
  | _ => 1
  end.
Variables (ranks sizes : nat).
Hypothesis eats_ok : forall r, eats_rule r = true -> eats (gram r) = true.
Hypothesis safe_ok : forall r, safe (Some (rank r)) (gram r) = true.
Hypothesis rank_ok : forall r, rank r < ranks.
Hypothesis size_ok : forall r, size (gram r) <= sizes.

Lemma eats_consumes n : forall e pos s ns c r, eats e = true -> peg n e pos s = Ok ns c r -> c <> [].
Proof using eats_ok.
  induction n as [|n IH]; intros e pos s ns c r E H; [discriminate|].
  destruct e as [t| |a b|a b|a|a|a|rl]; cbn [Peg_Model.peg] in H; cbn [eats] in E; try discriminate.
  - destruct t; [discriminate|]. destruct (starts_with _ s); [|discriminate]. injection H as <- <- <-. discriminate.
  - destruct s; [discriminate|]. injection H as <- <- <-. discriminate.
  - destruct (peg n a pos s) as [| |n1 c1 r1] eqn:E1; try discriminate.
    destruct (peg n b _ r1) as [| |n2 c2 r2] eqn:E2; try discriminate. injection H as <- <- <-.
    intros Q. apply app_eq_nil in Q as [-> ->].
    apply orb_true_iff in E as [E|E]; [exact (IH _ _ _ _ _ _ E E1 eq_refl)|exact (IH _ _ _ _ _ _ E E2 eq_refl)].
  - apply andb_true_iff in E as [Ea Eb].
    destruct (peg n a pos s) as [| |n1 c1 r1] eqn:E1; try discriminate; [exact (IH _ _ _ _ _ _ Eb H)|]. injection H as <- <- <-. exact (IH _ _ _ _ _ _ Ea E1).
  - destruct (peg n (gram rl) pos s) as [| |n1 c1 r1] eqn:E1; try discriminate. injection H as <- <- <-. exact (IH _ _ _ _ _ _ (eats_ok _ E) E1).
Qed.

(** fuel that suffices: per character left, every rank may be visited once *)
Definition cost (s : str) (k : option nat) (e : expr rule) : nat :=
  length s * (S ranks * S sizes) + match k with Some k => k | None => ranks end * S sizes + size e + length s.

Lemma cost_shorter s r k k' e : match k' with Some k => k <= ranks | None => True end ->
  S (length r) <= length s -> S (cost r k' e) <= cost s k e.
Proof using.
  intros K L. unfold cost. set (X := S ranks * S sizes). assert (X1 : ranks * S sizes <= X) by (unfold X; nia).
  assert (X2 : match k' with Some k => k | None => ranks end * S sizes <= X) by (destruct k' as [k'|]; [unfold X; nia|exact X1]).
  assert (X3 : length r * X + X <= length s * X) by nia. clearbody X. lia.
Qed.
Lemma cost_no_longer s r k e : length r <= length s -> cost r k e <= cost s k e.
Proof using. intros L. unfold cost. set (X := S ranks * S sizes). assert (length r * X <= length s * X) by nia. clearbody X. lia. Qed.
Lemma cost_sub s k a b : size a < size b -> S (cost s k a) <= cost s k b.
Proof using. unfold cost. lia. Qed.
Lemma size_pos e : 1 <= size e.
Proof using. destruct e; cbn; lia. Qed.

Lemma peg_total n : forall e k pos s,
  match k with Some k => k <= ranks | None => True end ->
  safe k e = true -> cost s k e <= n -> peg n e pos s <> Out.
Proof.
  induction n as [|n IH]; intros e k pos s K SF C.
  { exfalso. unfold cost in C. pose proof (size_pos e). lia. }
  assert (SH : forall (s c r : str), s = c ++ r -> c <> [] -> S (length r) <= length s).
  { clear. intros s c r -> H. rewrite app_length. destruct c; [congruence|]. cbn. lia. }
  assert (LE : forall (s c r : str), s = c ++ r -> length r <= length s).
  { clear. intros s c r ->. rewrite app_length. lia. }
  assert (SUB : forall a, size a < size e -> cost s k a <= n).
  { intros a Ha. pose proof (cost_sub s k a e Ha). lia. }
  destruct e as [t| |a b|a b|a|a|a|rl]; cbn [Peg_Model.peg safe] in *.
  - destruct (starts_with t s); discriminate.
  - destruct s; discriminate.
  - apply andb_true_iff in SF as [Sa Sb]. cbn [size] in SUB. pose proof (size_pos a). pose proof (size_pos b).
    assert (Ha : peg n a pos s <> Out) by (apply (IH a k); auto; apply SUB; lia).
    destruct (peg n a pos s) as [| |n1 c1 r1] eqn:E1; [congruence|discriminate|].
    assert (Hb : peg n b (pos + length c1) r1 <> Out).
    { pose proof (peg_split _ _ _ _ _ _ _ E1) as Q. pose proof (SUB b ltac:(lia)) as Lb. destruct (eats a) eqn:Ea.
      - apply (IH b None); auto. pose proof (SH _ _ _ Q (eats_consumes _ _ _ _ _ _ _ Ea E1)) as L.
        pose proof (cost_shorter s r1 k None b I L). lia.
      - apply (IH b k); auto. pose proof (cost_no_longer s r1 k b (LE _ _ _ Q)). lia. }
    destruct (peg n b _ r1); congruence.
  - apply andb_true_iff in SF as [Sa Sb]. cbn [size] in SUB. pose proof (size_pos a). pose proof (size_pos b).
    assert (Ha : peg n a pos s <> Out) by (apply (IH a k); auto; apply SUB; lia).
    destruct (peg n a pos s) as [| |n1 c1 r1] eqn:E1; [congruence| |discriminate].
    apply (IH b k); auto; apply SUB; lia.
  - apply andb_true_iff in SF as [Sa Ea]. cbn [size] in SUB.
    assert (Ha : peg n a pos s <> Out) by (apply (IH a k); auto).
    destruct (peg n a pos s) as [| |n1 c1 r1] eqn:E1; [congruence|discriminate|].
    assert (Hb : peg n (Star a) (pos + length c1) r1 <> Out).
    { pose proof (peg_split _ _ _ _ _ _ _ E1) as Q. pose proof (SH _ _ _ Q (eats_consumes _ _ _ _ _ _ _ Ea E1)) as L.
      apply (IH (Star a) k); auto; [cbn [safe]; rewrite Sa, Ea; reflexivity|].
      pose proof (cost_shorter s r1 k k (Star a) K L). lia. }
    destruct (peg n (Star a) _ r1); congruence.
  - assert (Ha : peg n a pos s <> Out) by (apply (IH a k); auto).
    destruct (peg n a pos s); congruence.
  - assert (Ha : peg n a pos s <> Out) by (apply (IH a k); auto).
    destruct (peg n a pos s); congruence.
  - assert (Ha : peg n (gram rl) pos s <> Out).
    { apply (IH (gram rl) (Some (rank rl))); auto.
      - pose proof (rank_ok rl). lia.
      - pose proof (size_ok rl). pose proof (rank_ok rl).
        assert (Rk : S (rank rl) <= match k with Some k => k | None => ranks end).
        { destruct k as [k|]; [apply Nat.ltb_lt in SF; lia|lia]. }
        unfold cost in *. cbn [size] in C. set (X := S ranks * S sizes) in *. clearbody X.
        assert (rank rl * S sizes + S sizes <= match k with Some k => k | None => ranks end * S sizes) by nia. lia. }
    destruct (peg n (gram rl) pos s); congruence.
Qed.

(** ** a parser without fuel *)
Definition run (e : expr rule) (pos : nat) (s : str) : res rule := peg (cost s None e) e pos s.
Definition good (e : expr rule) : Prop := safe None e = true.

Lemma run_total e pos s : good e -> run e pos s <> Out.
Proof. intros G. apply (peg_total _ e None); auto. Qed.
Lemma run_peg n e pos s : good e -> peg n e pos s <> Out -> peg n e pos s = run e pos s.
Proof.
  intros G H. unfold run. destruct (Nat.le_ge_cases n (cost s None e)) as [L|L].
  - symmetry. apply peg_mono; auto.
  - apply peg_mono; auto. apply (peg_total _ e None); auto.
Qed.
Lemma run_big n e pos s : good e -> cost s None e <= n -> peg n e pos s = run e pos s.
Proof. intros G L. apply run_peg; auto. apply (peg_total n e None); auto. Qed.
Lemma safe_weaken : forall e k, safe (Some k) e = true -> safe None e = true.
Proof using.
  induction e as [t| |a IHa b IHb|a IHa b IHb|a IHa|a IHa|a IHa|r]; intros k H; cbn [safe] in *; auto;
    try (apply andb_true_iff in H as [H1 H2]; apply andb_true_iff; split; eauto); eauto.
  destruct (eats a); eauto.
Qed.
Lemma good_rule r : good (gram r).
Proof using safe_ok. eapply safe_weaken, safe_ok. Qed.

(** the equations of the operators *)
Lemma run_unfold e pos s : good e -> forall n, cost s None e <= n -> run e pos s = peg (S n) e pos s.
Proof. intros G n L. symmetry. apply run_big; auto. Qed.
Lemma run_lit t pos s : run (Lit t) pos s = if starts_with t s then Ok [] t (skipn (length t) s) else Fail.
Proof. rewrite (run_unfold (Lit t) pos s eq_refl _ (le_n _)). reflexivity. Qed.
Lemma run_any pos s : run Any pos s = match s with c :: r => Ok [] [c] r | [] => Fail end.
Proof. rewrite (run_unfold Any pos s eq_refl _ (le_n _)). reflexivity. Qed.
Definition then_ (x : res rule) (f : str -> str -> res rule) : res rule :=
  match x with
  | Ok n1 c1 r1 => match f c1 r1 with Ok n2 c2 r2 => Ok (n1 ++ n2) (c1 ++ c2) r2 | y => y end
  | y => y
  end.
Lemma run_seq a b pos s : good (Seq a b) ->
  run (Seq a b) pos s = then_ (run a pos s) (fun c r => run b (pos + length c) r).
Proof.
  intros G. pose proof G as G0. unfold good in G. cbn [safe] in G. apply andb_true_iff in G as [Ga Gb].
  assert (Gb' : good b) by (destruct (eats a); exact Gb).
  set (n := cost s None (Seq a b) + cost s None a + cost s None b).
  rewrite (run_unfold (Seq a b) pos s G0 n) by (unfold n; lia). cbn [Peg_Model.peg].
  rewrite (run_big n a) by (auto; unfold n; lia). unfold then_.
  destruct (run a pos s) as [| |n1 c1 r1] eqn:E1; auto.
  assert (L : cost r1 None b <= n).
  { pose proof (peg_split _ _ _ _ _ _ _ E1) as Q. pose proof (cost_no_longer s r1 None b ltac:(rewrite Q, app_length; lia)). unfold n; lia. }
  rewrite (run_big n b) by auto. reflexivity.
Qed.
Lemma run_alt a b pos s : good (Alt a b) ->
  run (Alt a b) pos s = match run a pos s with Fail => run b pos s | x => x end.
Proof.
  intros G. pose proof G as G0. unfold good in G. cbn [safe] in G. apply andb_true_iff in G as [Ga Gb].
  set (n := cost s None (Alt a b) + cost s None a + cost s None b).
  rewrite (run_unfold (Alt a b) pos s G0 n) by (unfold n; lia). cbn [Peg_Model.peg].
  rewrite (run_big n a), (run_big n b) by (auto; unfold n; lia). reflexivity.
Qed.
Lemma run_star a pos s : good (Star a) ->
  run (Star a) pos s = match run a pos s with
                       | Fail => Ok [] [] s
                       | x => then_ x (fun c r => run (Star a) (pos + length c) r)
                       end.
Proof.
  intros G. pose proof G as G0. unfold good in G. cbn [safe] in G. apply andb_true_iff in G as [Ga Gb].
  set (n := cost s None (Star a) + cost s None a).
  rewrite (run_unfold (Star a) pos s G0 n) by (unfold n; lia). cbn [Peg_Model.peg].
  rewrite (run_big n a) by (auto; unfold n; lia). unfold then_.
  destruct (run a pos s) as [| |n1 c1 r1] eqn:E1; auto.
  assert (L : cost r1 None (Star a) <= n).
  { pose proof (peg_split _ _ _ _ _ _ _ E1) as Q. pose proof (cost_no_longer s r1 None (Star a) ltac:(rewrite Q, app_length; lia)). unfold n; lia. }
  rewrite (run_big n (Star a)) by auto. reflexivity.
Qed.
Lemma run_opt a pos s : good (Opt a) ->
  run (Opt a) pos s = match run a pos s with Fail => Ok [] [] s | x => x end.
Proof.
  intros G. set (n := cost s None (Opt a) + cost s None a).
  rewrite (run_unfold (Opt a) pos s G n) by (unfold n; lia). cbn [Peg_Model.peg].
  rewrite (run_big n a) by (auto; unfold n; lia). reflexivity.
Qed.
Lemma run_not a pos s : good (Not a) ->
  run (Not a) pos s = match run a pos s with Fail => Ok [] [] s | Ok _ _ _ => Fail | Out => Out end.
Proof.
  intros G. set (n := cost s None (Not a) + cost s None a).
  rewrite (run_unfold (Not a) pos s G n) by (unfold n; lia). cbn [Peg_Model.peg].
  rewrite (run_big n a) by (auto; unfold n; lia). reflexivity.
Qed.
Lemma run_nt r pos s :
  run (Nt r) pos s = match run (gram r) pos s with Ok ns c rest => Ok [Node r pos c ns] c rest | x => x end.
Proof.
  set (n := cost s None (Nt r) + cost s None (gram r)).
  rewrite (run_unfold (Nt r) pos s eq_refl n) by (unfold n; lia). cbn [Peg_Model.peg].
  rewrite (run_big n (gram r)) by (try apply good_rule; unfold n; lia). reflexivity.
Qed.
Lemma run_split e pos s ns c r : run e pos s = Ok ns c r -> s = c ++ r.
Proof using. apply peg_split. Qed.
Lemma run_eats e pos s ns c r : eats e = true -> run e pos s = Ok ns c r -> c <> [].
Proof using eats_ok. apply eats_consumes. Qed.
End P.
