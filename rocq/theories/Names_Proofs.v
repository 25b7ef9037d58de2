(** The texts that are coloured as commands are bare names. *)
From Coq Require Import Lia.
From Verif Require Import Base Peg_Model Peg_Proofs Grammar_Model Parse_Model Highlight_Model Parse_Proofs Hooks_Spec.

Lemma bare_app a b : bare_name a -> bare_name b -> bare_name (a ++ b).
Proof. induction 1; intros B; cbn [app]; [exact B|apply B_escaped; auto|apply B_plain; auto]. Qed.

Inductive bareful : expr rule -> Prop :=
| F_esc : bareful (Nt escape_sequence)
| F_char : bareful word_char
| F_one c : ~ In c [40; 41; 59; 39; 34; 32; 9; 10; 13; 92]%N -> bareful (ch c)
| F_seq a b : bareful a -> bareful b -> bareful (Seq a b)
| F_alt a b : bareful a -> bareful b -> bareful (Alt a b)
| F_star a : bareful a -> bareful (Star a).

Lemma one_of_not n : forall l pos c s, In c l -> peg gram n (one_of l) pos (c :: s) <> Fail.
Proof.
  induction n as [|n IH]; intros l pos c s H; [discriminate|].
  assert (forall k, peg gram (S k) (ch c) pos (c :: s) <> Fail) as One.
  { intros k. cbn [peg]. unfold ch. cbn [starts_with]. rewrite N.eqb_refl. cbn. discriminate. }
  destruct l as [|x [|y l]]; [destruct H|destruct H as [->|[]]; apply One|].
  change (one_of (x :: y :: l)) with (Alt (ch x) (one_of (y :: l))). cbn [peg].
  destruct (peg gram n (ch x) pos (c :: s)) eqn:E; try discriminate.
  destruct H as [->|H]; [destruct n; [discriminate E|exfalso; eapply One; exact E]|]. now apply IH.
Qed.

Lemma bareful_text n : forall e pos s ns c r, bareful e -> peg gram n e pos s = Ok ns c r -> bare_name c.
Proof.
  induction n as [|n IH]; intros e pos s ns c r B H; [discriminate|].
  destruct B as [| |x Hx|a b Ba Bb|a b Ba Bb|a Ba].
  - cbn [peg] in H. destruct n as [|[|n]]; [cbn in H; discriminate H|cbn in H; discriminate H|]. cbn [gram peg] in H.
    unfold ch in H. destruct s as [|x s]; [cbn in H; discriminate H|]. cbn [starts_with] in H. destruct (N.eqb 92 x) eqn:E; [|cbn in H; discriminate H].
    apply N.eqb_eq in E as <-. cbn in H. destruct s as [|y s]; [cbn in H; discriminate H|]. injection H as <- <- <-.
    apply B_escaped. constructor.
  - unfold word_char in H. cbn [peg] in H. destruct (peg gram n (Not (one_of special)) pos s) as [| |n1 c1 r1] eqn:E; try discriminate.
    destruct n as [|n]; [discriminate|]. cbn [peg] in E.
    destruct (peg gram n (one_of special) pos s) as [| |n0 c0 r0] eqn:E0; try discriminate. injection E as <- <- <-.
    cbn [peg] in H. destruct s as [|x s]; [discriminate|]. injection H as <- <- <-. cbn [app].
    apply B_plain; [|constructor]. intros Hx. eapply one_of_not; [|exact E0].
    repeat destruct Hx as [<-|Hx]; try contradiction; unfold special; cbn [In]; tauto.
  - unfold ch in H. cbn [peg] in H.
    match type of H with (if ?b then _ else _) = _ => destruct b; [|discriminate H] end. injection H as <- <- <-. apply B_plain; [exact Hx|constructor].
  - cbn [peg] in H. destruct (peg gram n a pos s) as [| |n1 c1 r1] eqn:E1; try discriminate.
    destruct (peg gram n b _ r1) as [| |n2 c2 r2] eqn:E2; try discriminate. injection H as <- <- <-. apply bare_app; eauto.
  - cbn [peg] in H. destruct (peg gram n a pos s) as [| |n1 c1 r1] eqn:E1; try discriminate; [eauto|]. injection H as <- <- <-. eauto.
  - cbn [peg] in H. destruct (peg gram n a pos s) as [| |n1 c1 r1] eqn:E1; try discriminate; [injection H as <- <- <-; constructor|].
    destruct (peg gram n (Star a) _ r1) as [| |n2 c2 r2] eqn:E2; try discriminate. injection H as <- <- <-.
    apply bare_app; [eauto|]. eapply IH; [|exact E2]. now constructor.
Qed.
Lemma word_bareful : bareful (gram word).
Proof. cbn [gram]. unfold Plus. repeat constructor. Qed.
Lemma glob_bareful : bareful (gram glob_word).
Proof.
  assert (bareful glob_char) as G.
  { unfold glob_char. cbn [one_of]. repeat apply F_alt; apply F_one; intros H; vm_compute in H; repeat destruct H as [H|H]; try discriminate H; exact H. }
  cbn [gram]. apply F_seq; [apply F_star, F_alt; constructor|]. apply F_seq; [exact G|]. apply F_star. unfold glob_remaining_char.
  apply F_alt; [constructor|]. apply F_alt; [exact G|].
  repeat apply F_alt; try (apply F_one; intros H; vm_compute in H; repeat destruct H as [H|H]; try discriminate H; exact H). constructor.
Qed.

(** every node of a tree has the property *)
Inductive tree (P : node rule -> Prop) : list (node rule) -> Prop :=
| T_nil : tree P []
| T_cons r s t i ns : P (Node r s t i) -> tree P i -> tree P ns -> tree P (Node r s t i :: ns).
Lemma tree_app P a b : tree P a -> tree P b -> tree P (a ++ b).
Proof. induction 1; intros B; cbn [app]; [exact B|constructor; auto]. Qed.

Definition name_node (line : str) (q : node rule) : Prop :=
  firstn (length (text_of q)) (skipn (start_of q) line) = text_of q /\
  (rule_of q = word \/ rule_of q = glob_word -> bare_name (text_of q)).

Lemma peg_names (line : str) n : forall e pos s ns c r, skipn pos line = s -> peg gram n e pos s = Ok ns c r -> tree (name_node line) ns.
Proof.
  induction n as [|n IH]; intros e pos s ns c r E H; [discriminate|]. pose proof (peg_faithful gram line _ _ _ _ _ _ _ E H) as (_ & S1 & S2).
  destruct e as [t| |a b|a b|a|a|a|rl]; cbn [peg] in H.
  - destruct (starts_with t s); [|discriminate]. injection H as <- <- <-. constructor.
  - destruct s; [discriminate|]. injection H as <- <- <-. constructor.
  - destruct (peg gram n a pos s) as [| |n1 c1 r1] eqn:E1; try (discriminate H).
    destruct (peg gram n b _ r1) as [| |n2 c2 r2] eqn:E2; try (discriminate H). injection H as <- <- <-.
    destruct (peg_faithful gram line _ _ _ _ _ _ _ E E1) as (_ & _ & E1'). apply tree_app; [exact (IH _ _ _ _ _ _ E E1)|exact (IH _ _ _ _ _ _ E1' E2)].
  - destruct (peg gram n a pos s) as [| |n1 c1 r1] eqn:E1; [discriminate H|exact (IH _ _ _ _ _ _ E H)|].
    injection H as <- <- <-. exact (IH _ _ _ _ _ _ E E1).
  - destruct (peg gram n a pos s) as [| |n1 c1 r1] eqn:E1; try (discriminate H); [injection H as <- <- <-; constructor|].
    destruct (peg gram n (Star a) _ r1) as [| |n2 c2 r2] eqn:E2; try (discriminate H). injection H as <- <- <-.
    destruct (peg_faithful gram line _ _ _ _ _ _ _ E E1) as (_ & _ & E1'). apply tree_app; [exact (IH _ _ _ _ _ _ E E1)|exact (IH _ _ _ _ _ _ E1' E2)].
  - destruct (peg gram n a pos s) as [| |n1 c1 r1] eqn:E1; try (discriminate H); [injection H as <- <- <-; constructor|]. injection H as <- <- <-. exact (IH _ _ _ _ _ _ E E1).
  - destruct (peg gram n a pos s) as [| |n1 c1 r1] eqn:E1; try (discriminate H). injection H as <- <- <-. constructor.
  - destruct (peg gram n (gram rl) pos s) as [| |n1 c1 r1] eqn:E1; try (discriminate H). injection H as <- <- <-.
    constructor; [|exact (IH _ _ _ _ _ _ E E1)|constructor]. split; [exact S1|]. cbn [rule_of text_of]. intros [-> | ->].
    + eapply bareful_text; [apply word_bareful|exact E1].
    + eapply bareful_text; [apply glob_bareful|exact E1].
Qed.

Definition token_text (line : str) (t : token) : str := firstn (tok_end t - tok_start t) (skipn (tok_start t) line).
Lemma push_in p k t : In t (push p k) -> t = Token (start_of p) (end_of p) k.
Proof. unfold push. destruct (_ =? _); cbn [In]; intuition. Qed.
Lemma collect_names line ns : tree (name_node line) ns -> forall c t,
  In t (flat_map (collect c) ns) -> tok_kind t = KCommand -> bare_name (token_text line t).
Proof.
  induction 1 as [|r s x i ns P Hi IHi Hn IHn]; intros c t; cbn [flat_map]; [contradiction|].
  intros H K. apply in_app_or in H as [H|H]; [|eapply IHn; eauto].
  assert (forall c', In t ((fix go l := match l with [] => [] | q :: l' => collect c' q ++ go l' end) i) -> bare_name (token_text line t)) as All.
  { intros c' Q. apply (IHi c' t); [|exact K]. clear -Q. induction i as [|q i IH]; [exact Q|]. cbn [flat_map]. apply in_app_or in Q as [Q|Q]; apply in_or_app; [now left|right; now apply IH]. }
  assert (forall k, In t (push (Node r s x i) k) -> k = KCommand -> r = word \/ r = glob_word -> bare_name (token_text line t)) as Word.
  { intros k Q -> R. apply push_in in Q as ->. unfold token_text, end_of. cbn [tok_end tok_start start_of text_of].
    destruct P as [P1 P2]. cbn [text_of start_of rule_of] in P1, P2. replace (s + length x - s) with (length x) by lia. rewrite P1. auto. }
  assert (forall k, In t (push (Node r s x i) k) -> k = KCommand \/ k <> KCommand -> tok_kind t = k) as Kind.
  { intros k Q _. apply push_in in Q as ->. reflexivity. }
  destruct r; cbn [collect] in H;
    try (eapply All; exact H);
    try (apply push_in in H as ->; discriminate K).
  - apply (Word _ H); [|tauto]. apply push_in in H as ->. exact K.
  - apply (Word _ H); [|tauto]. apply push_in in H as ->. exact K.
Qed.
Lemma highlighted_names line t : In t (highlight line) -> tok_kind t = KCommand -> bare_name (token_text line t).
Proof.
  unfold highlight. destruct (parse line) as [| |ns c r] eqn:E; try contradiction. apply collect_names.
  eapply peg_names; [|exact E]. reflexivity.
Qed.
