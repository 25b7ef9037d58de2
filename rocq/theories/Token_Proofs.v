(** Proofs about the tokens of a line. *)
From Verif Require Import Base Token_Model Token_Spec.
From Coq Require Import Sorting.Sorted.

Lemma splits_iff m c : is_separator c m = true <-> splits m c.
Proof.
  destruct m; cbn [is_separator splits].
  - rewrite mem_char_iff. cbn. intuition congruence.
  - rewrite orb_true_iff, mem_char_iff. reflexivity.
Qed.

Lemma denotes_app line x t : denotes line t -> denotes (line ++ x) t.
Proof.
  intros ((L1 & L2) & R & B1 & B2). unfold denotes. rewrite app_length.
  rewrite !firstn_app. replace (char_start t - length line) with 0 by lia. replace (char_end t - length line) with 0 by lia.
  cbn [firstn]. rewrite !app_nil_r. repeat split; try assumption; try lia.
  rewrite R, skipn_app. replace (char_start t - length line) with 0 by lia. cbn [skipn].
  rewrite firstn_app, skipn_length. replace (char_end t - char_start t - (length line - char_start t)) with 0 by lia.
  cbn [firstn]. rewrite app_nil_r. reflexivity.
Qed.

Lemma separator_app m line x i : i < length line -> separator_at m (line ++ x) i <-> separator_at m line i.
Proof.
  intros L. unfold separator_at. rewrite nth_error_app1 by exact L. rewrite firstn_app.
  replace (i - length line) with 0 by lia. cbn [firstn]. rewrite app_nil_r. reflexivity.
Qed.
Lemma separator_end m line c : separator_at m (line ++ [c]) (length line) <-> splits m c /\ quoting line = (Unquoted, false).
Proof.
  unfold separator_at. rewrite nth_error_app2, Nat.sub_diag by lia. rewrite firstn_app, Nat.sub_diag, firstn_all. cbn [firstn nth_error].
  rewrite app_nil_r. split; [intros (d & [= ->] & H); exact H|intros H; exists c; split; [reflexivity|exact H]].
Qed.
Lemma quoting_snoc p c : quoting (p ++ [c]) = quoting1 (quoting p) c.
Proof. unfold quoting. rewrite fold_left_app. reflexivity. Qed.

(** where the token being read starts *)
Definition from (p : str) (s : scan) : nat := match token_start s with Some (_, i) => i | None => length p end.
Record inv (m : separator_mode) (p : str) (s : scan) : Prop := {
  i_quote : (quote s, escaped s) = quoting p;
  i_spans : Forall (denotes p) (spans s);
  i_end : Forall (fun t => char_end t < from p s) (spans s);
  i_sorted : StronglySorted before (spans s);
  i_none : token_start s = None -> current s = [];
  i_some : forall b i, token_start s = Some (b, i) -> i < length p /\ b = blen (firstn i p) /\ current s = skipn i p;
  i_cover : forall i, i < from p s -> (Exists (fun t => covers t i) (spans s) <-> ~ separator_at m p i);
  i_cur : forall i, from p s <= i < length p -> ~ separator_at m p i
}.

Lemma sorted_snoc l (t : span) : StronglySorted before l -> Forall (fun u => char_end u < char_start t) l -> StronglySorted before (l ++ [t]).
Proof.
  induction 1 as [|u l S IH F]; intros H; cbn [app]; [repeat constructor|]. inversion H; subst.
  constructor; [apply IH; assumption|]. apply Forall_app. split; [exact F|repeat constructor]. assumption.
Qed.

(** closing the token at the end of the prefix *)
Lemma inv_push m p s : inv m p s ->
  tokens_of p m (spans (push_current s (blen p) (length p))) /\
  Forall (fun t => char_end t <= length p) (spans (push_current s (blen p) (length p))) /\
  token_start (push_current s (blen p) (length p)) = None /\ current (push_current s (blen p) (length p)) = [] /\
  quote (push_current s (blen p) (length p)) = quote s /\ escaped (push_current s (blen p) (length p)) = escaped s.
Proof.
  intros I. pose proof (i_cover _ _ _ I) as Hc. pose proof (i_cur _ _ _ I) as Hu. pose proof (i_end _ _ _ I) as He. pose proof (i_spans _ _ _ I) as Hs. unfold push_current, tokens_of, from in *.
  destruct (token_start s) as [[b i]|] eqn:T.
  - destruct (i_some _ _ _ I b i T) as (L & B & C).
    assert (N : current s <> []). { rewrite C. intros E. apply (f_equal (@length _)) in E. rewrite skipn_length in E. cbn in E. lia. }
    destruct (current s) as [|x cur] eqn:E; [congruence|]. cbn [spans token_start current quote escaped]. rewrite C.
    assert (D : denotes p (Span (skipn i p) b (blen p) i (length p))).
    { unfold denotes. cbn. split; [lia|]. split; [|split].
      - rewrite firstn_all2; [reflexivity|rewrite skipn_length; lia].
      - exact B.
      - rewrite firstn_all. reflexivity. }
    repeat split.
    + apply Forall_app. split; [exact Hs|repeat constructor; apply D].
    + apply sorted_snoc; [exact (i_sorted _ _ _ I)|exact He].
    + intros X. apply Exists_app in X as [X|X].
      * assert (i0 < i). { apply Exists_exists in X as (t & Ht & Cv). rewrite Forall_forall in He. specialize (He t Ht). cbn in He. unfold covers in Cv. lia. }
        apply Hc; assumption.
      * apply Hu. inversion X as [? ? Cv|? ? Cv]; subst; [|inversion Cv]. unfold covers in Cv. cbn in Cv. lia.
    + intros X. apply Exists_app. destruct (Nat.lt_ge_cases i0 i) as [Hl|Hl].
      * left. apply Hc; assumption.
      * right. constructor. unfold covers. cbn. lia.
    + apply Forall_app. split; [|repeat constructor; cbn; lia]. eapply Forall_impl; [|exact He]. cbn. lia.
  - pose proof (i_none _ _ _ I T) as C. repeat split; try assumption.
    + exact (i_sorted _ _ _ I).
    + apply Hc. assumption.
    + apply Hc. assumption.
    + eapply Forall_impl; [|exact He]. cbn. lia.
Qed.

(** reading a character that belongs to a token *)
Lemma inv_take m p s c q e : inv m p s -> (q, e) = quoting1 (quoting p) c -> ~ (splits m c /\ quoting p = (Unquoted, false)) ->
  inv m (p ++ [c]) (Scan (spans s) (current s ++ [c]) (ensure (token_start s) (blen p) (length p)) q e).
Proof.
  intros I Q N. pose proof (i_cover _ _ _ I) as Hc. pose proof (i_cur _ _ _ I) as Hu. pose proof (i_end _ _ _ I) as He. unfold from in *.
  assert (F : from (p ++ [c]) (Scan (spans s) (current s ++ [c]) (ensure (token_start s) (blen p) (length p)) q e) = from p s).
  { unfold from, ensure. cbn. destruct (token_start s) as [[? ?]|]; reflexivity. }
  assert (L : from p s <= length p).
  { unfold from. destruct (token_start s) as [[b i]|] eqn:T; [|lia]. pose proof (i_some _ _ _ I b i T). lia. }
  constructor; try rewrite F; cbn [quote escaped spans current token_start].
  - rewrite quoting_snoc. exact Q.
  - eapply Forall_impl; [|exact (i_spans _ _ _ I)]. intros t. apply denotes_app.
  - exact He.
  - exact (i_sorted _ _ _ I).
  - unfold ensure. destruct (token_start s); discriminate.
  - intros b i E. rewrite app_length. cbn. unfold ensure in E. destruct (token_start s) as [[b' i']|] eqn:T.
    + injection E as <- <-. destruct (i_some _ _ _ I b' i' T) as (L' & B & C). repeat split; [lia| |].
      * rewrite firstn_app. replace (i' - length p) with 0 by lia. cbn [firstn]. rewrite app_nil_r. exact B.
      * rewrite C, skipn_app. replace (i' - length p) with 0 by lia. reflexivity.
    + injection E as <- <-. repeat split; [lia| |].
      * rewrite firstn_app, Nat.sub_diag, firstn_all. cbn [firstn]. rewrite app_nil_r. reflexivity.
      * rewrite (i_none _ _ _ I T), skipn_app, Nat.sub_diag, skipn_all. reflexivity.
  - intros i Hi. rewrite separator_app by lia. apply Hc. exact Hi.
  - intros i Hi. rewrite app_length in Hi. cbn in Hi. destruct (Nat.eq_dec i (length p)) as [-> | Ne].
    + rewrite separator_end. exact N.
    + rewrite separator_app by lia. apply Hu. unfold from in Hi. lia.
Qed.

Lemma inv_step m p s c : inv m p s -> inv m (p ++ [c]) (scan1 m (blen p) (length p) c s).
Proof.
  intros I. pose proof (i_quote _ _ _ I) as Q. unfold scan1.
  destruct (escaped s) eqn:E; [|destruct (quote s) eqn:Eq; [destruct (is_separator c m) eqn:Sep| |]].
  - apply inv_take; [exact I| |]; rewrite <- Q; [|intros [_ X]; discriminate]. unfold quoting1. destruct (quote s); reflexivity.
  - apply splits_iff in Sep. destruct (inv_push m p s I) as ((D & So & Cv) & En & T & C & Hq & He). constructor; rewrite ?T, ?C, ?Hq, ?He.
    + rewrite quoting_snoc, <- Q, Eq, E. unfold quoting1. assert (Nq : c <> 39%N /\ c <> 34%N /\ c <> 92%N).
      { repeat split; intros ->; (destruct m; cbn in Sep; [destruct Sep; discriminate|destruct Sep as [X|X]; [discriminate|]; repeat (destruct X as [X|X]; [discriminate|]); contradiction]). }
      destruct Nq as (N1 & N2 & N3). apply N.eqb_neq in N1, N2, N3. rewrite N1, N2, N3. reflexivity.
    + eapply Forall_impl; [|exact D]. intros t. apply denotes_app.
    + unfold from. rewrite T, app_length. cbn. eapply Forall_impl; [|exact En]. cbn. lia.
    + exact So.
    + reflexivity.
    + discriminate.
    + unfold from. rewrite T, app_length. cbn. intros i Hi. destruct (Nat.eq_dec i (length p)) as [-> | Ne].
      * rewrite separator_end. split; [|intros X; exfalso; apply X; split; [exact Sep|symmetry; exact Q]].
        intros X. exfalso. apply Exists_exists in X as (t & Ht & Ct). rewrite Forall_forall in En. specialize (En t Ht). cbn in En. unfold covers in Ct. lia.
      * rewrite separator_app by lia. apply Cv. lia.
    + unfold from. rewrite T. intros i Hi. lia.
  - apply inv_take; [exact I| |]; rewrite <- Q.
    + unfold quoting1. destruct (N.eqb_spec c 39) as [->|]; [reflexivity|]. destruct (N.eqb_spec c 34) as [->|]; reflexivity.
    + intros [X _]. apply splits_iff in X. congruence.
  - apply inv_take; [exact I| |]; rewrite <- Q; [reflexivity|intros [_ X]; discriminate].
  - apply inv_take; [exact I| |]; rewrite <- Q; [|intros [_ X]; discriminate]. unfold quoting1. destruct (N.eqb_spec c 34) as [->|]; reflexivity.
Qed.

Lemma blen_snoc p c : blen (p ++ [c]) = blen p + utf8_len c.
Proof. rewrite blen_app. cbn. lia. Qed.

Lemma scan_from_inv m r : forall p s, inv m p s -> tokens_of (p ++ r) m (spans (scan_from m (blen p) (length p) r s)).
Proof.
  induction r as [|c r IH]; intros p s I; cbn [scan_from].
  - rewrite app_nil_r. apply (inv_push m p s I).
  - rewrite <- blen_snoc. replace (S (length p)) with (length (p ++ [c])) by (rewrite app_length; cbn; lia).
    replace (p ++ c :: r) with ((p ++ [c]) ++ r) by (rewrite <- app_assoc; reflexivity). apply IH, inv_step, I.
Qed.

Lemma inv_start m : inv m [] (Scan [] [] None Unquoted false).
Proof. constructor; cbn; try reflexivity; try constructor; try discriminate; lia. Qed.

Lemma tokenize_tokens line m : tokens_of line m (tokenize line m).
Proof. unfold tokenize. exact (scan_from_inv m line [] _ (inv_start m)). Qed.
