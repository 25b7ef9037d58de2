(** Aliases: only the names typed are looked up. *)
From Verif Require Import Base Peg_Model Grammar_Model Parse_Model Env_Model Expand_Model Expand_Spec.

Fixpoint tree_ind (P : pair_ -> Prop) (H : forall r p t inner, Forall P inner -> P (Node r p t inner)) (n : pair_) : P n :=
  match n with
  | Node r p t inner => H r p t inner ((fix go (l : list pair_) : Forall P l := match l with [] => Forall_nil P | x :: l' => Forall_cons x (tree_ind P H x) (go l') end) inner)
  end.
Lemma within_trans a b c : within a b -> within b c -> within a c.
Proof. intros H. induction 1; [exact H|]. econstructor; eauto. Qed.

Section Alias.
Variable home : option str.
Variable glob : str -> list str.
Variables a1 a2 : map_.
Notation e1 := (expand_tree home glob a1).
Notation e2 := (expand_tree home glob a2).

Fixpoint eacha (f : pair_ -> list str) (l : list pair_) : list str := match l with [] => [] | q :: l' => f q ++ eacha f l' end.
Lemma eacha_ext (f g : pair_ -> list str) l : (forall q, In q l -> f q = g q) -> eacha f l = eacha g l.
Proof using. induction l as [|q l IH]; intros H; [reflexivity|]. cbn [eacha]. rewrite (H q) by (left; reflexivity). rewrite IH; [reflexivity|]. intros; apply H; right; assumption. Qed.

(** expand_tree with its loops named *)
Definition names_ (alias : map_) (f : pair_ -> list str) (l : list pair_) : list str := eacha (fun q => expand_name alias (f q)) l.
Definition go1 (alias : map_) (f : pair_ -> list str) (q : pair_) : list str :=
  match q with
  | Node r' _ t' inner' =>
      match r' with
      | simple_command_bg => eacha (fun x => if rule_eqb (rule_of x) background_op then [text_of x] else f x) inner'
      | proc_subst => [lit "<("] ++ eacha f inner' ++ [lit ")"]
      | command_subst => [t']
      | subshell => [lit "("] ++ eacha f inner' ++ [lit ")"]
      | argv0 => names_ alias f inner'
      | pipe_command => eacha (fun x => if rule_eqb (rule_of x) pipeline_op then [text_of x] else f x) inner'
      | commands | command | simple_command | args | span => eacha f inner'
      | Grammar_Model.word | glob_word | brace_word | variable | s_quoted | d_quoted | literal_s_quoted | literal_d_quoted
      | proc_subst_direction_in | stdout_redirect_direction | stderr_redirect_direction
      | stdouterr_redirect_direction => f q
      | _ => []
      end
  end.
Definition et1 (alias : map_) (f : pair_ -> list str) (p : pair_) : list str :=
  match p with
  | Node r _ t inner =>
      match r with
      | glob_word | brace_word => expand_pattern home glob t
      | Grammar_Model.word | variable | s_quoted | d_quoted | literal_s_quoted | literal_d_quoted
      | stdout_redirect_direction | stderr_redirect_direction | stdouterr_redirect_direction
      | stdin_redirect_direction | stdin_redirect_direction_in | command_subst => [tilde home t]
      | argv0 => names_ alias f inner
      | pipe_command | redirect => eacha f inner
      | _ => eacha (go1 alias f) inner
      end
  end.
Lemma eacha_loop f l : (fix each (l : list pair_) : list str := match l with [] => [] | q :: l' => f q ++ each l' end) l = eacha f l.
Proof using. induction l as [|q l IH]; [reflexivity|]. cbn [eacha]. f_equal. exact IH. Qed.
Lemma et1_eq alias p : expand_tree home glob alias p = et1 alias (expand_tree home glob alias) p.
Proof using.
  destruct p as [r p t inner]. cbn [expand_tree et1].
  assert (N : forall l, (fix names (l : list pair_) : list str := match l with [] => [] | q :: l' => expand_name alias (expand_tree home glob alias q) ++ names l' end) l = names_ alias (expand_tree home glob alias) l).
  { intros l. unfold names_. exact (eacha_loop (fun q => expand_name alias (expand_tree home glob alias q)) l). }
  assert (G : forall l,
    (fix go (l : list pair_) : list str :=
             match l with
             | [] => []
             | Node r' _ t' inner' as q :: l' =>
                 match r' with
                 | simple_command_bg =>
                     (fix bg (m : list pair_) : list str :=
                        match m with
                        | [] => []
                        | x :: m' => (if rule_eqb (rule_of x) background_op then [text_of x] else expand_tree home glob alias x) ++ bg m'
                        end) inner'
                 | proc_subst => [lit "<("] ++ (fix each (l : list pair_) : list str := match l with [] => [] | q :: l' => expand_tree home glob alias q ++ each l' end) inner' ++ [lit ")"]
                 | command_subst => [t']
                 | subshell => [lit "("] ++ (fix each (l : list pair_) : list str := match l with [] => [] | q :: l' => expand_tree home glob alias q ++ each l' end) inner' ++ [lit ")"]
                 | argv0 => (fix names (l : list pair_) : list str := match l with [] => [] | q :: l' => expand_name alias (expand_tree home glob alias q) ++ names l' end) inner'
                 | pipe_command =>
                     (fix pc (m : list pair_) : list str :=
                        match m with
                        | [] => []
                        | x :: m' => (if rule_eqb (rule_of x) pipeline_op then [text_of x] else expand_tree home glob alias x) ++ pc m'
                        end) inner'
                 | commands | command | simple_command | args | span => (fix each (l : list pair_) : list str := match l with [] => [] | q :: l' => expand_tree home glob alias q ++ each l' end) inner'
                 | Grammar_Model.word | glob_word | brace_word | variable | s_quoted | d_quoted | literal_s_quoted | literal_d_quoted
                 | proc_subst_direction_in | stdout_redirect_direction | stderr_redirect_direction
                 | stdouterr_redirect_direction => expand_tree home glob alias q
                 | _ => []
                 end ++ go l'
             end) l = eacha (go1 alias (expand_tree home glob alias)) l).
  { clear. induction l as [|[r' p' t' inner'] l IH]; [reflexivity|]. cbn [eacha go1]. rewrite <- IH. f_equal.
    rewrite <- !(eacha_loop (expand_tree home glob alias)). unfold names_.
    rewrite <- (eacha_loop (fun q => expand_name alias (expand_tree home glob alias q))).
    rewrite <- (eacha_loop (fun x => if rule_eqb (rule_of x) background_op then [text_of x] else expand_tree home glob alias x)).
    rewrite <- (eacha_loop (fun x => if rule_eqb (rule_of x) pipeline_op then [text_of x] else expand_tree home glob alias x)).
    destruct r'; reflexivity. }
  destruct r; try reflexivity; try (exact (eacha_loop _ inner)); try (exact (N inner)); exact (G inner).
Qed.

Definition agree (p : pair_) : Prop := forall k, name_in home glob a1 p k -> assoc k a1 = assoc k a2.
Lemma agree_below p q : within q p -> agree p -> agree q.
Proof using. intros W A k (n & x & H & R). apply A. exists n, x. split; [exact (within_trans _ _ _ H W)|exact R]. Qed.
Lemma expand_name_agree v : match v with k :: _ => assoc k a1 = assoc k a2 | [] => True end -> expand_name a1 v = expand_name a2 v.
Proof using. destruct v as [|k v]; intros H; [reflexivity|]. cbn [expand_name]. rewrite H. reflexivity. Qed.
Lemma names_agree p inner : within (Node argv0 (fst p) (snd p) inner) (Node argv0 (fst p) (snd p) inner) -> agree (Node argv0 (fst p) (snd p) inner) ->
  (forall q, In q inner -> e1 q = e2 q) -> names_ a1 e1 inner = names_ a2 e2 inner.
Proof using.
  intros _ A H. unfold names_. apply eacha_ext. intros q I. rewrite <- (H q I). apply expand_name_agree. destruct (e1 q) as [|k v] eqn:E; [exact Logic.I|].
  apply A. eexists _, q. split; [apply within_here|]. split; [reflexivity|]. split; [exact I|]. right. rewrite E. reflexivity.
Qed.
Lemma tree_agree p : agree p -> forall n, within n p -> e1 n = e2 n.
Proof using.
  induction p as [r p t inner IH] using tree_ind. rewrite Forall_forall in IH. intros A.
  assert (B : forall q, In q inner -> forall n, within n q -> e1 n = e2 n).
  { intros q I n W. apply (IH q I); [|exact W]. apply (agree_below (Node r p t inner)); [|exact A]. econstructor; [exact I|apply within_here]. }
  assert (R : e1 (Node r p t inner) = e2 (Node r p t inner)).
  { rewrite !et1_eq. cbn [et1].
    assert (E0 : eacha e1 inner = eacha e2 inner) by (apply eacha_ext; intros q I; apply (B q I), within_here).
    assert (E1 : r = argv0 -> names_ a1 e1 inner = names_ a2 e2 inner).
    { intros ->. apply (names_agree (p, t)); [apply within_here|exact A|]. intros q I. apply (B q I), within_here. }
    assert (E2 : eacha (go1 a1 e1) inner = eacha (go1 a2 e2) inner).
    { apply eacha_ext. intros q I. destruct q as [r' p' t' inner'] eqn:Eq. cbn [go1].
      assert (C : forall x, In x inner' -> e1 x = e2 x) by (intros x X; apply (B _ I); econstructor; [exact X|apply within_here]).
      assert (F0 : eacha e1 inner' = eacha e2 inner') by (apply eacha_ext; exact C).
      assert (F1 : r' = argv0 -> names_ a1 e1 inner' = names_ a2 e2 inner').
      { intros ->. apply (names_agree (p', t')); [apply within_here| |exact C]. apply (agree_below (Node r p t inner)); [|exact A]. econstructor; [exact I|apply within_here]. }
      assert (F2 : forall x, eacha (fun y => if rule_eqb (rule_of y) x then [text_of y] else e1 y) inner' = eacha (fun y => if rule_eqb (rule_of y) x then [text_of y] else e2 y) inner').
      { intros x. apply eacha_ext. intros y Y. destruct (rule_eqb (rule_of y) x); [reflexivity|apply C, Y]. }
      destruct r'; try reflexivity; try exact F0; try (apply F1; reflexivity); try apply F2; try (rewrite F0; reflexivity); apply (B _ I), within_here. }
    destruct r; try reflexivity; try exact E0; try exact E2; apply E1; reflexivity. }
  intros n W. inversion W; subst; [exact R|]. eapply B; eassumption.
Qed.
Lemma needed_agree p : agree p -> needed a1 p = needed a2 p.
Proof using.
  induction p as [r p t inner IH] using tree_ind. intros A.
  assert (B : Forall (fun q => needed a1 q = needed a2 q) inner).
  { rewrite Forall_forall in *. intros q I. apply (IH q I). apply (agree_below (Node r p t inner)); [|exact A]. econstructor; [exact I|apply within_here]. }
  assert (G : forall l, Forall (fun q => needed a1 q = needed a2 q) l ->
    (fix any (l : list pair_) : bool := match l with [] => false | q :: l' => needed a1 q || any l' end) l =
    (fix any (l : list pair_) : bool := match l with [] => false | q :: l' => needed a2 q || any l' end) l).
  { clear. induction 1 as [|q l H F IHl]; [reflexivity|]. rewrite H, IHl. reflexivity. }
  cbn [needed]. specialize (G inner B). destruct r; try exact G; try reflexivity. rewrite G. f_equal. destruct inner as [|q l]; [reflexivity|].
  rewrite (A (get_string q)); [reflexivity|]. eexists _, q. split; [apply within_here|]. split; [reflexivity|]. split; [left; reflexivity|left; reflexivity].
Qed.
End Alias.

Lemma pairs_agree home glob a1 a2 e p : agree home glob a1 a2 p -> expand_pairs home glob a1 e [p] = expand_pairs home glob a2 e [p].
Proof.
  intros A. unfold expand_pairs. f_equal. cbn [flat_map]. rewrite !app_nil_r. destruct p as [r s t inner]. cbn [inner_of].
  assert (H : forall c, In c inner -> expand_command home glob a1 e c = expand_command home glob a2 e c).
  { intros c I. unfold expand_command. assert (W : forall q, In q (inner_of c) -> expand_tree home glob a1 q = expand_tree home glob a2 q).
    { intros q J. apply (tree_agree home glob a1 a2 _ A). econstructor; [exact I|]. destruct c. econstructor; [exact J|apply within_here]. }
    destruct (rule_of c); try reflexivity. induction (inner_of c) as [|q l IH]; [reflexivity|]. cbn [flat_map]. rewrite IH by (intros; apply W; right; assumption).
    f_equal. rewrite (W q) by (left; reflexivity). reflexivity. }
  clear A. induction inner as [|c l IH]; [reflexivity|]. cbn [flat_map]. rewrite (H c) by (left; reflexivity). f_equal. apply IH. intros; apply H; right; assumption.
Qed.
