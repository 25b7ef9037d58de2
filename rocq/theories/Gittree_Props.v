(** C146 gwt: which worktrees are removed, and where new ones are made. *)
From Verif Require Import Base Direnv_Model Git_Model Git_Spec Git_Props.
From Coq Require Import Lia Bool.

(** ** the options *)
Definition lookup (a : str) : option (list switch) := option_map snd (find (fun e => str_eqb (fst e) a) switches).
Definition sw_eqb (a b : switch) : bool :=
  match a, b with Rm, Rm | Prune_, Prune_ | FromPr, FromPr | Force, Force | New, New | Edit, Edit | Stay, Stay => true | _, _ => false end.
Definition has (ss : list switch) (s : switch) : bool := existsb (sw_eqb s) ss.
Lemma sw_iff a b : sw_eqb a b = true <-> a = b.
Proof. destruct a, b; split; intros H; try reflexivity; discriminate. Qed.
Lemma has_iff ss s : has ss s = true <-> In s ss.
Proof. unfold has. rewrite existsb_exists. split; [intros (x & I & E); apply sw_iff in E; subst; exact I|intros I; exists s; split; [exact I|apply sw_iff; reflexivity]]. Qed.
Lemma lookup_iff a ss : lookup a = Some ss <-> In (a, ss) switches.
Proof.
  split.
  - unfold lookup. destruct (find (fun e => str_eqb (fst e) a) switches) as [[k v]|] eqn:E; [|discriminate]. intros H. inversion H; subst. apply find_some in E as [I E]. cbn in E. apply str_eqb_eq in E. subst. exact I.
  - intros I. unfold switches in I. repeat (destruct I as [E|I]; [inversion E; subst; vm_compute; reflexivity|]). destruct I.
Qed.
Definition switched (ss : list switch) (f : flags) : flags :=
  Flags (f_cd f && negb (has ss Stay)) (f_edit f || has ss Edit) (f_new f || has ss New) (f_branch f) (f_remove f || has ss Rm) (f_prune f || has ss Prune_) (f_force f || has ss Force) (f_pr f || has ss FromPr).
Lemma flag_spec a f : flag a f =
  match lookup a with
  | Some ss => Some (switched ss f)
  | None => if starts_with (lit "-") a then None
            else match f_branch f with
                 | Some _ => None
                 | None => Some (Flags (f_cd f) (f_edit f) (f_new f) (Some a) (f_remove f) (f_prune f) (f_force f) (f_pr f))
                 end
  end.
Proof.
  destruct f as [cd ed nw br rm pn fc pr].
  assert (K : forall x, str_eqb (lit x) a = str_eqb a (lit x)) by (intros x; destruct (str_eqb_spec (lit x) a) as [<-|N]; [symmetry; apply str_eqb_refl|]; symmetry; apply str_eqb_neq; congruence).
  unfold flag, lookup, switches. cbn [find fst]. rewrite !K. unfold switched. cbn [f_cd f_edit f_new f_branch f_remove f_prune f_force f_pr].
  Ltac hit := cbn [option_map snd orb]; unfold has; cbn [existsb sw_eqb orb negb]; rewrite ?orb_true_r, ?orb_false_r, ?andb_true_r, ?andb_false_r; reflexivity.
  repeat match goal with
  | |- context [str_eqb a (lit ?x)] => destruct (str_eqb_spec a (lit x)) as [->|?]; [hit|]
  end.
  hit.
Qed.
Lemma dashed_iff a : starts_with (lit "-") a = true <-> dashed a.
Proof. unfold dashed. apply starts_with_iff. Qed.
Lemma lookup_dashed a ss : lookup a = Some ss -> dashed a.
Proof. intros H. apply lookup_iff in H. apply dashed_iff. unfold switches in H. repeat (destruct H as [E|H]; [inversion E; subst; reflexivity|]). destruct H. Qed.
Definition onb (l : list str) (s : switch) : bool := existsb (fun a => match lookup a with Some ss => has ss s | None => false end) l.
Lemma onb_iff l s : onb l s = true <-> on l s.
Proof.
  unfold onb, on. rewrite existsb_exists. split.
  - intros (a & I & E). destruct (lookup a) as [ss|] eqn:L; [|discriminate]. exists a, ss. split; [exact I|]. split; [apply lookup_iff, L|apply has_iff, E].
  - intros (a & ss & I & L & J). exists a. split; [exact I|]. apply lookup_iff in L. rewrite L. apply has_iff, J.
Qed.
(** the loop over the arguments *)
Lemma flags_some l : forall f f', flags_of l f = Some f' ->
  f_cd f' = f_cd f && negb (onb l Stay) /\ f_edit f' = f_edit f || onb l Edit /\ f_new f' = f_new f || onb l New /\
  f_remove f' = f_remove f || onb l Rm /\ f_prune f' = f_prune f || onb l Prune_ /\ f_force f' = f_force f || onb l Force /\ f_pr f' = f_pr f || onb l FromPr /\
  match f_branch f with
  | None => proper l (f_branch f')
  | Some b => f_branch f' = Some b /\ proper l None
  end.
Proof.
  induction l as [|a l IH]; intros f f' H.
  - inversion H; subst. cbn [onb existsb]. rewrite !orb_false_r. cbn [negb]. rewrite andb_true_r. repeat (split; [reflexivity|]).
    destruct (f_branch f'); [split; [reflexivity|]|]; (split; [intros a []|intros a []]).
  - cbn [flags_of] in H. rewrite flag_spec in H. unfold onb in *. cbn [existsb].
    destruct (lookup a) as [ss|] eqn:L.
    + apply IH in H as (E1 & E2 & E3 & E4 & E5 & E6 & E7 & B). destruct f as [cd ed nw br rm pn fc pr]. unfold switched in *. cbn [f_cd f_edit f_new f_branch f_remove f_prune f_force f_pr] in *.
      rewrite E1, E2, E3, E4, E5, E6, E7. rewrite negb_orb, andb_assoc, !orb_assoc. repeat (split; [reflexivity|]).
      assert (D := lookup_dashed a ss L). assert (In1 : In (a, ss) switches) by (apply lookup_iff, L).
      assert (Ext : forall o, proper l o -> proper (a :: l) o).
      { intros o [P Q]. split; [intros x [<-|I] X; [exists ss; exact In1|exact (P x I X)]|]. destruct o as [n|].
        - destruct Q as (x & y & -> & N & A). exists (a :: x), y. split; [reflexivity|]. split; [exact N|]. intros z [<-|I]; [exact D|exact (A z I)].
        - intros x [<-|I]; [exact D|exact (Q x I)]. }
      destruct br as [b|]; [destruct B as [B1 B2]; split; [exact B1|exact (Ext None B2)]|exact (Ext _ B)].
    + destruct (starts_with (lit "-") a) eqn:D; [discriminate|]. destruct (f_branch f) as [b|] eqn:Fb; [discriminate|].
      apply IH in H as (E1 & E2 & E3 & E4 & E5 & E6 & E7 & B). cbn [f_cd f_edit f_new f_branch f_remove f_prune f_force f_pr] in *.
      cbn [orb]. repeat (split; [assumption|]). destruct B as [-> [P Q]].
      assert (Na : ~ dashed a) by (intros X; apply dashed_iff in X; congruence).
      split; [intros x [<-|I] X; [destruct (Na X)|exact (P x I X)]|]. exists [], l. split; [reflexivity|]. split; [exact Na|]. exact Q.
Qed.
Lemma flags_proper l : forall f b, proper l b -> (f_branch f = None \/ b = None) -> exists f', flags_of l f = Some f'.
Proof.
  induction l as [|a l IH]; intros f b [P Q] F; [eexists; reflexivity|]. cbn [flags_of]. rewrite flag_spec.
  destruct (lookup a) as [ss|] eqn:L.
  - apply IH with (b := b).
    + split; [intros x I X; exact (P x (or_intror I) X)|]. destruct b as [n|].
      * destruct Q as ([|x0 x] & y & E & N & A); cbn in E; inversion E; subst; [destruct (N (lookup_dashed n ss L))|]. exists x, y. split; [reflexivity|]. split; [exact N|]. intros z I. apply A. right. exact I.
      * intros x I. apply Q. right. exact I.
    + cbn [switched f_branch]. exact F.
  - assert (Na : ~ dashed a) by (intros D; destruct (P a (or_introl eq_refl) D) as [ss S]; apply lookup_iff in S; congruence).
    destruct (starts_with (lit "-") a) eqn:D; [destruct Na; apply dashed_iff, D|].
    destruct b as [n|]; [|destruct (Na (Q a (or_introl eq_refl)))]. destruct F as [F|F]; [|discriminate]. rewrite F.
    destruct Q as ([|x0 x] & y & E & N & A); cbn in E; inversion E; subst; [|destruct (Na (A x0 (or_introl eq_refl)))].
    apply IH with (b := None); [|right; reflexivity]. split; [intros z I X; exact (P z (or_intror I) X)|exact A].
Qed.
Lemma proper_same l b1 b2 : proper l b1 -> proper l b2 -> b1 = b2.
Proof.
  intros [_ A] [_ B]. destruct b1 as [n|], b2 as [m|]; try reflexivity.
  - destruct A as (x & y & -> & N & A), B as (x' & y' & E & M & B). assert (I : In n (x' ++ m :: y')) by (rewrite <- E; apply in_or_app; right; left; reflexivity).
    apply in_app_or in I as [I|[->|I]]; [destruct (N (B n (in_or_app _ _ _ (or_introl I))))|reflexivity|destruct (N (B n (in_or_app _ _ _ (or_intror I))))].
  - destruct A as (x & y & -> & N & _). destruct N. apply B. apply in_or_app. right. left. reflexivity.
  - destruct B as (x & y & -> & N & _). destruct N. apply A. apply in_or_app. right. left. reflexivity.
Qed.
Lemma bool_iff (b : bool) P : (b = true <-> P) -> b = false <-> ~ P.
Proof. intros H. destruct b; split; intros X; [discriminate|destruct X; apply H; reflexivity|intros p; apply H in p; discriminate|reflexivity]. Qed.
Ltac onrw H := rewrite <- onb_iff in H.
Lemma off_iff l s : onb l s = false <-> ~ on l s.
Proof. apply bool_iff, onb_iff. Qed.
Lemma flags_start l f : flags_of l (Flags true false false None false false false false) = Some f ->
  f_cd f = negb (onb l Stay) /\ f_edit f = onb l Edit /\ f_new f = onb l New /\ f_remove f = onb l Rm /\ f_prune f = onb l Prune_ /\ f_force f = onb l Force /\ f_pr f = onb l FromPr /\ proper l (f_branch f).
Proof. intros H. apply flags_some in H. exact H. Qed.

(** gwt removes exactly when the arguments are proper and say so, with force exactly when they say so. *)
Theorem C146_remove l force cd ed :
  parse_options l = Some (Options (Remove force) cd ed) <->
  (exists b, proper l b) /\ on l Rm /\ (force = true <-> on l Force) /\ cd = false /\ ed = false.
Proof.
  destruct l as [|a l]; [split; [discriminate|intros (_ & (x & ss & [] & _) & _)]|]. unfold parse_options. set (L := a :: l). split.
  - destruct (flags_of L _) as [f|] eqn:E; [|discriminate]. apply flags_start in E as (E1 & E2 & E3 & E4 & E5 & E6 & E7 & P). rewrite E4.
    destruct (onb L Rm) eqn:R; [|destruct (f_prune f); [discriminate|]; destruct (f_pr f); [discriminate|]; destruct (f_branch f); [discriminate|]; destruct (f_edit f || f_new f); discriminate].
    intros H. inversion H; subst. split; [exists (f_branch f); exact P|]. split; [apply onb_iff, R|]. rewrite E6. split; [apply onb_iff|auto].
  - intros ((b & P) & R & Fc & -> & ->). destruct (flags_proper L (Flags true false false None false false false false) b P (or_introl eq_refl)) as [f E]. rewrite E.
    apply flags_start in E as (_ & _ & _ & E4 & _ & E6 & _). apply onb_iff in R. rewrite E4, R, E6. do 3 f_equal.
    destruct (onb L Force) eqn:F; [symmetry; apply Fc, onb_iff, F|]. destruct force; [|reflexivity]. apply off_iff in F. destruct F. apply Fc. reflexivity.
Qed.
(** and adds one exactly when there is a name and nothing else is asked for *)
Theorem C146_add_options l n create cd ed :
  parse_options l = Some (Options (Add n create) cd ed) <->
  proper l (Some n) /\ ~ on l Rm /\ ~ on l Prune_ /\ ~ on l FromPr /\ (create = true <-> on l New) /\ (cd = true <-> ~ on l Stay) /\ (ed = true <-> on l Edit).
Proof.
  destruct l as [|a l]; [split; [discriminate|intros ([_ (x & y & E & _)] & _); destruct x; discriminate]|]. unfold parse_options. set (L := a :: l). split.
  - destruct (flags_of L _) as [f|] eqn:E; [|discriminate]. apply flags_start in E as (E1 & E2 & E3 & E4 & E5 & E6 & E7 & P). rewrite E4, E5, E7.
    destruct (onb L Rm) eqn:R; [discriminate|]. destruct (onb L Prune_) eqn:Pn; [discriminate|]. destruct (onb L FromPr) eqn:Pr; [discriminate|].
    destruct (f_branch f) as [b|]; [|destruct (f_edit f || f_new f); discriminate]. intros H. inversion H; subst. split; [exact P|]. rewrite <- !off_iff, E1, E2, E3.
    repeat (split; [assumption|]). split; [apply onb_iff|]. split; [|apply onb_iff]. destruct (onb L Stay); split; intros X; try reflexivity; discriminate.
  - intros (P & R & Pn & Pr & Cr & Cd & Ed). destruct (flags_proper L (Flags true false false None false false false false) (Some n) P (or_introl eq_refl)) as [f E]. rewrite E.
    apply flags_start in E as (E1 & E2 & E3 & E4 & E5 & E6 & E7 & Q). rewrite <- off_iff in R, Pn, Pr. rewrite E4, E5, E7, R, Pn, Pr. rewrite <- (proper_same L _ _ P Q). rewrite E1, E2, E3.
    assert (B : forall x y : bool, (x = true <-> y = true) -> y = x) by (intros [] [] H; try reflexivity; [destruct (proj1 H eq_refl)|destruct (proj2 H eq_refl)]; reflexivity).
    f_equal. f_equal; [f_equal| |]; apply B; [rewrite onb_iff; exact Cr| |rewrite onb_iff; exact Ed]. rewrite Cd, <- off_iff. destruct (onb L Stay); cbn; split; intros X; try reflexivity; discriminate.
Qed.

(** ** the list of worktrees *)
Lemma loop_skip ls : (forall a, In a ls -> a <> lit "bare" /\ ~ exists r, a = lit "worktree " ++ r) -> forall rest cur m acc, worktree_loop (ls ++ rest) cur m acc = worktree_loop rest cur m acc.
Proof.
  induction ls as [|a ls IH]; intros H rest cur m acc; [reflexivity|]. cbn [app worktree_loop]. destruct (H a (or_introl eq_refl)) as [A B].
  destruct (starts_with (lit "worktree ") a) eqn:E; [destruct B; apply starts_with_iff, E|]. apply str_eqb_neq in A. rewrite A. apply IH. intros x X. apply H. right. exact X.
Qed.
Definition pushed (cur : option str) (m : bool) (acc : list str) : list str := match cur with Some w => if m then acc else acc ++ [w] | None => acc end.
Lemma loop_tree t rest cur m acc : tree_ok t -> worktree_loop (tree_lines t ++ rest) cur m acc = worktree_loop rest (Some (path t)) (bare t) (pushed cur m acc).
Proof.
  intros [_ A]. unfold tree_lines. cbn [app worktree_loop].
  replace (starts_with (lit "worktree ") (lit "worktree " ++ path t)) with true by (symmetry; apply starts_with_iff; eexists; reflexivity).
  change (skipn 9 (lit "worktree " ++ path t)) with (path t). fold (pushed cur m acc).
  assert (K : forall m' acc', worktree_loop ((attributes t ++ [[]]) ++ rest) (Some (path t)) m' acc' = worktree_loop rest (Some (path t)) m' acc').
  { intros m' acc'. apply loop_skip. intros a I. apply in_app_or in I as [I|[<-|[]]]; [destruct (A a I) as (_ & B & C); auto|]. split; [discriminate|]. intros (r & E). discriminate E. }
  destruct (bare t); [|apply K]. change ((([lit "bare"] ++ attributes t ++ [[]]) ++ rest)) with (lit "bare" :: ((attributes t ++ [[]]) ++ rest)).
  change (worktree_loop (lit "bare" :: ((attributes t ++ [[]]) ++ rest)) (Some (path t)) false (pushed cur m acc)) with (worktree_loop ((attributes t ++ [[]]) ++ rest) (Some (path t)) true (pushed cur m acc)). apply K.
Qed.
Lemma loop_trees ts : (forall t, In t ts -> tree_ok t) -> forall cur m acc,
  worktree_loop (flat_map tree_lines ts) cur m acc = pushed cur m acc ++ map path (filter (fun t => negb (bare t)) ts).
Proof.
  induction ts as [|t ts IH]; intros H cur m acc; [cbn; rewrite app_nil_r; reflexivity|]. cbn [flat_map]. rewrite loop_tree by (apply H; left; reflexivity).
  rewrite IH by (intros x X; apply H; right; exact X). cbn [filter]. unfold pushed at 1. destruct (bare t); cbn [negb map]; [reflexivity|]. rewrite <- app_assoc. reflexivity.
Qed.
Lemma linked_eq ts : (forall t, In t ts -> tree_ok t) -> get_linked_worktrees (worktrees_text ts) = tl (map path (filter (fun t => negb (bare t)) ts)).
Proof.
  intros H. unfold get_linked_worktrees, worktrees_text. rewrite lines_text.
  - rewrite loop_trees by exact H. reflexivity.
  - intros l I. apply in_flat_map in I as (t & I & J). destruct (H t I) as [A B]. destruct J as [<-|J].
    + destruct A as [A1 A2]. split.
      * intros K. apply in_app_or in K as [K|K]; [|exact (A1 K)]. cbn in K. repeat (destruct K as [K|K]; [discriminate|]). destruct K.
      * intros (s & E). destruct (path t) as [|c p] eqn:Ep using rev_ind.
        { rewrite app_nil_r in E. apply (f_equal (@rev _)) in E. rewrite rev_app_distr in E. discriminate E. }
        { clear IHp. rewrite app_assoc in E. apply app_inj_tail in E as [_ ->]. apply A2. exists p. reflexivity. }
    + apply in_app_or in J as [J|J].
      * destruct (bare t); [|destruct J]. destruct J as [<-|[]]. apply no_lf_one. intros c K. cbn in K. repeat (destruct K as [<-|K]; [split; discriminate|]). destruct K.
      * apply in_app_or in J as [J|[<-|[]]]; [apply (B l J)|]. apply no_lf_one. intros c [].
Qed.
(** All the worktrees but the main one. *)
Theorem C146_linked_partial main ts :
  (forall t, In t (main :: ts) -> tree_ok t /\ bare t = false) ->
  get_linked_worktrees (worktrees_text (main :: ts)) = map path ts.
Proof.
  intros H. rewrite linked_eq by (intros t I; apply H, I). cbn [filter]. rewrite (proj2 (H main (or_introl eq_refl))). cbn [negb map tl]. f_equal.
  induction ts as [|t ts IH]; [reflexivity|]. cbn [filter]. rewrite (proj2 (H t (or_intror (or_introl eq_refl)))). cbn [negb]. f_equal. apply IH. intros x [<-|X]; apply H; [left; reflexivity|right; right; exact X].
Qed.
(** A bare repository has no main worktree, and its first linked one is left out: it cannot be removed. *)
Theorem C146_bare_refuted repo t ts :
  tree_ok repo -> bare repo = true -> (forall x, In x (t :: ts) -> tree_ok x /\ bare x = false) ->
  get_linked_worktrees (worktrees_text (repo :: t :: ts)) = map path ts.
Proof.
  intros R B H. rewrite linked_eq by (intros x [<-|I]; [exact R|apply H, I]). cbn [filter]. rewrite B, (proj2 (H t (or_introl eq_refl))). cbn [negb map tl]. f_equal.
  induction ts as [|u ts IH]; [reflexivity|]. cbn [filter]. rewrite (proj2 (H u (or_intror (or_introl eq_refl)))). cbn [negb]. f_equal. apply IH. intros x [<-|X]; apply H; [left; reflexivity|right; right; exact X].
Qed.

(** ** what is removed *)
Definition removal (force : bool) (p : str) : list str :=
  if force then [lit "worktree"; lit "remove"; lit "--force"; p] else [lit "worktree"; lit "remove"; p].
Lemma removal_eq p force : remove_worktree p force = removal force p.
Proof. destruct force; reflexivity. Qed.
(** With several linked worktrees: the one selected, or none when the menu is left. *)
Theorem C146_selected main t u ts force menu :
  (forall x, In x (main :: t :: u :: ts) -> tree_ok x /\ bare x = false) ->
  remove_interactive (worktrees_text (main :: t :: u :: ts)) force menu =
  match menu (map path (t :: u :: ts)) with
  | Some p => match is_abort p, selected p with false, w :: _ => [removal force w] | _, _ => [] end
  | None => []
  end.
Proof.
  intros H. unfold remove_interactive. rewrite C146_linked_partial by exact H. cbn [map]. destruct (menu _) as [p|]; [|reflexivity].
  destruct (is_abort p); [reflexivity|]. destruct (selected p) as [|w r]; [reflexivity|]. rewrite removal_eq. reflexivity.
Qed.
(** What is removed is always a linked worktree, whatever is selected among those offered. *)
Theorem C146_only_linked main ts argv menu cmd :
  (forall x, In x (main :: ts) -> tree_ok x /\ bare x = false) ->
  (forall offered p, menu offered = Some p -> among (selected p) offered) ->
  In cmd (gwt_removals argv (worktrees_text (main :: ts)) menu) ->
  exists t force, In t ts /\ cmd = removal force (path t) /\ on (tl argv) Rm /\ (force = true <-> on (tl argv) Force).
Proof.
  intros H M. unfold gwt_removals. destruct (parse_options (tl argv)) as [[a cd ed]|] eqn:E; [|intros []].
  destruct a as [|force| | | |]; try (intros F; destruct F; fail). apply C146_remove in E as (_ & R & F & _).
  unfold remove_interactive. rewrite C146_linked_partial by exact H. intros I. 
  assert (K : forall w, In w (map path ts) -> exists t force0, In t ts /\ removal force w = removal force0 (path t) /\ on (tl argv) Rm /\ (force0 = true <-> on (tl argv) Force)).
  { intros w W. apply in_map_iff in W as (t & <- & W). exists t, force. auto. }
  destruct (map path ts) as [|w [|w2 ws]] eqn:Ep; [destruct I| |].
  - destruct I as [<-|[]]. rewrite removal_eq. apply K. left. reflexivity.
  - destruct (menu (w :: w2 :: ws)) as [p|] eqn:Em; [|destruct I]. destruct (is_abort p); [destruct I|].
    assert (A := M _ _ Em). destruct (selected p) as [|v r]; [destruct I|]. destruct I as [<-|[]]. rewrite removal_eq. apply K, A. left. reflexivity.
Qed.
(** A sole linked worktree is removed with no question asked: the text "Remove worktree: ...?" is
    printed and nothing is read; and a name among the arguments makes no difference. *)
Theorem C146_unasked_refuted main t argv menu :
  (forall x, In x [main; t] -> tree_ok x /\ bare x = false) ->
  (exists b, proper (tl argv) b) -> on (tl argv) Rm -> ~ on (tl argv) Force ->
  gwt_removals argv (worktrees_text [main; t]) menu = [[lit "worktree"; lit "remove"; path t]].
Proof.
  intros H P R F. unfold gwt_removals. assert (E : parse_options (tl argv) = Some (Options (Remove false) false false)).
  { apply C146_remove. split; [exact P|]. split; [exact R|]. split; [split; [discriminate|intros X; destruct (F X)]|auto]. }
  rewrite E. unfold remove_interactive. rewrite C146_linked_partial by exact H. reflexivity.
Qed.
Definition sample : list tree := [Tree (lit "/w/app") false [lit "HEAD 0123"; lit "branch refs/heads/main"]; Tree (lit "/w/app-new") false [lit "HEAD 4567"; lit "branch refs/heads/new"]].
Example C146_name_ignored :
  gwt_removals [lit "gwt"; lit "-r"; lit "old"] (worktrees_text sample) (fun _ => None) = [[lit "worktree"; lit "remove"; lit "/w/app-new"]] /\
  (exists b, proper [lit "-r"; lit "old"] b) /\ on [lit "-r"; lit "old"] Rm.
Proof.
  split; [vm_compute; reflexivity|]. split.
  - exists (Some (lit "old")). split.
    + intros a [<-|[<-|[]]] D; [exists [Rm]; left; reflexivity|destruct D as (r & D); discriminate D].
    + exists [lit "-r"], []. split; [reflexivity|]. split; [intros (r & D); discriminate D|]. intros a [<-|[]]. exists (lit "r"). reflexivity.
  - exists (lit "-r"), [Rm]. split; [left; reflexivity|]. split; left; reflexivity.
Qed.

(** ** new worktrees *)
(** A new worktree is made only where nothing is, beside the repository's top directory, in a
    directory named after both. *)
Theorem C146_add exists_ parent project b create cmds p :
  add_worktree exists_ (project :: rev parent) b create = Some (cmds, p) ->
  p = parent ++ [project ++ lit "-" ++ sanitize_branch_name b] /\ exists_ p = false /\
  cmds = [if create then [lit "worktree"; lit "add"; lit "-b"; b; show_path p] else [lit "worktree"; lit "add"; show_path p; b]].
Proof.
  unfold add_worktree, get_worktree_path. rewrite rev_involutive. change (format_worktree_dir project b) with (project ++ lit "-" ++ sanitize_branch_name b).
  destruct (exists_ _) eqn:E; [discriminate|]. intros H. inversion H; subst. auto.
Qed.
Definition forbidden (c : char) : Prop := In c (lit "/\:*?""<>|").
(** the name has no slash, is not the project's, and is the branch's with the awkward characters replaced *)
Theorem C146_directory project b :
  length (sanitize_branch_name b) = length b /\
  (forall i c, nth_error b i = Some c -> nth_error (sanitize_branch_name b) i = Some (if mem_char c (lit "/\:*?""<>|") then chr "-" else c)) /\
  (forall c, In c (sanitize_branch_name b) -> ~ forbidden c) /\
  format_worktree_dir project b <> project.
Proof.
  unfold sanitize_branch_name. split; [apply map_length|]. split; [intros i c H; rewrite nth_error_map, H; reflexivity|]. split.
  - intros c I. apply in_map_iff in I as (d & <- & _). unfold forbidden. destruct (mem_char d (lit "/\:*?""<>|")) eqn:E.
    + intros K. cbn in K. repeat (destruct K as [K|K]; [discriminate|]). destruct K.
    + intros K. apply mem_char_iff in K. congruence.
  - unfold format_worktree_dir. intros E. apply (f_equal (@length _)) in E. rewrite app_length in E. cbn in E. lia.
Qed.
(** Two branches that differ only in such characters want one directory: with the first made, the
    second is refused. *)
Theorem C146_collide_refuted :
  exists b1 b2, b1 <> b2 /\ forall project, format_worktree_dir project b1 = format_worktree_dir project b2.
Proof. exists (lit "feature/a"), (lit "feature-a"). split; [discriminate|]. intros project. reflexivity. Qed.
Example C146_case :
  tree_ok (Tree (lit "/w/app") false [lit "HEAD 0123"]) /\
  add_worktree (fun _ => false) (lit "app" :: rev [lit "w"]) (lit "feature/a") true = Some ([[lit "worktree"; lit "add"; lit "-b"; lit "feature/a"; lit "/w/app-feature-a"]], [lit "w"; lit "app-feature-a"]) /\
  parse_options [lit "-eb"; lit "x"] = Some (Options (Add (lit "x") true) true true) /\ parse_options [lit "-x"] = None.
Proof.
  split; [|vm_compute; auto]. split; [apply no_lf_one; intros c I; cbn in I; repeat (destruct I as [<-|I]; [split; discriminate|]); destruct I|].
  intros a [<-|[]]. split; [apply no_lf_one; intros c I; cbn in I; repeat (destruct I as [<-|I]; [split; discriminate|]); destruct I|]. split; [discriminate|]. intros (r & E). discriminate E.
Qed.

Print Assumptions C146_remove.
Print Assumptions C146_add_options.
Print Assumptions C146_linked_partial.
Print Assumptions C146_bare_refuted.
Print Assumptions C146_selected.
Print Assumptions C146_only_linked.
Print Assumptions C146_unasked_refuted.
Print Assumptions C146_add.
Print Assumptions C146_directory.
Print Assumptions C146_collide_refuted.
