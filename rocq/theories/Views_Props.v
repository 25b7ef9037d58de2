(** C199-C204: procs, the prompt, names offered, mcp and tm. *)
From Verif Require Import Base Outside_Model Outside_Spec Views_Model Views_Spec.
From Verif Require Dmv_Model Dmv_Props Lread_Model Lread_Spec Lread_Proofs Lread_Props Frecency_Model Frecency_Proofs Numerals Outside_Props Answer_Props Palette_Props.
From Coq Require Import Sorting.Permutation Sorting.Sorted.

(** ** C199: procs *)
Lemma ordered_sorted {A} (leb : A -> A -> bool) (R : A -> A -> Prop) l : (forall x y, leb x y = true -> R x y) -> Frecency_Proofs.ordered leb l -> StronglySorted R l.
Proof. intros H. induction l as [|x l IH]; [constructor|]. intros (F & O). constructor; [apply IH, O|]. apply Forall_forall. intros y I. apply H, F, I. Qed.
Section Procs.
Variable low : str -> str.
Notation refresh := (Views_Model.refresh low).
Notation press := (Views_Model.press low).
Notation turn := (Views_Model.turn low).
Notation view := (Views_Model.view low).
Notation start := (Views_Model.start low).
(** After a refresh the list is that of the report. *)
Theorem C199_listed : forall snap a, lists low (filt a) snap (listed (refresh snap a)).
Proof.
  intros snap a. exists (sort_procs snap). split; [apply Frecency_Proofs.sort_perm|]. split.
  - apply (ordered_sorted (fun p q => (cpu q <=? cpu p)%N)); [intros x y H; apply N.leb_le; exact H|]. apply Frecency_Proofs.sort_ordered.
    + intros x y H. apply N.leb_gt in H. apply N.leb_le. lia.
    + intros x y z H K. apply N.leb_le in H, K. apply N.leb_le. lia.
  - unfold Views_Model.refresh. cbn [listed]. unfold passes. destruct (filt a) as [|c f].
    + rewrite <- (Outside_Props.filter_true (sort_procs snap)) at 2. apply Outside_Props.keeps_filter. intros x. split; auto.
    + apply Outside_Props.keeps_filter. intros x. split; [auto|]. intros [H|H]; [discriminate|exact H].
Qed.
Lemma refresh_ok snap a : cursor_ok (refresh snap a).
Proof.
  unfold cursor_ok, Views_Model.refresh. cbv zeta. set (l := match filt a with [] => _ | _ => _ end). clearbody l. cbn [sel listed]. destruct (sel a) as [i|].
  - destruct (Nat.leb_spec (length l) i) as [H|H]; [|exact H]. destruct l; [reflexivity|cbn; lia].
  - destruct l; [reflexivity|cbn; lia].
Qed.
Lemma next_ok a : cursor_ok a -> cursor_ok (next a).
Proof.
  unfold cursor_ok, next. intros H. destruct (listed a) as [|p l] eqn:E; [rewrite E; exact H|]. cbn [sel listed]. destruct (sel a) as [i|]; [|cbn; lia]. destruct (Nat.leb_spec (length (p :: l) - 1) i); cbn [length] in *; lia.
Qed.
Lemma previous_ok a : cursor_ok a -> cursor_ok (previous a).
Proof.
  unfold cursor_ok, previous. intros H. destruct (listed a) as [|p l] eqn:E; [rewrite E; exact H|]. cbn [sel listed]. destruct (sel a) as [i|]; [|cbn; lia]. destruct (Nat.eqb_spec i 0); cbn [length] in *; lia.
Qed.
Lemma turn_ok a e b s : cursor_ok a -> turn a e = (Some b, s) -> cursor_ok b.
Proof.
  intros O H. destruct e as [k snap|snap]; cbn [Views_Model.turn] in H; [|injection H as <- _; apply refresh_ok].
  assert (K : forall t f, cursor_ok (App (listed a) (sel a) t f)) by (intros t f; exact O).
  unfold Views_Model.press in H. destruct (typing a); destruct (what k) as [c| | | | | |];
    repeat match type of H with context [if ?x then _ else _] => destruct x end;
    try discriminate; injection H as <- _; try apply refresh_ok; try apply K; try apply next_ok; try apply previous_ok; exact O.
Qed.
(** There is always a line with the cursor while there are lines. *)
Theorem C199_cursor : forall snap es a s, view (start snap) es = (Some a, s) -> cursor_ok a.
Proof.
  intros snap es a s H. assert (O : cursor_ok (start snap)) by apply refresh_ok. revert s H O. generalize (start snap) as b. induction es as [|e es IH]; intros b s H O; cbn [Views_Model.view] in H; [injection H as <- _; exact O|].
  destruct (turn b e) as [[c|] t] eqn:T; [|discriminate]. destruct (view c es) as [d u] eqn:V. injection H as -> <-. exact (IH c u V (turn_ok b e c t O T)).
Qed.
Corollary C199_always_one_selected : forall snap es a s, view (start snap) es = (Some a, s) -> listed a <> [] -> exists p, selected a = Some p /\ In p (listed a).
Proof.
  intros snap es a s H N. apply C199_cursor in H. unfold cursor_ok in H. unfold selected. destruct (sel a) as [i|]; [|contradiction]. destruct (nth_error (listed a) i) as [p|] eqn:E; [|apply nth_error_None in E; lia]. exists p. split; [reflexivity|]. apply nth_error_In in E. exact E.
Qed.
Lemma press_sends k snap a r ss : press k snap a = (r, ss) -> ss <> [] -> r = Some a /\ typing a = false /\ exists p, selected a = Some p /\ ((typed (chr "x") k /\ ss = [(pid p, Term)]) \/ (typed (chr "X") k /\ ss = [(pid p, Kill)])).
Proof.
  intros H N. unfold Views_Model.press in H. unfold typed. destruct (typing a); destruct (what k) as [c| | | | | |] eqn:W; try (injection H as <- <-; congruence).
  destruct (c =? chr "q")%N; [injection H as <- <-; congruence|]. destruct (c =? chr "j")%N; [injection H as <- <-; congruence|]. destruct (c =? chr "k")%N; [injection H as <- <-; congruence|]. destruct (c =? chr "/")%N; [injection H as <- <-; congruence|].
  destruct (N.eqb_spec c (chr "x")) as [->|]; [|destruct (N.eqb_spec c (chr "X")) as [->|]; [|injection H as <- <-; congruence]]; injection H as <- <-; unfold send in *; destruct (selected a) as [p|]; try congruence; (split; [reflexivity|]; split; [reflexivity|]; exists p; auto).
Qed.
(** Every signal was asked for with x or X, outside the filter, and goes to the process that had the cursor then. *)
Theorem C199_signals : forall es a0 r ss n s, view a0 es = (r, ss) -> In (n, s) ss -> exists es1 k snap es2 a p,
  es = es1 ++ Pressed k snap :: es2 /\ fst (view a0 es1) = Some a /\ typing a = false /\ selected a = Some p /\ pid p = n /\ ((typed (chr "x") k /\ s = Term) \/ (typed (chr "X") k /\ s = Kill)).
Proof.
  induction es as [|e es IH]; intros a0 r ss n s H I; cbn [Views_Model.view] in H; [injection H as <- <-; destruct I|].
  destruct (turn a0 e) as [b t] eqn:T.
  assert (A : In (n, s) t -> exists es1 k snap es2 a p, e :: es = es1 ++ Pressed k snap :: es2 /\ fst (view a0 es1) = Some a /\ typing a = false /\ selected a = Some p /\ pid p = n /\ ((typed (chr "x") k /\ s = Term) \/ (typed (chr "X") k /\ s = Kill))).
  { intros J. destruct e as [k snap|snap]; cbn [Views_Model.turn] in T; [|injection T as <- <-; destruct J]. destruct (press_sends k snap a0 b t T) as (_ & TY & p & S & X); [intros ->; destruct J|].
    exists [], k, snap, es, a0, p. split; [reflexivity|]. split; [reflexivity|]. split; [exact TY|]. split; [exact S|]. destruct X as [[K ->]|[K ->]]; destruct J as [J|[]]; injection J as <- <-; auto. }
  destruct b as [b|]; [|injection H as <- <-; exact (A I)]. destruct (view b es) as [c u] eqn:V. injection H as <- <-. apply in_app_or in I. destruct I as [I|I]; [exact (A I)|].
  destruct (IH b c u n s V I) as (es1 & k & snap & es2 & a & p & E & F & G). exists (e :: es1), k, snap, es2, a, p. split; [rewrite E; reflexivity|]. split; [|exact G]. cbn [Views_Model.view]. rewrite T. destruct (view b es1) as [d v]. exact F.
Qed.
(** x and X do send it, once. *)
Theorem C199_sends : forall k snap a p, typing a = false -> selected a = Some p -> (typed (chr "x") k -> press k snap a = (Some a, [(pid p, Term)])) /\ (typed (chr "X") k -> press k snap a = (Some a, [(pid p, Kill)])).
Proof. intros k snap a p T S. unfold typed, Views_Model.press, send. rewrite T, S. split; intros ->; reflexivity. Qed.
(** In the filter no key sends a signal or leaves. *)
Theorem C199_filter_typing : forall k snap a, typing a = true -> exists b, press k snap a = (Some b, []) /\ (forall c, typed c k -> filt b = filt a ++ [c] /\ typing b = true).
Proof.
  intros k snap a T. unfold typed, Views_Model.press. rewrite T. destruct (what k) as [c| | | | | |]; eexists; (split; [reflexivity|]); intros d D; try discriminate. injection D as <-. split; reflexivity.
Qed.
(** It is left with q and Esc only, and not in the filter. *)
Theorem C199_leaves_iff : forall k snap a, fst (press k snap a) = None <-> typing a = false /\ (typed (chr "q") k \/ what k = Esc).
Proof.
  intros k snap a. unfold typed, Views_Model.press. destruct (typing a); destruct (what k) as [c| | | | | |]; try (split; [discriminate|intros [H [K|K]]; discriminate]).
  - destruct (N.eqb_spec c (chr "q")) as [->|C]; [split; auto|]. split.
    + intros H. repeat match type of H with context [if ?x then _ else _] => destruct x end; discriminate.
    + intros [_ [[= H]|H]]; [contradiction|discriminate].
  - split; auto.
Qed.
Definition j_key : key := Key false (Char (chr "j")).
Lemma j_once snap a i : typing a = false -> sel a = Some i -> i < length (listed a) -> press j_key snap a = (Some (App (listed a) (Some (S i mod length (listed a))) (filt a) false), []).
Proof.
  intros T S L. unfold Views_Model.press. rewrite T. cbn [what j_key]. change ((chr "j" =? chr "q")%N) with false. change ((chr "j" =? chr "j")%N) with true. cbn iota. unfold next. destruct (listed a) as [|p l] eqn:E; [cbn in L; lia|]. rewrite S, T. f_equal. f_equal. f_equal. f_equal.
  destruct (Nat.leb_spec (length (p :: l) - 1) i) as [H|H].
  - assert (X : Datatypes.S i = length (p :: l)) by lia. rewrite X. symmetry. apply Nat.mod_same. discriminate.
  - rewrite Nat.mod_small by lia. lia.
Qed.
(** The cursor goes round the list, and every process can be reached. *)
Theorem C199_round : forall n snap a i, typing a = false -> sel a = Some i -> i < length (listed a) ->
  view a (repeat (Pressed j_key snap) n) = (Some (App (listed a) (Some ((i + n) mod length (listed a))) (filt a) false), []).
Proof.
  induction n as [|n IH]; intros snap a i T S L; cbn [repeat Views_Model.view].
  - rewrite Nat.add_0_r, Nat.mod_small by exact L. destruct a; cbn in *. subst. reflexivity.
  - cbn [Views_Model.turn]. rewrite (j_once snap a i T S L). assert (NZ : length (listed a) <> 0) by lia. rewrite (IH snap _ (Datatypes.S i mod length (listed a))); cbn [listed typing sel filt app]; [|reflexivity|reflexivity|apply Nat.mod_upper_bound; exact NZ].
    f_equal. f_equal. f_equal. f_equal. rewrite Nat.add_mod_idemp_l by exact NZ. f_equal. lia.
Qed.
Theorem C199_every_process_can_be_reached : forall snap a p, typing a = false -> cursor_ok a -> In p (listed a) -> exists n b, view a (repeat (Pressed j_key snap) n) = (Some b, []) /\ listed b = listed a /\ selected b = Some p.
Proof.
  intros snap a p T O I. apply In_nth_error in I. destruct I as [k K]. assert (L : k < length (listed a)) by (apply nth_error_Some; rewrite K; discriminate). unfold cursor_ok in O. destruct (sel a) as [i|] eqn:S; [|rewrite O in L; cbn in L; lia].
  exists (length (listed a) - i + k). eexists. split; [apply (C199_round _ snap a i T S O)|]. split; [reflexivity|]. unfold selected. cbn [sel listed]. replace (i + (length (listed a) - i + k)) with (k + 1 * length (listed a)) by lia. rewrite Nat.mod_add by lia. rewrite Nat.mod_small by exact L. exact K.
Qed.
(** The cursor keeps its line, not its process: when the order changes, the next signal goes to another one. *)
Theorem C199_moved_refuted : forall snap snap' a i q k, typing a = false -> sel a = Some i -> nth_error (listed (refresh snap a)) i = Some q -> typed (chr "x") k ->
  snd (view a [Second snap; Pressed k snap']) = [(pid q, Term)].
Proof.
  intros snap snap' a i q k T S Q K. cbn [Views_Model.view Views_Model.turn]. destruct (C199_sends k snap' (refresh snap a) q) as [X _].
  - unfold Views_Model.refresh. cbn [typing]. exact T.
  - assert (L : i < length (listed (refresh snap a))) by (apply nth_error_Some; rewrite Q; discriminate). unfold selected, Views_Model.refresh at 1. cbv zeta. cbn [sel]. rewrite S. unfold Views_Model.refresh at 1 in L. cbn [listed] in L. apply Nat.leb_gt in L. rewrite L. exact Q.
  - rewrite (X K). reflexivity.
Qed.
(** Ctrl-X terminates the process at the cursor, and Ctrl-C does not leave. *)
Theorem C199_control_refuted : forall snap a p, typing a = false -> selected a = Some p ->
  press (Key true (Char (chr "x"))) snap a = (Some a, [(pid p, Term)]) /\ press (Key true (Char (chr "c"))) snap a = (Some a, []).
Proof.
  intros snap a p T S. split; [apply (C199_sends (Key true (Char (chr "x"))) snap a p T S); reflexivity|]. unfold Views_Model.press. rewrite T. reflexivity.
Qed.
End Procs.

(** ** C200: the directory in the prompt *)
Lemma strip_iff r : forall p rel, strip r p = Some rel <-> below r p rel.
Proof.
  unfold below. induction r as [|x r IH]; intros p rel; cbn [strip app]; [split; [intros [= ->]; reflexivity|intros ->; reflexivity]|].
  destruct p as [|y p]; [split; discriminate|]. destruct (str_eqb_spec x y) as [->|N]; [rewrite IH; split; [intros ->; reflexivity|intros [= ->]; reflexivity]|]. split; [discriminate|]. intros [= E _]. congruence.
Qed.
Lemma replace_none from to s : from <> [] -> contains from s = false -> Dmv_Model.replace from to s = s.
Proof.
  intros N. unfold Dmv_Model.replace. induction s as [|c s IH]; intros C; [reflexivity|]. cbn [Dmv_Model.replace_from]. cbn [contains] in C. apply orb_false_iff in C. destruct C as [C1 C2]. rewrite C1. f_equal. apply IH. exact C2.
Qed.
Lemma elsewhere cwd root home dot : no_repository root cwd -> prompt_path cwd root home dot =
  if dot then (last cwd [], false) else match home with Some h => (Dmv_Model.replace (shown_path h) (lit "~") (shown_path cwd), false) | None => (shown_path cwd, false) end.
Proof.
  intros H. unfold prompt_path. destruct root as [r|]; [|reflexivity]. destruct (strip r cwd) as [rel|] eqn:E; [apply strip_iff in E; destruct (H r rel eq_refl E)|reflexivity].
Qed.
Lemma shown_app a b : a <> [] -> b <> [] -> shown_path (a ++ b) = shown_path a ++ shown_path b.
Proof. intros A B. destruct a as [|x a]; [congruence|]. destruct b as [|y b]; [congruence|]. unfold shown_path. cbn [app]. change (x :: a ++ y :: b) with ((x :: a) ++ y :: b). apply flat_map_app. Qed.
Lemma shown_nonempty p : shown_path p <> [].
Proof. destruct p as [|x p]; discriminate. Qed.
Lemma join_shown n rel : rel <> [] -> join_slash (n :: rel) = n ++ lit "/" ++ join_slash rel.
Proof. destruct rel as [|y rel]; [congruence|]. reflexivity. Qed.
(** In a repository: its name and the way from its root. *)
Theorem C200_repository : forall cwd r rel home dot, below r cwd rel -> prompt_path cwd (Some r) home dot = (join_slash (last r [] :: rel), true).
Proof.
  intros cwd r rel home dot H. unfold prompt_path. apply strip_iff in H. rewrite H. destruct rel as [|x rel]; [reflexivity|]. rewrite (join_shown (last r []) (x :: rel)) by discriminate. reflexivity.
Qed.
(** Elsewhere: a tilde for the home directory and the way from it, if its path does not come again. *)
Theorem C200_home_partial : forall cwd root h rel, no_repository root cwd -> h <> [] -> below h cwd rel -> contains (shown_path h) (flat_map (fun n => chr "/" :: n) rel) = false ->
  prompt_path cwd root (Some h) false = (lit "~" ++ flat_map (fun n => chr "/" :: n) rel, false).
Proof.
  intros cwd root h rel NR NH B C. rewrite elsewhere by exact NR. cbn iota. f_equal. unfold below in B. subst cwd. assert (E : shown_path (h ++ rel) = shown_path h ++ flat_map (fun n => chr "/" :: n) rel).
  { destruct rel as [|x rel]; [rewrite !app_nil_r; reflexivity|]. apply shown_app; [exact NH|discriminate]. }
  rewrite E, Dmv_Props.replace_hit by apply shown_nonempty. rewrite (replace_none _ _ _ (shown_nonempty h) C). reflexivity.
Qed.
(** A path the home directory's does not occur in is shown as it is. *)
Theorem C200_other_partial : forall cwd root h, no_repository root cwd -> (forall d, h = Some d -> contains (shown_path d) (shown_path cwd) = false) -> prompt_path cwd root h false = (shown_path cwd, false).
Proof.
  intros cwd root h NR C. rewrite elsewhere by exact NR. destruct h as [d|]; [|reflexivity]. cbn iota. rewrite (replace_none _ _ _ (shown_nonempty d)) by (apply C; reflexivity). reflexivity.
Qed.
(** A directory whose name begins like the home directory's is shown as if it were in it. *)
Theorem C200_sibling_refuted : forall root up n t, no_repository root (up ++ [n ++ t]) -> contains (shown_path (up ++ [n])) t = false ->
  prompt_path (up ++ [n ++ t]) root (Some (up ++ [n])) false = (lit "~" ++ t, false).
Proof.
  intros root up n t NR C. rewrite elsewhere by exact NR. cbn iota. f_equal. assert (E : shown_path (up ++ [n ++ t]) = shown_path (up ++ [n]) ++ t).
  { assert (X : forall m, shown_path (up ++ [m]) = flat_map (fun n => chr "/" :: n) up ++ chr "/" :: m).
    { intros m. unfold shown_path. destruct (up ++ [m]) as [|y l] eqn:U; [destruct up; discriminate|]. rewrite <- U. rewrite flat_map_app. cbn [flat_map]. rewrite app_nil_r. reflexivity. }
    rewrite !X. rewrite <- app_assoc. reflexivity. }
  rewrite E, Dmv_Props.replace_hit by apply shown_nonempty. rewrite (replace_none _ _ _ (shown_nonempty _) C). reflexivity.
Qed.
(** The tilde appears inside a path too. *)
Theorem C200_inside_refuted : exists cwd h, ~ (exists rel, below h cwd rel) /\ plain_names cwd /\ plain_names h /\ prompt_path cwd None (Some h) false = (lit "/mnt~/x", false).
Proof.
  exists [lit "mnt"; lit "home"; lit "u"; lit "x"], [lit "home"; lit "u"]. split; [intros [rel H]; unfold below in H; discriminate|].
  split; [|split; [|vm_compute; reflexivity]]; unfold plain_names; repeat (constructor; [split; [discriminate|intros I; vm_compute in I; intuition discriminate]|]); constructor.
Qed.
(** With / as home directory every slash is a tilde. *)
Lemma replace_slash a s : ~ In (chr "/") a -> Dmv_Model.replace (lit "/") (lit "~") (a ++ s) = a ++ Dmv_Model.replace (lit "/") (lit "~") s.
Proof. intros H. apply (Dmv_Props.replace_pass _ _ (chr "/") []); [reflexivity|exact H]. Qed.
Theorem C200_root_home_refuted : forall cwd root, no_repository root cwd -> plain_names cwd -> cwd <> [] -> prompt_path cwd root (Some []) false = (flat_map (fun n => chr "~" :: n) cwd, false).
Proof.
  intros cwd root NR P N. rewrite elsewhere by exact NR. cbn iota. f_equal. change (shown_path []) with (lit "/"). assert (E : shown_path cwd = flat_map (fun n => chr "/" :: n) cwd) by (destruct cwd; [congruence|reflexivity]). rewrite E. clear E NR N.
  induction P as [|n l [_ H] P IH]; [reflexivity|]. cbn [flat_map]. change ((chr "/" :: n) ++ flat_map (fun n => chr "/" :: n) l) with (lit "/" ++ (n ++ flat_map (fun n => chr "/" :: n) l)). rewrite Dmv_Props.replace_hit by discriminate. rewrite replace_slash by exact H. rewrite IH. reflexivity.
Qed.
(** A repository that is not known: its name only. *)
Theorem C200_new_repository : forall cwd root h, no_repository root cwd -> prompt_path cwd root h true = (last cwd [], false).
Proof. intros cwd root h NR. rewrite elsewhere by exact NR. reflexivity. Qed.

(** ** C201: the state of the repository in the prompt *)
Lemma show_digits n c : In c (Lread_Model.show_nat n) -> (48 <= c <= 57)%N.
Proof.
  intros I. assert (D := Lread_Props.show_nat_Dec n). apply Numerals.Dec_iff in D. destruct D as (_ & F & _). rewrite Forall_forall in F. specialize (F c I). exact (Lread_Proofs.digit_range c F).
Qed.
Lemma in_part m mk n : (m < 48 \/ 57 < m)%N -> (In m (part mk n) <-> (0 < n)%N /\ In m mk).
Proof.
  intros D. unfold part. destruct (N.ltb_spec 0 n) as [L|L]; [|split; [intros []|lia]]. rewrite in_app_iff. split; [intros [H|H]; [auto|apply show_digits in H; lia]|intros [_ H]; auto].
Qed.
Lemma part_in m mk n : (m < 48 \/ 57 < m)%N -> mem_char m mk = true -> (In m (part mk n) <-> (0 < n)%N).
Proof. intros D M. rewrite in_part by exact D. apply mem_char_iff in M. tauto. Qed.
Lemma part_out m mk n : (m < 48 \/ 57 < m)%N -> mem_char m mk = false -> (In m (part mk n) <-> False).
Proof. intros D M. rewrite in_part by exact D. split; [|tauto]. intros [_ H]. apply mem_char_iff in H. congruence. Qed.
Ltac marks := repeat match goal with |- context [In ?m (part ?mk ?n)] => first [rewrite (part_in m mk n) by (vm_compute; auto) | rewrite (part_out m mk n) by (vm_compute; auto)] end.
Lemma part_nil mk n : part mk n = [] <-> n = 0%N.
Proof.
  unfold part. destruct (N.ltb_spec 0 n) as [L|L]; [|split; [lia|reflexivity]]. split; [|lia]. intros H. apply app_eq_nil in H. destruct H as [_ H]. assert (D := Lread_Props.show_nat_Dec n). rewrite H in D. apply Numerals.Dec_iff in D. destruct D as (D & _). congruence.
Qed.
Lemma part_has mk n : (0 < n)%N -> part mk n = mk ++ Lread_Model.show_nat n.
Proof. intros H. unfold part. apply N.ltb_lt in H. rewrite H. reflexivity. Qed.
Definition spaced (s : str) : Prop := s = [] \/ exists r, s = 32%N :: r.
Lemma spaced_app a b : spaced a -> spaced b -> spaced (a ++ b).
Proof. intros [->|[r ->]] B; [exact B|right; exists (r ++ b); reflexivity]. Qed.
Lemma spaced_part mk n : spaced (part (lit " " ++ mk) n).
Proof. unfold part. destruct (0 <? n)%N; [right; eexists; reflexivity|left; reflexivity]. Qed.
Lemma shows_at m n a mk b s : (0 < n)%N -> s = a ++ part (mk ++ [m]) n ++ b -> ~ In m a -> ~ In m mk -> ~ In m b -> spaced b -> shows m n s.
Proof.
  intros L -> A K B P. rewrite part_has by exact L. exists (a ++ mk), b. split; [rewrite <- !app_assoc; reflexivity|]. split; [rewrite in_app_iff; tauto|]. split; [exact B|]. intros d r ->. destruct P as [P|[q P]]; [discriminate|]. injection P as -> _. lia.
Qed.
Ltac absent := intros Z; revert Z; rewrite ?in_app_iff; marks; vm_compute (lit _); cbn [In]; intuition discriminate.
Ltac spaces := repeat first [(left; reflexivity) | (right; eexists; reflexivity) | exact (spaced_part [] _) | exact (spaced_part _ _) | apply spaced_app].
Lemma status_shows c m n : mark_of c m n -> (0 < n)%N -> shows m n (status_text c).
Proof.
  intros H L. unfold mark_of in H. unfold status_text. set (x := if _ && _ then _ else _).
  assert (X : spaced x) by (subst x; destruct (_ && _); spaces).
  assert (Y : In m [chr "="; chr "+"; 187%N; 10008%N; chr "!"; chr "?"] -> ~ In m x).
  { subst x. intros J. destruct (_ && _); intros Z; revert Z; rewrite ?in_app_iff; destruct J as [<-|[<-|[<-|[<-|[<-|[<-|[]]]]]]]; marks; vm_compute (lit _); cbn [In]; intuition discriminate. }
  cbn [In] in H, Y. clearbody x.
  destruct H as [H|[H|[H|[H|[H|[H|[]]]]]]]; injection H as <- E; rewrite <- E in L |- *; clear E.
  - eapply (shows_at _ _ [] []); [exact L|reflexivity|intros []|intros []| |spaces; exact X]. rewrite in_app_iff. intros [Z|Z]; [apply Y in Z; tauto|revert Z; absent].
  - eapply (shows_at _ _ (part (lit "=") (conflicted c) ++ x) (lit " ")); [exact L|rewrite <- !app_assoc; reflexivity|rewrite in_app_iff; intros [Z|Z]; [revert Z; absent|apply Y in Z; tauto]|vm_compute; intuition discriminate|absent|spaces].
  - eapply (shows_at _ _ (part (lit "=") (conflicted c) ++ x ++ part (lit " +") (staged c)) (lit " ")); [exact L|rewrite <- !app_assoc; reflexivity|rewrite !in_app_iff; intros [Z|[Z|Z]]; [revert Z; absent|apply Y in Z; tauto|revert Z; absent]|vm_compute; intuition discriminate|absent|spaces].
  - eapply (shows_at _ _ (part (lit "=") (conflicted c) ++ x ++ part (lit " +") (staged c) ++ part (lit " " ++ [187%N]) (renamed c)) (lit " ")); [exact L|rewrite <- !app_assoc; reflexivity|rewrite in_app_iff, (in_app_iff x); intros [Z|[Z|Z]]; [revert Z; absent|apply Y in Z; tauto|revert Z; absent]|vm_compute; intuition discriminate|absent|spaces].
  - eapply (shows_at _ _ (part (lit "=") (conflicted c) ++ x ++ part (lit " +") (staged c) ++ part (lit " " ++ [187%N]) (renamed c) ++ part (lit " " ++ [10008%N]) (deleted c)) (lit " ")); [exact L|rewrite <- !app_assoc; reflexivity|rewrite in_app_iff, (in_app_iff x); intros [Z|[Z|Z]]; [revert Z; absent|apply Y in Z; tauto|revert Z; absent]|vm_compute; intuition discriminate|absent|spaces].
  - eapply (shows_at _ _ (part (lit "=") (conflicted c) ++ x ++ part (lit " +") (staged c) ++ part (lit " " ++ [187%N]) (renamed c) ++ part (lit " " ++ [10008%N]) (deleted c) ++ part (lit " !") (modified c)) (lit " ") []); [exact L|rewrite <- !app_assoc, app_nil_r; reflexivity|rewrite in_app_iff, (in_app_iff x); intros [Z|[Z|Z]]; [revert Z; absent|apply Y in Z; tauto|revert Z; absent]|vm_compute; intuition discriminate|intros []|left; reflexivity].
Qed.
Lemma status_absent c m : mark_of c m 0 -> ~ In m (status_text c).
Proof.
  intros H. unfold mark_of in H. unfold status_text. rewrite !in_app_iff. destruct ((0 <? ahead c)%N && (0 <? behind c)%N); rewrite ?in_app_iff;
    destruct H as [H|[H|[H|[H|[H|[H|[]]]]]]]; injection H as <- E; rewrite ?E; marks; vm_compute (lit _); cbn [In]; intuition (discriminate || lia).
Qed.
Lemma trim_start_mid a w b c r : w = c :: r -> is_whitespace c = false -> trim_start (a ++ w ++ b) = trim_start a ++ w ++ b.
Proof. intros -> H. induction a as [|x a IH]; cbn [app trim_start]; [rewrite H; reflexivity|]. destruct (is_whitespace x); [exact IH|reflexivity]. Qed.
Lemma trim_start_suffix s : exists q, s = q ++ trim_start s.
Proof. induction s as [|c s [q IH]]; [exists []; reflexivity|]. cbn [trim_start]. destruct (is_whitespace c); [exists (c :: q); cbn; f_equal; exact IH|exists []; reflexivity]. Qed.
Lemma trim_shows m n s : is_whitespace m = false -> shows m n s -> shows m n (trim s).
Proof.
  intros W (a & b & E & A & B & D). destruct (exists_last (l := m :: Lread_Model.show_nat n)) as (w & d & V); [discriminate|].
  assert (WD : is_whitespace d = false). { assert (J : In d (m :: Lread_Model.show_nat n)) by (rewrite V; apply in_or_app; right; left; reflexivity). destruct J as [<-|J]; [exact W|]. apply show_digits in J. unfold is_whitespace. rewrite !orb_false_iff, !andb_false_iff, !N.leb_gt, !N.eqb_neq. repeat split; lia. }
  assert (T : trim s = trim_start a ++ (m :: Lread_Model.show_nat n) ++ trim_end b).
  { unfold trim. rewrite E. change (m :: Lread_Model.show_nat n ++ b) with ((m :: Lread_Model.show_nat n) ++ b). rewrite (trim_start_mid a _ b m (Lread_Model.show_nat n) eq_refl W). unfold trim_end. rewrite !rev_app_distr, <- !app_assoc. rewrite (trim_start_mid (rev b) (rev (m :: Lread_Model.show_nat n)) (rev (trim_start a)) d (rev w)); [|rewrite V, rev_app_distr; reflexivity|exact WD].
    rewrite !rev_app_distr, !rev_involutive, <- app_assoc. reflexivity. }
  destruct (trim_start_suffix a) as [q Q]. destruct (trim_start_suffix (rev b)) as [q' Q']. assert (R : b = trim_end b ++ rev q') by (unfold trim_end; rewrite <- rev_app_distr, <- Q', rev_involutive; reflexivity).
  exists (trim_start a), (trim_end b). split; [exact T|]. split; [intros J; apply A; rewrite Q; apply in_or_app; auto|]. split; [intros J; apply B; rewrite R; apply in_or_app; auto|]. intros x r X. apply (D x (r ++ rev q')). rewrite R, X. reflexivity.
Qed.
(** Every mark is in the brackets with its number exactly if it counts something. *)
Theorem C201_marks : forall mark branch c m n, mark_of c m n -> (n = 0%N -> ~ In m (trim (status_text c))) /\ ((0 < n)%N -> exists t, git_part mark branch c = lit " on " ++ mark ++ lit " " ++ branch ++ lit " [" ++ t ++ lit "]" /\ shows m n t).
Proof.
  intros mark branch c m n H. split.
  - intros ->. intros J. apply (status_absent c m H). apply Answer_Props.trim_in. exact J.
  - intros L. exists (trim (status_text c)). assert (S := status_shows c m n H L). split.
    + unfold git_part. destruct (status_text c) as [|x s] eqn:E; [|reflexivity]. destruct S as (a & b & S & _). destruct a; discriminate.
    + apply trim_shows; [|exact S]. unfold mark_of in H. destruct H as [H|[H|[H|[H|[H|[H|[]]]]]]]; injection H as <- _; reflexivity.
Qed.
(** Nothing in brackets exactly if there is nothing to tell. *)
Theorem C201_clean_iff : forall c, status_text c = [] <-> clean c.
Proof.
  intros c. unfold status_text, clean. split.
  - intros H. apply app_eq_nil in H. destruct H as [A H]. apply app_eq_nil in H. destruct H as [B H]. repeat (apply app_eq_nil in H; destruct H as [? H]). rewrite part_nil in *.
    destruct (N.ltb_spec 0 (ahead c)), (N.ltb_spec 0 (behind c)); cbn [andb] in B; try discriminate; apply app_eq_nil in B; destruct B as [B1 B2]; rewrite part_nil in *; repeat split; assumption.
  - intros (-> & -> & -> & -> & -> & -> & -> & ->). reflexivity.
Qed.
(** Ahead or behind: with its number, unless it is both. *)
Theorem C201_ahead_partial : forall mark branch c, (0 < ahead c)%N -> behind c = 0%N -> exists t, git_part mark branch c = lit " on " ++ mark ++ lit " " ++ branch ++ lit " [" ++ t ++ lit "]" /\ shows 8673%N (ahead c) t.
Proof.
  intros mark branch c A B. exists (trim (status_text c)). assert (S : shows 8673%N (ahead c) (status_text c)).
  { unfold status_text. rewrite B. rewrite andb_false_r. eapply (shows_at _ _ (part (lit "=") (conflicted c)) (lit " ")); [exact A|rewrite <- !app_assoc; reflexivity|absent|vm_compute; intuition discriminate|absent|spaces]. }
  split; [|apply trim_shows; [reflexivity|exact S]]. unfold git_part. destruct (status_text c) as [|x s] eqn:E; [|reflexivity]. destruct S as (a & b & S & _). destruct a; discriminate.
Qed.
Theorem C201_behind_partial : forall mark branch c, (0 < behind c)%N -> ahead c = 0%N -> exists t, git_part mark branch c = lit " on " ++ mark ++ lit " " ++ branch ++ lit " [" ++ t ++ lit "]" /\ shows 8675%N (behind c) t.
Proof.
  intros mark branch c A B. exists (trim (status_text c)). assert (S : shows 8675%N (behind c) (status_text c)).
  { unfold status_text. rewrite B. cbn [N.ltb N.compare andb]. eapply (shows_at _ _ (part (lit "=") (conflicted c)) (lit " ")); [exact A|rewrite <- !app_assoc; reflexivity|absent|vm_compute; intuition discriminate|absent|spaces]. }
  split; [|apply trim_shows; [reflexivity|exact S]]. unfold git_part. destruct (status_text c) as [|x s] eqn:E; [|reflexivity]. destruct S as (a & b & S & _). destruct a; discriminate.
Qed.
(** When it is both, how much is not shown. *)
Theorem C201_diverged_refuted : forall mark branch a b a' b' x s r d m u, (0 < a)%N -> (0 < b)%N -> (0 < a')%N -> (0 < b')%N ->
  git_part mark branch (Counts x a b s r d m u) = git_part mark branch (Counts x a' b' s r d m u).
Proof.
  intros mark branch a b a' b' x s r d m u A B A' B'. apply N.ltb_lt in A, B, A', B'. unfold git_part, status_text. cbn [conflicted ahead behind staged renamed deleted modified untracked]. rewrite A, B, A', B'. reflexivity.
Qed.
(** The branch is named as it is. *)
Theorem C201_branch : forall mark branch c, exists r, git_part mark branch c = lit " on " ++ mark ++ lit " " ++ branch ++ r /\ (clean c -> r = []).
Proof.
  intros mark branch c. unfold git_part. eexists. split; [reflexivity|]. intros H. apply C201_clean_iff in H. rewrite H. reflexivity.
Qed.

(** ** C202: users, groups and interfaces *)
Lemma fields_iff line l : split_on (chr ":") line = l <-> Fields line l.
Proof.
  unfold Fields. split.
  - intros <-. split; [apply split_on_nonempty|]. split; [apply Forall_forall; intros f I; exact (split_on_no_sep (chr ":") line f I)|]. symmetry. apply split_on_join.
  - intros (N & F & ->). clear -N F. induction F as [|f l H F IH]; [destruct (N eq_refl)|]. destruct l as [|g l]; [apply split_on_none; exact H|]. change (join_with (lit ":") (f :: g :: l)) with (f ++ chr ":" :: join_with (lit ":") (g :: l)). rewrite split_on_app, (split_on_none _ f H), IH by discriminate. reflexivity.
Qed.
Lemma numeral_iff s n : numeral s = Some n <-> Number s n.
Proof.
  unfold numeral, Number. destruct (Numerals.parse_usize s) as [m|] eqn:E.
  - split.
    + destruct (N.ltb_spec m 4294967296) as [L|L]; [|discriminate]. intros [= <-]. split; [exact L|]. apply Numerals.parse_usize_iff in E. apply E.
    + intros [L D]. assert (X : Numerals.parse_usize s = Some n) by (apply Numerals.parse_usize_iff; split; [unfold Numerals.usize_max; lia|exact D]). assert (m = n) by congruence. subst m. apply N.ltb_lt in L. rewrite L. reflexivity.
  - split; [discriminate|]. intros [L D]. assert (X : Numerals.parse_usize s = Some n) by (apply Numerals.parse_usize_iff; split; [unfold Numerals.usize_max; lia|exact D]). congruence.
Qed.
Lemma skipped_iff line : starts_with (lit "#") line || match line with [] => true | _ => false end = false <-> line <> [] /\ ~ comment line.
Proof.
  unfold comment. rewrite orb_false_iff. split.
  - intros [A B]. split; [intros ->; discriminate|]. intros [t ->]. cbn in A. discriminate.
  - intros [A B]. split; [|destruct line; [congruence|reflexivity]]. destruct (starts_with (lit "#") line) eqn:E; [|reflexivity]. apply starts_with_iff in E. destruct B. exact E.
Qed.
Lemma user_iff system line c : In c (user_of system line) <-> names_user system line c.
Proof.
  unfold user_of, names_user. destruct (starts_with (lit "#") line || match line with [] => true | _ => false end) eqn:K.
  - split; [intros []|]. intros (A & B & _). assert (X := proj2 (skipped_iff line) (conj A B)). discriminate (eq_trans (eq_sym K) X).
  - apply skipped_iff in K. destruct K as [K1 K2]. split.
    + intros I. split; [exact K1|]. split; [exact K2|]. destruct (split_on (chr ":") line) as [|name [|pw [|u [|gid [|gecos rest]]]]] eqn:S; try (destruct I; fail). apply fields_iff in S. destruct (numeral u) as [n|] eqn:E; [|destruct I]. apply numeral_iff in E.
      destruct (system || (1000 <=? n)%N || str_eqb name (lit "root")) eqn:G; [|destruct I]. destruct I as [<-|[]]. exists pw, u, gid, gecos, rest, n. cbn [text about]. split; [exact S|]. split; [exact E|]. split.
      * apply orb_true_iff in G. destruct G as [G|G]; [|apply str_eqb_eq in G; auto]. apply orb_true_iff in G. destruct G as [G|G]; [auto|apply N.leb_le in G; auto].
      * destruct gecos; [left; auto|right]. split; [discriminate|reflexivity].
    + intros (_ & _ & pw & u & gid & gecos & rest & n & S & E & G & D). apply fields_iff in S. rewrite S. apply numeral_iff in E. rewrite E.
      assert (X : system || (1000 <=? n)%N || str_eqb (text c) (lit "root") = true) by (destruct G as [->|[G|G]]; [reflexivity|apply N.leb_le in G; rewrite G; rewrite orb_true_r; reflexivity|rewrite G, str_eqb_refl; apply orb_true_r]).
      rewrite X. left. destruct c as [t a]; cbn [text about] in *. destruct D as [[-> ->]|[N ->]]; [reflexivity|]. destruct gecos; [congruence|reflexivity].
Qed.
Lemma text_le_spec a b : text_le a b = true <-> Frecency_Model.str_cmp (text a) (text b) <> Gt.
Proof. unfold text_le. destruct (Frecency_Model.str_cmp (text a) (text b)); split; congruence. Qed.
Lemma text_le_total a b : text_le a b = false -> text_le b a = true.
Proof. unfold text_le. rewrite (Frecency_Proofs.str_cmp_sym (text a) (text b)). destruct (Frecency_Model.str_cmp (text a) (text b)); cbn; congruence. Qed.
Lemma text_le_trans a b c : text_le a b = true -> text_le b c = true -> text_le a c = true.
Proof.
  rewrite !text_le_spec. intros A B H. destruct (Frecency_Model.str_cmp (text a) (text b)) eqn:E1; [apply Frecency_Proofs.str_cmp_eq in E1; rewrite E1 in H; contradiction| |contradiction].
  destruct (Frecency_Model.str_cmp (text b) (text c)) eqn:E2; [apply Frecency_Proofs.str_cmp_eq in E2; rewrite <- E2 in H; congruence| |contradiction]. assert (X := Frecency_Proofs.str_lt_trans _ _ _ E1 E2). congruence.
Qed.
Lemma sorted_filter {A} (R : A -> A -> Prop) f l : StronglySorted R l -> StronglySorted R (filter f l).
Proof.
  intros S. induction S as [|x l S IH F]; cbn [filter]; [constructor|]. destruct (f x); [|exact IH]. constructor; [exact IH|]. apply Forall_forall. intros y I. apply filter_In in I. rewrite Forall_forall in F. apply F, I.
Qed.
Lemma sort_in le l (c : cand) : In c (sort_cands le l) <-> In c l.
Proof. unfold sort_cands. split; intros H; [apply (Permutation_in _ (Permutation_sym (Frecency_Proofs.sort_perm le l)))|apply (Permutation_in _ (Frecency_Proofs.sort_perm le l))]; exact H. Qed.
Section Names.
Variable low : str -> str.
Lemma narrowed_in token l c : In c (narrowed low token l) <-> In c l /\ wanted low token c.
Proof.
  unfold narrowed, wanted. destruct token as [|t token]; [tauto|]. rewrite filter_In. unfold begins. rewrite starts_with_iff. split; [intros [H K]; auto|]. intros [H [K|K]]; [discriminate|auto].
Qed.
Lemma narrowed_sorted (R : cand -> cand -> Prop) token l : StronglySorted R l -> StronglySorted R (narrowed low token l).
Proof. unfold narrowed. destruct token; [auto|apply sorted_filter]. Qed.
Lemma sorted_text l : in_order (sort_cands text_le l).
Proof. apply (ordered_sorted text_le); [intros x y H; apply text_le_spec; exact H|]. apply Frecency_Proofs.sort_ordered; [exact text_le_total|exact text_le_trans]. Qed.
(** The users offered are those of the file, whose names begin with what was typed, in order. *)
Theorem C202_users : forall system ls token c, In c (users low system (Some ls) token) <-> (exists line, In line ls /\ names_user system line c) /\ wanted low token c.
Proof.
  intros system ls token c. unfold users. rewrite narrowed_in, sort_in, in_flat_map. split; intros [(l & I & U) W]; (split; [exists l; split; [exact I|apply user_iff; exact U]|exact W]).
Qed.
Theorem C202_in_order : forall system file gfile token, in_order (users low system file token) /\ in_order (groups low gfile token).
Proof. intros system file gfile token. split; apply narrowed_sorted, sorted_text. Qed.
(** One byte that is not text, in the comment of anyone, and nobody is offered. *)
Theorem C202_unreadable_refuted : forall system token, users low system None token = [] /\ groups low None token = [].
Proof. intros system token. unfold users, groups, narrowed. destruct token; auto. Qed.
(** The groups: the first field of every line that is not a comment. *)
Theorem C202_groups : forall ls token c, In c (groups low (Some ls) token) <-> (exists line, In line ls /\ names_group line c) /\ wanted low token c.
Proof.
  intros ls token c. assert (X : forall line, In c (group_of line) <-> names_group line c).
  { intros line. unfold group_of, names_group. destruct (starts_with (lit "#") line || match line with [] => true | _ => false end) eqn:K.
    - split; [intros []|]. intros (A & B & _). assert (Y := proj2 (skipped_iff line) (conj A B)). discriminate (eq_trans (eq_sym K) Y).
    - apply skipped_iff in K. destruct K as [K1 K2]. split.
      + intros I. split; [exact K1|]. split; [exact K2|]. destruct (split_on (chr ":") line) as [|name r] eqn:S; [destruct I|]. destruct I as [<-|[]]. cbn [text about]. exists r. split; [apply fields_iff; exact S|].
        destruct r as [|pw [|gid more]]; cbn [nth_error]; [right; split; [intros; discriminate|reflexivity]|right; split; [intros; discriminate|reflexivity]|]. destruct (numeral gid) as [n|] eqn:G; cbn [option_map].
        * left. exists pw, gid, more, n. split; [reflexivity|]. split; [apply numeral_iff; exact G|reflexivity].
        * right. split; [|reflexivity]. intros pw' gid' more' n Z. injection Z as <- <- <-. rewrite <- numeral_iff. congruence.
      + intros (_ & _ & r & S & D). apply fields_iff in S. rewrite S. left. destruct c as [g d]. cbn [text about] in *. f_equal. destruct D as [(pw & gid & more & n & -> & G & ->)|[G ->]].
        * apply numeral_iff in G. cbn [nth_error]. rewrite G. reflexivity.
        * destruct r as [|pw [|gid more]]; [reflexivity|reflexivity|]. cbn [nth_error]. destruct (numeral gid) as [n|] eqn:Z; [|reflexivity]. apply numeral_iff in Z. destruct (G pw gid more n eq_refl Z). }
  unfold groups. rewrite narrowed_in, sort_in, in_flat_map. split; intros [(line & J & G) W]; (split; [|exact W]); exists line; (split; [exact J|]); apply X; exact G.
Qed.
(** A line that names no group, such as the + of NIS, is offered as one. *)
Theorem C202_plus_refuted : forall a b, groups low (Some (a ++ [lit "+"] ++ b)) [] <> [] /\ In (Cand (lit "+") None) (groups low (Some (a ++ [lit "+"] ++ b)) []).
Proof.
  intros a b. assert (I : In (Cand (lit "+") None) (groups low (Some (a ++ [lit "+"] ++ b)) [])).
  { unfold groups. apply narrowed_in. split; [|left; reflexivity]. apply sort_in. rewrite !flat_map_app. apply in_or_app. right. apply in_or_app. left. vm_compute. auto. }
  split; [|exact I]. intros E. rewrite E in I. destruct I.
Qed.
Lemma interface_total a b : interface_le a b = false -> interface_le b a = true.
Proof.
  unfold interface_le. destruct (Nat.ltb_spec (priority (text a)) (priority (text b))), (Nat.ltb_spec (priority (text b)) (priority (text a))); try discriminate; try reflexivity. apply text_le_total.
Qed.
Lemma interface_trans a b c : interface_le a b = true -> interface_le b c = true -> interface_le a c = true.
Proof.
  unfold interface_le. destruct (Nat.ltb_spec (priority (text a)) (priority (text b))), (Nat.ltb_spec (priority (text b)) (priority (text a))), (Nat.ltb_spec (priority (text b)) (priority (text c))), (Nat.ltb_spec (priority (text c)) (priority (text b))), (Nat.ltb_spec (priority (text a)) (priority (text c))), (Nat.ltb_spec (priority (text c)) (priority (text a))); try discriminate; try reflexivity; try lia. apply text_le_trans.
Qed.
Lemma begun_cons p l s : begun (p :: l) s <-> starts_with p s = true \/ begun l s.
Proof.
  rewrite starts_with_iff. unfold begun. split.
  - intros (x & t & [<-|I] & E); [left; exists t; exact E|right; exists x, t; auto].
  - intros [[t E]|(x & t & I & E)]; [exists p, t; split; [left; reflexivity|exact E]|exists x, t; split; [right; exact I|exact E]].
Qed.
Lemma begun_nil s : begun [] s <-> False.
Proof. split; [|tauto]. intros (x & t & [] & _). Qed.
Lemma rank_order x y m n : Rank x m -> Rank y n -> priority x <= priority y -> (m < n \/ m = n /\ priority x = priority y).
Proof.
  assert (P : forall s k, Rank s k -> priority s = match k with 0 => 0 | 1 => 1 | 2 => 3 | 3 => 4 | _ => 5 end /\ k < 5).
  { assert (D : forall (p q : str) s, starts_with p s = true -> starts_with q s = true -> match p, q with c :: _, d :: _ => c = d | _, _ => True end).
    { intros p q s A B. apply starts_with_iff in A, B. destruct A as [t ->], B as [u B]. destruct p, q; auto. injection B as -> _. reflexivity. }
    assert (B : forall b, b = false <-> b <> true) by (intros []; split; congruence).
    intros s k H. unfold priority. destruct H as [H|H|H1 H2 H3 H4|H|H].
    - unfold wired in H. rewrite !begun_cons, begun_nil in H. replace (starts_with (lit "eth") s || starts_with (lit "enp") s || starts_with (lit "eno") s) with true; [split; [reflexivity|lia]|]. symmetry. rewrite !orb_true_iff. tauto.
    - unfold wireless in H. rewrite !begun_cons, begun_nil in H. replace (starts_with (lit "eth") s || starts_with (lit "enp") s || starts_with (lit "eno") s) with false.
      + replace (starts_with (lit "wlan") s || starts_with (lit "wlp") s) with true; [split; [reflexivity|lia]|]. symmetry. rewrite orb_true_iff. tauto.
      + symmetry. rewrite !orb_false_iff, !B. repeat split; intros Z; destruct H as [H|[H|[]]]; discriminate (D _ _ s H Z).
    - unfold wired, wireless, virtual, loopback in *. rewrite !begun_cons, begun_nil in *. assert (E : str_eqb s (lit "lo") = false) by (apply B; rewrite str_eqb_eq; exact H4).
      repeat match goal with |- context [starts_with ?p s] => replace (starts_with p s) with false by (symmetry; apply B; tauto) end. rewrite E. split; [reflexivity|lia].
    - unfold virtual in H. rewrite !begun_cons, begun_nil in H. replace (starts_with (lit "eth") s || starts_with (lit "enp") s || starts_with (lit "eno") s) with false.
      + replace (starts_with (lit "wlan") s || starts_with (lit "wlp") s) with false.
        * replace (str_eqb s (lit "lo")) with false; [replace (starts_with (lit "docker") s || starts_with (lit "br-") s || starts_with (lit "veth") s) with true; [split; [reflexivity|lia]|symmetry; rewrite !orb_true_iff; tauto]|]. symmetry. apply B. rewrite str_eqb_eq. intros ->. destruct H as [H|[H|[H|[]]]]; discriminate H.
        * symmetry. rewrite !orb_false_iff, !B. repeat split; intros Z; destruct H as [H|[H|[H|[]]]]; discriminate (D _ _ s H Z).
      + symmetry. rewrite !orb_false_iff, !B. repeat split; intros Z; destruct H as [H|[H|[H|[]]]]; discriminate (D _ _ s H Z).
    - rewrite H. split; [reflexivity|lia]. }
  intros A B H. destruct (P _ _ A) as [E1 L1], (P _ _ B) as [E2 L2]. rewrite E1, E2 in *. destruct m as [|[|[|[|[|m]]]]], n as [|[|[|[|[|n]]]]]; lia.
Qed.
(** The interfaces are all offered: wired ones, wireless ones, others, virtual ones, the loopback; each kind in order. *)
Theorem C202_interfaces : forall devices token, (forall c, In c (interfaces low devices token) <-> In c devices /\ wanted low token c) /\
  StronglySorted (fun a b => forall m n, Rank (text a) m -> Rank (text b) n -> m < n \/ m = n /\ Frecency_Model.str_cmp (text a) (text b) <> Gt) (interfaces low devices token).
Proof.
  intros devices token. split; [intros c; unfold interfaces; rewrite narrowed_in, sort_in; tauto|].
  apply narrowed_sorted. apply (ordered_sorted interface_le).
  - intros x y H m n A B. unfold interface_le in H. destruct (Nat.ltb_spec (priority (text x)) (priority (text y))) as [L|L].
    + destruct (rank_order _ _ _ _ A B) as [Z|[_ Z]]; [lia|auto|lia].
    + destruct (Nat.ltb_spec (priority (text y)) (priority (text x))) as [G|G]; [discriminate|]. destruct (rank_order _ _ _ _ A B) as [Z|[Z _]]; [lia|auto|]. right. split; [exact Z|]. apply text_le_spec. exact H.
  - apply Frecency_Proofs.sort_ordered; [exact interface_total|exact interface_trans].
Qed.
(** Wired devices named by slot come after the wireless ones. *)
Theorem C202_slot_refuted : forall s w d e, slot_name s -> wireless w -> interfaces low [Cand s d; Cand w e] [] = [Cand w e; Cand s d] /\ interfaces low [Cand w e; Cand s d] [] = [Cand w e; Cand s d].
Proof.
  intros s w d e [t ->] (p & u & I & ->). assert (A : priority (lit "ens" ++ t) = 3) by reflexivity. assert (B : priority (p ++ u) = 1) by (destruct I as [<-|[<-|[]]]; reflexivity).
  unfold interfaces, narrowed, sort_cands, Frecency_Model.sort, interface_le. cbn [fold_right fold_left Frecency_Model.insert_sorted text]. rewrite ?A, ?B. split; reflexivity.
Qed.

End Names.
(** ** C203: mcp *)
Section Reading.
Variable unum : char -> bool.
Import Lread_Model Lread_Spec.
Lemma gap_blank : Gap (lit " ").
Proof. apply G_blank; [reflexivity|vm_compute; reflexivity|constructor]. Qed.
Lemma name_of f : In f [lit "mcp-connect"; lit "mcp-disconnect"] -> Writes unum (VSymbol f) f.
Proof.
  intros I. apply W_name. split; [|split; [|split; [|split]]].
  - destruct I as [<-|[<-|[]]]; [exists (lit "mcp-connec"), (chr "t")|exists (lit "mcp-disconnec"), (chr "t")]; (split; [reflexivity|vm_compute; reflexivity]).
  - apply Forall_forall. intros c J. apply (proj2 (Lread_Proofs.not_Break unum c)). assert (X : forallb is_symbolic f = true) by (destruct I as [<-|[<-|[]]]; vm_compute; reflexivity). rewrite forallb_forall in X. exact (X c J).
  - intros c r E. assert (c = 109%N) as -> by (destruct I as [<-|[<-|[]]]; injection E; congruence). split; [reflexivity|discriminate].
  - intros c r E. exfalso. destruct I as [<-|[<-|[]]]; discriminate E.
  - destruct I as [<-|[<-|[]]]; intros [E|[E|[E|[]]]]; discriminate E.
Qed.
Lemma string_writes s : last_ascii s -> ~ In 34%N s -> Writes unum (VString s) ([34%N] ++ s ++ [34%N]).
Proof. intros A B. exact (W_string unum s A B). Qed.
(** A label that ends in an ASCII character and holds no quote is the one argument of the call. *)
Theorem C203_label_partial : forall f label, In f [lit "mcp-connect"; lit "mcp-disconnect"] -> last_ascii label -> ~ In 34%N label ->
  first unum (quoted f label) = Some (Good (VList [VSymbol f; VString label]) (blen (quoted f label))).
Proof.
  intros f label I L Q. assert (W : Writes unum (VList [VSymbol f; VString label]) (quoted f label)).
  { replace (quoted f label) with (chr "(" :: [] ++ (f ++ lit " " ++ ([34%N] ++ label ++ [34%N]) ++ []) ++ [chr ")"]).
    - apply W_list; [constructor|]. apply I_cons; [apply name_of; exact I|apply gap_blank|discriminate|]. apply I_last; [apply string_writes; assumption|constructor].
    - unfold quoted. cbn [app]. rewrite app_nil_r. f_equal. rewrite <- !app_assoc. cbn [app lit]. rewrite <- !app_assoc. reflexivity. }
  assert (X := Lread_Props.C38_written_text_is_read unum _ [] _ [] G_nil W Logic.I). cbn [app] in X. rewrite app_nil_r in X. exact X.
Qed.
(** A label with quotes brings expressions of its own into the call, and they are evaluated. *)
Theorem C203_quoted_label_refuted : forall f a v s b, In f [lit "mcp-connect"; lit "mcp-disconnect"] -> last_ascii a -> ~ In 34%N a -> Writes unum v s -> last_ascii b -> ~ In 34%N b ->
  let label := a ++ [34%N] ++ lit " " ++ s ++ lit " " ++ [34%N] ++ b in
  first unum (quoted f label) = Some (Good (VList [VSymbol f; VString a; v; VString b]) (blen (quoted f label))).
Proof.
  intros f a v s b I LA QA WV LB QB label. assert (W : Writes unum (VList [VSymbol f; VString a; v; VString b]) (quoted f label)).
  { replace (quoted f label) with (chr "(" :: [] ++ (f ++ lit " " ++ (([34%N] ++ a ++ [34%N]) ++ lit " " ++ (s ++ lit " " ++ (([34%N] ++ b ++ [34%N]) ++ [])))) ++ [chr ")"]).
    - apply W_list; [constructor|]. apply I_cons; [apply name_of; exact I|apply gap_blank|discriminate|]. apply I_cons; [apply string_writes; assumption|apply gap_blank|discriminate|]. apply I_cons; [exact WV|apply gap_blank|discriminate|]. apply I_last; [apply string_writes; assumption|constructor].
    - unfold quoted, label. cbn [app]. rewrite app_nil_r. f_equal. repeat (rewrite <- !app_assoc; cbn [app]). reflexivity. }
  assert (X := Lread_Props.C38_written_text_is_read unum _ [] _ [] G_nil W Logic.I). cbn [app] in X. rewrite app_nil_r in X. exact X.
Qed.
End Reading.
(** What the words make it run. *)
Theorem C203_runs : forall args c, mcp_act_of args = Runs c <-> Asks args c.
Proof.
  intros args c. split.
  - destruct args as [|a r]; intros H; [discriminate|]. unfold mcp_act_of in H. cbv zeta in H.
    destruct (str_eqb a (lit "status") || str_eqb a (lit "s")) eqn:E0; [apply Outside_Props.two_iff in E0; injection H as <-; apply A_status; exact E0|].
    destruct (str_eqb a (lit "connect") || str_eqb a (lit "c")) eqn:E1.
    { apply Outside_Props.two_iff in E1. destruct r as [|l r]; [discriminate|]. injection H as <-. apply A_connect. exact E1. }
    destruct (str_eqb a (lit "disconnect") || str_eqb a (lit "d")) eqn:E2.
    { apply Outside_Props.two_iff in E2. destruct r as [|l r]; injection H as <-; [apply A_disconnect_all|apply A_disconnect]; exact E2. }
    destruct (str_eqb a (lit "list") || str_eqb a (lit "l")) eqn:E3; [apply Outside_Props.two_iff in E3; injection H as <-; apply A_list; exact E3|].
    destruct (str_eqb a (lit "tools") || str_eqb a (lit "t")) eqn:E4; [apply Outside_Props.two_iff in E4; injection H as <-; apply A_tools; exact E4|].
    destruct ((str_eqb a (lit "help") || str_eqb a (lit "-h")) || str_eqb a (lit "--help")); discriminate H.
  - intros H. destruct H as [a r J|a l r J|a l r J|a J|a r J|a r J]; destruct J as [<-|[<-|[]]]; reflexivity.
Qed.
(** Without a request it succeeds exactly if help was asked for. *)
Theorem C203_help : forall run wrote args, (forall c, ~ Asks args c) -> mcp_status run wrote args = 0 <-> args = [] \/ exists a r, args = a :: r /\ In a [lit "help"; lit "-h"; lit "--help"].
Proof.
  intros run wrote args H. assert (K : forall c, mcp_act_of args <> Runs c) by (intros c X; apply C203_runs in X; exact (H c X)). clear H. unfold mcp_status. destruct args as [|a r]; [cbn; tauto|]. split.
  - intros Z. right. exists a, r. split; [reflexivity|]. unfold mcp_act_of in *. cbv zeta in *.
    destruct (str_eqb a (lit "status") || str_eqb a (lit "s")); [destruct (K _ eq_refl)|].
    destruct (str_eqb a (lit "connect") || str_eqb a (lit "c")); [destruct r; [discriminate|destruct (K _ eq_refl)]|].
    destruct (str_eqb a (lit "disconnect") || str_eqb a (lit "d")); [destruct r; destruct (K _ eq_refl)|].
    destruct (str_eqb a (lit "list") || str_eqb a (lit "l")); [destruct (K _ eq_refl)|].
    destruct (str_eqb a (lit "tools") || str_eqb a (lit "t")); [destruct (K _ eq_refl)|].
    destruct ((str_eqb a (lit "help") || str_eqb a (lit "-h")) || str_eqb a (lit "--help")) eqn:E; [|discriminate]. rewrite !orb_true_iff, !str_eqb_eq in E. cbn. intuition.
  - intros [Z|(x & y & Z & J)]; [discriminate|]. injection Z as <- <-. destruct J as [<-|[<-|[<-|[]]]]; reflexivity.
Qed.
(** The status is success even if the call fails. *)
Theorem C203_failure_refuted : forall run args c, mcp_act_of args = Runs c -> run c = false -> mcp_status run true args = 0.
Proof. intros run args c H R. unfold mcp_status. rewrite H, R. reflexivity. Qed.
(** The list of tools stops the shell if the description of a tool is longer than 50 bytes and its byte 47 is inside a character. *)
Theorem C203_description_refuted : forall desc, tool_line desc = None <-> 50 < blen desc /\ ~ exists a b, desc = a ++ b /\ blen a = 47.
Proof.
  intros desc. unfold tool_line. destruct (Nat.ltb_spec 50 (blen desc)) as [L|L]; [|split; [discriminate|lia]]. destruct (split_byte desc 47) as [[a b]|] eqn:E.
  - split; [discriminate|]. intros [_ N]. destruct N. exists a, b. apply split_byte_iff in E. exact E.
  - split; [|reflexivity]. intros _. split; [exact L|]. intros (a & b & H). apply split_byte_iff in H. congruence.
Qed.
Theorem C203_description_partial : forall desc, (50 < blen desc -> exists a b, desc = a ++ b /\ blen a = 47) -> exists t, tool_line desc = Some t /\ (t = desc \/ exists a b, desc = a ++ b /\ blen a = 47 /\ t = a ++ lit "...").
Proof.
  intros desc H. unfold tool_line. destruct (Nat.ltb_spec 50 (blen desc)) as [L|L]; [|exists desc; auto]. destruct (H L) as (a & b & E & B). assert (S := proj2 (split_byte_iff desc 47 a b) (conj E B)). rewrite S. eexists. split; [reflexivity|]. right. exists a, b. auto.
Qed.

(** ** C204: tm *)
(** What was kept is written again where it belongs, but with a newline more. *)
Theorem C204_again : forall history pick s o e fo fe, history <> [] -> pick history = Some (o, e) -> file_of (table s) 1 = Some fo -> file_of (table s) 2 = Some fe -> fo <> fe ->
  exists s', tm history pick s = (0, s') /\ table s' = table s /\ data s' fo = data s fo ++ (match o with [] => [] | _ => o ++ [nl] end) /\ data s' fe = data s fe ++ (match e with [] => [] | _ => e ++ [nl] end) /\
  (forall g, g <> fo -> g <> fe -> data s' g = data s g).
Proof.
  intros history pick s o e fo fe H P F1 F2 D. unfold tm. destruct history as [|h history]; [congruence|]. rewrite P. cbv zeta. eexists. split; [reflexivity|].
  assert (W : forall fd msg (t : fds) f, file_of (table t) fd = Some f -> table (snd (write_line true fd msg t)) = table t /\ data (snd (write_line true fd msg t)) f = data t f ++ msg ++ [nl] /\ forall g, g <> f -> data (snd (write_line true fd msg t)) g = data t g).
  { intros fd msg t f X. destruct (Outside_Props.C197_written fd msg t f X) as (t' & E & A). rewrite E. exact A. }
  destruct o as [|c o].
  - destruct e as [|x e]; [rewrite !app_nil_r; auto|]. destruct (W 2 (x :: e) s fe F2) as (A & B & C). split; [exact A|]. split; [rewrite app_nil_r; apply C; exact D|]. split; [exact B|]. intros g _ G. apply C. exact G.
  - destruct (W 1 (c :: o) s fo F1) as (A & B & C). set (s1 := snd (write_line true 1 (c :: o) s)) in *. destruct e as [|x e].
    + split; [exact A|]. split; [exact B|]. split; [rewrite app_nil_r; apply C; congruence|]. intros g G _. apply C. exact G.
    + destruct (W 2 (x :: e) s1 fe) as (A' & B' & C'); [rewrite A; exact F2|]. split; [rewrite A'; exact A|]. split; [rewrite C' by exact D; exact B|]. split; [rewrite B', C by congruence; reflexivity|]. intros g G G'. rewrite C' by exact G'. apply C. exact G.
Qed.
Theorem C204_not_the_same_refuted : forall history pick s o e fo fe, history <> [] -> pick history = Some (o, e) -> o <> [] -> file_of (table s) 1 = Some fo -> file_of (table s) 2 = Some fe -> fo <> fe ->
  data (snd (tm history pick s)) fo <> data s fo ++ o.
Proof.
  intros history pick s o e fo fe H P N F1 F2 D X. destruct (C204_again history pick s o e fo fe H P F1 F2 D) as (s' & E & _ & A & _). rewrite E in X. cbn [snd] in X. rewrite A in X. apply app_inv_head in X. destruct o as [|c o]; [congruence|]. apply (f_equal (@length char)) in X. rewrite app_length in X. cbn in X. lia.
Qed.
(** Nothing is written if none is taken, and there being none is an error. *)
Theorem C204_none : forall history pick s, (history <> [] -> pick history = None -> tm history pick s = (0, s)) /\ fst (tm [] pick s) = 1.
Proof. intros history pick s. split; [|reflexivity]. intros H P. unfold tm. destruct history; [congruence|]. rewrite P. reflexivity. Qed.

(** ** C205: reload *)
Lemma find_text_iff pat s : find_text pat s = None <-> contains pat s = false.
Proof.
  induction s as [|c s IH]; cbn [find_text contains].
  - destruct (starts_with pat []); cbn; split; congruence.
  - destruct (starts_with pat (c :: s)); cbn [orb]; [split; discriminate|]. rewrite <- IH. destruct (find_text pat s) as [[a b]|]; split; congruence.
Qed.
Lemma find_text_here pat s : starts_with pat s = true -> find_text pat s = Some ([], s).
Proof. intros H. destruct s; cbn [find_text]; rewrite H; reflexivity. Qed.
Lemma find_text_none_cons pat c s : find_text pat (c :: s) = None -> find_text pat s = None.
Proof. cbn [find_text]. destruct (starts_with pat (c :: s)); [discriminate|]. destruct (find_text pat s) as [[a b]|]; [discriminate|reflexivity]. Qed.
Lemma rfind_last x a b : ~ In x b -> rfind_char x (a ++ x :: b) = Some (a, x :: b).
Proof.
  intros N. induction a as [|c a IH]; cbn [app rfind_char].
  - assert (E : rfind_char x b = None). { clear - N. induction b as [|c b IH]; [reflexivity|]. cbn [rfind_char]. rewrite IH by (intros J; apply N; right; exact J). destruct (N.eqb_spec c x) as [->|_]; [destruct N; left|]; reflexivity. }
    rewrite E, N.eqb_refl. reflexivity.
  - rewrite IH. reflexivity.
Qed.
(** Every message names the command. *)
Theorem C205_named : forall args r st l done, reload args r = (st, l, done) -> Forall (fun m => m = lit "Usage: reload [--help|-h]" \/ exists t, m = lit "reload: " ++ t) l.
Proof.
  assert (M : forall e, exists t, reload_message e = lit "reload: " ++ t).
  { intros e. unfold reload_message. destruct (_ || _).
    - destruct (find_text home_config e) as [p|]; [eexists; exact eq_refl|]. destruct (rfind_char (chr "/") e) as [[a b]|]; [|eexists; exact eq_refl]. destruct (find_text (lit " ") b) as [[f g]|]; eexists; exact eq_refl.
    - destruct (contains (lit "Permission denied") e); [eexists; exact eq_refl|]. destruct (contains (lit "failed get xdg directory") e); [eexists; exact eq_refl|].
      destruct (find_text (lit "Parse error:") e) as [[a b]|]; [eexists; exact eq_refl|]. destruct (find_text (lit "Runtime error:") e) as [[a b]|]; [eexists; exact eq_refl|]. destruct (_ || _); eexists; exact eq_refl. }
  intros args r st l done H. unfold reload in H. destruct args as [|a [|b args]].
  - destruct (error_text r) as [e|]; injection H as _ <- _; [|constructor]. constructor; [right; apply M|]. constructor; [right; eexists; reflexivity|constructor].
  - destruct (_ || _); injection H as _ <- _; [constructor|]. constructor; [right; eexists; exact eq_refl|]. constructor; [left; reflexivity|constructor].
  - injection H as _ <- _. constructor; [right; eexists; exact eq_refl|]. constructor; [left; reflexivity|constructor].
Qed.
(** Success is reported if the file was evaluated without error (or help was asked for), and the file is evaluated only by the bare command. *)
Theorem C205_status : forall args r, (fst (fst (reload args r)) = 0 <-> (args = [] /\ r = Done) \/ In args [[lit "--help"]; [lit "-h"]]) /\ (snd (reload args r) = true <-> args = []).
Proof.
  intros args r. unfold reload. destruct args as [|a [|b args]].
  - destruct r as [|p c|t]; cbn; split; split; try tauto; try discriminate; try (intros [[_ X]|[X|[X|[]]]]; discriminate).
  - destruct (str_eqb a (lit "--help") || str_eqb a (lit "-h")) eqn:E; cbn [fst snd].
    + apply Outside_Props.two_iff in E. split; [|split; discriminate]. split; [|reflexivity]. intros _. right. destruct E as [<-|[<-|[]]]; cbn; auto.
    + split; [|split; discriminate]. split; [discriminate|]. intros [[X _]|X]; [discriminate|]. exfalso. assert (K : In a [lit "--help"; lit "-h"]) by (destruct X as [X|[X|[]]]; injection X as <-; cbn; auto). apply Outside_Props.two_iff in K. congruence.
  - cbn. split; split; try discriminate. intros [[X _]|[X|[X|[]]]]; discriminate.
Qed.
(** An error of the evaluation is shown with its text. *)
Theorem C205_text : forall t, In (lit "reload: " ++ t) (snd (fst (reload [] (Failed t)))).
Proof. intros t. right. left. reflexivity. Qed.
(** A file that is there but cannot be read (no permission, not UTF-8) is reported as not found. *)
Theorem C205_unread_refuted : forall dir cause, exists rest, reload [] (Unread (dir ++ lit "/config.lisp") cause) = (1, [lit "reload: file not found: ~/.config/dsh/config.lisp"; rest], true).
Proof.
  intros dir cause. unfold reload, error_text. eexists. f_equal. f_equal. f_equal. unfold reload_message.
  assert (C : contains (lit "Failed to read config file") (lit "Failed to read config file: " ++ dir ++ lit "/config.lisp") = true). { apply contains_iff. exists [], (lit ": " ++ dir ++ lit "/config.lisp"). reflexivity. }
  rewrite C, orb_true_r. destruct (find_text home_config _) as [p|]; [reflexivity|].
  change (lit "/config.lisp") with (chr "/" :: lit "config.lisp"). rewrite app_assoc, rfind_last by (vm_compute; intuition discriminate). reflexivity.
Qed.
(** An error that speaks of a missing file is reported as a missing configuration. *)
Theorem C205_missing_refuted : forall a b, exists t rest, reload [] (Failed (a ++ lit "No such file or directory" ++ b)) = (1, (lit "reload: file not found: ~/.config/dsh/" ++ t) :: rest, true).
Proof.
  intros a b. unfold reload, error_text, reload_message. assert (C : contains (lit "No such file or directory") (a ++ lit "No such file or directory" ++ b) = true) by (apply contains_iff; exists a, b; reflexivity). rewrite C. cbn [orb].
  set (e := a ++ lit "No such file or directory" ++ b). destruct (find_text home_config e) as [p|]; [exists (lit "config.lisp"); eexists; exact eq_refl|]. destruct (rfind_char (chr "/") e) as [[x y]|]; [|exists (lit "config.lisp"); eexists; exact eq_refl]. destruct (find_text (lit " ") y) as [[f g]|]; [exists (skipn 1 f)|exists (lit "config.lisp")]; eexists; exact eq_refl.
Qed.
(** A runtime error without these words is named as one. *)
Theorem C205_runtime_partial : forall m, let e := lit "Runtime error: " ++ m in
  (forall w, In w [lit "No such file or directory"; lit "Failed to read config file"; lit "Permission denied"; lit "failed get xdg directory"; lit "Parse error:"] -> contains w e = false) -> starts_with (lit "Runtime error: ") m = false ->
  reload [] (Failed e) = (1, [lit "reload: runtime error: " ++ m; lit "reload: " ++ e], true).
Proof.
  intros m e H S. unfold reload, error_text. f_equal. f_equal. f_equal. unfold reload_message. rewrite !H by (cbn; tauto). cbn [orb].
  assert (P : find_text (lit "Parse error:") e = None) by (apply find_text_iff, H; cbn; tauto). rewrite P. rewrite find_text_here by reflexivity.
  f_equal. unfold e. change (length (lit "Runtime error: " ++ m)) with (Datatypes.S (14 + length m)). cbn [trim_matches]. change (starts_with (lit "Runtime error: ") (lit "Runtime error: " ++ m)) with true. cbv iota. change (skipn (length (lit "Runtime error: ")) (lit "Runtime error: " ++ m)) with m. cbn [Nat.add trim_matches]. rewrite S. reflexivity.
Qed.

(** ** Cases that meet the hypotheses *)
Definition idlow (s : str) : str := s.
Definition ps : list proc := [Proc 1 (lit "init") 0; Proc 7 (lit "make") 90; Proc 9 (lit "vi") 3].
Definition jk : key := Key false (Char (chr "j")).
Definition xk : key := Key false (Char (chr "x")).
Example C199_example : view idlow (start idlow ps) [Pressed jk ps; Pressed xk ps] = (Some (App [Proc 7 (lit "make") 90; Proc 9 (lit "vi") 3; Proc 1 (lit "init") 0] (Some 1) [] false), [(9%N, Term)]).
Proof. vm_compute. reflexivity. Qed.
(** the list changes under the cursor between looking and typing *)
Example C199_moved_example : let a := start idlow ps in let later := [Proc 1 (lit "init") 0; Proc 7 (lit "make") 1; Proc 9 (lit "vi") 3] in
  selected a = Some (Proc 7 (lit "make") 90) /\ snd (view idlow a [Second later; Pressed xk later]) = [(9%N, Term)].
Proof. vm_compute. split; reflexivity. Qed.
Example C200_example : prompt_path [lit "home"; lit "u"; lit "src"] None (Some [lit "home"; lit "u"]) false = (lit "~/src", false) /\
  prompt_path [lit "home"; lit "u2"] None (Some [lit "home"; lit "u"]) false = (lit "~2", false) /\ prompt_path [lit "r"; lit "a"; lit "b"] (Some [lit "r"; lit "a"]) None false = (lit "a/b", true).
Proof. vm_compute. repeat split. Qed.
Example C201_example : git_part (lit "*") (lit "main") (Counts 0 1 0 12 0 0 3 0) = lit " on * main [" ++ [8673%N] ++ lit "1 +12 !3]".
Proof. vm_compute. reflexivity. Qed.
Example C202_example : users idlow false (Some [lit "root:x:0:0::/root:/bin/sh"; lit "bin:x:2:2::/:/bin/false"; lit "amy:x:1000:1000:Amy:/home/amy:/bin/sh"]) [] = [Cand (lit "amy") (Some (lit "Amy")); Cand (lit "root") None].
Proof. vm_compute. reflexivity. Qed.
Example C203_example : Lread_Spec.last_ascii (lit "gh") /\ ~ In 34%N (lit "gh") /\ mcp_act_of [lit "connect"; lit "gh"] = Runs (quoted (lit "mcp-connect") (lit "gh")).
Proof. split; [exists (lit "g"), (chr "h"); split; [reflexivity|vm_compute; reflexivity]|]. split; [vm_compute; intuition discriminate|vm_compute; reflexivity]. Qed.
Example C203_description_example : tool_line (repeat 97%N 46 ++ [233%N] ++ repeat 97%N 10) = None /\ tool_line (repeat 97%N 60) = Some (repeat 97%N 47 ++ lit "...").
Proof. vm_compute. split; reflexivity. Qed.
Example C204_example : let s := Fds [(1, 10); (2, 20)] (fun _ => []) in exists s', tm [(lit "out", lit "err")] (fun h => Some (lit "out", lit "err")) s = (0, s') /\ data s' 10 = lit "out" ++ [nl] /\ data s' 20 = lit "err" ++ [nl].
Proof. eexists. split; [reflexivity|]. vm_compute. split; reflexivity. Qed.
Example C205_example : reload [] (Failed (lit "Runtime error: undefined")) = (1, [lit "reload: runtime error: undefined"; lit "reload: Runtime error: undefined"], true) /\
  reload [] (Unread (lit "/h/.config/dsh/config.lisp") (lit "Permission denied")) = (1, [lit "reload: file not found: ~/.config/dsh/config.lisp"; lit "reload: Failed to read config file: /h/.config/dsh/config.lisp"], true).
Proof. vm_compute. split; reflexivity. Qed.

Print Assumptions C199_listed.
Print Assumptions C199_cursor.
Print Assumptions C199_always_one_selected.
Print Assumptions C199_signals.
Print Assumptions C199_sends.
Print Assumptions C199_filter_typing.
Print Assumptions C199_leaves_iff.
Print Assumptions C199_round.
Print Assumptions C199_every_process_can_be_reached.
Print Assumptions C199_moved_refuted.
Print Assumptions C199_control_refuted.
Print Assumptions C200_repository.
Print Assumptions C200_home_partial.
Print Assumptions C200_other_partial.
Print Assumptions C200_sibling_refuted.
Print Assumptions C200_inside_refuted.
Print Assumptions C200_root_home_refuted.
Print Assumptions C200_new_repository.
Print Assumptions C201_marks.
Print Assumptions C201_clean_iff.
Print Assumptions C201_ahead_partial.
Print Assumptions C201_behind_partial.
Print Assumptions C201_diverged_refuted.
Print Assumptions C201_branch.
Print Assumptions C202_users.
Print Assumptions C202_in_order.
Print Assumptions C202_unreadable_refuted.
Print Assumptions C202_groups.
Print Assumptions C202_plus_refuted.
Print Assumptions C202_interfaces.
Print Assumptions C202_slot_refuted.
Print Assumptions C203_label_partial.
Print Assumptions C203_quoted_label_refuted.
Print Assumptions C203_runs.
Print Assumptions C203_help.
Print Assumptions C203_failure_refuted.
Print Assumptions C203_description_refuted.
Print Assumptions C203_description_partial.
Print Assumptions C204_again.
Print Assumptions C204_not_the_same_refuted.
Print Assumptions C204_none.
Print Assumptions C205_named.
Print Assumptions C205_status.
Print Assumptions C205_text.
Print Assumptions C205_unread_refuted.
Print Assumptions C205_missing_refuted.
Print Assumptions C205_runtime_partial.
