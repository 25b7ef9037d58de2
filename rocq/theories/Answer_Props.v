(** What becomes of the model's answer to a line: C124. *)
From Verif Require Import Base Suggest_Model Suggest_Spec.
From Verif Require Direnv_Model.

Fixpoint drop_while (p : char -> bool) (s : str) : str :=
  match s with c :: r => if p c then drop_while p r else s | [] => [] end.
Lemma drop_any_while cs s : drop_any cs s = drop_while (fun c => mem_char c cs) s.
Proof. induction s as [|c s IH]; [reflexivity|]. cbn. destruct (mem_char c cs); auto. Qed.
Lemma trim_start_while s : trim_start s = drop_while is_whitespace s.
Proof. induction s as [|c s IH]; [reflexivity|]. cbn. destruct (is_whitespace c); auto. Qed.
Lemma drop_while_all p w s : (forall c, In c w -> p c = true) -> drop_while p (w ++ s) = drop_while p s.
Proof. induction w as [|c w IH]; intros H; [reflexivity|]. cbn. rewrite (H c) by (left; reflexivity). apply IH. intros d D. apply H. right. exact D. Qed.
Lemma drop_while_first p s : (forall c r, s = c :: r -> p c = false) -> drop_while p s = s.
Proof. intros H. destruct s as [|c r]; [reflexivity|]. cbn. rewrite (H c r eq_refl). reflexivity. Qed.
(** trimming the end keeps what ends well, and some beginning of what follows *)
Lemma end_keeps p t x : t <> [] -> (forall b c, t = b ++ [c] -> p c = false) ->
  exists q q', rev (drop_while p (rev (t ++ x))) = t ++ q /\ x = q ++ q' /\ (forall c, In c q' -> p c = true).
Proof.
  intros N E. induction x as [|d x IH] using rev_ind.
  - exists [], []. split; [|split; [reflexivity|intros c []]]. rewrite !app_nil_r. rewrite drop_while_first; [apply rev_involutive|].
    intros c r R. apply (E (rev r)). rewrite <- (rev_involutive t), R. reflexivity.
  - rewrite app_assoc, rev_app_distr. cbn [rev app drop_while]. destruct (p d) eqn:P.
    + destruct IH as (q & q' & A & B & C). exists q, (q' ++ [d]). split; [exact A|]. split; [rewrite B, app_assoc; reflexivity|].
      intros c I. apply in_app_or in I as [I|[<-|[]]]; [exact (C c I)|exact P].
    + exists (x ++ [d]), []. cbn [rev]. rewrite rev_involutive, app_assoc, app_nil_r. split; [reflexivity|]. split; [reflexivity|intros c []].
Qed.
Lemma end_white p t x : t <> [] -> (forall b c, t = b ++ [c] -> p c = false) -> (forall c, In c x -> p c = true) -> rev (drop_while p (rev (t ++ x))) = t.
Proof.
  intros N E W. rewrite rev_app_distr, drop_while_all by (intros c I; apply W, in_rev, I).
  rewrite drop_while_first; [apply rev_involutive|]. intros c r R. apply (E (rev r)). rewrite <- (rev_involutive t), R. reflexivity.
Qed.
Lemma trim_keeps a t x : white a -> t <> [] -> (forall c r, t = c :: r -> is_whitespace c = false) -> (forall b c, t = b ++ [c] -> is_whitespace c = false) ->
  exists q q', trim (a ++ t ++ x) = t ++ q /\ x = q ++ q' /\ white q'.
Proof.
  intros A N F L. unfold trim, trim_end. rewrite !trim_start_while, drop_while_all by exact A. rewrite (drop_while_first _ (t ++ x)).
  - apply end_keeps; assumption.
  - intros c r E. destruct t as [|d t]; [congruence|]. cbn in E. inversion E; subst. apply (F c t eq_refl).
Qed.
Lemma trim_exact a t x : white a -> white x -> t <> [] -> (forall c r, t = c :: r -> is_whitespace c = false) -> (forall b c, t = b ++ [c] -> is_whitespace c = false) ->
  trim (a ++ t ++ x) = t.
Proof.
  intros A X N F L. unfold trim, trim_end. rewrite !trim_start_while, drop_while_all by exact A. rewrite (drop_while_first _ (t ++ x)).
  - apply end_white; assumption.
  - intros c r E. destruct t as [|d t]; [congruence|]. cbn in E. inversion E; subst. apply (F c t eq_refl).
Qed.
Lemma quote_iff c : mem_char c quotes = true <-> a_quote c.
Proof. rewrite mem_char_iff. unfold quotes, a_quote. cbn. split; intros H; intuition. Qed.
Lemma not_quote c : ~ a_quote c -> mem_char c quotes = false.
Proof. intros N. destruct (mem_char c quotes) eqn:E; [apply quote_iff in E; contradiction|reflexivity]. Qed.
Lemma clear_prefix q q' : clear_line (q ++ q') -> clear_line q.
Proof. intros C u v -> N. apply (C u (v ++ q')); [rewrite app_assoc; reflexivity|exact N]. Qed.
Lemma white_clear w : white w -> clear_line w.
Proof. intros W u v -> _ c I. apply W, in_or_app. left. exact I. Qed.

(** the first line *)
Lemma lines_first : forall s cur, (cur <> [] \/ exists c r, s = c :: r /\ c <> 10%N) ->
  exists u v rest l, s = u ++ v /\ ~ In 10%N u /\ Direnv_Model.lines_aux cur s = l :: rest /\ (l = rev cur ++ u \/ l = Direnv_Model.strip_cr (rev cur ++ u)).
Proof.
  induction s as [|c s IH]; intros cur H.
  - exists [], [], [], (rev cur). split; [reflexivity|]. split; [intros []|]. rewrite app_nil_r. split; [|auto]. cbn. destruct cur; [|reflexivity].
    destruct H as [H|(c & r & E & _)]; [congruence|discriminate E].
  - cbn [Direnv_Model.lines_aux]. destruct (N.eqb_spec c 10) as [->|Nc].
    + exists [], (10%N :: s), (Direnv_Model.lines_aux [] s), (Direnv_Model.strip_cr (rev cur)). split; [reflexivity|]. split; [intros []|]. rewrite app_nil_r. auto.
    + destruct (IH (c :: cur)) as (u & v & rest & l & -> & Nu & E & L); [left; discriminate|]. exists (c :: u), v, rest, l. split; [reflexivity|].
      split; [intros [->|I]; [congruence|contradiction]|]. split; [exact E|]. cbn [rev] in L. rewrite <- app_assoc in L. exact L.
Qed.
Lemma app_both : forall (t u q v : str), t ++ q = u ++ v -> ~ In 10%N t -> ~ In 10%N u ->
  (exists w, u = t ++ w /\ q = w ++ v) \/ (exists w, t = u ++ w /\ v = w ++ q).
Proof.
  induction t as [|c t IH]; intros u q v E Nt Nu; [left; exists u; auto|]. destruct u as [|d u]; [right; exists (c :: t); auto|].
  cbn in E. inversion E; subst. destruct (IH u q v) as [(w & A & B)|(w & A & B)]; [assumption|intros I; apply Nt; right; exact I|intros I; apply Nu; right; exact I| |].
  - left. exists w. rewrite A. auto.
  - right. exists w. rewrite A. auto.
Qed.
Lemma lines_grow : forall s cur t, ~ In 10%N t -> t <> [] -> exists u v rest l, s = u ++ v /\ ~ In 10%N u /\ Direnv_Model.lines_aux cur (t ++ s) = l :: rest
   /\ (l = rev cur ++ t ++ u \/ l = Direnv_Model.strip_cr (rev cur ++ t ++ u)).
Proof.
  intros s cur t. revert cur. induction t as [|c t IH]; intros cur Nt N; [congruence|]. cbn [app Direnv_Model.lines_aux].
  destruct (N.eqb_spec c 10) as [->|Nc]; [contradiction Nt; left; reflexivity|]. destruct t as [|d t].
  - destruct (lines_first s (c :: cur)) as (u & v & rest & l & -> & Nu & E & L); [left; discriminate|]. exists u, v, rest, l. split; [reflexivity|]. split; [exact Nu|]. split; [exact E|].
    cbn [rev] in L. rewrite <- app_assoc in L. exact L.
  - destruct (IH (c :: cur)) as (u & v & rest & l & -> & Nu & E & L); [intros I; apply Nt; right; exact I|discriminate|]. exists u, v, rest, l. split; [reflexivity|]. split; [exact Nu|]. split; [exact E|].
    cbn [rev] in L. rewrite <- app_assoc in L. exact L.
Qed.
Lemma strip_cr_keeps t u : t <> [] -> (forall b c, t = b ++ [c] -> is_whitespace c = false) -> white u -> exists u', Direnv_Model.strip_cr (t ++ u) = t ++ u' /\ white u'.
Proof.
  intros N L W. unfold Direnv_Model.strip_cr. destruct u as [|c u _] using rev_ind.
  - exists []. split; [|intros c []]. rewrite app_nil_r. destruct (rev t) as [|c r] eqn:R; [reflexivity|]. destruct (N.eqb_spec c 13) as [->|_]; [|reflexivity].
    assert (E : t = rev r ++ [13%N]) by (rewrite <- (rev_involutive t), R; reflexivity). apply L in E. discriminate E.
  - rewrite app_assoc, rev_app_distr. cbn [rev app]. destruct (c =? 13)%N.
    + exists u. rewrite rev_involutive. split; [reflexivity|]. intros d D. apply W, in_or_app. left. exact D.
    + exists (u ++ [c]). rewrite app_assoc. auto.
Qed.
Lemma first_line_kept t q : t <> [] -> bare_line t -> clear_line q ->
  match Direnv_Model.lines (trim_any quotes (t ++ q)) with l :: _ => trim l | [] => [] end = t.
Proof.
  intros N (Nl & F & L) C. unfold trim_any. rewrite !drop_any_while.
  rewrite (drop_while_first _ (t ++ q)).
  2:{ intros c r E. destruct t as [|d t]; [congruence|]. cbn in E. inversion E; subst. apply not_quote, (F c t eq_refl). }
  destruct (end_keeps (fun c => mem_char c quotes) t q N) as (p & p' & E & -> & _); [intros b c E; apply not_quote, (L b c E)|].
  match goal with |- match Direnv_Model.lines ?X with _ => _ end = _ => replace X with (t ++ p) by (symmetry; exact E) end.
  unfold Direnv_Model.lines. destruct (lines_grow p [] t Nl N) as (u & v & rest & l & Ep & Nu & El & Lc). cbn [rev app] in Lc.
  match goal with |- match ?Y with _ => _ end = _ => replace Y with (l :: rest) by (symmetry; exact El) end. subst p.
  assert (W : white u) by (apply clear_prefix in C; exact (C u v eq_refl Nu)).
  assert (Lw : forall b c, t = b ++ [c] -> is_whitespace c = false) by (intros b c B; apply (L b c B)).
  assert (K : exists u', l = t ++ u' /\ white u') by (destruct Lc as [->| ->]; [exists u; auto|apply strip_cr_keeps; assumption]).
  destruct K as (u' & -> & W'). apply (trim_exact [] t u'); [intros c []|exact W'|exact N| |exact Lw]. intros c r B. apply (F c r B).
Qed.
Lemma before_last_end s : before_last fence (s ++ fence) = Some s.
Proof. induction s as [|c s IH]; [reflexivity|]. cbn [app before_last]. rewrite IH. reflexivity. Qed.
Lemma after_newline_app u v : ~ In 10%N u -> after_newline (u ++ 10%N :: v) = Some v.
Proof. induction u as [|c u IH]; intros N; [reflexivity|]. cbn. destruct (N.eqb_spec c 10) as [->|_]; [contradiction N; left; reflexivity|]. apply IH. intros I. apply N. right. exact I. Qed.
Lemma after_newline_none u : ~ In 10%N u -> after_newline u = None.
Proof. induction u as [|c u IH]; intros N; [reflexivity|]. cbn. destruct (N.eqb_spec c 10) as [->|_]; [contradiction N; left; reflexivity|]. apply IH. intros I. apply N. right. exact I. Qed.
Lemma unfenced_bare t q : t <> [] -> bare_line t -> unfence (t ++ q) = t ++ q.
Proof.
  intros N (_ & F & _). unfold unfence. destruct t as [|c t]; [congruence|]. destruct (starts_with fence ((c :: t) ++ q)) eqn:E; [|reflexivity].
  exfalso. apply starts_with_iff in E as [m E]. change fence with [96%N; 96%N; 96%N] in E. cbn in E. inversion E; subst. apply (proj2 (F _ _ eq_refl)). right. right. reflexivity.
Qed.
Lemma fetch_kept i d h t x : i <> [] -> t <> [] -> starts_with i t = true -> sanitize_model_output x = t -> fetch_completion (Request i d h) (Some x) = Some t.
Proof. intros Ni Nt S0 <-. unfold fetch_completion. cbn [r_input]. destruct i; [congruence|]. cbn [is_nil]. destruct (sanitize_model_output x) eqn:E; [congruence|]. cbn [is_nil]. rewrite S0. reflexivity. Qed.

(** An answer whose first line is a command continuing the line is taken as it is: whatever
    blanks are around it and whatever lines follow, and likewise inside a code fence.
    Missing: answers that begin or end with a quote, and lines that begin with a blank. *)
Theorem C124_plain_answer_kept_partial : forall i d h t a b, i <> [] -> t <> [] -> bare_line t -> starts_with i t = true ->
  white a -> clear_line b -> fetch_completion (Request i d h) (Some (a ++ t ++ b)) = Some t.
Proof.
  intros i d h t a b Ni N B S0 A C. apply fetch_kept; try assumption. unfold sanitize_model_output. pose proof B as (_ & F & L).
  destruct (trim_keeps a t b A N) as (q & q' & E & -> & _); [intros c r R; apply (F c r R)|intros u c R; apply (L u c R)|]. rewrite E, unfenced_bare by assumption.
  apply first_line_kept; [exact N|exact B|]. apply (clear_prefix q q' C).
Qed.
Theorem C124_fenced_answer_kept_partial : forall i d h t a lang w b a2, i <> [] -> t <> [] -> bare_line t -> starts_with i t = true ->
  white a -> white a2 -> white w -> (forall c, In c lang -> is_whitespace c = false) -> clear_line b -> lang <> [] \/ white b ->
  fetch_completion (Request i d h) (Some (a ++ (lit "```" ++ lang ++ [10%N] ++ w ++ t ++ b ++ lit "```") ++ a2)) = Some t.
Proof.
  intros i d h t a lang w b a2 Ni N B S0 A A2 W La C O. apply fetch_kept; try assumption. unfold sanitize_model_output. pose proof B as (_ & F & L).
  set (X := lang ++ [10%N] ++ w ++ t ++ b).
  assert (EX : lit "```" ++ lang ++ [10%N] ++ w ++ t ++ b ++ lit "```" = lit "```" ++ X ++ fence) by (unfold X; change fence with (lit "```"); rewrite <- !app_assoc; reflexivity).
  rewrite EX. rewrite trim_exact; [|exact A|exact A2|discriminate|intros c r R; cbn in R; inversion R; reflexivity|].
  2:{ intros u c R. change fence with ([96%N; 96%N] ++ [96%N]) in R. rewrite !app_assoc in R. apply app_inj_tail in R as [_ <-]. reflexivity. }
  assert (Fw : forall c r, t = c :: r -> is_whitespace c = false) by (intros c r R; apply (F c r R)).
  assert (Lw : forall b c, t = b ++ [c] -> is_whitespace c = false) by (intros u c R; apply (L u c R)).
  assert (U : exists q, unfence (lit "```" ++ X ++ fence) = t ++ q /\ clear_line q).
  { unfold unfence. change (starts_with fence (lit "```" ++ X ++ fence)) with true. cbv iota. change (skipn 3 (lit "```" ++ X ++ fence)) with (X ++ fence).
    rewrite before_last_end. cbv zeta. destruct lang as [|c lang].
    - destruct O as [O|O]; [congruence|]. assert (T : trim X = t) by (unfold X; cbn [app]; apply (trim_exact (10%N :: w) t b); try assumption; intros c [<-|I]; [reflexivity|exact (W c I)]).
      rewrite T, after_newline_none by apply B. exists []. split; [rewrite app_nil_r; reflexivity|]. apply white_clear. intros c [].
    - destruct (trim_keeps [] ((c :: lang) ++ [10%N] ++ w ++ t) b) as (q & q' & E & Eb & _).
      + intros y [].
      + discriminate.
      + intros y r R. cbn in R. inversion R; subst. apply La. left. reflexivity.
      + intros u y R. destruct t as [|t0 t _] using rev_ind; [congruence|]. rewrite !app_assoc in R. apply app_inj_tail in R as [_ <-]. apply (Lw t t0 eq_refl).
      + assert (TX : trim X = (c :: lang) ++ 10%N :: (w ++ t ++ q)).
        { assert (E1 : X = [] ++ ((c :: lang) ++ [10%N] ++ w ++ t) ++ b) by (unfold X; cbn [app]; rewrite <- !app_assoc; cbn [app]; rewrite <- ?app_assoc; reflexivity).
          rewrite E1. etransitivity; [exact E|]. cbn [app]. rewrite <- !app_assoc. cbn [app]. rewrite <- ?app_assoc. reflexivity. }
        rewrite TX, after_newline_app. 2:{ intros I. apply La in I. discriminate I. }
        destruct (trim_keeps w t q W N Fw Lw) as (p & p' & E2 & Eq & _). exists p. split; [exact E2|]. subst q b. apply clear_prefix in C. apply clear_prefix in C. exact C. }
  destruct U as (q & -> & Cq). apply first_line_kept; assumption.
Qed.

(** What is offered is one line without blanks at its ends. *)
Lemma trim_ends s : (forall c r, trim s = c :: r -> is_whitespace c = false) /\ (forall b c, trim s = b ++ [c] -> is_whitespace c = false).
Proof.
  assert (D : forall p s c r, drop_while p s = c :: r -> p c = false).
  { intros p. induction s0 as [|y s0 IH]; intros c r E; [discriminate E|]. cbn in E. destruct (p y) eqn:P; [exact (IH _ _ E)|]. inversion E; subst. exact P. }
  assert (Last : forall b c, trim s = b ++ [c] -> is_whitespace c = false).
  { intros b c E. unfold trim, trim_end in E. rewrite !trim_start_while in E. apply (f_equal (@rev char)) in E. rewrite rev_involutive, rev_app_distr in E. exact (D _ _ _ _ E). }
  split; [|exact Last]. intros c r E. unfold trim, trim_end in E. rewrite !trim_start_while in E.
  destruct (drop_while is_whitespace s) as [|d u] eqn:Q; [discriminate E|]. pose proof (D _ _ _ _ Q) as Nd.
  destruct (end_keeps is_whitespace [d] u) as (q & q' & K & _ & _); [discriminate|intros b y R; destruct b as [|z b]; [inversion R; subst; exact Nd|destruct b; discriminate R]|].
  cbn [app] in K. match type of E with ?X = _ => replace X with (d :: q) in E by (symmetry; exact K) end. inversion E; subst. exact Nd.
Qed.
Lemma lines_no_newline : forall s cur l, ~ In 10%N cur -> In l (Direnv_Model.lines_aux cur s) -> ~ In 10%N l.
Proof.
  assert (St : forall l : str, ~ In 10%N l -> ~ In 10%N (Direnv_Model.strip_cr l)).
  { intros l N. unfold Direnv_Model.strip_cr. destruct (rev l) as [|c r] eqn:R; [exact N|]. destruct (c =? 13)%N; [|exact N]. intros I. apply N, in_rev. assert (K : In 10%N (c :: r)) by (right; apply in_rev, I). rewrite <- R in K. exact K. }
  induction s as [|c s IH]; intros cur l N I; cbn in I.
  - destruct cur as [|d cur]; [contradiction I|]. destruct I as [<-|[]]. intros I. apply N, in_rev, I.
  - destruct (N.eqb_spec c 10) as [->|Nc].
    + destruct I as [<-|I]; [apply St; intros I; apply N, in_rev, I|]. exact (IH [] l (fun x => x) I).
    + apply (IH (c :: cur)); [intros [E|E]; [congruence|contradiction]|exact I].
Qed.
Lemma trim_in s c : In c (trim s) -> In c s.
Proof.
  assert (D : forall p s, In c (drop_while p s) -> In c s) by (intros p; induction s0 as [|y s0 IH]; cbn; [auto|]; destruct (p y); cbn; auto).
  unfold trim, trim_end. rewrite !trim_start_while. intros I. apply in_rev, D, in_rev, D in I. exact I.
Qed.
Theorem C124_offer_is_one_trimmed_line : forall i d h x f, i <> [] -> fetch_completion (Request i d h) (Some x) = Some f ->
  f <> [] /\ starts_with i f = true /\ ~ In 10%N f /\ (forall c r, f = c :: r -> is_whitespace c = false) /\ (forall b c, f = b ++ [c] -> is_whitespace c = false).
Proof.
  intros i d h x f Ni E. unfold fetch_completion in E. cbn [r_input] in E. destruct i as [|c0 i]; [congruence|]. cbn [is_nil] in E.
  destruct (is_nil (sanitize_model_output x)) eqn:Nl; [discriminate E|]. destruct (starts_with (c0 :: i) (sanitize_model_output x)) eqn:S0; [|discriminate E].
  inversion E; subst f. clear E. split; [intros Q; rewrite Q in Nl; discriminate Nl|]. split; [exact S0|]. unfold sanitize_model_output in *.
  destruct (Direnv_Model.lines (trim_any quotes (unfence (trim x)))) as [|l rest] eqn:Q; [discriminate Nl|]. split; [|apply trim_ends].
  intros I. apply trim_in in I. revert I. apply (lines_no_newline (trim_any quotes (unfence (trim x))) [] l (fun y => y)). assert (K : In l (l :: rest)) by (left; reflexivity). rewrite <- Q in K. exact K.
Qed.
(** so a line that begins with a blank never gets an answer, whatever the model says *)
Theorem C124_blank_at_the_start_refuted : forall c i d h x, is_whitespace c = true -> fetch_completion (Request (c :: i) d h) x = None.
Proof.
  intros c i d h x W. destruct x as [x|]; [|reflexivity]. destruct (fetch_completion (Request (c :: i) d h) (Some x)) as [f|] eqn:E; [|reflexivity]. exfalso.
  apply C124_offer_is_one_trimmed_line in E as (_ & S0 & _ & F & _); [|discriminate]. apply starts_with_iff in S0 as [m ->]. cbn in F. rewrite (F c _ eq_refl) in W. discriminate W.
Qed.
(** and the quote that closes a command is taken off, so that what is offered, when accepted,
    is not a complete line *)
Theorem C124_closing_quote_refuted :
  fetch_completion (Request (lit "git com") None []) (Some (lit "git commit -m " ++ [34%N] ++ lit "fix" ++ [34%N])) = Some (lit "git commit -m " ++ [34%N] ++ lit "fix").
Proof. vm_compute. reflexivity. Qed.
(** of several commands in a fence without a language, the first is thrown away *)
Theorem C124_first_of_fence_refuted :
  sanitize_model_output (lit "```" ++ [10%N] ++ lit "git status" ++ [10%N] ++ lit "git stash" ++ [10%N] ++ lit "```") = lit "git stash".
Proof. vm_compute. reflexivity. Qed.

Example C124_plain_case : fetch_completion (Request (lit "git co") None []) (Some (lit "  git commit -a" ++ [32%N; 10%N] ++ lit "This commits.")) = Some (lit "git commit -a").
Proof. vm_compute. reflexivity. Qed.
Example C124_fenced_case : fetch_completion (Request (lit "git co") None []) (Some (lit "```bash" ++ [10%N] ++ lit "git commit -a" ++ [10%N] ++ lit "```" ++ [10%N])) = Some (lit "git commit -a").
Proof. vm_compute. reflexivity. Qed.
Example C124_met : bare_line (lit "git commit -a") /\ clear_line ([32%N; 10%N] ++ lit "This commits.").
Proof.
  split.
  - split; [|split].
    + intros I. repeat (destruct I as [I|I]; [discriminate I|]). exact I.
    + intros c r E. inversion E. split; [reflexivity|]. intros [Q|[Q|Q]]; discriminate Q.
    + intros b c E. change (lit "git commit -a") with (lit "git commit -" ++ [97%N]) in E. apply app_inj_tail in E as [_ <-]. split; [reflexivity|]. intros [Q|[Q|Q]]; discriminate Q.
  - intros u v E N. destruct u as [|a u]; [intros c []|]. inversion E as [[E1 E2]]. destruct u as [|b u].
    + intros c [<-|[]]. reflexivity.
    + inversion E2 as [[E3 E4]]. contradiction N. right. left. auto.
Qed.

Print Assumptions C124_plain_answer_kept_partial.
Print Assumptions C124_fenced_answer_kept_partial.
Print Assumptions C124_offer_is_one_trimmed_line.
Print Assumptions C124_blank_at_the_start_refuted.
Print Assumptions C124_closing_quote_refuted.
Print Assumptions C124_first_of_fence_refuted.
