(** Offered commands and the Enter key: C45, C127 - C129. *)
From Verif Require Import Base Safety_Model Safety_Spec Safety_Proofs Safety_Props Grammar_Proofs Parse_Model Parse_Spec Parse_Proofs Line_Spec Line_Proofs Line_Props Offer_Model Offer_Spec.
From Verif Require Editor_Model Editor_Spec Editor_Proofs Editor_Props Check_Model Check_Spec Check_Props Answer_Props.

(** ** cutting at the last mark *)
Lemma cut_none a b s : cut_last a b s = None -> ~ marked a b s.
Proof.
  induction s as [|c r IH]; cbn [cut_last]; intros H (u & v & E).
  - destruct u; discriminate E.
  - destruct (cut_last a b r) as [[x y]|] eqn:Q; [discriminate H|].
    destruct u as [|d u]; cbn [app] in E.
    + injection E as -> ->. rewrite !N.eqb_refl in H. discriminate H.
    + injection E as _ E. apply (IH eq_refl). exists u, v. exact E.
Qed.
Lemma cut_some a b s u v : a <> b -> cut_last a b s = Some (u, v) -> cut_at a b s u v.
Proof.
  intros D. revert u v. induction s as [|c r IH]; cbn [cut_last]; intros u v H; [discriminate H|].
  destruct (cut_last a b r) as [[x y]|] eqn:Q.
  - injection H as <- <-. destruct (IH x y eq_refl) as [-> N]. split; [reflexivity|exact N].
  - destruct r as [|d y]; [discriminate H|]. destruct (N.eqb_spec c a) as [->|]; [|discriminate H].
    destruct (N.eqb_spec d b) as [->|]; [|discriminate H]. cbn [andb] in H. injection H as <- <-.
    split; [reflexivity|]. intros (p & q & ->). apply (cut_none _ _ _ Q). exists (b :: p), q. reflexivity.
Qed.
Lemma cut_unique a b s u v u' v' : a <> b -> cut_at a b s u v -> cut_at a b s u' v' -> u = u' /\ v = v'.
Proof.
  intros D [-> N] [E N']. revert u' E. induction u as [|c u IH]; intros [|d u'] E; cbn [app] in E.
  - injection E as ->. auto.
  - injection E as _ E. exfalso. destruct u' as [|e u']; cbn [app] in E; [injection E as E _; congruence|]. injection E as _ E.
    apply N. exists u', v'. exact E.
  - injection E as _ E. exfalso. destruct u as [|e u]; cbn [app] in E; [injection E as E _; congruence|]. injection E as _ E.
    apply N'. exists u, v. symmetry. exact E.
  - injection E as -> E. destruct (IH u' E) as [-> ->]. auto.
Qed.
Lemma cut_iff a b s u v : a <> b -> cut_last a b s = Some (u, v) <-> cut_at a b s u v.
Proof.
  intros D. split; [apply cut_some, D|]. intros C. destruct (cut_last a b s) as [[x y]|] eqn:Q.
  - destruct (cut_unique a b s u v x y D C (cut_some a b s x y D Q)) as [-> ->]. reflexivity.
  - exfalso. destruct C as [E _]. apply (cut_none _ _ _ Q). exists u, v. exact E.
Qed.

(** ** trimming and unquoting *)
Import Answer_Props.
Lemma drop_parts p s : exists l, s = l ++ drop_while p s /\ forall c, In c l -> p c = true.
Proof.
  induction s as [|c s (l & E & A)]; [exists []; split; [reflexivity|intros c []]|]. cbn. destruct (p c) eqn:P.
  - exists (c :: l). split; [cbn; f_equal; exact E|]. intros d [<-|D]; auto.
  - exists []. split; [reflexivity|intros d []].
Qed.
Lemma trim_trimmed s : trimmed s (trim s).
Proof.
  destruct (drop_parts is_whitespace s) as (l & E & A). destruct (drop_parts is_whitespace (rev (drop_while is_whitespace s))) as (r & E' & A').
  destruct (trim_ends s) as [T1 T2]. exists l, (rev r). split; [|split; [exact A|split; [|split; [exact T1|intros c u; apply T2]]]].
  - unfold trim, trim_end. rewrite !trim_start_while. etransitivity; [exact E|]. f_equal. rewrite <- (rev_involutive (drop_while is_whitespace s)) at 1.
    rewrite E' at 1. rewrite rev_app_distr. reflexivity.
  - intros c C. apply A'. rewrite in_rev. exact C.
Qed.
Lemma trim_iff s t : trimmed s t <-> trim s = t.
Proof.
  split; [|intros <-; apply trim_trimmed]. intros (l & r & -> & L & R & B & E). destruct t as [|c t].
  - assert (A : forall w : str, blank_text w -> trim w = []).
    { intros w H. destruct (trim w) as [|d u] eqn:Q; [reflexivity|]. exfalso. destruct (trim_ends w) as [T _].
      assert (I : In d w) by (apply trim_in; rewrite Q; left; reflexivity). specialize (T d u Q). rewrite (H d I) in T. discriminate T. }
    apply A. intros d D. cbn [app] in D. apply in_app_or in D as [D|D]; auto.
  - apply trim_exact; [exact L|exact R|discriminate|exact B|intros b d; apply E].
Qed.
Lemma ends_with_one d q : ends_with [d] q = true <-> exists u, q = u ++ [d].
Proof. rewrite ends_with_iff. reflexivity. Qed.
Lemma pair_iff d q : d = 34%N \/ d = 39%N -> starts_with [d] q && ends_with [d] q && (1 <? blen q) = true <-> exists r, q = d :: r ++ [d] .
Proof.
  intros Hd. rewrite !andb_true_iff, starts_with_iff, ends_with_one, Nat.ltb_lt. split.
  - intros [[(r & ->) (u & E)] L]. cbn [app] in *. destruct u as [|x u]; cbn [app] in E.
    + injection E as ->. exfalso. destruct Hd as [->| ->]; vm_compute in L; lia.
    + injection E as <- ->. exists u. reflexivity.
  - intros (r & ->). split; [split; [eexists; reflexivity|exists (d :: r); reflexivity]|].
    eapply Nat.lt_le_trans; [|apply length_le_blen]. cbn [length]. rewrite app_length. cbn [length]. lia.
Qed.
Lemma unquote_iff q r : unquoted q r <-> unquote q = r.
Proof.
  assert (K : forall u, quoted_pair q u -> unquote q = u).
  { intros u (d & D & E). unfold unquote. assert (P : starts_with [d] q && ends_with [d] q && (1 <? blen q) = true) by (apply pair_iff; [exact D|exists u; exact E]).
    apply andb_true_iff in P as [P L]. rewrite L. assert (O : (starts_with [34%N] q && ends_with [34%N] q) || (starts_with [39%N] q && ends_with [39%N] q) = true).
    { apply orb_true_iff. destruct D as [->| ->]; [left|right]; exact P. }
    rewrite O. cbn [andb]. rewrite E. cbn [tl]. apply removelast_last. }
  assert (J : (forall u, ~ quoted_pair q u) -> unquote q = q).
  { intros H. unfold unquote. destruct (((starts_with _ q && _) || _) && _) eqn:P; [|reflexivity]. exfalso.
    apply andb_true_iff in P as [P L]. apply orb_true_iff in P as [P|P].
    - destruct (proj1 (pair_iff 34%N q (or_introl eq_refl))) as (u & U); [rewrite P; exact L|]. apply (H u). exists 34%N. split; [left; reflexivity|exact U].
    - destruct (proj1 (pair_iff 39%N q (or_intror eq_refl))) as (u & U); [rewrite P; exact L|]. apply (H u). exists 39%N. split; [right; reflexivity|exact U]. }
  split.
  - intros [P|[H ->]]; [exact (K r P)|exact (J H)].
  - intros <-. destruct (((starts_with [34%N] q && ends_with [34%N] q) || (starts_with [39%N] q && ends_with [39%N] q)) && (1 <? blen q)) eqn:P.
    + left. apply andb_true_iff in P as [P L]. apply orb_true_iff in P as [P|P].
      * destruct (proj1 (pair_iff 34%N q (or_introl eq_refl))) as (u & U); [rewrite P; exact L|].
        assert (Q : quoted_pair q u) by (exists 34%N; split; [left; reflexivity|exact U]). rewrite (K u Q). exact Q.
      * destruct (proj1 (pair_iff 39%N q (or_intror eq_refl))) as (u & U); [rewrite P; exact L|].
        assert (Q : quoted_pair q u) by (exists 39%N; split; [right; reflexivity|exact U]). rewrite (K u Q). exact Q.
    + right. split; [|unfold unquote; rewrite P; reflexivity]. intros u Q. pose proof Q as (d & D & E).
      assert (B : starts_with [d] q && ends_with [d] q && (1 <? blen q) = true) by (apply pair_iff; [exact D|exists u; exact E]).
      apply andb_true_iff in B as [B L]. rewrite L, andb_true_r in P. apply orb_false_iff in P as [P1 P2]. destruct D as [->| ->]; congruence.
Qed.

(** ** the pipe to the model *)
Lemma to_model_iff t c q : detect_ai_pipe t = Some (c, q) <-> to_model t c q.
Proof.
  unfold detect_ai_pipe, bar, bang. split.
  - destruct (cut_last 124%N 33%N t) as [[u v]|] eqn:C; [|discriminate]. apply cut_iff in C; [|discriminate]. cbn zeta. intros H.
    exists u, v, (trim v). split; [exact C|]. rewrite trim_iff, unquote_iff, trim_iff.
    destruct (trim u); [discriminate H|]. destruct (unquote (trim v)); [discriminate H|]. injection H as <- <-.
    split; [reflexivity|]. split; [reflexivity|]. split; [reflexivity|]. split; discriminate.
  - intros (u & v & w & C & T1 & T2 & U & N1 & N2). apply cut_iff in C; [|discriminate]. rewrite C. apply trim_iff in T1, T2. apply unquote_iff in U. subst.
    destruct (trim u); [contradiction|]. destruct (unquote (trim v)); [contradiction|]. reflexivity.
Qed.

(** ** the word before the cursor *)
Lemma word_unique (P : char -> bool) (pre w pre' w' : str) : pre ++ w = pre' ++ w' ->
  (forall c, In c w -> P c = true) -> (forall c, In c w' -> P c = true) ->
  (forall u c, pre = u ++ [c] -> P c = false) -> (forall u c, pre' = u ++ [c] -> P c = false) -> pre = pre' /\ w = w'.
Proof.
  intros E A A' L L'.
  assert (K : forall l (p q v v' : str), p = q ++ l -> v' = l ++ v -> (forall u c, p = u ++ [c] -> P c = false) -> (forall c, In c v' -> P c = true) -> l = []).
  { intros l. destruct (rev l) as [|c r] eqn:R; intros p q v v' Ep Ev Lp Av.
    - rewrite <- (rev_involutive l), R. reflexivity.
    - assert (El : l = rev r ++ [c]) by (rewrite <- (rev_involutive l), R; reflexivity). exfalso. subst l.
      assert (F : P c = false) by (apply (Lp (q ++ rev r)); rewrite Ep, app_assoc; reflexivity).
      rewrite (Av c) in F; [discriminate F|]. rewrite Ev. apply in_or_app. left. apply in_or_app. right. left. reflexivity. }
  apply app_eq_app in E as (l & [[E1 E2]|[E1 E2]]).
  - assert (l = []) by exact (K l pre pre' w w' E1 E2 L A'). subst l. rewrite app_nil_r in E1. auto.
  - assert (l = []) by exact (K l pre' pre w' w E1 E2 L' A). subst l. rewrite app_nil_r in E1. auto.
Qed.
Import Editor_Model Editor_Spec Editor_Proofs.
Lemma word_iff b pre w : ends_with_word b pre w <-> suffix_while abbr_char b = w /\ strip_suffix abbr_char b = pre /\ w <> [].
Proof.
  assert (A : forall c, In c (suffix_while abbr_char b) -> abbr_char c = true) by (apply Forall_forall, suffix_while_all).
  assert (L : forall u c, strip_suffix abbr_char b = u ++ [c] -> abbr_char c = false).
  { intros u c E. destruct (strip_suffix_last abbr_char b) as [Z|(t & d & Z & D)].
    - rewrite Z in E. destruct u; discriminate E.
    - rewrite Z in E. apply app_inj_tail in E as [_ ->]. exact D. }
  pose proof (strip_suffix_split abbr_char b) as S. split.
  - intros (E & N & W & Lp). rewrite E in S at 1. destruct (word_unique abbr_char _ _ _ _ S W A Lp L) as [-> ->]. split; [reflexivity|]. split; [reflexivity|exact N].
  - intros (<- & <- & N). split; [exact S|]. split; [exact N|]. split; assumption.
Qed.

(** ** C127: what Enter does with the line *)
Definition finished (t : str) : Prop := Check_Spec.complete None t /\ ~ Check_Spec.ends_in_operator t.
Definition in_front (buffer : str) (e : ed) : str :=
  match buffer with [] => firstn (cursor e) (as_str e) | _ => buffer ++ as_str e end.
Lemma assoc_in w x l : NoDup (map fst l) -> In (w, x) l -> assoc w l = Some x.
Proof.
  induction l as [|[a b] l IH]; intros N I; [contradiction|]. cbn [map fst] in N. inversion N as [|? ? N1 N2]; subst. cbn [assoc].
  destruct I as [I|I].
  - injection I as -> ->. rewrite str_eqb_refl. reflexivity.
  - destruct (str_eqb_spec a w) as [->|]; [|auto]. exfalso. apply N1. apply in_map_iff. exists (w, x). auto.
Qed.
Lemma assoc_some w x l : assoc w l = Some x -> In (w, x) l.
Proof.
  induction l as [|[a b] l IH]; cbn [assoc]; [discriminate|]. destruct (str_eqb_spec a w) as [->|]; [|right; auto].
  intros H. injection H as ->. left. reflexivity.
Qed.

(** Whatever has been typed before ([os], any keys; [buffer], the unfinished lines before this
    one), Enter never fails, and with t the whole text: an unfinished text waits for more; a
    text of the form c |! q has c run by /bin/sh; otherwise, if the word in front of the cursor
    is an abbreviation, the text runs with that word expanded, and if not, exactly as it is. *)
Theorem C127_enter_runs_the_text_partial : forall cw os e outs abbreviations buffer,
  run cw new os = Some (e, outs) ->
  let t := buffer ++ as_str e in
  let front := in_front buffer e in
  exists d, press_enter cw abbreviations buffer e = Some d /\
  (~ finished t -> d = Waits (t ++ [10%N])) /\
  (finished t -> forall c q, to_model t c q -> d = Shelled c q) /\
  (finished t -> (forall c q, ~ to_model t c q) ->
     (forall pre w x, NoDup (map fst abbreviations) -> In (w, x) abbreviations -> ends_with_word front pre w ->
        pre ++ x ++ skipn (length front) t <> [] -> d = Evals (pre ++ x ++ skipn (length front) t)) /\
     ((forall pre w x, In (w, x) abbreviations -> ~ ends_with_word front pre w) -> t <> [] -> d = Evals t)).
Proof.
  intros cw os e outs ab buffer R t front. destruct (reachable_ed_of cw os e outs R) as [z ->]. clear R.
  pose proof (Check_Props.C41_complete_iff t) as F. unfold press_enter, Check_Model.enter.
  assert (Et : match buffer with [] => as_str (ed_of cw z) | _ => buffer ++ as_str (ed_of cw z) end = t) by (unfold t; destruct buffer; reflexivity).
  rewrite Et. destruct (Check_Model.is_incomplete_input t) eqn:I.
  - exists (Waits (t ++ [10%N])). split; [unfold t; rewrite <- app_assoc; reflexivity|]. split; [reflexivity|].
    assert (NF : ~ finished t) by (intros C; apply F in C; discriminate C). split; intros C; contradiction.
  - assert (FT : finished t) by (apply F; reflexivity).
    set (e1 := match buffer with [] => ed_of cw z | _ => reset cw (ed_of cw z) t end).
    assert (Z : exists z1, e1 = ed_of cw z1 /\ before z1 = front /\ before z1 ++ after z1 = t).
    { unfold e1, front, in_front, t. destruct buffer as [|b0 bs].
      - exists z. split; [reflexivity|]. split; [|reflexivity]. unfold as_str, cursor, ed_of, whole. cbn. rewrite firstn_app, Nat.sub_diag, firstn_all. cbn. rewrite app_nil_r. reflexivity.
      - rewrite reset_ok. eexists. split; [reflexivity|]. split; [reflexivity|]. apply app_nil_r. }
    destruct Z as (z1 & E1 & Ef & Ez). rewrite E1. clear e1 E1.
    change (as_str (ed_of cw z1)) with (before z1 ++ after z1) at 1. rewrite Ez.
    destruct (detect_ai_pipe t) as [[c q]|] eqn:D.
    + exists (Shelled c q). split; [reflexivity|]. split; [intros C; contradiction|]. split.
      * intros _ c' q' M. apply to_model_iff in M. congruence.
      * intros _ N. exfalso. apply (N c q). apply to_model_iff. exact D.
    + rewrite get_word_ok. change (as_str (ed_of cw z1)) with (before z1 ++ after z1). rewrite Ez.
      assert (Ea : skipn (length front) t = after z1) by (rewrite <- Ez, <- Ef, skipn_app, skipn_all, Nat.sub_diag; reflexivity).
      assert (Q : forall d, (forall pre w x, NoDup (map fst ab) -> In (w, x) ab -> ends_with_word front pre w ->
                     pre ++ x ++ skipn (length front) t <> [] -> d = Evals (pre ++ x ++ skipn (length front) t)) ->
                  ((forall pre w x, In (w, x) ab -> ~ ends_with_word front pre w) -> t <> [] -> d = Evals t) ->
                  (~ finished t -> d = Waits (t ++ [10%N])) /\ (finished t -> forall c q, to_model t c q -> d = Shelled c q) /\
                  (finished t -> (forall c q, ~ to_model t c q) ->
                   (forall pre w x, NoDup (map fst ab) -> In (w, x) ab -> ends_with_word front pre w ->
                     pre ++ x ++ skipn (length front) t <> [] -> d = Evals (pre ++ x ++ skipn (length front) t)) /\
                   ((forall pre w x, In (w, x) ab -> ~ ends_with_word front pre w) -> t <> [] -> d = Evals t))).
      { intros d H1 H2. split; [intros C; contradiction|]. split; [|intros _ _; split; assumption].
        intros _ c q M. apply to_model_iff in M. congruence. }
      assert (Ev : forall s : str, s <> [] -> evals s = Evals s) by (intros [|c s] N; [contradiction|reflexivity]).
      destruct (suffix_while abbr_char (before z1)) as [|c0 w0] eqn:W.
      * exists (evals t). split; [reflexivity|]. apply Q; [|intros _; apply Ev].
        intros pre w x _ _ H _. exfalso. apply word_iff in H as (H & _ & N). rewrite <- Ef, W in H. congruence.
      * set (w1 := c0 :: w0) in *.
        assert (Hw : ends_with_word front (strip_suffix abbr_char (before z1)) w1).
        { apply word_iff. rewrite <- Ef. split; [exact W|]. split; [reflexivity|discriminate]. }
        destruct (assoc w1 ab) as [x1|] eqn:A.
        -- rewrite replace_word_ok. unfold s_replace_word. rewrite W. change (w1) with (c0 :: w0) at 1. cbv iota beta zeta.
           eexists. split; [reflexivity|]. apply Q.
           ++ intros pre w x ND Ix H Nn. apply word_iff in H as (H1 & H2 & _). rewrite <- Ef in H1, H2. rewrite W in H1. subst w pre.
              apply (assoc_in _ _ _ ND) in Ix. rewrite A in Ix. injection Ix as ->. rewrite Ea in *.
              unfold as_str, ed_of, whole. cbn [text before after]. rewrite <- app_assoc. apply Ev, Nn.
           ++ intros H. exfalso. apply (H _ _ _ (assoc_some _ _ _ A) Hw).
        -- exists (evals t). split; [reflexivity|]. apply Q; [|intros _; apply Ev].
           intros pre w x ND Ix H _. exfalso. apply word_iff in H as (H1 & _ & _). rewrite <- Ef, W in H1. subst w.
           apply (assoc_in _ _ _ ND) in Ix. congruence.
Qed.
Print Assumptions C127_enter_runs_the_text_partial.
(** Nothing is run for an empty line. *)
Theorem C127_empty_line : forall cw os e outs abbreviations,
  run cw new os = Some (e, outs) -> as_str e = [] -> press_enter cw abbreviations [] e = Some Nothing.
Proof.
  intros cw os e outs ab R E. destruct (reachable_ed_of cw os e outs R) as [z ->]. change (as_str (ed_of cw z)) with (before z ++ after z) in E.
  apply app_eq_nil in E as [E1 E2]. unfold press_enter. change (as_str (ed_of cw z)) with (before z ++ after z). rewrite get_word_ok, E1, E2. reflexivity.
Qed.
Print Assumptions C127_empty_line.

Lemma typed_text cw t : exists e outs, run cw new [OInsertStr t] = Some (e, outs) /\ as_str e = t /\ firstn (cursor e) (as_str e) = t.
Proof.
  rewrite (new_ed_of cw), run_ok. cbn [s_run]. destruct (s_step cw (Zip [] []) (OInsertStr t)) as [z b] eqn:E.
  assert (Z : before z = t /\ after z = []) by (cbn in E; injection E as <- _; split; reflexivity). destruct Z as [Z1 Z2].
  eexists. eexists. split; [reflexivity|]. unfold as_str, cursor, ed_of, whole. cbn. rewrite Z1, Z2, app_nil_r. split; [reflexivity|]. apply firstn_all.
Qed.
(** The full statement is false: an abbreviation is expanded wherever its name stands in front of
    the cursor, as an argument as well. *)
Theorem C127_abbreviation_anywhere_refuted : forall cw abbreviations pre w x,
  NoDup (map fst abbreviations) -> In (w, x) abbreviations -> ends_with_word (pre ++ w) pre w ->
  finished (pre ++ w) -> ~ marked bar bang (pre ++ w) -> pre ++ x <> [] ->
  exists e outs, run cw new [OInsertStr (pre ++ w)] = Some (e, outs) /\ press_enter cw abbreviations [] e = Some (Evals (pre ++ x)).
Proof.
  intros cw ab pre w x ND I E F M N. destruct (typed_text cw (pre ++ w)) as (e & outs & R & A & Fr). exists e, outs. split; [exact R|].
  destruct (C127_enter_runs_the_text_partial cw _ e outs ab [] R) as (d & P & _ & _ & H). rewrite P. f_equal. cbn [app in_front] in H. rewrite A in H.
  rewrite A in Fr. assert (L : skipn (length (firstn (cursor e) (pre ++ w))) (pre ++ w) = []) by (rewrite Fr; apply skipn_all).
  destruct H as [H _]; [exact F| |].
  - intros c q (u & v & _ & [C _] & _). apply M. exists u, v. exact C.
  - specialize (H pre w x ND I). rewrite L, Fr, app_nil_r in H. apply H; assumption.
Qed.
Print Assumptions C127_abbreviation_anywhere_refuted.
Lemma finished_lit s : Check_Model.is_incomplete_input (lit s) = false -> finished (lit s).
Proof. apply Check_Props.C41_complete_iff. Qed.
Lemma unmarked_lit a b s : cut_last a b s = None -> ~ marked a b s.
Proof. apply cut_none. Qed.
Example C127_example : let pre := lit "man " in let w := lit "gs" in let x := lit "git status" in
  ends_with_word (pre ++ w) pre w /\ finished (pre ++ w) /\ ~ marked bar bang (pre ++ w) /\
  forall cw, exists e outs, run cw new [OInsertStr (pre ++ w)] = Some (e, outs) /\ press_enter cw [(w, x)] [] e = Some (Evals (lit "man git status")).
Proof.
  cbn zeta. assert (W : ends_with_word (lit "man " ++ lit "gs") (lit "man ") (lit "gs")) by (apply word_iff; split; [reflexivity|]; split; [reflexivity|discriminate]).
  assert (F : finished (lit "man gs")) by (apply finished_lit; reflexivity).
  assert (M : ~ marked bar bang (lit "man gs")) by (apply unmarked_lit; reflexivity).
  split; [exact W|]. split; [exact F|]. split; [exact M|]. intros cw.
  apply (C127_abbreviation_anywhere_refuted cw [(lit "gs", lit "git status")] (lit "man ") (lit "gs") (lit "git status")); try assumption; try discriminate.
  - repeat constructor. intros [].
  - left. reflexivity.
Qed.
Example C127_plain_example : forall cw, exists e outs, run cw new [OInsertStr (lit "ls -l | wc")] = Some (e, outs) /\
  finished ([] ++ as_str e) /\ ~ marked bar bang ([] ++ as_str e) /\ press_enter cw [(lit "gs", lit "git status")] [] e = Some (Evals (lit "ls -l | wc")).
Proof.
  intros cw. destruct (typed_text cw (lit "ls -l | wc")) as (e & outs & R & A & Fr). exists e, outs. split; [exact R|]. cbn [app]. rewrite A.
  assert (M : ~ marked bar bang (lit "ls -l | wc")) by (apply unmarked_lit; reflexivity).
  assert (F : finished (lit "ls -l | wc")) by (apply finished_lit; reflexivity). split; [exact F|]. split; [exact M|].
  destruct (C127_enter_runs_the_text_partial cw _ e outs [(lit "gs", lit "git status")] [] R) as (d & P & _ & _ & H). rewrite P. f_equal.
  cbn [app in_front] in H. rewrite Fr, A in H. destruct H as [_ H]; [exact F|intros c q (u & v & _ & [C _] & _); apply M; exists u, v; exact C|].
  apply H; [|discriminate]. intros pre w x [E|[]] W. injection E as <- <-. apply word_iff in W as [W _]. discriminate W.
Qed.

(** ** C128: what is not looked at by the guard *)
(** A text goes to /bin/sh, past the guard, only if it has the form c |! q. *)
Theorem C128_only_marked_lines_partial : forall cw os e outs abbreviations buffer,
  run cw new os = Some (e, outs) ->
  let t := buffer ++ as_str e in
  ((exists c q, press_enter cw abbreviations buffer e = Some (Shelled c q)) <-> finished t /\ exists c q, to_model t c q) /\
  (forall c q, press_enter cw abbreviations buffer e = Some (Shelled c q) -> to_model t c q) /\
  (~ marked bar bang t -> forall c q, press_enter cw abbreviations buffer e <> Some (Shelled c q)).
Proof.
  intros cw os e outs ab buffer R t. destruct (C127_enter_runs_the_text_partial cw os e outs ab buffer R) as (d & P & H1 & H2 & H3). fold t in H1, H2, H3. rewrite P.
  assert (S : forall c q, Some d = Some (Shelled c q) -> finished t /\ to_model t c q).
  { intros c q E. injection E as ->. destruct (Check_Model.is_incomplete_input t) eqn:I.
    - assert (NF : ~ finished t) by (intros C; apply Check_Props.C41_complete_iff in C; congruence). discriminate (H1 NF).
    - assert (F : finished t) by (apply Check_Props.C41_complete_iff; exact I). split; [exact F|].
      destruct (detect_ai_pipe t) as [[c' q']|] eqn:D.
      + apply to_model_iff in D. pose proof (H2 F c' q' D) as E. injection E as -> ->. exact D.
      + assert (NM : forall c q, ~ to_model t c q) by (intros c' q' M; apply to_model_iff in M; congruence). exfalso. clear H1 H2 H3.
        revert P. unfold press_enter, Check_Model.enter.
        assert (Et : match buffer with [] => as_str e | _ => buffer ++ as_str e end = t) by (unfold t; destruct buffer; reflexivity).
        rewrite Et, I. set (e1 := match buffer with [] => e | _ => reset cw e t end).
        assert (A : as_str e1 = t) by (unfold e1, t; destruct buffer; reflexivity). rewrite A, D.
        assert (K : forall s : str, evals s <> Shelled c q) by (intros [|? ?]; discriminate).
        destruct (get_current_word_for_abbr e1) as [[w|]|]; [|intros E; injection E as E; exact (K _ E)|discriminate].
        destruct (assoc w ab) as [x|]; [|intros E; injection E as E; exact (K _ E)].
        destruct (replace_current_word cw e1 x) as [[e2 b]|]; [|discriminate]. intros E. injection E as E. exact (K _ E). }
  split; [|split].
  - split.
    + intros (c & q & E). destruct (S c q E) as [F M]. split; [exact F|exists c, q; exact M].
    + intros (F & c & q & M). exists c, q. f_equal. exact (H2 F c q M).
  - intros c q E. apply (S c q E).
  - intros N c q E. destruct (S c q E) as [_ (u & v & _ & [C _] & _)]. apply N. exists u, v. exact C.
Qed.
Print Assumptions C128_only_marked_lines_partial.

(** The full statement, that the guard is asked about every command, is false: any command with
    a query after |! goes to /bin/sh without a question, also where Strict would ask about it. *)
Theorem C128_model_pipe_refuted : forall cw abbreviations c q,
  c <> [] -> trimmed c c -> q <> [] -> trimmed q q -> (forall u, ~ quoted_pair q u) -> ~ marked bar bang (lit " " ++ q) ->
  finished (c ++ lit " |! " ++ q) ->
  exists e outs, run cw new [OInsertStr (c ++ lit " |! " ++ q)] = Some (e, outs) /\
    press_enter cw abbreviations [] e = Some (Shelled c q) /\ exists why, check_jobs [c] Strict [] = Confirm why.
Proof.
  intros cw ab c q Nc Tc Nq Tq U M F. destruct (typed_text cw (c ++ lit " |! " ++ q)) as (e & outs & R & A & _). exists e, outs. split; [exact R|].
  split; [|eexists; reflexivity]. destruct (C127_enter_runs_the_text_partial cw _ e outs ab [] R) as (d & P & _ & H & _). rewrite P. f_equal.
  cbn [app] in H. rewrite A in H. apply (H F).
  assert (W : forall s : str, blank_text (lit " ") /\ trimmed s s -> trimmed (s ++ lit " ") s /\ trimmed (lit " " ++ s) s).
  { intros s [B (l & r & E & L & Rr & X & Y)]. split.
    - exists [], (lit " "). split; [reflexivity|]. split; [intros ? []|]. split; [exact B|]. split; assumption.
    - exists (lit " "), []. split; [rewrite app_nil_r; reflexivity|]. split; [exact B|]. split; [intros ? []|]. split; assumption. }
  assert (B : blank_text (lit " ")) by (intros x [<-|[]]; reflexivity).
  exists (c ++ lit " "), (lit " " ++ q), q. split; [split; [rewrite <- app_assoc; reflexivity|exact M]|].
  split; [apply W; split; assumption|]. split; [apply W; split; assumption|]. split; [right; split; [exact U|reflexivity]|]. split; assumption.
Qed.
Print Assumptions C128_model_pipe_refuted.
Example C128_example : let c := lit "rm -rf build" in let q := lit "what happened" in
  trimmed c c /\ trimmed q q /\ (forall u, ~ quoted_pair q u) /\ ~ marked bar bang (lit " " ++ q) /\ finished (c ++ lit " |! " ++ q) /\
  (exists why, check_jobs [c] Normal [] = Confirm why).
Proof.
  cbn zeta. split; [apply trim_iff; reflexivity|]. split; [apply trim_iff; reflexivity|]. split.
  - intros u (d & [->| ->] & E); discriminate E.
  - split; [apply unmarked_lit; reflexivity|]. split; [apply (finished_lit "rm -rf build |! what happened"); reflexivity|]. eexists. vm_compute. reflexivity.
Qed.
(** Quotation marks do not protect the mark: this text is one harmless command. *)
Theorem C128_quoted_mark_refuted : forall cw abbreviations,
  exists e outs, run cw new [OInsertStr (lit "echo 'press |! now'")] = Some (e, outs) /\
    press_enter cw abbreviations [] e = Some (Shelled (lit "echo 'press") (lit "now'")).
Proof.
  intros cw ab. destruct (typed_text cw (lit "echo 'press |! now'")) as (e & outs & R & A & _). exists e, outs. split; [exact R|].
  destruct (C127_enter_runs_the_text_partial cw _ e outs ab [] R) as (d & P & _ & H & _). rewrite P. f_equal. cbn [app] in H. rewrite A in H.
  apply H; [apply finished_lit; reflexivity|]. apply to_model_iff. vm_compute. reflexivity.
Qed.
Print Assumptions C128_quoted_mark_refuted.

(** ** C45: the command offered is the command that was looked at *)
Definition as_word (t : str) : word := Bare (map (fun c => (false, c)) t).
Definition as_cmd (lead c : str) (args : list str) : cmdline := CmdLine lead (as_word c) (map (fun a => Arg (lit " ") (as_word a)) args) [].
Lemma as_word_valid t : plain_text t -> valid_word (as_word t).
Proof.
  intros [N P]. split; [intros E; apply map_eq_nil in E; contradiction|]. intros b c I _. apply in_map_iff in I as (d & E & I). injection E as _ <-. apply P, I.
Qed.
Lemma as_cmd_valid lead c args : gap lead -> Forall plain_text (c :: args) -> valid_cmd (as_cmd lead c args).
Proof.
  intros L H. inversion H as [|? ? Hc Ha]; subst. split; [exact L|]. split; [reflexivity|]. split; [apply as_word_valid, Hc|].
  cbn [items as_cmd]. apply Forall_forall. intros i I. apply in_map_iff in I as (a & <- & I). split; [reflexivity|]. split; [left; discriminate|].
  apply as_word_valid. rewrite Forall_forall in Ha. apply Ha, I.
Qed.
Lemma as_cmd_plain lead c args : Forall plain_text (c :: args) -> plain_cmd (as_cmd lead c args).
Proof.
  intros H. inversion H as [|? ? Hc Ha]; subst. assert (P : forall t, plain_text t -> plain_word (as_word t)) by (intros t [_ T]; exists t; split; [reflexivity|intros x X; apply T, X]).
  split; [apply P, Hc|]. cbn [items as_cmd]. apply Forall_forall. intros i I. apply in_map_iff in I as (a & <- & I). apply P. rewrite Forall_forall in Ha. apply Ha, I.
Qed.
Lemma join_words c args : join_with (lit " ") (c :: args) = c ++ flat_map (fun a => lit " " ++ a) args.
Proof.
  revert c. induction args as [|a args IH]; intros c; [cbn; rewrite app_nil_r; reflexivity|].
  change (join_with (lit " ") (c :: a :: args)) with (c ++ lit " " ++ join_with (lit " ") (a :: args)). rewrite IH. cbn [flat_map]. rewrite <- !app_assoc. reflexivity.
Qed.
Lemma as_items args : flat_map typed_item (map (fun a => Arg (lit " ") (as_word a)) args) = flat_map (fun a => lit " " ++ a) args.
Proof. induction args as [|a args IH]; [reflexivity|]. cbn [map flat_map typed_item]. rewrite IH. unfold as_word. rewrite bare_typed. reflexivity. Qed.
Lemma as_cmd_typed lead c args : typed_cmd (as_cmd lead c args) = lead ++ join_with (lit " ") (c :: args).
Proof.
  rewrite join_words. unfold typed_cmd, as_cmd. cbn [Parse_Spec.lead name items trail]. rewrite app_nil_r, as_items. unfold as_word. rewrite bare_typed. reflexivity.
Qed.
Lemma as_cmd_argv lead c args : argv (as_cmd lead c args) = c :: args.
Proof.
  unfold argv, as_cmd. cbn [name items]. unfold as_word at 1. rewrite bare_meaning. f_equal. induction args as [|a args IH]; [reflexivity|].
  cbn [map flat_map]. rewrite IH. unfold as_word at 1. rewrite bare_meaning. reflexivity.
Qed.
Lemma as_cmd_words c args : Forall plain_text (c :: args) -> Words (join_with (lit " ") (c :: args)) (c :: args).
Proof.
  intros H. apply Words_iff. pose proof (cmd_words (as_cmd [] c args) [] (as_cmd_valid [] c args (eq_refl : gap []) H) (as_cmd_plain [] c args H) (or_introl eq_refl)) as W.
  rewrite as_cmd_argv in W. cbn [name items as_cmd] in W. rewrite as_items, app_nil_r in W. unfold as_word in W. rewrite bare_typed in W.
  rewrite join_words. rewrite W. apply app_nil_r.
Qed.
(** a line of one pipeline *)
Lemma one_pipeline resolve substitute cs : valid_segment (Segment [] cs) -> cs <> [] -> Forall (known resolve) cs ->
  exists j, jobs_of resolve substitute (join_with (lit "|") (map typed_cmd cs)) = Some [j] /\ procs j = map (process_for resolve) cs /\
    cmd j = typed_segment (unlead (Segment [] cs)).
Proof.
  intros V N K. set (l := (Segment [] cs, []) : line).
  destruct (jobs_of_line_texts resolve substitute l [] (conj V Logic.I) (or_introl eq_refl)) as (js & E & _ & M & T).
  { unfold all_commands. cbn [l fst snd flat_map bgs pipe app]. rewrite app_nil_r. exact K. }
  assert (El : typed_line l ++ [] = join_with (lit "|") (map typed_cmd cs)) by (unfold typed_line; cbn [fst snd flat_map]; rewrite !app_nil_r; reflexivity).
  rewrite El in E. unfold line_texts, segment_texts, rest_texts in T. cbn [l fst snd flat_map bgs pipe app map] in T. rewrite app_nil_r in T.
  unfold line_jobs in M. cbn [l fst snd rest_jobs] in M. unfold segment_jobs in M. cbn [bgs pipe map app] in M. destruct cs as [|c cs]; [contradiction|].
  destruct js as [|j [|j' js]]; try discriminate T. exists j. split; [exact E|]. cbn [map] in T. injection T as T. split; [|exact T].
  cbn [map] in M. unfold shape_of in M. injection M as M _ _ _. exact M.
Qed.

(** What is offered is the command and the arguments that were read from the answer, joined with
    blanks; at the level Strict only allowlisted ones, at Normal also those that are not
    dangerous.  If they are ordinary words, the shell reads them back as exactly this command with
    these arguments, and does not ask about the line. *)
Theorem C45_offered_command_partial : forall read lv allow content t,
  offered read lv allow content = Some t ->
  exists c args, read (sanitize_code_block content) = Some (c, args) /\ t = join_with (lit " ") (c :: args) /\
  (lv = Strict -> In c allow \/ In t allow) /\
  (lv = Normal -> In c allow \/ In t allow \/ forall n, known_as c n -> ~ dangerous n args) /\
  (Forall plain_text (c :: args) ->
     (forall resolve substitute p, resolve c = IsProgram p -> c <> lit "nopty" ->
        exists j, jobs_of resolve substitute t = Some [j] /\ procs j = [Program p (c :: args)] /\ cmd j = t) /\
     (~ In c allow -> check_jobs [t] lv allow = Allowed)).
Proof.
  intros read lv allow content t H. unfold offered in H. destruct (read (sanitize_code_block content)) as [[c args]|]; [|discriminate H].
  destruct (check_command lv c args allow) eqn:G; try discriminate H. injection H as <-. exists c, args. split; [reflexivity|]. split; [reflexivity|].
  set (t := join_with (lit " ") (c :: args)).
  destruct (C07_safety_levels_decide [t] allow c args lv) as (_ & _ & S & N & _ & SC & NC).
  split; [intros ->; apply SC, G|]. split; [intros ->; apply NC, G|]. intros P. split.
  - intros resolve substitute p R Np.
    assert (K : known resolve (as_cmd [] c args)) by (split; unfold as_cmd, as_word; cbn [name]; rewrite bare_meaning; [exact Np|rewrite R; exact Logic.I]).
    destruct (one_pipeline resolve substitute [as_cmd [] c args]) as (j & E & Pj & T); [|discriminate|constructor; [exact K|constructor]|].
    { split; [constructor; [apply as_cmd_valid; [reflexivity|exact P]|constructor]|]. split; [discriminate|constructor]. }
    cbn [map join_with] in E, Pj. rewrite as_cmd_typed in E. exists j. split; [exact E|]. split.
    + rewrite Pj. unfold process_for. rewrite as_cmd_argv. unfold as_cmd at 1, as_word. cbn [name]. rewrite bare_meaning, R. reflexivity.
    + rewrite T. unfold typed_segment, unlead. cbn. etransitivity; [|exact (as_cmd_typed [] c args)]. reflexivity.
  - intros Nc. destruct lv.
    + apply S. intros j [<-|[]]. destruct (proj1 SC G) as [A|A]; [contradiction|exact A].
    + apply N. intros i j Hj (j' & Hj' & Q). rewrite Hj in Hj'. injection Hj' as <-. destruct i as [|i]; [|destruct i; discriminate Hj]. injection Hj as <-.
      destruct Q as [(w & as' & n & W & Kn & D)|(k & p & Z & _)]; [|discriminate Z].
      destruct (proj1 NC G) as [A|[A|A]]; [contradiction|exact A|]. exfalso.
      pose proof (as_cmd_words c args P) as W'. apply Words_iff in W, W'. unfold t in W. rewrite W' in W. injection W as <- <-. exact (A n Kn D).
    + reflexivity.
Qed.
Print Assumptions C45_offered_command_partial.

Definition two_words : str -> option (str * list str) := fun _ => Some (lit "grep", [lit "-n"; lit "TODO"]).
Example C45_example : offered two_words Normal [] (lit "x") = Some (lit "grep -n TODO") /\ Forall plain_text [lit "grep"; lit "-n"; lit "TODO"] /\
  offered two_words Strict [] (lit "x") = None /\ offered two_words Strict [lit "grep"] (lit "x") = Some (lit "grep -n TODO").
Proof.
  split; [vm_compute; reflexivity|]. split; [|split; vm_compute; reflexivity].
  assert (K : forall s, lit s <> [] -> forallb (fun c => ordinary c && negb (is_whitespace c)) (lit s) = true -> plain_text (lit s)).
  { intros s N F. split; [exact N|]. intros c I. rewrite forallb_forall in F. specialize (F c I). apply andb_true_iff in F as [F1 F2]. apply negb_true_iff in F2. auto. }
  repeat (constructor; [apply K; [discriminate|reflexivity]|]). constructor.
Qed.

(** The full statement is false without "ordinary".  For every command line c, an answer whose
    only argument is "| c" is offered at the level Normal, c runs, and nothing is asked. *)
Theorem C45_argument_with_bar_refuted : forall read content allow resolve substitute c p,
  valid_cmd c -> known resolve c -> lead c <> [] -> resolve (lit "true") = IsProgram p ->
  read (sanitize_code_block content) = Some (lit "true", [lit "|" ++ typed_cmd c]) ->
  exists t j, offered read Normal allow content = Some t /\ jobs_of resolve substitute t = Some [j] /\
    procs j = [Program p [lit "true"]; process_for resolve c] /\ check_jobs [cmd j] Normal allow = Allowed.
Proof.
  intros read content allow resolve substitute c p V K L R E.
  destruct (C116_later_stage_refuted resolve substitute c p allow V K L R) as (j & J & P & A).
  exists (lit "true |" ++ typed_cmd c), j. split; [|split; [exact J|split; [exact P|exact A]]].
  unfold offered. rewrite E. unfold check_command. destruct (mem_str _ allow); [reflexivity|]. destruct (mem_str _ allow); reflexivity.
Qed.
Print Assumptions C45_argument_with_bar_refuted.
Example C45_bar_example : let c := CmdLine (lit " ") (bare "rm") [Arg (lit " ") (bare "-rf"); Arg (lit " ") (bare "build")] [] in
  valid_cmd c /\ known in_bin c /\ lead c <> [] /\ lit "|" ++ typed_cmd c = lit "| rm -rf build" /\
  (exists why, check_command Normal (lit "rm") [lit "-rf"; lit "build"] [] = Confirm why).
Proof.
  cbn zeta. split; [split; [reflexivity|]; split; [reflexivity|]; split; [vb|]; constructor; [|constructor; [|constructor]]; (split; [reflexivity|split; [left; discriminate|vb]])|].
  split; [split; [discriminate|exact Logic.I]|]. split; [discriminate|]. split; [reflexivity|]. eexists. vm_compute. reflexivity.
Qed.
(** An argument with a blank in it becomes two. *)
Theorem C45_argument_with_blank_refuted : forall read lv allow content c a b,
  Forall plain_text [c; a; b] -> c <> lit "nopty" -> read (sanitize_code_block content) = Some (c, [a ++ lit " " ++ b]) -> check_command lv c [a ++ lit " " ++ b] allow = Allowed ->
  exists t, offered read lv allow content = Some t /\
    forall resolve substitute p, resolve c = IsProgram p -> exists j, jobs_of resolve substitute t = Some [j] /\ procs j = [Program p [c; a; b]].
Proof.
  intros read lv allow content c a b P Np E G. exists (join_with (lit " ") [c; a; b]). split; [unfold offered; rewrite E, G; reflexivity|].
  intros resolve substitute p R.
  destruct (C45_offered_command_partial (fun _ => Some (c, [a; b])) Loose [] [] (join_with (lit " ") [c; a; b]) eq_refl) as (c' & args & E' & _ & _ & _ & H).
  injection E' as <- <-. destruct (H P) as [H1 _]. destruct (H1 resolve substitute p R Np) as (j & J & Pj & _). exists j. split; assumption.
Qed.
Print Assumptions C45_argument_with_blank_refuted.

(** Answers are often wrapped in a fence; what is read is the text inside. *)
Theorem C45_fenced_answer : forall body lang, lang = lit "json" \/ lang = lit "bash" -> (forall u, body <> u ++ [96%N]) ->
  sanitize_code_block (lit "```" ++ lang ++ [10%N] ++ body ++ lit "```") = body /\
  (body <> [] -> (forall u, body <> 96%N :: u) -> (forall l u, l = lit "json" \/ l = lit "bash" -> body <> l ++ 10%N :: u) -> sanitize_code_block body = body).
Proof.
  assert (D : forall u : str, (forall v, u <> 96%N :: v) -> Suggest_Model.drop_any [96%N] u = u).
  { intros [|c u] N; [reflexivity|]. cbn. destruct (N.eqb_spec c 96%N) as [->|]; [exfalso; exact (N u eq_refl)|reflexivity]. }
  assert (R : forall b : str, b <> [] -> (forall u, b <> u ++ [96%N]) -> forall v, rev b <> 96%N :: v).
  { intros b _ N v E. apply (N (rev v)). rewrite <- (rev_involutive b), E. reflexivity. }
  assert (K : forall s : str, s <> [] -> (forall u, s <> 96%N :: u) -> (forall u, s <> u ++ [96%N]) ->
    Suggest_Model.trim_any [96%N] (lit "```" ++ s ++ lit "```") = s /\ Suggest_Model.trim_any [96%N] s = s).
  { intros s N N1 N2. unfold Suggest_Model.trim_any. split.
    - change (Suggest_Model.drop_any [96%N] (lit "```" ++ s ++ lit "```")) with (Suggest_Model.drop_any [96%N] (s ++ lit "```")).
      rewrite (D (s ++ lit "```")); [|destruct s as [|c s]; [contradiction|]; intros v E; apply (f_equal (hd 0%N)) in E; cbn in E; subst c; exact (N1 s eq_refl)].
      rewrite rev_app_distr. change (rev (lit "```")) with (lit "```"). change (Suggest_Model.drop_any [96%N] (lit "```" ++ rev s)) with (Suggest_Model.drop_any [96%N] (rev s)).
      rewrite D by (apply R; assumption). apply rev_involutive.
    - rewrite (D s) by exact N1. rewrite D by (apply R; assumption). apply rev_involutive. }
  intros body lang L N. split.
  - unfold sanitize_code_block. assert (E : lit "```" ++ lang ++ [10%N] ++ body ++ lit "```" = lit "```" ++ (lang ++ [10%N] ++ body) ++ lit "```") by (rewrite <- !app_assoc; reflexivity).
    rewrite E. destruct (K (lang ++ [10%N] ++ body)) as [K1 _].
    + destruct L as [->| ->]; discriminate.
    + destruct L as [->| ->]; intros u; discriminate.
    + intros u E'. destruct body as [|b0 bs]; [apply app_inj_tail in E' as [_ E']; discriminate E'|]. destruct (exists_last (l := b0 :: bs)) as (v & x & Ev); [discriminate|].
      rewrite Ev in E'. rewrite !app_assoc in E'. apply app_inj_tail in E' as [_ ->]. exact (N v Ev).
    + cbn zeta. rewrite K1. destruct L as [->| ->]; reflexivity.
  - intros Nb N1 N3. destruct (K body Nb N1 N) as [_ K2]. unfold sanitize_code_block. cbn zeta. rewrite K2. unfold strip_prefix.
    destruct (starts_with (lit "bash" ++ [10%N]) body) eqn:S1.
    + exfalso. apply starts_with_iff in S1 as (u & E). apply (N3 (lit "bash") u); [right; reflexivity|]. exact E.
    + destruct (starts_with (lit "json" ++ [10%N]) body) eqn:S2; [|reflexivity].
      exfalso. apply starts_with_iff in S2 as (u & E). apply (N3 (lit "json") u); [left; reflexivity|]. exact E.
Qed.
Print Assumptions C45_fenced_answer.

(** ** C129: what asking for a command does to the line *)
(** With |? the text before the mark is kept to the letter and only the query is replaced; with
    ?? in front the whole line is; without either, or when nothing is offered, the line stays. *)
Theorem C129_only_the_query_is_replaced_partial : forall ask_pipe ask_command,
  (forall p q k x, ~ marked bar question q -> trimmed q k -> k <> [] -> ask_pipe k = Some x ->
     trigger ask_pipe ask_command (p ++ lit "|?" ++ q) = Some (p ++ lit "| " ++ x)) /\
  (forall g q k, blank_text g -> ~ marked bar question (g ++ lit "??" ++ q) -> trimmed q k -> k <> [] ->
     trigger ask_pipe ask_command (g ++ lit "??" ++ q) = ask_command k) /\
  (forall input, ~ marked bar question input -> (forall g q, blank_text g -> input <> g ++ lit "??" ++ q) -> trigger ask_pipe ask_command input = None) /\
  ((forall k, ask_pipe k = None) -> (forall k, ask_command k = None) -> forall input, trigger ask_pipe ask_command input = None).
Proof.
  intros ask_pipe ask_command.
  assert (C0 : forall s : str, ~ marked bar question s -> cut_last bar question s = None).
  { intros s N. destruct (cut_last bar question s) as [[u v]|] eqn:C; [|reflexivity]. apply cut_iff in C as [C _]; [|discriminate]. exfalso. apply N. exists u, v. exact C. }
  split; [|split; [|split]].
  - intros p q k x N T K A. assert (C : cut_last bar question (p ++ lit "|?" ++ q) = Some (p, q)) by (apply cut_iff; [discriminate|]; split; [reflexivity|exact N]).
    unfold trigger, detect_smart_pipe. rewrite C. apply trim_iff in T. rewrite T. destruct k as [|k0 ks]; [contradiction|]. rewrite A. reflexivity.
  - intros g q k G N T K. unfold trigger, detect_smart_pipe. rewrite (C0 _ N). unfold detect_generative_command.
    assert (E : trim_start (g ++ lit "??" ++ q) = lit "??" ++ q) by (rewrite trim_start_while, drop_while_all; [reflexivity|exact G]).
    rewrite E. change (strip_prefix (lit "??") (lit "??" ++ q)) with (Some q). cbv iota beta. apply trim_iff in T. rewrite T. destruct k; [contradiction|reflexivity].
  - intros input N M. unfold trigger, detect_smart_pipe. rewrite (C0 _ N). unfold detect_generative_command, strip_prefix.
    destruct (starts_with (lit "??") (trim_start input)) eqn:S; [|reflexivity]. exfalso. apply starts_with_iff in S as (q & E).
    destruct (drop_parts is_whitespace input) as (l & L & B). rewrite <- trim_start_while, E in L. exact (M l q B L).
  - intros P G input. unfold trigger. destruct (detect_smart_pipe input); [rewrite P|]; destruct (detect_generative_command input); auto.
Qed.
Print Assumptions C129_only_the_query_is_replaced_partial.
(** A mark with no query after it leaves the line as it is. *)
Theorem C129_no_query : forall ask_pipe ask_command p q, blank_text q -> (forall g r, blank_text g -> p ++ lit "|?" ++ q <> g ++ lit "??" ++ r) ->
  trigger ask_pipe ask_command (p ++ lit "|?" ++ q) = None.
Proof.
  intros ask_pipe ask_command p q B M.
  assert (N : ~ marked bar question q) by (intros (u & v & ->); specialize (B bar (in_elt _ _ _)); discriminate B).
  assert (C : cut_last bar question (p ++ lit "|?" ++ q) = Some (p, q)) by (apply cut_iff; [discriminate|]; split; [reflexivity|exact N]).
  assert (T : trim q = []).
  { apply trim_iff. exists q, []. split; [rewrite app_nil_r; reflexivity|]. split; [exact B|]. split; [intros ? []|]. split; intros c u E; [discriminate E|destruct u; discriminate E]. }
  unfold trigger, detect_smart_pipe. rewrite C, T. unfold detect_generative_command, strip_prefix.
  destruct (starts_with (lit "??") (trim_start (p ++ lit "|?" ++ q))) eqn:S; [|reflexivity]. exfalso. apply starts_with_iff in S as (r & E).
  destruct (drop_parts is_whitespace (p ++ lit "|?" ++ q)) as (l & L & D). rewrite <- trim_start_while, E in L. exact (M l r D L).
Qed.
Print Assumptions C129_no_query.

(** A pipeline with a query after it becomes the same pipeline with the offered command as its
    last stage. *)
Theorem C129_offer_extends_the_pipeline : forall read lv allow answer resolve substitute cs q k c args p,
  valid_segment (Segment [] cs) -> cs <> [] -> Forall (known resolve) cs ->
  ~ marked bar question q -> trimmed q k -> k <> [] ->
  read (sanitize_code_block (answer k)) = Some (c, args) -> offered read lv allow (answer k) <> None ->
  Forall plain_text (c :: args) -> resolve c = IsProgram p -> c <> lit "nopty" ->
  exists t j, trigger (fun k => offered read lv allow (answer k)) (fun _ => None) (join_with (lit "|") (map typed_cmd cs) ++ lit "|?" ++ q) = Some t /\
    jobs_of resolve substitute t = Some [j] /\ procs j = map (process_for resolve) cs ++ [Program p (c :: args)].
Proof.
  intros read lv allow answer resolve substitute cs q k c args p V N K M T Nk Rd Of P R Np.
  assert (O : offered read lv allow (answer k) = Some (join_with (lit " ") (c :: args))).
  { unfold offered in *. rewrite Rd in *. destruct (check_command lv c args allow); [reflexivity|contradiction Of; reflexivity..]. }
  exists (join_with (lit "|") (map typed_cmd cs) ++ lit "| " ++ join_with (lit " ") (c :: args)).
  set (x := as_cmd (lit " ") c args).
  assert (Kx : known resolve x) by (split; unfold x, as_cmd, as_word; cbn [name]; rewrite bare_meaning; [exact Np|rewrite R; exact Logic.I]).
  destruct (one_pipeline resolve substitute (cs ++ [x])) as (j & E & Pj & _).
  { destruct V as (V1 & V2 & V3). cbn [bgs pipe app] in V1, V2, V3. split; [cbn [bgs pipe app]; apply Forall_app; split; [exact V1|constructor; [apply as_cmd_valid; [reflexivity|exact P]|constructor]]|].
    split; [destruct cs; discriminate|]. destruct cs as [|c0 cs]; [contradiction|]. cbn [app pipe tl] in *. apply Forall_app. split; [exact V3|constructor; [discriminate|constructor]]. }
  { destruct cs; discriminate. }
  { apply Forall_app. split; [exact K|constructor; [exact Kx|constructor]]. }
  exists j. split; [|split].
  - destruct (C129_only_the_query_is_replaced_partial (fun k => offered read lv allow (answer k)) (fun _ => None)) as [H _].
    exact (H _ q k _ M T Nk O).
  - rewrite <- E. f_equal. rewrite map_app. cbn [map]. unfold x at 1. rewrite as_cmd_typed.
    assert (J : forall (ss : list str) (z : str), ss <> [] -> join_with (lit "|") (ss ++ [z]) = join_with (lit "|") ss ++ lit "|" ++ z).
    { induction ss as [|s ss IH]; intros z Ns; [contradiction|]. destruct ss as [|s' ss]; [reflexivity|].
      change (join_with (lit "|") ((s :: s' :: ss) ++ [z])) with (s ++ lit "|" ++ join_with (lit "|") ((s' :: ss) ++ [z])). rewrite (IH z) by discriminate.
      change (join_with (lit "|") (s :: s' :: ss)) with (s ++ lit "|" ++ join_with (lit "|") (s' :: ss)). rewrite <- !app_assoc. reflexivity. }
    rewrite J; [reflexivity|]. intros Z. apply map_eq_nil in Z. contradiction.
  - rewrite Pj, map_app. f_equal. cbn [map]. f_equal. unfold process_for, x. rewrite as_cmd_argv. unfold as_cmd at 1, as_word. cbn [name]. rewrite bare_meaning, R. reflexivity.
Qed.
Print Assumptions C129_offer_extends_the_pipeline.
Example C129_example : let cs := [CmdLine [] (bare "cat") [Arg (lit " ") (bare "log")] (lit " ")] in
  valid_segment (Segment [] cs) /\ Forall (known in_bin) cs /\ ~ marked bar question (lit " lines to do ") /\ trimmed (lit " lines to do ") (lit "lines to do") /\
  trigger (fun _ => offered two_words Normal [] (lit "x")) (fun _ => None) (lit "cat log |? lines to do ") = Some (lit "cat log | grep -n TODO").
Proof.
  cbn zeta. split; [|split; [|split; [|split]]].
  - split; [constructor; [|constructor]|split; [discriminate|constructor]]. split; [reflexivity|]. split; [reflexivity|]. split; [vb|]. constructor; [|constructor]. split; [reflexivity|split; [left; discriminate|vb]].
  - repeat constructor; discriminate.
  - apply unmarked_lit. reflexivity.
  - apply trim_iff. reflexivity.
  - vm_compute. reflexivity.
Qed.
(** The full statement is false: the mark is also seen inside quotation marks, where it is text,
    and the rest of the quoted text is lost. *)
Theorem C129_quoted_mark_refuted : forall ask_pipe ask_command x, ask_pipe (lit "r' notes") = Some x ->
  trigger ask_pipe ask_command (lit "grep 'colou|?r' notes") = Some (lit "grep 'colou| " ++ x).
Proof.
  intros ask_pipe ask_command x A. destruct (C129_only_the_query_is_replaced_partial ask_pipe ask_command) as [H _].
  apply (H (lit "grep 'colou") (lit "r' notes") (lit "r' notes") x); [apply unmarked_lit; reflexivity|apply trim_iff; reflexivity|discriminate|exact A].
Qed.
Print Assumptions C129_quoted_mark_refuted.
