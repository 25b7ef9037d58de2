(** When is a line complete, and what Enter runs: C41, C68. *)
From Verif Require Import Base Check_Model Check_Spec.
From Verif Require Parse_Model Parse_Props.

Definition run (s : str) (x : st) : st := fold_left step s x.
Lemma run_app a b x : run (a ++ b) x = run b (run a x).
Proof. apply fold_left_app. Qed.

(** ** the scanner accepts what the grammar of complete texts describes *)
Definition top (l : list char) : option char := match l with x :: _ => Some x | [] => None end.
Lemma opening_cases b : In b opening -> b = 40%N \/ b = 91%N \/ b = 123%N.
Proof. intros [<- | [<- | [<- | []]]]; auto. Qed.
Lemma step_open b l : In b opening -> step (St None false l) b = St None false (b :: l).
Proof. intros H. destruct (opening_cases b H) as [-> | [-> | ->]]; reflexivity. Qed.
Lemma step_close b l : In b opening -> step (St None false (b :: l)) (partner b) = St None false l.
Proof. intros H. destruct (opening_cases b H) as [-> | [-> | ->]]; reflexivity. Qed.
Lemma close_other b l : top l <> Some b -> close b l = l.
Proof. destruct l as [|x l]; [reflexivity|]. cbn. destruct (N.eqb_spec x b); [congruence|reflexivity]. Qed.
Lemma step_char c l : ~ In c ([39; 34; 92]%N ++ opening) -> option_map partner (top l) <> Some c -> step (St None false l) c = St None false l.
Proof.
  intros N P. unfold step. cbn [in_backslash quote_char braces].
  assert (D : forall x, In x ([39; 34; 92]%N ++ opening) -> (c =? x)%N = false) by (intros x Ix; destruct (N.eqb_spec c x) as [-> |]; [contradiction|reflexivity]).
  rewrite !D by (cbn; auto 10). cbn [orb].
  assert (Q : forall b, In b opening -> partner b = c -> close b l = l) by (intros b Ib E; apply close_other; intros T; rewrite T in P; apply P; cbn [option_map]; f_equal; exact E).
  destruct (N.eqb_spec c 41) as [-> |]; [rewrite (Q 40%N) by (cbn; auto); reflexivity|].
  destruct (N.eqb_spec c 93) as [-> |]; [rewrite (Q 91%N) by (cbn; auto); reflexivity|].
  destruct (N.eqb_spec c 125) as [-> |]; [rewrite (Q 123%N) by (cbn; auto); reflexivity|reflexivity].
Qed.
Lemma run_single t l : ~ In 39%N t -> run t (St (Some 39%N) false l) = St (Some 39%N) false l.
Proof.
  induction t as [|c t IH]; intros H; [reflexivity|]. cbn [run fold_left]. unfold step at 2. cbn [in_backslash quote_char]. rewrite andb_false_r.
  destruct (N.eqb_spec c 39) as [-> |]; [exfalso; apply H; left; reflexivity|]. apply IH. intros I. apply H. right. exact I.
Qed.
Lemma run_double t l : dquoted t -> run t (St (Some 34%N) false l) = St (Some 34%N) false l.
Proof.
  induction 1 as [|c t N1 N2 D IH|c t D IH]; [reflexivity| |exact IH]. cbn [run fold_left]. unfold step at 2. cbn [in_backslash quote_char].
  destruct (N.eqb_spec c 92); [contradiction|]. cbn [andb]. destruct (N.eqb_spec c 34); [contradiction|]. exact IH.
Qed.
Lemma run_complete o s : complete o s -> forall l, top l = o -> run s (St None false l) = St None false l.
Proof.
  induction 1 as [o|o c s N P C IH|o c s C IH|o t s N C IH|o t s D C IH|o b t s B C1 IH1 C2 IH2]; intros l E; subst o.
  - reflexivity.
  - cbn [run fold_left]. rewrite step_char by assumption. apply IH. reflexivity.
  - cbn [run fold_left]. apply IH. reflexivity.
  - change (39%N :: t ++ 39%N :: s) with ([39%N] ++ t ++ [39%N] ++ s). rewrite !run_app. cbn [run fold_left step in_backslash quote_char N.eqb Pos.eqb orb].
    fold (run t). rewrite run_single by assumption. cbn [step in_backslash quote_char N.eqb Pos.eqb andb braces]. apply IH. reflexivity.
  - change (34%N :: t ++ 34%N :: s) with ([34%N] ++ t ++ [34%N] ++ s). rewrite !run_app. cbn [run fold_left step in_backslash quote_char N.eqb Pos.eqb orb].
    fold (run t). rewrite run_double by assumption. cbn [step in_backslash quote_char N.eqb Pos.eqb andb braces]. apply IH. reflexivity.
  - change (b :: t ++ partner b :: s) with ([b] ++ t ++ [partner b] ++ s). rewrite !run_app. unfold run at 4. cbn [fold_left]. rewrite step_open by assumption.
    rewrite (IH1 (b :: l) eq_refl). unfold run at 2. cbn [fold_left]. rewrite step_close by assumption. apply IH2. reflexivity.
Qed.

(** ** and nothing else *)
(** the rest of a text inside the given open brackets, innermost first *)
Inductive closes : list char -> str -> Prop :=
| cl_nil s : complete None s -> closes [] s
| cl_cons b l t r : complete (Some b) t -> closes l r -> closes (b :: l) (t ++ partner b :: r).
Lemma closes_step l s s' : (forall o, o = top l -> forall t, complete o t -> complete o (s' ++ t)) -> closes l s -> closes l (s' ++ s).
Proof.
  intros H C. destruct C as [s C|b l t r C1 C2]; [constructor; apply (H None); [reflexivity|exact C]|].
  rewrite app_assoc. constructor; [apply (H (Some b)); [reflexivity|exact C1]|exact C2].
Qed.
Lemma single_end s : forall l, run s (St (Some 39%N) false l) = St None false [] -> exists t r, s = t ++ 39%N :: r /\ ~ In 39%N t /\ run r (St None false l) = St None false [].
Proof.
  induction s as [|c s IH]; intros l H; [discriminate|]. unfold run in H. cbn [fold_left] in H. unfold step at 2 in H. cbn [in_backslash quote_char braces] in H. rewrite andb_false_r in H.
  destruct (N.eqb_spec c 39) as [-> | N].
  - exists [], s. split; [reflexivity|]. split; [intros []|exact H].
  - destruct (IH l H) as (t & r & -> & Ht & Hr). exists (c :: t), r. split; [reflexivity|]. split; [|exact Hr]. intros [E | E]; [congruence|contradiction].
Qed.
Lemma double_end n : forall s l, length s <= n -> run s (St (Some 34%N) false l) = St None false [] -> exists t r, s = t ++ 34%N :: r /\ dquoted t /\ run r (St None false l) = St None false [].
Proof.
  induction n as [|n IH]; intros s l L H; destruct s as [|c s]; try discriminate; cbn [length] in L; [lia|]. unfold run in H. cbn [fold_left] in H. unfold step at 2 in H. cbn [in_backslash quote_char braces] in H.
  destruct (N.eqb_spec c 92) as [-> | N1]; cbn [andb N.eqb Pos.eqb] in H.
  - destruct s as [|d s]; [discriminate|]. cbn [fold_left] in H. unfold step at 2 in H. cbn [in_backslash quote_char braces] in H. cbn [length] in L.
    destruct (IH s l ltac:(lia) H) as (t & r & -> & Ht & Hr). exists (92%N :: d :: t), r. split; [reflexivity|]. split; [constructor; exact Ht|exact Hr].
  - destruct (N.eqb_spec c 34) as [-> | N2].
    + exists [], s. split; [reflexivity|]. split; [constructor|exact H].
    + destruct (IH s l ltac:(lia) H) as (t & r & -> & Ht & Hr). exists (c :: t), r. split; [reflexivity|]. split; [constructor; assumption|exact Hr].
Qed.
Lemma run_closes n : forall s l, length s <= n -> Forall (fun b => In b opening) l -> run s (St None false l) = St None false [] -> closes l s.
Proof.
  induction n as [|n IH]; intros s l L O H; (destruct s as [|c s]; [injection H as ->; constructor; constructor|]); cbn [length] in L; [lia|].
  destruct (in_dec N.eq_dec c ([39; 34; 92]%N ++ opening)) as [I | I].
  - assert (Cases : c = 39%N \/ c = 34%N \/ c = 92%N \/ In c opening) by (cbn in I |- *; intuition).
    destruct Cases as [-> | [-> | [-> | B]]].
    + destruct (single_end s l H) as (t & r & -> & Ht & Hr). rewrite app_length in L. cbn [length] in L. change (39%N :: t ++ 39%N :: r) with (39%N :: t ++ [39%N] ++ r). rewrite app_assoc.
      change (39%N :: (t ++ [39%N]) ++ r) with ((39%N :: t ++ [39%N]) ++ r). apply closes_step; [|apply IH; [unfold char in *; lia|exact O|exact Hr]].
      intros o _ u C. cbn [app]. rewrite <- app_assoc. apply c_single; assumption.
    + destruct (double_end (length s) s l ltac:(lia) H) as (t & r & -> & Ht & Hr). rewrite app_length in L. cbn [length] in L. change (34%N :: t ++ 34%N :: r) with (34%N :: t ++ [34%N] ++ r). rewrite app_assoc.
      change (34%N :: (t ++ [34%N]) ++ r) with ((34%N :: t ++ [34%N]) ++ r). apply closes_step; [|apply IH; [unfold char in *; lia|exact O|exact Hr]].
      intros o _ u C. cbn [app]. rewrite <- app_assoc. apply c_double; assumption.
    + destruct s as [|d s]; [discriminate H|]. change (92%N :: d :: s) with ([92%N; d] ++ s). cbn [length] in L. apply closes_step; [|apply IH; [lia|exact O|exact H]].
      intros o _ u C. apply c_esc, C.
    + unfold run in H. cbn [fold_left] in H. rewrite step_open in H by exact B. apply IH in H; [|lia|constructor; assumption].
      inversion H as [|b l' t r C1 C2]; subst. change (c :: t ++ partner c :: r) with (c :: t ++ [partner c] ++ r). rewrite app_assoc. change (c :: (t ++ [partner c]) ++ r) with ((c :: t ++ [partner c]) ++ r).
      apply closes_step; [|exact C2]. intros o _ u C. cbn [app]. rewrite <- app_assoc. apply c_group; assumption.
  - destruct (option_map partner (top l)) as [x|] eqn:T; [destruct (N.eq_dec x c) as [-> | Nx]|].
    + destruct l as [|b l]; [discriminate|]. injection T as Tc. inversion O; subst. unfold run in H. cbn [fold_left] in H. rewrite step_close in H by assumption.
      change (partner b :: s) with ([] ++ partner b :: s). constructor; [constructor|]. apply IH; [lia|assumption|exact H].
    + unfold run in H. cbn [fold_left] in H. rewrite step_char in H by (rewrite ?T; congruence). change (c :: s) with ([c] ++ s). apply closes_step; [|apply IH; [lia|exact O|exact H]].
      intros o E u C. cbn [app]. apply c_char; [exact I| |exact C]. rewrite E, T. congruence.
    + unfold run in H. cbn [fold_left] in H. rewrite step_char in H by (rewrite ?T; congruence). change (c :: s) with ([c] ++ s). apply closes_step; [|apply IH; [lia|exact O|exact H]].
      intros o E u C. cbn [app]. apply c_char; [exact I| |exact C]. rewrite E, T. congruence.
Qed.

(** ** trailing operators *)
Lemma trim_start_split s : exists w, s = w ++ trim_start s /\ forallb is_whitespace w = true /\ match trim_start s with c :: _ => is_whitespace c = false | [] => True end.
Proof.
  induction s as [|c s (w & E & W & H)]; [exists []; repeat split|]. cbn [trim_start]. destruct (is_whitespace c) eqn:Ec; [|exists []; auto].
  exists (c :: w). cbn [app forallb]. rewrite Ec, W. split; [f_equal; exact E|auto].
Qed.
Lemma trim_start_unique w s : forallb is_whitespace w = true -> match s with c :: _ => is_whitespace c = false | [] => True end -> trim_start (w ++ s) = s.
Proof.
  induction w as [|c w IH]; cbn [app forallb]; intros W H; [destruct s as [|x s]; [reflexivity|]; cbn [trim_start]; rewrite H; reflexivity|].
  apply andb_true_iff in W as [W1 W2]. cbn [trim_start]. rewrite W1. apply IH; assumption.
Qed.
Lemma forallb_rev (f : char -> bool) l : forallb f (rev l) = forallb f l.
Proof. induction l as [|x l IH]; [reflexivity|]. cbn [rev]. rewrite forallb_app, IH. cbn [forallb]. rewrite andb_true_r. apply andb_comm. Qed.
Lemma operator_iff s : (let t := trim_end s in ends_with (lit "|") t || ends_with (lit "&&") t || ends_with (lit "||") t) = true <-> ends_in_operator s.
Proof.
  cbn zeta. split.
  - intros H. destruct (trim_start_split (rev s)) as (w & E & W & _). exists (trim_end s), (rev w). split; [|split; [rewrite forallb_rev; exact W|]].
    + unfold trim_end. rewrite <- rev_app_distr, <- E, rev_involutive. reflexivity.
    + rewrite !orb_true_iff, !ends_with_iff in H. destruct H as [[(u & H) | (u & H)] | (u & H)]; [exists u; auto|exists u; auto|]. exists (u ++ lit "|"). left. rewrite H, <- app_assoc. reflexivity.
  - intros (t & w & -> & W & u & Ht). unfold trim_end. rewrite rev_app_distr, trim_start_unique; [|rewrite forallb_rev; exact W|destruct Ht as [-> | ->]; rewrite rev_app_distr; vm_compute; reflexivity].
    rewrite rev_involutive, !orb_true_iff, !ends_with_iff. left. destruct Ht as [-> | ->]; [left | right]; exists u; reflexivity.
Qed.

(** ** C41 *)
(** A text is taken as complete exactly when its quotes, brackets and escapes are closed and
    it does not end in an operator, for every text. *)
Theorem C41_complete_iff : forall s, is_incomplete_input s = false <-> complete None s /\ ~ ends_in_operator s.
Proof.
  intros s. pose proof (operator_iff s) as O. unfold is_incomplete_input. cbn zeta in *.
  set (x := ends_with (lit "|") (trim_end s) || ends_with (lit "&&") (trim_end s) || ends_with (lit "||") (trim_end s)) in *. clearbody x.
  change (scan s) with (run s (St None false [])). rewrite !orb_false_iff, <- O. split.
  - intros [[[H1 H2] H3] H4]. split; [|congruence].
    assert (E : run s (St None false []) = St None false []) by (destruct (run s (St None false [])) as [[q|] [] [|b l]]; cbn in *; congruence).
    apply (run_closes (length s)) in E; [|lia|constructor]. inversion E. assumption.
  - intros [C N]. rewrite (run_complete None s C [] eq_refl). cbn. split; [repeat split|]. apply not_true_is_false. exact N.
Qed.
Print Assumptions C41_complete_iff.
Example C41_example : complete None (lit "echo (a ']' {b]}) c\( )") /\ is_incomplete_input (lit "echo (a ']' {b]}) c\( )") = false /\ is_incomplete_input (lit "echo (a]") = true.
Proof. split; [apply C41_complete_iff; vm_compute; reflexivity|split; vm_compute; reflexivity]. Qed.
(** but an operator that is escaped, so not an operator, also makes the shell wait *)
Theorem C41_escaped_operator_refuted : forall s, complete None s -> is_incomplete_input (s ++ lit "\|") = true /\ complete None (s ++ lit "\|").
Proof.
  intros s C. split.
  - apply not_false_is_true. intros H. apply C41_complete_iff in H as [_ H]. apply H. exists (s ++ lit "\|"), []. rewrite app_nil_r. split; [reflexivity|]. split; [reflexivity|].
    exists (s ++ lit "\"). left. rewrite <- app_assoc. reflexivity.
  - assert (D : forall o a, complete o a -> complete o (a ++ lit "\|")); [|apply D, C]. clear. induction 1; cbn [app].
    + apply c_esc. constructor.
    + apply c_char; assumption.
    + apply c_esc; assumption.
    + rewrite <- app_assoc. cbn [app]. apply c_single; assumption.
    + rewrite <- app_assoc. cbn [app]. apply c_double; assumption.
    + rewrite <- app_assoc. cbn [app]. apply c_group; assumption.
Qed.
Print Assumptions C41_escaped_operator_refuted.

(** ** C68: a command typed over several lines *)
Definition joined (lines : list str) : str := match lines with [] => [] | l :: r => fold_left (fun acc x => acc ++ [10%N] ++ x) r l end.
(** What is run is the typed lines joined by newlines, once, when they are complete for the
    first time; nothing is left in the buffer. *)
Definition typed_before (lines : list str) : str := flat_map (fun l => l ++ [10%N]) lines.
Lemma session_waits before : forall done last rest,
  (forall a l b, before = a ++ l :: b -> is_incomplete_input (typed_before (done ++ a) ++ l) = true) ->
  is_incomplete_input (typed_before (done ++ before) ++ last) = false ->
  session (typed_before done) (before ++ last :: rest) = let (ts, b) := session [] rest in ((typed_before (done ++ before) ++ last) :: ts, b).
Proof.
  assert (J : forall d l, (match typed_before d with [] => l | _ => typed_before d ++ l end) = typed_before d ++ l) by (intros d l; destruct (typed_before d); reflexivity).
  induction before as [|l before IH]; intros done last rest H C.
  - cbn [app session]. unfold enter. rewrite J, app_nil_r in *. rewrite C. reflexivity.
  - cbn [app session]. unfold enter. rewrite J. pose proof (H [] l before eq_refl) as H0. rewrite app_nil_r in H0. rewrite H0.
    replace (typed_before done ++ l ++ [10%N]) with (typed_before (done ++ [l])) by (unfold typed_before; rewrite flat_map_app; cbn [flat_map]; rewrite app_nil_r; reflexivity).
    rewrite IH; rewrite <- ?app_assoc; [reflexivity| |exact C]. intros a x b E. rewrite <- app_assoc. apply (H (l :: a) x b). rewrite E. reflexivity.
Qed.
Theorem C68_lines_are_joined : forall before last rest,
  (forall a l b, before = a ++ l :: b -> ~ (complete None (typed_before a ++ l) /\ ~ ends_in_operator (typed_before a ++ l))) ->
  complete None (typed_before before ++ last) -> ~ ends_in_operator (typed_before before ++ last) ->
  session [] (before ++ last :: rest) = let (ts, b) := session [] rest in ((typed_before before ++ last) :: ts, b).
Proof.
  intros before last rest H C N. change (@nil char) with (typed_before []) at 1. rewrite (session_waits before [] last rest); [reflexivity| |apply C41_complete_iff; auto].
  intros a l b E. apply not_false_is_true. intros F. apply C41_complete_iff in F. exact (H a l b E F).
Qed.
Print Assumptions C68_lines_are_joined.
Example C68_example : session [] [lit "echo 'a"; lit "b' |"; lit "wc"; lit "ls"] = ([lit "echo 'a" ++ [10%N] ++ lit "b' |" ++ [10%N] ++ lit "wc"; lit "ls"], []).
Proof. vm_compute. reflexivity. Qed.
(** But the text is then parsed by a grammar in which a newline ends the line: the commands
    on the following lines do not run, although Enter waited for them, and a backslash at
    the end of a line puts a newline into an argument. *)
Definition first_run (lines : list string) : option (list (list Parse_Model.process)) :=
  match session [] (map lit lines) with ([t], []) => option_map (map Parse_Model.procs) (Parse_Model.jobs_of Parse_Props.in_bin Parse_Props.no_subst t) | _ => None end.
Theorem C68_continued_commands_run_refuted :
  first_run ["echo a |"; "wc"]%string = Some [[Parse_Props.prog ["echo"; "a"]%string]] /\
  first_run ["make &&"; "make install"]%string = Some [[Parse_Props.prog ["make"]%string]] /\
  first_run ["(cd /tmp;"; "ls)"]%string = Some [] /\
  first_run ["echo a \"; "b"]%string = Some [[Parse_Props.prog ["echo"; "a"; Parse_Props.nl ++ "b"]%string]].
Proof. vm_compute. repeat split. Qed.
Print Assumptions C68_continued_commands_run_refuted.
