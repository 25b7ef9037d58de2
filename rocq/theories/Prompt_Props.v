(** C206-C210: the prompt. *)
From Verif Require Import Base Prompt_Model Prompt_Spec.
From Verif Require Lread_Model Lread_Props Lread_Proofs Dmv_Model Dmv_Props Numerals Views_Model Views_Spec Views_Props Answer_Props Gitlog_Props.

(** ** C207: what git status says *)
Lemma trim_word_end (p r : str) (c d : char) q t : p = c :: q -> p = t ++ [d] -> is_whitespace c = false -> is_whitespace d = false -> exists r', trim (p ++ r) = p ++ r' /\ exists w, r = r' ++ w.
Proof.
  intros E E' C D. destruct (Answer_Props.trim_keeps [] p r) as (x & x' & A & B & _).
  - intros z [].
  - rewrite E. discriminate.
  - intros z u Z. rewrite E in Z. injection Z as <- _. exact C.
  - intros u z Z. rewrite E' in Z. apply app_inj_tail in Z. destruct Z as [_ <-]. exact D.
  - cbn [app] in A. exists x. split; [exact A|]. exists x'. exact B.
Qed.
Lemma trim_line (s : str) c q t d : s = c :: q -> s = t ++ [d] -> is_whitespace c = false -> is_whitespace d = false -> trim (s ++ [10%N]) = s.
Proof.
  intros E E' C D. apply (Answer_Props.trim_exact [] s [10%N]).
  - intros z [].
  - intros z [<-|[]]. reflexivity.
  - rewrite E. discriminate.
  - intros z u Z. rewrite E in Z. injection Z as <- _. exact C.
  - intros u z Z. rewrite E' in Z. apply app_inj_tail in Z. destruct Z as [_ <-]. exact D.
Qed.
Lemma digit_dark c : (48 <= c <= 57)%N -> is_whitespace c = false.
Proof. intros H. unfold is_whitespace. rewrite !orb_false_iff, !andb_false_iff, !N.leb_gt, !N.eqb_neq. repeat split; lia. Qed.
Lemma show_word n : word (Lread_Model.show_nat n).
Proof.
  split.
  - assert (D := Lread_Props.show_nat_Dec n). apply Numerals.Dec_iff in D. apply D.
  - intros c I. apply digit_dark. exact (Views_Props.show_digits n c I).
Qed.
Lemma word_last (s : str) : word s -> exists t d, s = t ++ [d] /\ is_whitespace d = false.
Proof. intros [N W]. destruct (exists_last N) as (t & d & E). exists t, d. split; [exact E|]. apply W. rewrite E. apply in_or_app. right. left. reflexivity. Qed.
Lemma signed_show s n : In s [chr "+"; chr "-"] -> (n < 4294967296)%N -> signed [s] (s :: Lread_Model.show_nat n) = Some n.
Proof.
  intros I L. unfold signed. change (s :: Lread_Model.show_nat n) with ([s] ++ Lread_Model.show_nat n). rewrite Dmv_Props.replace_hit by discriminate. cbn [app]. rewrite (Dmv_Props.replace_absent [s] [] s []); [|reflexivity|].
  - apply Views_Props.numeral_iff. split; [exact L|]. left. apply Lread_Props.show_nat_Dec.
  - intros J. apply Views_Props.show_digits in J. destruct I as [<-|[<-|[]]]; revert J; vm_compute (chr _); lia.
Qed.
Definition effect (e : entry) (s : stats) : stats :=
  match e with
  | Head b => with_branch b s
  | Ab a b => Stats (branch s) a b (staged s) (modified s) (untracked s) (conflicted s) (renamed s) (deleted s)
  | _ => let bump (k : entry -> bool) n := (n + if k e then 1 else 0)%N in
         Stats (branch s) (ahead s) (behind s) (bump in_index (staged s)) (bump edited (modified s)) (bump new (untracked s)) (bump unmerged (conflicted s)) (bump moved (renamed s)) (bump gone (deleted s))
  end.
Lemma zero_effect s : Stats (branch s) (ahead s) (behind s) (staged s + 0) (modified s + 0) (untracked s + 0) (conflicted s + 0) (renamed s + 0) (deleted s + 0) = s.
Proof. destruct s as [q1 q2 q3 q4 q5 q6 q7 q8 q9]. cbn [branch ahead behind staged modified untracked conflicted renamed deleted]. f_equal; lia. Qed.
Ltac blank := right; eexists; eexists; split; [reflexivity|reflexivity].
Lemma line_effect e s : proper e -> list_stats (trim (text e ++ [10%N])) s = effect e s.
Proof.
  intros P. destruct e as [r|b|r|a b|two x y r|r|r]; cbn [text].
  - rewrite <- app_assoc. destruct (trim_word_end (lit "# branch.oid") (lit " " ++ r ++ [10%N]) (chr "#") (chr "d") (lit " branch.oid") (lit "# branch.oi")) as (q & A & _); [reflexivity|reflexivity|reflexivity|reflexivity|].
    change (lit "# branch.oid " ++ r ++ [10%N]) with (lit "# branch.oid" ++ lit " " ++ r ++ [10%N]). rewrite A. cbn [effect in_index edited new unmerged moved gone]. rewrite zero_effect. reflexivity.
  - cbn [proper] in P. destruct (word_last b P) as (t & d & E & D). rewrite (trim_line _ (chr "#") (lit " branch.head " ++ b) (lit "# branch.head " ++ t) d); [|reflexivity|rewrite E, <- app_assoc; reflexivity|reflexivity|exact D].
    unfold list_stats. change (starts_with (lit "#") (lit "# branch.head " ++ b)) with true. change (starts_with (lit "# branch.oid") (lit "# branch.head " ++ b)) with false. change (starts_with (lit "# branch.head") (lit "# branch.head " ++ b)) with true. cbv iota zeta.
    assert (W : split_whitespace (lit "# branch.head " ++ b) = [lit "#"; lit "branch.head"; b]).
    { apply Words_split. destruct P as [P1 P2]. apply (Words_word [] (lit "#") (lit " branch.head " ++ b)); [intros c []|discriminate|intros c [<-|[]]; reflexivity|blank|]. apply (Words_word (lit " ") (lit "branch.head") (lit " " ++ b)); [intros c [<-|[]]; reflexivity|discriminate| |blank|].
      - intros c J. revert c J. apply Forall_forall. repeat constructor.
      - replace (lit " " ++ b) with (lit " " ++ b ++ []) by (rewrite app_nil_r; reflexivity). apply (Words_word (lit " ") b []); [intros c [<-|[]]; reflexivity|exact P1|exact P2|left; reflexivity|]. apply Words_none. intros c []. }
    rewrite W. reflexivity.
  - rewrite <- app_assoc. destruct (trim_word_end (lit "# branch.upstream") (lit " " ++ r ++ [10%N]) (chr "#") (chr "m") (lit " branch.upstream") (lit "# branch.upstrea")) as (q & A & _); [reflexivity|reflexivity|reflexivity|reflexivity|].
    change (lit "# branch.upstream " ++ r ++ [10%N]) with (lit "# branch.upstream" ++ lit " " ++ r ++ [10%N]). rewrite A. cbn [effect in_index edited new unmerged moved gone]. rewrite zero_effect. reflexivity.
  - destruct P as [PA PB]. destruct (word_last _ (show_word b)) as (t & d & E & D).
    rewrite (trim_line _ (chr "#") (lit " branch.ab +" ++ Lread_Model.show_nat a ++ lit " -" ++ Lread_Model.show_nat b) (lit "# branch.ab +" ++ Lread_Model.show_nat a ++ lit " -" ++ t) d); [|reflexivity|rewrite E, <- !app_assoc; reflexivity|reflexivity|exact D].
    set (l := lit "# branch.ab +" ++ Lread_Model.show_nat a ++ lit " -" ++ Lread_Model.show_nat b).
    assert (W : split_whitespace l = [lit "#"; lit "branch.ab"; chr "+" :: Lread_Model.show_nat a; chr "-" :: Lread_Model.show_nat b]).
    { apply Words_split. destruct (show_word a) as [A1 A2], (show_word b) as [B1 B2]. apply (Words_word [] (lit "#") (lit " branch.ab +" ++ Lread_Model.show_nat a ++ lit " -" ++ Lread_Model.show_nat b)); [intros c []|discriminate|intros c [<-|[]]; reflexivity|blank|].
      apply (Words_word (lit " ") (lit "branch.ab") (lit " +" ++ Lread_Model.show_nat a ++ lit " -" ++ Lread_Model.show_nat b)); [intros c [<-|[]]; reflexivity|discriminate| |blank|].
      { intros c J. revert c J. apply Forall_forall. repeat constructor. }
      apply (Words_word (lit " ") (chr "+" :: Lread_Model.show_nat a) (lit " -" ++ Lread_Model.show_nat b)); [intros c [<-|[]]; reflexivity|discriminate|intros c [<-|J]; [reflexivity|apply A2; exact J]|blank|].
      replace (lit " -" ++ Lread_Model.show_nat b) with (lit " " ++ (chr "-" :: Lread_Model.show_nat b) ++ []) by (rewrite app_nil_r; reflexivity). apply (Words_word (lit " ") (chr "-" :: Lread_Model.show_nat b) []); [intros c [<-|[]]; reflexivity|discriminate|intros c [<-|J]; [reflexivity|apply B2; exact J]|left; reflexivity|]. apply Words_none. intros c []. }
    unfold list_stats. rewrite W. change (starts_with (lit "#") l) with true. change (starts_with (lit "# branch.oid") l) with false. change (starts_with (lit "# branch.head") l) with false. change (starts_with (lit "# branch.ab") l) with true. cbv iota zeta. cbn [nth_error].
    change (lit "+") with [chr "+"]. change (lit "-") with [chr "-"]. rewrite !signed_show by (cbn; auto). reflexivity.
  - destruct P as (X & Y & Q). rewrite <- app_assoc. cbn [app].
    assert (K : exists q, trim ((if two then lit "2 " else lit "1 ") ++ x :: y :: r ++ [10%N]) = (if two then lit "2 " else lit "1 ") ++ x :: y :: q).
    { destruct (trim_word_end ((if two then lit "2 " else lit "1 ") ++ [x; y]) (r ++ [10%N]) (if two then chr "2" else chr "1") y (lit " " ++ [x; y]) ((if two then lit "2 " else lit "1 ") ++ [x])) as (q & A & _); [destruct two; reflexivity|rewrite <- app_assoc; reflexivity|destruct two; reflexivity|exact Y|]. exists q. rewrite <- !app_assoc in A. exact A. }
    destruct K as [q K]. rewrite K. cbn [effect in_index edited new unmerged moved gone].
    assert (Z : (x =? chr "?")%N = false) by (apply N.eqb_neq; exact Q).
    assert (L : list_stats ((if two then lit "2 " else lit "1 ") ++ x :: y :: q) s = Stats (branch s) (ahead s) (behind s) (if negb (x =? chr ".")%N && negb (x =? chr "?")%N then staged s + 1 else staged s) (if (y =? chr "M")%N then modified s + 1 else modified s) (untracked s) (conflicted s) (if (x =? chr "R")%N then renamed s + 1 else renamed s) (if (x =? chr "D")%N || (y =? chr "D")%N then deleted s + 1 else deleted s)) by (destruct two; reflexivity).
    rewrite L, Z. cbn [negb]. rewrite andb_true_r. f_equal; repeat match goal with |- context [if ?b then _ else _] => destruct b end; lia.
  - rewrite <- app_assoc. destruct (trim_word_end (lit "u") (lit " " ++ r ++ [10%N]) (chr "u") (chr "u") [] []) as (q & A & _); [reflexivity|reflexivity|reflexivity|reflexivity|].
    change (lit "u " ++ r ++ [10%N]) with (lit "u" ++ lit " " ++ r ++ [10%N]). rewrite A. cbn [effect in_index edited new unmerged moved gone]. change (list_stats (lit "u" ++ q) s) with (Stats (branch s) (ahead s) (behind s) (staged s) (modified s) (untracked s) (conflicted s + 1) (renamed s) (deleted s)). f_equal; lia.
  - rewrite <- app_assoc. destruct (trim_word_end (lit "?") (lit " " ++ r ++ [10%N]) (chr "?") (chr "?") [] []) as (q & A & _); [reflexivity|reflexivity|reflexivity|reflexivity|].
    change (lit "? " ++ r ++ [10%N]) with (lit "?" ++ lit " " ++ r ++ [10%N]). rewrite A. cbn [effect in_index edited new unmerged moved gone]. change (list_stats (lit "?" ++ q) s) with (Stats (branch s) (ahead s) (behind s) (staged s) (modified s) (untracked s + 1) (conflicted s) (renamed s) (deleted s)). f_equal; lia.
Qed.
Lemma parse_effect es s : Forall proper es -> parse_lines (map line es) s = fold_left (fun s e => effect e s) es s.
Proof. intros F. revert s. induction F as [|e es P F IH]; intros s; [reflexivity|]. cbn [map line parse_lines fold_left]. rewrite line_effect by exact P. apply IH. Qed.
Lemma tally_cons k e es : tally k (e :: es) = ((if k e then 1 else 0) + tally k es)%N.
Proof. unfold tally. cbn [filter]. destruct (k e); cbn [length]; lia. Qed.
Ltac tallies := intros F; unfold parse_status; rewrite parse_effect by exact F; clear F;
  match goal with |- ?f (fold_left _ ?es _) = tally ?k _ => assert (G : forall s, f (fold_left (fun s e => effect e s) es s) = (f s + tally k es)%N); [induction es as [|e es IH]; intros s; [cbn; lia|]; cbn [fold_left]; rewrite IH, tally_cons; destruct e; cbn [effect with_branch staged modified untracked conflicted renamed deleted in_index edited moved gone new unmerged]; lia|]; rewrite G; reflexivity end.
(** Each count is the number of entries of its kind. *)
Theorem C207_staged : forall es, Forall proper es -> staged (parse_status (map line es)) = tally in_index es.
Proof. intros es. tallies. Qed.
Theorem C207_modified : forall es, Forall proper es -> modified (parse_status (map line es)) = tally edited es.
Proof. intros es. tallies. Qed.
Theorem C207_untracked : forall es, Forall proper es -> untracked (parse_status (map line es)) = tally new es.
Proof. intros es. tallies. Qed.
Theorem C207_conflicted : forall es, Forall proper es -> conflicted (parse_status (map line es)) = tally unmerged es.
Proof. intros es. tallies. Qed.
Theorem C207_renamed : forall es, Forall proper es -> renamed (parse_status (map line es)) = tally moved es.
Proof. intros es. tallies. Qed.
Theorem C207_deleted : forall es, Forall proper es -> deleted (parse_status (map line es)) = tally gone es.
Proof. intros es. tallies. Qed.
(** The branch and how far it is from its upstream are those of their lines. *)
Lemma fold_keeps {A} (f : stats -> A) (k : entry -> bool) es s : (forall e s, k e = false -> f (effect e s) = f s) -> (forall e, In e es -> k e = false) -> f (fold_left (fun s e => effect e s) es s) = f s.
Proof. intros H. revert s. induction es as [|e es IH]; intros s N; [reflexivity|]. cbn [fold_left]. rewrite IH by (intros x I; apply N; right; exact I). apply H. apply N. left. reflexivity. Qed.
Theorem C207_branch : forall a b c, Forall proper (a ++ Head b :: c) -> (forall x, ~ In (Head x) c) -> branch (parse_status (map line (a ++ Head b :: c))) = b.
Proof.
  intros a b c F N. unfold parse_status. rewrite parse_effect by exact F. rewrite fold_left_app. cbn [fold_left]. rewrite (fold_keeps branch (fun e => match e with Head _ => true | _ => false end)); [reflexivity| |].
  - intros e s K. destruct e; try discriminate; reflexivity.
  - intros e I. destruct e; try reflexivity. destruct (N _ I).
Qed.
Theorem C207_upstream : forall a n m c, Forall proper (a ++ Ab n m :: c) -> (forall x y, ~ In (Ab x y) c) -> let s := parse_status (map line (a ++ Ab n m :: c)) in ahead s = n /\ behind s = m.
Proof.
  intros a n m c F N s. subst s. unfold parse_status. rewrite parse_effect by exact F. rewrite fold_left_app. cbn [fold_left]. split; rewrite (fold_keeps _ (fun e => match e with Ab _ _ => true | _ => false end)); try reflexivity; try (intros e s K; destruct e; try discriminate; reflexivity); intros e I; destruct e; try reflexivity; destruct (N _ _ I).
Qed.
(** Changes of the work tree that are neither edits nor deletions (a changed type, a file that will be added) are not counted: the tree looks clean. *)
Theorem C207_unseen_refuted : forall two y r, is_whitespace y = false -> y <> chr "M" -> y <> chr "D" -> parse_status [line (Changed two (chr ".") y r)] = none_yet.
Proof.
  intros two y r W M D. change [line (Changed two (chr ".") y r)] with (map line [Changed two (chr ".") y r]). unfold parse_status. rewrite parse_effect by (repeat constructor; [exact W|discriminate]). cbn [fold_left effect in_index edited new unmerged moved gone]. apply N.eqb_neq in M, D. rewrite M, D. reflexivity.
Qed.
(** After a name that is not UTF-8 nothing is counted. *)
Theorem C207_not_text_refuted : forall a b, parse_status (a ++ None :: b) = parse_status (a ++ [None]).
Proof. intros a b. unfold parse_status. generalize none_yet as s. induction a as [|[l|] a IH]; intros s; cbn [app parse_lines]; [reflexivity|apply IH|reflexivity]. Qed.

(** ** C208: the branch of HEAD *)
Theorem C208_branch : forall b, word b -> head_name (lit "ref: refs/heads/" ++ b ++ [10%N]) = Some b.
Proof.
  intros b P. destruct (word_last b P) as (t & d & E & D). unfold head_name. rewrite app_assoc, (trim_line _ (chr "r") (lit "ef: refs/heads/" ++ b) (lit "ref: refs/heads/" ++ t) d); [reflexivity|reflexivity|rewrite E, <- app_assoc; reflexivity|reflexivity|exact D].
Qed.
Lemma ascii_len (s : str) : Forall (fun c => (c < 128)%N) s -> blen s = length s.
Proof. intros F. induction F as [|c s H F IH]; [reflexivity|]. cbn [blen length]. rewrite IH. unfold utf8_len. apply N.ltb_lt in H. rewrite H. reflexivity. Qed.
(** A commit that is checked out is shown by the first seven characters of its name. *)
Theorem C208_detached : forall h, word h -> Forall (fun c => (c < 128)%N) h -> 7 <= length h -> starts_with (lit "ref: ") h = false -> head_name (h ++ [10%N]) = Some (firstn 7 h).
Proof.
  intros h W A L R. destruct (word_last h W) as (t & d & E & D). destruct h as [|c q]; [cbn in L; lia|]. assert (C : is_whitespace c = false) by (apply (proj2 W); left; reflexivity).
  unfold head_name. rewrite (trim_line _ c q t d eq_refl E C D). cbv zeta. assert (Z : starts_with (lit "ref: refs/heads/") (c :: q) = false).
  { destruct (starts_with (lit "ref: refs/heads/") (c :: q)) eqn:Z; [|reflexivity]. apply starts_with_iff in Z. destruct Z as [u Z]. rewrite Z in R. discriminate. }
  rewrite Z, (ascii_len _ A). apply Nat.leb_le in L. rewrite L. assert (S : split_byte (c :: q) 7 = Some (firstn 7 (c :: q), skipn 7 (c :: q))); [|rewrite S; reflexivity].
  apply split_byte_iff. split; [symmetry; apply firstn_skipn|]. rewrite ascii_len; [apply firstn_length_le, Nat.leb_le; exact L|]. rewrite Forall_forall in *. intros x I. apply A. rewrite <- (firstn_skipn 7). apply in_or_app. left. exact I.
Qed.
(** HEAD may name something else than a branch; then the text itself is shown. *)
Theorem C208_other_ref_refuted : forall r, starts_with (lit "refs/heads/") r = false -> word r -> starts_with (lit "refs/") r = true -> head_name (lit "ref: " ++ r ++ [10%N]) = Some (lit "ref: re").
Proof.
  intros r N W H. destruct (word_last r W) as (t & d & E & D). unfold head_name. rewrite app_assoc, (trim_line _ (chr "r") (lit "ef: " ++ r) (lit "ref: " ++ t) d); [|reflexivity|rewrite E, <- app_assoc; reflexivity|reflexivity|exact D]. cbv zeta.
  assert (Z : starts_with (lit "ref: refs/heads/") (lit "ref: " ++ r) = false) by exact N. rewrite Z. apply starts_with_iff in H. destruct H as [u ->]. assert (B : 7 <=? blen (lit "ref: " ++ lit "refs/" ++ u) = true) by (apply Nat.leb_le; rewrite !blen_app; change (blen (lit "ref: ")) with 5; change (blen (lit "refs/")) with 5; lia). rewrite B. reflexivity.
Qed.
(** It stops the shell exactly if the byte after seven is inside a character. *)
Theorem C208_stops_refuted : forall c, head_name c = None <-> starts_with (lit "ref: refs/heads/") (trim c) = false /\ 7 <= blen (trim c) /\ ~ exists a b, trim c = a ++ b /\ blen a = 7.
Proof.
  intros c. unfold head_name. cbv zeta. destruct (starts_with (lit "ref: refs/heads/") (trim c)); [split; [discriminate|intros [? _]; discriminate]|]. destruct (Nat.leb_spec 7 (blen (trim c))) as [L|L]; [|split; [discriminate|lia]]. destruct (split_byte (trim c) 7) as [[a b]|] eqn:E.
  - split; [discriminate|]. intros (_ & _ & N). destruct N. exists a, b. apply split_byte_iff in E. exact E.
  - split; [|reflexivity]. intros _. split; [reflexivity|]. split; [exact L|]. intros (a & b & H). apply split_byte_iff in H. congruence.
Qed.

(** In a repository whose references are kept in a table HEAD always holds the same text, and that is shown. *)
Theorem C208_reftable_refuted : head_name (lit "ref: refs/heads/.invalid" ++ [10%N]) = Some (lit ".invalid").
Proof. reflexivity. Qed.

(** ** C206: the repository of the prompt *)
Lemma under_iff r p : under r p = true <-> exists t, p = r ++ t.
Proof.
  revert p. induction r as [|x r IH]; intros p; cbn [under].
  - split; [intros _; exists p; reflexivity|reflexivity].
  - destruct p as [|y p]; [split; [discriminate|intros [t E]; discriminate]|]. rewrite andb_true_iff, str_eqb_eq, IH. split.
    + intros [-> [t ->]]. exists t. reflexivity.
    + intros [t E]. injection E as -> E. split; [reflexivity|exists t; exact E].
Qed.
(** In the repository the prompt is of, the branch shown is the one HEAD names now. *)
Theorem C206_branch : forall w s r b, root s = Some r -> under r (cwd s) = true -> head_of w r = Some b -> exists v, fst (print w s) = Some v /\ branch v = b.
Proof.
  intros w s r b R U H. unfold print. rewrite R. cbn [encloses]. rewrite U, H. destruct (cached s) as [v|]; [|eexists; split; reflexivity]. destruct (str_eqb (branch v) b) eqn:E; [apply str_eqb_eq in E; eexists; split; [reflexivity|exact E]|eexists; split; reflexivity].
Qed.
(** Outside any repository nothing is shown. *)
Theorem C206_outside : forall w s, root s = None -> print w s = (None, s).
Proof. intros w s R. unfold print, cached. rewrite R. reflexivity. Qed.
(** When the directory stays and the task has looked, the prompt is of the nearest repository and shows what git says here. *)
Theorem C206_settles : forall w s, task s = Idle -> needs s = true -> let s' := run [Begun; Found w; Fetched w] s in
  cwd s' = cwd s /\ root s' = nearest w (cwd s) /\ needs s' = false /\ (nearest w (cwd s) = None -> fst (print w s') = None) /\
  (forall r v, nearest w (cwd s) = Some r -> stat_of w (cwd s) = Some v -> head_of w r = Some (branch v) -> fst (print w s') = Some v).
Proof.
  intros w s T N s'. subst s'. cbn [run step]. unfold begin. rewrite T, N. unfold found. cbn [task set_root cwd root needs known cache]. destruct (nearest w (cwd s)) as [r|] eqn:R.
  - unfold fetched. cbn [task]. unfold set_status. cbn [root]. destruct (stat_of w (cwd s)) as [v|] eqn:V; cbn [cwd root needs known cache].
    + split; [reflexivity|]. split; [reflexivity|]. split; [reflexivity|]. split; [discriminate|]. intros r' v' [= <-] [= <-] H. unfold print, cached. cbn [root cwd cache encloses]. destruct (list_eq_dec str_eq_dec r r) as [_|X]; [|congruence]. destruct (under r (cwd s)); [rewrite H, str_eqb_refl|]; reflexivity.
    + split; [reflexivity|]. split; [reflexivity|]. split; [reflexivity|]. split; [discriminate|]. intros r' v' _ X. discriminate.
  - cbn [fetched task]. unfold fetched. cbn [task cwd root]. split; [reflexivity|]. split; [reflexivity|]. split; [reflexivity|]. split; [reflexivity|]. intros r v X. discriminate.
Qed.
(** If the directory is changed only between the tasks, the counts shown were told by git for a directory of the repository the prompt is of, and that repository encloses the directory and was found from one inside it. *)
Definition Inv (es : list event) (s : st) : Prop :=
  (forall r, root s = Some r -> under r (cwd s) = true /\ exists d, under r d = true /\ located es d r) /\
  (forall r, In r (known s) -> exists d, under r d = true /\ located es d r) /\
  (forall c, task s = Finding c -> c = cwd s) /\ (forall d, task s = Fetching d -> d = cwd s) /\
  (forall v r, cache s = Some (v, r) -> exists d, under r d = true /\ told es d v).
Lemma located_more es e d r : located es d r -> located (es ++ [e]) d r.
Proof. intros (w & I & H). exists w. split; [apply in_or_app; left; exact I|exact H]. Qed.
Lemma told_more es e d v : told es d v -> told (es ++ [e]) d v.
Proof. intros (w & I & H). exists w. split; [apply in_or_app; left; exact I|exact H]. Qed.
Lemma inv_step es e s : (match e with Cd _ => task s = Idle | _ => True end) -> (forall w, world_of e = Some w -> honest w) -> Inv es s -> Inv (es ++ [e]) (step e s).
Proof.
  intros C H I. assert (M : Inv (es ++ [e]) s).
  { destruct I as (A & B & F & G & K). split; [|split; [|split; [exact F|split; [exact G|]]]].
    - intros r R. destruct (A r R) as (U & d & D & L). split; [exact U|]. exists d. split; [exact D|apply located_more; exact L].
    - intros r R. destruct (B r R) as (d & D & L). exists d. split; [exact D|apply located_more; exact L].
    - intros v r R. destruct (K v r R) as (d & D & L). exists d. split; [exact D|apply told_more; exact L]. }
  clear I. pose proof M as M0. destruct M as (A & B & F & G & K). destruct e as [p|w| |w|w]; cbn [step].
  - unfold cd. destruct (encloses (root s) p) eqn:E.
    + split; [|split; [exact B|split; [|split; [|exact K]]]]; cbn [root cwd task].
      * intros r R. rewrite R in E. cbn in E. split; [exact E|]. apply (A r R).
      * intros c T. congruence.
      * intros c T. congruence.
    + destruct (find (fun r => under r p) (known s)) as [r|] eqn:X; (split; [|split; [exact B|split; [|split; [|]]]]); cbn [root cwd task cache].
      * intros r' [= <-]. apply find_some in X. destruct X as [X U]. split; [exact U|]. apply B. exact X.
      * intros c T. congruence.
      * intros c T. congruence.
      * discriminate.
      * discriminate.
      * intros c T. congruence.
      * intros c T. congruence.
      * exact K.
  - unfold print. destruct (if encloses (root s) (cwd s) then _ else _) as [b|]; [|cbn [snd]; repeat split; assumption || apply A; assumption].
    assert (Z : Inv (es ++ [Printed w]) (forget s)) by (split; [exact A|split; [exact B|split; [exact F|split; [exact G|discriminate]]]]).
    destruct (cached s) as [v|]; [|exact Z]. destruct (str_eqb (branch v) b); [|exact Z]. split; [exact A|]. split; [exact B|]. split; [exact F|]. split; [exact G|exact K].
  - unfold begin. destruct (task s) eqn:T; [|exact M0..]. split; [exact A|]. split; [exact B|]. cbn [task cwd]. split; [|split; [|exact K]].
    + intros c. destruct (needs s); [intros [= <-]; reflexivity|]. destruct (root s); discriminate.
    + intros d. destruct (needs s); [discriminate|]. destruct (root s); [intros [= <-]; reflexivity|discriminate].
  - unfold found. destruct (task s) as [|c|d] eqn:T; [exact M0| |exact M0].
    assert (Q : c = cwd s) by (apply F; reflexivity). subst c. unfold set_root. cbn [root cwd needs known cache task]. 
    assert (L : forall r, nearest w (cwd s) = Some r -> under r (cwd s) = true /\ located (es ++ [Found w]) (cwd s) r).
    { intros r R. split; [apply (H w eq_refl); exact R|]. exists w. split; [apply in_or_app; right; left; reflexivity|exact R]. }
    split; [|split; [|split; [|split; [|discriminate]]]]; cbn [root cwd known task].
    + intros r R. destruct (L r R) as [U Z]. split; [exact U|]. exists (cwd s). split; assumption.
    + intros r R. destruct (nearest w (cwd s)) as [x|] eqn:E; [|apply B; exact R]. destruct R as [<-|R]; [exists (cwd s); apply L; reflexivity|apply B; exact R].
    + intros c. destruct (nearest w (cwd s)); discriminate.
    + intros d. destruct (nearest w (cwd s)); [intros [= <-]; reflexivity|discriminate].
  - unfold fetched. destruct (task s) as [|c|d] eqn:T; [exact M0|exact M0|].
    assert (Q : d = cwd s) by (apply G; reflexivity). subst d. unfold set_status. destruct (root s) as [r|] eqn:R.
    + destruct (stat_of w (cwd s)) as [v|] eqn:V; (split; [|split; [exact B|split; [|split; [|]]]]); cbn [root cwd task cache]; try (intros; discriminate).
      * intros r' X. apply A. rewrite <- X. congruence.
      * intros v' r' [= <- <-]. exists (cwd s). split; [apply (A r eq_refl)|]. exists w. split; [apply in_or_app; right; left; reflexivity|exact V].
      * intros r' X. apply A. congruence.
      * exact K.
    + split; [|split; [exact B|split; [|split; [|]]]]; cbn [root cwd task cache]; try (intros; discriminate); [intros r' X; congruence|exact K].
Qed.
Lemma inv_run es : forall pre s, calm es s -> (forall e w, In e es -> world_of e = Some w -> honest w) -> Inv pre s -> Inv (pre ++ es) (run es s).
Proof.
  induction es as [|e es IH]; intros pre s C H I; [rewrite app_nil_r; exact I|]. destruct C as [C1 C2]. cbn [run]. replace (pre ++ e :: es) with ((pre ++ [e]) ++ es) by (rewrite <- app_assoc; reflexivity). apply IH; [exact C2|intros x w J; apply H; right; exact J|]. apply inv_step; [exact C1|intros w; apply H; left; reflexivity|exact I].
Qed.
Theorem C206_calm_partial : forall es p w v s', calm es (start p) -> (forall e w, In e es -> world_of e = Some w -> honest w) -> print w (run es (start p)) = (Some v, s') ->
  exists r, root (run es (start p)) = Some r /\ under r (cwd (run es (start p))) = true /\ (exists d, under r d = true /\ located es d r) /\
  (same_counts v none_yet \/ exists d v0, under r d = true /\ told es d v0 /\ same_counts v v0).
Proof.
  intros es p w v s' C H P. assert (I : Inv es (run es (start p))). { apply (inv_run es [] (start p)); [exact C|exact H|]. split; [|split; [|split; [|split]]]; cbn; try discriminate. intros r []. }
  set (s := run es (start p)) in *. clearbody s. destruct I as (A & B & F & G & K).
  destruct (root s) as [r|] eqn:R; [|rewrite (C206_outside w s R) in P; discriminate]. exists r. split; [reflexivity|]. destruct (A r eq_refl) as [U L]. split; [exact U|]. split; [exact L|].
  assert (Q : forall v0, cached s = Some v0 -> exists d, under r d = true /\ told es d v0).
  { intros v0 E. unfold cached in E. rewrite R in E. destruct (cache s) as [[x r']|] eqn:X; [|discriminate]. destruct (list_eq_dec str_eq_dec r r') as [<-|]; [|discriminate]. injection E as <-. apply (K x r eq_refl). }
  unfold print in P. rewrite R in P. cbn [encloses] in P. rewrite U in P. assert (SB : forall x, same_counts x x) by (intros [q1 q2 q3 q4 q5 q6 q7 q8 q9]; reflexivity).
  destruct (head_of w r) as [b|]; destruct (cached s) as [v0|] eqn:E; try discriminate.
  - destruct (Q v0 eq_refl) as (d & D & T). right. exists d, v0. split; [exact D|]. split; [exact T|]. destruct (str_eqb (branch v0) b); injection P as <- _; [apply SB|reflexivity].
  - left. injection P as <- _. reflexivity.
  - destruct (Q v0 eq_refl) as (d & D & T). right. exists d, v0. split; [exact D|]. split; [exact T|]. injection P as <- _. apply SB.
Qed.
(** In a repository inside another the prompt stays that of the outer one, with its branch. *)
Theorem C206_nested_refuted : forall w s r p inner b b', root s = Some r -> under r p = true -> nearest w p = Some inner -> inner <> r -> head_of w r = Some b -> head_of w inner = Some b' -> b <> b' ->
  root (cd p s) = Some r /\ exists v, fst (print w (cd p s)) = Some v /\ branch v <> b'.
Proof.
  intros w s r p inner b b' R U I D H H' N. assert (X : root (cd p s) = Some r) by (unfold cd; rewrite R; cbn [encloses]; rewrite U; reflexivity). split; [exact X|].
  destruct (C206_branch w (cd p s) r b X) as (v & P & B); [unfold cd; rewrite R; cbn [encloses]; rewrite U; exact U|exact H|]. exists v. split; [exact P|]. congruence.
Qed.
(** With a directory changed while git is asked, the counts of one repository are shown in another. *)
Theorem C206_late_refuted : forall w s a p r v b, task s = Fetching a -> encloses (root s) p = false -> find (fun r => under r p) (known s) = Some r -> stat_of w a = Some v -> head_of w r = Some b ->
  let s' := run [Cd p; Fetched w] s in cwd s' = p /\ fst (print w s') = Some (with_branch b v).
Proof.
  intros w s a p r v b T E F V H s'. subst s'. apply and_comm. split.
  - cbn [run step]. unfold cd. rewrite E, F. unfold fetched. cbn [task]. rewrite T. unfold set_status. cbn [root]. rewrite V. cbn [cwd root needs known cache]. apply find_some in F. destruct F as [_ U]. unfold print, cached. cbn [root cwd cache encloses]. rewrite U, H. destruct (list_eq_dec str_eq_dec r r) as [_|X]; [|congruence]. destruct (str_eqb (branch v) b) eqn:B; [|reflexivity]. apply str_eqb_eq in B. rewrite <- B. destruct v; reflexivity.
  - cbn [run step]. unfold cd. rewrite E, F. unfold fetched. cbn [task]. rewrite T. unfold set_status. cbn [root]. rewrite V. reflexivity.
Qed.
(** With one changed while the repository is looked for, the prompt is of the repository left; back in it, the counts are those of the directory gone to. *)
Theorem C206_looking_refuted : forall w s a p r q v b, task s = Finding a -> encloses (root s) p = false -> find (fun r => under r p) (known s) = None -> nearest w a = Some r -> under r p = false -> stat_of w p = Some v -> under r q = true -> head_of w r = Some b ->
  root (run [Cd p; Found w] s) = Some r /\ cwd (run [Cd p; Found w] s) = p /\ fst (print w (run [Cd p; Found w; Fetched w; Cd q] s)) = Some (with_branch b v).
Proof.
  intros w s a p r q v b T E F N U V Q H. cbn [run step]. unfold cd at 1 2 4. rewrite E, F. unfold found. cbn [task]. rewrite T. unfold set_root. cbn [root cwd needs known cache task]. rewrite N. split; [reflexivity|]. split; [reflexivity|].
  unfold fetched. cbn [task]. unfold set_status. cbn [root]. rewrite V. cbn [cwd root needs known cache]. unfold cd. cbn [root encloses]. rewrite Q. unfold print, cached. cbn [root cwd cache encloses]. rewrite Q, H. destruct (list_eq_dec str_eq_dec r r) as [_|X]; [|congruence]. destruct (str_eqb (branch v) b) eqn:B; [|reflexivity]. apply str_eqb_eq in B. rewrite <- B. destruct v; reflexivity.
Qed.
(** With a commit checked out (git calls the branch "(detached)", HEAD holds its name) the second prompt in a row shows no counts at all. *)
Theorem C206_detached_refuted : forall w s r v h, root s = Some r -> under r (cwd s) = true -> cache s = Some (v, r) -> head_of w r = Some h -> branch v <> h ->
  fst (print w s) = Some (with_branch h v) /\ fst (print w (snd (print w s))) = Some (with_branch h none_yet).
Proof.
  intros w s r v h R U C H N. unfold print at 1 3. unfold cached. rewrite R, C. cbn [encloses]. rewrite U, H. destruct (list_eq_dec str_eq_dec r r) as [_|X]; [|congruence]. assert (B : str_eqb (branch v) h = false) by (apply str_eqb_neq; exact N). rewrite B. cbn [fst snd]. split; [reflexivity|]. unfold print, forget, cached. cbn [root cwd cache encloses]. rewrite R. cbn [encloses]. rewrite U, H. reflexivity.
Qed.

(** ** C209: tools asked in the background *)
(** Once something is shown and no question is under way it is shown forever, whatever the tool would say. *)
Theorem C209_stale_refuted : forall es t x, shown t = Some x -> asked t = 0 -> tools t es = t.
Proof.
  intros es. induction es as [|e es IH]; intros t x H A; [reflexivity|]. unfold tools. cbn [fold_left]. assert (E : tool_step t e = t). { destruct e as [u n|n v]; cbn [tool_step]; [unfold ask; rewrite H; reflexivity|unfold answer; rewrite A; reflexivity]. } rewrite E. exact (IH t x H A).
Qed.
Theorem C209_profile_refuted : forall envs x, fold_left (fun t env => profile env t) envs (Some x) = Some x.
Proof. intros envs x. induction envs as [|e envs IH]; [reflexivity|exact IH]. Qed.
(** What is shown was an answer of the tool. *)
Theorem C209_answers : forall es g x, shown (tools (Tool None g 0) es) = Some x -> exists n, In (Answer n (Some x)) es.
Proof.
  intros es g x. assert (G : forall t, shown (tools t es) = Some x -> shown t = Some x \/ exists n, In (Answer n (Some x)) es).
  { induction es as [|e es IH]; intros t H; [left; exact H|]. unfold tools in H. cbn [fold_left] in H. destruct (IH _ H) as [K|[n K]]; [|right; exists n; right; exact K]. destruct e as [u n|n v]; cbn [tool_step] in K.
    - left. unfold ask in K. destruct (_ && _ && u); exact K.
    - unfold answer in K. destruct (asked t); [left; exact K|]. destruct v as [y|]; cbn [shown] in K; [|left; exact K]. injection K as ->. right. exists n. left. reflexivity. }
  intros H. destruct (G _ H) as [K|K]; [discriminate|exact K].
Qed.
(** The wait after a failure is between 5 seconds and 5 minutes, at least as long as the one before, and no question is put in it. *)
Theorem C209_waits : forall es now, gate_ok (waits (tools (Tool None (reset now) 0) es)).
Proof.
  intros es now. assert (G : forall t, gate_ok (waits t) -> gate_ok (waits (tools t es))).
  { induction es as [|e es IH]; intros t H; [exact H|]. unfold tools. cbn [fold_left]. apply IH. destruct e as [u n|n v]; cbn [tool_step].
    - unfold ask. destruct (_ && _ && u); exact H.
    - unfold answer. destruct (asked t); [exact H|]. destruct v; [unfold gate_ok, reset; cbn [waits delay]; lia|]. unfold gate_ok, failure in *. cbn [waits delay]. lia. }
  apply G. unfold gate_ok, reset. cbn [waits delay]. lia.
Qed.
Theorem C209_no_question_in_it : forall g now n u a, gate_ok g -> (n < now + delay g)%N -> ask u n (Tool None (failure now g) a) = Tool None (failure now g) a /\ delay (failure now g) = N.min (2 * delay g) 300.
Proof.
  intros g now n u a [A B] H. split; [|unfold failure; cbn [delay]; lia]. unfold ask, failure. cbn [shown waits allowed]. replace (now + delay g <=? n)%N with false by (symmetry; apply N.leb_gt; exact H). reflexivity.
Qed.
(** After it one is put, if the command is there and nothing is shown yet. *)
Theorem C209_asks : forall u n t, asked (ask u n t) = asked t + 1 <-> shown t = None /\ (allowed (waits t) <= n)%N /\ u = true.
Proof.
  intros u n t. unfold ask. destruct (shown t); cbn [andb]; [split; [lia|intros [X _]; discriminate]|]. destruct (N.leb_spec (allowed (waits t)) n) as [L|L]; cbn [andb]; [|split; [lia|intros (_ & X & _); lia]]. destruct u; cbn [asked]; [tauto|]. split; [lia|intros (_ & _ & X); discriminate].
Qed.
(** Questions are put while earlier ones have no answer: there may be any number of them. *)
Theorem C209_many_refuted : forall k g now, (allowed g <= now)%N -> asked (tools (Tool None g 0) (repeat (Ask true now) k)) = k.
Proof.
  intros k g now H. assert (G : forall a, asked (tools (Tool None g a) (repeat (Ask true now) k)) = a + k).
  { induction k as [|k IH]; intros a; [cbn; lia|]. cbn [repeat]. unfold tools. cbn [fold_left tool_step]. unfold ask. cbn [shown waits]. apply N.leb_le in H. rewrite H. cbn [andb asked]. fold (tools (Tool None g (a + 1)) (repeat (Ask true now) k)). rewrite IH. lia. }
  apply G.
Qed.

(** ** C210: the last command *)
Theorem C210_status : forall z, (status_part z = None <-> z = 0%Z) /\ (forall t, status_part z = Some t -> t = lit " " ++ [10008%N] ++ lit " " ++ (if (z <? 0)%Z then lit "-" else []) ++ Lread_Model.show_nat (Z.abs_N z)).
Proof.
  intros z. unfold status_part. destruct (Z.eqb_spec z 0) as [->|N]; [split; [tauto|discriminate]|]. split; [split; congruence|]. intros t [= <-]. unfold Lread_Model.show_int. destruct (z <? 0)%Z; reflexivity.
Qed.
Theorem C210_time : forall n, (time_part (Some n) = None <-> (n < 2)%N) /\ ((2 <= n < 60)%N -> time_part (Some n) = Some (lit " " ++ Lread_Model.show_nat n ++ lit "s")) /\
  (forall m s, (0 < m)%N -> (s < 60)%N -> n = (60 * m + s)%N -> time_part (Some n) = Some (lit " " ++ Lread_Model.show_nat m ++ lit "m" ++ Lread_Model.show_nat s ++ lit "s")).
Proof.
  intros n. unfold time_part. destruct (N.leb_spec 2 n) as [L|L].
  - split; [split; [discriminate|lia]|]. split.
    + intros [_ H]. apply N.ltb_lt in H. rewrite H. reflexivity.
    + intros m s M S E. replace (n <? 60)%N with false by (symmetry; apply N.ltb_ge; lia). replace (n / 60)%N with m by (rewrite E; apply N.div_unique with s; lia). replace (n mod 60)%N with s by (rewrite E; apply N.mod_unique with m; lia). reflexivity.
  - split; [split; [lia|reflexivity]|]. split; [lia|]. intros m s M S E. lia.
Qed.

(** ** Cases that meet the hypotheses *)
Example C207_case : let es := [Oid (lit "1f"); Head (lit "main"); Upstream (lit "origin/main"); Ab 2 1; Changed false (chr "M") (chr "M") (lit " N... a"); Changed true (chr "R") (chr ".") (lit " N... b"); Changed false (chr ".") (chr "D") (lit " N... c"); Unmerged (lit "UU d"); Untracked (lit "e")] in
  Forall proper es /\ parse_status (map line es) = Stats (lit "main") 2 1 2 1 1 1 1 1.
Proof.
  split; [|reflexivity]. repeat constructor; cbn; try discriminate; try (intros c H; repeat (destruct H as [<-|H]; [reflexivity|]); destruct H); try lia.
Qed.
Definition home : path := [lit "h"].
Definition disk : world :=
  World (fun p => if under [lit "h"; lit "a"; lit "in"] p then Some [lit "h"; lit "a"; lit "in"] else if under [lit "h"; lit "a"] p then Some [lit "h"; lit "a"] else if under [lit "h"; lit "b"] p then Some [lit "h"; lit "b"] else None)
        (fun p => if under [lit "h"; lit "a"] p then Some (Stats (lit "main") 0 0 3 0 0 0 0 0) else if under [lit "h"; lit "b"] p then Some (Stats (lit "(detached)") 0 0 0 0 1 0 0 0) else None)
        (fun r => if str_eqb (last r []) (lit "a") then Some (lit "main") else if str_eqb (last r []) (lit "in") then Some (lit "dev") else Some (lit "1f2e3d4")).
Lemma disk_honest : honest disk.
Proof.
  intros c r. cbn [nearest disk]. destruct (under [lit "h"; lit "a"; lit "in"] c) eqn:A; [intros [= <-]; exact A|]. destruct (under [lit "h"; lit "a"] c) eqn:B; [intros [= <-]; exact B|]. destruct (under [lit "h"; lit "b"] c) eqn:C; [intros [= <-]; exact C|discriminate].
Qed.
Definition day : list event := [Cd [lit "h"; lit "a"; lit "x"]; Begun; Found disk; Fetched disk].
Example C206_calm_case : calm day (start home) /\ (forall e w, In e day -> world_of e = Some w -> honest w) /\ fst (print disk (run day (start home))) = Some (Stats (lit "main") 0 0 3 0 0 0 0 0).
Proof.
  split; [cbn; tauto|]. split; [|reflexivity]. intros e w H E. repeat (destruct H as [<-|H]; [cbn in E; try discriminate E; injection E as <-; exact disk_honest|]). destruct H.
Qed.
Example C206_settles_case : task (run [Cd [lit "h"; lit "a"; lit "x"]] (start home)) = Idle /\ needs (run [Cd [lit "h"; lit "a"; lit "x"]] (start home)) = true /\ nearest disk [lit "h"; lit "a"; lit "x"] = Some [lit "h"; lit "a"] /\ head_of disk [lit "h"; lit "a"] = Some (lit "main").
Proof. split; [|split; [|split]]; reflexivity. Qed.
Example C206_nested_case : let s := run day (start home) in let p := [lit "h"; lit "a"; lit "in"] in
  root s = Some [lit "h"; lit "a"] /\ nearest disk p = Some p /\ head_of disk [lit "h"; lit "a"] = Some (lit "main") /\ head_of disk p = Some (lit "dev").
Proof. split; [|split; [|split]]; reflexivity. Qed.
(** both repositories visited; in a the task is under way when the directory is changed *)
Example C206_late_case : let s := run ([Cd [lit "h"; lit "b"]; Begun; Found disk; Fetched disk] ++ [Cd [lit "h"; lit "a"]; Begun; Found disk]) (start home) in
  task s = Fetching [lit "h"; lit "a"] /\ encloses (root s) [lit "h"; lit "b"] = false /\ find (fun r => under r [lit "h"; lit "b"]) (known s) = Some [lit "h"; lit "b"] /\
  fst (print disk (run [Cd [lit "h"; lit "b"]; Fetched disk] s)) = Some (Stats (lit "1f2e3d4") 0 0 3 0 0 0 0 0).
Proof. split; [|split; [|split]]; reflexivity. Qed.
Example C206_looking_case : let s := run [Cd [lit "h"; lit "b"]; Begun] (start home) in
  task s = Finding [lit "h"; lit "b"] /\ fst (print disk (run [Cd [lit "h"; lit "a"]; Found disk; Fetched disk; Cd [lit "h"; lit "b"]] s)) = Some (Stats (lit "1f2e3d4") 0 0 3 0 0 0 0 0).
Proof. split; reflexivity. Qed.
Example C206_detached_case : let s := run [Cd [lit "h"; lit "b"]; Begun; Found disk; Fetched disk] (start home) in
  root s = Some [lit "h"; lit "b"] /\ cache s = Some (Stats (lit "(detached)") 0 0 0 0 1 0 0 0, [lit "h"; lit "b"]) /\ head_of disk [lit "h"; lit "b"] = Some (lit "1f2e3d4").
Proof. split; [|split]; reflexivity. Qed.
Example C209_case : shown (tools (Tool None (reset 0) 0) [Ask true 0; Answer 1 None; Ask true 3; Ask true 6; Answer 7 (Some (lit "prod")); Ask true 9]) = Some (lit "prod") /\
  asked (tools (Tool None (reset 0) 0) [Ask true 0; Answer 1 None; Ask true 3; Ask true 6; Answer 7 (Some (lit "prod")); Ask true 9]) = 0.
Proof. split; reflexivity. Qed.
Example C210_case : status_part (-1) = Some (lit " " ++ [10008%N] ++ lit " -1") /\ time_part (Some 125%N) = Some (lit " 2m5s").
Proof. split; reflexivity. Qed.

Print Assumptions C207_staged.
Print Assumptions C207_modified.
Print Assumptions C207_untracked.
Print Assumptions C207_conflicted.
Print Assumptions C207_renamed.
Print Assumptions C207_deleted.
Print Assumptions C207_branch.
Print Assumptions C207_upstream.
Print Assumptions C207_unseen_refuted.
Print Assumptions C207_not_text_refuted.
Print Assumptions C208_branch.
Print Assumptions C208_detached.
Print Assumptions C208_other_ref_refuted.
Print Assumptions C208_stops_refuted.
Print Assumptions C208_reftable_refuted.
Print Assumptions C206_branch.
Print Assumptions C206_outside.
Print Assumptions C206_settles.
Print Assumptions C206_calm_partial.
Print Assumptions C206_nested_refuted.
Print Assumptions C206_late_refuted.
Print Assumptions C206_looking_refuted.
Print Assumptions C206_detached_refuted.
Print Assumptions C209_stale_refuted.
Print Assumptions C209_profile_refuted.
Print Assumptions C209_answers.
Print Assumptions C209_waits.
Print Assumptions C209_no_question_in_it.
Print Assumptions C209_asks.
Print Assumptions C209_many_refuted.
Print Assumptions C210_status.
Print Assumptions C210_time.
