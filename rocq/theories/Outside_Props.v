(** C195-C198: the editor, ai-commit, what builtins write, gh-notify. *)
From Verif Require Import Base Opts_Model Opts_Spec Opts_Proofs Opts_Props Outside_Model Outside_Spec.
From Verif Require Compgen_Model Answer_Props Palette_Props.

(** ** C195: the editor *)
Lemma drop_nl_spec s : exists k, s = drop_nl s ++ repeat nl k /\ no_nl_end (drop_nl s).
Proof.
  induction s as [|c s (k & E & N)]; [exists 0; split; [reflexivity|intros [|? t]; discriminate]|]. cbn [drop_nl]. destruct (drop_nl s) as [|d r] eqn:D.
  - cbn [app] in E. destruct (N.eqb_spec c 10) as [->|C].
    + exists (S k). split; [cbn; f_equal; exact E|intros [|? t]; discriminate].
    + exists k. split; [cbn; f_equal; exact E|]. intros [|x [|y t]] X; try discriminate. injection X. exact C.
  - exists k. split; [cbn [app]; f_equal; exact E|]. intros [|x t] X; [discriminate|]. injection X as <- X. exact (N _ X).
Qed.
Lemma drop_nl_unique t k : no_nl_end t -> drop_nl (t ++ repeat nl k) = t.
Proof.
  intros N. induction t as [|c t IH]; cbn [app drop_nl].
  - clear. induction k as [|k IH]; [reflexivity|]. cbn [repeat drop_nl] in *. rewrite IH. reflexivity.
  - assert (N' : t <> [] -> no_nl_end t) by (intros _ u ->; exact (N (c :: u) eq_refl)). destruct t as [|d t].
    + assert (Z : drop_nl ([] ++ repeat nl k) = []) by (clear; induction k as [|k IH]; [reflexivity|]; cbn [app repeat drop_nl] in *; rewrite IH; reflexivity). rewrite Z.
      destruct (N.eqb_spec c 10) as [->|]; [destruct (N [] eq_refl)|reflexivity].
    + rewrite IH by (apply N'; discriminate). reflexivity.
Qed.
Lemma drop_nl_id t : drop_nl t = t <-> no_nl_end t.
Proof.
  split; [intros <-; destruct (drop_nl_spec t) as (k & _ & N); exact N|]. intros N. assert (H := drop_nl_unique t 0 N). cbn in H. rewrite app_nil_r in H. exact H.
Qed.
(** What comes back is what the editor left in the file, without the newlines at its end. *)
Theorem C195_comes_back : forall v e w path edit c r, open_editor v e w path edit c = Some r <-> exists argv left_ k,
  editor_run v e w path = Some argv /\ edit argv c = Some left_ /\ left_ = r ++ repeat nl k /\ no_nl_end r.
Proof.
  intros v e w path edit c r. unfold open_editor. destruct (editor_run v e w path) as [argv|].
  - destruct (edit argv c) as [l|] eqn:E; cbn [option_map].
    + split.
      * intros [= <-]. destruct (drop_nl_spec l) as (k & H & N). exists argv, l, k. auto.
      * intros (argv' & l' & k & [= <-] & E' & H & N). assert (X : l = r ++ repeat nl k) by congruence. rewrite X, drop_nl_unique by exact N. reflexivity.
    + split; [discriminate|]. intros (argv' & l' & k & [= <-] & E' & _). congruence.
  - split; [discriminate|]. intros (argv' & l' & k & H & _). discriminate.
Qed.
(** Closing the editor without a change gives back the text, if it does not end in a newline; otherwise its last newlines are lost. *)
Theorem C195_unchanged_partial : forall v e w path edit c argv, editor_run v e w path = Some argv -> edit argv c = Some c -> (open_editor v e w path edit c = Some c <-> no_nl_end c).
Proof.
  intros v e w path edit c argv R E. unfold open_editor. rewrite R, E. cbn [option_map]. rewrite <- drop_nl_id. split; congruence.
Qed.
Theorem C195_unchanged_refuted : forall v e w path edit t argv, editor_run v e w path = Some argv -> edit argv (t ++ [nl]) = Some (t ++ [nl]) -> open_editor v e w path edit (t ++ [nl]) <> Some (t ++ [nl]).
Proof. intros v e w path edit t argv R E H. apply (C195_unchanged_partial _ _ _ _ _ _ _ R E) in H. exact (H t eq_refl). Qed.
(** The editor: the words of VISUAL, else of EDITOR, else the first found, then the file. *)
Theorem C195_which_editor : forall v e w path argv, editor_run v e w path = Some argv -> exists p ws,
  argv = p :: ws ++ [path] /\ Forall (fun x => x <> [] /\ Forall (fun c => is_whitespace c = false) x) (p :: ws) /\
  Words (match v with Some x => x | None => match e with Some x => x | None => if w (lit "emacsclient") then lit "emacsclient -nw" else if w (lit "vim") then lit "vim" else lit "nano" end end) (p :: ws).
Proof.
  intros v e w path argv H. unfold editor_run, editor_command in H. set (s := match v with Some x => x | None => _ end) in *. destruct (split_whitespace s) as [|p ws] eqn:E; [discriminate|]. injection H as <-. exists p, ws. split; [reflexivity|].
  assert (W : Words s (p :: ws)) by (apply Words_iff; exact E). split; [|exact W]. clearbody s. clear E. induction W; constructor; [|assumption]. split; [assumption|]. apply Forall_forall. assumption.
Qed.
(** VISUAL set to nothing: no editor, though EDITOR names one. *)
Theorem C195_empty_visual_refuted : forall v e w path edit c, ~ nonblank v -> open_editor (Some v) e w path edit c = None.
Proof.
  intros v e w path edit c B. unfold open_editor, editor_run, editor_command. rewrite (Words_split v []); [reflexivity|]. constructor. intros x I. destruct (is_whitespace x) eqn:E; [reflexivity|]. destruct B. exists x. auto.
Qed.
(** Quotes in VISUAL are not honoured: no word that is run holds a blank, so a program whose name holds one cannot be named. *)
Theorem C195_blank_in_the_name_refuted : forall v e w path argv x, editor_run v e w path = Some argv -> In x (removelast argv) -> forall c, In c x -> is_whitespace c = false.
Proof.
  intros v e w path argv x H I c J. apply C195_which_editor in H. destruct H as (p & ws & -> & F & _). change (p :: ws ++ [path]) with ((p :: ws) ++ [path]) in I. rewrite removelast_last in I.
  rewrite Forall_forall in F. destruct (F x I) as [_ G]. rewrite Forall_forall in G. exact (G c J).
Qed.
(** eview writes what came back and one newline. *)
Theorem C195_eview : forall v e w path edit c s out, eview (open_editor v e w path edit) c = (s, out) ->
  (s = 1 /\ out = [] /\ open_editor v e w path edit c = None) \/ (s = 0 /\ exists r, open_editor v e w path edit c = Some r /\ out = r ++ [nl]).
Proof.
  intros v e w path edit c s out H. unfold eview in H. destruct (open_editor v e w path edit c) as [r|] eqn:E; [|injection H as <- <-; auto]. right. apply C195_comes_back in E. destruct E as (_ & _ & _ & _ & _ & _ & N).
  destruct (ends_with [10%N] r) eqn:D; injection H as <- <-; [apply ends_with_iff in D; destruct D as [t D]; destruct (N t D)|]. split; [reflexivity|]. exists r. auto.
Qed.
(** Passing text through eview unchanged keeps it exactly when it ends in one newline. *)
Theorem C195_eview_keeps_iff : forall v e w path edit c argv, editor_run v e w path = Some argv -> edit argv c = Some c ->
  (eview (open_editor v e w path edit) c = (0, c) <-> exists t, c = t ++ [nl] /\ no_nl_end t).
Proof.
  intros v e w path edit c argv R E. unfold eview, open_editor. rewrite R, E. cbn [option_map]. destruct (drop_nl_spec c) as (k & H & N).
  destruct (ends_with [10%N] (drop_nl c)) eqn:D; [apply ends_with_iff in D; destruct D as [t D]; destruct (N t D)|]. split.
  - intros [= X]. exists (drop_nl c). auto.
  - intros (t & -> & NT). change [nl] with (repeat nl 1). rewrite drop_nl_unique by exact NT. reflexivity.
Qed.
(** Ctrl-X Ctrl-E: without an editor or with a failing one the line stays as it was. *)
Theorem C195_line_kept : forall v e w path edit line, open_editor v e w path edit line = None -> edit_line (open_editor v e w path edit) line = line.
Proof. intros v e w path edit line H. unfold edit_line. rewrite H. reflexivity. Qed.

(** ** C196: ai-commit *)
Section Commit.
Variable open : str -> option str.
Variable commits : str -> bool.
Notation review := (Outside_Model.review open commits).
Notation ai_commit := (Outside_Model.ai_commit open commits).
Lemma two_iff a x y : str_eqb a x || str_eqb a y = true <-> In a [x; y].
Proof. rewrite orb_true_iff, !str_eqb_eq. cbn. split; [intros [<-|<-]; auto|intros [<-|[<-|[]]]; auto]. Qed.
Lemma two_false a x y : ~ In a [x; y] -> str_eqb a x || str_eqb a y = false.
Proof. intros N. destruct (str_eqb a x || str_eqb a y) eqn:E; [|reflexivity]. apply two_iff in E. contradiction. Qed.
(** the message after some undecided answers *)
Fixpoint edited (message : str) (l : list (answer * str)) : str :=
  match l with
  | [] => message
  | (Typed s, _) :: r => edited (if str_eqb (lower (trim s)) (lit "e") || str_eqb (lower (trim s)) (lit "edit") then match open message with Some e => trim e | None => message end else message) r
  | _ :: r => edited message r
  end.
Lemma review_skip pre : forall m rest, Forall undecided pre -> exists shown, review m (pre ++ rest) = (shown ++ fst (review (edited m pre) rest), snd (review (edited m pre) rest)).
Proof.
  induction pre as [|[a st] pre IH]; intros m rest F.
  - exists []. cbn [app edited]. destruct (review m rest); reflexivity.
  - inversion F as [|? ? (s & E & NY & NN) F']; subst. cbn in E. subst a. cbn [app Outside_Model.review edited]. rewrite (two_false _ _ _ NY), (two_false _ _ _ NN).
    destruct (str_eqb (lower (trim s)) (lit "e") || str_eqb (lower (trim s)) (lit "edit")).
    + destruct (IH (match open m with Some e => trim e | None => m end) rest F') as [shown X]. rewrite X. exists (m :: shown). reflexivity.
    + destruct (IH m rest F') as [shown X]. rewrite X. exists (m :: shown). reflexivity.
Qed.
Lemma review_cases (l : list (answer * str)) : exists pre rest, l = pre ++ rest /\ Forall undecided pre /\
  (rest = [] \/ (exists st r, rest = (ReadError, st) :: r) \/ exists s st r, rest = (Typed s, st) :: r /\ (yes s \/ ~ yes s /\ no s)).
Proof.
  induction l as [|[[s|] st] l IH].
  - exists [], []. auto.
  - destruct (in_dec str_eq_dec (lower (trim s)) [lit "y"; lit "yes"]) as [Y|NY].
    { exists [], ((Typed s, st) :: l). split; [reflexivity|]. split; [constructor|]. right; right. exists s, st, l. auto. }
    destruct (in_dec str_eq_dec (lower (trim s)) [lit "n"; lit "no"]) as [Y|NN].
    { exists [], ((Typed s, st) :: l). split; [reflexivity|]. split; [constructor|]. right; right. exists s, st, l. auto. }
    destruct IH as (pre & rest & -> & F & H). exists ((Typed s, st) :: pre), rest. split; [reflexivity|]. split; [|exact H]. constructor; [|exact F]. exists s. auto.
  - exists [], ((ReadError, st) :: l). split; [reflexivity|]. split; [constructor|]. right; left. eauto.
Qed.
Lemma yes_no s : yes s -> no s -> False.
Proof. unfold yes, no. intros [<-|[<-|[]]] [H|[H|[]]]; discriminate. Qed.
(** A commit is made only after a yes, and with the message that was on the screen then; it holds what is staged at that moment. *)
Theorem C196_commit_after_yes : forall m l shown msg c, review m l = (shown, Committed msg c) -> exists pre s rest, l = pre ++ (Typed s, c) :: rest /\ Forall undecided pre /\ yes s /\
  (exists earlier, shown = earlier ++ [msg]) /\ commits msg = true.
Proof.
  intros m l shown msg c H. destruct (review_cases l) as (pre & rest & E & F & R). rewrite E in H. destruct (review_skip pre m rest F) as [sh X]. rewrite X in H. clear X.
  destruct R as [->|[(st & r & ->)|(s & st & r & -> & [Y|[NY Y]])]]; cbn [Outside_Model.review fst snd] in H; try discriminate.
  - apply two_iff in Y. rewrite Y in H. cbn [fst snd] in H. destruct (commits (edited m pre)) eqn:C; [|discriminate]. injection H as <- <- <-. exists pre, s, r. split; [exact E|]. split; [exact F|]. split; [apply two_iff; exact Y|]. split; [eexists; reflexivity|exact C].
  - rewrite (two_false _ _ _ NY), (proj2 (two_iff _ _ _) Y) in H. discriminate.
Qed.
(** A yes commits, at once. *)
Theorem C196_yes_commits : forall m pre s c rest, Forall undecided pre -> yes s -> commits (edited m pre) = true -> exists shown, review m (pre ++ (Typed s, c) :: rest) = (shown ++ [edited m pre], Committed (edited m pre) c).
Proof.
  intros m pre s c rest F Y C. destruct (review_skip pre m ((Typed s, c) :: rest) F) as [sh X]. rewrite X. clear X. cbn [Outside_Model.review]. rewrite (proj2 (two_iff _ _ _) Y), C. exists sh. reflexivity.
Qed.
(** A no leaves without a commit. *)
Theorem C196_no_leaves : forall m pre s c rest, Forall undecided pre -> no s -> exists shown, review m (pre ++ (Typed s, c) :: rest) = (shown, Left 0).
Proof.
  intros m pre s c rest F Y. destruct (review_skip pre m ((Typed s, c) :: rest) F) as [sh X]. rewrite X. clear X. cbn [Outside_Model.review]. rewrite two_false by (intros Z; exact (yes_no s Z Y)). rewrite (proj2 (two_iff _ _ _) Y). eexists. reflexivity.
Qed.
(** It ends exactly if there is a yes, a no or a read error; at the end of the input the prompt is repeated forever. *)
Theorem C196_end_of_input_refuted : forall m l, snd (review m l) = Endless <-> Forall undecided l.
Proof.
  intros m l. split.
  - intros H. destruct (review_cases l) as (pre & rest & -> & F & R). destruct (review_skip pre m rest F) as [sh X]. rewrite X in H. cbn [snd] in H. clear X.
    destruct R as [->|[(st & r & ->)|(s & st & r & -> & [Y|[NY Y]])]]; [rewrite app_nil_r; exact F| | |]; cbn [Outside_Model.review snd] in H; try discriminate.
    + rewrite (proj2 (two_iff _ _ _) Y) in H. cbn [snd] in H. destruct (commits _); discriminate.
    + rewrite (two_false _ _ _ NY), (proj2 (two_iff _ _ _) Y) in H. discriminate.
  - intros F. destruct (review_skip l m [] F) as [sh X]. rewrite app_nil_r in X. rewrite X. reflexivity.
Qed.
(** Without staged changes, a key or a client nothing is sent and nothing is asked. *)
Theorem C196_nothing_sent : forall diff key client reply args answers, (diff = None \/ (exists d, diff = Some d /\ ~ nonblank d) \/ key = false \/ client = false) ->
  ai_commit diff key client reply args answers = ([], [], Left 1).
Proof.
  intros diff key client reply args answers H. unfold Outside_Model.ai_commit. destruct diff as [d|]; [|reflexivity]. destruct (trim d) as [|c t] eqn:T; [reflexivity|].
  destruct H as [H|[(d' & [= <-] & B)|[->| ->]]]; [discriminate| | |].
  - destruct B. exists c. assert (I : In c (trim d)) by (rewrite T; left; reflexivity). split.
    + apply Answer_Props.trim_in. exact I.
    + exact (proj1 (Answer_Props.trim_ends d) c t T).
  - reflexivity.
  - destruct key; reflexivity.
Qed.
(** What is sent is all that is staged, secrets and all, once. *)
Theorem C196_all_is_sent_refuted : forall d reply args answers, nonblank d -> fst (fst (ai_commit (Some d) true true reply args answers)) = [(d, hd_error args)].
Proof.
  intros d reply args answers (c & I & W). unfold Outside_Model.ai_commit. destruct (trim d) as [|x t] eqn:T; [exfalso|].
  - apply (Palette_Props.trim_keeps_in d c W) in I. rewrite T in I. destruct I.
  - cbn [negb]. destruct (reply d (hd_error args)); [destruct (review _ _)|]; reflexivity.
Qed.
(** The commit may hold something else than the changes the message is about. *)
Theorem C196_other_changes_refuted : forall d c reply m args, nonblank d -> reply d (hd_error args) = Some m -> commits (trim m) = true ->
  snd (ai_commit (Some d) true true reply args [(Typed (lit "y"), c)]) = Committed (trim m) c.
Proof.
  intros d c reply m args (x & I & W) R C. unfold Outside_Model.ai_commit. destruct (trim d) as [|y t] eqn:T; [apply (Palette_Props.trim_keeps_in d x W) in I; rewrite T in I; destruct I|]. cbn [negb]. rewrite R. cbn [Outside_Model.review].
  replace (str_eqb (lower (trim (lit "y"))) (lit "y")) with true by reflexivity. cbn [orb]. rewrite C. reflexivity.
Qed.
End Commit.

(** ** C197: what builtins write *)
Lemma close_of t fd n : file_of (filter (fun x => negb (fst x =? fd)) t) n = if n =? fd then None else file_of t n.
Proof.
  induction t as [|[k f] t IH]; cbn [filter file_of fst]; [destruct (n =? fd); reflexivity|]. destruct (Nat.eqb_spec k fd) as [->|K]; cbn [negb].
  - rewrite IH. destruct (Nat.eqb_spec n fd) as [E|D]; [reflexivity|]. destruct (Nat.eqb_spec fd n); [congruence|reflexivity].
  - cbn [file_of]. rewrite IH. destruct (Nat.eqb_spec k n) as [E|D]; [|reflexivity]. destruct (Nat.eqb_spec n fd); [congruence|reflexivity].
Qed.
(** A message that is taken goes, with one newline, to the end of the file the descriptor stands for; nothing else changes. *)
Theorem C197_written : forall fd msg s f, file_of (table s) fd = Some f -> exists s', write_line true fd msg s = (true, s') /\ table s' = table s /\
  data s' f = data s f ++ msg ++ [nl] /\ forall g, g <> f -> data s' g = data s g.
Proof.
  intros fd msg s f H. unfold write_line. rewrite H. eexists. split; [reflexivity|]. cbn [table data]. rewrite Nat.eqb_refl. split; [reflexivity|]. split; [reflexivity|]. intros g D. destruct (Nat.eqb_spec g f); [congruence|reflexivity].
Qed.
(** Success is reported only if the message was written, and nothing is written otherwise. *)
Theorem C197_reported : forall ok fd msg s b s', write_line ok fd msg s = (b, s') -> (b = true -> exists f, file_of (table s) fd = Some f /\ data s' f = data s f ++ msg ++ [nl]) /\ (b = false -> data s' = data s).
Proof.
  intros ok fd msg s b s' H. unfold write_line in H. destruct (file_of (table s) fd) as [f|] eqn:F; [destruct ok|]; injection H as <- <-; (split; [|discriminate || reflexivity]); try discriminate.
  intros _. exists f. cbn [data]. rewrite Nat.eqb_refl. auto.
Qed.
(** A message that cannot be written closes the descriptor under everyone else: every later message is lost. *)
Theorem C197_failure_closes_refuted : forall fd msg s, file_of (table s) fd <> None -> let s' := snd (write_line false fd msg s) in
  file_of (table s') fd = None /\ (forall n, n <> fd -> file_of (table s') n = file_of (table s) n) /\ forall ok m, write_line ok fd m s' = (false, s').
Proof.
  intros fd msg s H s'. unfold write_line in s'. destruct (file_of (table s) fd) as [f|]; [|congruence]. subst s'. cbn [snd close table].
  assert (A : file_of (filter (fun x => negb (fst x =? fd)) (table s)) fd = None) by (rewrite close_of, Nat.eqb_refl; reflexivity). split; [exact A|]. split.
  - intros n D. rewrite close_of. destruct (Nat.eqb_spec n fd); [congruence|reflexivity].
  - intros ok m. unfold write_line at 1. cbn [close table]. rewrite A. reflexivity.
Qed.
Lemma lowest_at fuel : forall n t k, (forall i, n <= i -> i < n + k -> file_of t i <> None) -> file_of t (n + k) = None -> k <= fuel -> lowest fuel n t = n + k.
Proof.
  induction fuel as [|fuel IH]; intros n t k B E L; cbn [lowest]; [lia|]. destruct k as [|k].
  - rewrite Nat.add_0_r in *. rewrite E. reflexivity.
  - destruct (file_of t n) eqn:F; [|destruct (B n); [lia|lia|exact F]]. rewrite (IH (Datatypes.S n) t k); [lia| |replace (Datatypes.S n + k) with (n + Datatypes.S k) by lia; exact E|lia]. intros i I J. apply B; lia.
Qed.
Lemma file_of_in t n f : file_of t n = Some f -> In n (map fst t).
Proof. induction t as [|[k g] t IH]; cbn [file_of map fst]; [discriminate|]. destruct (Nat.eqb_spec k n) as [->|D]; [left; reflexivity|]. intros H. right. apply IH. exact H. Qed.
Lemma open_small t k : (forall i, i < k -> file_of t i <> None) -> k <= length t.
Proof.
  intros B. rewrite <- (map_length fst t), <- (seq_length k 0). apply NoDup_incl_length; [apply seq_NoDup|]. intros i I. apply in_seq in I. destruct (file_of t i) as [f|] eqn:F; [apply (file_of_in t i f F)|]. destruct (B i); [lia|exact F].
Qed.
(** A file opened next takes that number, and what a builtin says from then on is appended to it. *)
Theorem C197_goes_into_another_file_refuted : forall fd msg m s f g, file_of (table s) fd = Some f -> (forall i, i < fd -> file_of (table s) i <> None) ->
  let s1 := snd (write_line false fd msg s) in let '(n, s2) := open_file g s1 in n = fd /\ let '(ok, s3) := write_line true fd m s2 in ok = true /\ data s3 g = data s g ++ m ++ [nl].
Proof.
  intros fd msg m s f g H B s1. destruct (C197_failure_closes_refuted fd msg s) as (A & K & _); [rewrite H; discriminate|]. fold s1 in A, K.
  assert (D : data s1 = data s) by (subst s1; unfold write_line; rewrite H; reflexivity). clearbody s1. unfold open_file.
  assert (L : lowest (length (table s1)) 0 (table s1) = fd).
  { assert (C : forall i, i < fd -> file_of (table s1) i <> None) by (intros i I; rewrite K by lia; apply B; exact I). rewrite (lowest_at _ 0 (table s1) fd); [reflexivity| |exact A|apply open_small; exact C]. intros i _ I. apply C. exact I. }
  rewrite L. split; [reflexivity|]. unfold write_line. cbn [table file_of data]. rewrite Nat.eqb_refl. split; [reflexivity|]. cbn [data]. rewrite Nat.eqb_refl, D. reflexivity.
Qed.

(** ** C198: gh-notify *)
Lemma text_iff m k s : text_field m k = Some s <-> has_text m k s.
Proof.
  unfold text_field, field, has_text. destruct (Compgen_Model.get m (lit k)) as [[| | |t| |]|]; split; intros H; congruence.
Qed.
(** The reader takes exactly the objects that describe a notification, _updated_at included. *)
Lemma note_iff j n : note_of j = Some n <-> describes j n.
Proof.
  unfold describes. split.
  - intros H. unfold note_of in H. destruct j as [| | | | |m]; try discriminate. destruct (text_field m "id") as [i|] eqn:E1; [|discriminate]. destruct (field m "subject") as [sj|] eqn:E2; [|discriminate].
    destruct (field m "repository") as [rp|] eqn:E3; [|discriminate]. destruct (text_field m "reason") as [rs|] eqn:E4; [|discriminate]. destruct (text_field m "_updated_at") as [ua|] eqn:E5; [|discriminate]. destruct (unread_of m) as [u|] eqn:E6; [|discriminate].
    destruct (subject_of sj) as [[t url]|] eqn:E7; [|discriminate]. destruct (repository_of rp) as [[nm h]|] eqn:E8; [|discriminate]. injection H as <-. cbn [note_id title subject_url full_name html_url reason unread].
    unfold subject_of in E7. destruct sj as [| | | | |sm]; try discriminate. unfold repository_of in E8. destruct rp as [| | | | |rm]; try discriminate.
    destruct (text_field sm "title") as [t'|] eqn:F1; [|discriminate]. destruct (text_field sm "type") as [k|] eqn:F2; [|discriminate].
    destruct (text_field rm "full_name") as [n'|] eqn:F3; [|discriminate]. destruct (text_field rm "html_url") as [h'|] eqn:F4; [|discriminate]. injection E8 as <- <-.
    exists m, sm, rm. split; [reflexivity|]. split; [apply text_iff; exact E1|]. split; [apply text_iff; exact E4|]. split; [exists ua; apply text_iff; exact E5|]. split; [exact E2|].
    assert (X : t' = t /\ match url with Some u0 => has_text sm "url" u0 | None => Compgen_Model.get sm (lit "url") = None \/ Compgen_Model.get sm (lit "url") = Some Compgen_Model.Null end).
    { unfold has_text. unfold field in E7. destruct (Compgen_Model.get sm (lit "url")) as [[| | |u'| |]|] eqn:F5; try discriminate; injection E7 as <- <-; auto. }
    destruct X as [<- X]. split; [apply text_iff; exact F1|]. split; [exists k; apply text_iff; exact F2|]. split; [exact X|]. split; [exact E3|]. split; [apply text_iff; exact F3|]. split; [apply text_iff; exact F4|].
    unfold unread_of, field in E6. destruct (Compgen_Model.get m (lit "unread")) as [[|b| | | |]|]; try discriminate; injection E6 as <-; auto.
  - intros (m & sm & rm & -> & H1 & H2 & (ua & H3) & H4 & H5 & (k & H6) & H7 & H8 & H9 & H10 & H11). unfold note_of. apply text_iff in H1, H2, H3, H5, H6, H9, H10. rewrite H1, H2, H3. unfold field at 1 2. rewrite H4, H8.
    unfold subject_of. rewrite H5, H6. unfold repository_of. rewrite H9, H10.
    assert (U : unread_of m = Some (unread n)) by (unfold unread_of, field; destruct H11 as [[-> ->]| ->]; reflexivity). rewrite U. unfold field. destruct n as [a b [c|] d e f g]; cbn [subject_url] in H7.
    + unfold has_text in H7. rewrite H7. reflexivity.
    + destruct H7 as [-> | ->]; reflexivity.
Qed.
Lemma notes_iff l : forall ns, notes_of l = Some ns <-> Forall2 describes l ns.
Proof.
  induction l as [|j l IH]; intros ns; cbn [notes_of].
  - split; [intros [= <-]; constructor|]. intros H. inversion H. reflexivity.
  - split.
    + destruct (note_of j) as [n|] eqn:E; [|discriminate]. destruct (notes_of l) as [r|]; [|discriminate]. intros [= <-]. constructor; [apply note_iff; exact E|]. apply IH. reflexivity.
    + intros H. inversion H as [|? n ? r D F]; subst. apply note_iff in D. apply IH in F. rewrite D, F. reflexivity.
Qed.
Lemma fetched_iff a ns : fetched a = Some ns <-> exists l all, a = Some (Compgen_Model.Arr l) /\ Forall2 describes l all /\ ns = filter unread all.
Proof.
  unfold fetched. destruct a as [[| | | |l|]|]; try (split; [discriminate|intros (? & ? & [= ] & _)]). split.
  - destruct (notes_of l) as [all|] eqn:E; [|discriminate]. intros [= <-]. exists l, all. split; [reflexivity|]. split; [apply notes_iff; exact E|reflexivity].
  - intros (l' & all & [= <-] & F & ->). apply notes_iff in F. rewrite F. reflexivity.
Qed.
Lemma notify_well : well_named notify_opts.
Proof. names; plain. Qed.
Lemma token_iff w t : (match shell_var w with Some t => Some t | None => match lisp_var w with Some t => Some t | None => env_token w end end) = Some t <-> token_of w t.
Proof.
  unfold token_of. destruct (shell_var w) as [a|], (lisp_var w) as [b|], (env_token w) as [c|]; split; intros H; try (injection H as <-); auto 6; try discriminate; destruct H as [H|[[H K]|[H [K L]]]]; congruence.
Qed.
Lemma values_iff g : forall p, In p (values g (lit "repo")) <-> In (lit "repo", Some p) g.
Proof.
  intros p. unfold values. rewrite in_flat_map. split.
  - intros ([k v] & I & J). cbn [fst snd] in J. destruct (str_eqb k (lit "repo")) eqn:E; [|destruct J]. apply str_eqb_eq in E. subst k. destruct v as [v|]; [|destruct J]. destruct J as [<-|[]]. exact I.
  - intros I. exists (lit "repo", Some p). split; [exact I|]. cbn [fst snd]. rewrite str_eqb_refl. left. reflexivity.
Qed.
Lemma matches_iff ps n : ps <> [] -> (existsb (fun p => contains (lower p) (lower (full_name n))) ps = true <-> matches ps n).
Proof.
  intros N. unfold matches. rewrite existsb_exists. split; [intros (p & I & H); right; eauto|]. intros [->|H]; [congruence|exact H].
Qed.
Lemma keeps_filter {A} (P : A -> Prop) f l : (forall x, f x = true <-> P x) -> Keeps P l (filter f l).
Proof.
  intros H. induction l as [|x l IH]; cbn [filter]; [constructor|]. destruct (f x) eqn:E; constructor; try exact IH; [apply H; exact E|]. intros X. apply H in X. congruence.
Qed.
Lemma keeps_unique {A} (P : A -> Prop) l k : Keeps P l k -> forall k', Keeps P l k' -> k' = k.
Proof. intros K. induction K as [|x l k X K IH|x l k X K IH]; intros k' K'; inversion K'; subst; try contradiction; [reflexivity| |]; [f_equal|]; apply IH; assumption. Qed.
Lemma keeps_ext {A} (P Q : A -> Prop) l k : (forall x, P x <-> Q x) -> Keeps P l k -> Keeps Q l k.
Proof. intros H K. induction K; constructor; auto; try (apply H; assumption). intros X. apply H in X. contradiction. Qed.
Lemma keeps_mem {A} (P : A -> Prop) l k : Keeps P l k -> forall x, In x k <-> In x l /\ P x.
Proof.
  intros K. induction K as [|y l k Y K IH|y l k Y K IH]; intros x; cbn [In]; [tauto| |].
  - rewrite IH. split; [intros [<-|[I X]]; auto|]. intros [[->|I] X]; auto.
  - rewrite IH. split; [intros [I X]; auto|]. intros [[->|I] X]; [contradiction|auto].
Qed.
Lemma to_list_b ps n : unread n && (match ps with [] => true | _ => existsb (fun p => contains (lower p) (lower (full_name n))) ps end) = true <-> to_list ps n.
Proof.
  unfold to_list. rewrite andb_true_iff. destruct ps as [|p ps]; [unfold matches; tauto|]. rewrite matches_iff by discriminate. tauto.
Qed.
Lemma filter_two {A} (f h : A -> bool) l : filter h (filter f l) = filter (fun x => f x && h x) l.
Proof. induction l as [|x l IH]; cbn [filter]; [reflexivity|]. destruct (f x); cbn [andb filter]; [destruct (h x); rewrite IH; reflexivity|exact IH]. Qed.
Lemma filter_true {A} (l : list A) : filter (fun _ => true) l = l.
Proof. induction l as [|x l IH]; cbn [filter]; [reflexivity|]. rewrite IH. reflexivity. Qed.
Lemma filtered_eq ps all : filtered ps (filter unread all) = filter (fun n => unread n && (match ps with [] => true | _ => existsb (fun p => contains (lower p) (lower (full_name n))) ps end)) all.
Proof. unfold filtered. destruct ps as [|p ps]; [|apply filter_two]. rewrite <- filter_two. symmetry. apply filter_true. Qed.
Lemma filtered_keeps ps all : Keeps (to_list ps) all (filtered ps (filter unread all)).
Proof. rewrite filtered_eq. apply keeps_filter. apply to_list_b. Qed.
Lemma matches_ext ps qs n : (forall p, In p ps <-> In p qs) -> matches ps n -> matches qs n.
Proof.
  intros H [->|(p & I & C)]; [left|right; exists p; split; [apply H; exact I|exact C]]. destruct qs as [|q qs]; [reflexivity|]. destruct (proj2 (H q) (or_introl eq_refl)).
Qed.
Lemma describes_fun l : forall a b, Forall2 describes l a -> Forall2 describes l b -> a = b.
Proof. intros a b A B. apply notes_iff in A, B. congruence. Qed.
Lemma offered_iff g w ns : offered g w ns <-> option_map (filtered (values g (lit "repo"))) (fetched (service w)) = Some ns.
Proof.
  unfold offered. split.
  - intros (l & all & ps & S & F & P & K). assert (X : fetched (service w) = Some (filter unread all)) by (apply fetched_iff; exists l, all; auto). rewrite X. cbn [option_map]. f_equal.
    apply (keeps_unique (to_list ps) all); [exact K|]. apply (keeps_ext (to_list (values g (lit "repo")))); [|apply filtered_keeps]. intros n. unfold to_list.
    assert (E : forall p, In p ps <-> In p (values g (lit "repo"))) by (intros p; rewrite values_iff; apply P).
    split; intros [U M]; (split; [exact U|]); [apply (matches_ext _ _ n (fun p => iff_sym (E p)) M)|apply (matches_ext _ _ n E M)].
  - destruct (fetched (service w)) as [u|] eqn:E; [|discriminate]. apply fetched_iff in E. destruct E as (l & all & S & F & ->). cbn [option_map]. intros [= <-].
    exists l, all, (values g (lit "repo")). split; [exact S|]. split; [exact F|]. split; [intros p; apply values_iff|]. apply filtered_keeps.
Qed.
Lemma page_iff w n u : page w n u <-> u = match resolve w (subject_url n) with Some x => x | None => html_url n end.
Proof.
  unfold page, resolve. destruct (subject_url n) as [s|].
  - destruct (ask w s) as [[| | | | |m]|] eqn:A.
    6: { destruct (text_field m "html_url") as [v|] eqn:T.
         - split.
           + intros [(s' & m' & [= <-] & A' & H)|[-> H]]; [|apply text_iff in T; destruct (H s m v eq_refl A T)]. assert (m' = m) by congruence. subst m'. apply text_iff in H. congruence.
           + intros ->. left. exists s, m. split; [reflexivity|]. split; [exact A|apply text_iff; exact T].
         - split.
           + intros [(s' & m' & [= <-] & A' & H)|[-> H]]; [|reflexivity]. assert (m' = m) by congruence. subst m'. apply text_iff in H. congruence.
           + intros ->. right. split; [reflexivity|]. intros s' m' v [= <-] A' H. assert (m' = m) by congruence. subst m'. apply text_iff in H. congruence. }
    all: split; [intros [(s' & m' & [= <-] & A' & H)|[-> H]]; [congruence|reflexivity]|intros ->; right; split; [reflexivity|]; intros s' m' v [= <-] A'; congruence].
  - split; [intros [(s' & m' & [=] & _)|[-> _]]; reflexivity|]. intros ->. right. split; [reflexivity|]. intros s m v [=].
Qed.
Lemma entry_in ns text n : entry_of ns text = Some n -> In n ns /\ display n = text.
Proof. unfold entry_of. intros H. apply find_some in H. destruct H as [I E]. split; [apply in_rev; exact I|apply str_eqb_eq; exact E]. Qed.
Lemma entry_last a n b : (forall k, In k b -> display k <> display n) -> entry_of (a ++ n :: b) (display n) = Some n.
Proof.
  intros H. unfold entry_of. rewrite rev_app_distr. cbn [rev]. rewrite <- app_assoc. assert (G : forall k, In k (rev b) -> display k <> display n) by (intros k I; apply H; apply in_rev; exact I). clear H. revert G. generalize (rev b) as l.
  induction l as [|x l IH]; intros G; cbn [app List.find].
  - rewrite str_eqb_refl. reflexivity.
  - destruct (str_eqb (display x) (display n)) eqn:E; [apply str_eqb_eq in E; destruct (G x (or_introl eq_refl) E)|]. apply IH. intros k I. apply G. right. exact I.
Qed.
(** Nothing is asked of the service, opened or marked without a terminal, a token and options that make sense; every request carries the token. *)
Theorem C198_asks_only : forall usage argv w s out e r, gh_notify usage argv w = (s, out, e) -> In r (requests_made e) -> exists g t,
  quiet argv g /\ on_terminal w = true /\ token_of w t /\ snd r = t /\
  (fst r = (lit "GET", list_url) \/ exists ns n, offered g w ns /\ In n ns /\ pick w (map display ns) = Some (display n) /\
     ((exists u, subject_url n = Some u /\ fst r = (lit "GET", u)) \/ (gave g "mark-read" /\ fst r = (lit "PATCH", thread_url (note_id n))))).
Proof.
  intros usage argv w s out e r H I. unfold gh_notify in H. destruct (parse notify_opts argv) as [f|[g f]] eqn:P; [injection H as <- <- <-; destruct I|]. apply (parse_iff _ notify_well) in P.
  destruct (present g (lit "help")) eqn:NH; [injection H as <- <- <-; destruct I|]. destruct (on_terminal w) eqn:T; cbn [negb] in H; [|injection H as <- <- <-; destruct I].
  destruct (match shell_var w with Some t => Some t | None => match lisp_var w with Some t => Some t | None => env_token w end end) as [t|] eqn:TK; [|injection H as <- <- <-; destruct I]. apply token_iff in TK.
  exists g, t. split; [exists f; split; [exact P|intros X; apply present_iff in X; congruence]|]. split; [reflexivity|]. split; [exact TK|].
  destruct (fetched (service w)) as [all|] eqn:F; [|injection H as <- <- <-; destruct I as [<-|[]]; auto].
  assert (O : offered g w (filtered (values g (lit "repo")) all)) by (apply offered_iff; rewrite F; reflexivity).
  destruct (filtered (values g (lit "repo")) all) as [|n0 ns0] eqn:FN; [injection H as <- <- <-; destruct I as [<-|[]]; auto|]. rewrite <- FN in *. clear FN n0 ns0. set (ns := filtered (values g (lit "repo")) all) in *. clearbody ns.
  destruct (pick w (map display ns)) as [text|] eqn:PK; [|injection H as <- <- <-; destruct I as [<-|[]]; auto].
  destruct (entry_of ns text) as [n|] eqn:EN; [|injection H as <- <- <-; destruct I as [<-|[]]; auto]. apply entry_in in EN. destruct EN as [IN <-].
  assert (Q : forall r, In r ([(lit "GET", list_url, t)] ++ match subject_url n with Some u => [(lit "GET", u, t)] | None => [] end) -> snd r = t /\ (fst r = (lit "GET", list_url) \/ exists u, subject_url n = Some u /\ fst r = (lit "GET", u))).
  { intros q J. apply in_app_or in J. destruct J as [[<-|[]]|J]; [auto|]. destruct (subject_url n) as [u|]; [|destruct J]. destruct J as [<-|[]]. split; [reflexivity|]. right. exists u. auto. }
  assert (Q2 : forall r, snd r = t /\ (fst r = (lit "GET", list_url) \/ exists u, subject_url n = Some u /\ fst r = (lit "GET", u)) -> snd r = t /\ (fst r = (lit "GET", list_url) \/ exists ns n, offered g w ns /\ In n ns /\ pick w (map display ns) = Some (display n) /\
     ((exists u, subject_url n = Some u /\ fst r = (lit "GET", u)) \/ (gave g "mark-read" /\ fst r = (lit "PATCH", thread_url (note_id n)))))).
  { intros q [A [B|B]]; split; auto. right. exists ns, n. auto. }
  destruct (opener w); cbn [negb] in H; [|injection H as <- <- <-; apply Q2, Q; exact I].
  destruct (present g (lit "mark-read")) eqn:M; injection H as <- <- <-; [|apply Q2, Q; exact I]. assert (I' : In r (([(lit "GET", list_url, t)] ++ match subject_url n with Some u => [(lit "GET", u, t)] | None => [] end) ++ [(lit "PATCH", thread_url (note_id n), t)])) by exact I. clear I. rename I' into I. apply in_app_or in I. destruct I as [I|[<-|[]]]; [apply Q2, Q; exact I|]. split; [reflexivity|]. right. exists ns, n. split; [exact O|]. split; [exact IN|]. split; [exact PK|]. right. split; [apply present_iff; exact M|reflexivity].
Qed.
Lemma parsed argv g : quiet argv g -> exists f, parse notify_opts argv = inr (g, f) /\ present g (lit "help") = false.
Proof. intros (f & P & NH). exists f. split; [apply (parse_iff _ notify_well); exact P|apply present_not; exact NH]. Qed.
Lemma runs usage argv g w t ns text n : quiet argv g -> on_terminal w = true -> token_of w t -> offered g w ns -> pick w (map display ns) = Some text -> entry_of ns text = Some n ->
  gh_notify usage argv w =
    (let asked' := [(lit "GET", list_url, t)] ++ match subject_url n with Some u => [(lit "GET", u, t)] | None => [] end in
     let target := match resolve w (subject_url n) with Some u => u | None => html_url n end in
     if negb (opener w) then (1, [ErrLine (lit "gh-notify: Failed to open browser")], Effects asked' [] [])
     else if present g (lit "mark-read") then
       (0, [OutLine (lit "Marked notification " ++ note_id n ++ lit " as read.")],
        Effects (asked' ++ [(lit "PATCH", thread_url (note_id n), t)]) [target] (if marking w then [note_id n] else []))
     else (0, [], Effects asked' [target] [])).
Proof.
  intros Q T K O PK EN. destruct (parsed argv g Q) as (f & P & NH). unfold gh_notify. rewrite P, NH, T. cbn [negb]. apply token_iff in K. rewrite K. apply offered_iff in O. destruct (fetched (service w)) as [all|]; [|discriminate]. cbn [option_map] in O. injection O as O. rewrite O.
  destruct ns as [|n0 ns]; [discriminate|]. rewrite PK, EN. reflexivity.
Qed.
(** What is opened is the page of a notification that was offered and whose text was taken. *)
Theorem C198_opened : forall usage argv w s out e u, gh_notify usage argv w = (s, out, e) -> In u (opened e) -> s = 0 /\ opened e = [u] /\ exists g ns n,
  quiet argv g /\ on_terminal w = true /\ offered g w ns /\ In n ns /\ pick w (map display ns) = Some (display n) /\ page w n u.
Proof.
  intros usage argv w s out e r H I. unfold gh_notify in H. destruct (parse notify_opts argv) as [f|[g f]] eqn:P; [injection H as <- <- <-; destruct I|]. apply (parse_iff _ notify_well) in P.
  destruct (present g (lit "help")) eqn:NH; [injection H as <- <- <-; destruct I|]. destruct (on_terminal w) eqn:T; cbn [negb] in H; [|injection H as <- <- <-; destruct I].
  destruct (match shell_var w with Some t => Some t | None => match lisp_var w with Some t => Some t | None => env_token w end end) as [t|] eqn:TK; [|injection H as <- <- <-; destruct I].
  destruct (fetched (service w)) as [all|] eqn:F; [|injection H as <- <- <-; destruct I].
  assert (O : offered g w (filtered (values g (lit "repo")) all)) by (apply offered_iff; rewrite F; reflexivity).
  destruct (filtered (values g (lit "repo")) all) as [|n0 ns0] eqn:FN; [injection H as <- <- <-; destruct I|]. rewrite <- FN in *. clear FN n0 ns0. set (ns := filtered (values g (lit "repo")) all) in *. clearbody ns.
  destruct (pick w (map display ns)) as [text|] eqn:PK; [|injection H as <- <- <-; destruct I].
  destruct (entry_of ns text) as [n|] eqn:EN; [|injection H as <- <- <-; destruct I]. apply entry_in in EN. destruct EN as [IN <-].
  assert (R : r = match resolve w (subject_url n) with Some u => u | None => html_url n end -> exists g ns n, quiet argv g /\ true = true /\ offered g w ns /\ In n ns /\ pick w (map display ns) = Some (display n) /\ page w n r).
  { intros E. exists g, ns, n. split; [exists f; split; [exact P|intros X; apply present_iff in X; congruence]|]. split; [reflexivity|]. split; [exact O|]. split; [exact IN|]. split; [exact PK|]. apply page_iff. exact E. }
  destruct (opener w); cbn [negb] in H; [|injection H as <- <- <-; destruct I].
  destruct (present g (lit "mark-read")) eqn:M; injection H as <- <- <-; destruct I as [I|[]]; subst r; (split; [reflexivity|]; split; [reflexivity|]; apply R; reflexivity).
Qed.
(** Taking a text opens the notification it stands for, if no two read the same. *)
Theorem C198_opens_the_taken_one_partial : forall usage argv w g t ns n, quiet argv g -> on_terminal w = true -> token_of w t -> offered g w ns -> NoDup (map display ns) -> In n ns -> pick w (map display ns) = Some (display n) -> opener w = true ->
  exists out e u, gh_notify usage argv w = (0, out, e) /\ opened e = [u] /\ page w n u.
Proof.
  intros usage argv w g t ns n Q T K O D I PK OP. assert (EN : entry_of ns (display n) = Some n).
  { apply in_split in I. destruct I as (a & b & ->). apply entry_last. intros k J E. rewrite map_app in D. cbn [map] in D. apply NoDup_remove_2 in D. apply D. apply in_or_app. right. rewrite <- E. apply in_map. exact J. }
  rewrite (runs usage argv g w t ns _ n Q T K O PK EN). cbv zeta. rewrite OP. cbn [negb]. destruct (present g (lit "mark-read")); eexists _, _, _; (split; [reflexivity|]; split; [reflexivity|]; apply page_iff; reflexivity).
Qed.
(** Of two that read the same, the later is opened whichever was taken. *)
Theorem C198_same_text_refuted : forall usage argv w g t a n1 b n2 c, quiet argv g -> on_terminal w = true -> token_of w t -> offered g w (a ++ n1 :: b ++ n2 :: c) -> display n1 = display n2 -> (forall k, In k c -> display k <> display n2) ->
  pick w (map display (a ++ n1 :: b ++ n2 :: c)) = Some (display n1) -> opener w = true ->
  exists out e u, gh_notify usage argv w = (0, out, e) /\ opened e = [u] /\ page w n2 u.
Proof.
  intros usage argv w g t a n1 b n2 c Q T K O E L PK OP. rewrite E in PK.
  assert (EN : entry_of (a ++ n1 :: b ++ n2 :: c) (display n2) = Some n2) by (replace (a ++ n1 :: b ++ n2 :: c) with ((a ++ n1 :: b) ++ n2 :: c) by (rewrite <- app_assoc; reflexivity); apply entry_last; exact L).
  rewrite (runs usage argv g w t _ _ n2 Q T K O PK EN). cbv zeta. rewrite OP. cbn [negb]. destruct (present g (lit "mark-read")); eexists _, _, _; (split; [reflexivity|]; split; [reflexivity|]; apply page_iff; reflexivity).
Qed.
(** The service names the time updated_at; a notification without _updated_at makes the whole list unreadable. *)
Theorem C198_unreadable_refuted : forall usage argv w g t l m, quiet argv g -> on_terminal w = true -> token_of w t -> service w = Some (Compgen_Model.Arr l) -> In (Compgen_Model.Obj m) l -> Compgen_Model.get m (lit "_updated_at") = None ->
  exists out, gh_notify usage argv w = (1, out, Effects [(lit "GET", list_url, t)] [] []).
Proof.
  intros usage argv w g t l m Q T K S I U. destruct (parsed argv g Q) as (f & P & NH). unfold gh_notify. rewrite P, NH, T. cbn [negb]. apply token_iff in K. rewrite K.
  destruct (fetched (service w)) as [all|] eqn:F; [exfalso|eexists; reflexivity]. apply fetched_iff in F. destruct F as (l' & all' & S' & F & _). assert (l' = l) by congruence. subst l'.
  clear - I U F. induction F as [|j n l ns D F IH]; [destruct I|]. destruct I as [->|I]; [|exact (IH I)]. destruct D as (m' & sm & rm & [= <-] & _ & _ & (u & X) & _). unfold has_text in X. congruence.
Qed.
(** The token is sent to whatever address the notification names. *)
Theorem C198_token_sent_refuted : forall usage argv w g t ns n u, quiet argv g -> on_terminal w = true -> token_of w t -> offered g w ns -> pick w (map display ns) = Some (display n) -> entry_of ns (display n) = Some n -> subject_url n = Some u ->
  In (lit "GET", u, t) (requests_made (snd (gh_notify usage argv w))).
Proof.
  intros usage argv w g t ns n u Q T K O PK EN U. rewrite (runs usage argv g w t ns _ n Q T K O PK EN). cbv zeta. rewrite U. destruct (opener w); cbn [negb]; [destruct (present g (lit "mark-read"))|]; cbn; auto.
Qed.
(** A notification is marked only with -m, and then the one that was opened. *)
Theorem C198_marked : forall usage argv w s out e i, gh_notify usage argv w = (s, out, e) -> In i (marked e) -> marked e = [i] /\ opened e <> [] /\ marking w = true /\ exists g t ns n,
  quiet argv g /\ gave g "mark-read" /\ token_of w t /\ offered g w ns /\ In n ns /\ pick w (map display ns) = Some (display n) /\ note_id n = i /\ In (lit "PATCH", thread_url i, t) (requests_made e).
Proof.
  intros usage argv w s out e r H I. unfold gh_notify in H. destruct (parse notify_opts argv) as [f|[g f]] eqn:P; [injection H as <- <- <-; destruct I|]. apply (parse_iff _ notify_well) in P.
  destruct (present g (lit "help")) eqn:NH; [injection H as <- <- <-; destruct I|]. destruct (on_terminal w) eqn:T; cbn [negb] in H; [|injection H as <- <- <-; destruct I].
  destruct (match shell_var w with Some t => Some t | None => match lisp_var w with Some t => Some t | None => env_token w end end) as [t|] eqn:TK; [|injection H as <- <- <-; destruct I].
  destruct (fetched (service w)) as [all|] eqn:F; [|injection H as <- <- <-; destruct I].
  assert (O : offered g w (filtered (values g (lit "repo")) all)) by (apply offered_iff; rewrite F; reflexivity).
  destruct (filtered (values g (lit "repo")) all) as [|n0 ns0] eqn:FN; [injection H as <- <- <-; destruct I|]. rewrite <- FN in *. clear FN n0 ns0. set (ns := filtered (values g (lit "repo")) all) in *. clearbody ns.
  destruct (pick w (map display ns)) as [text|] eqn:PK; [|injection H as <- <- <-; destruct I].
  destruct (entry_of ns text) as [n|] eqn:EN; [|injection H as <- <- <-; destruct I]. apply entry_in in EN. destruct EN as [IN <-].
  destruct (opener w); cbn [negb] in H; [|injection H as <- <- <-; destruct I].
  destruct (present g (lit "mark-read")) eqn:M; injection H as <- <- <-; [|destruct I]. cbn [marked] in I |- *. destruct (marking w); [|destruct I]. destruct I as [<-|[]].
  split; [reflexivity|]. split; [discriminate|]. split; [reflexivity|]. exists g, t, ns, n. split; [exists f; split; [exact P|intros X; apply present_iff in X; congruence]|]. split; [apply present_iff; exact M|]. split; [apply token_iff; exact TK|].
  split; [exact O|]. split; [exact IN|]. split; [exact PK|]. split; [reflexivity|]. change (In (lit "PATCH", thread_url (note_id n), t) (([(lit "GET", list_url, t)] ++ match subject_url n with Some u => [(lit "GET", u, t)] | None => [] end) ++ [(lit "PATCH", thread_url (note_id n), t)])). apply in_or_app. right. left. reflexivity.
Qed.
(** "Marked" is printed before it is known. *)
Theorem C198_says_marked_refuted : forall usage argv w g t ns n, quiet argv g -> on_terminal w = true -> token_of w t -> offered g w ns -> pick w (map display ns) = Some (display n) -> entry_of ns (display n) = Some n -> opener w = true -> gave g "mark-read" -> marking w = false ->
  exists e, gh_notify usage argv w = (0, [OutLine (lit "Marked notification " ++ note_id n ++ lit " as read.")], e) /\ marked e = [].
Proof.
  intros usage argv w g t ns n Q T K O PK EN OP M MK. rewrite (runs usage argv g w t ns _ n Q T K O PK EN). cbv zeta. apply present_iff in M. rewrite OP, M, MK. eexists. split; reflexivity.
Qed.
(** An empty list and a list left alone: nothing opened, status 0. *)
Theorem C198_nothing_to_do : forall usage argv w g t ns, quiet argv g -> on_terminal w = true -> token_of w t -> offered g w ns -> (ns = [] \/ pick w (map display ns) = None) ->
  exists out, gh_notify usage argv w = (0, out, Effects [(lit "GET", list_url, t)] [] []).
Proof.
  intros usage argv w g t ns Q T K O H. destruct (parsed argv g Q) as (f & P & NH). unfold gh_notify. rewrite P, NH, T. cbn [negb]. apply token_iff in K. rewrite K. apply offered_iff in O. destruct (fetched (service w)) as [all|]; [|discriminate]. cbn [option_map] in O. injection O as O. rewrite O.
  destruct ns as [|n0 ns]; [eexists; reflexivity|]. destruct H as [H|H]; [discriminate|]. rewrite H. eexists. reflexivity.
Qed.

(** ** Examples *)
Definition vi : list str -> str -> option str := fun _ s => Some s.
Example editor_ex : editor_run (Some (lit "code --wait")) (Some (lit "vim")) (fun _ => true) (lit "/tmp/x") = Some [lit "code"; lit "--wait"; lit "/tmp/x"].
Proof. vm_compute. reflexivity. Qed.
Example editor_ex2 : open_editor None None (fun _ => false) (lit "/tmp/x") vi (lit "a" ++ [nl; nl]) = Some (lit "a").
Proof. vm_compute. reflexivity. Qed.
Example eview_ex : eview (open_editor None None (fun _ => false) (lit "/tmp/x") vi) (lit "a" ++ [nl]) = (0, lit "a" ++ [nl]) /\ no_nl_end (lit "a").
Proof. split; [vm_compute; reflexivity|]. apply drop_nl_id. vm_compute. reflexivity. Qed.
Example blank_visual_ex : ~ nonblank (lit " ").
Proof. intros (c & [<-|[]] & H). vm_compute in H. discriminate. Qed.
Example commit_ex : ai_commit (fun _ => Some (lit "better")) (fun _ => true) (Some (lit "+x")) true true (fun _ _ => Some (lit "msg ")) [] [(Typed (lit "huh"), lit "+x"); (Typed (lit "Edit"), lit "+x"); (Typed (lit " YES"), lit "+xy")] =
  ([(lit "+x", None)], [lit "msg"; lit "msg"; lit "better"], Committed (lit "better") (lit "+xy")) /\ undecided (Typed (lit "huh"), lit "+x") /\ yes (lit " YES").
Proof. split; [vm_compute; reflexivity|]. split; [exists (lit "huh"); split; [reflexivity|]; split; intros [H|[H|[]]]; vm_compute in H; discriminate|]. right. left. vm_compute. reflexivity. Qed.
Definition three : fds := Fds [(0, 0); (1, 1); (2, 2)] (fun _ => []).
Example closed_ex : let s1 := snd (write_line false 1 (lit "hello") three) in let '(n, s2) := open_file 7 s1 in let '(ok, s3) := write_line true 1 (lit "later") s2 in
  n = 1 /\ ok = true /\ data s3 7 = lit "later" ++ [nl] /\ (forall i, i < 1 -> file_of (table three) i <> None).
Proof. cbn. repeat (split; [reflexivity|]). intros i I. assert (i = 0) as -> by lia. discriminate. Qed.
Definition sent (stamp : string) (i t : string) : Compgen_Model.json :=
  Compgen_Model.Obj [(lit "id", Compgen_Model.Str (lit i)); (lit "reason", Compgen_Model.Str (lit "mention")); (lit "unread", Compgen_Model.Bool true); (lit stamp, Compgen_Model.Str (lit "now"));
    (lit "subject", Compgen_Model.Obj [(lit "title", Compgen_Model.Str (lit t)); (lit "url", Compgen_Model.Str (lit "http://elsewhere/1")); (lit "type", Compgen_Model.Str (lit "Issue"))]);
    (lit "repository", Compgen_Model.Obj [(lit "full_name", Compgen_Model.Str (lit "a/b")); (lit "html_url", Compgen_Model.Str (lit "https://h/a/b"))])].
Definition notified (stamp : string) (marks : bool) : notify_world :=
  NotifyWorld true None None (Some (lit "tok")) (Some (Compgen_Model.Arr [sent stamp "1" "One"; sent stamp "2" "Two"])) (fun l => hd_error l) (fun _ => None) true marks.
Example notify_ex : gh_notify [] [lit "-m"; lit "-r"; lit "A/"] (notified "_updated_at" false) =
  (0, [OutLine (lit "Marked notification 1 as read.")], Effects [(lit "GET", list_url, lit "tok"); (lit "GET", lit "http://elsewhere/1", lit "tok"); (lit "PATCH", thread_url (lit "1"), lit "tok")] [lit "https://h/a/b"] []).
Proof. vm_compute. reflexivity. Qed.
Example notify_ex2 : fst (fst (gh_notify [] [] (notified "updated_at" true))) = 1.
Proof. vm_compute. reflexivity. Qed.
Example notify_ex3 : exists g ns, quiet [lit "-m"] g /\ gave g "mark-read" /\ offered g (notified "_updated_at" true) ns /\ length ns = 2 /\ NoDup (map display ns) /\ pick (notified "_updated_at" true) (map display ns) <> None /\ token_of (notified "_updated_at" true) (lit "tok").
Proof.
  eexists [(lit "mark-read", None)], _. split; [exists []; split; [apply (parse_iff _ notify_well); vm_compute; reflexivity|]; intros (v & [H|[]]); vm_compute in H; discriminate|]. split; [exists None; left; reflexivity|].
  split; [apply offered_iff; vm_compute; reflexivity|]. split; [reflexivity|]. split; [|split; [vm_compute; discriminate|right; right; auto]].
  constructor; [|constructor; [intros []|constructor]]. intros [H|[]]. vm_compute in H. discriminate.
Qed.

Print Assumptions C195_comes_back.
Print Assumptions C195_unchanged_partial.
Print Assumptions C195_unchanged_refuted.
Print Assumptions C195_which_editor.
Print Assumptions C195_empty_visual_refuted.
Print Assumptions C195_blank_in_the_name_refuted.
Print Assumptions C195_eview.
Print Assumptions C195_eview_keeps_iff.
Print Assumptions C195_line_kept.
Print Assumptions C196_commit_after_yes.
Print Assumptions C196_yes_commits.
Print Assumptions C196_no_leaves.
Print Assumptions C196_end_of_input_refuted.
Print Assumptions C196_nothing_sent.
Print Assumptions C196_all_is_sent_refuted.
Print Assumptions C196_other_changes_refuted.
Print Assumptions C197_written.
Print Assumptions C197_reported.
Print Assumptions C197_failure_closes_refuted.
Print Assumptions C197_goes_into_another_file_refuted.
Print Assumptions C198_asks_only.
Print Assumptions C198_opened.
Print Assumptions C198_opens_the_taken_one_partial.
Print Assumptions C198_same_text_refuted.
Print Assumptions C198_unreadable_refuted.
Print Assumptions C198_token_sent_refuted.
Print Assumptions C198_marked.
Print Assumptions C198_says_marked_refuted.
Print Assumptions C198_nothing_to_do.
