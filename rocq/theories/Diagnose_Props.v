(** C247-C249: the diagnosis of the last command. *)
From Verif Require Import Base Diagnose_Model Diagnose_Spec.
From Verif Require Safety_Model Safety_Props Direnv_Model Lread_Model Offer_Spec Offer_Props.

(** ** C248: the command taken from an answer *)
Lemma fence_iff l : fence l = true <-> Fence l.
Proof.
  unfold fence, Fence. rewrite !orb_true_iff, !starts_with_iff, str_eqb_eq. split.
  - intros H. exists (trim l). split; [apply Offer_Props.trim_trimmed|]. tauto.
  - intros (t & T & H). apply Offer_Props.trim_iff in T. rewrite T. tauto.
Qed.
Lemma not_fence l : ~ Fence l <-> fence l = false.
Proof. rewrite <- fence_iff. destruct (fence l); split; intros H; congruence. Qed.
Lemma collect_before pre ls c : Forall (fun l => ~ Fence l) pre -> collect (pre ++ ls) false c = collect ls false c.
Proof. induction 1 as [|l pre F _ IH]; [reflexivity|]. cbn [app collect]. apply not_fence in F. rewrite F. exact IH. Qed.
Lemma collect_body body rest : (rest = [] \/ exists c r, rest = c :: r /\ Fence c) -> Forall (fun l => ~ Fence l) body ->
  forall c, collect (body ++ rest) true c = match c with [] => match body with [] => [] | b :: r => collect (r ++ rest) true b end | _ => c ++ flat_map (fun l => 10%N :: l) body end.
Proof.
  intros R. induction 1 as [|l body F FB IH]; intros c; cbn [app].
  - assert (E : collect rest true c = c).
    { destruct R as [->|(x & r & -> & X)]; [reflexivity|]. cbn [collect]. apply fence_iff in X. rewrite X. reflexivity. }
    rewrite E. destruct c; [reflexivity|]. cbn [flat_map]. symmetry. apply app_nil_r.
  - cbn [collect]. apply not_fence in F. rewrite F. destruct c as [|x c]; [reflexivity|]. rewrite IH.
    cbn [app flat_map]. rewrite <- !app_assoc. reflexivity.
Qed.
Lemma join_flat (a : str) (ls : list str) : join_with [10%N] (a :: ls) = a ++ flat_map (fun l => 10%N :: l) ls.
Proof.
  revert a. induction ls as [|b ls IH]; intros a; [cbn; symmetry; apply app_nil_r|].
  change (join_with [10%N] (a :: b :: ls)) with (a ++ [10%N] ++ join_with [10%N] (b :: ls)). rewrite IH. reflexivity.
Qed.
Lemma trim_nl s : trim (10%N :: s) = trim s.
Proof. reflexivity. Qed.
Lemma collect_all body rest : (rest = [] \/ exists c r, rest = c :: r /\ Fence c) -> Forall (fun l => ~ Fence l) body ->
  (Forall (fun l => l = []) body /\ collect (body ++ rest) true [] = []) \/
  (~ Forall (fun l => l = []) body /\ collect (body ++ rest) true [] <> [] /\ trim (collect (body ++ rest) true []) = trim (join_with [10%N] body)).
Proof.
  intros R. induction 1 as [|l body F FB IH].
  - left. split; [constructor|]. exact (collect_body [] rest R (Forall_nil _) []).
  - rewrite collect_body by auto. destruct l as [|x l].
    + destruct IH as [(A & B)|(A & B & C)].
      * left. split; [constructor; auto|exact B].
      * right. split; [intros X; inversion X; auto|]. split; [exact B|]. rewrite C. destruct body as [|b body]; [exfalso; apply A; constructor|].
        rewrite (join_flat [] (b :: body)). cbn [app flat_map]. rewrite trim_nl. f_equal. apply (join_flat b body).
    + right. split; [intros X; inversion X; discriminate|]. rewrite collect_body by auto. split; [discriminate|]. rewrite join_flat. reflexivity.
Qed.
(** The command is what stands in the first block for the shell, without the blanks around it; a block of
    empty lines gives none. *)
Theorem C248_first_block : forall text body, First_block (Direnv_Model.lines text) body ->
  (Forall (fun l => l = []) body /\ extract_command text = None) \/
  (~ Forall (fun l => l = []) body /\ exists c, extract_command text = Some c /\ Offer_Spec.trimmed (join_with [10%N] body) c).
Proof.
  intros text body (pre & o & rest & E & P & O & B & R). unfold extract_command. rewrite E, collect_before by exact P. cbn [collect]. apply fence_iff in O. rewrite O.
  destruct (collect_all body rest R B) as [(A & X)|(A & X & Y)].
  - left. rewrite X. auto.
  - right. split; [exact A|]. exists (trim (join_with [10%N] body)). split; [|apply Offer_Props.trim_trimmed].
    rewrite <- Y. destruct (collect (body ++ rest) true []); [congruence|reflexivity].
Qed.
(** Without a block there is none. *)
Theorem C248_no_block : forall text, Forall (fun l => ~ Fence l) (Direnv_Model.lines text) -> extract_command text = None.
Proof.
  intros text F. unfold extract_command. rewrite <- (app_nil_r (Direnv_Model.lines text)), collect_before by exact F. reflexivity.
Qed.
(** Every text has a first block or none. *)
Theorem C248_or : forall ls, Forall (fun l => ~ Fence l) ls \/ exists body, First_block ls body.
Proof.
  assert (G : forall ls, Forall (fun l => ~ Fence l) ls \/ exists a c r, ls = a ++ c :: r /\ Forall (fun l => ~ Fence l) a /\ Fence c).
  { induction ls as [|l ls IH]; [left; constructor|]. destruct (fence l) eqn:F.
    - right. exists [], l, ls. split; [reflexivity|]. split; [constructor|apply fence_iff; exact F].
    - apply not_fence in F. destruct IH as [IH|(a & c & r & -> & A & C)]; [left; constructor; auto|]. right. exists (l :: a), c, r. split; [reflexivity|]. split; [constructor; auto|exact C]. }
  intros ls. destruct (G ls) as [H|(a & c & r & -> & A & C)]; [auto|]. right. destruct (G r) as [H|(b & d & q & -> & B & D)].
  - exists r. exists a, c, []. rewrite app_nil_r. repeat split; auto.
  - exists b. exists a, c, (d :: q). repeat split; auto. right. eauto.
Qed.
(** A block in another language before it is taken wrongly: its end counts as the beginning, and what is written
    after it becomes the command. *)
Theorem C248_other_language_refuted : forall text before code prose rest,
  Direnv_Model.lines text = before ++ lit "```python" :: code ++ lit "```" :: prose ++ rest ->
  Forall (fun l => ~ Fence l) before -> Forall (fun l => ~ Fence l) code -> Forall (fun l => ~ Fence l) prose ->
  (rest = [] \/ exists c r, rest = c :: r /\ Fence c) -> ~ Forall (fun l => l = []) prose ->
  exists c, extract_command text = Some c /\ Offer_Spec.trimmed (join_with [10%N] prose) c.
Proof.
  intros text before code prose rest E B C P R NE. destruct (C248_first_block text prose) as [(X & _)|(_ & X)]; [|contradiction|exact X].
  exists (before ++ lit "```python" :: code), (lit "```"), rest. rewrite E, <- app_assoc. split; [reflexivity|]. split.
  - apply Forall_app. split; [exact B|]. constructor; [apply not_fence; reflexivity|exact C].
  - split; [apply fence_iff; reflexivity|]. auto.
Qed.

(** ** C249: the dialog *)
Lemma ui_keys shown : forall keys before buf o rest, buf = written before -> ui shown buf keys = Some (o, rest) ->
  exists mid k, keys = mid ++ k :: rest /\ pressed k = true /\
    match o with
    | Ask q => what k = Enter /\ q = written (before ++ mid) /\ trim q <> []
    | Apply c => (what k = Char (chr "y") /\ ctrl k = true \/ what k = Char (chr "a") /\ alt k = true) /\ extract_command shown = Some c
    | Quit => what k = Esc \/ what k = Char (chr "c") /\ ctrl k = true
    end.
Proof.
  induction keys as [|k keys IH]; intros before buf o rest B U; [discriminate|]. cbn [ui] in U.
  assert (NEXT : forall buf', buf' = written (before ++ [k]) -> ui shown buf' keys = Some (o, rest) -> exists mid k', k :: keys = mid ++ k' :: rest /\ pressed k' = true /\
    match o with
    | Ask q => what k' = Enter /\ q = written (before ++ mid) /\ trim q <> []
    | Apply c => (what k' = Char (chr "y") /\ ctrl k' = true \/ what k' = Char (chr "a") /\ alt k' = true) /\ extract_command shown = Some c
    | Quit => what k' = Esc \/ what k' = Char (chr "c") /\ ctrl k' = true
    end).
  { intros buf' B' U'. destruct (IH (before ++ [k]) buf' o rest B' U') as (mid & k' & -> & P & H). exists (k :: mid), k'. split; [reflexivity|]. split; [exact P|].
    destruct o; try exact H. rewrite <- app_assoc in H. exact H. }
  assert (W : written (before ++ [k]) = if pressed k then match what k with Char c => if ctrl k || alt k then buf else buf ++ [c] | Backspace => removelast buf | _ => buf end else buf).
  { unfold written in *. rewrite fold_left_app. cbn [fold_left]. rewrite <- B. reflexivity. }
  assert (HERE : forall o', pressed k = true -> o' = o /\ keys = rest ->
    match o' with
    | Ask q => what k = Enter /\ q = written before /\ trim q <> []
    | Apply c => (what k = Char (chr "y") /\ ctrl k = true \/ what k = Char (chr "a") /\ alt k = true) /\ extract_command shown = Some c
    | Quit => what k = Esc \/ what k = Char (chr "c") /\ ctrl k = true
    end -> exists mid k', k :: keys = mid ++ k' :: rest /\ pressed k' = true /\
    match o with
    | Ask q => what k' = Enter /\ q = written (before ++ mid) /\ trim q <> []
    | Apply c => (what k' = Char (chr "y") /\ ctrl k' = true \/ what k' = Char (chr "a") /\ alt k' = true) /\ extract_command shown = Some c
    | Quit => what k' = Esc \/ what k' = Char (chr "c") /\ ctrl k' = true
    end).
  { intros o' P (-> & ->) H. exists [], k. split; [reflexivity|]. split; [exact P|]. rewrite app_nil_r. exact H. }
  unfold ui_key in U. destruct (pressed k) eqn:P; [|exact (NEXT buf (eq_sym W) U)].
  destruct (what k) as [| | |c|] eqn:WK.
  - destruct (str_eqb (trim buf) []) eqn:T; [exact (NEXT buf (eq_sym W) U)|]. injection U as U1 U2. apply (HERE (Ask buf)); auto. split; [reflexivity|]. split; [exact B|].
    intros Z. rewrite Z in T. discriminate.
  - exact (NEXT _ (eq_sym W) U).
  - injection U as U1 U2. apply (HERE Quit); auto.
  - destruct ((c =? chr "y")%N && ctrl k) eqn:Y.
    + apply andb_true_iff in Y as (Y & CT). apply N.eqb_eq in Y. subst c. rewrite CT in W. cbn [orb] in W.
      destruct (extract_command shown) as [x|] eqn:E; cbn [option_map] in U; [|exact (NEXT _ (eq_sym W) U)]. injection U as U1 U2. apply (HERE (Apply x)); auto.
    + destruct ((c =? chr "a")%N && alt k) eqn:A.
      * apply andb_true_iff in A as (A & AL). apply N.eqb_eq in A. subst c. rewrite AL, orb_true_r in W.
        destruct (extract_command shown) as [x|] eqn:E; cbn [option_map] in U; [|exact (NEXT _ (eq_sym W) U)]. injection U as U1 U2. apply (HERE (Apply x)); auto.
      * destruct ((c =? chr "c")%N && ctrl k) eqn:Q.
        -- apply andb_true_iff in Q as (Q & CT). apply N.eqb_eq in Q. subst c. injection U as U1 U2. apply (HERE Quit); auto.
        -- destruct (ctrl k), (alt k); cbn [negb andb orb] in U, W; exact (NEXT _ (eq_sym W) U).
  - exact (NEXT _ (eq_sym W) U).
Qed.
(** A question is what was written; a command is taken only by Ctrl+Y or Alt+A, from the answer that is shown; Esc and Ctrl+C
    leave. *)
Theorem C249_keys : forall shown keys o rest, ui shown [] keys = Some (o, rest) ->
  exists before k, keys = before ++ k :: rest /\ pressed k = true /\
    match o with
    | Ask q => what k = Enter /\ q = written before /\ trim q <> []
    | Apply c => (what k = Char (chr "y") /\ ctrl k = true \/ what k = Char (chr "a") /\ alt k = true) /\ extract_command shown = Some c
    | Quit => what k = Esc \/ what k = Char (chr "c") /\ ctrl k = true
    end.
Proof. intros shown keys o rest U. exact (ui_keys shown keys [] [] o rest eq_refl U). Qed.
(** Esc always leaves. *)
Theorem C249_esc : forall shown before k rest, pressed k = true -> what k = Esc -> exists o rest', ui shown [] (before ++ k :: rest) = Some (o, rest') /\ (o = Quit \/ length rest < length rest').
Proof.
  intros shown before k rest P W. generalize (@nil char) as buf. induction before as [|x before IH]; intros buf; cbn [app ui].
  - unfold ui_key. rewrite P, W. exists Quit, rest. auto.
  - destruct (ui_key shown buf x) as [[o|] buf']; [|apply IH]. exists o, (before ++ k :: rest). split; [reflexivity|]. right. rewrite app_length. cbn. lia.
Qed.

Section Service.
Variable instructions : str.
Variable send : list message -> option str.
Notation dialog := (dialog send).
Notation diagnose := (diagnose instructions send).

Lemma ui_shorter shown keys o rest : ui shown [] keys = Some (o, rest) -> length rest < length keys.
Proof. intros U. apply C249_keys in U as (b & k & -> & _). rewrite app_length. cbn. lia. Qed.
Lemma fuel_enough : forall n m shown history keys, length keys < n -> length keys < m -> dialog n shown history keys = dialog m shown history keys.
Proof.
  induction n as [|n IH]; intros m shown history keys L M; [lia|]. destruct m as [|m]; [lia|]. cbn [Diagnose_Model.dialog].
  destruct (ui shown [] keys) as [[o rest]|] eqn:U; [|reflexivity]. apply ui_shorter in U. destruct o; try reflexivity.
  destruct (Safety_Model.sanitize_ai_input q 1000) as [q'|]; [|reflexivity]. destruct (send _) as [a|]; [|reflexivity].
  rewrite (IH m) by lia. reflexivity.
Qed.
(** The dialog goes on for as long as there are keys: no number of questions ends it. *)
Theorem C249_no_limit : forall n shown history keys, length keys < n -> dialog n shown history keys = dialog (S (length keys)) shown history keys.
Proof. intros n shown history keys L. apply fuel_enough; lia. Qed.

(** The line becomes the command of the newest answer, or stays. *)
Lemma dialog_line : forall n shown history keys rs c, dialog n shown history keys = (rs, Ended (Some c)) ->
  (rs = [] /\ extract_command shown = Some c) \/ exists a, rs <> [] /\ send (last rs []) = Some a /\ extract_command a = Some c.
Proof.
  induction n as [|n IH]; intros shown history keys rs c E; [discriminate|]. cbn [Diagnose_Model.dialog] in E.
  destruct (ui shown [] keys) as [[o rest]|] eqn:U; [|discriminate]. destruct o as [x|q|]; [|destruct (Safety_Model.sanitize_ai_input q 1000) as [q'|]; [|discriminate]|discriminate].
  - injection E as <- <-. left. split; [reflexivity|]. apply C249_keys in U as (b & k & _ & _ & _ & X). exact X.
  - destruct (send (history ++ [(User, q')])) as [a|] eqn:S'; [|discriminate].
    destruct (dialog n a ((history ++ [(User, q')]) ++ [(Assistant, a)]) rest) as [rs' e] eqn:D. injection E as <- ->. right.
    destruct (IH _ _ _ _ _ D) as [(-> & X)|(a' & N1 & X & Y)].
    + exists a. split; [discriminate|]. split; [exact S'|exact X].
    + exists a'. split; [discriminate|]. split; [|exact Y]. destruct rs' as [|r rs']; [congruence|]. exact X.
Qed.
Theorem C249_line : forall configured status command output keys c, ending_of (diagnose configured status command output keys) = Ended (Some c) ->
  exists a, send (last (sent (diagnose configured status command output keys)) []) = Some a /\ extract_command a = Some c.
Proof.
  intros configured status command output keys c. unfold Diagnose_Model.diagnose. destruct (negb configured || (status =? 0)%Z); [discriminate|].
  destruct (query command output status) as [q|]; [|discriminate]. destruct (send [(System, instructions); (User, q)]) as [a|] eqn:S'; [|discriminate].
  destruct (dialog (S (length keys)) a _ keys) as [rs e] eqn:D. cbn [ending_of sent]. intros ->. destruct (dialog_line _ _ _ _ _ _ D) as [(-> & X)|(a' & N1 & X & Y)].
  - exists a. split; [exact S'|exact X].
  - exists a'. split; [|exact Y]. destruct rs as [|r rs]; [congruence|]. exact X.
Qed.
(** Once the dialog has been shown, the terminal is left without raw mode, however it ends. *)
Theorem C249_raw_refuted : forall status command output keys q a, status <> 0%Z -> query command output status = Some q ->
  send [(System, instructions); (User, q)] = Some a -> raw (diagnose true status command output keys) = false.
Proof.
  intros status command output keys q a S' Q A. unfold Diagnose_Model.diagnose. apply Z.eqb_neq in S'. rewrite S'. cbn [negb orb]. rewrite Q, A.
  destruct (dialog _ _ _ _). reflexivity.
Qed.

(** ** C247: what is sent *)

(** Without a service, or when the command succeeded, nothing is sent. *)
Theorem C247_quiet : forall configured status command output keys, configured = false \/ status = 0%Z ->
  diagnose configured status command output keys = Result [] (Ended None) true.
Proof. intros configured status command output keys [->| ->]; [reflexivity|]. unfold Diagnose_Model.diagnose. rewrite orb_true_r. reflexivity. Qed.
(** The text about the command: its line, its status and its output, with what is unwanted left out and cut at a limit. *)
Lemma shortened input n x : Safety_Model.sanitize_ai_input input n = Some x -> Shortened input n x.
Proof.
  intros E. destruct (Safety_Props.C09_sanitised_clean_and_bounded_partial input n) as (k & K & A & B & C & _). exists k. split; [exact K|]. split; [|split].
  - intros L. rewrite (A L) in E. injection E as ->. reflexivity.
  - intros L. apply (B L). exact E.
  - exact (proj1 (C _ E)).
Qed.
Theorem C247_text_partial : forall command output status q, query command output status = Some q ->
  exists c o, Shortened command 1000 c /\ Shortened output 2000 o /\
    q = lit "Command: `" ++ c ++ lit "`" ++ [10%N] ++ lit "Exit code: " ++ Lread_Model.show_int status ++ [10%N] ++
        lit "Output:" ++ [10%N] ++ lit "```" ++ [10%N] ++ o ++ [10%N] ++ lit "```".
Proof.
  intros command output status q. unfold query.
  destruct (Safety_Model.sanitize_ai_input command 1000) as [c|] eqn:C; [|discriminate]. destruct (Safety_Model.sanitize_ai_input output 2000) as [o|] eqn:O; [|discriminate].
  pose proof (shortened _ _ _ C) as SC. pose proof (shortened _ _ _ O) as SO. pose proof SO as (_ & _ & _ & _ & B).
  assert (E : (4000 <? blen o) = false) by (apply Nat.ltb_ge; lia). rewrite E. intros [= <-]. exists c, o. split; [exact SC|]. split; [exact SO|]. reflexivity.
Qed.
(** Each request is the whole conversation: the one before, its answer and the new question. *)
Definition Continues (a b : list message) : Prop := exists x q, send a = Some x /\ b = a ++ [(Assistant, x); (User, q)].
Lemma dialog_continues : forall n shown history keys a, send a = Some shown -> history = a ++ [(Assistant, shown)] ->
  forall i x y, nth_error (a :: fst (dialog n shown history keys)) i = Some x -> nth_error (a :: fst (dialog n shown history keys)) (S i) = Some y -> Continues x y.
Proof.
  induction n as [|n IH]; intros shown history keys a A H i x y X Y; [destruct i; discriminate|]. cbn [Diagnose_Model.dialog] in X, Y.
  destruct (ui shown [] keys) as [[o rest]|]; [|destruct i; discriminate]. destruct o as [z|q|]; [destruct i; discriminate| |destruct i; discriminate].
  destruct (Safety_Model.sanitize_ai_input q 1000) as [q'|]; [|destruct i; discriminate]. set (h := history ++ [(User, q')]) in *.
  assert (C : Continues a h) by (exists shown, q'; split; [exact A|]; unfold h; rewrite H, <- app_assoc; reflexivity).
  destruct (send h) as [b|] eqn:S'.
  - destruct (dialog n b (h ++ [(Assistant, b)]) rest) as [rs e] eqn:D. cbn [fst] in X, Y. destruct i as [|i].
    + cbn in X, Y. injection X as <-. injection Y as <-. exact C.
    + cbn [nth_error] in X. change (nth_error (a :: h :: rs) (S (S i))) with (nth_error (h :: rs) (S i)) in Y.
      apply (IH b (h ++ [(Assistant, b)]) rest h S' eq_refl i x y); rewrite D; cbn [fst]; assumption.
  - cbn [fst] in X, Y. destruct i as [|[|i]]; cbn in X, Y; try discriminate. injection X as <-. injection Y as <-. exact C.
Qed.
Theorem C247_conversation : forall configured status command output keys i x y,
  nth_error (sent (diagnose configured status command output keys)) i = Some x -> nth_error (sent (diagnose configured status command output keys)) (S i) = Some y -> Continues x y.
Proof.
  intros configured status command output keys i x y. unfold Diagnose_Model.diagnose. destruct (negb configured || (status =? 0)%Z); [destruct i; discriminate|].
  destruct (query command output status) as [q|]; [|destruct i; discriminate]. destruct (send [(System, instructions); (User, q)]) as [a|] eqn:S'.
  - destruct (dialog (S (length keys)) a ([(System, instructions); (User, q)] ++ [(Assistant, a)]) keys) as [rs e] eqn:D. cbn [sent]. intros X Y.
    pose proof (dialog_continues (S (length keys)) a ([(System, instructions); (User, q)] ++ [(Assistant, a)]) keys _ S' eq_refl i x y) as Z.
    cbn [app] in Z, D. rewrite D in Z. exact (Z X Y).
  - cbn [sent]. intros _ Y. destruct i; discriminate.
Qed.
(** The first request tells the instructions and the command. *)
Theorem C247_first : forall status command output keys q, status <> 0%Z -> query command output status = Some q ->
  nth_error (sent (diagnose true status command output keys)) 0 = Some [(System, instructions); (User, q)].
Proof.
  intros status command output keys q S' Q. unfold Diagnose_Model.diagnose. apply Z.eqb_neq in S'. rewrite S'. cbn [negb orb]. rewrite Q.
  destruct (send _) as [a|]; [destruct (dialog _ _ _ _); reflexivity|reflexivity].
Qed.
(** A text whose cut falls inside a character stops the shell. *)
Theorem C247_crash_refuted : exists output, forall status command keys, status <> 0%Z ->
  ending_of (diagnose true status command output keys) = Crashed.
Proof.
  exists (chr "a" :: repeat 233%N 1000). intros status command keys S'. unfold Diagnose_Model.diagnose. apply Z.eqb_neq in S'. rewrite S'. cbn [negb orb].
  assert (X : query command (chr "a" :: repeat 233%N 1000) status = None).
  { unfold query. assert (Y : Safety_Model.sanitize_ai_input (chr "a" :: repeat 233%N 1000) 2000 = None) by (vm_compute; reflexivity). rewrite Y.
    destruct (Safety_Model.sanitize_ai_input command 1000); reflexivity. }
  rewrite X. reflexivity.
Qed.
End Service.

Section Capture.
Variable strip : str -> str.
Hypothesis strip_nil : strip [] = [].
(** Commands that ran without a terminal of their own, and wrote to either output, are diagnosed with what they
    wrote to the second. *)
Theorem C247_output_partial : forall instructions send configured rs r keys, on_terminal r = false -> out r <> [] \/ err r <> [] ->
  alt_d strip instructions send configured rs r keys = diagnose instructions send configured (status_of r) (line_of r) (strip (err r)) keys.
Proof.
  intros instructions send configured rs r keys T W. unfold alt_d. f_equal. unfold newest_err. rewrite fold_left_app. cbn [fold_left]. unfold captured. rewrite T.
  destruct (out r), (err r); try reflexivity. destruct W; congruence.
Qed.
(** Of a command that ran on a terminal, as commands typed at the prompt do, nothing it wrote is sent. *)
Theorem C247_terminal_refuted : forall instructions send configured rs r keys, on_terminal r = true -> screen r <> [] ->
  alt_d strip instructions send configured rs r keys = diagnose instructions send configured (status_of r) (line_of r) [] keys.
Proof.
  intros instructions send configured rs r keys T W. unfold alt_d. f_equal. unfold newest_err. rewrite fold_left_app. cbn [fold_left]. unfold captured. rewrite T.
  destruct (screen r); [congruence|exact strip_nil].
Qed.
(** A command that writes nothing is diagnosed with what an earlier command wrote. *)
Theorem C247_earlier_refuted : forall instructions send configured rs b r keys, out r = [] -> err r = [] -> screen r = [] ->
  on_terminal b = false -> err b <> [] ->
  alt_d strip instructions send configured (rs ++ [b]) r keys = diagnose instructions send configured (status_of r) (line_of r) (strip (err b)) keys.
Proof.
  intros instructions send configured rs b r keys O E S' T W. unfold alt_d. f_equal. unfold newest_err. rewrite !fold_left_app. cbn [fold_left]. unfold captured. rewrite O, E, S', T.
  destruct (out b), (err b); destruct (on_terminal r); try reflexivity; congruence.
Qed.
End Capture.

Print Assumptions C247_quiet. Print Assumptions C247_text_partial. Print Assumptions C247_conversation. Print Assumptions C247_first. Print Assumptions C247_crash_refuted.
Print Assumptions C247_output_partial. Print Assumptions C247_terminal_refuted. Print Assumptions C247_earlier_refuted.
Print Assumptions C248_first_block. Print Assumptions C248_no_block. Print Assumptions C248_or. Print Assumptions C248_other_language_refuted.
Print Assumptions C249_keys. Print Assumptions C249_esc. Print Assumptions C249_no_limit. Print Assumptions C249_line. Print Assumptions C249_raw_refuted.

Definition nl : str := [10%N].
Example C248_case : extract_command (lit "Try:" ++ nl ++ lit "```bash" ++ nl ++ lit "ls -al" ++ nl ++ lit "```") = Some (lit "ls -al") /\
  extract_command (lit "```python" ++ nl ++ lit "print(1)" ++ nl ++ lit "```" ++ nl ++ lit "or remove everything in /tmp" ++ nl) = Some (lit "or remove everything in /tmp").
Proof. split; reflexivity. Qed.
Example C249_case : let k c := Key (Char c) false false true in
  let send h := Some (match length h with 2 => lit "What did you expect?" | _ => lit "```sh" ++ nl ++ lit "ls" ++ nl ++ lit "```" end) in
  let r := diagnose (lit "Help.") send true 2%Z (lit "lz") (lit "no such command") [k (chr "o"); k (chr "k"); Key Enter false false true; Key (Char (chr "y")) true false true] in
  ending_of r = Ended (Some (lit "ls")) /\ length (sent r) = 2 /\ raw r = false.
Proof. split; [reflexivity|]. split; reflexivity. Qed.
