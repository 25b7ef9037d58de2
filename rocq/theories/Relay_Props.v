(** C254-C256: commands on a terminal of their own. *)
From Verif Require Import Base Relay_Model Relay_Spec.

(** ** C254: the output *)
Definition end_of (prev : option N) (data : list N) : option N := match rev data with [] => prev | b :: _ => Some b end.
Lemma end_of_cons prev b r : end_of prev (b :: r) = end_of (Some b) r.
Proof. unfold end_of. cbn. destruct (rev r); reflexivity. Qed.
Lemma returns_step prev b r : with_returns prev (b :: r) =
  (if (b =? 10)%N && negb (match prev with Some p => (p =? 13)%N | None => false end) then [13; 10]%N else [b]) ++ with_returns (Some b) r.
Proof.
  cbn [with_returns]. destruct (N.eqb_spec b 10) as [->|N1]; cbn [andb]; [|reflexivity]. destruct prev as [p|]; cbn; [|reflexivity].
  destruct (N.eqb_spec p 13) as [->|N1]; cbn; [reflexivity|]. destruct p as [|p]; [reflexivity|]. repeat (destruct p as [p|p|]; try reflexivity). contradiction.
Qed.
Lemma normalize_spec data : forall done prev changed normalized,
  normalize done data prev changed normalized =
  (if changed then Some (normalized ++ with_returns prev data) else if list_eq_dec N.eq_dec (with_returns prev data) data then None else Some (done ++ with_returns prev data), end_of prev data).
Proof.
  assert (LEN : forall d p, length d <= length (with_returns p d)).
  { induction d as [|b d IH]; intros p; [cbn; lia|]. rewrite returns_step, app_length. specialize (IH (Some b)). destruct ((b =? 10)%N && _); cbn [length]; lia. }
  induction data as [|b r IH]; intros done prev changed normalized.
  - cbn. destruct changed; [rewrite app_nil_r; reflexivity|reflexivity].
  - cbn [normalize]. rewrite returns_step, end_of_cons. destruct ((b =? 10)%N && negb _) eqn:C.
    + rewrite IH. f_equal. apply andb_true_iff in C as (C & _). apply N.eqb_eq in C. subst b. destruct changed; [rewrite <- app_assoc; reflexivity|].
      destruct (list_eq_dec N.eq_dec ([13; 10]%N ++ with_returns (Some 10%N) r) (10%N :: r)) as [E|_]; [discriminate E|]. rewrite <- app_assoc. reflexivity.
    + rewrite IH. f_equal. destruct changed; [rewrite <- app_assoc; reflexivity|]. cbn [app].
      destruct (list_eq_dec N.eq_dec (with_returns (Some b) r) r) as [E|E], (list_eq_dec N.eq_dec (b :: with_returns (Some b) r) (b :: r)) as [F|F]; try reflexivity; try congruence.
      rewrite <- app_assoc. reflexivity.
Qed.
Lemma returns_app a : forall prev b, with_returns prev (a ++ b) = with_returns prev a ++ with_returns (end_of prev a) b.
Proof.
  induction a as [|x a IH]; intros prev b; [reflexivity|]. rewrite end_of_cons. cbn [app with_returns]. rewrite IH, app_assoc. reflexivity.
Qed.
(** However the output comes in pieces, a terminal shows it with a return before each newline that had none. *)
Theorem C254_screen : forall chunks, screen true None chunks = with_returns None (concat chunks).
Proof.
  generalize (@None N) as last. intros last chunks. revert last. induction chunks as [|c chunks IH]; intros last; [reflexivity|]. cbn [screen concat]. rewrite normalize_spec, IH, returns_app. cbn [app].
  destruct (list_eq_dec N.eq_dec (with_returns last c) c) as [E|E]; [rewrite E|]; reflexivity.
Qed.
(** Elsewhere it is passed on as it is. *)
Theorem C254_file : forall last chunks, screen false last chunks = concat chunks.
Proof. intros last chunks. induction chunks as [|c chunks IH]; [reflexivity|]. cbn. rewrite IH. reflexivity. Qed.
(** So on the screen every newline follows a return, only returns are added, and output that has them is not changed. *)
Theorem C254_returned : forall data, Returned (with_returns None data).
Proof.
  assert (G : forall data prev a b, with_returns prev data = a ++ 10%N :: b -> (a = [] /\ prev = Some 13%N) \/ exists a', a = a' ++ [13%N]).
  { induction data as [|x data IH]; intros prev a b E; [destruct a; discriminate E|]. cbn [with_returns] in E. destruct (N.eqb_spec x 10) as [->|N1].
    - assert (C : prev = Some 13%N /\ 10%N :: with_returns (Some 10%N) data = a ++ 10%N :: b \/ 13%N :: 10%N :: with_returns (Some 10%N) data = a ++ 10%N :: b).
      { destruct prev as [p|]; [|right; exact E]. destruct (N.eq_dec p 13) as [->|N2]; [left; split; [reflexivity|exact E]|]. right. rewrite <- E. destruct p as [|p]; [reflexivity|].
        repeat (destruct p as [p|p|]; try reflexivity). contradiction. }
      clear E. destruct C as [(-> & E)|E].
      + destruct a as [|y a]; [left; auto|]. injection E as <- E. right. destruct (IH _ _ _ E) as [(-> & X)|(a' & ->)]; [discriminate|]. exists (10%N :: a'). reflexivity.
      + right. destruct a as [|y a]; [discriminate|]. injection E as <- E. destruct a as [|z a]; [exists []; reflexivity|]. injection E as <- E.
        destruct (IH _ _ _ E) as [(-> & X)|(a' & ->)]; [discriminate|]. exists (13%N :: 10%N :: a'). reflexivity.
    - cbn [app] in E. destruct a as [|y a]; [injection E as -> _; contradiction|]. injection E as <- E. right. destruct (IH _ _ _ E) as [(-> & X)|(a' & ->)].
      + injection X as ->. exists []. reflexivity.
      + exists (x :: a'). reflexivity. }
  intros data a b E. destruct (G _ _ _ _ E) as [(_ & X)|X]; [discriminate|exact X].
Qed.
Theorem C254_same : forall data, filter (fun b => negb (b =? 13)%N) (with_returns None data) = filter (fun b => negb (b =? 13)%N) data /\
  (Returned data -> with_returns None data = data).
Proof.
  intros data. split.
  - generalize (@None N) as prev. induction data as [|b r IH]; intros prev; [reflexivity|]. rewrite returns_step, filter_app, IH. cbn [filter].
    destruct ((b =? 10)%N && _) eqn:C; [apply andb_true_iff in C as (C & _); apply N.eqb_eq in C; subst|]; cbn; [reflexivity|]. destruct (b =? 13)%N; reflexivity.
  - assert (G : forall data prev, (forall a b, data = a ++ 10%N :: b -> (a = [] /\ prev = Some 13%N) \/ exists a', a = a' ++ [13%N]) -> with_returns prev data = data).
    { clear data. induction data as [|x data IH]; intros prev H; [reflexivity|]. cbn [with_returns]. rewrite IH.
      - destruct (N.eqb_spec x 10) as [->|N1]; [|reflexivity]. destruct (H [] data eq_refl) as [(_ & ->)|(a' & E)]; [reflexivity|]. destruct a'; discriminate E.
      - intros a b E. destruct (H (x :: a) b) as [(X & _)|(a' & X)]; [rewrite E; reflexivity|discriminate|]. destruct a' as [|y a']; injection X as <- X; [left; auto|]. right. exists a'. exact X. }
    intros R. apply G. intros a b E. right. exact (R a b E).
Qed.

(** *** what holds at every time *)
Record good (s : relay) : Prop := {
  g_keys : typed s = given s ++ lost s ++ buf s ++ queue s;
  g_lost : where_ s <> Back -> lost s = [];
  g_buf : where_ s = Back -> buf s = [] /\ holders s = [] /\ pending s = [];
  g_out : wrote s = concat (chunks s) ++ pending s;
  g_main : In 0 (holders s) <-> main s <> Gone }.
Lemma mem_nat_iff p l : mem_nat p l = true <-> In p l.
Proof. unfold mem_nat. rewrite existsb_exists. split; [intros (x & I1 & E); apply Nat.eqb_eq in E; subst; exact I1|intros H; exists p; split; [exact H|apply Nat.eqb_refl]]. Qed.
Lemma remove_iff p q l : In q (remove p l) <-> In q l /\ q <> p.
Proof. unfold remove. rewrite filter_In, negb_true_iff, Nat.eqb_neq. split; intros (A & B); auto. Qed.
Lemma leave_good s p : good s -> good (leave s p).
Proof.
  intros [K L B O M]. destruct s as [q b g l pe c w t h m f]; unfold leave; cbn [typed given lost buf queue where_ holders pending wrote chunks main] in *.
  constructor; cbn [typed given lost buf queue where_ holders pending wrote chunks main]; auto.
  - intros X. destruct (B X) as (X1 & -> & X2). auto.
  - rewrite remove_iff. destruct p; cbn; [split; [intros (_ & X); congruence|congruence]|]. rewrite M. split; [tauto|]. intros X. split; [exact X|discriminate].
Qed.
Lemma acts_in s p : acts s p = true -> In p (holders s).
Proof. unfold acts. rewrite andb_true_iff, mem_nat_iff. tauto. Qed.
Lemma step_good s e : good s -> good (step s e).
Proof.
  intros G0. pose proof G0 as [K L B O M]. destruct s as [q b g l pe c w t h m f]; cbn [typed given lost buf queue where_ holders pending wrote chunks main] in *. destruct e as [ks|n|n|x bs|n|x y|x| | | | |]; cbn [step].
  - constructor; cbn; auto. rewrite K, <- !app_assoc. reflexivity.
  - destruct f; try exact G0; constructor; cbn; auto; try discriminate; rewrite K; rewrite <- (firstn_skipn n q) at 1; rewrite <- !app_assoc; reflexivity.
  - destruct f; try exact G0; constructor; cbn; auto; try discriminate; rewrite K, (L ltac:(discriminate)); rewrite <- (firstn_skipn n b) at 1; cbn; rewrite <- !app_assoc; reflexivity.
  - destruct (acts _ x) eqn:A; [|exact G0]. apply acts_in in A. cbn in A. constructor; cbn; auto.
    + intros X. destruct (B X) as (_ & X1 & _). rewrite X1 in A. destruct A.
    + rewrite O, <- app_assoc. reflexivity.
  - destruct f; try exact G0; constructor; cbn; auto; try discriminate; rewrite O; rewrite <- (firstn_skipn (Nat.min n 4096) pe) at 1; rewrite concat_app; cbn; rewrite app_nil_r, <- app_assoc; reflexivity.
  - destruct (acts _ x && negb (y =? 0)) eqn:A; [|exact G0]. apply andb_true_iff in A as (A & Y). apply acts_in in A. cbn in A. apply negb_true_iff, Nat.eqb_neq in Y. constructor; cbn; auto.
    + intros X. destruct (B X) as (_ & X1 & _). rewrite X1 in A. destruct A.
    + rewrite <- M. split; [intros [X|X]; [congruence|exact X]|auto].
  - destruct (acts _ x); [|exact G0]. apply leave_good. exact G0.
  - destruct m; try exact G0. constructor; cbn; auto. rewrite M. split; discriminate.
  - destruct m; try exact G0. constructor; cbn; auto. rewrite M. split; discriminate.
  - destruct (mem_nat 0 h); [|exact G0]. apply leave_good. exact G0.
  - destruct f; try exact G0. destruct m; try exact G0; constructor; cbn; auto; intros X; try discriminate X; apply L; discriminate.
  - destruct f; try exact G0. destruct h; try exact G0. destruct pe; try exact G0. constructor; cbn; auto; try congruence.
    rewrite K, (L ltac:(discriminate)). reflexivity.
Qed.
Lemma run_good es : good (run es).
Proof.
  unfold run. cut (forall s, good s -> good (fold_left step es s)).
  - intros H. apply H. constructor; cbn; auto; try discriminate. split; [discriminate|auto].
  - induction es as [|e es IH]; intros s G; [exact G|]. cbn. apply IH. apply step_good. exact G.
Qed.
(** When the prompt is back, all that was written has been shown and kept, in order, whatever the order of the steps. *)
Theorem C254_all : forall es, where_ (run es) = Back -> concat (chunks (run es)) = wrote (run es).
Proof. intros es B. destruct (run_good es) as [_ _ GB GO _]. destruct (GB B) as (_ & _ & P). rewrite GO, P, app_nil_r. reflexivity. Qed.
(** Before, what is shown is the beginning of it. *)
Theorem C254_prefix : forall es, exists rest, wrote (run es) = concat (chunks (run es)) ++ rest.
Proof. intros es. destruct (run_good es) as [_ _ _ GO _]. eexists. exact GO. Qed.

(** ** C255: the keys *)
(** Keys reach the command in the order they were typed, none twice; those that do not are left for the prompt, but for those in
    the hands of the task when the command ends. *)
Theorem C255_order_partial : forall es, exists between, typed (run es) = given (run es) ++ between ++ queue (run es).
Proof. intros es. destruct (run_good es) as [K _ _ _ _]. exists (lost (run es) ++ buf (run es)). rewrite K, <- !app_assoc. reflexivity. Qed.
Theorem C255_back_partial : forall es, where_ (run es) = Back -> typed (run es) = given (run es) ++ lost (run es) ++ queue (run es).
Proof. intros es B. destruct (run_good es) as [K _ GB _ _]. destruct (GB B) as (X & _). rewrite K, X. reflexivity. Qed.
(** Once the prompt is back every key is left for it. *)
Theorem C255_prompt : forall es es', where_ (run es) = Back -> where_ (run (es ++ es')) = Back /\
  given (run (es ++ es')) = given (run es) /\ exists more, queue (run (es ++ es')) = queue (run es) ++ more /\ typed (run (es ++ es')) = typed (run es) ++ more.
Proof.
  intros es es' B. unfold run in *. rewrite fold_left_app. revert B. generalize (fold_left step es start) as s. induction es' as [|e es' IH]; intros s B; cbn.
  - split; [exact B|]. split; [reflexivity|]. exists []. rewrite !app_nil_r. auto.
  - assert (S' : where_ (step s e) = Back /\ given (step s e) = given s /\ exists more, queue (step s e) = queue s ++ more /\ typed (step s e) = typed s ++ more).
    { assert (NO : forall s', where_ s' = Back -> given s' = given s -> queue s' = queue s -> typed s' = typed s -> where_ s' = Back /\ given s' = given s /\ exists more, queue s' = queue s ++ more /\ typed s' = typed s ++ more).
      { intros s' A1 A2 A3 A4. split; [exact A1|]. split; [exact A2|]. exists []. rewrite !app_nil_r. auto. }
      destruct s as [q b g l pe c w t h m f]; cbn in B, NO; subst f. destruct e as [ks|n|n|x bs|n|x y|x| | | | |]; cbn [step]; try (apply NO; reflexivity).
      - cbn. split; [reflexivity|]. split; [reflexivity|]. eauto.
      - destruct (acts _ x); apply NO; reflexivity.
      - destruct (acts _ x && _); apply NO; reflexivity.
      - destruct (acts _ x); apply NO; reflexivity.
      - destruct m; apply NO; reflexivity.
      - destruct m; apply NO; reflexivity.
      - destruct (mem_nat 0 h); apply NO; reflexivity. }
    destruct S' as (A & G & m1 & Q1 & T1). destruct (IH _ A) as (A2 & G2 & m2 & Q2 & T2). split; [exact A2|]. split; [congruence|]. exists (m1 ++ m2). rewrite Q2, Q1, T2, T1, <- !app_assoc. auto.
Qed.
(** Keys typed after the command has ended are not safe: until the shell has noticed they are taken and reach nobody. *)
Theorem C255_ahead_refuted : forall ks, let s := run [Leaves 0; Types ks; Reads (length ks); Notices; Ends] in
  where_ s = Back /\ given s = [] /\ queue s = [] /\ lost s = ks.
Proof.
  intros ks. unfold run. cbn. rewrite firstn_all, skipn_all. auto.
Qed.

(** ** C256: the prompt comes back *)
(** It comes back only when the command is gone and no process holds its terminal. *)
Theorem C256_only : forall es, where_ (run es) = Back -> main (run es) = Gone /\ holders (run es) = [].
Proof.
  intros es B. destruct (run_good es) as [_ _ GB _ GM]. destruct (GB B) as (_ & H & _). split; [|exact H]. destruct (main (run es)) eqn:M; [| |reflexivity]; exfalso;
  assert (X : In 0 (holders (run es))) by (apply GM; discriminate); rewrite H in X; exact X.
Qed.
(** And it can then, by steps of the shell alone. *)
Theorem C256_comes : forall es, main (run es) = Gone -> holders (run es) = [] ->
  exists n, where_ (run (es ++ repeat (Shows 4096) n ++ [Notices; Ends])) = Back.
Proof.
  intros es M H. unfold run in *. setoid_rewrite fold_left_app. generalize dependent (fold_left step es start). intros s M H.
  assert (G : forall k s, length (pending s) <= k -> main s = Gone -> holders s = [] -> exists n, where_ (fold_left step (repeat (Shows 4096) n ++ [Notices; Ends]) s) = Back).
  { clear s M H. induction k as [|k IH]; intros s L M H; destruct s as [q b g l pe c w t h m f]; cbn in L, M, H; subst.
    - destruct pe; [|cbn in L; lia]. exists 0. destruct f; reflexivity.
    - destruct f.
      + destruct (IH (step (Relay q b g l pe c w t [] Gone Waiting) (Shows 4096))) as (n & X); cbn [step main holders]; auto; [|exists (S n); exact X].
        cbn [pending]. rewrite skipn_length. assert (0 < Nat.min 4096 4096) by (apply Nat.ltb_lt; reflexivity). lia.
      + destruct (IH (step (Relay q b g l pe c w t [] Gone Draining) (Shows 4096))) as (n & X); cbn [step main holders]; auto; [|exists (S n); exact X].
        cbn [pending]. rewrite skipn_length. assert (0 < Nat.min 4096 4096) by (apply Nat.ltb_lt; reflexivity). lia.
      + exists 0. reflexivity. }
  exact (G (length (pending s)) s (le_n _) M H).
Qed.
(** So a command that is stopped with Ctrl+Z keeps the prompt away for as long as it is stopped. *)
Theorem C256_stopped_refuted : forall es es', main (run es) = Halted -> ~ In Continues es' -> ~ In Killed es' -> where_ (run (es ++ es')) <> Back.
Proof.
  intros es es' M NC NK B. apply C256_only in B as (B & _). unfold run in *. rewrite fold_left_app in B. revert M B. generalize (fold_left step es start) as s.
  induction es' as [|e es' IH]; intros s M B; [cbn in B; congruence|]. cbn in B. refine (IH _ _ _ _ B); [intros X; apply NC; right; exact X|intros X; apply NK; right; exact X|].
  destruct s as [q b g l pe c w t h m f]; cbn in M; subst m. destruct e as [ks|n|n|x bs|n|x y|x| | | | |]; cbn [step]; try reflexivity; try (destruct f; reflexivity).
  - destruct (acts _ x); reflexivity.
  - destruct (acts _ x && _); reflexivity.
  - destruct (acts _ x) eqn:A; [|reflexivity]. destruct x; [unfold acts in A; cbn in A; rewrite andb_false_r in A; discriminate|]. reflexivity.
  - exfalso. apply NC. left. reflexivity.
  - exfalso. apply NK. left. reflexivity.
  - destruct f; try reflexivity. destruct h; try reflexivity. destruct pe; reflexivity.
Qed.
(** And so does a process it left behind. *)
Theorem C256_child_refuted : forall es p, In p (holders (run es)) -> where_ (run es) <> Back.
Proof. intros es p H B. apply C256_only in B as (_ & B). rewrite B in H. exact H. Qed.
Print Assumptions C254_screen. Print Assumptions C254_file. Print Assumptions C254_returned. Print Assumptions C254_same. Print Assumptions C254_all. Print Assumptions C254_prefix.
Print Assumptions C255_order_partial. Print Assumptions C255_back_partial. Print Assumptions C255_prompt. Print Assumptions C255_ahead_refuted.
Print Assumptions C256_only. Print Assumptions C256_comes. Print Assumptions C256_stopped_refuted. Print Assumptions C256_child_refuted.

Example C254_case : screen true None [[97; 13]; [10; 98; 10]; [99]]%N = [97; 13; 10; 98; 13; 10; 99]%N.
Proof. reflexivity. Qed.
Example C256_case : let s := run [Types [97; 98]%N; Reads 1; Writes 1; Prints 0 [65; 10]%N; Forks 0 7; Leaves 0; Notices; Ends; Shows 9; Leaves 7; Ends] in
  where_ s = Back /\ given s = [97]%N /\ queue s = [98]%N /\ chunks s = [[65; 10]]%N.
Proof. repeat split; reflexivity. Qed.
