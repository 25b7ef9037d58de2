(** A relation between states that every primitive effect respects is respected by evaluation. *)
From Verif Require Import Base Lread_Model Lisp_Model.

Section Stays.
Variable W : Type.
Variable native : nat -> str -> list lv -> M W lv.
Variable sv : W -> str -> lv -> W.
Variable aa : W -> list lv -> W.
Variable R : state W -> state W -> Prop.
Definition Stays {A} (m : M W A) : Prop := forall s, match m s with Ok _ _ _ s' | Err _ _ s' => R s s' | Fuel _ _ => True end.
Hypothesis R_refl : forall s, R s s.
Hypothesis R_trans : forall a b c, R a b -> R b c -> R a c.
Hypothesis R_define : forall i k v, Stays (m_define W i k v).
Hypothesis R_set : forall i k v, Stays (m_set W i k v).
Hypothesis R_extend : forall p, Stays (m_extend W p).
Hypothesis R_variable : forall k v, Stays (m_world W (fun w => sv w k v)).
Hypothesis R_complete : forall t, Stays (m_world W (fun w => aa w t)).
Hypothesis R_native : forall i n args, Stays (native i n args).

Lemma stays_ret {A} (a : A) : Stays (ret W a). Proof. intros s. apply R_refl. Qed.
Lemma stays_fail {A} : Stays (@fail W A). Proof. intros s. apply R_refl. Qed.
Lemma stays_bind {A B} (m : M W A) (k : A -> M W B) : Stays m -> (forall a, Stays (k a)) -> Stays (bind W m k).
Proof.
  intros Hm Hk s. unfold bind. specialize (Hm s). destruct (m s) as [a s1|s1|]; [|exact Hm|exact I].
  specialize (Hk a s1). destruct (k a s1); [| |exact I]; now apply (R_trans _ s1).
Qed.
Lemma stays_get i k : Stays (m_get W i k). Proof. intros s. unfold m_get. destruct (get _ i k); apply R_refl. Qed.

Section Step.
Variable rec : ctx -> nat -> lv -> M W lv.
Hypothesis Hrec : forall c env e, Stays (rec c env e).
Lemma stays_map f l : (forall v, Stays (f v)) -> Stays (map_m W f l).
Proof. intros Hf. induction l as [|x l IH]; cbn [map_m]; [apply stays_ret|]. apply stays_bind; [apply Hf|]. intros v. apply stays_bind; [exact IH|]. intros vs. apply stays_ret. Qed.
Lemma stays_filter f l : (forall v, Stays (f v)) -> Stays (filter_m W f l).
Proof. intros Hf. induction l as [|x l IH]; cbn [filter_m]; [apply stays_ret|]. apply stays_bind; [apply Hf|]. intros v. apply stays_bind; [exact IH|]. intros vs. apply stays_ret. Qed.
Lemma stays_block c env l : Stays (block W rec c env l).
Proof. induction l as [|x l IH]; cbn [block]; [apply stays_ret|]. destruct l as [|y l]; [apply Hrec|]. apply stays_bind; [apply Hrec|]. intros _. exact IH. Qed.
Lemma stays_decls after c env l : (forall k v, Stays (after k v)) -> Stays (decls W rec after c env l).
Proof.
  intros Ha. induction l as [|d l IH]; cbn [decls]; [apply stays_ret|].
  destruct d as [| | | | |[|[| | | |k| | | | | |] [|e r]]| | | | |]; try apply stays_fail.
  apply stays_bind; [apply Hrec|]. intros v. apply stays_bind; [apply Ha|]. intros _. apply stays_bind; [apply R_define|]. intros _. exact IH.
Qed.
Lemma stays_cond c env l : Stays (cond W rec c env l).
Proof.
  induction l as [|d l IH]; cbn [cond]; [apply stays_ret|].
  destruct d as [| | | | |[|t [|e r]]| | | | |]; try apply stays_fail.
  apply stays_bind; [apply Hrec|]. intros v. destruct (truthy v); [apply Hrec|exact IH].
Qed.
Lemma stays_and_or b c env l : forall last, Stays (and_or W rec b c env last l).
Proof. induction l as [|x l IH]; intros last; cbn [and_or]; [apply stays_ret|]. apply stays_bind; [apply Hrec|]. intros v. destruct (eqb b (truthy v)); [apply stays_ret|apply IH]. Qed.
Lemma stays_args i ns : forall args, Stays (bind_args W i ns args).
Proof.
  induction ns as [|n ns IH]; intros args; cbn [bind_args]; [apply stays_ret|]. destruct (str_eqb n (lit "...")); [apply R_define|].
  destruct args as [|v args]; [apply IH|]. apply stays_bind; [apply R_define|]. intros _. apply IH.
Qed.
Lemma stays_call env fn args : Stays (call W native rec env fn args).
Proof.
  destruct fn as [| | | | | | |n|cl ns body|cl ns body|]; cbn [call]; try apply stays_fail.
  - destruct (str_eqb n (lit "eval")); [destruct args; [apply stays_fail|apply Hrec]|].
    destruct (str_eqb n (lit "apply")); [destruct args as [|f [|[| | | | |ps| | | | |] r]]; try apply stays_fail; apply Hrec|].
    destruct (str_eqb n (lit "map")); [destruct args as [|f [|[| | | | |ps| | | | |] r]]; try apply stays_fail; apply stays_bind; [apply stays_map; intros v; apply Hrec|intros vs; apply stays_ret]|].
    destruct (str_eqb n (lit "filter")); [destruct args as [|f [|[| | | | |ps| | | | |] r]]; try apply stays_fail; apply stays_bind; [apply stays_filter; intros v; apply Hrec|intros vs; apply stays_ret]|].
    apply R_native.
  - apply stays_bind; [apply R_extend|]. intros i. apply stays_bind; [apply stays_args|]. intros _. apply stays_block.
  - apply stays_bind; [apply R_extend|]. intros i. apply stays_bind; [apply stays_args|]. intros _. apply stays_block.
Qed.
Lemma stays_settle f env : forall m, Stays m -> Stays (settle W native rec f env m).
Proof.
  induction f as [|f IH]; intros m Hm s; cbn [settle]; specialize (Hm s); destruct (m s) as [v s1|s1|]; try exact Hm; destruct v; try exact Hm; [exact I|].
  pose proof (IH _ (stays_call env v args) s1) as H. destruct (settle W native rec f env (call W native rec env v args) s1); [| |exact I]; now apply (R_trans _ s1).
Qed.
Ltac sbind := apply stays_bind; [|intros ?].
Lemma stays_step tco fuel c env e : Stays (step W native sv aa rec tco fuel c env e).
Proof.
  unfold step. destruct e as [| | | |k|[|h t]| | | | |]; try apply stays_ret.
  { destruct (quoting c); [apply stays_ret|apply stays_get]. }
  destruct (quoting c && _)%bool.
  { sbind; [apply stays_map; intros v; apply Hrec|apply stays_ret]. }
  destruct (form_of h) as [[]|].
  - destruct t; [apply stays_fail|apply Hrec].
  - destruct t; [apply stays_fail|apply Hrec].
  - destruct t as [|[| | | |k| | | | | |] [|x r]]; try apply stays_fail. sbind; [apply Hrec|]. sbind; [apply R_define|apply stays_ret].
  - destruct t as [|[| | | |k| | | | | |] [|x r]]; try apply stays_fail. sbind; [apply Hrec|]. sbind; [apply R_set|apply stays_ret].
  - destruct t as [|[| | | |k| | | | | |] [|[| | | | |a| | | | |] body]]; try apply stays_fail. destruct (argnames a); [|apply stays_fail]. sbind; [apply R_define|apply stays_ret].
  - destruct t as [|[| | | |k| | | | | |] [|[| | | | |a| | | | |] body]]; try apply stays_fail. destruct (argnames a); [|apply stays_fail]. sbind; [apply R_define|apply stays_ret].
  - destruct t as [|[| | | |k| | | | | |] [|x r]]; try apply stays_fail. sbind; [apply R_complete|apply stays_ret].
  - destruct t as [|[| | | | |a| | | | |] body]; try apply stays_fail. destruct (argnames a); [apply stays_ret|apply stays_fail].
  - destruct t as [|[| | | | |ds| | | | |] body]; try apply stays_fail. sbind; [apply R_extend|]. sbind; [apply stays_decls; intros; apply stays_ret|apply stays_block].
  - destruct t as [|[| | | | |ds| | | | |] body]; try apply stays_fail. sbind; [apply R_extend|]. sbind; [apply stays_decls; intros; apply R_variable|apply stays_block].
  - apply stays_block.
  - apply stays_cond.
  - destruct t as [|x body]; [apply stays_fail|]. sbind; [apply Hrec|]. destruct (truthy a); [apply stays_block|apply stays_ret].
  - destruct t as [|x [|a r]]; try apply stays_fail. sbind; [apply Hrec|]. destruct (truthy a0); [apply Hrec|]. destruct r; [apply stays_ret|apply Hrec].
  - apply stays_and_or.
  - apply stays_and_or.
  - sbind; [apply Hrec|]. destruct (is_macro a); [sbind; [apply stays_call|apply Hrec]|].
    sbind; [apply stays_map; intros v; apply Hrec|]. destruct (tco && _ && _)%bool; [apply stays_ret|apply stays_settle, stays_call].
Qed.
End Step.
Theorem eval_stays tco n : forall c env e, Stays (eval W native sv aa tco n c env e).
Proof. induction n as [|n IH]; intros c env e; cbn [eval]; [intros s; exact I|]. now apply stays_step. Qed.
End Stays.
