From Verif Require Import Base Pipe_Model Pipe_Spec.

(** ** Tables *)

Lemma get_nil n : get [] n = None.
Proof. unfold get. now destruct n. Qed.

Lemma get_put t : forall n e m, get (put t n e) m = if m =? n then e else get t m.
Proof.
  intros n. revert t. induction n as [|n IH]; intros [|x t] e [|m]; cbn; try reflexivity.
  - unfold get. cbn. now destruct m.
  - change (get (put [] n e) m = if m =? n then e else None).
    rewrite IH, get_nil. reflexivity.
  - change (get (put t n e) m = if m =? n then e else get t m). apply IH.
Qed.

Lemma get_close t n m : get (close t n) m = if m =? n then None else get t m.
Proof. apply get_put. Qed.

Lemma lowest_free t : get t (lowest t) = None.
Proof. induction t as [|[x|] t IH]; try reflexivity. exact IH. Qed.

Lemma alloc_free pick t : get t (alloc pick t) = None.
Proof.
  unfold alloc. destruct (get t (pick t)) eqn:E; [apply lowest_free|exact E].
Qed.

Lemma get_exec t n : get (exec_table t) n = exec_entry (get t n).
Proof.
  unfold get, exec_table. rewrite <- (map_nth exec_entry t None n). reflexivity.
Qed.

Arguments put : simpl never.
Arguments get : simpl never.

Definition kept (e : option ent) : option obj := option_map what (exec_entry e).

(** ** The child's set-up *)

Definition dupped (same : bool) (x : ent) : ent := if same then x else Ent (what x) false.

Ltac tab := repeat (rewrite get_put || rewrite get_close).

Ltac decide_eqs :=
  repeat match goal with
         | |- context [?a =? ?b] =>
             first [ replace (a =? b) with true by (symmetry; apply Nat.eqb_eq; lia)
                   | replace (a =? b) with false by (symmetry; apply Nat.eqb_neq; lia)
                   | let E := fresh "E" in destruct (a =? b) eqn:E;
                     [apply Nat.eqb_eq in E | apply Nat.eqb_neq in E] ]
         end.


Lemma eqb_t a b : a = b -> (a =? b) = true.
Proof. apply Nat.eqb_eq. Qed.
Lemma eqb_f a b : a <> b -> (a =? b) = false.
Proof. apply Nat.eqb_neq. Qed.

Lemma setup_stdin_ok t i o e ei :
  (i = 0 \/ 2 < i) -> get t i = Some ei ->
  exists t', setup_stdin t i o e = Some t' /\
    get t' 0 = Some (dupped (i =? 0) ei) /\
    forall fd, fd <> 0 ->
      get t' fd = if (fd =? i) && negb ((i =? o) || (i =? e)) then None else get t fd.
Proof.
  intros [-> | Hi] G; unfold setup_stdin.
  - rewrite Nat.eqb_refl. cbn [Nat.ltb Nat.leb andb]. exists t. split; [reflexivity|]. split; [exact G|].
    intros fd Hfd. rewrite (eqb_f _ _ Hfd). reflexivity.
  - rewrite (eqb_f i 0) by lia. unfold dup2. rewrite G.
    replace (2 <? i) with true by (symmetry; apply Nat.ltb_lt; lia). cbn [andb].
    destruct ((i =? o) || (i =? e)) eqn:K; cbn [negb].
    + eexists. split; [reflexivity|]. tab. split; [reflexivity|].
      intros fd Hfd. rewrite get_put, (eqb_f _ _ Hfd), andb_false_r. reflexivity.
    + unfold close_checked. rewrite get_put, (eqb_f i 0), G by lia.
      eexists. split; [reflexivity|]. tab. rewrite (eqb_f 0 i) by lia. split; [reflexivity|].
      intros fd Hfd. tab. rewrite (eqb_f _ _ Hfd), andb_true_r. reflexivity.
Qed.

Lemma setup_same_ok t o eo :
  2 < o -> get t o = Some eo ->
  exists t', setup_same t o = Some t' /\
    get t' 1 = Some (dupped false eo) /\ get t' 2 = Some (dupped false eo) /\
    forall fd, fd <> 1 -> fd <> 2 -> get t' fd = if fd =? o then None else get t fd.
Proof.
  intros Ho G. unfold setup_same.
  rewrite (eqb_f o 1) by lia. unfold dup2 at 1. rewrite G. cbn [what].
  rewrite (eqb_f o 2) by lia. unfold dup2. rewrite get_put, (eqb_f o 1), G by lia.
  replace (2 <? o) with true by (symmetry; apply Nat.ltb_lt; lia).
  unfold close_checked. tab. rewrite (eqb_f o 2), (eqb_f o 1), G by lia.
  eexists. split; [reflexivity|]. tab.
  rewrite (eqb_f 1 o), (eqb_f 2 o) by lia. split; [reflexivity|]. split; [reflexivity|].
  intros fd H1 H2. tab. rewrite (eqb_f fd 2), (eqb_f fd 1) by lia. reflexivity.
Qed.

Lemma setup_one_ok t from n x :
  (n = 1 \/ n = 2) -> (from = n \/ 2 < from) -> get t from = Some x ->
  exists t', setup_one t from n = Some t' /\
    get t' n = Some (dupped (from =? n) x) /\
    forall fd, fd <> n -> get t' fd = if fd =? from then None else get t fd.
Proof.
  intros Hn [-> | Hf] G; unfold setup_one.
  - rewrite Nat.eqb_refl. exists t. split; [reflexivity|]. split; [exact G|].
    intros fd Hfd. now rewrite (eqb_f _ _ Hfd).
  - rewrite (eqb_f from n) by lia. unfold dup2. rewrite G.
    replace (2 <? from) with true by (symmetry; apply Nat.ltb_lt; lia).
    unfold close_checked. rewrite get_put, (eqb_f from n), G by lia.
    eexists. split; [reflexivity|]. tab. rewrite (eqb_f n from), Nat.eqb_refl by lia.
    split; [reflexivity|]. intros fd Hfd. tab. now rewrite (eqb_f _ _ Hfd).
Qed.

Lemma child_setup_ok t i o e ei eo ee :
  (i = 0 \/ 2 < i) -> (o = 1 \/ 2 < o) -> (e = 2 \/ 2 < e) ->
  get t i = Some ei -> get t o = Some eo -> get t e = Some ee ->
  exists t', child_setup t i o e = Some t' /\
    get t' 0 = Some (dupped (i =? 0) ei) /\
    get t' 1 = Some (dupped (o =? 1) eo) /\
    get t' 2 = Some (dupped (e =? 2) ee) /\
    forall fd, 2 < fd ->
      get t' fd = if (fd =? i) || (fd =? o) || (fd =? e) then None else get t fd.
Proof.
  intros Hi Ho He Gi Go Ge. unfold child_setup.
  destruct (setup_stdin_ok t i o e ei Hi Gi) as (t1 & -> & A0 & A).
  assert (get t1 o = Some eo) as Go1.
  { rewrite A by lia. destruct (Nat.eqb_spec o i) as [->|]; cbn [andb]; [|exact Go].
    rewrite Nat.eqb_refl. exact Go. }
  assert (get t1 e = Some ee) as Ge1.
  { rewrite A by lia. destruct (Nat.eqb_spec e i) as [->|]; cbn [andb]; [|exact Ge].
    rewrite Nat.eqb_refl, orb_true_r. exact Ge. }
  destruct (Nat.eqb_spec o e) as [E|E].
  - subst e. assert (2 < o) as Ho' by lia.
    assert (ee = eo) as -> by congruence.
    destruct (setup_same_ok t1 o eo Ho' Go1) as (t2 & -> & B1 & B2 & B).
    exists t2. rewrite B1, B2, (eqb_f o 1), (eqb_f o 2) by lia.
    split; [reflexivity|].
    split; [rewrite B by lia; rewrite (eqb_f 0 o) by lia; exact A0|].
    split; [reflexivity|]. split; [reflexivity|].
    intros fd Hfd. rewrite B by lia. rewrite A by lia. rewrite (Nat.eqb_sym i o).
    destruct (fd =? o) eqn:Fo.
    + rewrite orb_true_r. reflexivity.
    + destruct (Nat.eqb_spec fd i) as [->|Fi]; cbn [andb orb]; [|reflexivity].
      rewrite Nat.eqb_sym in Fo. rewrite Fo. reflexivity.
  - destruct (setup_one_ok t1 o 1 eo (or_introl eq_refl) Ho Go1) as (t2 & -> & B1 & B).
    assert (get t2 e = Some ee) as Ge2.
    { rewrite B by lia. rewrite (eqb_f e o) by lia. exact Ge1. }
    destruct (setup_one_ok t2 e 2 ee (or_intror eq_refl) He Ge2) as (t3 & -> & C2 & C).
    exists t3. split; [reflexivity|].
    split; [rewrite C, (eqb_f 0 e), B, (eqb_f 0 o) by lia; exact A0|].
    split; [rewrite C, (eqb_f 1 e) by lia; exact B1|].
    split; [exact C2|].
    intros fd Hfd. rewrite C, B, A by lia.
    destruct (fd =? e) eqn:Fe; [now rewrite !orb_true_r|].
    destruct (fd =? o) eqn:Fo; [now rewrite !orb_true_r|].
    destruct (Nat.eqb_spec fd i) as [->|Fi]; cbn [andb orb]; [|reflexivity].
    rewrite Fo, Fe. reflexivity.
Qed.

(** What a started command sees, from the shell's table at the fork. *)
Definition started (t : table) (i o e : nat) : proc :=
  Proc Command true (option_map exec_table (child_setup t i o e)) (0, 1, 2).

(** a number that is fit to become standard stream [n] *)
Definition fit (n fd : nat) (x : ent) : Prop := (fd = n /\ cloexec x = false) \/ 2 < fd.

Lemma kept_dupped n fd x : fit n fd x -> n <= 2 ->
  option_map what (exec_entry (Some (dupped (fd =? n) x))) = Some (what x).
Proof.
  intros [[-> H] | H] Hn; unfold dupped; cbn.
  - rewrite Nat.eqb_refl, H. reflexivity.
  - rewrite (eqb_f fd n) by lia. reflexivity.
Qed.

Lemma started_ok t i o e ei eo ee :
  fit 0 i ei -> fit 1 o eo -> fit 2 e ee ->
  get t i = Some ei -> get t o = Some eo -> get t e = Some ee ->
  stdin_of (started t i o e) = Some (what ei) /\
  stdout_of (started t i o e) = Some (what eo) /\
  stderr_of (started t i o e) = Some (what ee) /\
  (forall fd, 2 < fd -> finds (started t i o e) fd =
     if (fd =? i) || (fd =? o) || (fd =? e) then None
     else kept (get t fd)).
Proof.
  intros Hi Ho He Gi Go Ge.
  destruct (child_setup_ok t i o e ei eo ee) as (t' & E & A0 & A1 & A2 & A); try assumption;
    try (unfold fit in *; lia).
  unfold stdin_of, stdout_of, stderr_of, finds, started. cbn [ptab fds fst snd].
  rewrite E. cbn [option_map]. rewrite !get_exec, A0, A1, A2.
  split; [apply kept_dupped; [exact Hi|lia]|].
  split; [apply kept_dupped; [exact Ho|lia]|].
  split; [apply kept_dupped; [exact He|lia]|].
  intros fd Hfd. rewrite get_exec, A by exact Hfd. unfold kept.
  now destruct ((fd =? i) || (fd =? o) || (fd =? e)).
Qed.

(** pipe(2) *)
Lemma new_pipe_ok pick s r w s' : new_pipe pick s = (r, w, s') ->
  get (tb s) r = None /\ get (tb s) w = None /\ r <> w /\
  (forall fd, get (tb s') fd = if fd =? w then Some (Ent (PipeW (np s)) false)
                               else if fd =? r then Some (Ent (PipeR (np s)) false)
                               else get (tb s) fd) /\
  np s' = S (np s) /\ cx s' = cx s /\ procs s' = procs s /\
  monitors s' = monitors s /\ copiers s' = copiers s.
Proof.
  unfold new_pipe. intros E. injection E as <- <- <-.
  set (r := alloc pick (tb s)). set (t1 := put (tb s) r _). set (w := alloc pick t1).
  assert (get (tb s) r = None) as Hr by apply alloc_free.
  assert (get t1 w = None) as Hw by apply alloc_free.
  unfold t1 in Hw. rewrite get_put in Hw.
  destruct (Nat.eqb_spec w r) as [e|Hne]; [discriminate Hw|].
  split; [exact Hr|]. split; [exact Hw|]. split; [congruence|].
  split; [|cbn; auto].
  intros fd. cbn [tb]. unfold t1. tab. reflexivity.
Qed.

(** ** Framing: the numbers in which the shell's table differs from [t0] *)
Definition frame (t0 t : table) (Z : list nat) : Prop :=
  forall fd, (In fd Z -> get t0 fd = None /\ get t fd <> None) /\
             (~ In fd Z -> get t fd = get t0 fd).

Lemma frame_old t0 t Z fd e : frame t0 t Z -> get t0 fd = Some e -> get t fd = Some e /\ ~ In fd Z.
Proof.
  intros F G. destruct (in_dec Nat.eq_dec fd Z) as [i|i].
  - destruct (F fd) as [H _]. destruct (H i) as [H' _]. congruence.
  - destruct (F fd) as [_ H]. rewrite (H i). auto.
Qed.

Lemma frame_free t0 t Z fd : frame t0 t Z -> get t fd = None -> get t0 fd = None /\ ~ In fd Z.
Proof.
  intros F G. destruct (in_dec Nat.eq_dec fd Z) as [i|i].
  - destruct (F fd) as [H _]. destruct (H i) as [_ H']. congruence.
  - destruct (F fd) as [_ H]. rewrite <- (H i). auto.
Qed.

Lemma frame_pipe t0 t Z r w t' o1 o2 :
  frame t0 t Z -> get t r = None -> get t w = None ->
  (forall fd, get t' fd = if fd =? w then Some o1 else if fd =? r then Some o2 else get t fd) ->
  frame t0 t' (r :: w :: Z).
Proof.
  intros F Hr Hw E fd. rewrite E. cbn [In].
  destruct (frame_free _ _ _ _ F Hr) as [R0 R1]. destruct (frame_free _ _ _ _ F Hw) as [W0 W1].
  destruct (F fd) as [H1 H2].
  destruct (Nat.eqb_spec fd w) as [->|Hw']; [split; [intros _; split; [exact W0|discriminate]|tauto]|].
  destruct (Nat.eqb_spec fd r) as [->|Hr']; [split; [intros _; split; [exact R0|discriminate]|tauto]|].
  split; [intros [e|[e|i]]; [congruence|congruence|exact (H1 i)]|]. intros n. apply H2. tauto.
Qed.

Lemma frame_close t0 t Z fd Z' :
  frame t0 t Z -> In fd Z -> (forall x, In x Z' <-> In x Z /\ x <> fd) ->
  frame t0 (close t fd) Z'.
Proof.
  intros F i E x. rewrite get_close. destruct (F x) as [H1 H2]. rewrite E.
  destruct (Nat.eqb_spec x fd) as [->|n].
  - destruct (H1 i) as [G _]. split; [tauto|]. intros _. now rewrite G.
  - split; [intros [j _]; exact (H1 j)|]. intros j. apply H2. tauto.
Qed.

(** ** One stage *)

Definition rfds (r : option (nat * nat)) : list nat :=
  match r with Some (fd, _) => [fd] | None => [] end.

Lemma apply_slave_eq slave c :
  apply_slave slave c =
  Ctx (match slave with Some sl => if infile c =? 0 then sl else infile c | None => infile c end)
      (match slave with Some sl => if outfile c =? 1 then sl else outfile c | None => outfile c end)
      (match slave with Some sl => if errfile c =? 2 then sl else errfile c | None => errfile c end)
      (captured c) (foreground c) (interactive c).
Proof.
  unfold apply_slave. destruct slave as [sl|]; [|now destruct c].
  destruct c as [i o e ca f it]. unfold set_in, set_out, set_err; cbn [infile outfile errfile captured foreground interactive].
  destruct (i =? 0); cbn; destruct (o =? 1); cbn; destruct (e =? 2); reflexivity.
Qed.

Section Stages.
Variable pick : table -> nat.
Variables (t0 : table) (n0 : nat) (slave : option nat) (fg inter : bool).
Hypothesis Ready : ready t0 n0.
Hypothesis SlaveReady : slave_ready t0 slave.

(** The shell between two stages: it holds what it held before the job, the
    monitored read ends, and the read end [r] that the next stage will read. *)
Record Inv (s : st) (r : option (nat * nat)) : Prop := {
  iv_frame : frame t0 (tb s) (rfds r ++ monitors s);
  iv_mon : forall fd, In fd (monitors s) ->
             exists k, n0 <= k < np s /\ get (tb s) fd = Some (Ent (PipeR k) false);
  iv_r : forall fd k, r = Some (fd, k) ->
           n0 <= k < np s /\ get (tb s) fd = Some (Ent (PipeR k) false) /\ ~ In fd (monitors s);
  iv_np : n0 <= np s;
  iv_in : infile (cx s) = match r with Some (fd, _) => fd | None => 0 end;
  iv_out : r = None -> outfile (cx s) = 1;
  iv_err : errfile (cx s) = 2 \/ slave = Some (errfile (cx s));
  iv_fg : foreground (cx s) = fg;
  iv_inter : interactive (cx s) = inter;
  iv_cap : captured (cx s) = None
}.

Lemma inv_no_write s r fd k : Inv s r -> option_map what (get (tb s) fd) = Some (PipeW k) -> k < n0.
Proof.
  intros I G. destruct (in_dec Nat.eq_dec fd (rfds r ++ monitors s)) as [i|i].
  - apply in_app_or in i. destruct i as [i|i].
    + destruct r as [[rf rk]|]; [|destruct i]. destruct i as [<-|[]].
      destruct (iv_r _ _ I rf rk eq_refl) as (_ & E & _). rewrite E in G. discriminate G.
    + destruct (iv_mon _ _ I fd i) as (x & _ & E). rewrite E in G. discriminate G.
  - destruct (iv_frame _ _ I fd) as [_ H]. rewrite (H i) in G.
    destruct Ready as (_ & _ & _ & P). apply (P fd k). auto.
Qed.

(** numbers of the shell's own things are not among the free ones *)
Lemma inv_std s r : Inv s r ->
  get (tb s) 0 = Some (Ent (Old 0) false) /\ get (tb s) 1 = Some (Ent (Old 1) false) /\
  get (tb s) 2 = Some (Ent (Old 2) false).
Proof.
  intros I. destruct Ready as (R0 & R1 & R2 & _).
  split; [|split]; eapply (fun F G => proj1 (frame_old t0 (tb s) _ _ _ F G)); try apply (iv_frame _ _ I); assumption.
Qed.

Lemma free_big s r fd : Inv s r -> get (tb s) fd = None -> 2 < fd.
Proof.
  intros I G. destruct (inv_std _ _ I) as (R0 & R1 & R2).
  destruct fd as [|[|[|fd]]]; try congruence; try lia.
Qed.

Lemma free_not_slave s r fd : Inv s r -> get (tb s) fd = None -> slave <> Some fd.
Proof.
  intros I G E. unfold slave_ready in SlaveReady. rewrite E in SlaveReady.
  destruct SlaveReady as (_ & x & Hx).
  destruct (frame_old _ _ _ _ _ (iv_frame _ _ I) Hx) as [G' _]. congruence.
Qed.

(** the number and the object the next stage reads *)
Definition in_fd (s : st) : nat :=
  match slave with Some sl => if infile (cx s) =? 0 then sl else infile (cx s) | None => infile (cx s) end.
Definition in_obj (r : option (nat * nat)) : obj :=
  match r with
  | Some (_, k) => PipeR k
  | None => match slave with Some _ => Slave | None => Old 0 end
  end.

Lemma r_big s fd k : Inv s (Some (fd, k)) -> 2 < fd.
Proof.
  intros I. destruct (iv_r _ _ I fd k eq_refl) as (_ & G & _).
  destruct (inv_std _ _ I) as (R0 & R1 & R2).
  destruct fd as [|[|[|fd]]]; try congruence; lia.
Qed.

Lemma in_ok s r : Inv s r ->
  exists x, get (tb s) (in_fd s) = Some x /\ what x = in_obj r /\ fit 0 (in_fd s) x.
Proof.
  intros I. pose proof (iv_in _ _ I) as Ein. unfold in_fd, in_obj.
  destruct r as [[fd k]|].
  - pose proof (r_big _ _ _ I) as B. destruct (iv_r _ _ I fd k eq_refl) as (_ & G & _).
    rewrite Ein, (eqb_f fd 0) by lia.
    replace (match slave with Some _ => fd | None => fd end) with fd by now destruct slave.
    eexists. split; [exact G|]. split; [reflexivity|]. right. exact B.
  - rewrite Ein. cbn [Nat.eqb]. destruct (inv_std _ _ I) as (R0 & _).
    unfold slave_ready in SlaveReady. destruct slave as [sl|].
    + destruct SlaveReady as (B & x & Hx).
      destruct (frame_old _ _ _ _ _ (iv_frame _ _ I) Hx) as [G' _].
      eexists. split; [exact G'|]. split; [reflexivity|]. right. exact B.
    + eexists. split; [exact R0|]. split; [reflexivity|]. left. auto.
Qed.

Definition err_fd (s : st) : nat :=
  match slave with Some sl => if errfile (cx s) =? 2 then sl else errfile (cx s) | None => errfile (cx s) end.

Lemma err_ok s r : Inv s r ->
  err_fd s = match slave with Some sl => sl | None => 2 end /\
  exists x, get (tb s) (err_fd s) = Some x /\
    what x = (match slave with Some _ => Slave | None => Old 2 end) /\ fit 2 (err_fd s) x.
Proof.
  intros I. assert (err_fd s = match slave with Some sl => sl | None => 2 end) as E.
  { unfold err_fd. destruct slave as [sl|] eqn:S; destruct (iv_err _ _ I) as [H|H]; try congruence.
    - now rewrite H.
    - rewrite S in H. injection H as H. rewrite <- H. now destruct (sl =? 2). }
  split; [exact E|]. rewrite E. unfold slave_ready in SlaveReady.
  destruct (inv_std _ _ I) as (_ & _ & R2). destruct slave as [sl|].
  - destruct SlaveReady as (B & x & Hx).
    destruct (frame_old _ _ _ _ _ (iv_frame _ _ I) Hx) as [G' _].
    eexists. split; [exact G'|]. split; [reflexivity|]. right. exact B.
  - eexists. split; [exact R2|]. split; [reflexivity|]. left. auto.
Qed.


(** The shell's table at a fork: since [s], pipes were created whose write ends
    are [W] and whose read ends are [R]. *)
Record Grown (s : st) (T : table) (W R : list (nat * nat)) : Prop := {
  g_w : forall fd k, In (fd, k) W -> get T fd = Some (Ent (PipeW k) false) /\ get (tb s) fd = None;
  g_r : forall fd k, In (fd, k) R -> get T fd = Some (Ent (PipeR k) false) /\ get (tb s) fd = None;
  g_else : forall fd, ~ In fd (map fst W) -> ~ In fd (map fst R) -> get T fd = get (tb s) fd
}.

Lemma grown_refl s : Grown s (tb s) [] [].
Proof. split; [intros ? ? []|intros ? ? []|reflexivity]. Qed.

Lemma in_fst (l : list (nat * nat)) fd : In fd (map fst l) -> exists k, In (fd, k) l.
Proof. intros i. apply in_map_iff in i. destruct i as ([a b] & <- & i). exists b. exact i. Qed.

Lemma fst_in (l : list (nat * nat)) fd k : In (fd, k) l -> In fd (map fst l).
Proof. intros i. apply in_map_iff. exists (fd, k). auto. Qed.

Lemma grown_open s T W R fd x : Grown s T W R -> get (tb s) fd = Some x ->
  get T fd = Some x /\ ~ In fd (map fst W) /\ ~ In fd (map fst R).
Proof.
  intros G H.
  assert (~ In fd (map fst W)) as A.
  { intros i. destruct (in_fst _ _ i) as [k j]. destruct (g_w _ _ _ _ G _ _ j). congruence. }
  assert (~ In fd (map fst R)) as B.
  { intros i. destruct (in_fst _ _ i) as [k j]. destruct (g_r _ _ _ _ G _ _ j). congruence. }
  rewrite (g_else _ _ _ _ G fd A B). auto.
Qed.

Lemma grown_free s T W R fd : Grown s T W R -> get T fd = None ->
  get (tb s) fd = None /\ ~ In fd (map fst W) /\ ~ In fd (map fst R).
Proof.
  intros G H.
  assert (~ In fd (map fst W)) as A.
  { intros i. destruct (in_fst _ _ i) as [k j]. destruct (g_w _ _ _ _ G _ _ j). congruence. }
  assert (~ In fd (map fst R)) as B.
  { intros i. destruct (in_fst _ _ i) as [k j]. destruct (g_r _ _ _ _ G _ _ j). congruence. }
  rewrite <- (g_else _ _ _ _ G fd A B). auto.
Qed.

Lemma grown_pipe s T W R s1 r w s2 :
  Grown s T W R -> tb s1 = T -> new_pipe pick s1 = (r, w, s2) ->
  Grown s (tb s2) ((w, np s1) :: W) ((r, np s1) :: R).
Proof.
  intros G <- E. destruct (new_pipe_ok _ _ _ _ _ E) as (Fr & Fw & Hne & T2 & _).
  destruct (grown_free _ _ _ _ _ G Fr) as (A1 & A2 & A3).
  destruct (grown_free _ _ _ _ _ G Fw) as (B1 & B2 & B3).
  split.
  - intros fd k [[= <- <-]|i].
    + rewrite T2, Nat.eqb_refl. auto.
    + destruct (g_w _ _ _ _ G _ _ i) as [X Y]. split; [|exact Y].
      rewrite T2, (eqb_f fd w), (eqb_f fd r); [exact X| |];
        intros ->; apply fst_in in i; auto.
  - intros fd k [[= <- <-]|i].
    + rewrite T2, (eqb_f r w), Nat.eqb_refl by exact Hne. auto.
    + destruct (g_r _ _ _ _ G _ _ i) as [X Y]. split; [|exact Y].
      rewrite T2, (eqb_f fd w), (eqb_f fd r); [exact X| |];
        intros ->; apply fst_in in i; auto.
  - cbn [map fst In]. intros fd N1 N2.
    rewrite T2, (eqb_f fd w), (eqb_f fd r) by intuition congruence.
    apply (g_else _ _ _ _ G); tauto.
Qed.

(** who can write, seen from a fork *)
Lemma grown_write s r T W R fd k : Inv s r -> Grown s T W R ->
  option_map what (get T fd) = Some (PipeW k) -> k < n0 \/ In k (map snd W).
Proof.
  intros I G H.
  destruct (in_dec Nat.eq_dec fd (map fst W)) as [i|i].
  - destruct (in_fst _ _ i) as [k' j]. destruct (g_w _ _ _ _ G _ _ j) as [E _].
    rewrite E in H. injection H as <-. right. apply in_map_iff. exists (fd, k'). auto.
  - destruct (in_dec Nat.eq_dec fd (map fst R)) as [j|j].
    + destruct (in_fst _ _ j) as [k' j']. destruct (g_r _ _ _ _ G _ _ j') as [E _].
      rewrite E in H. discriminate H.
    + rewrite (g_else _ _ _ _ G _ i j) in H. left. exact (inv_no_write _ _ _ _ I H).
Qed.

(** the frame after the fork, when the write ends and the stage's own input are
    closed *)
Lemma grown_frame s r T W R T' :
  Inv s r -> Grown s T W R ->
  (forall fd, get T' fd = if existsb (Nat.eqb fd) (map fst W ++ rfds r) then None else get T fd) ->
  frame t0 T' (map fst R ++ monitors s).
Proof.
  intros I G E fd. rewrite E. split.
  - intros i. apply in_app_or in i. destruct i as [i|i].
    + destruct (in_fst _ _ i) as [k j]. destruct (g_r _ _ _ _ G _ _ j) as [X Y].
      destruct (frame_free _ _ _ _ (iv_frame _ _ I) Y) as [Z1 Z2].
      split; [exact Z1|].
      destruct (existsb (Nat.eqb fd) (map fst W ++ rfds r)) eqn:B; [exfalso|congruence].
      apply existsb_exists in B. destruct B as (y & B & Ey). apply Nat.eqb_eq in Ey. subst y.
      apply in_app_or in B. destruct B as [B|B].
      * destruct (in_fst _ _ B) as [k' j']. destruct (g_w _ _ _ _ G _ _ j') as [X' _]. congruence.
      * apply Z2. apply in_or_app. auto.
    + destruct (iv_mon _ _ I _ i) as (k & _ & X).
      destruct (grown_open _ _ _ _ _ _ G X) as (X1 & X2 & X3).
      split.
      { destruct (iv_frame _ _ I fd) as [F _]. apply F. apply in_or_app. auto. }
      destruct (existsb (Nat.eqb fd) (map fst W ++ rfds r)) eqn:B; [exfalso|congruence].
      apply existsb_exists in B. destruct B as (y & B & Ey). apply Nat.eqb_eq in Ey. subst y.
      apply in_app_or in B. destruct B as [B|B]; [exact (X2 B)|].
      destruct r as [[rf rk]|]; [|destruct B]. destruct B as [<-|[]].
      destruct (iv_r _ _ I rf rk eq_refl) as (_ & _ & N). exact (N i).
  - intros n.
    destruct (existsb (Nat.eqb fd) (map fst W ++ rfds r)) eqn:B.
    + apply existsb_exists in B. destruct B as (y & B & Ey). apply Nat.eqb_eq in Ey. subst y.
      symmetry. apply in_app_or in B. destruct B as [B|B].
      * destruct (in_fst _ _ B) as [k' j']. destruct (g_w _ _ _ _ G _ _ j') as [_ Y].
        exact (proj1 (frame_free _ _ _ _ (iv_frame _ _ I) Y)).
      * destruct (iv_frame _ _ I fd) as [F _]. apply F. apply in_or_app. auto.
    + assert (~ In fd (map fst W) /\ ~ In fd (rfds r)) as [N1 N2].
      { split; intros i; rewrite (proj2 (existsb_exists _ _)) in B; try discriminate B;
          exists fd; (split; [apply in_or_app; auto|apply Nat.eqb_refl]). }
      rewrite (g_else _ _ _ _ G) by (auto; intros i; apply n, in_or_app; auto).
      apply (iv_frame _ _ I fd). intros i. apply in_app_or in i.
      destruct i as [i|i]; [exact (N2 i)|]. apply n, in_or_app. auto.
Qed.

(** every object a started command sees comes from the shell's table *)
Lemma started_from t i o e ei eo ee fd x :
  fit 0 i ei -> fit 1 o eo -> fit 2 e ee ->
  get t i = Some ei -> get t o = Some eo -> get t e = Some ee ->
  finds (started t i o e) fd = Some x ->
  exists fd', option_map what (get t fd') = Some x.
Proof.
  intros Hi Ho He Gi Go Ge F.
  destruct (started_ok t i o e ei eo ee Hi Ho He Gi Go Ge) as (A0 & A1 & A2 & A).
  unfold stdin_of, stdout_of, stderr_of in *. cbn [fds started fst snd] in *.
  destruct fd as [|[|[|fd]]].
  - exists i. rewrite Gi. cbn. congruence.
  - exists o. rewrite Go. cbn. congruence.
  - exists e. rewrite Ge. cbn. congruence.
  - rewrite A in F by lia. destruct (_ || _ || _) in F; [discriminate F|].
    exists (S (S (S fd))). unfold kept, exec_entry in F. destruct (get t (S (S (S fd)))) as [y|]; [|discriminate F].
    destruct (cloexec y); [discriminate F|]. exact F.
Qed.

Lemma close_io_get i o e t fd :
  get (close_io slave None (i, o, e) t) fd =
  if ((fd =? i) && negb (i =? 0) && negb (some_is slave i))
     || ((fd =? o) && negb (o =? 1) && negb (some_is slave o))
     || ((fd =? e) && negb (e =? 2) && negb (o =? e) && negb (some_is slave e))
  then None else get t fd.
Proof.
  unfold close_io.
  destruct (i =? 0), (some_is slave i), (o =? 1), (some_is slave o), (e =? 2), (o =? e), (some_is slave e);
    cbn [negb andb orb]; tab;
    destruct (fd =? i), (fd =? o), (fd =? e); reflexivity.
Qed.



Lemma some_is_iff x n : some_is x n = true <-> x = Some n.
Proof.
  unfold some_is. destruct x as [m|]; [|split; discriminate].
  rewrite Nat.eqb_eq. split; congruence.
Qed.

Lemma slave_open s r n : Inv s r -> slave = Some n -> 2 < n /\ exists x, get (tb s) n = Some (Ent Slave x).
Proof.
  intros I E. unfold slave_ready in SlaveReady. rewrite E in SlaveReady.
  destruct SlaveReady as (B & x & H). split; [exact B|]. exists x.
  exact (proj1 (frame_old _ _ _ _ _ (iv_frame _ _ I) H)).
Qed.

Lemma closing_ok s r T W R o e :
  Inv s r -> Grown s T W R ->
  ((exists k, In (o, k) W) \/ o = 1 \/ slave = Some o) ->
  ((exists k, In (e, k) W) \/ e = 2 \/ slave = Some e) ->
  (forall fd k, In (fd, k) W -> fd = o \/ fd = e) ->
  (o = e -> slave = Some o \/ exists k, In (o, k) W) ->
  forall fd, get (close_io slave None (in_fd s, o, e) T) fd
             = if existsb (Nat.eqb fd) (map fst W ++ rfds r) then None else get T fd.
Proof.
  intros I G Po Pe PW Poe fd. rewrite close_io_get.
  assert (forall n k, In (n, k) W -> 2 < n /\ slave <> Some n) as Wbig.
  { intros n k i. destruct (g_w _ _ _ _ G _ _ i) as [_ F].
    split; [exact (free_big _ _ _ I F)|exact (free_not_slave _ _ _ I F)]. }
  match goal with |- (if ?a then _ else _) = (if ?b then _ else _) => assert (a = b) as -> end; [|reflexivity].
  apply eq_true_iff_eq. rewrite existsb_exists, !orb_true_iff, !andb_true_iff, !negb_true_iff.
  rewrite !Nat.eqb_eq, !Nat.eqb_neq, <- !not_true_iff_false, !some_is_iff.
  split.
  - intros H. exists fd. split; [|apply Nat.eqb_refl]. apply in_or_app.
    destruct H as [[((-> & H1) & H2)|((-> & H1) & H2)]|(((-> & H1) & H2) & H3)].
    + right. unfold in_fd in *. pose proof (iv_in _ _ I) as Ein.
      destruct r as [[rf rk]|]; rewrite Ein in *; cbn [rfds].
      * pose proof (r_big _ _ _ I) as B. left.
        destruct slave; [rewrite (eqb_f rf 0) by lia|]; reflexivity.
      * exfalso. cbn [Nat.eqb] in *. destruct slave; congruence.
    + left. destruct Po as [[k i]|[e1|e1]]; [|congruence|congruence]. exact (fst_in _ _ _ i).
    + left. destruct Pe as [[k i]|[e1|e1]]; [|congruence|congruence]. exact (fst_in _ _ _ i).
  - intros (x & i & Ex). apply Nat.eqb_eq in Ex. subst x.
    apply in_app_or in i. destruct i as [i|i].
    + destruct (in_fst _ _ i) as [k j]. destruct (Wbig _ _ j) as [B NS].
      destruct (Nat.eq_dec fd o) as [->|No].
      * left. right. split; [split; [reflexivity|lia]|exact NS].
      * destruct (PW _ _ j) as [X|X]; [congruence|]. subst e. right.
        split; [split; [split; [reflexivity|lia]|congruence]|exact NS].
    + left. left. destruct r as [[rf rk]|]; [|destruct i]. destruct i as [<-|[]].
      pose proof (r_big _ _ _ I) as B. unfold in_fd. rewrite (iv_in _ _ I).
      assert (slave <> Some rf) as NS.
      { intros E. destruct (slave_open _ _ _ I E) as (_ & x & Hx).
        destruct (iv_r _ _ I rf rk eq_refl) as (_ & Hr & _). congruence. }
      destruct slave; [rewrite (eqb_f rf 0) by lia|]; (split; [split; [reflexivity|lia]|exact NS]).
Qed.

(** whether the shell captures the streams of a stage itself *)
Definition bg : bool := negb fg && is_none slave.


Lemma fork_finish s r T W R o e eo ee :
  Inv s r -> Grown s T W R ->
  get T o = Some eo -> fit 1 o eo -> get T e = Some ee -> fit 2 e ee ->
  ((exists k, In (o, k) W) \/ o = 1 \/ slave = Some o) ->
  ((exists k, In (e, k) W) \/ e = 2 \/ slave = Some e) ->
  (forall fd k, In (fd, k) W -> fd = o \/ fd = e) ->
  (o = e -> slave = Some o \/ exists k, In (o, k) W) ->
  let p := started T (in_fd s) o e in
  let T' := close_io slave None (in_fd s, o, e) T in
  stdin_of p = Some (in_obj r) /\ stdout_of p = Some (what eo) /\ stderr_of p = Some (what ee) /\
  (forall fd k, In (fd, k) R -> finds p fd = Some (PipeR k)) /\
  (forall k, can_write p k -> k < n0 \/ In k (map snd W)) /\
  frame t0 T' (map fst R ++ monitors s) /\
  (forall fd k, In (fd, k) R -> get T' fd = Some (Ent (PipeR k) false)) /\
  (forall fd, In fd (monitors s) -> get T' fd = get (tb s) fd).
Proof.
  intros I G Go Fo Ge Fe Po Pe PW Poe p T'.
  pose proof (closing_ok s r T W R o e I G Po Pe PW Poe) as CL. fold T' in CL.
  destruct (in_ok _ _ I) as (xi & Gi & Wi & Fi).
  destruct (grown_open _ _ _ _ _ _ G Gi) as (Gi' & NiW & NiR).
  destruct (started_ok T (in_fd s) o e xi eo ee Fi Fo Fe Gi' Go Ge) as (A0 & A1 & A2 & A).
  fold p in A0, A1, A2, A.
  assert (forall fd, In fd (map fst R) -> fd <> o /\ fd <> e) as Roe.
  { intros fd i. destruct (in_fst _ _ i) as [k j]. destruct (g_r _ _ _ _ G _ _ j) as [X Y].
    destruct (inv_std _ _ I) as (S0 & S1 & S2).
    split; intros ->.
    - destruct Po as [[k' i']|[H|H]].
      + destruct (g_w _ _ _ _ G _ _ i') as [X' _]. congruence.
      + subst o. congruence.
      + destruct (slave_open _ _ _ I H) as (_ & x & Hx). congruence.
    - destruct Pe as [[k' i']|[H|H]].
      + destruct (g_w _ _ _ _ G _ _ i') as [X' _]. congruence.
      + subst e. congruence.
      + destruct (slave_open _ _ _ I H) as (_ & x & Hx). congruence. }
  split; [rewrite A0, Wi; reflexivity|]. split; [exact A1|]. split; [exact A2|].
  split.
  { intros fd k i. destruct (g_r _ _ _ _ G _ _ i) as [X Y].
    pose proof (fst_in _ _ _ i) as i'. destruct (Roe _ i') as [N1 N2].
    rewrite A by exact (free_big _ _ _ I Y).
    rewrite (eqb_f fd (in_fd s)) by (intros ->; exact (NiR i')).
    rewrite (eqb_f _ _ N1), (eqb_f _ _ N2), X. reflexivity. }
  split.
  { intros k [fd F]. destruct (started_from _ _ _ _ _ _ _ _ _ Fi Fo Fe Gi' Go Ge F) as [fd' H].
    exact (grown_write _ _ _ _ _ _ _ I G H). }
  split; [exact (grown_frame _ _ _ _ _ _ I G CL)|].
  assert (forall fd, In fd (map fst R ++ monitors s) -> get T' fd = get T fd) as KE.
  { intros fd i. rewrite CL.
    destruct (existsb (Nat.eqb fd) (map fst W ++ rfds r)) eqn:B; [exfalso|reflexivity].
    destruct (grown_frame _ _ _ _ _ _ I G CL fd) as [H _]. destruct (H i) as [_ H'].
    rewrite CL, B in H'. congruence. }
  split.
  { intros fd k i. rewrite KE by (apply in_or_app; left; exact (fst_in _ _ _ i)).
    exact (proj1 (g_r _ _ _ _ G _ _ i)). }
  intros fd i. rewrite KE by (apply in_or_app; auto).
  destruct (iv_mon _ _ I _ i) as (k & _ & X). rewrite X.
  exact (proj1 (grown_open _ _ _ _ _ _ G X)).
Qed.

Lemma stage_next_ok rd s r prev :
  (forall n, rd <> Some (RInput n)) -> Inv s r ->
  let s' := stage pick rd slave Command true prev None s in
  exists r' p,
    Inv s' (Some (r', np s)) /\
    procs s' = procs s ++ [p] /\ fds p = (0, 1, 2) /\ np s < np s' /\
    stdin_of p = Some (in_obj r) /\ stdout_of p = Some (PipeW (np s)) /\
    finds p r' = Some (PipeR (np s)) /\
    writes_job_errors slave fg s' p /\
    (forall k, can_write p k -> k < n0 \/ np s <= k < np s') /\
    (exists m, monitors s' = monitors s ++ m) /\
    (forall fd, In fd (monitors s) -> get (tb s') fd = get (tb s) fd) /\
    copiers s' = copiers s ++
      match rd with Some x => [Copier r' (Some (Ent (PipeR (np s)) false)) x] | None => [] end.
Proof.
  intros NI I. cbv zeta.
  destruct (new_pipe pick s) as [[r1 w1] s1] eqn:P1.
  pose proof (grown_pipe _ _ _ _ _ _ _ _ (grown_refl s) eq_refl P1) as G1.
  destruct (new_pipe_ok _ _ _ _ _ P1) as (Fr1 & Fw1 & Hne1 & T1 & N1 & C1 & Q1 & M1 & K1).
  pose proof (free_big _ _ _ I Fr1) as Br1. pose proof (free_big _ _ _ I Fw1) as Bw1.
  pose proof (free_not_slave _ _ _ I Fr1) as Sr1. pose proof (free_not_slave _ _ _ I Fw1) as Sw1.
  destruct (in_ok _ _ I) as (xi & Gi & Wi & Fi).
  destruct (err_ok _ _ I) as (Ee & xe & Ge & We & Fe).
  remember (stage pick rd slave Command true prev None s) as s' eqn:E.
  unfold stage, choose_output, create_pipe in E. rewrite P1 in E.
  rewrite apply_slave_eq in E. cbn [cx upd_cx infile outfile errfile captured foreground interactive set_out] in E.
  rewrite C1, (eqb_f w1 1) in E by lia.
  replace (match slave with Some _ => w1 | None => w1 end) with w1 in E by now destruct slave.
  fold (in_fd s) in E. fold (err_fd s) in E.
  unfold start, background_capture in E.
  cbn [cx upd_cx infile outfile errfile captured foreground interactive] in E.
  rewrite (eqb_f w1 1) in E by lia. cbn [andb] in E.
  cbn [cx upd_cx infile outfile errfile captured foreground interactive] in E.
  rewrite (iv_fg _ _ I), (iv_cap _ _ I), (iv_inter _ _ I) in E.
  assert (forall x, match rd with
      | Some y => [Copier r1 (Some (Ent (PipeR (np s)) false)) y] | None => [] end = x ->
      forall q, cx q = Ctx r1 w1 (err_fd s) None fg inter ->
      get (tb q) r1 = Some (Ent (PipeR (np s)) false) ->
      spawn_copier rd q = St (tb q) (np q) (cx q) (procs q) (monitors q) (copiers q ++ x)) as SP.
  { intros x <- q Hc Hq. unfold spawn_copier.
    destruct rd as [[ap nm|ap nm|ap nm|nm]|]; unfold add_copier; rewrite ?Hc; cbn [infile]; rewrite ?Hq; try reflexivity.
    - now destruct (NI nm).
    - rewrite app_nil_r. destruct q; cbn in *. now rewrite Hc. }
  specialize (SP _ eq_refl).
  destruct ((err_fd s =? 2) && negb fg && is_none slave) eqn:CAP.
  - (* the shell captures the stage's standard error *)
    destruct (new_pipe pick (upd_cx (upd_cx s1 (set_out (cx s) w1)) (Ctx (in_fd s) w1 (err_fd s) None fg inter)))
      as [[r2 w2] s2] eqn:P2.
    pose proof (fun H => grown_pipe _ _ _ _ _ _ _ _ G1 H P2) as G2. specialize (G2 eq_refl). cbn [np upd_cx] in G2.
    destruct (new_pipe_ok _ _ _ _ _ P2) as (Fr2 & Fw2 & Hne2 & T2 & N2 & C2 & Q2 & M2 & K2).
    cbn [tb upd_cx np cx procs monitors copiers] in *.
    destruct (grown_free _ _ _ _ _ G1 Fw2) as (Fw2' & NW & NR). cbn in NW, NR.
    destruct (grown_free _ _ _ _ _ G1 Fr2) as (Fr2' & NW' & NR'). cbn in NW', NR'.
    destruct (fork_finish s r (tb s2) _ _ w1 w2 (Ent (PipeW (np s)) false) (Ent (PipeW (np s1)) false)
                I G2) as (A0 & A1 & A2 & A3 & A4 & A5 & A6 & A7).
    { apply (g_w _ _ _ _ G2). right. left. reflexivity. }
    { right. exact Bw1. }
    { apply (g_w _ _ _ _ G2). left. reflexivity. }
    { right. exact (free_big _ _ _ I Fw2'). }
    { left. exists (np s). right. left. reflexivity. }
    { left. exists (np s1). left. reflexivity. }
    { intros fd k [[= <- <-]|[[= <- <-]|[]]]; auto. }
    { intros H. destruct NW. auto. }
    rewrite SP in E; cbn [add_proc add_mons upd_tb upd_cx tb np cx procs monitors copiers olist app] in *.
    2:{ rewrite C2. reflexivity. }
    2:{ apply A6. right. left. reflexivity. }
    exists r1, (started (tb s2) (in_fd s) w1 w2).
    assert (monitors s' = monitors s ++ [r2]) as EM by (rewrite E; cbn [monitors]; rewrite M2, M1; reflexivity).
    assert (np s' = S (S (np s))) as EN by (rewrite E; cbn [np]; rewrite N2, N1; reflexivity).
    assert (tb s' = close_io slave None (in_fd s, w1, w2) (tb s2)) as ET by (rewrite E; reflexivity).
    assert (cx s' = Ctx r1 w1 (err_fd s) None fg inter) as EC by (rewrite E; cbn [cx]; rewrite C2; reflexivity).
    split.
    { split; rewrite ?EM, ?EN, ?ET, ?EC; cbn [infile outfile errfile captured foreground interactive rfds].
      - intros fd. destruct (A5 fd) as [X Y]. cbn [map fst app] in X, Y.
        split; [intros i; apply X|intros i; apply Y; intros i'; apply i]; cbn in *; rewrite in_app_iff in *; cbn in *; tauto.
      - intros fd i. apply in_app_or in i. destruct i as [i|[<-|[]]].
        + rewrite (A7 _ i). destruct (iv_mon _ _ I _ i) as (k & K & H). exists k. split; [lia|exact H].
        + exists (np s1). split; [pose proof (iv_np _ _ I); lia|]. apply A6. left. reflexivity.
      - intros fd k [= <- <-]. split; [pose proof (iv_np _ _ I); lia|].
        split; [apply A6; right; left; reflexivity|].
        intros i. apply in_app_or in i. destruct i as [i|[<-|[]]]; [|tauto].
        destruct (iv_mon _ _ I _ i) as (k & _ & H). congruence.
      - pose proof (iv_np _ _ I). lia.
      - reflexivity.
      - discriminate.
      - rewrite Ee. destruct slave; auto.
      - reflexivity.
      - reflexivity.
      - reflexivity. }
    split; [rewrite E; cbn [procs]; rewrite Q2, Q1; reflexivity|].
    split; [reflexivity|]. split; [lia|]. split; [exact A0|]. split; [exact A1|].
    split; [apply A3; right; left; reflexivity|].
    split.
    { unfold writes_job_errors. apply andb_true_iff in CAP. destruct CAP as [CAP CS].
      destruct slave; [discriminate CS|]. apply andb_true_iff in CAP. destruct CAP as [_ CF].
      apply negb_true_iff in CF. rewrite CF. exists (np s1). split; [exact A2|].
      exists r2. rewrite EM, ET. split; [apply in_or_app; right; left; reflexivity|].
      rewrite (A6 r2 (np s1)) by (left; reflexivity). reflexivity. }
    split.
    { intros k H. destruct (A4 k H) as [H'|H']; [auto|]. right. cbn in H'. rewrite N1 in H'. lia. }
    split; [exists [r2]; exact EM|]. rewrite ET. split; [exact A7|].
    rewrite E. cbn [copiers]. now rewrite K2, K1.
  - (* it does not *)
    destruct (grown_open _ _ _ _ _ _ G1 Ge) as (Ge' & _ & _).
    destruct (fork_finish s r (tb s1) _ _ w1 (err_fd s) (Ent (PipeW (np s)) false) xe
                I G1) as (A0 & A1 & A2 & A3 & A4 & A5 & A6 & A7).
    { apply (g_w _ _ _ _ G1). left. reflexivity. }
    { right. exact Bw1. }
    { exact Ge'. }
    { exact Fe. }
    { left. exists (np s). left. reflexivity. }
    { right. rewrite Ee. destruct slave; auto. }
    { intros fd k [[= <- <-]|[]]; auto. }
    { intros H. exfalso. rewrite Ee in H. destruct slave; [congruence|lia]. }
    rewrite SP in E; cbn [add_proc add_mons upd_tb upd_cx tb np cx procs monitors copiers olist app] in *.
    2:{ reflexivity. }
    2:{ apply A6. left. reflexivity. }
    exists r1, (started (tb s1) (in_fd s) w1 (err_fd s)).
    assert (monitors s' = monitors s) as EM by (rewrite E; cbn [monitors]; rewrite M1, app_nil_r; reflexivity).
    assert (np s' = S (np s)) as EN by (rewrite E; cbn [np]; rewrite N1; reflexivity).
    assert (tb s' = close_io slave None (in_fd s, w1, err_fd s) (tb s1)) as ET by (rewrite E; reflexivity).
    assert (cx s' = Ctx r1 w1 (err_fd s) None fg inter) as EC by (rewrite E; reflexivity).
    split.
    { split; rewrite ?EM, ?EN, ?ET, ?EC; cbn [infile outfile errfile captured foreground interactive rfds].
      - exact A5.
      - intros fd i. rewrite (A7 _ i). destruct (iv_mon _ _ I _ i) as (k & K & H). exists k. split; [lia|exact H].
      - intros fd k [= <- <-]. split; [pose proof (iv_np _ _ I); lia|].
        split; [apply A6; left; reflexivity|].
        intros i. destruct (iv_mon _ _ I _ i) as (k & _ & H). congruence.
      - pose proof (iv_np _ _ I). lia.
      - reflexivity.
      - discriminate.
      - rewrite Ee. destruct slave; auto.
      - reflexivity.
      - reflexivity.
      - reflexivity. }
    split; [rewrite E; cbn [procs]; rewrite Q1; reflexivity|].
    split; [reflexivity|]. split; [lia|]. split; [exact A0|]. split; [exact A1|].
    split; [apply A3; left; reflexivity|].
    split.
    { unfold writes_job_errors. rewrite A2, We. rewrite Ee in CAP.
      destruct slave; [reflexivity|]. cbn in CAP. rewrite andb_true_r in CAP.
      apply negb_false_iff in CAP. rewrite CAP. reflexivity. }
    split.
    { intros k H. destruct (A4 k H) as [H'|H']; [auto|]. right. cbn in H'. lia. }
    split; [exists []; rewrite app_nil_r; exact EM|]. rewrite ET. split; [exact A7|].
    rewrite E. cbn [copiers]. now rewrite K1.
Qed.


Record Done (s s' : st) (r : option (nat * nat)) (p : proc) : Prop := {
  dn_procs : procs s' = procs s ++ [p];
  dn_fds : fds p = (0, 1, 2);
  dn_np : np s <= np s';
  dn_in : stdin_of p = Some (in_obj r);
  dn_out : writes_job_output slave fg inter s' p;
  dn_err : writes_job_errors slave fg s' p;
  dn_write : forall k, can_write p k -> k < n0 \/ np s <= k < np s';
  dn_frame : frame t0 (tb s') (monitors s');
  dn_mon : forall fd, In fd (monitors s') ->
             exists k, n0 <= k < np s' /\ get (tb s') fd = Some (Ent (PipeR k) false);
  dn_more : exists m, monitors s' = monitors s ++ m;
  dn_keep : forall fd, In fd (monitors s) -> get (tb s') fd = get (tb s) fd;
  dn_infile : infile (cx s') = in_fd s;
  dn_closed : forall fd k, r = Some (fd, k) -> get (tb s') fd = None
}.

Lemma finish_last s r T W R o e eo ee s' :
  Inv s r -> Grown s T W R ->
  get T o = Some eo -> fit 1 o eo -> get T e = Some ee -> fit 2 e ee ->
  ((exists k, In (o, k) W) \/ o = 1 \/ slave = Some o) ->
  ((exists k, In (e, k) W) \/ e = 2 \/ slave = Some e) ->
  (forall fd k, In (fd, k) W -> fd = o \/ fd = e) ->
  (o = e -> slave = Some o \/ exists k, In (o, k) W) ->
  tb s' = close_io slave None (in_fd s, o, e) T ->
  procs s' = procs s ++ [started T (in_fd s) o e] ->
  (exists m, monitors s' = monitors s ++ m /\ forall fd, In fd m <-> In fd (map fst R)) ->
  np s <= np s' ->
  (forall k, In k (map snd W) -> np s <= k < np s') ->
  (forall k, In k (map snd R) -> np s <= k < np s') ->
  infile (cx s') = in_fd s ->
  match slave with
  | Some _ => what eo = Slave
  | None => if fg && inter then what eo = Old 1
            else exists fd k, In (fd, k) R /\ what eo = PipeW k
  end ->
  match slave with
  | Some _ => what ee = Slave
  | None => if fg then what ee = Old 2
            else exists fd k, In (fd, k) R /\ what ee = PipeW k
  end ->
  Done s s' r (started T (in_fd s) o e).
Proof.
  intros I G Go Fo Ge Fe Po Pe PW Poe ET EP (m & EM & Em) EN NW NR EI HO HE.
  destruct (fork_finish s r T W R o e eo ee I G Go Fo Ge Fe Po Pe PW Poe)
    as (A0 & A1 & A2 & A3 & A4 & A5 & A6 & A7).
  assert (forall fd k, In (fd, k) R -> monitored s' k) as MON.
  { intros fd k i. exists fd. rewrite EM, ET, (A6 _ _ i). split; [|reflexivity].
    apply in_or_app. right. apply Em. exact (fst_in _ _ _ i). }
  split.
  - exact EP.
  - reflexivity.
  - exact EN.
  - exact A0.
  - unfold writes_job_output. rewrite A1. destruct slave; [now rewrite HO|].
    destruct (fg && inter); [now rewrite HO|]. destruct HO as (fd & k & i & H).
    exists k. rewrite H. split; [reflexivity|exact (MON _ _ i)].
  - unfold writes_job_errors. rewrite A2. destruct slave; [now rewrite HE|].
    destruct fg; [now rewrite HE|]. destruct HE as (fd & k & i & H).
    exists k. rewrite H. split; [reflexivity|exact (MON _ _ i)].
  - intros k H. destruct (A4 k H) as [H'|H']; [auto|]. right. exact (NW _ H').
  - rewrite ET. intros fd. destruct (A5 fd) as [X Y].
    split; [intros i; apply X|intros i; apply Y; intros i'; apply i];
      rewrite EM in *; rewrite in_app_iff in *; rewrite Em in *; tauto.
  - intros fd i. rewrite EM in i. rewrite ET. apply in_app_or in i. destruct i as [i|i].
    + rewrite (A7 _ i). destruct (iv_mon _ _ I _ i) as (k & K & H). exists k. split; [lia|exact H].
    + apply Em in i. destruct (in_fst _ _ i) as [k j]. exists k. split; [|exact (A6 _ _ j)].
      pose proof (iv_np _ _ I).
      assert (np s <= k < np s') by (apply NR, in_map_iff; exists (fd, k); auto). lia.
  - exists m. exact EM.
  - rewrite ET. exact A7.
  - exact EI.
  - intros fd k ->. rewrite ET.
    rewrite (closing_ok s (Some (fd, k)) T W R o e I G Po Pe PW Poe).
    rewrite (proj2 (existsb_exists _ _)); [reflexivity|].
    exists fd. split; [apply in_or_app; right; left; reflexivity|apply Nat.eqb_refl].
Qed.

(** the stage's number for output when nothing captures it *)
Definition out_fd : nat := match slave with Some sl => sl | None => 1 end.

Lemma out_ok s r : Inv s r ->
  exists x, get (tb s) out_fd = Some x /\
    what x = (match slave with Some _ => Slave | None => Old 1 end) /\ fit 1 out_fd x /\
    (out_fd = 1 \/ slave = Some out_fd).
Proof.
  intros I. unfold out_fd. destruct (inv_std _ _ I) as (_ & R1 & _).
  pose proof (fun n => slave_open s r n I) as SO.
  destruct slave as [sl|].
  - destruct (SO sl eq_refl) as (B & x & Hx). eexists. split; [exact Hx|].
    split; [reflexivity|]. split; [right; exact B|right; reflexivity].
  - eexists. split; [exact R1|]. split; [reflexivity|]. split; [left; auto|left; reflexivity].
Qed.

(** The tail of a last stage: the output is chosen (number [o], pipe ends [W] and
    [R] created for it), the error stream may still be captured. *)
Lemma last_tail s r q W R o eo mons0 s' :
  Inv s r -> Grown s (tb q) W R ->
  get (tb q) o = Some eo -> fit 1 o eo ->
  ((exists k, In (o, k) W) \/ o = 1 \/ slave = Some o) ->
  (forall fd k, In (fd, k) W -> fd = o) ->
  (forall fd, In fd mons0 <-> In fd (map fst R)) ->
  np s <= np q ->
  (forall k, In k (map snd W) -> np s <= k < np q) ->
  (forall k, In k (map snd R) -> np s <= k < np q) ->
  match slave with
  | Some _ => what eo = Slave
  | None => if fg && inter then what eo = Old 1
            else exists fd k, In (fd, k) R /\ what eo = PipeW k
  end ->
  infile (cx q) = in_fd s -> foreground (cx q) = fg -> monitors q = monitors s ->
  (let '(e, m2, q2) := background_capture pick slave (err_fd s) 2 q in
   tb s' = close_io slave None (in_fd s, o, e) (tb q2) /\
   procs s' = procs s ++ [started (tb q2) (in_fd s) o e] /\
   monitors s' = monitors q2 ++ mons0 ++ olist m2 /\
   np s' = np q2 /\ cx s' = cx q2) ->
  exists p, Done s s' r p.
Proof.
  intros I G Go Fo Po PW Em EN NW NR HO HI HF HM H.
  destruct (err_ok _ _ I) as (Ee & xe & Ge & We & Fe).
  unfold background_capture in H. rewrite HF in H.
  destruct ((err_fd s =? 2) && negb fg && is_none slave) eqn:CAP.
  - destruct (new_pipe pick q) as [[r2 w2] q2] eqn:P2.
    pose proof (grown_pipe _ _ _ _ _ _ _ _ G eq_refl P2) as G2.
    destruct (new_pipe_ok _ _ _ _ _ P2) as (Fr2 & Fw2 & Hne2 & T2 & N2 & C2 & Q2 & M2 & K2).
    destruct (grown_free _ _ _ _ _ G Fw2) as (Fw2' & NW' & NR').
    destruct H as (ET & EP & EM & EN' & EC).
    assert (o <> w2) as Now by (intros ->; congruence).
    assert (o <> r2) as Nor by (intros ->; congruence).
    exists (started (tb q2) (in_fd s) o w2).
    apply andb_true_iff in CAP. destruct CAP as [CAP CS]. apply andb_true_iff in CAP. destruct CAP as [_ CF].
    eapply (finish_last s r (tb q2) ((w2, np q) :: W) ((r2, np q) :: R) o w2 eo (Ent (PipeW (np q)) false)); try eassumption.
    + rewrite T2, (eqb_f _ _ Now), (eqb_f _ _ Nor). exact Go.
    + apply (g_w _ _ _ _ G2). left. reflexivity.
    + right. exact (free_big _ _ _ I Fw2').
    + destruct Po as [[k i]|Po]; [left; exists k; right; exact i|right; exact Po].
    + left. exists (np q). left. reflexivity.
    + intros fd k [[= <- <-]|i]; [auto|]. left. exact (PW _ _ i).
    + congruence.
    + exists (mons0 ++ [r2]). rewrite EM, M2, HM. split; [reflexivity|].
      intros fd. rewrite in_app_iff, Em. cbn. tauto.
    + rewrite EN', N2. lia.
    + rewrite EN', N2. cbn. intros k [<-|i]; [lia|]. specialize (NW _ i). lia.
    + rewrite EN', N2. cbn. intros k [<-|i]; [lia|]. specialize (NR _ i). lia.
    + rewrite EC, C2. exact HI.
    + destruct slave; [exact HO|]. destruct (fg && inter); [exact HO|].
      destruct HO as (fd & k & i & E). exists fd, k. split; [right; exact i|exact E].
    + destruct slave; [discriminate CS|]. apply negb_true_iff in CF. rewrite CF.
      exists r2, (np q). split; [left; reflexivity|reflexivity].
  - destruct H as (ET & EP & EM & EN' & EC).
    destruct (grown_open _ _ _ _ _ _ G Ge) as (Ge' & NeW & NeR).
    exists (started (tb q) (in_fd s) o (err_fd s)).
    eapply (finish_last s r (tb q) W R o (err_fd s) eo xe); try eassumption.
    + right. rewrite Ee. destruct slave; auto.
    + intros fd k i. left. exact (PW _ _ i).
    + intros E. destruct Po as [[k i]|[Po|Po]].
      * right. exists k. exact i.
      * exfalso. rewrite Ee in E. pose proof (fun n => slave_open s r n I) as SO.
        destruct slave as [sl|].
        -- destruct (SO sl eq_refl) as [B _]. lia.
        -- lia.
      * left. exact Po.
    + exists mons0. rewrite EM, HM. cbn [olist]. rewrite app_nil_r. split; [reflexivity|exact Em].
    + rewrite EN'. exact EN.
    + rewrite EN'. exact NW.
    + rewrite EN'. exact NR.
    + rewrite EC. exact HI.
    + rewrite We. rewrite Ee in CAP. destruct slave; [reflexivity|]. cbn in CAP.
      rewrite andb_true_r in CAP. apply negb_false_iff in CAP. rewrite CAP. reflexivity.
Qed.

Lemma stage_last_ok s r prev :
  Inv s r -> exists p, Done s (stage pick None slave Command false prev None s) r p.
Proof.
  intros I. remember (stage pick None slave Command false prev None s) as s' eqn:E.
  unfold stage, choose_output in E. rewrite (iv_inter _ _ I), (iv_cap _ _ I) in E.
  cbn [is_none] in E. rewrite !andb_true_r in E.
  destruct (negb inter && is_none slave) eqn:AUTO.
  - destruct (new_pipe pick s) as [[r1 w1] s1] eqn:P1.
    pose proof (grown_pipe _ _ _ _ _ _ _ _ (grown_refl s) eq_refl P1) as G1.
    destruct (new_pipe_ok _ _ _ _ _ P1) as (Fr1 & Fw1 & Hne1 & T1 & N1 & C1 & Q1 & M1 & K1).
    pose proof (free_big _ _ _ I Fw1) as Bw1.
    rewrite apply_slave_eq in E. cbn [cx upd_cx infile outfile errfile captured foreground interactive set_out] in E.
    rewrite C1, (eqb_f w1 1) in E by lia.
    replace (match slave with Some _ => w1 | None => w1 end) with w1 in E by now destruct slave.
    fold (in_fd s) in E. fold (err_fd s) in E.
    unfold start in E.
    cbn [cx upd_cx infile outfile errfile captured foreground interactive] in E.
    unfold background_capture at 1 in E.
    rewrite (eqb_f w1 1) in E by lia. cbn [andb olist app] in E.
    set (q := upd_cx (upd_cx s1 (set_out (cx s) w1)) _) in E.
    eapply (last_tail s r q [(w1, np s)] [(r1, np s)] w1 (Ent (PipeW (np s)) false) [r1]); try assumption.
    + apply (g_w _ _ _ _ G1). left. reflexivity.
    + right. exact Bw1.
    + left. exists (np s). left. reflexivity.
    + intros fd k [[= <- <-]|[]]. reflexivity.
    + cbn. tauto.
    + cbn. lia.
    + cbn. intros k [<-|[]]. lia.
    + cbn. intros k [<-|[]]. lia.
    + apply andb_true_iff in AUTO. destruct AUTO as [A1 A2]. destruct slave; [discriminate A2|].
      apply negb_true_iff in A1. rewrite A1, andb_false_r. exists r1, (np s). split; [left; reflexivity|reflexivity].
    + reflexivity.
    + exact (iv_fg _ _ I).
    + destruct (background_capture pick slave (err_fd s) 2 q) as [[e m2] q2] eqn:B.
      assert (procs q2 = procs q) as QQ.
      { unfold background_capture in B. destruct (_ && _ && _) in B; [|now injection B as _ _ <-].
        destruct (new_pipe pick q) as [[r2 w2] q3] eqn:P2. injection B as _ _ <-.
        apply new_pipe_ok in P2. apply P2. }
      rewrite E. cbn. rewrite QQ. cbn. rewrite Q1. auto.
  - assert (exists q0, handle_output_redirect pick None s = (None, q0) /\ outfile (cx q0) = 1 /\
              tb q0 = tb s /\ np q0 = np s /\ procs q0 = procs s /\ monitors q0 = monitors s /\
              infile (cx q0) = infile (cx s) /\ errfile (cx q0) = errfile (cx s) /\
              foreground (cx q0) = fg) as (q0 & HQ & O1 & TQ & NQ & PQ & MQ & IQ & EQ & FQ).
    { cbn [handle_output_redirect]. rewrite (iv_cap _ _ I). pose proof (iv_fg _ _ I) as F.
      pose proof (iv_in _ _ I) as Ein.
      destruct (infile (cx s) =? 0) eqn:Z; (eexists; split; [reflexivity|]); cbn; auto 10.
      assert (r = None) as Hr.
      { destruct r as [[fd k]|]; [|reflexivity]. pose proof (r_big _ _ _ I).
        apply Nat.eqb_eq in Z. lia. }
      pose proof (iv_out _ _ I Hr). auto 10. }
    rewrite HQ in E. rewrite apply_slave_eq in E. rewrite O1, IQ, EQ in E.
    fold (in_fd s) in E. fold (err_fd s) in E. cbn [Nat.eqb] in E. fold out_fd in E.
    unfold start in E. cbn [cx upd_cx infile outfile errfile captured foreground interactive olist app] in E.
    set (q := upd_cx q0 _) in E.
    destruct (out_ok _ _ I) as (xo & Gx & Wx & Fx & Dx).
    assert (monitors q = monitors s) as MQ' by exact MQ.
    assert (tb q = tb s) as TQ' by exact TQ.
    assert (np q = np s) as NQ' by exact NQ.
    assert (foreground (cx q) = fg) as FQ' by exact FQ.
    destruct (background_capture pick slave out_fd 1 q) as [[o m1] q1] eqn:BO.
    unfold background_capture in BO. rewrite FQ' in BO.
    destruct ((out_fd =? 1) && negb fg && is_none slave) eqn:CAP.
    + destruct (new_pipe pick q) as [[r1 w1] q1'] eqn:P1. injection BO as <- <- <-.
      assert (Grown s (tb q) [] []) as G0 by (rewrite TQ'; apply grown_refl).
      pose proof (grown_pipe _ _ _ _ _ _ _ _ G0 eq_refl P1) as G1.
      destruct (new_pipe_ok _ _ _ _ _ P1) as (Fr1 & Fw1 & Hne1 & T1 & N1 & C1 & Q1 & M1 & K1).
      rewrite TQ' in Fw1. pose proof (free_big _ _ _ I Fw1) as Bw1.
      eapply (last_tail s r q1' [(w1, np q)] [(r1, np q)] w1 (Ent (PipeW (np q)) false) [r1]); try assumption.
      * apply (g_w _ _ _ _ G1). left. reflexivity.
      * right. exact Bw1.
      * left. exists (np q). left. reflexivity.
      * intros fd k [[= <- <-]|[]]. reflexivity.
      * cbn. tauto.
      * lia.
      * cbn. intros k [<-|[]]. lia.
      * cbn. intros k [<-|[]]. lia.
      * apply andb_true_iff in CAP. destruct CAP as [CAP A2]. destruct slave; [discriminate A2|].
        apply andb_true_iff in CAP. destruct CAP as [_ A1]. apply negb_true_iff in A1. rewrite A1.
        exists r1, (np q). split; [left; reflexivity|reflexivity].
      * rewrite C1. reflexivity.
      * rewrite C1. exact FQ.
      * rewrite M1. exact MQ.
      * destruct (background_capture pick slave (err_fd s) 2 q1') as [[e m2] q2] eqn:B.
        assert (procs q2 = procs q1') as QQ.
        { unfold background_capture in B. destruct (_ && _ && _) in B; [|now injection B as _ _ <-].
          destruct (new_pipe pick q1') as [[r2 w2] q3] eqn:P2. injection B as _ _ <-.
          apply new_pipe_ok in P2. apply P2. }
        rewrite E. cbn. rewrite QQ, Q1. cbn. rewrite PQ. auto.
    + injection BO as <- <- <-.
      assert (Grown s (tb q) [] []) as G0 by (rewrite TQ'; apply grown_refl).
      eapply (last_tail s r q [] [] out_fd xo []); try assumption.
      * rewrite TQ'. exact Gx.
      * right. exact Dx.
      * intros fd k [].
      * cbn. tauto.
      * lia.
      * intros k [].
      * intros k [].
      * rewrite Wx. unfold out_fd in CAP. destruct slave; [reflexivity|].
        cbn in AUTO, CAP. rewrite andb_true_r in AUTO, CAP.
        apply negb_false_iff in AUTO. apply negb_false_iff in CAP. rewrite AUTO, CAP. reflexivity.
      * reflexivity.
      * destruct (background_capture pick slave (err_fd s) 2 q) as [[e m2] q2] eqn:B.
        assert (procs q2 = procs q) as QQ.
        { unfold background_capture in B. destruct (_ && _ && _) in B; [|now injection B as _ _ <-].
          destruct (new_pipe pick q) as [[r2 w2] q3] eqn:P2. injection B as _ _ <-.
          apply new_pipe_ok in P2. apply P2. }
        rewrite E. cbn. rewrite QQ. cbn. rewrite PQ. auto.
Qed.


(** ** A whole pipeline *)

Variable openable : str -> bool.

Definition stays (s s' : st) : Prop :=
  (exists m, monitors s' = monitors s ++ m) /\
  (forall fd, In fd (monitors s) -> get (tb s') fd = get (tb s) fd).

Lemma stays_trans a b c : stays a b -> stays b c -> stays a c.
Proof.
  intros ([m1 E1] & K1) ([m2 E2] & K2). split.
  - exists (m1 ++ m2). rewrite E2, E1, app_assoc. reflexivity.
  - intros fd i. rewrite K2, K1; auto. rewrite E1. apply in_or_app. auto.
Qed.

Lemma stays_mon s s' k : stays s s' -> monitored s k -> monitored s' k.
Proof.
  intros ([m E] & K) (fd & i & H). exists fd. rewrite (K _ i), E. split; [apply in_or_app; auto|exact H].
Qed.

Lemma stays_err s s' p : stays s s' -> writes_job_errors slave fg s p -> writes_job_errors slave fg s' p.
Proof.
  intros K. unfold writes_job_errors. destruct slave; [auto|]. destruct fg; [auto|].
  intros (k & H & M). exists k. split; [exact H|exact (stays_mon _ _ _ K M)].
Qed.

(** the first stage reads [x]; every stage but the last keeps the read end of the
    pipe it writes *)
Record Launched (s s' : st) (r : option (nat * nat)) (ks : list kind) (l : list proc) : Prop := {
  ln_procs : procs s' = procs s ++ l;
  ln_len : length l = length ks;
  ln_fds : forall p, In p l -> fds p = (0, 1, 2);
  ln_first : forall p, nth_error l 0 = Some p -> stdin_of p = Some (in_obj r);
  ln_chain : chained l;
  ln_last : forall p, nth_error l (length l - 1) = Some p -> writes_job_output slave fg inter s' p;
  ln_err : forall p, In p l -> writes_job_errors slave fg s' p;
  ln_np : np s <= np s';
  ln_write : forall p k, In p l -> can_write p k -> k < n0 \/ np s <= k < np s';
  ln_apart : forall i j a b k, nth_error l i = Some a -> nth_error l j = Some b ->
               can_write a k -> can_write b k -> n0 <= k -> i = j;
  ln_selfread : forall i p, nth_error l i = Some p -> i < length l - 1 ->
               exists k, stdout_of p = Some (PipeW k) /\ can_read p k;
  ln_frame : frame t0 (tb s') (monitors s');
  ln_mon : forall fd, In fd (monitors s') ->
             exists k, n0 <= k < np s' /\ get (tb s') fd = Some (Ent (PipeR k) false);
  ln_stays : stays s s';
  ln_stale : (r <> None \/ 1 < length ks) -> 2 < infile (cx s') /\ get (tb s') (infile (cx s')) = None
}.

Lemma launch_ok ks : forall s r, ks <> [] -> all_commands ks -> Inv s r ->
  exists s' l, launch pick openable None slave ks s = (s', true) /\ Launched s s' r ks l.
Proof.
  induction ks as [|k ks IH]; intros s r Hne HC I; [congruence|].
  assert (k = Command) as -> by (apply HC; left; reflexivity).
  cbn [launch]. destruct ks as [|k2 ks].
  - destruct (stage_last_ok s r (infile (cx s)) I) as (p & D).
    cbn [launch]. eexists. exists [p]. split; [reflexivity|].
    destruct D. split; auto.
    + intros q [<-|[]]. assumption.
    + intros q [= <-]. assumption.
    + intros i a b Ha Hb. destruct i; [discriminate Hb|]. destruct i; discriminate Hb.
    + cbn. intros q [= <-]. assumption.
    + intros q [<-|[]]. assumption.
    + intros q k [<-|[]]. auto.
    + intros [|i] [|j] a b k Ha Hb; try reflexivity; try (destruct i; discriminate); try (destruct j; discriminate).
    + cbn. intros i q _ H. lia.
    + split; assumption.
    + intros [Hr|H]; [|cbn in H; lia]. rewrite dn_infile0.
      destruct r as [[fd k]|]; [|congruence]. pose proof (r_big _ _ _ I) as B.
      assert (in_fd s = fd) as ->.
      { unfold in_fd. rewrite (iv_in _ _ I). destruct slave; [|reflexivity]. now rewrite (eqb_f fd 0) by lia. }
      split; [exact B|]. exact (dn_closed0 _ _ eq_refl).
  - destruct (stage_next_ok None s r (infile (cx s))) as
      (r' & p & I' & EP & EF & EN & HI & HO & HR & HE & HW & HM & HK & _); [discriminate|exact I|].
    set (s1 := stage pick None slave Command true (infile (cx s)) None s) in *.
    destruct (IH s1 (Some (r', np s))) as (s' & l & EL & L); [discriminate| |exact I'|].
    { intros q i. apply HC. right. exact i. }
    exists s', (p :: l). split; [exact EL|].
    assert (stays s s1) as SS by (split; assumption).
    destruct L.
    assert (length l = S (length ks)) as LL by (rewrite ln_len0; reflexivity).
    split.
    + rewrite ln_procs0, EP, <- app_assoc. reflexivity.
    + cbn. now rewrite ln_len0.
    + intros q [<-|i]; auto.
    + intros q [= <-]. exact HI.
    + intros i a b Ha Hb. destruct i as [|i].
      * injection Ha as <-. exists (np s). split; [exact HO|]. cbn in Hb. exact (ln_first0 _ Hb).
      * exact (ln_chain0 i a b Ha Hb).
    + intros q Hq. cbn [length] in Hq. rewrite LL in Hq. cbn in Hq. apply ln_last0.
      rewrite LL. cbn. now rewrite Nat.sub_0_r.
    + intros q [<-|i]; [exact (stays_err _ _ _ ln_stays0 HE)|auto].
    + lia.
    + intros q k [<-|i] H.
      * destruct (HW _ H) as [?|?]; [auto|right; lia].
      * destruct (ln_write0 _ _ i H) as [?|?]; [auto|right; lia].
    + intros i j a b k Ha Hb Wa Wb Hk. destruct i as [|i], j as [|j].
      * reflexivity.
      * exfalso. injection Ha as <-. cbn in Hb. apply nth_error_In in Hb.
        destruct (HW _ Wa); [lia|]. destruct (ln_write0 _ _ Hb Wb); lia.
      * exfalso. injection Hb as <-. cbn in Ha. apply nth_error_In in Ha.
        destruct (HW _ Wb); [lia|]. destruct (ln_write0 _ _ Ha Wa); lia.
      * f_equal. exact (ln_apart0 _ _ _ _ _ Ha Hb Wa Wb Hk).
    + intros i q Hq Hi. destruct i as [|i].
      * injection Hq as <-. exists (np s). split; [exact HO|]. exists r'. exact HR.
      * cbn [length] in Hi. apply (ln_selfread0 i q Hq). lia.
    + exact ln_frame0.
    + exact ln_mon0.
    + exact (stays_trans _ _ _ SS ln_stays0).
    + intros _. apply ln_stale0. left. discriminate.
Qed.

End Stages.

Lemma init_inv t n slave fg inter : ready t n ->
  Inv t n slave fg inter (start_state t n (default_ctx fg inter)) None.
Proof.
  intros _. split; cbn; auto; try discriminate; try tauto.
  intros fd. cbn. tauto.
Qed.

Lemma launched_no_write t0 n0 s' : ready t0 n0 -> frame t0 (tb s') (monitors s') ->
  (forall fd, In fd (monitors s') ->
     exists k, n0 <= k < np s' /\ get (tb s') fd = Some (Ent (PipeR k) false)) ->
  forall k, holds (tb s') (PipeW k) -> k < n0.
Proof.
  intros (_ & _ & _ & P) F M k (fd & H). destruct (in_dec Nat.eq_dec fd (monitors s')) as [i|i].
  - destruct (M _ i) as (k' & _ & E). rewrite E in H. discriminate H.
  - destruct (F fd) as [_ G]. rewrite (G i) in H. apply (P fd k). auto.
Qed.

(** ** What a child's set-up needs *)

Lemma setup_one_0 t from n t' : n <> 0 -> (2 <? from) = true \/ from <> 0 -> setup_one t from n = Some t' -> get t' 0 = get t 0.
Proof.
  intros Hn Hf. unfold setup_one. destruct (from =? n); [congruence|].
  unfold dup2, close_checked. destruct (get t from) as [x|]; [|discriminate].
  destruct (2 <? from) eqn:B.
  - rewrite get_put. apply Nat.ltb_lt in B. destruct (if from =? n then _ else _); [|discriminate].
    intros [= <-]. tab. rewrite (eqb_f 0 from), (eqb_f 0 n) by lia. reflexivity.
  - intros [= <-]. tab. rewrite (eqb_f 0 n) by lia. reflexivity.
Qed.

Lemma setup_fd0 t i o e t' : i <> 0 -> i <> 1 -> i <> 2 -> o <> 0 -> e <> 0 -> child_setup t i o e = Some t' ->
  exists x, get t i = Some x /\ get t' 0 = Some (Ent (what x) false).
Proof.
  intros H0 H1 H2 Ho He. unfold child_setup.
  destruct (setup_stdin t i o e) as [t1|] eqn:S1; [|discriminate].
  assert (exists x, get t i = Some x /\ get t1 0 = Some (Ent (what x) false)) as (x & Gx & Gt).
  { unfold setup_stdin in S1. rewrite (eqb_f _ _ H0) in S1. unfold dup2 in S1.
    destruct (get t i) as [x|]; [|discriminate S1]. exists x. split; [reflexivity|].
    destruct (_ && _) in S1.
    - unfold close_checked in S1. destruct (get _ i) in S1; [|discriminate S1].
      injection S1 as <-. tab. rewrite (eqb_f 0 i) by lia. reflexivity.
    - injection S1 as <-. tab. reflexivity. }
  intros E. exists x. split; [exact Gx|]. rewrite <- Gt.
  destruct (o =? e).
  - unfold setup_same in E.
    assert (forall a b n c, (if a =? n then Some b else dup2 b a n) = Some c -> n <> 0 -> get c 0 = get b 0) as D.
    { intros a b n c. destruct (a =? n); [congruence|]. unfold dup2. destruct (get b a); [|discriminate].
      intros [= <-] Hn. tab. now rewrite (eqb_f 0 n) by lia. }
    destruct (if o =? 1 then Some t1 else dup2 t1 o 1) as [t2|] eqn:E1; [|discriminate].
    destruct (if o =? 2 then Some t2 else dup2 t2 o 2) as [t3|] eqn:E2; [|discriminate].
    apply D in E1; [|lia]. apply D in E2; [|lia].
    assert (get t' 0 = get t3 0) as E3.
    { destruct (2 <? o) eqn:B; [|congruence]. unfold close_checked in E.
      destruct (get t3 o); [|discriminate E]. injection E as <-. tab.
      rewrite (eqb_f 0 o) by lia. reflexivity. }
    congruence.
  - destruct (setup_one t1 o 1) as [t2|] eqn:E1; [|discriminate].
    apply setup_one_0 in E1; [|lia|auto]. apply setup_one_0 in E; [|lia|auto]. congruence.
Qed.

(** a number that is not open cannot become standard input, or standard error *)
Lemma setup_closed_in t i o e : i <> 0 -> get t i = None -> child_setup t i o e = None.
Proof.
  intros H G. unfold child_setup, setup_stdin. rewrite (eqb_f _ _ H). unfold dup2. now rewrite G.
Qed.

Lemma dup2_none t a b n t' : 2 < n -> b <= 2 -> get t n = None -> dup2 t a b = Some t' -> get t' n = None.
Proof.
  intros Hn Hb G. unfold dup2. destruct (get t a); [|discriminate]. intros [= <-].
  rewrite get_put, (eqb_f n b) by lia. exact G.
Qed.

Lemma close_checked_none t a n t' : get t n = None -> close_checked t a = Some t' -> get t' n = None.
Proof.
  intros G. unfold close_checked. destruct (get t a); [|discriminate]. intros [= <-].
  rewrite get_close, G. now destruct (n =? a).
Qed.

Lemma setup_closed_err t i o e : 2 < e -> get t e = None -> child_setup t i o e = None.
Proof.
  intros He G. unfold child_setup. destruct (setup_stdin t i o e) as [t1|] eqn:S1; [|reflexivity].
  assert (get t1 e = None) as G1.
  { unfold setup_stdin in S1. destruct (if i =? 0 then Some t else dup2 t i 0) as [ta|] eqn:Sa; [|discriminate S1].
    assert (get ta e = None) as Ga.
    { destruct (i =? 0); [congruence|]. eapply dup2_none; [exact He| |exact G|exact Sa]. lia. }
    destruct (_ && _) in S1; [|congruence]. exact (close_checked_none _ _ _ _ Ga S1). }
  destruct (Nat.eqb_spec o e) as [->|Hoe].
  - unfold setup_same. rewrite (eqb_f e 1) by lia. unfold dup2. rewrite G1. reflexivity.
  - destruct (setup_one t1 o 1) as [t2|] eqn:S2; [|reflexivity].
    assert (get t2 e = None) as G2.
    { unfold setup_one in S2. destruct (o =? 1); [congruence|].
      destruct (dup2 t1 o 1) as [tb|] eqn:Sb; [|discriminate S2].
      assert (get tb e = None) as Gb by (eapply dup2_none; [exact He| |exact G1|exact Sb]; lia).
      destruct (2 <? o); [|congruence]. exact (close_checked_none _ _ _ _ Gb S2). }
    unfold setup_one. rewrite (eqb_f e 2) by lia. unfold dup2. rewrite G2. reflexivity.
Qed.

(** ** Every stage only adds *)

Lemma background_capture_adds pick slave cur n s a m s' :
  background_capture pick slave cur n s = (a, m, s') ->
  procs s' = procs s /\ copiers s' = copiers s /\ cx s' = cx s /\ np s <= np s' /\
  (forall fd x, get (tb s) fd = Some x -> get (tb s') fd = Some x).
Proof.
  unfold background_capture. destruct (_ && _ && _).
  - destruct (new_pipe pick s) as [[r w] s1] eqn:P. intros [= <- <- <-].
    destruct (new_pipe_ok _ _ _ _ _ P) as (Fr & Fw & _ & T & N & C & Q & _ & K).
    rewrite N. repeat split; auto. intros fd x H. rewrite T.
    rewrite (eqb_f fd w), (eqb_f fd r) by congruence. exact H.
  - intros [= <- <- <-]. auto 10.
Qed.

Lemma choose_output_adds pick rd slave hn s po cap s' :
  choose_output pick rd slave hn s = (po, cap, s') ->
  procs s' = procs s /\ copiers s' = copiers s /\ infile (cx s') = infile (cx s) /\
  (forall fd x, get (tb s) fd = Some x -> get (tb s') fd = Some x) /\
  (outfile (cx s) <> 0 -> get (tb s) 0 <> None -> captured (cx s) <> Some 0 -> outfile (cx s') <> 0) /\
  (errfile (cx s) <> 0 -> get (tb s) 0 <> None -> errfile (cx s') <> 0) /\
  captured (cx s') = captured (cx s).
Proof.
  unfold choose_output, create_pipe, handle_output_redirect.
  destruct (new_pipe pick s) as [[r w] s1] eqn:P.
  destruct (new_pipe_ok _ _ _ _ _ P) as (Fr & Fw & _ & T & N & C & Q & _ & K).
  assert (forall fd x, get (tb s) fd = Some x -> get (tb s1) fd = Some x) as TT.
  { intros fd x H. rewrite T. rewrite (eqb_f fd w), (eqb_f fd r) by congruence. exact H. }
  assert (get (tb s) 0 <> None -> w <> 0) as W0 by congruence.
  destruct hn.
  { intros [= <- <- <-]. cbn. rewrite C. auto 10. }
  destruct (_ && _ && _ && _).
  { intros [= <- <- <-]. cbn. rewrite C. auto 10. }
  destruct rd as [[ap nm|ap nm|ap nm|nm]|].
  - intros [= <- <- <-]. cbn. rewrite C. auto 10.
  - intros [= <- <- <-]. cbn. rewrite C. auto 10.
  - intros [= <- <- <-]. cbn. rewrite C. auto 10.
  - intros [= <- <- <-]. auto 10.
  - destruct (captured (cx s)) as [c|] eqn:EC.
    + intros [= <- <- <-]. cbn. rewrite EC. repeat split; auto.
    + destruct (infile (cx s) =? 0); intros [= <- <- <-]; cbn; rewrite ?EC; auto 10.
Qed.

Lemma stage_adds pick rd slave k hn prev input s :
  exists p c, procs (stage pick rd slave k hn prev input s) = procs s ++ [p] /\
              copiers (stage pick rd slave k hn prev input s) = copiers s ++ c.
Proof.
  unfold stage. destruct (choose_output pick rd slave hn s) as [[po cap] s1] eqn:E1.
  destruct (choose_output_adds _ _ _ _ _ _ _ _ E1) as (P1 & C1 & _).
  set (s2 := upd_cx s1 (apply_slave slave (cx s1))).
  destruct (start pick k slave s2) as [[io mons] s3] eqn:E3.
  assert (exists p, procs s3 = procs s ++ [p] /\ copiers s3 = copiers s) as (p & P3 & C3).
  { unfold start in E3. destruct k.
    - destruct (background_capture pick slave (outfile (cx s2)) 1 s2) as [[o m1] sa] eqn:Ea.
      destruct (background_capture pick slave (errfile (cx s2)) 2 sa) as [[e m2] sb] eqn:Eb.
      destruct (background_capture_adds _ _ _ _ _ _ _ _ Ea) as (Pa & Ca & _).
      destruct (background_capture_adds _ _ _ _ _ _ _ _ Eb) as (Pb & Cb & _).
      injection E3 as <- <- <-. eexists. cbn [procs copiers add_proc].
      rewrite Pb, Pa, Cb, Ca. cbn [procs copiers s2 upd_cx]. rewrite P1, C1. split; reflexivity.
    - injection E3 as <- <- <-. eexists. cbn [procs copiers add_proc s2 upd_cx]. rewrite P1, C1.
      split; reflexivity. }
  exists p.
  set (s4 := match po with Some x => upd_cx s3 (set_in (cx s3) x) | None => s3 end).
  assert (procs s4 = procs s3 /\ copiers s4 = copiers s3) as [P4 C4] by (unfold s4; destruct po; auto).
  set (s6 := upd_tb (add_mons s4 (olist cap ++ mons)) _).
  assert (exists c, procs (spawn_copier rd s6) = procs s6 /\ copiers (spawn_copier rd s6) = copiers s6 ++ c) as (c & P7 & C7).
  { unfold spawn_copier. destruct rd as [[ap nm|ap nm|ap nm|nm]|]; eexists; (split; [reflexivity|]);
      try reflexivity; try (symmetry; apply app_nil_r). }
  exists c. cbn zeta.
  assert (procs s6 = procs s4 /\ copiers s6 = copiers s4) as [P6 C6] by (split; reflexivity).
  destruct input as [fd|]; [destruct (infile (cx (spawn_copier rd s6)) =? fd)|]; cbn [procs copiers upd_cx];
    rewrite P7, C7, P6, C6, P4, C4, P3, C3; split; reflexivity.
Qed.

Lemma launch_adds pick openable rd slave ks : forall s,
  exists p c, procs (fst (launch pick openable rd slave ks s)) = procs s ++ p /\
              copiers (fst (launch pick openable rd slave ks s)) = copiers s ++ c.
Proof.
  induction ks as [|k ks IH]; intros s; cbn [launch].
  { exists [], []. cbn. now rewrite !app_nil_r. }
  assert (forall input s1, exists p c,
    procs (fst (launch pick openable rd slave ks (stage pick rd slave k (match ks with [] => false | _ => true end)
                 (infile (cx s)) input s1))) = procs s1 ++ p /\
    copiers (fst (launch pick openable rd slave ks (stage pick rd slave k (match ks with [] => false | _ => true end)
                 (infile (cx s)) input s1))) = copiers s1 ++ c) as A.
  { intros input s1.
    destruct (stage_adds pick rd slave k (match ks with [] => false | _ => true end) (infile (cx s)) input s1)
      as (p1 & c1 & P1 & C1).
    destruct (IH (stage pick rd slave k (match ks with [] => false | _ => true end) (infile (cx s)) input s1))
      as (p2 & c2 & P2 & C2).
    rewrite P2, C2, P1, C1. eexists _, _. rewrite <- !app_assoc. split; reflexivity. }
  destruct rd as [[ap nm|ap nm|ap nm|nm]|]; try apply A.
  destruct (openable nm).
  - set (s1 := upd_cx _ _). specialize (A (Some (alloc pick (tb s))) s1).
    destruct (launch _ _ _ _ _ _) as [s3 ok]. exact A.
  - exists [], []. cbn. now rewrite !app_nil_r.
Qed.

(** ** Input redirects *)

Definition std_open (t : table) : Prop := get t 0 <> None /\ get t 1 <> None /\ get t 2 <> None.

Lemma free_std t fd : std_open t -> get t fd = None -> 2 < fd.
Proof.
  intros (A & B & C) G. destruct fd as [|[|[|fd]]]; try congruence; lia.
Qed.

Lemma std_open_mono t t' : std_open t -> (forall fd x, get t fd = Some x -> get t' fd = Some x) -> std_open t'.
Proof.
  intros (A & B & C) H. repeat split.
  - destruct (get t 0) eqn:E; [|congruence]. rewrite (H _ _ E). discriminate.
  - destruct (get t 1) eqn:E; [|congruence]. rewrite (H _ _ E). discriminate.
  - destruct (get t 2) eqn:E; [|congruence]. rewrite (H _ _ E). discriminate.
Qed.

Record Plain (s : st) : Prop := {
  pl_std : std_open (tb s);
  pl_out : outfile (cx s) = 1 \/ 2 < outfile (cx s);
  pl_err : errfile (cx s) = 2 \/ 2 < errfile (cx s);
  pl_cap : captured (cx s) = None
}.

Lemma capture_big pick slave cur n s a m s' :
  std_open (tb s) -> background_capture pick slave cur n s = (a, m, s') -> (cur = n \/ 2 < cur) -> a = n \/ 2 < a.
Proof.
  intros SO. unfold background_capture. destruct (_ && _ && _).
  - destruct (new_pipe pick s) as [[r w] s1] eqn:P. intros [= <- <- <-] _.
    destruct (new_pipe_ok _ _ _ _ _ P) as (_ & Fw & _). right. exact (free_std _ _ SO Fw).
  - intros [= <- <- <-]. auto.
Qed.

Lemma stage_input_ok pick name slave hn prev s fd x :
  Plain s -> (forall n, slave = Some n -> 2 < n) ->
  2 < fd -> infile (cx s) = fd -> get (tb s) fd = Some x -> what x = FileIn name ->
  let s' := stage pick (Some (RInput name)) slave Command hn prev (Some fd) s in
  exists p, procs s' = procs s ++ [p] /\ Plain s' /\
    (failed_to_start p \/ stdin_of p = Some (FileIn name)).
Proof.
  intros PL SB B HI G WX. cbv zeta.
  remember (stage pick (Some (RInput name)) slave Command hn prev (Some fd) s) as s' eqn:E.
  unfold stage in E. destruct (choose_output pick (Some (RInput name)) slave hn s) as [[po cap] s1] eqn:E1.
  assert (procs s1 = procs s /\ infile (cx s1) = fd /\ (outfile (cx s1) = 1 \/ 2 < outfile (cx s1)) /\
          errfile (cx s1) = errfile (cx s) /\ captured (cx s1) = None /\
          (forall fd x, get (tb s) fd = Some x -> get (tb s1) fd = Some x)) as (P1 & I1 & O1 & R1 & C1 & M1).
  { unfold choose_output, create_pipe in E1.
    destruct (new_pipe pick s) as [[r w] q] eqn:P.
    destruct (new_pipe_ok _ _ _ _ _ P) as (Fr & Fw & _ & T & N & C & Q & _ & K).
    destruct hn.
    - injection E1 as <- <- <-. cbn. rewrite C, Q. repeat split; try assumption.
      + right. exact (free_std _ _ (pl_std _ PL) Fw).
      + exact (pl_cap _ PL).
      + intros f y H. rewrite T. rewrite (eqb_f f w), (eqb_f f r) by congruence. exact H.
    - cbn [is_none] in E1. rewrite andb_false_r in E1. cbn in E1. injection E1 as <- <- <-.
      repeat split; auto; [exact (pl_out _ PL)|exact (pl_cap _ PL)]. }
  assert (std_open (tb s1)) as SO1 by exact (std_open_mono _ _ (pl_std _ PL) M1).
  rewrite apply_slave_eq in E. rewrite I1, R1, C1 in E. rewrite (eqb_f fd 0) in E by lia.
  replace (match slave with Some _ => fd | None => fd end) with fd in E by now destruct slave.
  set (o0 := match slave with Some sl => if outfile (cx s1) =? 1 then sl else outfile (cx s1)
                         | None => outfile (cx s1) end) in E.
  set (e0 := match slave with Some sl => if errfile (cx s) =? 2 then sl else errfile (cx s)
                         | None => errfile (cx s) end) in E.
  assert (o0 = 1 \/ 2 < o0) as HO.
  { unfold o0. destruct slave as [sl|]; [|exact O1]. destruct (outfile (cx s1) =? 1); [|exact O1].
    right. exact (SB _ eq_refl). }
  assert (e0 = 2 \/ 2 < e0) as HE.
  { unfold e0. destruct slave as [sl|]; [|exact (pl_err _ PL)].
    destruct (errfile (cx s) =? 2); [|exact (pl_err _ PL)]. right. exact (SB _ eq_refl). }
  unfold start in E. cbn [cx upd_cx infile outfile errfile] in E.
  set (q0 := upd_cx s1 _) in E.
  destruct (background_capture pick slave o0 1 q0) as [[o m1] q1] eqn:B1.
  destruct (background_capture pick slave e0 2 q1) as [[e m2] q2] eqn:B2.
  destruct (background_capture_adds _ _ _ _ _ _ _ _ B1) as (Pa & _ & Ca & _ & Ma).
  destruct (background_capture_adds _ _ _ _ _ _ _ _ B2) as (Pb & _ & Cb & _ & Mb).
  assert (std_open (tb q1)) as SOa by exact (std_open_mono _ _ SO1 Ma).
  assert (std_open (tb q2)) as SOb by exact (std_open_mono _ _ SOa Mb).
  pose proof (capture_big _ _ _ _ q0 _ _ _ SO1 B1 HO) as Bo.
  pose proof (capture_big _ _ _ _ _ _ _ _ SOa B2 HE) as Be.
  assert (get (tb q2) fd = Some x) as Gq by (apply Mb, Ma, M1, G).
  assert (failed_to_start (started (tb q2) fd o e) \/ stdin_of (started (tb q2) fd o e) = Some (FileIn name)) as RES.
  { unfold failed_to_start, stdin_of, finds. cbn [started ptab fds fst snd].
    destruct (child_setup (tb q2) fd o e) as [t'|] eqn:CS; [right|left; reflexivity].
    destruct (setup_fd0 (tb q2) fd o e t') as (y & Gy & G0); try lia; try assumption.
    cbn [option_map]. rewrite get_exec, G0. cbn. congruence. }
  cbn [app olist] in E.
  set (s4 := match po with Some p => _ | None => _ end) in E.
  assert (procs s4 = procs s ++ [started (tb q2) fd o e] /\ tb s4 = tb q2 /\
          outfile (cx s4) = o0 /\ errfile (cx s4) = e0 /\ captured (cx s4) = None) as (P4 & T4 & O4 & E4 & C4).
  { unfold s4. destruct po; cbn [procs add_proc upd_cx cx tb set_in outfile errfile captured];
      rewrite Pb, Pa, Cb, Ca; cbn [procs cx q0 upd_cx outfile errfile captured]; rewrite P1; auto. }
  cbn [spawn_copier] in E.
  exists (started (tb q2) fd o e).
  assert (procs s' = procs s4 /\ outfile (cx s') = outfile (cx s4) /\ errfile (cx s') = errfile (cx s4) /\
          captured (cx s') = captured (cx s4) /\ tb s' = close_io slave (Some fd) (fd, o, e) (tb s4)) as (P5 & O5 & E5 & C5 & T5).
  { rewrite E. destruct (_ =? fd); auto. }
  split; [congruence|]. split; [|exact RES].
  split; rewrite ?O5, ?E5, ?C5, ?O4, ?E4, ?C4; auto.
  rewrite T5, T4. unfold close_io. rewrite Nat.eqb_refl, andb_false_r.
  destruct SOb as (Z0 & Z1 & Z2).
  assert (forall t n k, (k = n \/ 2 < k) -> negb (k =? n) = true -> std_open t -> std_open (close t k)) as CB.
  { intros t n k H1 H2 (Y0 & Y1 & Y2). apply negb_true_iff, Nat.eqb_neq in H2.
    repeat split; rewrite get_close, eqb_f by lia; assumption. }
  destruct (negb (o =? 1) && negb (some_is slave o)) eqn:D1;
    destruct (negb (e =? 2) && negb (o =? e) && negb (some_is slave e)) eqn:D2;
    rewrite ?andb_true_iff in *.
  - apply (CB _ 2); [exact Be|tauto|]. apply (CB _ 1); [exact Bo|tauto|]. repeat split; assumption.
  - apply (CB _ 1); [exact Bo|tauto|]. repeat split; assumption.
  - apply (CB _ 2); [exact Be|tauto|]. repeat split; assumption.
  - repeat split; assumption.
Qed.

Lemma launch_input_ok pick openable name slave ks : openable name = true -> all_commands ks ->
  (forall n, slave = Some n -> 2 < n) -> forall s, Plain s ->
  exists l, procs (fst (launch pick openable (Some (RInput name)) slave ks s)) = procs s ++ l /\
    length l = length ks /\
    forall p, In p l -> failed_to_start p \/ stdin_of p = Some (FileIn name).
Proof.
  intros HO HC SB. induction ks as [|k ks IH]; intros s PL.
  { exists []. cbn. rewrite app_nil_r. split; [reflexivity|]. split; [reflexivity|]. intros p []. }
  assert (k = Command) as -> by (apply HC; left; reflexivity).
  cbn [launch]. rewrite HO.
  set (fd := alloc pick (tb s)). set (s1 := upd_cx _ _).
  assert (get (tb s) fd = None) as Fr by apply alloc_free.
  pose proof (free_std _ _ (pl_std _ PL) Fr) as B.
  assert (Plain s1) as PL1.
  { split; [|exact (pl_out _ PL)|exact (pl_err _ PL)|exact (pl_cap _ PL)].
    apply (std_open_mono (tb s) _ (pl_std _ PL)). intros f y H. cbn. rewrite get_put, eqb_f by congruence. exact H. }
  destruct (stage_input_ok pick name slave (match ks with [] => false | _ => true end) (infile (cx s)) s1 fd
              (Ent (FileIn name) true)) as (p & EP & PL2 & R); auto.
  { cbn. rewrite get_put, Nat.eqb_refl. reflexivity. }
  set (s2 := stage pick (Some (RInput name)) slave Command _ _ _ _) in *.
  destruct (IH (fun q i => HC q (or_intror i)) s2 PL2) as (l & EL & LL & Hl).
  destruct (launch pick openable (Some (RInput name)) slave ks s2) as [s3 ok].
  exists (p :: l). cbn [fst procs upd_tb] in *. rewrite EL, EP, <- app_assoc. split; [reflexivity|].
  split; [cbn; now rewrite LL|]. intros q [<-|i]; auto.
Qed.
