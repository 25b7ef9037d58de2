(** C253: opening the database. *)
From Verif Require Import Base Schema_Model Schema_Spec.

Lemma holds_refl a : Holds a a.
Proof. split; [exists []; symmetry; apply app_nil_r|]. induction (rows a); constructor; auto. Qed.
Lemma holds_trans a b c : Holds a b -> Holds b c -> Holds a c.
Proof.
  intros ((m & M) & R) ((n & N1) & Q). split; [exists (m ++ n); rewrite N1, M; symmetry; apply app_assoc|].
  revert R Q. generalize (rows a) as x, (rows b) as y, (rows c) as z. intros x y z R. revert z. induction R as [|r q x y H _ IH]; intros z Q; inversion Q; subst; constructor; auto.
Qed.
Lemma kept_refl d : Kept d d.
Proof. split; [intros t a E; exists a; split; [exact E|apply holds_refl]|auto]. Qed.
Lemma kept_trans a b c : Kept a b -> Kept b c -> Kept a c.
Proof.
  intros (A & B) (C & D). split; [|auto]. intros t x E. destruct (A t x E) as (y & Y & H). destruct (C t y Y) as (z & Z & K). exists z. split; [exact Z|]. exact (holds_trans _ _ _ H K).
Qed.
Lemma put_same {A} (f : str -> option A) k x : put f k x k = Some x.
Proof. unfold put. rewrite str_eqb_refl. reflexivity. Qed.
Lemma put_other {A} (f : str -> option A) k x n : n <> k -> put f k x n = f n.
Proof. intros H. unfold put. destruct (str_eqb n k) eqn:E; [apply str_eqb_eq in E; contradiction|reflexivity]. Qed.
Lemma get_app r c v more : get r c = Some v -> get (r ++ more) c = Some v.
Proof. induction r as [|(k & w) r IH]; [discriminate|]. cbn. destruct (str_eqb k c); auto. Qed.
Lemma exec_kept s d e : exec s d = Some e -> Kept d e.
Proof.
  destruct s as [t cols|t c v|name t c u]; cbn [exec].
  - destruct (tables d t) eqn:T; intros [= <-]; [apply kept_refl|]. split; cbn; [|auto]. intros t' a E. exists a. split; [|apply holds_refl].
    rewrite put_other; [exact E|]. intros ->. congruence.
  - destruct (tables d t) as [b|] eqn:T; [|intros [= <-]; apply kept_refl]. destruct (mem_str c (columns b)); intros [= <-]; [apply kept_refl|]. split; cbn; [|auto].
    intros t' a E. destruct (str_eq_dec t' t) as [->|N1].
    + exists (Table (columns b ++ [c]) (map (fun r => r ++ [(c, v)]) (rows b))). split; [apply put_same|]. rewrite T in E. injection E as <-. split; cbn; [eauto|].
      induction (rows b) as [|r rs IH]; cbn; constructor; [|exact IH]. intros c' v'. apply get_app.
    + exists a. split; [|apply holds_refl]. rewrite put_other; auto.
  - destruct (indexes d name) eqn:X; [intros [= <-]; apply kept_refl|]. destruct (tables d t) as [b|] eqn:T; [|discriminate].
    destruct (mem_str c (columns b) && _); intros [= <-]. split; cbn; [intros t' a E; exists a; split; [exact E|apply holds_refl]|].
    intros n i E. rewrite put_other; [exact E|]. intros ->. congruence.
Qed.
Lemma run_kept ss : forall d, Kept d (fst (run ss d)).
Proof.
  induction ss as [|s ss IH]; intros d; cbn [run]; [apply kept_refl|]. destruct (exec s d) as [e|] eqn:E; [|apply kept_refl].
  apply (kept_trans _ e); [exact (exec_kept _ _ _ E)|apply IH].
Qed.
(** Whether it opens or not, nothing that was there is lost or changed. *)
Theorem C253_kept : forall d, Kept d (fst (open d)).
Proof. intros d. apply run_kept. Qed.

(** *** statements that have been done *)
Definition Done (s : statement) (d : db) : Prop :=
  match s with
  | Create t _ => tables d t <> None
  | Add t c _ => exists b, tables d t = Some b /\ In c (columns b)
  | Index name _ _ _ => indexes d name <> None
  end.
Lemma done_noop s d : Done s d -> exec s d = Some d.
Proof.
  destruct s as [t cols|t c v|name t c u]; cbn.
  - destruct (tables d t); [reflexivity|congruence].
  - intros (b & -> & H). apply mem_str_iff in H. rewrite H. reflexivity.
  - destruct (indexes d name); [reflexivity|congruence].
Qed.
Lemma done_kept s d e : Done s d -> Kept d e -> Done s e.
Proof.
  intros D (A & B). destruct s as [t cols|t c v|name t c u]; cbn in *.
  - destruct (tables d t) as [a|] eqn:T; [|congruence]. destruct (A _ _ T) as (b & -> & _). discriminate.
  - destruct D as (a & T & H). destruct (A _ _ T) as (b & T' & ((m & M) & _)). exists b. split; [exact T'|]. rewrite M. apply in_or_app. auto.
  - destruct (indexes d name) as [i|] eqn:X; [|congruence]. rewrite (B _ _ X). discriminate.
Qed.
Lemma exec_done s d e : exec s d = Some e -> (forall t c v, s = Add t c v -> tables d t <> None) -> Done s e.
Proof.
  destruct s as [t cols|t c v|name t c u]; cbn; intros E A.
  - destruct (tables d t) eqn:T; injection E as <-; [congruence|]. cbn. rewrite put_same. discriminate.
  - specialize (A t c v eq_refl). destruct (tables d t) as [b|] eqn:T; [|congruence]. destruct (mem_str c (columns b)) eqn:M; injection E as <-.
    + exists b. split; [exact T|]. apply mem_str_iff. exact M.
    + cbn. rewrite put_same. eexists. split; [reflexivity|]. cbn. apply in_or_app. right. left. reflexivity.
  - destruct (indexes d name) eqn:X; [injection E as <-; congruence|]. destruct (tables d t) as [b|]; [|discriminate]. destruct (mem_str c (columns b) && _); [|discriminate]. injection E as <-.
    cbn. rewrite put_same. discriminate.
Qed.
Lemma run_app a b d : run (a ++ b) d = (let (e, ok) := run a d in if ok then run b e else (e, false)).
Proof. revert d. induction a as [|s a IH]; intros d; cbn [app run]; [reflexivity|]. destruct (exec s d); [apply IH|reflexivity]. Qed.
Lemma done_run ss d : Forall (fun s => Done s d) ss -> run ss d = (d, true).
Proof. induction 1 as [|s ss D _ IH]; [reflexivity|]. cbn [run]. rewrite (done_noop _ _ D). exact IH. Qed.
(** statements whose additions are all to one table *)
Definition Adds_to (h : str) (ss : list statement) : Prop := forall t c v, In (Add t c v) ss -> t = h.
Lemma run_done h ss : Adds_to h ss -> forall d, tables d h <> None -> snd (run ss d) = true -> Forall (fun s => Done s (fst (run ss d))) ss.
Proof.
  intros A. induction ss as [|s ss IH]; intros d T OK; [constructor|]. cbn [run] in *. destruct (exec s d) as [e|] eqn:E; [|discriminate].
  assert (D : Done s e). { apply (exec_done _ _ _ E). intros t c v ->. rewrite (A t c v (or_introl eq_refl)). exact T. }
  assert (T' : tables e h <> None). { destruct (exec_kept _ _ _ E) as (K & _). destruct (tables d h) as [a|] eqn:TD; [|congruence]. destruct (K _ _ TD) as (b & -> & _). discriminate. }
  constructor; [exact (done_kept _ _ _ D (run_kept ss e))|]. apply IH; auto. intros t c v X. apply (A t c v). right. exact X.
Qed.
Lemma again h ss : Adds_to h ss -> forall d, tables d h <> None -> forall k, run ss (fst (run (firstn k ss) d)) = run ss d.
Proof.
  intros A. induction ss as [|s ss IH]; intros d T k; [destruct k; reflexivity|]. destruct k as [|k]; [reflexivity|]. cbn [firstn run]. destruct (exec s d) as [e|] eqn:E; [|cbn; rewrite E; reflexivity].
  assert (D : Done s e). { apply (exec_done _ _ _ E). intros t c v ->. rewrite (A t c v (or_introl eq_refl)). exact T. }
  assert (T' : tables e h <> None). { destruct (exec_kept _ _ _ E) as (K & _). destruct (tables d h) as [a|] eqn:TD; [|congruence]. destruct (K _ _ TD) as (b & -> & _). discriminate. }
  rewrite (done_noop _ _ (done_kept _ _ _ D (run_kept (firstn k ss) e))). apply IH; [|exact T']. intros t c v X. apply (A t c v). right. exact X.
Qed.
Lemma schema_adds : Adds_to (lit "command_history") (tl schema).
Proof. intros t c v H. cbn in H. repeat (destruct H as [H|H]; [first [discriminate H|injection H as <- _ _; reflexivity]|]). destruct H. Qed.
Lemma first_there d : exists e, exec (hd (Create [] []) schema) d = Some e /\ tables e (lit "command_history") <> None.
Proof.
  cbn. destruct (tables d (lit "command_history")) eqn:T; eexists; (split; [reflexivity|]); [congruence|]. cbn. rewrite put_same. discriminate.
Qed.
Lemma schema_eq : schema = hd (Create [] []) schema :: tl schema.
Proof. reflexivity. Qed.
(** If the shell is killed while it opens the database, after any statement, the next start ends as if it had not been. *)
Theorem C253_killed : forall d k, open (fst (run (firstn k schema) d)) = open d.
Proof.
  intros d k. unfold open. rewrite schema_eq. destruct (first_there d) as (e & E & T). destruct k as [|k]; [reflexivity|]. cbn [firstn run]. rewrite E.
  assert (D : Done (hd (Create [] []) schema) e) by exact T.
  rewrite (done_noop _ _ (done_kept _ _ _ D (run_kept (firstn k (tl schema)) e))). apply (again (lit "command_history")); [exact schema_adds|exact T].
Qed.
(** Opening again changes nothing. *)
Theorem C253_again : forall d, open (fst (open d)) = open d.
Proof. intros d. rewrite <- (C253_killed d (length schema)) at 2. rewrite firstn_all. reflexivity. Qed.
(** Once it opened, every table is there, and the history has every column it needs. *)
Theorem C253_ready : forall d, snd (open d) = true -> exists b, tables (fst (open d)) (lit "command_history") = Some b /\
  (forall c, In c [lit "count"; lit "exit_code"; lit "duration_ms"; lit "cwd"; lit "session_id"; lit "hostname"] -> In c (columns b)) /\
  indexes (fst (open d)) (lit "idx_command_history_command") <> None /\
  forall t, In t [lit "directory_visits"; lit "directory_snapshot"; lit "snippets"; lit "bookmarks"; lit "dir_aliases"] -> tables (fst (open d)) t <> None.
Proof.
  intros d OK. unfold open in *. rewrite schema_eq in *. destruct (first_there d) as (e & E & T). cbn [run] in *. rewrite E in *.
  pose proof (run_done _ _ schema_adds e T OK) as F. rewrite Forall_forall in F. set (z := fst (run (tl schema) e)) in *.
  assert (G : forall c v, In (Add (lit "command_history") c v) (tl schema) -> exists b, tables z (lit "command_history") = Some b /\ In c (columns b)) by (intros c v H; exact (F _ H)).
  destruct (G (lit "count") (Int 1)) as (b & B & _); [cbn; tauto|]. exists b. split; [exact B|]. split; [|split].
  - intros c H. assert (X : exists v, In (Add (lit "command_history") c v) (tl schema)).
    { cbn in H. repeat (destruct H as [<-|H]; [eexists; cbn; auto 20|]). destruct H. }
    destruct X as (v & X). destruct (G c v X) as (b' & B' & I1). rewrite B in B'. injection B' as <-. exact I1.
  - apply (F (Index (lit "idx_command_history_command") (lit "command_history") (lit "command") true)). cbn. auto 20.
  - intros t H. assert (X : exists cols, In (Create t cols) (tl schema)).
    { cbn in H. repeat (destruct H as [<-|H]; [eexists; cbn; auto 20|]). destruct H. }
    destruct X as (cols & X). exact (F _ X).
Qed.

(** Rows from before commands were counted count once. *)
Theorem C253_count : forall d a, tables d (lit "command_history") = Some a -> ~ In (lit "count") (columns a) -> (forall r, In r (rows a) -> get r (lit "count") = None) ->
  exists b, tables (fst (open d)) (lit "command_history") = Some b /\ length (rows b) = length (rows a) /\ forall r, In r (rows b) -> get r (lit "count") = Some (Int 1).
Proof.
  intros d a T NC NR. unfold open. change schema with (firstn 2 schema ++ skipn 2 schema). rewrite run_app.
  destruct (mem_str (lit "count") (columns a)) eqn:M; [apply mem_str_iff in M; contradiction|].
  change (firstn 2 schema) with [Create (lit "command_history") history_columns; Add (lit "command_history") (lit "count") (Int 1)]. cbn [run exec]. rewrite T. cbn [run exec]. rewrite T, M. cbn [run].
  set (b0 := Table (columns a ++ [lit "count"]) (map (fun r => r ++ [(lit "count", Int 1)]) (rows a))). set (e := Db _ _).
  destruct (run_kept (skipn 2 schema) e) as (K & _). destruct (K (lit "command_history") b0 (put_same _ _ _)) as (b & B & (_ & R)). exists b. split; [exact B|].
  assert (L : length (rows b0) = length (rows b)) by (clear - R; induction R; cbn; congruence). cbn in L. rewrite map_length in L. split; [symmetry; exact L|].
  intros r H. apply in_split in H as (x & y & H). rewrite H in R. apply Forall2_app_inv_r in R as (p & q & _ & R & E). inversion R as [|r0 r1 l0 l1 R1 R2]; subst. apply R1.
  assert (I1 : In r0 (rows b0)) by (rewrite E; apply in_or_app; right; left; reflexivity). cbn in I1. apply in_map_iff in I1 as (z & <- & Z).
  specialize (NR z Z). clear - NR. induction z as [|(k & w) z IH]; [reflexivity|]. cbn in *. destruct (str_eqb k (lit "count")); [discriminate|auto].
Qed.
Lemma value_eqb_iff a b : value_eqb a b = true <-> a = b /\ a <> Null.
Proof.
  destruct a, b; cbn; try (split; [discriminate|intros (X & Y); congruence]).
  - rewrite Z.eqb_eq. split; [intros ->; split; [reflexivity|discriminate]|intros (X & _); congruence].
  - rewrite str_eqb_eq. split; [intros ->; split; [reflexivity|discriminate]|intros (X & _); congruence].
Qed.
Lemma twice_iff (rs : list row) c : twice (map (fun r => get r c) rs) = true <-> exists x r y q z v, rs = x ++ r :: y ++ q :: z /\ get r c = Some v /\ get q c = Some v /\ v <> Null.
Proof.
  induction rs as [|r rs IH]; cbn [map twice].
  - split; [discriminate|]. intros (x & r & y & q & z & v & E & _). destruct x; discriminate E.
  - rewrite orb_true_iff, existsb_exists, IH. split.
    + intros [(w & I1 & E)|(x & a & y & q & z & v & -> & H)].
      * apply in_map_iff in I1 as (q & <- & I1). apply in_split in I1 as (y & z & ->). destruct (get r c) as [a|] eqn:A; [|discriminate]. destruct (get q c) as [b|] eqn:B; [|discriminate].
        apply value_eqb_iff in E as (-> & N1). exists [], r, y, q, z, b. auto.
      * exists (r :: x), a, y, q, z, v. auto.
    + intros (x & a & y & q & z & v & E & A & B & N1). destruct x as [|x0 x]; injection E as E1 E2.
      * left. subst. exists (Some v). split; [rewrite <- B; apply (in_map (fun r => get r c)); apply in_or_app; right; left; reflexivity|]. rewrite A. apply value_eqb_iff. auto.
      * right. subst. exists x, a, y, q, z, v. auto.
Qed.
Lemma index_iff d name t c u : exec (Index name t c u) d <> None <-> indexes d name <> None \/ exists b, tables d t = Some b /\ In c (columns b) /\ (u = true -> ~ Duplicates b c).
Proof.
  cbn [exec]. destruct (indexes d name) as [i|]; [split; [left; discriminate|discriminate]|]. destruct (tables d t) as [b|]; [|split; [congruence|intros [X|(b & X & _)]; congruence]].
  assert (TW : twice (map (fun r => get r c) (rows b)) = true <-> Duplicates b c) by apply twice_iff.
  destruct (mem_str c (columns b) && negb (u && twice (map (fun r => get r c) (rows b)))) eqn:M.
  - split; [|discriminate]. intros _. right. exists b. apply andb_true_iff in M as (M1 & M2). apply mem_str_iff in M1. split; [reflexivity|]. split; [exact M1|]. intros -> D. apply TW in D. rewrite D in M2. discriminate.
  - split; [congruence|]. intros [X|(b' & E & I1 & D)]; [congruence|]. injection E as <-. apply mem_str_iff in I1. rewrite I1 in M. cbn in M. destruct u; [|discriminate]. cbn in M.
    destruct (twice _) eqn:X; [|discriminate]. exfalso. apply (D eq_refl). apply TW. reflexivity.
Qed.
(** While the same command is there twice and its index is not, it does not open, however often it is tried. *)
Lemma no_index ss : forall d n, indexes d n = None -> Forall (fun s => forall t c u, s <> Index n t c u) ss -> indexes (fst (run ss d)) n = None.
Proof.
  induction ss as [|s ss IH]; intros d n X F; [exact X|]. inversion F as [|? ? F1 F2]; subst. cbn [run]. destruct (exec s d) as [e|] eqn:E; [|exact X]. apply IH; [|exact F2].
  destruct s as [t cols|t c v|name t c u]; cbn in E.
  - destruct (tables d t); injection E as <-; exact X.
  - destruct (tables d t) as [b|]; [destruct (mem_str c (columns b))|]; injection E as <-; exact X.
  - destruct (indexes d name); [injection E as <-; exact X|]. destruct (tables d t) as [b|]; [|discriminate]. destruct (mem_str c (columns b) && _); [|discriminate]. injection E as <-. cbn.
    rewrite put_other; [exact X|]. intros ->. exact (F1 t c u eq_refl).
Qed.
Lemma holds_duplicates a b c : Holds a b -> Duplicates a c -> Duplicates b c.
Proof.
  intros (_ & R) (x & r & y & q & z & v & E & A & B & N1). rewrite E in R.
  apply Forall2_app_inv_l in R as (x' & w & _ & R & W). inversion R as [|r0 r' l0 w' R1 R2]; subst.
  apply Forall2_app_inv_l in R2 as (y' & w2 & _ & R2 & ->). inversion R2 as [|q0 q' l1 z' R3 R4]; subst.
  exists x', r', y', q', z', v. split; [exact W|]. auto.
Qed.
Theorem C253_duplicates_refuted : forall d b, tables d (lit "command_history") = Some b -> Duplicates b (lit "command") ->
  indexes d (lit "idx_command_history_command") = None -> snd (open d) = false /\ snd (open (fst (open d))) = false.
Proof.
  intros d b T DU X. rewrite C253_again. cut (snd (open d) = false); [auto|]. unfold open.
  change schema with (firstn 10 schema ++ skipn 10 schema). rewrite run_app. pose proof (no_index (firstn 10 schema) d _ X) as NI. pose proof (run_kept (firstn 10 schema) d) as (K & _).
  destruct (run (firstn 10 schema) d) as [e ok]. cbn [fst] in NI, K. destruct ok; [|reflexivity].
  change (skipn 10 schema) with (Index (lit "idx_command_history_command") (lit "command_history") (lit "command") true :: skipn 11 schema). cbn [run].
  destruct (exec (Index _ _ _ true) e) as [z|] eqn:E; [|reflexivity]. exfalso.
  assert (NE : exec (Index (lit "idx_command_history_command") (lit "command_history") (lit "command") true) e <> None) by (rewrite E; discriminate).
  apply index_iff in NE as [Y|(b' & T' & _ & D)].
  - apply Y. apply NI. cbn. repeat constructor; intros t c u; discriminate.
  - destruct (K _ _ T) as (b2 & T2 & H). rewrite T' in T2. injection T2 as <-. apply (D eq_refl). exact (holds_duplicates _ _ _ H DU).
Qed.

(** *** exactly when it opens *)
Definition Good (d : db) (t c : str) (u : bool) : Prop := exists b, tables d t = Some b /\ In c (columns b) /\ (u = true -> ~ Duplicates b c).
Definition No_add (c : str) (ss : list statement) : Prop := Forall (fun s => forall t v, s <> Add t c v) ss.
Lemma get_other r c k v : k <> c -> get (r ++ [(k, v)]) c = get r c.
Proof.
  intros N1. induction r as [|(a & w) r IH]; cbn.
  - destruct (str_eqb k c) eqn:E; [apply str_eqb_eq in E; contradiction|reflexivity].
  - destruct (str_eqb a c); auto.
Qed.
Lemma good_rows (a b : table) t c u d e : tables d t = Some a -> tables e t = Some b -> (In c (columns a) <-> In c (columns b)) ->
  map (fun r => get r c) (rows a) = map (fun r => get r c) (rows b) -> (Good e t c u <-> Good d t c u).
Proof.
  intros A B C R. assert (DD : Duplicates a c <-> Duplicates b c). { unfold Duplicates. rewrite <- !twice_iff, R. reflexivity. }
  unfold Good. split; intros (x & X & I1 & D).
  - rewrite B in X. injection X as <-. exists a. split; [exact A|]. split; [apply C; exact I1|]. intros U H. apply (D U). apply DD. exact H.
  - rewrite A in X. injection X as <-. exists b. split; [exact B|]. split; [apply C; exact I1|]. intros U H. apply (D U). apply DD. exact H.
Qed.
Lemma good_step s d e t c u : exec s d = Some e -> (forall t' v, s <> Add t' c v) -> tables d t <> None -> (Good e t c u <-> Good d t c u).
Proof.
  intros E NA T. destruct (tables d t) as [a|] eqn:TD; [clear T|congruence]. destruct s as [t' cols|t' k v|name t' k w]; cbn in E.
  - destruct (tables d t') eqn:T'; injection E as <-; [reflexivity|]. apply (good_rows a a); try reflexivity; [exact TD|]. cbn. rewrite put_other; [exact TD|]. intros ->. congruence.
  - destruct (tables d t') as [b|] eqn:T'; [|injection E as <-; reflexivity]. destruct (mem_str k (columns b)); injection E as <-; [reflexivity|].
    destruct (str_eq_dec t t') as [->|N1].
    + rewrite TD in T'. injection T' as <-. assert (KC : k <> c) by (intros ->; exact (NA t' v eq_refl)).
      apply (good_rows a (Table (columns a ++ [k]) (map (fun r => r ++ [(k, v)]) (rows a)))); [exact TD|cbn; apply put_same| |].
      * cbn. rewrite in_app_iff. split; [auto|]. intros [H|[H|[]]]; [exact H|contradiction].
      * cbn. rewrite map_map. apply map_ext. intros r. symmetry. apply get_other. exact KC.
    + apply (good_rows a a); try reflexivity; [exact TD|]. cbn. rewrite put_other; [exact TD|exact N1].
  - destruct (indexes d name); [injection E as <-; reflexivity|]. destruct (tables d t') as [b|] eqn:T'; [|discriminate]. destruct (mem_str k (columns b) && _); [|discriminate]. injection E as <-.
    apply (good_rows a a); try reflexivity; exact TD.
Qed.
Lemma there_run ss : forall d t, tables d t <> None -> tables (fst (run ss d)) t <> None.
Proof. intros d t T. destruct (run_kept ss d) as (K & _). destruct (tables d t) as [a|] eqn:E; [|congruence]. destruct (K _ _ E) as (b & -> & _). discriminate. Qed.
Lemma good_run c ss : No_add c ss -> forall d t u, tables d t <> None -> (Good (fst (run ss d)) t c u <-> Good d t c u).
Proof.
  induction 1 as [|s ss NA _ IH]; intros d t u T; [reflexivity|]. cbn [run]. destruct (exec s d) as [e|] eqn:E; [|reflexivity].
  rewrite IH; [apply (good_step s); assumption|]. destruct (exec_kept _ _ _ E) as (K & _). destruct (tables d t) as [a|] eqn:TD; [|congruence]. destruct (K _ _ TD) as (b & -> & _). discriminate.
Qed.
Lemma missing_run t ss : Forall (fun s => forall cols, s <> Create t cols) ss -> forall d, tables d t = None -> tables (fst (run ss d)) t = None.
Proof.
  induction 1 as [|s ss NC _ IH]; intros d T; [exact T|]. cbn [run]. destruct (exec s d) as [e|] eqn:E; [|exact T]. apply IH. destruct s as [t' cols|t' k v|name t' k w]; cbn in E.
  - destruct (tables d t') eqn:T'; injection E as <-; [exact T|]. cbn. rewrite put_other; [exact T|]. intros ->. exact (NC cols eq_refl).
  - destruct (tables d t') as [b|] eqn:T'; [|injection E as <-; exact T]. destruct (mem_str k (columns b)); injection E as <-; [exact T|]. cbn. rewrite put_other; [exact T|]. intros ->. congruence.
  - destruct (indexes d name); [injection E as <-; exact T|]. destruct (tables d t') as [b|]; [|discriminate]. destruct (mem_str k (columns b) && _); [|discriminate]. injection E as <-. exact T.
Qed.
Lemma index_at p1 t cols p2 n c u d : snd (run (p1 ++ Create t cols :: p2) d) = true -> In c cols -> Forall (fun s => forall cs, s <> Create t cs) p1 ->
  No_add c (p1 ++ Create t cols :: p2) -> Forall (fun s => forall t' c' u', s <> Index n t' c' u') (p1 ++ Create t cols :: p2) ->
  (exec (Index n t c u) (fst (run (p1 ++ Create t cols :: p2) d)) <> None <-> Can_index d n t c u).
Proof.
  intros OK IC NC NA NI. rewrite index_iff. unfold Can_index.
  assert (XI : indexes (fst (run (p1 ++ Create t cols :: p2) d)) n <> None <-> indexes d n <> None).
  { split; intros H X; apply H; [exact (no_index _ _ _ X NI)|]. destruct (run_kept (p1 ++ Create t cols :: p2) d) as (_ & K). destruct (indexes d n) as [i|] eqn:Y; [|reflexivity]. rewrite (K _ _ Y) in X. discriminate. }
  rewrite XI. change (indexes d n <> None \/ Good (fst (run (p1 ++ Create t cols :: p2) d)) t c u <-> indexes d n <> None \/ tables d t = None \/ Good d t c u).
  assert (GI : Good (fst (run (p1 ++ Create t cols :: p2) d)) t c u <-> tables d t = None \/ Good d t c u); [|tauto].
  destruct (tables d t) as [a|] eqn:T.
  - rewrite good_run; [|exact NA|congruence]. split; [auto|intros [X|X]; [discriminate|exact X]].
  - split; [auto|]. intros _. rewrite run_app in *. pose proof (missing_run t p1 NC d T) as M. destruct (run p1 d) as [e ok]. cbn [fst] in M. destruct ok; [|discriminate OK]. cbn [run exec] in *. rewrite M in *.
    apply Forall_app in NA as (_ & NA). inversion NA as [|? ? _ NA2]; subst. rewrite good_run; [|exact NA2|cbn; rewrite put_same; discriminate].
    exists (Table cols []). cbn. rewrite put_same. split; [reflexivity|]. split; [exact IC|]. intros _ (x & r & y & q & z & v & X & _). destruct x; discriminate X.
Qed.
Lemma ok_snoc ss s d : snd (run (ss ++ [s]) d) = true <-> snd (run ss d) = true /\ exec s (fst (run ss d)) <> None.
Proof.
  rewrite run_app. destruct (run ss d) as [e ok]. cbn [fst snd]. destruct ok; [|cbn; split; [discriminate|intros (X & _); exact X]]. cbn [run].
  destruct (exec s e); cbn; split; try discriminate; try (intros (_ & X); congruence); intros _; split; [reflexivity|discriminate].
Qed.
Lemma ok_plain ss s d : (forall n t c u, s <> Index n t c u) -> (snd (run (ss ++ [s]) d) = true <-> snd (run ss d) = true).
Proof.
  intros H. rewrite ok_snoc. split; [tauto|]. intros X. split; [exact X|]. destruct s as [t cols|t k v|n t k w]; cbn.
  - destruct (tables _ t); discriminate.
  - destruct (tables _ t) as [b|]; [destruct (mem_str k (columns b))|]; discriminate.
  - exfalso. exact (H n t k w eq_refl).
Qed.
Lemma ok_index p1 t cols p2 n c u d : In c cols -> Forall (fun s => forall cs, s <> Create t cs) p1 ->
  No_add c (p1 ++ Create t cols :: p2) -> Forall (fun s => forall t' c' u', s <> Index n t' c' u') (p1 ++ Create t cols :: p2) ->
  (snd (run ((p1 ++ Create t cols :: p2) ++ [Index n t c u]) d) = true <-> snd (run (p1 ++ Create t cols :: p2) d) = true /\ Can_index d n t c u).
Proof.
  intros A B C D. rewrite ok_snoc. split; intros (X & Y); (split; [exact X|]); apply (index_at p1 t cols p2 n c u d X A B C D); exact Y.
Qed.
Ltac side := repeat constructor; repeat intro; discriminate.
(** It opens exactly when each of the four indexes is there or can be made. *)
Theorem C253_opens : forall d, snd (open d) = true <->
  Can_index d (lit "idx_command_history_timestamp") (lit "command_history") (lit "timestamp") false /\
  Can_index d (lit "idx_command_history_command") (lit "command_history") (lit "command") true /\
  Can_index d (lit "idx_directory_visits_timestamp") (lit "directory_visits") (lit "timestamp") false /\
  Can_index d (lit "idx_snippets_name") (lit "snippets") (lit "name") false.
Proof.
  intros d. unfold open.
  change schema with (firstn 15 schema ++ [nth 15 schema (Create [] [])]). rewrite ok_plain by (intros; discriminate).
  change (firstn 15 schema) with (firstn 14 schema ++ [nth 14 schema (Create [] [])]). rewrite ok_plain by (intros; discriminate).
  change (firstn 14 schema) with ((firstn 12 schema ++ Create (lit "snippets") snippet_columns :: []) ++ [Index (lit "idx_snippets_name") (lit "snippets") (lit "name") false]).
  rewrite (ok_index (firstn 12 schema) (lit "snippets") _ []); [|cbn; tauto|side|side|side].
  rewrite ok_plain by (intros; discriminate).
  change (firstn 12 schema) with ((firstn 7 schema ++ Create (lit "directory_visits") visit_columns :: [nth 8 schema (Create [] []); nth 9 schema (Create [] []); nth 10 schema (Create [] [])]) ++ [Index (lit "idx_directory_visits_timestamp") (lit "directory_visits") (lit "timestamp") false]).
  rewrite (ok_index (firstn 7 schema) (lit "directory_visits") _ _); [|cbn; tauto|side|side|side].
  change (firstn 7 schema ++ Create (lit "directory_visits") visit_columns :: [nth 8 schema (Create [] []); nth 9 schema (Create [] []); nth 10 schema (Create [] [])])
    with (([] ++ Create (lit "command_history") history_columns :: skipn 1 (firstn 10 schema)) ++ [Index (lit "idx_command_history_command") (lit "command_history") (lit "command") true]).
  rewrite (ok_index [] (lit "command_history") history_columns); [|cbn; tauto|side|side|side].
  change ([] ++ Create (lit "command_history") history_columns :: skipn 1 (firstn 10 schema))
    with (([] ++ Create (lit "command_history") history_columns :: skipn 1 (firstn 9 schema)) ++ [Index (lit "idx_command_history_timestamp") (lit "command_history") (lit "timestamp") false]).
  rewrite (ok_index [] (lit "command_history") history_columns); [|cbn; tauto|side|side|side].
  assert (N9 : snd (run ([] ++ Create (lit "command_history") history_columns :: skipn 1 (firstn 9 schema)) d) = true).
  { assert (G : forall ss d, Forall (fun s => forall n t c u, s <> Index n t c u) ss -> snd (run ss d) = true); [|apply G; side].
    clear d. intros ss. induction ss as [|s ss IH] using rev_ind; intros d F; [reflexivity|]. apply Forall_app in F as (F1 & F2). inversion F2; subst. apply ok_plain; auto. }
  tauto.
Qed.
(** A new database opens. *)
Theorem C253_new : snd (open empty) = true.
Proof. reflexivity. Qed.
Print Assumptions C253_kept. Print Assumptions C253_killed. Print Assumptions C253_again. Print Assumptions C253_ready. Print Assumptions C253_count. Print Assumptions C253_duplicates_refuted. Print Assumptions C253_opens. Print Assumptions C253_new.

(** an old history without the newer columns *)
Definition old (rs : list row) : db := Db (put (fun _ => None) (lit "command_history") (Table [lit "id"; lit "command"; lit "timestamp"] rs)) (fun _ => None).
Definition entry (n : Z) (c : str) : row := [(lit "id", Int n); (lit "command", Text c); (lit "timestamp", Int 5)].
Example C253_case : snd (open (old [entry 1 (lit "ls"); entry 2 (lit "cd")])) = true /\ snd (open (old [entry 1 (lit "ls"); entry 2 (lit "ls")])) = false /\
  option_map (fun b => map (fun r => get r (lit "count")) (rows b)) (tables (fst (open (old [entry 1 (lit "ls")]))) (lit "command_history")) = Some [Some (Int 1)].
Proof. repeat split; reflexivity. Qed.
