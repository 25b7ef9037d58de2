(** C155: the window title. *)
From Verif Require Import Base Safety_Model Answer_Props Title_Model.
From Coq Require Import Lia.

(** ** specification *)
Definition control (c : char) : Prop := (c < 32 \/ (127 <= c /\ c < 160))%N.
Definition safe (t : str) : Prop := t <> [] /\ length t <= 64 /\ forall c, In c t -> ~ control c.
(** the name of a program: one component of a path, shown as it is *)
Definition program (n : str) : Prop :=
  safe n /\ ~ In (chr "/") n /\ n <> lit "." /\ n <> lit ".." /\
  (forall c r, n = c :: r -> is_whitespace c = false) /\ (forall b c, n = b ++ [c] -> is_whitespace c = false).
Definition called (n raw : str) : Prop := raw = n \/ exists d, raw = d ++ lit "/" ++ n.
(** the last of the processes that is a program *)
Definition last_program (l : list process) (raw : str) : Prop :=
  exists a b, l = a ++ Command raw :: b /\ forall p, In p b -> exists n, p = Builtin n.

Lemma control_iff c : is_control c = true <-> control c.
Proof. unfold is_control, control. rewrite orb_true_iff, andb_true_iff, !N.ltb_lt, N.leb_le. reflexivity. Qed.
Lemma firstn_in {A} n (l : list A) x : In x (firstn n l) -> In x l.
Proof. intros H. rewrite <- (firstn_skipn n l). apply in_or_app. left. exact H. Qed.
Lemma sanitize_safe raw : safe (sanitize_title raw).
Proof.
  unfold sanitize_title. destruct (trim _) as [|c t] eqn:E.
  - split; [discriminate|]. split; [apply Nat.leb_le; reflexivity|]. intros c I K. apply control_iff in K. destruct I as [<-|[<-|[<-|[]]]]; discriminate.
  - split; [discriminate|]. split; [rewrite firstn_length; lia|]. intros x I K. apply firstn_in in I. rewrite <- E in I. apply trim_in in I. apply filter_In in I as [_ I]. apply control_iff in K. rewrite K in I. discriminate.
Qed.
(** ** theorems *)
(** Whatever is run, the title is some text of at most 64 characters, none of them a control character. *)
Theorem C155_safe j : safe (command_title j).
Proof. unfold command_title. destruct (last_external_process_name _); apply sanitize_safe. Qed.
(** So a terminal that reads the two sequences up to their first bell takes exactly the title from each. *)
Theorem C155_contained t u v : safe t -> ~ In 7%N u -> write_title t = [27%N] ++ lit "]0;" ++ u ++ [7%N] ++ v ->
  u = t /\ forall u' v', ~ In 7%N u' -> v = [27%N] ++ lit "]2;" ++ u' ++ [7%N] ++ v' -> u' = t /\ v' = [].
Proof.
  assert (K : forall (t u v w : str), ~ In 7%N t -> ~ In 7%N u -> t ++ 7%N :: v = u ++ 7%N :: w -> t = u /\ v = w).
  { induction t0 as [|c t0 IH]; intros u0 v0 w0 H H' E; destruct u0 as [|d u0]; cbn [app] in E.
    - injection E as E2. split; [reflexivity|exact E2].
    - injection E as E1 E2. destruct H'. left. symmetry. exact E1.
    - injection E as E1 E2. destruct H. left. exact E1.
    - injection E as E1 E2. destruct (IH u0 v0 w0) as [-> ->]; [intros I; apply H; right; exact I|intros I; apply H'; right; exact I|exact E2|]. subst. split; reflexivity. }
  intros (_ & _ & S) U E. assert (N : ~ In 7%N t) by (intros I; apply (S _ I); left; reflexivity).
  unfold write_title in E. cbn [app] in E. injection E as E. apply K in E as [-> <-]; try assumption. split; [reflexivity|].
  intros u' v' U' E. cbn [app] in E. injection E as E. apply K in E as [-> <-]; [split; reflexivity|exact N|exact U'].
Qed.
Lemma name_called n raw : program n -> called n raw -> basename raw = n.
Proof.
  intros ((NE & _) & NS & D & DD & _) C. unfold basename, file_name.
  assert (E1 : str_eqb n [] = false) by (apply str_eqb_neq, NE). assert (E2 : str_eqb n (lit ".") = false) by (apply str_eqb_neq, D). assert (E3 : str_eqb n (lit "..") = false) by (apply str_eqb_neq, DD).
  destruct C as [->|(d & ->)].
  - rewrite split_on_none by exact NS. cbn [filter]. rewrite E1, E2. cbn [negb andb rev app]. rewrite E3. reflexivity.
  - change (d ++ lit "/" ++ n) with (d ++ chr "/" :: n). rewrite split_on_app, (split_on_none _ n) by exact NS. rewrite filter_app. cbn [filter]. rewrite E1, E2. cbn [negb andb]. rewrite rev_app_distr. cbn [rev app]. rewrite E3. reflexivity.
Qed.
Lemma filter_all {A} (f : A -> bool) l : (forall x, In x l -> f x = true) -> filter f l = l.
Proof. induction l as [|x l IH]; intros H; [reflexivity|]. cbn [filter]. rewrite (H x) by (left; reflexivity). f_equal. apply IH. intros y I. apply H. right. exact I. Qed.
Lemma sanitized n raw : program n -> called n raw -> sanitize_title raw = n.
Proof.
  intros P C. unfold sanitize_title. rewrite (name_called n raw P C). destruct P as ((NE & L & S) & _ & _ & _ & A & B).
  rewrite filter_all by (intros x I; destruct (is_control x) eqn:E; [apply control_iff in E; destruct (S x I E)|reflexivity]).
  assert (T : trim n = n) by (rewrite <- (app_nil_r n) at 1; apply (trim_exact [] n []); [intros c []|intros c []|exact NE|exact A|exact B]).
  rewrite T. destruct n; [contradiction|]. apply firstn_all2, L.
Qed.
Lemma last_external_iff l raw : last_external_process_name l = Some raw <-> last_program l raw.
Proof.
  revert raw. induction l as [|p l IH]; intros raw; cbn [last_external_process_name].
  - split; [discriminate|intros (a & b & E & _); destruct a; discriminate E].
  - destruct (last_external_process_name l) as [r|] eqn:E.
    + split.
      * intros H. injection H as ->. destruct (proj1 (IH raw) eq_refl) as (a & b & -> & B). exists (p :: a), b. split; [reflexivity|exact B].
      * intros (a & b & Eq & B). destruct a as [|x a]; cbn [app] in Eq; injection Eq as -> Eq.
        -- destruct (proj1 (IH r) eq_refl) as (a & b' & E' & _). destruct (B (Command r)) as [n Hn]; [subst; apply in_or_app; right; left; reflexivity|discriminate Hn].
        -- apply IH. exists a, b. split; assumption.
    + assert (N : forall q, In q l -> exists n, q = Builtin n).
      { intros q I. destruct q as [n|n]; [|exists n; reflexivity]. exfalso. clear -E I. induction l as [|x l IH]; [destruct I|]. cbn [last_external_process_name] in E.
        destruct (last_external_process_name l) eqn:E'; [discriminate|]. destruct I as [->|I]; [discriminate|]. apply IH; [reflexivity|exact I]. }
      split.
      * destruct p as [n|n]; [|discriminate]. intros H. injection H as ->. exists [], l. split; [reflexivity|exact N].
      * intros (a & b & Eq & B). destruct a as [|x a]; cbn [app] in Eq; injection Eq as -> Eq; [reflexivity|]. exfalso. destruct (N (Command raw)) as [n Hn]; [subst l; apply in_or_app; right; left; reflexivity|discriminate Hn].
Qed.
(** The title is the name of the last program of the pipeline, without its directory. *)
Theorem C155_program j n raw : last_program (processes j) raw -> program n -> called n raw -> command_title j = n.
Proof. intros L P C. unfold command_title. apply last_external_iff in L. rewrite L. apply sanitized; assumption. Qed.
(** Without any program it is the first word of the command. *)
Theorem C155_builtin j n raw r : (forall p, In p (processes j) -> exists b, p = Builtin b) -> split_whitespace (cmd j) = raw :: r -> program n -> called n raw -> command_title j = n.
Proof.
  intros B W P C. unfold command_title. destruct (last_external_process_name (processes j)) as [x|] eqn:E.
  - apply last_external_iff in E as (a & b & E & _). destruct (B (Command x)) as [y Y]; [rewrite E; apply in_or_app; right; left; reflexivity|discriminate Y].
  - unfold first_token. rewrite W. apply sanitized; assumption.
Qed.
(** The title goes back to dsh when the command ends; in the background nothing is written. *)
Theorem C155_restored interactive j :
  (guard interactive j = (write_title (command_title j), write_title (lit "dsh")) /\ interactive = true /\ foreground j = true) \/
  (guard interactive j = ([], []) /\ (interactive = false \/ foreground j = false)).
Proof. unfold guard. destruct interactive, (foreground j); cbn; auto. Qed.

Example C155_case :
  command_title (Job (lit "rg x | /usr/bin/less | cd") [Command (lit "rg"); Command (lit "/usr/bin/less"); Builtin (lit "cd")] true) = lit "less" /\
  command_title (Job (lit "cd /tmp") [Builtin (lit "cd")] true) = lit "cd" /\
  command_title (Job [] [Command (lit "/tmp/a" ++ [27%N] ++ lit "]0;b" ++ [7%N])] true) = lit "a]0;b" /\
  program (lit "less") /\ called (lit "less") (lit "/usr/bin/less").
Proof.
  split; [vm_compute; reflexivity|]. split; [vm_compute; reflexivity|]. split; [vm_compute; reflexivity|]. split.
  - split; [split; [discriminate|split; [apply Nat.leb_le; reflexivity|]]; intros c I K; apply control_iff in K; destruct I as [<-|[<-|[<-|[<-|[]]]]]; discriminate|].
    split; [intros I; destruct I as [I|[I|[I|[I|[]]]]]; discriminate|]. split; [discriminate|]. split; [discriminate|].
    split; [intros c r E; cbn in E; injection E as <- _; reflexivity|]. intros b c E. change (lit "less") with (lit "les" ++ [chr "s"]) in E. apply app_inj_tail in E as [_ <-]. reflexivity.
  - right. exists (lit "/usr/bin"). reflexivity.
Qed.
Print Assumptions C155_safe.
Print Assumptions C155_contained.
Print Assumptions C155_program.
Print Assumptions C155_builtin.
Print Assumptions C155_restored.
