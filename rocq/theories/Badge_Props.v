(** C269, C270: the versions of tools in the prompt. *)
From Verif Require Import Base.
From Verif Require Offer_Props.
From Verif Require Import Prompt_Model.
From Verif Require Import Badge_Model Badge_Spec.

Lemma run_snoc b es e : run b (es ++ [e]) = step (run b es) e.
Proof. unfold run. rewrite fold_left_app. reflexivity. Qed.
Lemma drop_in {A} i (l : list A) x : In x (drop_nth i l) -> In x l.
Proof.
  unfold drop_nth. intros H. apply in_app_or in H as [H|H].
  - rewrite <- (firstn_skipn i l). apply in_or_app. left. exact H.
  - rewrite <- (firstn_skipn (i + 1) l). apply in_or_app. right. exact H.
Qed.

(** C269: a question is asked exactly in a project whose version is not known, when the wait after a failure is over. *)
Theorem C269_asks b now : pending (step b (Tick now)) = pending b ++ [cwd b] <-> version b = None /\ (allowed (wait b) <= now)%N /\ project b = true.
Proof.
  cbn [step]. unfold needs_check. split.
  - intros H. destruct (version b); [cbn in H|].
    + exfalso. apply (f_equal (@length str)) in H. rewrite app_length in H. cbn in H. lia.
    + destruct ((allowed (wait b) <=? now)%N) eqn:E, (project b); cbn in H; try (exfalso; apply (f_equal (@length str)) in H; rewrite app_length in H; cbn in H; lia).
      apply N.leb_le in E. auto.
  - intros (-> & E & ->). apply N.leb_le in E. rewrite E. reflexivity.
Qed.
(** C269: an answer ends the question it belongs to and no other; a version found is shown at once, a failure changes nothing that is shown. *)
Theorem C269_answer b i now o d : nth_error (pending b) i = Some d -> exists x y, pending b = x ++ d :: y /\ length x = i
  /\ pending (step b (Answered i now o)) = x ++ y /\ cwd (step b (Answered i now o)) = cwd b
  /\ version (step b (Answered i now o)) = match o with Some v => Some v | None => version b end.
Proof.
  intros H. destruct (nth_error_split _ _ H) as (x & y & E & L). exists x, y. split; [exact E|]. split; [exact L|].
  cbn [step]. rewrite H. assert (D : drop_nth i (pending b) = x ++ y).
  { unfold drop_nth. rewrite E. subst i. rewrite firstn_app, Nat.sub_diag, firstn_all, firstn_O, app_nil_r. f_equal.
    rewrite skipn_app, skipn_all2 by lia. replace (length x + 1 - length x) with 1 by lia. reflexivity. }
  destruct o; cbn [pending cwd version]; rewrite D; auto.
Qed.
(** C269: another directory starts without a version. *)
Theorem C269_cleared b d p s : d <> cwd b -> let b' := step b (Cd d p s) in version b' = None /\ cwd b' = d /\ project b' = p /\ source b' = s.
Proof.
  intros H. cbn [step]. destruct (str_eqb_spec (cwd b) d) as [E|_]; [congruence|]. cbn. auto.
Qed.
Lemma calm_inv b es : pending b = [] -> version b = None -> calm b es ->
  (forall d, In d (pending (run b es)) -> d = cwd (run b es) /\ project (run b es) = true)
  /\ (forall v, version (run b es) = Some v -> FromHere b es v).
Proof.
  intros P V C. induction C as [b|b es d p s C IH H|b es now C IH|b es i now o C IH].
  - cbn. rewrite P, V. split; [intros d []|intros v X; discriminate X].
  - specialize (IH P V). destruct IH as [I1 I2]. unfold FromHere. rewrite run_snoc. cbn [step]. destruct (str_eqb_spec (cwd (run b es)) d) as [E|E].
    + split; [exact I1|]. intros v X. destruct (I2 v X) as (a & i & now & rest & d0 & E1 & E2 & E3 & E4 & E5).
      exists a, i, now, (rest ++ [Cd d p s]), d0. split; [rewrite E1, <- app_assoc; reflexivity|]. split; [exact E2|]. split; [exact E3|].
      split; [exact E4|]. intros e I. apply in_app_or in I as [I|[<-|[]]]; [apply E5, I|congruence].
    + destruct H as [H|H]; [congruence|]. cbn [pending version]. rewrite H. split; [intros x []|intros v X; discriminate X].
  - specialize (IH P V). destruct IH as [I1 I2]. unfold FromHere. rewrite run_snoc. cbn [step].
    assert (K : cwd (if needs_check now (run b es) then Badge (cwd (run b es)) (project (run b es)) (source (run b es)) (version (run b es)) (wait (run b es)) (pending (run b es) ++ [cwd (run b es)]) else run b es) = cwd (run b es)
      /\ project (if needs_check now (run b es) then Badge (cwd (run b es)) (project (run b es)) (source (run b es)) (version (run b es)) (wait (run b es)) (pending (run b es) ++ [cwd (run b es)]) else run b es) = project (run b es)
      /\ version (if needs_check now (run b es) then Badge (cwd (run b es)) (project (run b es)) (source (run b es)) (version (run b es)) (wait (run b es)) (pending (run b es) ++ [cwd (run b es)]) else run b es) = version (run b es))
      by (destruct (needs_check now (run b es)); auto).
    destruct K as (-> & -> & ->). split.
    + intros d I. destruct (needs_check now (run b es)) eqn:N; [|apply I1, I]. cbn [pending] in I. apply in_app_or in I as [I|[<-|[]]]; [apply I1, I|].
      split; [reflexivity|]. unfold needs_check in N. apply andb_true_iff in N as [_ N]. exact N.
    + intros v X. destruct (I2 v X) as (a & i & now' & rest & d0 & E1 & E2 & E3 & E4 & E5).
      exists a, i, now', (rest ++ [Tick now]), d0. split; [rewrite E1, <- app_assoc; reflexivity|]. split; [exact E2|]. split; [exact E3|].
      split; [exact E4|]. intros e I. apply in_app_or in I as [I|[<-|[]]]; [apply E5, I|exact Logic.I].
  - specialize (IH P V). destruct IH as [I1 I2].
    assert (Old : forall v, version (run b es) = Some v -> cwd (run b (es ++ [Answered i now o])) = cwd (run b es) ->
      project (run b (es ++ [Answered i now o])) = project (run b es) -> FromHere b (es ++ [Answered i now o]) v).
    { intros v X C1 C2. destruct (I2 v X) as (a & i' & now' & rest & d0 & E1 & E2 & E3 & E4 & E5).
      exists a, i', now', (rest ++ [Answered i now o]), d0. split; [rewrite E1, <- app_assoc; reflexivity|]. split; [exact E2|].
      rewrite C1, C2. split; [exact E3|]. split; [exact E4|]. intros e I. apply in_app_or in I as [I|[<-|[]]]; [apply E5, I|exact Logic.I]. }
    rewrite run_snoc in *. cbn [step] in *. destruct (nth_error (pending (run b es)) i) as [d|] eqn:E.
    + destruct (I1 d (nth_error_In _ _ E)) as [D1 D2]. destruct o as [w|]; cbn [cwd project version pending] in *.
      * split; [intros x I; apply I1, (drop_in i), I|]. intros v [= <-].
        exists es, i, now, [], d. rewrite run_snoc. cbn [step]. rewrite E. cbn [cwd project].
        split; [reflexivity|]. split; [reflexivity|]. split; [exact D1|]. split; [exact D2|]. intros e [].
      * split; [intros x I; apply I1, (drop_in i), I|]. intros v X. apply Old; auto.
    + split; [exact I1|]. intros v X. apply Old; auto.
Qed.
(** C269: when the directory does not change while a question is under way, the version shown was asked for in the directory
    where the shell is, and that is a project of the tool. *)
Theorem C269_here_partial d p s now es v : calm (start d p s now) es -> version (run (start d p s now) es) = Some v -> FromHere (start d p s now) es v.
Proof. intros C. apply (calm_inv (start d p s now) es); auto. Qed.
(** C269 does not hold otherwise: the answer to a question of the directory before is shown in the new one, also when that is no
    project, and stays for as long as the shell is there: no question is asked again. *)
Lemma ticks_keep b ts : version b <> None -> run b (map Tick ts) = b.
Proof.
  intros H. induction ts as [|t ts IH]; [reflexivity|]. cbn [map]. unfold run in *. cbn [fold_left].
  replace (step b (Tick t)) with b; [exact IH|]. cbn [step]. unfold needs_check. destruct (version b); [reflexivity|congruence].
Qed.
Theorem C269_late_refuted b old d p s now v ts icon : pending b = [old] -> d <> cwd b ->
  let b' := run b (Cd d p s :: Answered 0 now (Some v) :: map Tick ts) in
  cwd b' = d /\ project b' = p /\ version b' = Some v /\ pending b' = [] /\ render icon b' <> None.
Proof.
  intros P D. change (run b (Cd d p s :: Answered 0 now (Some v) :: map Tick ts)) with (run (step (step b (Cd d p s)) (Answered 0 now (Some v))) (map Tick ts)).
  assert (E : step (step b (Cd d p s)) (Answered 0 now (Some v)) = Badge d p s (Some v) (reset now) []).
  { cbn [step]. destruct (str_eqb_spec (cwd b) d) as [X|_]; [congruence|]. cbn [pending]. rewrite P. reflexivity. }
  rewrite E. rewrite ticks_keep by discriminate. cbn. repeat split. unfold render. cbn. destruct s; discriminate.
Qed.
(** C269: the wait after failures goes on in another directory. *)
Theorem C269_wait_refuted b d s now : (now < allowed (wait b))%N -> d <> cwd b ->
  let b' := step (step b (Cd d true s)) (Tick now) in cwd b' = d /\ version b' = None /\ pending b' = pending b.
Proof.
  intros H D. cbn zeta. assert (E : step b (Cd d true s) = Badge d true s None (wait b) (pending b)).
  { cbn [step]. destruct (str_eqb_spec (cwd b) d) as [X|_]; [congruence|reflexivity]. }
  rewrite E. cbn [step]. unfold needs_check. cbn [version wait project]. apply N.leb_gt in H. rewrite H. cbn. auto.
Qed.
(** C269: the tool is shown exactly in a project or with a known version, and then with the version and the source that are known. *)
Theorem C269_shown icon b : (render icon b = None <-> version b = None /\ project b = false)
  /\ forall t, render icon b = Some t -> t = lit " " ++ icon
       ++ match version b with Some v => lit " " ++ v | None => [] end
       ++ match source b with Some s => lit " (" ++ s ++ lit ")" | None => [] end.
Proof.
  unfold render, in_parens. destruct (version b) as [v|], (source b) as [s|], (project b); cbn [app];
    (split; [split; [intros X|intros [X Y]]; try discriminate; auto|]); intros t X; try discriminate X; injection X as <-;
    rewrite ?app_nil_r; try reflexivity; rewrite <- ?app_assoc; reflexivity.
Qed.
Example C269_ex : let b := run (start (lit "/a") true None 0) [Tick 1; Answered 0 2 (Some (lit "1.75"))] in
  version b = Some (lit "1.75") /\ render (lit "R") b = Some (lit " R 1.75") /\ calm (start (lit "/a") true None 0) [Tick 1; Answered 0 2 (Some (lit "1.75"))].
Proof.
  split; [reflexivity|]. split; [reflexivity|]. apply (calm_answer _ [Tick 1]). apply (calm_tick _ []). apply calm_nil.
Qed.

Example C269_late_ex : render (lit "R") (run (start (lit "/a") true None 0) [Tick 1; Cd (lit "/b") false None; Answered 0 2 (Some (lit "1.75")); Tick 3]) = Some (lit " R 1.75").
Proof. reflexivity. Qed.

(** ** What the tools print *)
Lemma second_word g a g1 v rest : blank g -> word a -> blank g1 -> g1 <> [] -> word v -> (rest = [] \/ exists c r, rest = c :: r /\ is_whitespace c = true) ->
  nth_error (split_whitespace (g ++ a ++ g1 ++ v ++ rest)) 1 = Some v.
Proof.
  intros G [A1 A2] G1 N [V1 V2] R.
  assert (exists ws, Words rest ws) as [ws W] by (eexists; apply Words_iff; reflexivity).
  assert (X : Words (g ++ a ++ g1 ++ v ++ rest) (a :: v :: ws)).
  { apply Words_word; auto.
    - right. destruct g1 as [|c r]; [congruence|]. exists c, (r ++ v ++ rest). split; [reflexivity|]. apply G1. left. reflexivity.
    - apply Words_word; auto. }
  apply Words_iff in X. rewrite X. reflexivity.
Qed.
(** C270: the version of rustc and python is the second word that the command prints. *)
Theorem C270_second g a g1 v rest p : blank g -> word a -> blank g1 -> g1 <> [] -> word v -> (rest = [] \/ exists c r, rest = c :: r /\ is_whitespace c = true) ->
  let out := Some (true, g ++ a ++ g1 ++ v ++ rest) in
  rust_version out = Some v /\ python_version out p = Some v /\ python_version None out = Some v.
Proof. intros. unfold rust_version, python_version, out, success. rewrite second_word by assumption. auto. Qed.
(** C270: the version of go is the third word, without the go before it. *)
Theorem C270_go g a g1 w g2 v rest : blank g -> word a -> blank g1 -> g1 <> [] -> word w -> blank g2 -> g2 <> [] -> word v ->
  (rest = [] \/ exists c r, rest = c :: r /\ is_whitespace c = true) ->
  go_version (Some (true, g ++ a ++ g1 ++ w ++ g2 ++ (lit "go" ++ v) ++ rest)) = Some v.
Proof.
  intros G [A1 A2] G1 N1 [W1 W2] G2 N2 [V1 V2] R. unfold go_version, success.
  assert (exists ws, Words rest ws) as [ws W] by (eexists; apply Words_iff; reflexivity).
  assert (B : forall (q x : str), blank q -> q <> [] -> exists c r, q ++ x = c :: r /\ is_whitespace c = true).
  { intros q x Q NQ. destruct q as [|c r]; [congruence|]. exists c, (r ++ x). split; [reflexivity|]. apply Q. left. reflexivity. }
  assert (X : Words (g ++ a ++ g1 ++ w ++ g2 ++ (lit "go" ++ v) ++ rest) (a :: w :: (lit "go" ++ v) :: ws)).
  { apply Words_word; auto. apply Words_word; auto. apply Words_word; auto; [discriminate|].
    intros c I. apply in_app_or in I as [I|I]; [|auto]. cbn in I. destruct I as [<-|[<-|[]]]; reflexivity. }
  apply Words_iff in X. rewrite X. reflexivity.
Qed.
(** C270: a command that fails gives no version, and python is asked only when python3 cannot be started. *)
Theorem C270_failed s p : rust_version (Some (false, s)) = None /\ node_version (Some (false, s)) = None /\ go_version (Some (false, s)) = None
  /\ k8s_info (Some (false, s)) = None /\ python_version (Some (false, s)) p = None.
Proof. repeat split. Qed.
(** C270: the context and the namespace of Kubernetes, unless their names hold a bar *)
Theorem C270_kubernetes c n : ~ In bar c -> ~ In bar n ->
  k8s_info (Some (true, c ++ bar :: n)) = Some (c, match n with [] => None | _ => Some n end).
Proof.
  intros C N. unfold k8s_info, success. rewrite split_on_app, (split_on_none bar c C), (split_on_none bar n N). reflexivity.
Qed.
(** C270 does not hold for a name with a bar: it is cut and its rest is shown as the namespace. *)
Theorem C270_bar_refuted a b n : ~ In bar a -> ~ In bar b -> b <> [] ->
  exists i, k8s_info (Some (true, (a ++ bar :: b) ++ bar :: n)) = Some i /\ k8s_text i = a ++ lit " (" ++ b ++ lit ")".
Proof.
  intros A B N. unfold k8s_info, success. rewrite <- app_assoc. cbn [app]. rewrite !split_on_app, (split_on_none bar a A), (split_on_none bar b B). cbn [app].
  destruct b as [|c b]; [congruence|]. eexists. split; [reflexivity|]. reflexivity.
Qed.
(** C270: the variable DOCKER_CONTEXT comes before what docker says; blanks around both are dropped. *)
Theorem C270_docker l c r p : blank l -> blank r -> word c -> docker_context (Some (l ++ c ++ r)) p = Some c /\ docker_context None (Some (true, l ++ c ++ r)) = Some c
  /\ docker_context (Some l) (Some (true, l ++ c ++ r)) = Some c.
Proof.
  intros L R [C1 C2].
  assert (T : trim (l ++ c ++ r) = c).
  { apply Offer_Props.trim_iff. exists l, r. split; [reflexivity|]. split; [exact L|]. split; [exact R|].
    split; intros x u X; apply C2; rewrite X; [left; reflexivity|]. apply in_or_app. right. left. reflexivity. }
  assert (E : trim l = []).
  { apply Offer_Props.trim_iff. exists l, []. split; [rewrite !app_nil_r; reflexivity|]. split; [exact L|]. split; [intros x []|].
    split; intros x u X; [discriminate X|destruct u; discriminate X]. }
  unfold docker_context, value_of, success. rewrite T, E. destruct c; [congruence|]. auto.
Qed.
(** C270: the version of node is what it prints, without blanks around it. *)
Theorem C270_node l v r : blank l -> blank r -> word v -> node_version (Some (true, l ++ v ++ r)) = Some v.
Proof.
  intros L R [C1 C2]. unfold node_version, success. f_equal. apply Offer_Props.trim_iff. exists l, r. split; [reflexivity|]. split; [exact L|]. split; [exact R|].
  split; intros x u X; apply C2; rewrite X; [left; reflexivity|]. apply in_or_app. right. left. reflexivity.
Qed.
(** C270: the context of docker is shown as it is, unless it is the one named default. *)
Theorem C270_docker_shown c t : docker_text c = Some t <-> c = Some t /\ t <> lit "default".
Proof.
  unfold docker_text. destruct c as [x|]; [|split; [discriminate|intros [X _]; discriminate X]].
  destruct (str_eqb_spec x (lit "default")) as [->|N]; split.
  - discriminate.
  - intros [[= <-] X]. congruence.
  - intros [= <-]. auto.
  - intros [[= <-] _]. reflexivity.
Qed.
(** C270: an empty profile hides the default one, and an empty name is shown. *)
Theorem C270_empty_refuted second : aws_profile (Some []) second = Some [] /\ (exists i, k8s_info (Some (true, [bar])) = Some i /\ k8s_text i = [])
  /\ docker_text (docker_context None (Some (true, []))) = Some [].
Proof. split; [reflexivity|]. split; [eexists; split; reflexivity|reflexivity]. Qed.
Example C270_ex : rust_version (Some (true, lit "rustc 1.75.0 (82e1608df 2023-12-21)")) = Some (lit "1.75.0")
  /\ go_version (Some (true, lit "go version go1.21.5 linux/amd64")) = Some (lit "1.21.5") /\ k8s_info (Some (true, lit "prod|web")) = Some (lit "prod", Some (lit "web")).
Proof. repeat split. Qed.

Print Assumptions C269_asks. Print Assumptions C269_cleared. Print Assumptions C269_here_partial. Print Assumptions C269_late_refuted.
Print Assumptions C269_wait_refuted. Print Assumptions C269_shown.
Print Assumptions C269_answer. Print Assumptions C270_node. Print Assumptions C270_docker_shown. Print Assumptions C270_second. Print Assumptions C270_go. Print Assumptions C270_failed. Print Assumptions C270_kubernetes.
Print Assumptions C270_bar_refuted. Print Assumptions C270_docker. Print Assumptions C270_empty_refuted.
