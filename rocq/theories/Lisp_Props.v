(** C37, C39, C82, C83: the Lisp evaluator. *)
From Verif Require Import Base Lread_Model Lisp_Model Lisp_Spec Lisp_Proofs Lisp_Scope.

(** ** C37: scoping *)
Theorem C37_lookup_sees_nearest h k i v : wf_heap h -> (get h i k = Some v <-> exists j, Nearest h k i j v).
Proof. intros H. now apply get_nearest. Qed.
Theorem C37_define_in_current_frame h i k v fr : wf_heap h -> frame_at h i = Some fr ->
  same_but i h (define h i k v) /\ (exists fr', frame_at (define h i k v) i = Some fr' /\ rebound fr fr' k v) /\ wf_heap (define h i k v).
Proof.
  intros Hw E. assert (same_but i h (define h i k v)) as HS.
  { split; [apply define_length|]. intros j Hj. rewrite define_frames. now rewrite (proj2 (Nat.eqb_neq j i)) by exact Hj. }
  assert (frame_at (define h i k v) i = Some {| parent := parent fr; entries := put k v (entries fr) |}) as E' by (rewrite define_frames, Nat.eqb_refl, E; reflexivity).
  split; [exact HS|]. split; [eexists; split; [exact E'|apply put_rebound]|].
  eapply wf_change; [exact Hw|exact HS|exact E|exact E'|reflexivity|]. apply put_nodup.
Qed.
Theorem C37_set_updates_nearest h i k v : wf_heap h ->
  match set h i k v with
  | Some h' => exists j w fr fr', Nearest h k i j w /\ frame_at h j = Some fr /\ frame_at h' j = Some fr' /\ rebound fr fr' k v /\ same_but j h h' /\ wf_heap h'
  | None => forall j w, ~ Nearest h k i j w
  end.
Proof.
  intros Hw. pose proof (set_spec h k v Hw i) as H. destruct (set h i k v) as [h'|]; [|exact H].
  destruct H as (j & w & fr & fr' & HN & E & E' & -> & HS). exists j, w, fr. eexists. split; [exact HN|]. split; [exact E|]. split; [exact E'|]. split; [apply put_rebound|]. split; [exact HS|].
  eapply wf_change; [exact Hw|exact HS|exact E|exact E'|reflexivity|]. apply put_nodup.
Qed.
Theorem C37_undefine_removes_nearest h i k : wf_heap h ->
  (undefine h i k = h /\ forall j w, ~ Nearest h k i j w) \/
  (exists j w fr fr', Nearest h k i j w /\ frame_at h j = Some fr /\ frame_at (undefine h i k) j = Some fr' /\ removed fr fr' k /\ same_but j h (undefine h i k) /\ wf_heap (undefine h i k)).
Proof.
  intros Hw. destruct (undefine_spec h k Hw i) as [H|(j & w & fr & fr' & HN & E & E' & -> & HS)]; [now left|]. right.
  exists j, w, fr. eexists. split; [exact HN|]. split; [exact E|]. split; [exact E'|]. split; [apply del_removed; now apply Hw in E|]. split; [exact HS|].
  eapply wf_change; [exact Hw|exact HS|exact E|exact E'|reflexivity|]. apply del_nodup.
Qed.
Theorem C37_new_frame_is_empty h p : wf_heap h -> p < length h ->
  let (i, h') := extend h (Some p) in
  wf_heap h' /\ frame_at h i = None /\ (exists fr, frame_at h' i = Some fr /\ parent fr = Some p /\ forall k v, ~ binds fr k v) /\ forall j, j < length h -> frame_at h' j = frame_at h j.
Proof.
  intros Hw Hp. cbn [extend]. split; [apply (wf_extend h (Some p)); [exact Hw|]; now intros q [= <-]|]. split.
  { destruct (frame_at h (length h)) eqn:E; [apply frame_at_lt in E; lia|reflexivity]. }
  split; [rewrite frame_at_cons, Nat.eqb_refl; eexists; split; [reflexivity|]; split; [reflexivity|]; intros k v []|].
  intros j Hj. rewrite frame_at_cons. now rewrite (proj2 (Nat.eqb_neq j (length h))) by lia.
Qed.
(** without [set], an evaluation changes no existing frame but the one it runs in *)
Theorem C37_only_set_reaches_outer_frames {W} native sv aa (n : nat) c env e (s : state W) :
  noset_native native -> NoSet e -> noset_heap (hp W s) ->
  match eval W native sv aa true n c env e s with
  | Ok _ _ _ s' | Err _ _ s' => others_kept env (hp W s) (hp W s')
  | Fuel _ _ => True
  end.
Proof.
  intros HN He Hs. pose proof (eval_keeps W native sv aa HN true n c env e He s Hs) as H. destruct (eval W native sv aa true n c env e s); [| |exact I]; apply H.
Qed.

(** ** C39: tail calls *)
Theorem C39_tail_calls_do_not_change_results_partial {W} native sv aa env e (s : state W) r :
  good_native native -> Code e -> good s -> r <> Fuel W lv ->
  (exists n, eval W native sv aa true n top env e s = r) <-> (exists n, eval W native sv aa false n top env e s = r).
Proof. intros HN He Hs Hr. now apply tail_calls. Qed.

(** *** a small environment for examples *)
Definition arith (n : str) (args : list lv) : option lv :=
  match args with
  | [LInt a; LInt b] =>
      if str_eqb n (lit "+") then Some (LInt (a + b)) else if str_eqb n (lit "-") then Some (LInt (a - b)) else if str_eqb n (lit "=") then Some (of_bool (a =? b)%Z) else None
  | [LList (x :: _)] => if str_eqb n (lit "car") then Some x else None
  | _ => None
  end.
Definition small (i : nat) (n : str) (args : list lv) : M unit lv := fun s =>
  if str_eqb n (lit "list") then Ok _ _ (LList args) s else match arith n args with Some v => Ok _ _ v s | None => Err _ _ s end.
Definition names : list str := map lit ["+"; "-"; "="; "car"; "list"; "eval"; "apply"; "map"]%string.
Definition start : state unit := {| hp := [{| parent := None; entries := map (fun n => (n, LNative n)) names |}]; world := tt |}.
Definition read (t : str) : lv := match first (fun _ => false) t with Some (Good v _) => embed v | _ => LOther (lit "unreadable") end.
Definition run (tco : bool) (t : str) := match eval unit small (fun w _ _ => w) (fun w _ => w) tco 60 top 0 (read t) start with Ok _ _ v _ => Some v | _ => None end.


Lemma reflective_dec s : existsb (str_eqb s) [lit "eval"; lit "apply"; lit "map"; lit "filter"] = false -> ~ reflective s.
Proof. intros H Hr. assert (existsb (str_eqb s) [lit "eval"; lit "apply"; lit "map"; lit "filter"] = true); [|congruence]. apply existsb_exists. exists s. split; [exact Hr|apply str_eqb_refl]. Qed.
Lemma arith_cases n args v : arith n args = Some v -> (exists z, v = LInt z) \/ (exists b, v = of_bool b) \/ exists r, args = [LList (v :: r)].
Proof.
  unfold arith. destruct args as [|[| |a| | |[|x l]| | | | |] [|[| |b| | | | | | | |] [|y r]]]; try discriminate.
  - repeat match goal with |- context [if ?b then _ else _] => destruct b; [intros [= <-]; eauto|] end. discriminate.
  - destruct (str_eqb n (lit "car")); [|discriminate]. intros [= <-]. eauto.
Qed.
Lemma small_good : good_native small.
Proof.
  split; [reflexivity|]. intros i n args s Ha Hs. unfold small. destruct (str_eqb n (lit "list")); [split; [now constructor|exact Hs]|].
  destruct (arith n args) as [v|] eqn:E; [|exact Hs]. split; [|exact Hs]. apply arith_cases in E as [[z ->]|[[b ->]|[r ->]]]; [constructor|destruct b; constructor|].
  inversion Ha as [|? ? H1 _]; subst. inversion H1 as [| | | | | | | | |? H2]; subst. now inversion H2.
Qed.
Lemma small_noset : noset_native small.
Proof.
  intros i n args s Ha Hs. unfold small. destruct (str_eqb n (lit "list")); [split; [now constructor|]; split; [exact Hs|apply kept_refl]|].
  destruct (arith n args) as [v|] eqn:E; [|split; [exact Hs|apply kept_refl]]. split; [|split; [exact Hs|apply kept_refl]]. apply arith_cases in E as [[z ->]|[[b ->]|[r ->]]]; [constructor|destruct b; constructor|].
  inversion Ha as [|? ? H1 _]; subst. inversion H1 as [| | | | | | |? H2| | |]; subst. now inversion H2.
Qed.
Definition plain_names : list str := map lit ["+"; "-"; "="; "car"; "list"]%string.
Definition plain_start : state unit := {| hp := [{| parent := None; entries := map (fun n => (n, LNative n)) plain_names |}]; world := tt |}.
Lemma plain_start_good : good plain_start.
Proof. constructor; [|constructor]. repeat (constructor; [constructor; apply reflective_dec; reflexivity|]). constructor. Qed.

(** the function gives the wrong answer when its last call looks at variables: the call is made
    in the frame of the caller *)
Definition uses_eval : str := lit "(begin (defun g (x) (eval 'x)) (g 1))".
Theorem C39_reflective_tail_call_refuted : run false uses_eval = Some (LInt 1) /\ run true uses_eval = None.
Proof. split; vm_compute; reflexivity. Qed.
(** a call inserted into a template in tail position is never made: the pending call is the value *)
Definition uses_insert : str := lit "(begin (defun g (x) '(a ,(car x))) (g '(7 8)))".
Theorem C39_inserted_call_refuted :
  run false uses_insert = Some (LList [LSym (lit "a"); LInt 7]) /\
  run true uses_insert = Some (LList [LSym (lit "a"); LTail (LNative (lit "car")) [LList [LInt 7; LInt 8]]]).
Proof. split; vm_compute; reflexivity. Qed.
(** a macro that ends in a call expands to the pending call *)
Definition uses_macro : str := lit "(begin (defmacro inc (x) (list '+ x 1)) (inc 4))".
Theorem C39_macro_call_refuted : run false uses_macro = Some (LInt 5) /\ run true uses_macro <> Some (LInt 5).
Proof. split; vm_compute; [reflexivity|discriminate]. Qed.

(** ** C82: apply *)
Lemma eval_self W native sv aa b n c env v (s : state W) : self_evaluating v -> eval W native sv aa b (S n) c env v s = Ok _ _ v s.
Proof. intros H. cbn [eval]. destruct v as [| | | | |[|h t]| | | | |]; try reflexivity; destruct H. Qed.
Lemma map_self W (f : lv -> M W lv) l (s : state W) : Forall (fun v => forall s, f v s = Ok _ _ v s) l -> map_m W f l s = Ok _ _ l s.
Proof. intros H. induction H as [|v l H1 H2 IH]; [reflexivity|]. cbn [map_m]. unfold bind. rewrite H1. rewrite IH. reflexivity. Qed.
Theorem C82_apply_passes_arguments_partial W native sv aa n env f ps (s : state W) :
  function f -> Forall self_evaluating ps ->
  call W native (eval W native sv aa true (S (S n))) env (LNative (lit "apply")) [f; LList ps] s =
  settle W native (eval W native sv aa true (S n)) (S n) env (call W native (eval W native sv aa true (S n)) env f ps) s.
Proof.
  intros Hf Hps. cbn [call]. replace (str_eqb (lit "apply") (lit "eval")) with false by reflexivity. replace (str_eqb (lit "apply") (lit "apply")) with true by reflexivity.
  set (ev := eval W native sv aa true (S n)).
  change (eval W native sv aa true (S (S n)) top env (LList (f :: ps)) s) with (step W native sv aa ev true (S n) top env (LList (f :: ps)) s).
  cbn [step top quoting andb]. assert (form_of f = None) as -> by (destruct f; reflexivity || destruct Hf).
  unfold bind at 1. assert (ev (not_tail top) env f s = Ok _ _ f s) as -> by (apply eval_self; destruct f; destruct Hf; exact I).
  assert (is_macro f = false) as -> by (destruct f; reflexivity || destruct Hf).
  unfold bind at 1. rewrite map_self; [reflexivity|]. eapply Forall_impl; [|exact Hps]. intros v Hv s'. now apply eval_self.
Qed.
(** other arguments are evaluated a second time *)
Theorem C82_apply_passes_arguments_refuted :
  run true (lit "(apply list '(a b))") = None /\
  run true (lit "(begin (define a 1) (apply list '(a a)))") = Some (LList [LInt 1; LInt 1]) /\
  run true (lit "(apply car '((1 2)))") = None /\ run true (lit "(car '(1 2))") = Some (LInt 1).
Proof. repeat split; vm_compute; reflexivity. Qed.

(** ** C83: quote and map *)
Fixpoint depth (v : lv) : nat := match v with LList l => S (list_max (map depth l)) | _ => 0 end.
Lemma depth_in x l : In x l -> depth x <= list_max (map depth l).
Proof. intros H. apply (in_map depth) in H. pose proof (proj1 (list_max_le (map depth l) (list_max (map depth l))) (le_n _)) as HF. rewrite Forall_forall in HF. now apply HF. Qed.
Lemma map_m_S W native sv aa b n c env l (s : state W) :
  Forall (fun v => forall s, eval W native sv aa b n c env v s = Ok _ _ v s) l -> map_m W (eval W native sv aa b n c env) l s = Ok _ _ l s.
Proof. apply map_self. Qed.
Lemma quoted_data W native sv aa b n : forall c env v (s : state W), quoting c = true -> CommaFree v -> depth v < n -> eval W native sv aa b n c env v s = Ok _ _ v s.
Proof.
  induction n as [|n IH]; intros c env v s Q HC Hd; [lia|]. cbn [eval]. destruct HC as [v Hv| |h t Hh Ht].
  - destruct v as [| | | | |l| | | | |]; cbn [step]; try reflexivity; [now rewrite Q|]. exfalso. now apply (Hv l).
  - reflexivity.
  - cbn [step]. rewrite Q. cbn [andb].
    replace (match h with LSym k => str_eqb k (lit "comma") | _ => false end) with false.
    2: { destruct h as [| | | |k| | | | | |]; try reflexivity. symmetry. destruct (str_eqb k (lit "comma")) eqn:E; [|reflexivity]. apply str_eqb_eq in E. now subst k. }
    cbn [negb]. unfold bind. rewrite map_m_S; [reflexivity|]. rewrite Forall_forall in Ht |- *. intros x Hx s'. apply IH; [exact Q|now apply Ht|].
    apply depth_in in Hx. cbn [depth] in Hd. lia.
Qed.
Theorem C83_quote_gives_its_data_partial W native sv aa v env :
  CommaFree v -> forall n c (s : state W), quoting c = false -> depth v + 1 < n -> eval W native sv aa true n c env (LList [LSym (lit "quote"); v]) s = Ok _ _ v s.
Proof.
  intros HC n c s Q Hn. destruct n as [|n]; [lia|]. cbn [eval step]. rewrite Q. cbn [andb].
  change (form_of (LSym (lit "quote"))) with (Some FQuote). cbv iota. apply quoted_data; [reflexivity|exact HC|lia].
Qed.
(** map calls the function on each element in turn *)
Fixpoint calls {W} (f : lv -> M W lv) (l : list lv) : M W lv :=
  match l with
  | [] => ret W nil_v
  | x :: r => bind W (f x) (fun v => bind W (calls f r) (fun vs => ret W (match vs with LList t => LList (v :: t) | _ => vs end)))
  end.
Theorem C83_map_calls_each_element_partial W native sv aa n env f l (s : state W) :
  function f -> Forall CommaFree l -> Forall (fun v => depth v + 1 < n) l ->
  call W native (eval W native sv aa true (S n)) env (LNative (lit "map")) [f; LList l] s =
  calls (fun v => settle W native (eval W native sv aa true n) n env (call W native (eval W native sv aa true n) env f [v])) l s.
Proof.
  intros Hf HC Hd. cbn [call]. replace (str_eqb (lit "map") (lit "eval")) with false by reflexivity. replace (str_eqb (lit "map") (lit "apply")) with false by reflexivity.
  replace (str_eqb (lit "map") (lit "map")) with true by reflexivity. set (ev := eval W native sv aa true n).
  assert (forall v s, CommaFree v -> depth v + 1 < n -> eval W native sv aa true (S n) top env (LList [f; quoted v]) s = settle W native ev n env (call W native ev env f [v]) s) as HE.
  { clear s. intros v s Hv Hn. change (eval W native sv aa true (S n) top env (LList [f; quoted v]) s) with (step W native sv aa ev true n top env (LList [f; quoted v]) s).
    cbn [step top quoting andb]. assert (form_of f = None) as -> by (destruct f; reflexivity || destruct Hf).
    unfold bind at 1. assert (ev (not_tail top) env f s = Ok _ _ f s) as -> by (destruct n as [|m]; [lia|]; apply eval_self; destruct f; destruct Hf; exact I).
    assert (is_macro f = false) as -> by (destruct f; reflexivity || destruct Hf). cbn [map_m]. unfold bind. unfold ev at 1, quoted.
    rewrite C83_quote_gives_its_data_partial; [reflexivity|exact Hv|reflexivity|exact Hn]. }
  revert s. induction l as [|x l IH]; intros s; [reflexivity|]. inversion HC as [|? ? H1 H2]; subst. inversion Hd as [|? ? H3 H4]; subst. specialize (IH H2 H4).
  cbn [map_m calls]. unfold bind in *. rewrite (HE x s H1 H3). destruct (settle W native ev n env (call W native ev env f [x]) s) as [v s'|s'|]; [|reflexivity|reflexivity].
  rewrite <- (IH s'). destruct (map_m W _ l s') as [vs s2|s2|]; reflexivity.
Qed.
Theorem C83_map_calls_each_element_refuted :
  run true (lit "(begin (define x 9) (map (lambda (y) y) (list (list 'comma 'x))))") = Some (LList [LInt 9]) /\
  run true (lit "(list (list 'comma 'x))") = Some (LList [LList [LSym (lit "comma"); LSym (lit "x")]]).
Proof. split; vm_compute; reflexivity. Qed.

(** ** C84: parameters *)
Definition rest_name : str := lit "...".
(** what the parameters [ns] get from the arguments *)
Definition parameter (ns : list str) (args : list lv) (k : str) (v : lv) : Prop :=
  (exists i, nth_error ns i = Some k /\ nth_error args i = Some v /\ k <> rest_name /\ ~ In rest_name (firstn i ns)) \/
  (k = rest_name /\ exists i, nth_error ns i = Some k /\ ~ In rest_name (firstn i ns) /\ v = LList (skipn i args)).
Lemma parameter_cons n ns args k v : n <> rest_name -> ~ In n ns ->
  (parameter (n :: ns) args k v <-> (k = n /\ exists r, args = v :: r) \/ (k <> n /\ parameter ns (tl args) k v)).
Proof.
  intros Hn Hi. split.
  - intros [(i & E1 & E2 & Hk & Hf)|(-> & i & E1 & Hf & ->)].
    + destruct i as [|i]; cbn in E1, E2, Hf.
      * injection E1 as ->. destruct args as [|a r]; [discriminate|]. injection E2 as ->. left. split; [reflexivity|now exists r].
      * right. assert (k <> n) by (intros ->; apply Hi; eapply nth_error_In; exact E1). split; [assumption|]. left. exists i. split; [exact E1|].
        split; [destruct args; [discriminate|exact E2]|]. split; [exact Hk|]. tauto.
    + destruct i as [|i]; cbn in E1, Hf; [congruence|]. right. split; [congruence|]. right. split; [reflexivity|]. exists i. split; [exact E1|]. split; [tauto|]. destruct args; [now destruct i|reflexivity].
  - intros [(-> & r & ->)|(Hk & [(i & E1 & E2 & Hk2 & Hf)|(-> & i & E1 & Hf & ->)])].
    + left. exists 0. cbn. auto.
    + left. exists (S i). cbn. split; [exact E1|]. split; [destruct args; [destruct i; discriminate|exact E2]|]. split; [exact Hk2|]. intros [H|H]; [congruence|now apply Hf].
    + right. split; [reflexivity|]. exists (S i). cbn. split; [exact E1|]. split; [intros [H|H]; [congruence|now apply Hf]|]. destruct args; [now destruct i|reflexivity].
Qed.
Lemma define_top p ents old k v : define ({| parent := p; entries := ents |} :: old) (length old) k v = {| parent := p; entries := put k v ents |} :: old.
Proof. cbn [define]. now rewrite Nat.eqb_refl. Qed.
Lemma bind_args_frame W ns : NoDup ns -> forall args p ents old w,
  (forall n, In n ns -> ~ In n (map fst ents)) ->
  exists ents', bind_args W (length old) ns args {| hp := {| parent := p; entries := ents |} :: old; world := w |} = Ok _ _ tt {| hp := {| parent := p; entries := ents' |} :: old; world := w |} /\
    forall k v, In (k, v) ents' <-> In (k, v) ents \/ parameter ns args k v.
Proof.
  induction ns as [|n ns IH]; intros HN args p ents old w Hd.
  - exists ents. split; [reflexivity|]. intros k v. split; [now left|]. intros [H|[([|i] & H & _)|(_ & [|i] & H & _)]]; [exact H|discriminate..].
  - inversion HN as [|? ? Hn HN']; subst. cbn [bind_args]. destruct (str_eqb n (lit "...")) eqn:E.
    + apply str_eqb_eq in E. subst n. eexists. split; [unfold m_define; cbn [hp world]; rewrite define_top; reflexivity|]. intros k v.
      assert (~ In (lit "...") (map fst ents)) as Hnin by (apply Hd; now left).
      destruct (list_eq_dec N.eq_dec k (lit "...")) as [->|Hk].
      * split.
        -- intros Hin. assert (v = LList args) as ->.
           { clear -Hin Hnin. induction ents as [|[x u] l IH]; cbn [put In map fst] in *; [destruct Hin as [[= <-]|[]]; reflexivity|].
             destruct (str_eqb x (lit "...")) eqn:E; [apply str_eqb_eq in E; subst; tauto|]. destruct Hin as [[= -> ->]|Hin]; [now rewrite str_eqb_refl in E|]. apply IH; tauto. }
           right. right. split; [reflexivity|]. exists 0. cbn. auto.
        -- intros [Hin|[(i & _ & _ & H & _)|(_ & i & E1 & Hf & ->)]]; [exfalso; apply Hnin; apply in_map_iff; now exists (lit "...", v)|now destruct H|].
           destruct i as [|i]; [apply put_in|]. exfalso. apply Hf. now left.
      * rewrite put_other by exact Hk. split; [now left|]. intros [Hin|[([|i] & E1 & _ & _ & Hf)|(-> & _)]]; [exact Hin|exfalso; apply Hk; injection E1 as <-; reflexivity|exfalso; apply Hf; now left|now destruct Hk].
    + assert (n <> rest_name) as Hr by (intros ->; now rewrite str_eqb_refl in E). assert (~ In n (map fst ents)) as Hnin by (apply Hd; now left).
      destruct args as [|a args].
      * destruct (IH HN' [] p ents old w) as (ents' & E1 & H1); [intros m Hm; apply Hd; now right|]. exists ents'. split; [exact E1|]. intros k v. rewrite H1, (parameter_cons n ns [] k v Hr Hn). cbn [tl].
        split; [intros [H|H]; [now left|right; right; split; [|exact H]]|intros [H|[(_ & r & H)|[_ H]]]; [now left|discriminate|now right]].
        intros ->. destruct H as [(i & H2 & _)|(H2 & _)]; [apply Hn; eapply nth_error_In; exact H2|congruence].
      * unfold bind, m_define. cbn [hp world]. rewrite define_top. destruct (IH HN' args p (put n a ents) old w) as (ents' & E1 & H1).
        { intros m Hm Hin. destruct (put_keys n a ents) as [K|[_ K]]; rewrite K in Hin; [apply (Hd m); [now right|exact Hin]|]. apply in_app_or in Hin as [Hin|[->|[]]]; [apply (Hd m); [now right|exact Hin]|now apply Hn]. }
        exists ents'. split; [exact E1|]. intros k v. rewrite H1, (parameter_cons n ns (a :: args) k v Hr Hn). cbn [tl].
        destruct (list_eq_dec N.eq_dec k n) as [->|Hk].
        -- assert (~ parameter ns args n v) as Hp by (intros [(i & H2 & _)|(H2 & _)]; [apply Hn; eapply nth_error_In; exact H2|congruence]).
           split.
           ++ intros [Hin|H]; [|tauto]. right. left. split; [reflexivity|]. exists args. f_equal.
              clear -Hin Hnin. induction ents as [|[x u] l IH]; cbn [put In map fst] in *; [destruct Hin as [[= <-]|[]]; reflexivity|].
              destruct (str_eqb x n) eqn:E; [apply str_eqb_eq in E; subst; tauto|]. destruct Hin as [[= -> ->]|Hin]; [now rewrite str_eqb_refl in E|]. apply IH; tauto.
           ++ intros [Hin|[(_ & r & H)|[H _]]]; [exfalso; apply Hnin; apply in_map_iff; now exists (n, v)| |congruence]. injection H as -> _. left. apply put_in.
        -- rewrite put_other by exact Hk. tauto.
Qed.
(** the body runs in a new frame inside the frame of the definition; the frame holds the
    parameters that have an argument and nothing else *)
Theorem C84_parameters_are_bound_partial W native rec env cl ns body args (s : state W) : NoDup ns ->
  exists fr, parent fr = Some cl /\ (forall k v, binds fr k v <-> parameter ns args k v) /\
    call W native rec env (LLambda cl ns body) args s = block W rec body_ctx (length (hp W s)) body {| hp := fr :: hp W s; world := world W s |}.
Proof.
  intros HN. cbn [call]. unfold bind at 1, m_extend, extend. destruct (bind_args_frame W ns HN args (Some cl) [] (hp W s) (world W s)) as (ents & E & H); [intros n _ []|].
  exists {| parent := Some cl; entries := ents |}. split; [reflexivity|]. split; [intros k v; unfold binds; cbn [entries]; rewrite H; split; [intros [[]|H1]; exact H1|now right]|].
  unfold bind. now rewrite E.
Qed.
(** a function or macro remembers the frame it is made in *)
Theorem C84_functions_keep_their_frame W native sv aa n c env ns body (s : state W) : quoting c = false ->
  eval W native sv aa true (S n) c env (LList (LSym (lit "lambda") :: LList (map LSym ns) :: body)) s = Ok _ _ (LLambda env ns body) s /\
  forall k, eval W native sv aa true (S n) c env (LList (LSym (lit "defun") :: LSym k :: LList (map LSym ns) :: body)) s =
              Ok _ _ nil_v {| hp := define (hp W s) env k (LLambda env ns body); world := world W s |} /\
            eval W native sv aa true (S n) c env (LList (LSym (lit "defmacro") :: LSym k :: LList (map LSym ns) :: body)) s =
              Ok _ _ nil_v {| hp := define (hp W s) env k (LMacro env ns body); world := world W s |}.
Proof.
  intros Q. assert (argnames (map LSym ns) = Some ns) as E by (induction ns as [|x ns IH]; [reflexivity|cbn; now rewrite IH]).
  split; [|intros k; split]; cbn [eval step]; rewrite Q; cbn [andb].
  - change (form_of (LSym (lit "lambda"))) with (Some FLambda). cbv iota. now rewrite E.
  - change (form_of (LSym (lit "defun"))) with (Some FDefun). cbv iota. now rewrite E.
  - change (form_of (LSym (lit "defmacro"))) with (Some FDefmacro). cbv iota. now rewrite E.
Qed.
Theorem C84_wrong_count_is_reported_refuted :
  run true (lit "(begin (define y 5) (defun g (x y) y) (g 1))") = Some (LInt 5) /\ run true (lit "(begin (defun g (x y) y) (g 1 2 3))") = Some (LInt 2).
Proof. split; vm_compute; reflexivity. Qed.

(** ** C85: which expressions are evaluated *)
(** evaluating [l] in order, one after the other *)
Inductive Runs {W} (ev : lv -> M W lv) : list lv -> list lv -> state W -> state W -> Prop :=
| Runs_nil s : Runs ev [] [] s s
| Runs_cons e l v vs s s1 s2 : ev e s = Ok _ _ v s1 -> Runs ev l vs s1 s2 -> Runs ev (e :: l) (v :: vs) s s2.
Section Forms.
Variable W : Type.
Variable native : nat -> str -> list lv -> M W lv.
Variable sv : W -> str -> lv -> W.
Variable aa : W -> list lv -> W.
Notation ev n := (eval W native sv aa true n).
Variables (n : nat) (c : ctx) (env : nat).
Hypothesis Q : quoting c = false.
Definition kw (k : str) (l : list lv) : lv := LList (LSym k :: l).
Lemma and_or_run b l vs s s1 last : Runs (ev n (not_tail c) env) l vs s s1 -> Forall (fun v => truthy v = negb b) vs ->
  forall r, and_or W (ev n) b c env last (l ++ r) s = and_or W (ev n) b c env (List.last (last :: vs) last) r s1.
Proof.
  intros H. revert last. induction H as [|e l v vs s s1 s2 E H IH]; intros last HF r; [reflexivity|]. inversion HF as [|? ? H1 H2]; subst.
  cbn [app and_or]. unfold bind. rewrite E, H1. replace (eqb b (negb b)) with false by (now destruct b). rewrite (IH v H2 r). f_equal. cbn [List.last]. destruct vs as [|w vs]; [reflexivity|].
  clear. revert w. induction vs as [|x vs IH]; intros w; [reflexivity|]. cbn [List.last] in *. apply IH.
Qed.
Theorem C85_and_stops_at_first_false l vs e v r s s1 s2 : Runs (ev n (not_tail c) env) l vs s s1 -> Forall (fun v => truthy v = true) vs ->
  ev n (not_tail c) env e s1 = Ok _ _ v s2 -> truthy v = false -> ev (S n) c env (kw (lit "and") (l ++ e :: r)) s = Ok _ _ v s2.
Proof.
  intros H HF E Hv. cbn [eval step kw]. rewrite Q. cbn [andb]. change (form_of (LSym (lit "and"))) with (Some FAnd). cbv iota.
  rewrite (and_or_run false _ _ _ _ _ H HF). cbn [and_or]. unfold bind. rewrite E, Hv. reflexivity.
Qed.
Theorem C85_and_of_true_is_last l vs s s1 : Runs (ev n (not_tail c) env) l vs s s1 -> Forall (fun v => truthy v = true) vs ->
  ev (S n) c env (kw (lit "and") l) s = Ok _ _ (List.last vs LTrue) s1.
Proof.
  intros H HF. cbn [eval step kw]. rewrite Q. cbn [andb]. change (form_of (LSym (lit "and"))) with (Some FAnd). cbv iota.
  rewrite <- (app_nil_r l). rewrite (and_or_run false _ _ _ _ _ H HF). cbn [and_or]. unfold ret. f_equal. destruct vs; reflexivity.
Qed.
Theorem C85_or_stops_at_first_true l vs e v r s s1 s2 : Runs (ev n (not_tail c) env) l vs s s1 -> Forall (fun v => truthy v = false) vs ->
  ev n (not_tail c) env e s1 = Ok _ _ v s2 -> truthy v = true -> ev (S n) c env (kw (lit "or") (l ++ e :: r)) s = Ok _ _ v s2.
Proof.
  intros H HF E Hv. cbn [eval step kw]. rewrite Q. cbn [andb]. change (form_of (LSym (lit "or"))) with (Some FOr). cbv iota.
  rewrite (and_or_run true _ _ _ _ _ H HF). cbn [and_or]. unfold bind. rewrite E, Hv. reflexivity.
Qed.
Theorem C85_or_of_false_is_last l vs s s1 : Runs (ev n (not_tail c) env) l vs s s1 -> Forall (fun v => truthy v = false) vs ->
  ev (S n) c env (kw (lit "or") l) s = Ok _ _ (List.last vs LFalse) s1.
Proof.
  intros H HF. cbn [eval step kw]. rewrite Q. cbn [andb]. change (form_of (LSym (lit "or"))) with (Some FOr). cbv iota.
  rewrite <- (app_nil_r l). rewrite (and_or_run true _ _ _ _ _ H HF). cbn [and_or]. unfold ret. f_equal. destruct vs; reflexivity.
Qed.
Theorem C85_if_evaluates_one_branch t a b v s s1 : ev n (not_tail c) env t s = Ok _ _ v s1 ->
  ev (S n) c env (kw (lit "if") [t; a; b]) s = ev n c env (if truthy v then a else b) s1.
Proof.
  intros E. cbn [eval step kw]. rewrite Q. cbn [andb]. change (form_of (LSym (lit "if"))) with (Some FIf). cbv iota. unfold bind. rewrite E. now destruct (truthy v).
Qed.
Theorem C85_cond_takes_first_true_clause cs t a r vs v s s1 s2 :
  Runs (ev n (not_tail c) env) (map fst cs) vs s s1 -> Forall (fun v => truthy v = false) vs ->
  ev n (not_tail c) env t s1 = Ok _ _ v s2 -> truthy v = true ->
  ev (S n) c env (kw (lit "cond") (map (fun p => LList [fst p; snd p]) cs ++ LList [t; a] :: r)) s = ev n c env a s2.
Proof.
  intros H HF E Hv. cbn [eval step kw]. rewrite Q. cbn [andb]. change (form_of (LSym (lit "cond"))) with (Some FCond). cbv iota.
  remember (map fst cs) as l eqn:El. revert cs El. induction H as [s|e l v' vs s s1 s3 E1 H IH]; intros cs El.
  - destruct cs; [|discriminate]. cbn [map app cond]. unfold bind. now rewrite E, Hv.
  - destruct cs as [|[t' a'] cs]; [discriminate|]. injection El as -> El. inversion HF as [|? ? H1 H2]; subst. cbn [map app cond fst snd]. unfold bind. rewrite E1, H1. now apply IH.
Qed.
Theorem C85_begin_evaluates_all_in_order l e vs s s1 : Runs (ev n (not_tail c) env) l vs s s1 -> ev (S n) c env (kw (lit "begin") (l ++ [e])) s = ev n c env e s1.
Proof.
  intros H. cbn [eval step kw]. rewrite Q. cbn [andb]. change (form_of (LSym (lit "begin"))) with (Some FBegin). cbv iota.
  induction H as [s|e' l v vs s s1 s2 E H IH]; [reflexivity|]. cbn [app]. destruct (l ++ [e]) as [|x l'] eqn:El; [destruct l; discriminate|]. cbn [block] in IH |- *. unfold bind at 1. rewrite E. exact IH.
Qed.
Theorem C85_when_evaluates_body_if_true t body v s s1 : ev n (not_tail c) env t s = Ok _ _ v s1 ->
  ev (S n) c env (kw (lit "when") (t :: body)) s = if truthy v then ev (S n) c env (kw (lit "begin") body) s1 else Ok _ _ nil_v s1.
Proof.
  intros E. cbn [eval step kw]. rewrite Q. cbn [andb]. change (form_of (LSym (lit "when"))) with (Some FWhen). change (form_of (LSym (lit "begin"))) with (Some FBegin). cbv iota.
  unfold bind. rewrite E. now destruct (truthy v).
Qed.
(** the arguments of a function are evaluated in order, then it is called *)
Lemma map_m_runs l vs s s1 : Runs (ev n (not_tail c) env) l vs s s1 -> map_m W (ev n (not_tail c) env) l s = Ok _ _ vs s1.
Proof. intros H. induction H as [s|e' l v vs s s1 s2 E H IH]; [reflexivity|]. cbn [map_m]. unfold bind. rewrite E, IH. reflexivity. Qed.
Theorem C85_call_evaluates_arguments_in_order h l f vs s s0 s1 : form_of h = None -> found_tail c = true \/ in_func c = false ->
  ev n (not_tail c) env h s = Ok _ _ f s0 -> is_macro f = false -> Runs (ev n (not_tail c) env) l vs s0 s1 ->
  ev (S n) c env (LList (h :: l)) s = settle W native (ev n) n env (call W native (ev n) env f vs) s1.
Proof.
  intros Hh Hc E Hm H. cbn [eval step]. rewrite Q. cbn [andb]. rewrite Hh. unfold bind. rewrite E, Hm, (map_m_runs _ _ _ _ H).
  replace (negb (found_tail c) && in_func c) with false by (destruct Hc as [-> | ->]; [reflexivity|now rewrite andb_false_r]). reflexivity.
Qed.
End Forms.

(** ** Examples *)
Definition sum_loop : str := lit "(begin (defmacro unless (c x) '(if ,c nil ,x)) (defun loop (n a) (let ((m (- n 1))) (if (= n 0) a (loop m (+ a n))))) (unless nil (loop 6 0)))".
Ltac sym := apply D_sym; vm_compute; discriminate.
Ltac data := repeat first [apply D_int | sym | apply D_list; [] | apply Forall_cons | apply Forall_nil].
Example C39_code_example : Code (read sum_loop) /\ good plain_start /\ good_native small /\ run true sum_loop = Some (LInt 21).
Proof.
  split; [|split; [apply plain_start_good|split; [apply small_good|vm_compute; reflexivity]]].
  assert (exists m, read sum_loop = LList (LSym (lit "begin") :: m)) as [m E] by (eexists; vm_compute; reflexivity).
  set (v := read sum_loop). vm_compute in v. subst v.
  apply (C_block (lit "begin")); [now left|]. constructor.
  - apply (C_defmacro (lit "unless")); [|exact eq_refl]. constructor; [|constructor]. apply C_quote.
    apply T_list; [vm_compute; discriminate|]. constructor; [constructor; sym|]. constructor; [apply T_comma|]. constructor; [constructor; constructor; constructor|]. constructor; [apply T_comma|constructor].
  - constructor; [|constructor; [apply C_data; data|constructor]].
    apply (C_defun (lit "defun")); [now left|]. constructor; [apply C_data; data|constructor].
Qed.
Definition chain : heap := [{| parent := Some 0; entries := [(lit "y", LInt 2)] |}; {| parent := None; entries := [(lit "x", LInt 1); (lit "y", LInt 0)] |}].
Example C37_chain_example : wf_heap chain /\ Nearest chain (lit "x") 1 0 (LInt 1) /\ Nearest chain (lit "y") 1 1 (LInt 2) /\ set chain 1 (lit "z") (LInt 3) = None.
Proof.
  split; [|split; [|split]].
  - intros i fr. unfold chain, frame_at. cbn [rev app]. destruct i as [|[|i]]; cbn [nth_error].
    + intros [= <-]. cbn. split; [|discriminate]. repeat constructor; [intros [H|[]]; vm_compute in H; discriminate|intros []].
    + intros [= <-]. cbn. split; [repeat constructor; intros []|]. intros p [= <-]. lia.
    + destruct i; discriminate.
  - eapply Near_up; [reflexivity| |reflexivity|].
    + intros [H|[]]. vm_compute in H. discriminate.
    + eapply Near_here; [reflexivity|]. now left.
  - eapply Near_here; [reflexivity|]. now left.
  - vm_compute. reflexivity.
Qed.
Example C37_noset_example : noset_native small /\ NoSet (read sum_loop) /\ noset_heap (hp unit start) /\
  run true (lit "(begin (define x 1) (let ((x 2)) (define x 3)) x)") = Some (LInt 1) /\ run true (lit "(begin (define x 1) (let ((y 2)) (set x 3)) x)") = Some (LInt 3).
Proof.
  split; [apply small_noset|]. split; [set (v := read sum_loop); vm_compute in v; subst v; repeat (constructor; try (vm_compute; discriminate))|].
  split; [repeat constructor|]. split; vm_compute; reflexivity.
Qed.
Example C82_apply_example : function (LNative (lit "+")) /\ Forall self_evaluating [LInt 2; LInt 3] /\ run true (lit "(apply + '(2 3))") = Some (LInt 5).
Proof. split; [exact I|]. split; [repeat constructor|vm_compute; reflexivity]. Qed.
Example C83_data_example : CommaFree (read (lit "(a (b ""c"") ())")) /\ run true (lit "(map (lambda (y) (car y)) '((1 2) (3)))") = Some (LList [LInt 1; LInt 3]).
Proof.
  split; [|vm_compute; reflexivity]. set (v := read _). vm_compute in v. subst v.
  apply CF_cons; [vm_compute; discriminate|]. constructor; [apply CF_atom; discriminate|]. constructor; [|constructor; [apply CF_nil|constructor]].
  apply CF_cons; [vm_compute; discriminate|]. constructor; [apply CF_atom; discriminate|]. constructor; [apply CF_atom; discriminate|constructor].
Qed.

Example C84_parameters_example : NoDup (map lit ["a"; "b"; "..."]%string) /\
  run true (lit "(begin (defun g (a b ...) (list b a ...)) (g 1 2 3 4))") = Some (LList [LInt 2; LInt 1; LList [LInt 3; LInt 4]]).
Proof.
  split; [|vm_compute; reflexivity]. repeat constructor; cbn [map In]; intros H; repeat destruct H as [H|H]; vm_compute in H; try discriminate; destruct H.
Qed.
Example C85_forms_example : quoting top = false /\ Runs (eval unit small (fun w _ _ => w) (fun w _ => w) true 5 (not_tail top) 0) [read (lit "(+ 1 2)")] [LInt 3] start start /\
  run true (lit "(begin (define x 0) (or (begin (set x (+ x 1)) nil) x (set x 9)) x)") = Some (LInt 1).
Proof. split; [reflexivity|]. split; [|vm_compute; reflexivity]. eapply Runs_cons; [vm_compute; reflexivity|constructor]. Qed.

Print Assumptions C84_parameters_are_bound_partial.
Print Assumptions C84_functions_keep_their_frame.
Print Assumptions C84_wrong_count_is_reported_refuted.
Print Assumptions C85_and_stops_at_first_false.
Print Assumptions C85_and_of_true_is_last.
Print Assumptions C85_or_stops_at_first_true.
Print Assumptions C85_or_of_false_is_last.
Print Assumptions C85_if_evaluates_one_branch.
Print Assumptions C85_cond_takes_first_true_clause.
Print Assumptions C85_begin_evaluates_all_in_order.
Print Assumptions C85_when_evaluates_body_if_true.
Print Assumptions C85_call_evaluates_arguments_in_order.
Print Assumptions C37_lookup_sees_nearest.
Print Assumptions C37_define_in_current_frame.
Print Assumptions C37_set_updates_nearest.
Print Assumptions C37_undefine_removes_nearest.
Print Assumptions C37_new_frame_is_empty.
Print Assumptions C37_only_set_reaches_outer_frames.
Print Assumptions C39_tail_calls_do_not_change_results_partial.
Print Assumptions C39_reflective_tail_call_refuted.
Print Assumptions C39_inserted_call_refuted.
Print Assumptions C39_macro_call_refuted.
Print Assumptions C82_apply_passes_arguments_partial.
Print Assumptions C82_apply_passes_arguments_refuted.
Print Assumptions C83_quote_gives_its_data_partial.
Print Assumptions C83_map_calls_each_element_partial.
Print Assumptions C83_map_calls_each_element_refuted.
