(** C94: a configuration that fails is undone *)
From Verif Require Import Base Lread_Model Lisp_Model Lisp_Spec Lisp_Scope Lisp_Proofs Lisp_Stays Hooks_Model Config_Model Config_Spec.
From Verif Require Lread_Spec Lread_Props Lisp_Props.

(** ** the process environment *)
Lemma remove_var_in k l x v : In (x, v) (remove_var k l) <-> In (x, v) l /\ x <> k.
Proof.
  unfold remove_var. rewrite filter_In. cbn [fst]. split; intros [H1 H2]; (split; [exact H1|]).
  - intros ->. now rewrite str_eqb_refl in H2.
  - destruct (str_eqb x k) eqn:E; [apply str_eqb_eq in E; contradiction|reflexivity].
Qed.
Lemma remove_var_nodup k l : NoDup (map fst l) -> NoDup (map fst (remove_var k l)).
Proof.
  unfold remove_var. induction l as [|[x w] l IH]; cbn [filter map fst]; intros H; [constructor|]. inversion H as [|? ? H1 H2]; subst.
  destruct (negb (str_eqb x k)); [|now apply IH]. cbn [map fst]. constructor; [|now apply IH]. intros Hi. apply H1. apply in_map_iff in Hi.
  destruct Hi as ((y & u) & <- & Hi). apply filter_In in Hi. apply in_map_iff. now exists (y, u).
Qed.
Lemma var_of_none k l : var_of k l = None <-> ~ In k (map fst l).
Proof.
  induction l as [|[x w] l IH]; cbn [var_of map fst In]; [tauto|]. destruct (str_eqb x k) eqn:E.
  - apply str_eqb_eq in E. subst. split; [discriminate|tauto].
  - rewrite IH. split; [intros H [->|Hi]; [now rewrite str_eqb_refl in E|tauto]|tauto].
Qed.
Lemma set_var_in k v l x u : NoDup (map fst l) -> (In (x, u) (set_var k v l) <-> (x = k /\ u = v) \/ (x <> k /\ In (x, u) l)).
Proof.
  induction l as [|[y w] l IH]; cbn [set_var map fst]; intros H.
  - cbn [In]. split; [intros [[= <- <-]|[]]; now left|]. intros [[-> ->]|[_ []]]. now left.
  - inversion H as [|? ? H1 H2]; subst. destruct (str_eqb y k) eqn:E; cbn [In].
    + apply str_eqb_eq in E. subst y. split.
      * intros [[= <- <-]|Hi]; [now left|]. right. split; [|now right]. intros ->. apply H1. apply in_map_iff. now exists (k, u).
      * intros [[-> ->]|[Hn [[= <- _]|Hi]]]; [now left|congruence|now right].
    + rewrite (IH H2). split.
      * intros [[= <- <-]|[?|[Hn Hi]]]; [right; split; [intros ->; now rewrite str_eqb_refl in E|now left]|now left|right; split; [exact Hn|now right]].
      * intros [?|[Hn [[= <- <-]|Hi]]]; [right; now left|now left|right; right; now split].
Qed.
Lemma set_var_nodup k v l : NoDup (map fst l) -> NoDup (map fst (set_var k v l)).
Proof.
  induction l as [|[y w] l IH]; cbn [set_var map fst]; intros H; [constructor; [intros []|constructor]|]. inversion H as [|? ? H1 H2]; subst.
  destruct (str_eqb y k) eqn:E; cbn [map fst]; [exact H|]. constructor; [|now apply IH]. intros Hi. apply in_map_iff in Hi. destruct Hi as ((x & u) & <- & Hi).
  apply (set_var_in k v l x u H2) in Hi. destruct Hi as [[-> _]|[_ Hi]]; [now rewrite str_eqb_refl in E|]. apply H1. apply in_map_iff. now exists (x, u).
Qed.
Lemma set_all_in old : forall l, NoDup (map fst old) -> NoDup (map fst l) ->
  forall x u, In (x, u) (fold_left (fun l p => set_var (fst p) (snd p) l) old l) <-> In (x, u) old \/ (~ In x (map fst old) /\ In (x, u) l).
Proof.
  induction old as [|[k v] old IH]; cbn [fold_left map fst snd]; intros l Ho Hl x u; [cbn; tauto|]. inversion Ho as [|? ? H1 H2]; subst.
  rewrite (IH _ H2 (set_var_nodup k v l Hl)), (set_var_in k v l x u Hl). cbn [In]. split.
  - intros [Hi|[Hn [[-> ->]|[Hx Hi]]]]; [left; now right|left; now left|]. right. split; [|exact Hi]. intros [->|Hi']; congruence.
  - intros [[[= <- <-]|Hi]|[Hn Hi]]; [right; split; [exact H1|now left]|now left|]. right. split; [tauto|right]. split; [intros ->; tauto|exact Hi].
Qed.
Lemma remove_new_in old ks : forall l x u,
  In (x, u) (fold_left (fun l k => match var_of k old with Some _ => l | None => remove_var k l end) ks l) <-> In (x, u) l /\ (In x ks -> In x (map fst old)).
Proof.
  induction ks as [|k ks IH]; cbn [fold_left]; intros l x u; [cbn; tauto|]. rewrite IH. cbn [In]. destruct (var_of k old) as [w|] eqn:E.
  - assert (In k (map fst old)) as Hk by (destruct (in_dec (list_eq_dec N.eq_dec) k (map fst old)) as [?|Hn]; [assumption|apply var_of_none in Hn; congruence]).
    split; intros [H1 H2]; (split; [exact H1|]); intros Hx; [destruct Hx as [<-|Hx]; auto|apply H2; now right].
  - rewrite remove_var_in. apply var_of_none in E. split.
    + intros [[H1 H2] H3]. split; [exact H1|]. intros [->|Hx]; [congruence|auto].
    + intros [H1 H2]. split; [split; [exact H1|]|intros Hx; apply H2; now right]. intros ->. apply E, H2. now left.
Qed.
Lemma remove_new_nodup old ks : forall l, NoDup (map fst l) -> NoDup (map fst (fold_left (fun l k => match var_of k old with Some _ => l | None => remove_var k l end) ks l)).
Proof. induction ks as [|k ks IH]; cbn [fold_left]; intros l H; [exact H|]. apply IH. destruct (var_of k old); [exact H|now apply remove_var_nodup]. Qed.
Lemma restore_process_same old now : NoDup (map fst old) -> NoDup (map fst now) -> forall k v, In (k, v) (restore_process old now) <-> In (k, v) old.
Proof.
  intros Ho Hn k v. unfold restore_process. rewrite set_all_in; [|exact Ho|now apply remove_new_nodup]. split; [|now left].
  intros [H|[H1 H2]]; [exact H|]. apply remove_new_in in H2. destruct H2 as [H2 H3]. destruct H1. apply H3. apply in_map_iff. now exists (k, v).
Qed.

(** ** frames *)
Lemma put_entries_frame h i es j : frame_at (put_entries h i es) j = if i =? j then option_map (fun fr => {| parent := parent fr; entries := es |}) (frame_at h j) else frame_at h j.
Proof.
  assert (forall h, length (put_entries h i es) = length h) as HL.
  { induction h0 as [|fr h0 IH]; cbn [put_entries]; [reflexivity|]. destruct (i =? length h0); cbn [length]; congruence. }
  induction h as [|fr h IH]; cbn [put_entries]; [rewrite !frame_at_nil; now destruct (i =? j)|].
  destruct (Nat.eqb_spec i (length h)) as [->|Hi].
  - rewrite !frame_at_cons. rewrite (Nat.eqb_sym j). destruct (Nat.eqb_spec (length h) j); reflexivity.
  - rewrite !frame_at_cons, HL, IH. destruct (Nat.eqb_spec j (length h)) as [->|Hj]; [|reflexivity]. destruct (Nat.eqb_spec i (length h)); [contradiction|reflexivity].
Qed.
Lemma entries_of_frame h i fr : frame_at h i = Some fr -> entries_of h i = entries fr.
Proof. induction h as [|f h IH]; [rewrite frame_at_nil; discriminate|]. rewrite frame_at_cons. cbn [entries_of]. destruct (i =? length h); [now intros [= ->]|exact IH]. Qed.

Section Config.
Variable X : Type.
Variable unum : char -> bool.
Variable native : nat -> str -> list lv -> M (outside X) lv.
Notation load := (load_config X unum native).
Notation st := (state (outside X)).
Hypothesis Hnative : decent_native X native.

Definition decent (a b : st) : Prop :=
  (forall j fr, frame_at (hp _ a) j = Some fr -> exists fr', frame_at (hp _ b) j = Some fr' /\ parent fr' = parent fr) /\
  (wf_process X (world _ a) -> wf_process X (world _ b)).
Lemma decent_refl a : decent a a. Proof. split; [|tauto]. intros j fr H. now exists fr. Qed.
Lemma decent_trans a b c : decent a b -> decent b c -> decent a c.
Proof. intros [H1 H2] [H3 H4]. split; [|tauto]. intros j fr H. destruct (H1 j fr H) as (f1 & E1 & P1). destruct (H3 j f1 E1) as (f2 & E2 & P2). exists f2. split; congruence. Qed.
Lemma define_decent h i k v j fr : frame_at h j = Some fr -> exists fr', frame_at (define h i k v) j = Some fr' /\ parent fr' = parent fr.
Proof.
  assert (forall h, length (define h i k v) = length h) as HL.
  { induction h0 as [|f h0 IH]; cbn [define]; [reflexivity|]. destruct (i =? length h0); cbn [length]; congruence. }
  induction h as [|f h IH]; [rewrite frame_at_nil; discriminate|]. cbn [define]. rewrite frame_at_cons. destruct (i =? length h).
  - rewrite frame_at_cons. destruct (j =? length h); [intros [= ->]; eauto|]. intros H. now exists fr.
  - rewrite frame_at_cons, HL. destruct (j =? length h); [intros [= ->]; eauto|exact IH].
Qed.
Lemma set_decent h : forall i k v h', set h i k v = Some h' -> length h' = length h /\ forall j fr, frame_at h j = Some fr -> exists fr', frame_at h' j = Some fr' /\ parent fr' = parent fr.
Proof.
  induction h as [|f h IH]; cbn [set]; intros i k v h' E; [discriminate E|].
  assert (forall p h1, set h p k v = Some h1 -> h' = f :: h1 -> length h' = length (f :: h) /\ forall j fr, frame_at (f :: h) j = Some fr -> exists fr', frame_at h' j = Some fr' /\ parent fr' = parent fr) as K.
  { intros p h1 E1 ->. destruct (IH _ _ _ _ E1) as [HL HF]. split; [cbn [length]; congruence|]. intros j fr. rewrite !frame_at_cons, HL. destruct (j =? length h); [intros [= ->]; eauto|apply HF]. }
  destruct (i =? length h).
  - destruct (assoc k (entries f)).
    + injection E as <-. split; [reflexivity|]. intros j fr. rewrite !frame_at_cons. destruct (j =? length h); [intros [= ->]; eauto|]. intros H. now exists fr.
    + destruct (parent f) as [p|]; [|discriminate E]. destruct (set h p k v) as [h1|] eqn:E1; [|discriminate E]. injection E as <-. exact (K _ _ E1 eq_refl).
  - destruct (set h i k v) as [h1|] eqn:E1; [|discriminate E]. injection E as <-. exact (K _ _ E1 eq_refl).
Qed.
Lemma eval_decent n c i e : Stays _ decent (eval _ native (insert_variable X) (push_autocomplete X) true n c i e).
Proof.
  apply eval_stays; try exact decent_refl; try exact decent_trans.
  - intros j k v s. split; [|intros H; exact H]. cbn [hp]. intros m fr. apply define_decent.
  - intros j k v s. unfold m_set. destruct (set (hp _ s) j k v) as [h|] eqn:E; [|apply decent_refl]. split; [|intros H; exact H]. cbn [hp]. apply (proj2 (set_decent _ _ _ _ _ E)).
  - intros p s. unfold m_extend, extend. split; [|intros H; exact H]. cbn [hp]. intros m fr H. exists fr. split; [|reflexivity]. rewrite frame_at_cons.
    destruct (Nat.eqb_spec m (length (hp _ s))) as [->|]; [|exact H]. apply frame_at_lt in H. lia.
  - intros k v s. split; [cbn [hp]; eauto|intros H; exact H].
  - intros t s. split; [cbn [hp]; eauto|intros H; exact H].
  - intros j k args s. apply Hnative.
Qed.
Lemma run_decent n code : Stays _ decent (run unum _ native (insert_variable X) (push_autocomplete X) n code).
Proof. intros s. unfold run. destruct (first unum code) as [r|]; [|apply decent_refl]. destruct r; try apply decent_refl. apply eval_decent. Qed.

(** A configuration that fails for whatever reason, wherever it was, leaves every setting, the
    commands of the palette, the process environment and the names of the Lisp session as they were *)
Theorem C94_failed_configuration_is_undone_partial fuel file (s s' : st) fr :
  frame_at (hp _ s) 0 = Some fr -> wf_process X (world _ s) ->
  load fuel file s = Ok _ _ false s' ->
  same_outside X (world _ s') (world _ s) /\ frame_at (hp _ s') 0 = Some fr.
Proof.
  intros Hf Hp. unfold load_config. destruct file as [text|]; [|intros [= <-]; split; [split; [constructor; reflexivity|split; [reflexivity|tauto]]|exact Hf]].
  pose proof (run_decent fuel (wrapped (trim text)) {| hp := hp _ s; world := with_env X (start_loading X) (world _ s) |}) as D.
  destruct (run _ _ _ _ _ _ _ _) as [v s1|s1|]; [discriminate| |discriminate]. intros [= <-]. destruct D as [D1 D2]. split.
  - split; [constructor; reflexivity|]. split; [reflexivity|]. cbn [world process]. apply restore_process_same; [exact Hp|]. now apply D2.
  - cbn [hp]. rewrite put_entries_frame. cbn [Nat.eqb]. destruct (D1 0 fr Hf) as (fr' & -> & P). cbn [option_map]. rewrite P, (entries_of_frame _ _ _ Hf). now destruct fr.
Qed.
(** a configuration that succeeds is loaded with startup mode on, and leaves the mode as it was *)
Theorem C94_startup_mode_is_kept fuel file (s s' : st) b : load fuel file s = Ok _ _ b s' -> startup_mode X (env X (world _ s')) = startup_mode X (env X (world _ s)).
Proof.
  unfold load_config. destruct file as [text|]; [|now intros [= <- <-]]. destruct (run _ _ _ _ _ _ _ _) as [v s1|s1|]; intros [= <- <-]; reflexivity.
Qed.
(** when neither the file nor the session uses [set], functions defined earlier keep their variables too *)
Theorem C94_frames_are_kept_partial fuel text v j (s s' : st) fr :
  frame_at (hp _ s) 0 = Some fr -> first unum (wrapped (trim text)) = Some (Good v j) ->
  noset_native native -> NoSet (embed v) -> noset_heap (hp _ s) ->
  load fuel (Some text) s = Ok _ _ false s' -> forall i, i < length (hp _ s) -> frame_at (hp _ s') i = frame_at (hp _ s) i.
Proof.
  intros Hf Hr Hn Hv Hs. unfold load_config, run. rewrite Hr.
  pose proof (Lisp_Props.C37_only_set_reaches_outer_frames native (insert_variable X) (push_autocomplete X) fuel top 0 (embed v) {| hp := hp _ s; world := with_env X (start_loading X) (world _ s) |} Hn Hv Hs) as K.
  pose proof (eval_decent fuel top 0 (embed v) {| hp := hp _ s; world := with_env X (start_loading X) (world _ s) |}) as D.
  destruct (eval _ _ _ _ _ _ _ _ _ _) as [w s1|s1|]; [discriminate| |discriminate]. intros [= <-] i Hi. cbn [hp]. rewrite put_entries_frame. destruct (Nat.eqb_spec 0 i) as [<-|Hn0].
  - destruct (proj1 D 0 fr Hf) as (fr' & -> & P). cbn [option_map]. rewrite P, (entries_of_frame _ _ _ Hf), Hf. now destruct fr.
  - apply K; [exact Hi|lia].
Qed.

(** ** what is not undone *)
(** a completion entry added before the error stays, whatever it is *)
Theorem C94_completions_refuted fuel text k x (s : st) :
  first unum (wrapped (trim text)) = Some (Good (VList [VSymbol (lit "begin"); VList [VSymbol (lit "autocomplete"); VSymbol k; x]; VList [VSymbol (lit "quote")]]) (blen (wrapped (trim text)))) ->
  exists s', load (S (S fuel)) (Some text) s = Ok _ _ false s' /\
    autocompletion X (env X (world _ s')) = autocompletion X (env X (world _ s)) ++ [[LSym k; embed x]].
Proof. intros Hr. unfold load_config, run. rewrite Hr. eexists. split; reflexivity. Qed.
End Config.

(** *** a session with a function that counts *)
Definition unit_env : environment unit := {|
  alias := [(lit "ll", lit "ls -l")]; abbreviations := []; autocompletion := []; paths := [lit "/bin"];
  variables := []; exported_vars := []; direnv_roots := []; chpwd_hooks := []; mcp_servers := [tt];
  mcp_runtime := tt; execute_allowlist := []; system_env_vars := []; input_preferences := tt; safety_level := tt;
  command_cache := []; executable_names := []; output_history := tt; ai_service := tt; z_exclude := [];
  startup_mode := false; secret_manager := tt |}.
Definition unit_outside : outside unit := {| env := unit_env; actions := []; process := [(lit "HOME", lit "/root")]; beyond := tt |}.
Definition counting : state (outside unit) := {|
  hp := [{| parent := Some 0; entries := [(lit "n", LInt 0)] |};
         {| parent := None; entries := [(lit "count", LLambda 1 [] [LList [LSym (lit "set"); LSym (lit "n"); LInt 1]]); (lit "alias", LNative (lit "alias"))] |}];
  world := unit_outside |}.
(** a function of the shell: alias forgets all aliases, and sets a variable of the process *)
Definition clear_native (i : nat) (n : str) (args : list lv) : M (outside unit) lv := fun s =>
  Ok _ _ nil_v {| hp := hp _ s; world := {| env := restore unit (capture unit {| alias := []; abbreviations := []; autocompletion := []; paths := [];
  variables := []; exported_vars := []; direnv_roots := []; chpwd_hooks := []; mcp_servers := [];
  mcp_runtime := tt; execute_allowlist := []; system_env_vars := []; input_preferences := tt; safety_level := tt;
  command_cache := []; executable_names := []; output_history := tt; ai_service := tt; z_exclude := [];
  startup_mode := true; secret_manager := tt |}) (env unit (world _ s)); actions := []; process := set_var (lit "A") (lit "b") (process unit (world _ s)); beyond := tt |} |}.
Lemma clear_native_decent : decent_native unit clear_native.
Proof.
  intros i n args s. unfold clear_native. split; [cbn [hp]; eauto|]. unfold wf_process. cbn [world process]. apply set_var_nodup.
Qed.
Definition no_numbers (_ : char) : bool := false.
(** C94_failed_configuration_is_undone_partial: the file changes a name, the aliases and the process environment, then fails *)
Definition failing : str := lit "(define count 1)
(alias) (set y 2)".
Example C94_example : exists fr s', frame_at (hp _ counting) 0 = Some fr /\ wf_process unit (world _ counting) /\
  load_config unit no_numbers clear_native 20 (Some failing) counting = Ok _ _ false s' /\
  alias unit (env unit (world _ s')) = [(lit "ll", lit "ls -l")] /\ process unit (world _ s') = [(lit "HOME", lit "/root")].
Proof.
  eexists. eexists. split; [reflexivity|]. split; [constructor; [intros []|constructor]|]. split; [vm_compute; reflexivity|]. split; reflexivity.
Qed.
(** C94_frames_are_kept_partial *)
Definition quiet_state : state (outside unit) := {|
  hp := [{| parent := Some 0; entries := [(lit "n", LInt 0)] |}; {| parent := None; entries := [(lit "alias", LNative (lit "alias"))] |}]; world := unit_outside |}.
Example C94_frames_example : exists v j s', first no_numbers (wrapped (trim (lit "(define n 3) (alias) (quote)"))) = Some (Good v j) /\
  noset_native clear_native /\ NoSet (embed v) /\ noset_heap (hp _ quiet_state) /\
  load_config unit no_numbers clear_native 20 (Some (lit "(define n 3) (alias) (quote)")) quiet_state = Ok _ _ false s'.
Proof.
  eexists. eexists. eexists. split; [vm_compute; reflexivity|]. split.
  { intros i n args s Ha Hh. unfold clear_native. cbn [hp]. split; [repeat constructor|]. split; [exact Hh|]. split; [lia|]. reflexivity. }
  split. { cbn. repeat (constructor; try discriminate). }
  split. { repeat constructor. } vm_compute. reflexivity.
Qed.
(** C94_completions_refuted *)
Example C94_completions_example : first no_numbers (wrapped (trim (lit "(autocomplete git (add rm)) (quote)"))) =
  Some (Good (VList [VSymbol (lit "begin"); VList [VSymbol (lit "autocomplete"); VSymbol (lit "git"); VList [VSymbol (lit "add"); VSymbol (lit "rm")]]; VList [VSymbol (lit "quote")]]) (blen (wrapped (trim (lit "(autocomplete git (add rm)) (quote)"))))).
Proof. vm_compute. reflexivity. Qed.
(** a variable that an earlier function keeps to itself stays changed when the file calls the function and then fails *)
Theorem C94_functions_variables_refuted : exists s', load_config unit no_numbers clear_native 20 (Some (lit "(count) (quote)")) counting = Ok _ _ false s' /\
  get (hp _ counting) 1 (lit "n") = Some (LInt 0) /\ get (hp _ s') 1 (lit "n") = Some (LInt 1).
Proof. eexists. split; [vm_compute; reflexivity|]. split; reflexivity. Qed.

Print Assumptions C94_failed_configuration_is_undone_partial.
Print Assumptions C94_startup_mode_is_kept.
Print Assumptions C94_frames_are_kept_partial.
Print Assumptions C94_completions_refuted.
Print Assumptions C94_functions_variables_refuted.
