(** C140: registered hooks. *)
From Verif Require Import Base Numerals Lread_Model Lread_Spec Lread_Proofs Lread_Props Lisp_Model Lisp_Spec Lisp_Proofs Lisp_Props Hooks_Model Hooks_Spec Hooks_Proofs Addhook_Model Addhook_Spec.

Section Reading.
Variable unum : char -> bool.

(** ** the texts are ways to write the expressions *)
Definition name_ok (s : str) : bool :=
  match s with
  | c :: _ => (c <? 128)%N && negb (is_digit c) && negb (c =? 34)%N && negb (c =? 45)%N
  | [] => false
  end && forallb is_symbolic s && forallb (fun c => c <? 128)%N s && negb (mem_str (lower s) [lit "nil"; lit "t"; lit "f"]).
Lemma Name_ok s : name_ok s = true -> Name unum s.
Proof.
  unfold name_ok. destruct s as [|c s]; [discriminate|]. rewrite !andb_true_iff, !negb_true_iff. intros ((((((A & B) & C) & D) & E) & F) & G).
  rewrite forallb_forall in E, F. split.
  - destruct (exists_last (l := c :: s)) as (a & z & Ez); [discriminate|]. exists a, z. split; [exact Ez|]. unfold ascii. apply N.ltb_lt, F. rewrite Ez. apply in_or_app. right. now left.
  - split; [|split; [|split]].
    + apply Forall_forall. intros x Hx. apply (proj2 (not_Break unum x)). now apply E.
    + intros x r H. injection H as <- <-. split; [unfold is_numeric; rewrite A; exact B|]. now apply N.eqb_neq in C.
    + intros x r H. injection H as -> ->. discriminate D.
    + now apply mem_str_false.
Qed.
Lemma Writes_name s : name_ok s = true -> Writes unum (VSymbol s) s.
Proof. intros H. constructor. now apply Name_ok. Qed.
Lemma blank : Gap (lit " ").
Proof. repeat constructor. Qed.
(** a blank between two items *)
Lemma more v s l t : Writes unum v s -> Items unum l t -> Items unum (v :: l) (s ++ lit " " ++ t).
Proof. intros H1 H2. apply I_cons; [exact H1|exact blank|discriminate|exact H2]. Qed.
Lemma last_item v s : Writes unum v s -> Items unum [v] s.
Proof. intros H. rewrite <- (app_nil_r s). apply I_last; [exact H|constructor]. Qed.
Lemma listed l s : Items unum l s -> Writes unum (VList l) (lit "(" ++ s ++ lit ")").
Proof. intros H. apply (W_list unum l [] s); [constructor|exact H]. Qed.

Lemma hook_list_ok e : name_ok (hook_list e) = true.
Proof. destruct e; reflexivity. Qed.
Lemma map_text_written e args t : Items unum (VSymbol (lit "hook") :: args) (lit "hook" ++ t) ->
  Writes unum (the_map e args) (lit "(map (lambda (hook) (hook" ++ t ++ lit ")) " ++ hook_list e ++ lit ")").
Proof.
  intros H. unfold the_map.
  replace (lit "(map (lambda (hook) (hook" ++ t ++ lit ")) " ++ hook_list e ++ lit ")")
    with (lit "(" ++ (lit "map" ++ lit " " ++ (lit "(" ++ (lit "lambda" ++ lit " " ++ (lit "(" ++ lit "hook" ++ lit ")") ++ lit " " ++ (lit "(" ++ (lit "hook" ++ t) ++ lit ")")) ++ lit ")") ++ lit " " ++ hook_list e) ++ lit ")").
  - apply listed. apply more; [now apply Writes_name|]. apply more; [|apply last_item, Writes_name, hook_list_ok].
    apply listed. apply more; [now apply Writes_name|]. apply more; [apply listed, last_item; now apply Writes_name|]. apply last_item, listed, H.
  - cbn [lit app]. repeat (rewrite <- app_assoc; cbn [app]). reflexivity.
Qed.
Lemma expression_written e args t : Items unum (VSymbol (lit "hook") :: args) (lit "hook" ++ t) ->
  t = call_text e -> Writes unum (expression e args) (lisp_code e).
Proof.
  intros H E. pose proof (map_text_written e args t H) as M. rewrite E in M. change (lit "(map (lambda (hook) (hook" ++ call_text e ++ lit ")) " ++ hook_list e ++ lit ")") with (map_text e) in M.
  assert (forall l, name_ok l = true -> Writes unum (VList [VSymbol (lit "when"); VList [VSymbol (lit "bound?"); VList [VSymbol (lit "quote"); VSymbol l]]; the_map e args]) (lit "(when (bound? '" ++ l ++ lit ") " ++ map_text e ++ lit ")")) as HW.
  { intros l Hl. replace (lit "(when (bound? '" ++ l ++ lit ") " ++ map_text e ++ lit ")") with (lit "(" ++ (lit "when" ++ lit " " ++ (lit "(" ++ (lit "bound?" ++ lit " " ++ lit "'" ++ l) ++ lit ")") ++ lit " " ++ map_text e) ++ lit ")").
    - apply listed. apply more; [now apply Writes_name|]. apply more; [|now apply last_item].
      apply listed. apply more; [now apply Writes_name|]. apply last_item. apply W_quote. now apply Writes_name.
    - cbn [lit app]. repeat (rewrite <- app_assoc; cbn [app]). reflexivity. }
  destruct e as [| | |c|c n|c n|c|c]; cbn [expression lisp_code]; try exact M.
  - now apply HW.
  - now apply HW.
  - set (mt := map_text (NotFound c)) in *.
    replace (lit "(let ((results " ++ mt ++ lit "))" ++ 10%N :: lit "          (filter (lambda (r) r) results))")
      with (lit "(" ++ (lit "let" ++ lit " " ++ (lit "(" ++ (lit "(" ++ (lit "results" ++ lit " " ++ mt) ++ lit ")") ++ lit ")") ++ (10%N :: lit "          ") ++
             (lit "(" ++ (lit "filter" ++ lit " " ++ (lit "(" ++ (lit "lambda" ++ lit " " ++ (lit "(" ++ lit "r" ++ lit ")") ++ lit " " ++ lit "r") ++ lit ")") ++ lit " " ++ lit "results") ++ lit ")")) ++ lit ")").
    + apply listed. apply more; [now apply Writes_name|]. apply I_cons.
      * apply listed, last_item, listed. apply more; [now apply Writes_name|now apply last_item].
      * repeat constructor.
      * discriminate.
      * apply last_item, listed. apply more; [now apply Writes_name|]. apply more; [|now apply last_item, Writes_name].
        apply listed. apply more; [now apply Writes_name|]. apply more; [apply listed, last_item; now apply Writes_name|]. apply last_item. now apply Writes_name.
    + cbn [lit app]. repeat (rewrite <- app_assoc; cbn [app]). reflexivity.
Qed.
Lemma call_items e : carried e -> Items unum (VSymbol (lit "hook") :: arguments e) (lit "hook" ++ call_text e).
Proof.
  intros [Ht Hn].
  assert (forall c, clean c -> Writes unum (VString c) (34%N :: escape c ++ [34%N])) as HS by (intros c [A B]; rewrite escape_plain by exact B; now constructor).
  assert (forall n, i64 n -> Writes unum (VInt n) (show_int n)) as HI by (intros n H; apply (print_Writes unum (VInt n)); now constructor).
  assert (Writes unum (VSymbol (lit "hook")) (lit "hook")) as HH by now apply Writes_name.
  assert (forall c, clean c -> Items unum [VSymbol (lit "hook"); VString c] (lit "hook" ++ lit " " ++ 34%N :: escape c ++ [34%N])) as H1.
  { intros c H. apply more; [exact HH|]. apply last_item. now apply HS. }
  assert (forall c n, clean c -> i64 n -> Items unum [VSymbol (lit "hook"); VString c; VInt n] (lit "hook" ++ (lit " " ++ 34%N :: escape c ++ [34%N]) ++ lit " " ++ show_int n)) as H2.
  { intros c n H Hi. rewrite <- (app_assoc (lit " ")). apply more; [exact HH|]. apply more; [now apply HS|]. apply last_item. now apply HI. }
  unfold arguments. destruct e as [| | |c|c n|c n|c|c]; cbn [text_of number_of call_text app] in *; auto; try (rewrite app_nil_r; now apply last_item).
Qed.
(** every expression is read as it is meant *)
Theorem C140_expression_is_read_partial e : carried e -> first unum (lisp_code e) = Some (Good (expression e (arguments e)) (blen (lisp_code e))).
Proof.
  intros H. pose proof (C38_written_text_is_read unum _ [] _ [] G_nil (expression_written e (arguments e) (call_text e) (call_items e H) eq_refl) I) as R.
  cbn [app] in R. now rewrite app_nil_r in R.
Qed.
End Reading.

(** ** the variables *)
Lemma assoc_put k v l x : assoc x (put k v l) = if str_eqb k x then Some v else assoc x l.
Proof.
  induction l as [|(y, w) l IH]; cbn [put assoc]; [reflexivity|]. destruct (str_eqb y k) eqn:E; cbn [assoc].
  - apply str_eqb_eq in E. subst y. now destruct (str_eqb k x).
  - destruct (str_eqb y x) eqn:F; [|exact IH]. destruct (str_eqb k x) eqn:G; [|reflexivity]. apply str_eqb_eq in F, G. subst. now rewrite str_eqb_refl in E.
Qed.
Lemma set_length h : forall i k v h', set h i k v = Some h' -> length h' = length h.
Proof.
  induction h as [|fr old IH]; intros i k v h' E; [discriminate|]. cbn [set] in E. destruct (i =? length old).
  - destruct (assoc k (entries fr)); [injection E as <-; reflexivity|]. destruct (parent fr) as [p|]; [|discriminate].
    destruct (set old p k v) as [o|] eqn:F; [|discriminate]. injection E as <-. cbn. f_equal. now apply IH in F.
  - destruct (set old i k v) as [o|] eqn:F; [|discriminate]. injection E as <-. cbn. f_equal. now apply IH in F.
Qed.
Lemma set_get h : forall i k v h', set h i k v = Some h' -> get h' i k = Some v.
Proof.
  induction h as [|fr old IH]; intros i k v h' E; [discriminate|]. cbn [set] in E. destruct (i =? length old) eqn:L.
  - destruct (assoc k (entries fr)) eqn:A.
    + injection E as <-. cbn [get]. rewrite L. cbn [entries]. now rewrite assoc_put, str_eqb_refl.
    + destruct (parent fr) as [p|] eqn:P; [|discriminate]. destruct (set old p k v) as [o|] eqn:F; [|discriminate]. injection E as <-.
      cbn [get]. rewrite (set_length _ _ _ _ _ F), L, A, P. now apply IH in F.
  - destruct (set old i k v) as [o|] eqn:F; [|discriminate]. injection E as <-. cbn [get]. rewrite (set_length _ _ _ _ _ F), L. now apply IH in F.
Qed.
Lemma set_other h : forall i k v h', set h i k v = Some h' -> forall j x, x <> k -> get h' j x = get h j x.
Proof.
  induction h as [|fr old IH]; intros i k v h' E j x Hx; [discriminate|]. cbn [set] in E. destruct (i =? length old) eqn:L.
  - destruct (assoc k (entries fr)) eqn:A.
    + injection E as <-. cbn [get parent entries]. rewrite assoc_put. replace (str_eqb k x) with false; [reflexivity|]. symmetry. apply str_eqb_neq. congruence.
    + destruct (parent fr) as [p|] eqn:P; [|discriminate]. destruct (set old p k v) as [o|] eqn:F; [|discriminate]. injection E as <-.
      cbn [get]. rewrite (set_length _ _ _ _ _ F). destruct (j =? length old); [|now apply (IH _ _ _ _ F)].
      destruct (assoc x (entries fr)); [reflexivity|]. destruct (parent fr) as [q|]; [|reflexivity]. now apply (IH _ _ _ _ F).
  - destruct (set old i k v) as [o|] eqn:F; [|discriminate]. injection E as <-. cbn [get]. rewrite (set_length _ _ _ _ _ F).
    destruct (j =? length old); [|now apply (IH _ _ _ _ F)].
    destruct (assoc x (entries fr)); [reflexivity|]. destruct (parent fr) as [q|]; [|reflexivity]. now apply (IH _ _ _ _ F).
Qed.
Lemma set_there h : forall i k v w, get h i k = Some w -> exists h', set h i k v = Some h'.
Proof.
  induction h as [|fr old IH]; intros i k v w E; [discriminate|]. cbn [get set] in *. destruct (i =? length old).
  - destruct (assoc k (entries fr)); [eauto|]. destruct (parent fr) as [p|]; [|discriminate]. destruct (IH _ _ v _ E) as (h' & ->). eauto.
  - destruct (IH _ _ v _ E) as (h' & ->). eauto.
Qed.

Section Registered.
Variable unum : char -> bool.
Variable W : Type.
Variable other : nat -> str -> list lv -> M W lv.
Variable sv : W -> str -> lv -> W.
Variable aa : W -> list lv -> W.
Notation nat_ := (native W other).
Notation ev n := (eval W nat_ sv aa true n).
Definition stars (name : str) : str := lit "*" ++ name ++ lit "*".

(** add-hook puts the function in front of the list; nothing else changes *)
Theorem C140_add_hook_registers env name f l (s : state W) : get (hp W s) env (stars name) = Some (LList l) ->
  exists s', native W other env (lit "add-hook") [LSym name; f] s = Ok _ _ nil_v s' /\ world W s' = world W s /\
    get (hp W s') env (stars name) = Some (LList (f :: l)) /\
    forall i k, k <> stars name -> get (hp W s') i k = get (hp W s) i k.
Proof.
  intros H. unfold native. change (str_eqb (lit "add-hook") (lit "add-hook")) with true. cbv iota. unfold add_hook. fold (stars name). rewrite H.
  destruct (set_there _ _ _ (LList (f :: l)) _ H) as (h' & E). rewrite E. eexists. split; [reflexivity|]. cbn [hp world].
  split; [reflexivity|]. split; [now apply set_get in E|]. now apply (set_other _ _ _ _ _ E).
Qed.
(** a variable that does not exist: nothing is registered; so it is with the hooks of project
    switches, which no hook variable exists for at the start *)
Theorem C140_project_hooks_refuted env f (s : state W) : ~ In (hook_list (Project [])) hook_variables /\
  (get (hp W s) env (hook_list (Project [])) = None ->
   native W other env (lit "add-hook") [LSym (lit "on-project-switch-hooks"); f] s = Err _ _ s).
Proof.
  split.
  - intros H. apply mem_str_iff in H. discriminate.
  - intros H. unfold native. change (str_eqb (lit "add-hook") (lit "add-hook")) with true. cbv iota. unfold add_hook.
    change (lit "*" ++ lit "on-project-switch-hooks" ++ lit "*") with (hook_list (Project [])). now rewrite H.
Qed.
Definition fuel_for (e : event) (n : nat) : nat := match e with Chdir | Project _ => 5 + n | _ => 4 + n end.
Lemma the_map_form e args : the_map e args = hook_form args (hook_list e).
Proof. reflexivity. Qed.
Lemma call_bound rec l (s : state W) v : get (hp W s) 0 l = Some v -> call W nat_ rec 0 (LNative (lit "bound?")) [LSym l] s = Ok _ _ LTrue s.
Proof.
  intros Hl. cbn [call]. replace (str_eqb (lit "bound?") (lit "eval")) with false by reflexivity. replace (str_eqb (lit "bound?") (lit "apply")) with false by reflexivity.
  replace (str_eqb (lit "bound?") (lit "map")) with false by reflexivity. replace (str_eqb (lit "bound?") (lit "filter")) with false by reflexivity. cbv iota.
  unfold native. replace (str_eqb (lit "bound?") (lit "add-hook")) with false by reflexivity. replace (str_eqb (lit "bound?") (lit "bound?")) with true by reflexivity. cbv iota.
  unfold bound. rewrite Hl. reflexivity.
Qed.
Lemma when_form n l x (s : state W) v : get (hp W s) 0 (lit "bound?") = Some (LNative (lit "bound?")) -> get (hp W s) 0 l = Some v ->
  ev (S (S (S (S (S n))))) top 0 (embed (VList [VSymbol (lit "when"); VList [VSymbol (lit "bound?"); VList [VSymbol (lit "quote"); VSymbol l]]; x])) s = ev (S (S (S (S n)))) top 0 (embed x) s.
Proof.
  intros Hb Hl. set (m := S (S (S (S n)))). change (ev (S m)) with (step W nat_ sv aa (ev m) true m). cbn [embed map step top quoting andb].
  change (form_of (LSym (lit "when"))) with (Some FWhen). cbv iota. unfold bind at 1.
  assert (ev m (not_tail top) 0 (LList [LSym (lit "bound?"); LList [LSym (lit "quote"); LSym l]]) s = Ok _ _ LTrue s) as ->.
  { unfold m. change (ev (S (S (S (S n))))) with (step W nat_ sv aa (ev (S (S (S n)))) true (S (S (S n)))). cbn [step not_tail top quoting andb].
    change (form_of (LSym (lit "bound?"))) with (@None form). cbv iota. unfold bind at 1.
    assert (ev (S (S (S n))) (not_tail (not_tail top)) 0 (LSym (lit "bound?")) s = Ok _ _ (LNative (lit "bound?")) s) as E1 by (cbn [eval step not_tail top quoting]; unfold m_get; now rewrite Hb).
    change {| found_tail := true; in_func := false; quoting := false |} with (not_tail (not_tail top)).
    change (not_tail {| found_tail := true; in_func := in_func top; quoting := quoting top |}) with (not_tail (not_tail top)). rewrite E1. cbn [is_macro]. cbv iota.
    unfold bind at 1. cbn [map_m]. unfold bind at 1 2.
    assert (forall c, quoting c = false -> ev (S (S (S n))) c 0 (LList [LSym (lit "quote"); LSym l]) s = Ok _ _ (LSym l) s) as E2 by (intros c Q; apply C83_quote_gives_its_data_partial; [constructor; discriminate|exact Q|cbn; lia]).
    rewrite E2 by reflexivity. unfold ret. cbv iota beta. cbn [negb andb found_tail in_func not_tail top]. rewrite settle_S, (call_bound _ l s v Hl). reflexivity. }
  cbn [truthy block]. reflexivity.
Qed.
Lemma fire_form e hooks (s : state W) n : listed_event e -> carried e -> hooks_set e hooks s -> Forall direct hooks ->
  fire unum W other sv aa (fuel_for e n) e s = state_left (call_each W (call_hook W nat_ sv aa n (map embed (arguments e))) hooks s).
Proof.
  intros He Hc [Hh Hb] Hf. pose proof (C140_expression_is_read_partial unum e Hc) as R.
  assert (forall m, state_left (bind W m (fun r => ret W (LList r)) s) = state_left (m s)) as HB by (intros m; unfold bind, ret; destruct (m s); reflexivity).
  assert (logged W (ev (4 + n) top 0 (embed (the_map e (arguments e))) s) = state_left (call_each W (call_hook W nat_ sv aa n (map embed (arguments e))) hooks s)) as HM.
  { rewrite the_map_form. change (4 + n) with (S (S (S (S n)))). rewrite (form_eval W nat_ sv aa n (arguments e) (hook_list e) hooks s); [apply HB|destruct e; reflexivity|exact Hh|exact Hf]. }
  assert (match e with Chdir | Project _ => True | _ => False end -> logged W (ev (5 + n) top 0 (embed (expression e (arguments e))) s) = state_left (call_each W (call_hook W nat_ sv aa n (map embed (arguments e))) hooks s)) as HW.
  { intros K. rewrite <- HM. f_equal. change (5 + n) with (S (S (S (S (S n))))). change (4 + n) with (S (S (S (S n)))). destruct Hh as [H1 _].
    destruct e; try contradiction; apply (when_form n _ _ s _ Hb H1). }
  assert (match e with Chdir | Project _ | NotFound _ => False | _ => True end ->
    (if nonempty_list W s (hook_list e) then logged W (run unum W nat_ sv aa (4 + n) (lisp_code e) s) else Some s) =
    state_left (call_each W (call_hook W nat_ sv aa n (map embed (arguments e))) hooks s)) as HG.
  { intros K. unfold nonempty_list. rewrite (proj1 Hh). destruct hooks as [|h hooks]; [reflexivity|]. rewrite <- HM. unfold run. rewrite R.
    destruct e; try contradiction; reflexivity. }
  destruct e as [| | |c|c k|c k|c|c]; try contradiction; cbn [fuel_for]; try (now apply HG); unfold fire, run; rewrite R; now apply HW.
Qed.
(** every registered function is called with the text and the number of the event, in the order
    of the list, up to the first that fails *)
Theorem C140_registered_hooks_are_called_partial e hooks (s : state W) n : listed_event e -> carried e -> hooks_set e hooks s -> Forall function hooks ->
  fire unum W other sv aa (fuel_for e n) e s =
  state_left (call_each W (fun f s => settle W nat_ (ev (2 + n)) (1 + n) 0 (call W nat_ (ev (2 + n)) 0 f (map embed (arguments e))) (in_hook_frame W f s)) hooks s).
Proof.
  intros He Hc Hh Hf. rewrite (fire_form e hooks s n He Hc Hh); [|eapply Forall_impl; [|exact Hf]; exact function_direct]. f_equal.
  assert (forall f s, call_hook W nat_ sv aa n (map embed (arguments e)) f s = settle W nat_ (ev (2 + n)) (1 + n) 0 (call W nat_ (ev (2 + n)) 0 f (map embed (arguments e))) (in_hook_frame W f s)) as E.
  { intros f s'. unfold call_hook. unfold bind. rewrite map_self; [reflexivity|]. unfold arguments. rewrite map_app. apply Forall_app. split.
    - destruct (text_of e); repeat constructor; intros; now apply eval_self.
    - destruct (number_of e); repeat constructor; intros; now apply eval_self. }
  clear Hh Hf. revert s. induction hooks as [|f hooks IH]; intros s; [reflexivity|]. cbn [call_each]. unfold bind. rewrite E. destruct (settle _ _ _ _ _ _ _) as [v s'|s'|]; [|reflexivity|reflexivity]. now rewrite IH.
Qed.
(** a function that fails keeps those behind it from being called *)
Theorem C140_failing_hook_refuted e f hooks (s s' : state W) n : listed_event e -> carried e -> hooks_set e (f :: hooks) s -> Forall function (f :: hooks) ->
  settle W nat_ (ev (2 + n)) (1 + n) 0 (call W nat_ (ev (2 + n)) 0 f (map embed (arguments e))) (in_hook_frame W f s) = Err _ _ s' ->
  fire unum W other sv aa (fuel_for e n) e s = Some s'.
Proof. intros He Hc Hh Hf E. rewrite (C140_registered_hooks_are_called_partial e (f :: hooks) s n He Hc Hh Hf). cbn [call_each]. unfold bind. now rewrite E. Qed.
(** a function registered by its name, as the manual shows, is never called, and neither is any
    function registered before it: nothing outside the evaluator happens, and no variable changes *)
Theorem C140_function_by_name_refuted e k hooks (s s1 : state W) name n : listed_event e -> carried e -> hook_list e = stars name -> hooks_set e hooks s -> Forall function hooks ->
  native W other 0 (lit "add-hook") [LSym name; LSym k] s = Ok _ _ nil_v s1 ->
  exists s2, fire unum W other sv aa (fuel_for e n) e s1 = Some s2 /\ world W s2 = world W s /\ exists fr, hp W s2 = fr :: hp W s1.
Proof.
  intros He Hc Hl Hh Hf E. destruct Hh as [[H1 H2] H3]. destruct (C140_add_hook_registers 0 name (LSym k) hooks s) as (s' & E' & Hw & Hg & Ho); [now rewrite <- Hl|].
  rewrite E in E'. injection E' as <-.
  assert (stars name <> lit "map" /\ stars name <> lit "bound?") as [N1 N2] by (split; intros K; apply (f_equal (hd 0%N)) in K; discriminate).
  exists (in_hook_frame W (LSym k) s1). split; [|split; [exact Hw|now eexists]].
  rewrite (fire_form e (LSym k :: hooks) s1 n He Hc).
  - cbn [call_each]. unfold bind at 1. unfold call_hook at 1. unfold bind. rewrite map_self; [|unfold arguments; rewrite map_app; apply Forall_app; split].
    + reflexivity.
    + destruct (text_of e); repeat constructor; intros; now apply eval_self.
    + destruct (number_of e); repeat constructor; intros; now apply eval_self.
  - split; [split|]; [now rewrite Hl|now rewrite (Ho 0 (lit "map") (not_eq_sym N1))|now rewrite (Ho 0 (lit "bound?") (not_eq_sym N2))].
  - constructor; [exact I|]. eapply Forall_impl; [|exact Hf]. exact function_direct.
Qed.
End Registered.

(** ** A session; the world is what was called *)
Definition calls_seen := list (str * list lv).
Definition seen_native (_ : nat) (n : str) (args : list lv) : M calls_seen lv :=
  fun s => if str_eqb n (lit "boom") then Err _ _ s else Ok _ _ nil_v {| hp := hp _ s; world := (n, args) :: world _ s |}.
Definition at_start : state calls_seen :=
  {| hp := [{| parent := None; entries := [(lit "map", LNative (lit "map")); (lit "bound?", LNative (lit "bound?")); (lit "filter", LNative (lit "filter"))] ++ map (fun k => (k, LList [])) hook_variables |}]; world := [] |}.
Definition register (adds : list (str * lv)) (s : state calls_seen) : state calls_seen :=
  fold_left (fun s p => match native _ seen_native 0 (lit "add-hook") [LSym (fst p); snd p] s with Ok _ _ _ s' | Err _ _ s' => s' | Fuel _ _ => s end) adds s.
Definition happened (adds : list (str * lv)) (e : event) : option calls_seen :=
  match fire no_num _ seen_native (fun w _ _ => w) (fun w _ => w) 30 e (register adds at_start) with Some s => Some (rev (world _ s)) | None => None end.
(** functions given as values are called, the last registered first *)
Example C140_registered_example :
  let adds := [(lit "pre-exec-hooks", LNative (lit "a")); (lit "pre-exec-hooks", LNative (lit "b")); (lit "on-chdir-hooks", LNative (lit "c"))] in
  let s := register adds at_start in
  hooks_set (PreExec (lit "ls")) [LNative (lit "b"); LNative (lit "a")] s /\ hooks_set Chdir [LNative (lit "c")] s /\
  happened adds (PreExec (lit "ls -l")) = Some [(lit "b", [LStr (lit "ls -l")]); (lit "a", [LStr (lit "ls -l")])] /\
  happened adds Chdir = Some [(lit "c", [])] /\ happened adds PrePrompt = Some [] /\
  happened [(lit "command-not-found-hooks", LNative (lit "d"))] (NotFound (lit "gti")) = Some [(lit "d", [LStr (lit "gti")])] /\
  happened [(lit "post-exec-hooks", LNative (lit "d"))] (PostExec (lit "ls") 2) = Some [(lit "d", [LStr (lit "ls"); LInt 2])].
Proof. cbv zeta. split; [split; [split|]|split; [split; [split|]|split; [|split; [|split; [|split]]]]]; vm_compute; reflexivity. Qed.
Example C140_carried_example : carried (PostExec (lit "ls -l") 2) /\ listed_event (PostExec (lit "ls -l") 2) /\ carried Chdir /\ Forall function [LNative (lit "b"); LLambda 0 [] []].
Proof.
  split; [split|split; [exact I|split; [split; discriminate|repeat constructor]]].
  - intros c [= <-]. split; [exists (lit "ls -"), (chr "l"); now split|]. vm_compute. intros H. repeat (destruct H as [H|H]; [discriminate|]). exact H.
  - intros n [= <-]. unfold i64. lia.
Qed.
(** by name, as in the manual: nothing is called; a failing function keeps the others from being called *)
Example C140_by_name_example :
  happened [(lit "pre-exec-hooks", LNative (lit "a")); (lit "pre-exec-hooks", LSym (lit "my-pre-exec-func"))] (PreExec (lit "ls")) = Some [] /\
  happened [(lit "pre-exec-hooks", LNative (lit "a")); (lit "pre-exec-hooks", LNative (lit "boom"))] (PreExec (lit "ls")) = Some [] /\
  happened [(lit "on-project-switch-hooks", LNative (lit "a"))] (Project (lit "x")) = Some [] /\ hook_list (PreExec (lit "ls")) = stars (lit "pre-exec-hooks").
Proof. split; [|split; [|split]]; vm_compute; reflexivity. Qed.
Print Assumptions C140_expression_is_read_partial.
Print Assumptions C140_add_hook_registers.
Print Assumptions C140_project_hooks_refuted.
Print Assumptions C140_registered_hooks_are_called_partial.
Print Assumptions C140_failing_hook_refuted.
Print Assumptions C140_function_by_name_refuted.
