From Coq Require Import Lia.
From Verif Require Import Base Numerals Lread_Model Lread_Spec Lread_Proofs Lread_Props Lisp_Model Lisp_Spec Lisp_Props Hooks_Model Hooks_Spec Hooks_Proofs Names_Proofs.
From Verif Require Grammar_Model Parse_Model Parse_Spec Parse_Props Highlight_Model.

Section Hooks.
Variable unum : char -> bool.
Variable W : Type.
Variable native : nat -> str -> list lv -> M W lv.
Variable sv : W -> str -> lv -> W.
Variable aa : W -> list lv -> W.
Notation ev n := (eval W native sv aa true n).
Notation exec := (exec_hooks unum W native sv aa).

(** ** C92: hooks receive the text as typed *)
Lemma exec_read n name text extra hooks v j (s : state W) : hooks_are W name hooks s ->
  first unum (hook_code name text extra) = Some (Good v j) ->
  exec n name text extra s = match hooks with [] => Ok _ _ nil_v s | _ => ev n top 0 (embed v) s end.
Proof. intros [H _] E. unfold exec_hooks, run. rewrite H, E. destruct hooks; reflexivity. Qed.
Lemma exec_form n name text extra hooks vs j (s : state W) : hook_name name -> hooks_are W name hooks s -> Forall function hooks ->
  first unum (hook_code name text extra) = Some (Good (hook_form vs name) j) ->
  exec (4 + n) name text extra s = bind W (call_each W (call_hook W native sv aa n (map embed vs)) hooks) (fun r => ret W (LList r)) s.
Proof.
  intros Hn Hh Hf E. rewrite (exec_read _ _ _ _ hooks _ _ _ Hh E). destruct hooks as [|f hooks]; [reflexivity|].
  change (4 + n) with (S (S (S (S n)))). apply form_eval; [destruct Hn as [<-|[<-|[<-|[]]]]; reflexivity|exact Hh|]. eapply Forall_impl; [|exact Hf]. exact function_direct.
Qed.
(** every hook is called, in order, with the text and the numbers behind it *)
Theorem C92_hooks_receive_plain_text_partial n name text extra hooks (s : state W) :
  hook_name name -> plain_text text -> Forall i64 extra -> hooks_are W name hooks s -> Forall function hooks ->
  exec (4 + n) name text extra s =
  bind W (call_each W (fun f s => settle W native (ev (2 + n)) (1 + n) 0 (call W native (ev (2 + n)) 0 f (LStr text :: map LInt extra)) (in_hook_frame W f s)) hooks)
    (fun r => ret W (LList r)) s.
Proof.
  intros Hn Ht He Hh Hf. rewrite (exec_form n name text extra hooks _ _ s Hn Hh Hf (plain_read unum name text extra Hn Ht He)).
  match goal with |- bind W (call_each W ?a _) _ _ = bind W (call_each W ?b _) _ _ =>
    assert (forall s, call_each W a hooks s = call_each W b hooks s) as EQ end.
  { clear. induction hooks as [|f l IH]; intros s; [reflexivity|]. cbn [call_each]. unfold bind at 1 3. unfold call_hook at 1. unfold bind at 1. rewrite plain_args.
    change (S (S n)) with (2 + n). change (S n) with (1 + n).
    destruct (settle _ _ _ _ _ _ _) as [v s'|s'|]; [|reflexivity|reflexivity]. unfold bind. now rewrite IH. }
  unfold bind at 1 2. now rewrite EQ.
Qed.
(** a text with a double quote in it: the hooks never have it as their argument *)
Theorem C92_text_with_quote_refuted name text extra vs j : In 34%N text ->
  first unum (hook_code name text extra) <> Some (Good (hook_form (VString text :: vs) name) j).
Proof.
  intros H E. apply first_clean in E. unfold hook_form in E.
  inversion E as [| | | | | |l1 F1]; subst. inversion F1 as [|? ? _ F2]; subst. inversion F2 as [|? ? L _]; subst.
  inversion L as [| | | | | |l2 F3]; subst. inversion F3 as [|? ? _ F4]; subst. inversion F4 as [|? ? _ F5]; subst. inversion F5 as [|? ? L2 _]; subst.
  inversion L2 as [| | | | | |l3 F6]; subst. inversion F6 as [|? ? _ F7]; subst. inversion F7 as [|? ? L3 _]; subst.
  inversion L3 as [| | | |t Ht| |]; subst. now apply Ht.
Qed.
(** what follows the first double quote is evaluated as a program, before the hook is called *)
Theorem C92_text_is_not_run_refuted n name (a x g t : str) vs extra hooks (s : state W) :
  hook_name name -> ~ In 34%N a -> escape x ++ [34%N] = g ++ t -> Gap g -> Items unum vs t ->
  Forall i64 extra -> hooks_are W name hooks s -> Forall function hooks ->
  exec (4 + n) name (a ++ 34%N :: x) extra s =
  bind W (call_each W (fun f s => bind W (map_m W (ev (1 + n) (not_tail body_ctx) (length (hp W s))) (LStr (a ++ [92%N]) :: map embed vs ++ map LInt extra))
      (fun args => settle W native (ev (2 + n)) (1 + n) 0 (call W native (ev (2 + n)) 0 f args)) (in_hook_frame W f s)) hooks)
    (fun r => ret W (LList r)) s.
Proof.
  intros Hn Ha E Hg Hi He Hh Hf.
  rewrite (exec_form n _ _ _ hooks _ _ s Hn Hh Hf (quoted_read unum name a x g t vs extra Hn Ha E Hg Hi He)).
  cbn [map embed]. rewrite map_app, map_map. reflexivity.
Qed.
(** a text that ends in a character beyond ASCII: no hook is called *)
Theorem C92_accented_text_refuted n name a z extra f hooks (s : state W) : ~ ascii z -> ~ In 34%N (a ++ [z]) -> hooks_are W name (f :: hooks) s ->
  exec n name (a ++ [z]) extra s = Err _ _ s.
Proof. intros Hz Ha [Hh _]. unfold exec_hooks, run. rewrite (wide_read unum name a z extra Hz Ha), Hh. reflexivity. Qed.
(** the empty text: no hook is called *)
Theorem C92_empty_text_refuted n name extra f hooks (s : state W) : hook_name name -> Forall i64 extra -> hooks_are W name (f :: hooks) s -> Forall function (f :: hooks) ->
  get (hp W s) 0 [34; 34]%N = None ->
  exec (4 + n) name [] extra s = Err _ _ (in_hook_frame W f s).
Proof.
  intros Hn He Hh Hf Hu. rewrite (exec_form n _ _ _ (f :: hooks) _ _ s Hn Hh Hf (empty_read unum name extra Hn He)).
  unfold bind at 1. cbn [call_each]. unfold bind at 1. unfold call_hook, bind at 1. cbn [map embed map_m]. unfold bind at 1.
  cbn [eval step not_tail body_ctx quoting]. unfold m_get, in_hook_frame at 1. cbn [hp get entries assoc parent]. rewrite Nat.eqb_refl.
  change (str_eqb (lit "hook") [34; 34]%N) with false. cbv iota. rewrite Hu. reflexivity.
Qed.

(** ** C93: looking at the name of a command runs nothing *)
(** the part of the line that is coloured as a command is looked up; nothing changes *)
Theorem C93_coloured_commands_are_not_run_partial line tok n (s : state W) :
  In tok (Highlight_Model.highlight line) -> Highlight_Model.tok_kind tok = Highlight_Model.KCommand ->
  no_effect s (run unum W native sv aa n
    (firstn (Highlight_Model.tok_end tok - Highlight_Model.tok_start tok) (skipn (Highlight_Model.tok_start tok) line)) s).
Proof. intros H K. apply bare_run. exact (highlighted_names line tok H K). Qed.
(** a name in single quotes is a Lisp program: looking it up evaluates it *)
Theorem C93_quoted_name_refuted resolve substitute v (p : str) n (s : state W) :
  Writes unum v p -> ~ In 39%N p -> ends_with [92%N] p = false -> Parse_Spec.known resolve (Parse_Spec.CmdLine [] (Parse_Spec.Single p) [] []) ->
  (exists j, Parse_Model.jobs_of resolve substitute (lit "'" ++ p ++ lit "'") = Some [j] /\
     Parse_Model.procs j = [Parse_Spec.process_for resolve (Parse_Spec.CmdLine [] (Parse_Spec.Single p) [] [])]) /\
  Parse_Spec.argv (Parse_Spec.CmdLine [] (Parse_Spec.Single p) [] []) = [p] /\
  run unum W native sv aa n p s = ev n top 0 (embed v) s.
Proof.
  intros Hw Hq Hb K. split; [|split].
  - destruct (Parse_Props.C59_arguments_arrive_partial resolve substitute (Parse_Spec.CmdLine [] (Parse_Spec.Single p) [] [])) as (j & J & P & _); [|exact K|].
    + unfold Parse_Spec.valid_cmd. cbn [Parse_Spec.lead Parse_Spec.trail Parse_Spec.name Parse_Spec.items Parse_Spec.valid_word].
      split; [constructor|]. split; [constructor|]. split; [now split|constructor].
    + exists j. split; [|exact P]. etransitivity; [|exact J]. f_equal. unfold Parse_Spec.typed_cmd. cbn [Parse_Spec.lead Parse_Spec.trail Parse_Spec.name Parse_Spec.items flat_map app Parse_Spec.typed_word].
      rewrite app_nil_r. reflexivity.
  - reflexivity.
  - unfold run. pose proof (C38_written_text_is_read unum v [] p [] G_nil Hw I) as R. cbn [app] in R. rewrite app_nil_r in R. now rewrite R.
Qed.
End Hooks.

(** ** A session with one hook; the world is what was called *)
Definition log_native (_ : nat) (n : str) (args : list lv) : M (list (str * list lv)) lv :=
  fun s => Ok _ _ nil_v {| hp := hp _ s; world := (n, args) :: world _ s |}.
Definition session : state (list (str * list lv)) :=
  {| hp := [{| parent := None; entries := [(lit "map", LNative (lit "map")); (lit "log", LNative (lit "log")); (lit "sh", LNative (lit "sh"));
                                           (pre_exec, LList [LNative (lit "log")]); (completion, LList [LNative (lit "log")])] |}]; world := [] |}.
Definition called (r : Lisp_Model.res (list (str * list lv)) lv) : option (list (str * list lv)) :=
  match r with Ok _ _ _ s | Err _ _ s => Some (rev (world _ s)) | Fuel _ _ => None end.
Definition hooks_on (name text : str) (extra : list Z) : option (list (str * list lv)) :=
  called (exec_hooks no_num _ log_native (fun w _ _ => w) (fun w _ => w) 20 name text extra session).
Example C92_session_example : hooks_are _ pre_exec [LNative (lit "log")] session /\ Forall function [LNative (lit "log")] /\ hook_name pre_exec /\ plain_text (lit "ls -l 'a b'") /\ Forall i64 [3%Z] /\
  hooks_on pre_exec (lit "ls -l 'a b'") [] = Some [(lit "log", [LStr (lit "ls -l 'a b'")])] /\
  hooks_on completion (lit "ls") [2%Z] = Some [(lit "log", [LStr (lit "ls"); LInt 2])].
Proof.
  split; [split; reflexivity|]. split; [repeat constructor|]. split; [now left|]. split; [split|].
  - vm_compute. intros H. repeat (destruct H as [H|H]; [discriminate|]). exact H.
  - exists (lit "ls -l 'a b"), 39%N. now split.
  - split; [constructor; [|constructor]; unfold i64; lia|]. split; vm_compute; reflexivity.
Qed.
(** echo, a quoted argument: the hook is not called; with a bracket and a quote in it, the
    argument is run and the hook gets something else; so it is on completion *)
Definition dquote : str := [34%N].
Theorem C92_session_refuted :
  hooks_on pre_exec (lit "echo " ++ dquote ++ lit "hi" ++ dquote) [] = Some [] /\
  hooks_on pre_exec (lit "echo " ++ dquote ++ lit "(sh 'rm)'" ++ dquote) [] =
    Some [(lit "sh", [LSym (lit "rm")]); (lit "log", [LStr (lit "echo \"); nil_v; LSym (lit "\" ++ dquote ++ dquote)])] /\
  hooks_on completion (lit "a" ++ dquote ++ lit " (sh 'rm) " ++ dquote) [3%Z] = Some [(lit "sh", [LSym (lit "rm")])].
Proof. split; [|split]; vm_compute; reflexivity. Qed.
Example C92_text_is_run_example : exists vs, escape (lit "(sh 'rm)'" ++ dquote) ++ [34%N] = [] ++ (lit "(sh 'rm)'\" ++ dquote ++ dquote) /\ Items no_num vs (lit "(sh 'rm)'\" ++ dquote ++ dquote) /\ vs <> [].
Proof.
  assert (forall s, last_ascii s -> forallb is_symbolic s = true -> match s with c :: _ => (97 <= c)%N /\ (c < 128)%N \/ c = 92%N | [] => False end -> mem_str (lower s) [lit "nil"; lit "t"; lit "f"] = false -> Name no_num s) as NL.
  { intros s H1 H2 H3 H4. apply Name_text; auto. destruct s as [|c r]; [contradiction|]. exists c, r. split; [reflexivity|]. lia. }
  exists [VList [VSymbol (lit "sh"); VList [VSymbol (lit "quote"); VSymbol (lit "rm")]]; VList [VSymbol (lit "quote"); VSymbol (lit "\" ++ dquote ++ dquote)]].
  split; [reflexivity|]. split; [|discriminate].
  change (lit "(sh 'rm)'\" ++ dquote ++ dquote) with (lit "(sh 'rm)" ++ [] ++ (lit "'\" ++ dquote ++ dquote) ++ []).
  apply I_cons; [|constructor|intros _; right; exists 39%N; eexists; split; [reflexivity|vm_compute; tauto]|].
  - apply (W_list no_num _ [] (lit "sh 'rm")); [constructor|]. change (lit "sh 'rm") with (lit "sh" ++ lit " " ++ lit "'rm" ++ []).
    apply I_cons; [constructor; apply NL|repeat constructor|discriminate|apply I_last; [|constructor]].
    + apply last_ascii_text. reflexivity.
    + reflexivity.
    + left. split; vm_compute; congruence.
    + reflexivity.
    + apply (W_quote no_num _ (lit "rm")). constructor. apply NL; [apply last_ascii_text; reflexivity|reflexivity|left; split; vm_compute; congruence|reflexivity].
  - apply I_last; [|constructor]. apply (W_quote no_num _ (lit "\" ++ dquote ++ dquote)). constructor. apply NL; [apply last_ascii_text; reflexivity|reflexivity|right; reflexivity|reflexivity].
Qed.
Example C92_empty_example : get (hp _ session) 0 [34; 34]%N = None /\ hooks_on completion [] [0%Z] = Some [] /\ ~ ascii 233%N /\ hooks_on pre_exec (lit "caf" ++ [233%N]) [] = Some [].
Proof. split; [reflexivity|]. split; [vm_compute; reflexivity|]. split; [unfold ascii; lia|vm_compute; reflexivity]. Qed.
(** what is looked up in a line with an escaped bracket, and a quoted name that is run *)
Definition looked_up (t : str) : option (list (str * list lv)) := called (run no_num _ log_native (fun w _ _ => w) (fun w _ => w) 20 t session).
Example C93_example :
  map (fun t => (Names_Proofs.token_text (lit "ls\(sh | grep 'x'") t, Highlight_Model.tok_kind t)) (Highlight_Model.highlight (lit "ls\(sh | grep 'x'")) =
    [(lit "ls\(sh", Highlight_Model.KCommand); (lit "|", Highlight_Model.KPipe); (lit "grep", Highlight_Model.KCommand); (lit "'x'", Highlight_Model.KSingle)] /\
  looked_up (lit "ls\(sh") = Some [] /\ looked_up (lit "(sh 1)") = Some [(lit "sh", [LInt 1])] /\ ends_with [92%N] (lit "(sh 1)") = false /\ ~ In 39%N (lit "(sh 1)").
Proof.
  split; [vm_compute; reflexivity|]. split; [vm_compute; reflexivity|]. split; [vm_compute; reflexivity|]. split; [reflexivity|].
  vm_compute. intros H. repeat (destruct H as [H|H]; [discriminate|]). exact H.
Qed.
Print Assumptions C92_hooks_receive_plain_text_partial.
Print Assumptions C92_text_with_quote_refuted.
Print Assumptions C92_text_is_not_run_refuted.
Print Assumptions C92_accented_text_refuted.
Print Assumptions C92_empty_text_refuted.
Print Assumptions C92_session_refuted.
Print Assumptions C93_coloured_commands_are_not_run_partial.
Print Assumptions C93_quoted_name_refuted.
