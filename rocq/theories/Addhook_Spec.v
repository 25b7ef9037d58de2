(** What hooks are for: each function in the list is called with the text and the number of the
    event. *)
From Verif Require Import Base Lread_Model Lread_Spec Lisp_Model Lisp_Spec Hooks_Model Hooks_Spec Addhook_Model.

(** the arguments a hook should get *)
Definition text_of (e : event) : option str :=
  match e with PrePrompt | InputTimeout | Chdir => None | PreExec c | Project c | NotFound c | PostExec c _ | Completion c _ => Some c end.
Definition number_of (e : event) : option Z := match e with PostExec _ n | Completion _ n => Some n | _ => None end.
Definition arguments (e : event) : list value :=
  match text_of e with Some c => [VString c] | None => [] end ++ match number_of e with Some n => [VInt n] | None => [] end.
(** the expression that makes the calls *)
Definition the_map (e : event) (args : list value) : value :=
  VList [VSymbol (lit "map"); VList [VSymbol (lit "lambda"); VList [VSymbol (lit "hook")]; VList (VSymbol (lit "hook") :: args)]; VSymbol (hook_list e)].
Definition expression (e : event) (args : list value) : value :=
  match e with
  | Chdir | Project _ => VList [VSymbol (lit "when"); VList [VSymbol (lit "bound?"); VList [VSymbol (lit "quote"); VSymbol (hook_list e)]]; the_map e args]
  | NotFound _ => VList [VSymbol (lit "let"); VList [VList [VSymbol (lit "results"); the_map e args]];
                         VList [VSymbol (lit "filter"); VList [VSymbol (lit "lambda"); VList [VSymbol (lit "r")]; VSymbol (lit "r")]; VSymbol (lit "results")]]
  | _ => the_map e args
  end.

(** texts that get through: not empty, no double quote, and the last character is ASCII *)
Definition clean (c : str) : Prop := last_ascii c /\ ~ In 34%N c.
(** the text is clean and the number fits *)
Definition carried (e : event) : Prop := (forall c, text_of e = Some c -> clean c) /\ (forall n, number_of e = Some n -> i64 n).

(** the hooks are functions, and map and bound? mean what they mean at the start *)
Definition hooks_set {W} (e : event) (hooks : list lv) (s : state W) : Prop :=
  hooks_are W (hook_list e) hooks s /\ get (hp W s) 0 (lit "bound?") = Some (LNative (lit "bound?")).
(** what a call leaves behind *)
Definition state_left {W A} (r : Lisp_Model.res W A) : option (state W) := match r with Ok _ _ _ s | Err _ _ s => Some s | Fuel _ _ => None end.
(** the event has its own expression: a command that is not found *)
Definition listed_event (e : event) : Prop := match e with NotFound _ => False | _ => True end.
