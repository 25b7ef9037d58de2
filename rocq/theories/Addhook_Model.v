(** Registering hooks and the texts of all of them: dsh/src/shell/hooks.rs, add-hook, bound? and
    the hook variables of dsh/src/lisp/default_environment.rs, and is_bound_nonempty_list of
    dsh/src/lisp/mod.rs.

    As in Hooks_Model, the text of a Lisp expression is built and given to the reader and the
    evaluator; an error is only logged.  The number of the outermost frame is 0. *)
From Verif Require Import Base Lread_Model Lisp_Model Hooks_Model.

(** the moments at which hooks are run: the functions of hooks.rs l.10-217 *)
Inductive event :=
| PrePrompt | InputTimeout | Chdir
| PreExec (command : str)
| PostExec (command : str) (exit_code : Z)
| Completion (input : str) (cursor : Z)
| Project (name : str)
| NotFound (command : str).
(** the variable that holds the functions *)
Definition hook_list (e : event) : str :=
  match e with
  | PrePrompt => lit "*pre-prompt-hooks*" | InputTimeout => lit "*input-timeout-hooks*" | Chdir => lit "*on-chdir-hooks*"
  | PreExec _ => lit "*pre-exec-hooks*" | PostExec _ _ => lit "*post-exec-hooks*" | Completion _ _ => lit "*completion-hooks*"
  | Project _ => lit "*on-project-switch-hooks*" | NotFound _ => lit "*command-not-found-hooks*"
  end.
(** what is written behind [hook] in the call *)
Definition call_text (e : event) : str :=
  let string s := lit " " ++ 34%N :: escape s ++ [34%N] in
  match e with
  | PrePrompt | InputTimeout | Chdir => []
  | PreExec c | Project c | NotFound c => string c
  | PostExec c n | Completion c n => string c ++ lit " " ++ show_int n
  end.
Definition map_text (e : event) : str := lit "(map (lambda (hook) (hook" ++ call_text e ++ lit ")) " ++ hook_list e ++ lit ")".
(** the format! strings: l.27, 48-51, 84, 107-110, 128-132, 150-154, 181-185, 210 *)
Definition lisp_code (e : event) : str :=
  match e with
  | Chdir | Project _ => lit "(when (bound? '" ++ hook_list e ++ lit ") " ++ map_text e ++ lit ")"
  | NotFound _ => lit "(let ((results " ++ map_text e ++ lit "))" ++ 10%N :: lit "          (filter (lambda (r) r) results))"
  | _ => map_text e
  end.

(** default_environment.rs l.211-241: the hook variables that exist at the start, each the empty list *)
Definition hook_variables : list str :=
  [lit "*pre-prompt-hooks*"; lit "*pre-exec-hooks*"; lit "*post-exec-hooks*"; lit "*on-chdir-hooks*"; lit "*command-not-found-hooks*";
   lit "*completion-hooks*"; lit "*input-timeout-hooks*"].

Section Run.
Variable unum : char -> bool.
Variable W : Type.
(** the native functions modelled nowhere *)
Variable other : nat -> str -> list lv -> M W lv.
Variable set_variable : W -> str -> lv -> W.
Variable add_autocomplete : W -> list lv -> W.

(** default_environment.rs l.244-293 *)
Definition add_hook (env : nat) (args : list lv) : M W lv := fun s =>
  match args with
  | [LSym name; f] =>
      let var := lit "*" ++ name ++ lit "*" in
      match get (hp W s) env var with
      | Some (LList l) =>
          match set (hp W s) env var (LList (f :: l)) with
          | Some h => Ok W _ nil_v {| hp := h; world := world W s |}
          | None => Ok W _ nil_v {| hp := define (hp W s) env var (LList (f :: l)); world := world W s |}
          end
      | _ => Err W _ s
      end
  | _ => Err W _ s
  end.
(** l.296-312 *)
Definition bound (env : nat) (args : list lv) : M W lv := fun s =>
  match args with
  | [LSym name] => Ok W _ (match get (hp W s) env name with Some _ => LTrue | None => nil_v end) s
  | _ => Err W _ s
  end.
Definition native (env : nat) (n : str) (args : list lv) : M W lv :=
  if str_eqb n (lit "add-hook") then add_hook env args
  else if str_eqb n (lit "bound?") then bound env args
  else other env n args.
(** lisp/mod.rs is_bound_nonempty_list *)
Definition nonempty_list (s : state W) (name : str) : bool := match get (hp W s) 0 name with Some (LList (_ :: _)) => true | _ => false end.
(** an error is only logged; [None]: out of fuel *)
Definition logged {A} (r : res W A) : option (state W) := match r with Ok _ _ _ s | Err _ _ s => Some s | Fuel _ _ => None end.
(** hooks.rs: the Lisp part of each function; Chdir and Project have no fast path *)
Definition fire (fuel : nat) (e : event) (s : state W) : option (state W) :=
  match e with
  | Chdir | Project _ => logged (run unum W native set_variable add_autocomplete fuel (lisp_code e) s)
  | _ => if nonempty_list s (hook_list e) then logged (run unum W native set_variable add_autocomplete fuel (lisp_code e) s) else Some s
  end.
End Run.
