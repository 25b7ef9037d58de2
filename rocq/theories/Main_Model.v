(** Starting and leaving the shell: dsh/src/lib.rs (what the arguments select, `-c`,
    `-l`, a script on standard input), the builtin exit of dsh-builtin/src/lib.rs and
    the part of the loop of dsh/src/repl/mod.rs that decides when the session ends.
    Not modelled: loading of the history and of config.lisp at the start, the
    notebook, the AI service, signals and the terminal. *)
From Coq Require Import ZArith.
From Verif Require Import Base Eval_Model Jobs_Model.

(** lib.rs l.68-97 Cli: the arguments that select what is run (--notebook left out) *)
Record cli := Cli {
  import : option str;        (* the subcommand: the shell imported from *)
  lisp_arg : option str;      (* -l *)
  command_arg : option str    (* -c *)
}.

Inductive way := ByImport (sh : str) | ByLisp (e : str) | ByCommand (c : str) | ByInput.

(** lib.rs l.118-257 run_shell: the order in which the arguments are looked at *)
Definition selected (c : cli) : way :=
  match import c with
  | Some sh => ByImport sh
  | None =>
      match lisp_arg c with
      | Some e => ByLisp e
      | None => match command_arg c with Some t => ByCommand t | None => ByInput end
      end
  end.

(** dsh-builtin/src/lib.rs l.749-753 exit and shell/mod.rs l.155-157: the arguments
    are not looked at; [mark] sets shell.exited *)
Definition exit_builtin {W} (mark : W -> W) (argv : list str) (w : W) : W * exit_status :=
  (mark w, ExitedWith 0).

(** the state of a job as shell/eval.rs sees it (Completed of a u8) *)
Definition seen (s : pst) : option Eval_Model.pstate :=
  match s with
  | Jobs_Model.Completed c _ => Some (PCompleted c)
  | _ => None
  end.

Section Run.
  Variable W : Type.
  (** shell/eval.rs eval_str (see Eval_Model): the new state and the code, [None] an error *)
  Variable eval : W -> str -> W * option nat.
  (** lisp_engine.run: [None] an error; otherwise the text of the value, [None] for NIL *)
  Variable lisp : W -> str -> W * option (option str).

  (** what is written where the user sees it *)
  Inductive line_out := Value (t : str) | Trouble (line : str) | Unreadable.

  (** lib.rs l.567-581: the status of `dsh -c`; the code is clamped to 0..255 *)
  Definition command_mode (w : W) (c : str) : W * nat :=
    match eval w c with
    | (w', Some code) => (w', Nat.min code 255)
    | (w', None) => (w', 1)
    end.

  (** lib.rs l.584-607 execute_lisp (writing to standard output does not fail) *)
  Definition lisp_mode (w : W) (e : str) : W * nat * list line_out :=
    match lisp w e with
    | (w', Some None) => (w', 0, [])
    | (w', Some (Some t)) => (w', 0, [Value t])
    | (w', None) => (w', 1, [Trouble e])
    end.

  (** lib.rs l.649-679: the lines of a script on standard input; a line that cannot be
      read (it is not UTF-8, or reading fails) is [None].  Beside the new state: the
      texts evaluated, and what is written. *)
  Fixpoint script (w : W) (lines : list (option str)) : W * list str * list line_out :=
    match lines with
    | [] => (w, [], [])
    | None :: _ => (w, [], [Unreadable])
    | Some l :: rest =>
        let t := trim l in
        if str_eqb t [] then script w rest
        else if str_eqb t (lit "exit") then (w, [], [])
        else
          let (w1, r) := eval w t in
          let '(w2, ran, out) := script w1 rest in
          (w2, t :: ran, match r with Some _ => out | None => Trouble t :: out end)
    end.

  (** lib.rs l.609-619 and l.643-680: `cd .` comes first *)
  Definition script_mode (w : W) (lines : list (option str)) : W * list str * list line_out * nat :=
    match eval w (lit "cd .") with
    | (w1, None) => (w1, [], [Trouble (lit "cd .")], 1)
    | (w1, Some _) => let '(w2, ran, out) := script w1 lines in (w2, ran, out, 0)
    end.
End Run.

(** the state of repl/mod.rs Repl read by the end of its loop.  [jobs] are the jobs of
    shell.wait_jobs, [time] is last_command_time (the number of commands timed so far:
    two instants are never equal). *)
Record repl := Repl {
  jobs : list nat;
  exited : bool;              (* shell.exited.is_some() *)
  should_exit : bool;
  warned : bool;              (* stopped_jobs_warned *)
  time : nat
}.

(** what one turn of the loop waits for (the branches of select!) *)
Inductive input :=
| Enter (ran : bool)          (* Enter; [ran]: a command was evaluated (the line is not empty,
                                 not unfinished, not an AI pipe, and the terminal answers) *)
| Background                  (* Alt+Enter: the line is run in the background *)
| Interrupt (second : bool)   (* Ctrl+C; [second]: the second within three seconds *)
| Other                       (* another key, or a branch that is no key *)
| Broken.                     (* no more keys, or an error *)

(** a turn: its input, whether the builtin exit was run in it, and the jobs waiting after it *)
Record turn := Turn { got : input; exit_ran : bool; waiting : list nat }.

Inductive verdict := Stays | Warns | Leaves.

(** execution.rs l.206 (handle_execute sets last_command_time; handle_execute_background,
    l.226-301, does not), l.308-321 handle_interrupt; [debug] is cfg!(debug_assertions) *)
Definition handle (debug : bool) (r : repl) (t : turn) : repl :=
  let ex := exited r || exit_ran t in
  match got t with
  | Enter true => Repl (waiting t) ex (should_exit r) (warned r) (S (time r))
  | Interrupt second => Repl (waiting t) ex (should_exit r || (debug && second)) (warned r) (time r)
  | _ => Repl (waiting t) ex (should_exit r) (warned r) (time r)
  end.

(** mod.rs l.1071-1072: the warning is forgotten if a command was timed in this turn *)
Definition forget (old : nat) (r : repl) : repl :=
  if negb (time r =? old) then Repl (jobs r) (exited r) (should_exit r) false (time r) else r.

(** mod.rs l.1107-1123 *)
Definition decide (r : repl) : repl * verdict :=
  if should_exit r || exited r then
    match jobs r with
    | [] => (r, Leaves)
    | _ :: _ =>
        if warned r then (r, Leaves)
        else (Repl (jobs r) false false true (time r), Warns)
    end
  else (r, Stays).

(** one turn of the loop, mod.rs l.700-1123 *)
Definition turn_of (debug : bool) (r : repl) (t : turn) : repl * verdict :=
  match got t with
  | Broken => (Repl (waiting t) (exited r) (should_exit r) (warned r) (time r), Leaves)
  | _ => decide (forget (time r) (handle debug r t))
  end.

(** a session: the verdicts of its turns, up to the one that leaves; and the jobs
    killed then (mod.rs l.1125 kill_wait_jobs, shell/job.rs l.201-208: a failure to kill
    a process is only logged, process/signal.rs l.65-75) *)
Fixpoint session (debug : bool) (r : repl) (ts : list turn) : list verdict * option (list nat) :=
  match ts with
  | [] => ([], None)
  | t :: rest =>
      match turn_of debug r t with
      | (r', Leaves) => ([Leaves], Some (jobs r'))
      | (r', v) => let (vs, k) := session debug r' rest in (v :: vs, k)
      end
  end.

(** mod.rs l.296-307 *)
Definition fresh : repl := Repl [] false false false 0.
