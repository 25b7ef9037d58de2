(** Evaluation of a command line: dsh/src/shell/eval.rs (eval_str), the job loop
    and the safety question.  Launching processes, running Lisp code and the
    hooks' effects are not modelled here: they are an arbitrary state machine
    [W] with oracles.  Terminal mode switching, the window title and printing of
    captured output are left out. *)
From Verif Require Import Base Safety_Model.

(** process/job.rs ListOp *)
Inductive list_op := OpNone | OpAnd | OpOr.

(** the fields of process/job.rs Job that eval_str reads.  The field list_op (the
    separator between this job and the next one) is kept beside the job: a line is
    a list of pairs. *)
Record job := Job {
  cmd : str;
  foreground : bool;
  capture : bool;              (* capture_output: `cmd |>` *)
  sexprs : list str;           (* struct_pipe_exprs: `cmd |: expr` *)
  has_process : bool
}.

(** process/state.rs ProcessState (pid and signal left out) *)
Inductive pstate := PRunning | PStopped | PCompleted (code : nat).

(** what an observer sees *)
Inductive event :=
| EPre (c : str)                       (* pre-exec hooks called *)
| ELaunch (id : nat) (j : job)         (* job handed to the process layer *)
| ELisp (e : str)                      (* struct-pipe expression evaluated *)
| EOut (c : str) (code : nat)          (* entry pushed on the output history *)
| EPost (c : str) (code : nat).        (* post-exec hooks called *)

Section Eval.
  Variable W : Type.
  (** Job::launch; [None] is an error *)
  Variable launch : W -> job -> W * option pstate.
  (** Job::launch inside execute_with_capture: final state and captured stdout *)
  Variable launch_capture : W -> job -> W * option (pstate * str).
  (** lisp_engine.run: [false] is an error *)
  Variable lisp : W -> str -> W * bool.

  Record state := St {
    world : W;
    last : nat;                        (* last_exit_code *)
    gate : list_op;                    (* gate_op *)
    waits : list (nat * job);          (* shell.wait_jobs with their job_id *)
    trace : list event
  }.

  (** shell/mod.rs l.197-205 get_job_id *)
  Definition get_job_id (w : list (nat * job)) : nat :=
    match rev w with [] => 1 | (i, _) :: _ => S i end.

  (** l.195-199 should_run *)
  Definition should_run (g : list_op) (code : nat) : bool :=
    match g with OpNone => true | OpAnd => code =? 0 | OpOr => negb (code =? 0) end.

  (** l.488-492 *)
  Definition capture_code (p : pstate) : nat :=
    match p with PCompleted c => c | PStopped => 130 | PRunning => 0 end.

  (** l.316-340: the expressions one after the other, stopping at an error *)
  Fixpoint run_lisp (w : W) (es : list str) : W * bool * list event :=
    match es with
    | [] => (w, true, [])
    | e :: rest =>
        let (w', ok) := lisp w e in
        if ok then let '(w'', r, t) := run_lisp w' rest in (w'', r, ELisp e :: t)
        else (w', false, [ELisp e])
    end.

  Inductive flow := Go | Break | Fail.   (* next iteration / `break` / `return Err` *)

  (** l.186-408: one iteration of the job loop.  [bg] is force_background. *)
  Definition iter (bg : bool) (s : state) (jo : job * list_op) : state * flow :=
    let (j0, next) := jo in
    if negb (should_run (gate s) (last s)) then
      (St (world s) (last s) next (waits s) (trace s), Go)
    else
      let t0 := trace s ++ [EPre (cmd j0)] in
      let j := if bg then Job (cmd j0) false (capture j0) (sexprs j0) (has_process j0) else j0 in
      let id := get_job_id (waits s) in
      if capture j then
        let (w, r) := launch_capture (world s) j in
        match r with
        | None => (St w (last s) (gate s) (waits s) (t0 ++ [ELaunch id j]), Fail)
        | Some (p, _) =>
            let c := capture_code p in
            (St w c next (waits s) (t0 ++ [ELaunch id j; EOut (cmd j) c; EPost (cmd j) c]), Go)
        end
      else match sexprs j with
      | [] =>
          let (w, r) := launch (world s) j in
          match r with
          | Some PRunning => (St w 0 next (waits s ++ [(id, j)]) (t0 ++ [ELaunch id j]), Go)
          | Some PStopped => (St w (last s) next (waits s ++ [(id, j)]) (t0 ++ [ELaunch id j]), Break)
          | Some (PCompleted c) => (St w c next (waits s) (t0 ++ [ELaunch id j; EPost (cmd j) c]), Go)
          | None => (St w (last s) (gate s) (waits s) (t0 ++ [ELaunch id j]), Fail)
          end
      | es =>
          if negb (has_process j) then (St (world s) (last s) next (waits s) t0, Go)
          else
            let (w, r) := launch_capture (world s) j in
            match r with
            | None => (St w (last s) (gate s) (waits s) (t0 ++ [ELaunch id j]), Fail)
            | Some (p, out) =>
                let c := capture_code p in
                if negb (c =? 0) && str_eqb out [] then
                  (St w c next (waits s) (t0 ++ [ELaunch id j]), Go)
                else
                  let '(w', ok, t) := run_lisp w es in
                  let c' := if ok then c else 1 in
                  (St w' c' next (waits s) (t0 ++ [ELaunch id j] ++ t ++ [EPost (cmd j) c']), Go)
            end
      end.

  (** l.189-412: the loop and the returned value ([None] is Err) *)
  Fixpoint loop (bg : bool) (s : state) (jobs : list (job * list_op)) : state * option nat :=
    match jobs with
    | [] => (s, Some (last s))
    | j :: rest =>
        let (s', f) := iter bg s j in
        match f with
        | Go => loop bg s' rest
        | Break => (s', Some (last s'))
        | Fail => (s', None)
        end
    end.

  (** l.185-188 *)
  Definition run_jobs (bg : bool) (w : W) (wt : list (nat * job)) (jobs : list (job * list_op)) : state * option nat :=
    loop bg (St w 0 OpNone wt []) jobs.

  (** l.120-413: the safety question, then the loop.  [ask] is the answer of
      repl/confirmation.rs confirm_action.  Result: final state, allowlist,
      value, and whether the question was asked. *)
  Record outcome := Outcome {
    final : state; allowlist : list str; value : option nat; asked : bool
  }.
  Definition eval_jobs (bg : bool) (w : W) (wt : list (nat * job)) (lv : level) (allow : list str)
      (ask : answer) (jobs : list (job * list_op)) : outcome :=
    let still := St w 0 OpNone wt [] in
    match check_jobs (map (fun jo => cmd (fst jo)) jobs) lv allow with
    | Allowed => let (s, r) := run_jobs bg w wt jobs in Outcome s allow r false
    | Denied _ => Outcome still allow (Some 1) false
    | Confirm _ =>
        match ask with
        | Yes => let (s, r) := run_jobs bg w wt jobs in Outcome s allow r true
        | AlwaysAllow =>
            let allow' := allow ++ map (fun jo => cmd (fst jo)) jobs in
            let (s, r) := run_jobs bg w wt jobs in Outcome s allow' r true
        | No | AskFailed => Outcome still allow (Some 130) true
        end
    end.
End Eval.
