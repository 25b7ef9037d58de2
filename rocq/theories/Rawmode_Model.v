(** The mode of the terminal, raw while a line is written and not while commands run: dsh/src/shell/eval.rs l.68-112,
    l.205-415, l.521-536, dsh/src/process/job_pty.rs l.18-75, process/job.rs l.143-198, repl/mod.rs (setup, Drop,
    run_interactive), repl/key_handlers/auxiliary.rs l.17-34 and l.82-140, repl/confirmation.rs.

    What commands do and how they end is given with each job; calls that set the mode are taken to succeed.
    crossterm's enable_raw_mode and disable_raw_mode set the flag [raw]; asking twice changes nothing. *)
From Verif Require Import Base.

Inductive list_op := OpNone | OpAnd | OpOr.
(** how a job ends; Failed: it could not be started *)
Inductive end_of_job := Running | Stopped | Completed (code : nat) | Failed.
(** plain, with |>, or with |: and Lisp expressions *)
Inductive kind := Plain | Capture | Structured.
(** [builtin]: the first command is one of the shell's own; [pty]: it may have a terminal of its own and one could be made;
    [process]: has_process; [silent]: nothing was written; [wrong]: a Lisp expression fails *)
Record job := Job { kind_of : kind; foreground : bool; builtin : bool; pty : bool; process : bool; ends : end_of_job; silent : bool; wrong : bool; then_op : list_op }.

Definition should_run (gate : list_op) (code : nat) : bool :=
  match gate with OpNone => true | OpAnd => code =? 0 | OpOr => negb (code =? 0) end.

(** job_pty.rs l.24-45 and l.49-61: the mode while the job runs and after the guard is dropped *)
Definition launch (interactive fg may_pty : bool) (j : job) (raw : bool) : bool * bool :=
  if fg && interactive && (may_pty && pty j) && negb (builtin j) then (true, false) else (raw, raw).

(** eval.rs l.417-500: the exit code *)
Definition capture_code (e : end_of_job) : nat := match e with Running => 0 | Stopped => 130 | Completed c => c | Failed => 0 end.

Inductive flow := Go | Break | Fail.
(** eval.rs l.205-405: one job; the mode while it runs, the mode after, the exit code and what follows *)
Definition run_job (interactive bg : bool) (j : job) (raw : bool) (code : nat) : bool * bool * nat * flow :=
  let back (r : bool) := if interactive then true else r in
  let raw0 := false in                                                    (* l.216 *)
  match kind_of j with
  | Capture =>
      let '(during, r) := launch interactive true false j raw0 in         (* disable_pty, foreground *)
      match ends j with Failed => (during, r, code, Fail) | e => (during, back r, capture_code e, Go) end
  | Structured =>
      if negb (process j) then (raw0, raw0, code, Go)                      (* l.279-283 *)
      else let '(during, r) := launch interactive true false j raw0 in
           match ends j with
           | Failed => (during, r, code, Fail)
           | e => (during, back r, if negb (capture_code e =? 0) && silent j then capture_code e else if wrong j then 1 else capture_code e, Go)
           end
  | Plain =>
      let '(during, r) := launch interactive (foreground j && negb bg) true j raw0 in
      match ends j with
      | Running => (during, back r, 0, Go)
      | Stopped => (during, back r, code, Break)
      | Completed c => (during, back r, c, Go)
      | Failed => (during, back r, code, Fail)
      end
  end.
(** the jobs reached, each with the mode while it ran, and the mode after *)
Fixpoint run_jobs (interactive bg : bool) (gate : list_op) (code : nat) (raw : bool) (js : list job) : list (job * bool) * bool :=
  match js with
  | [] => ([], raw)
  | j :: r =>
      if should_run gate code then
        let '(during, raw', code', f) := run_job interactive bg j raw code in
        match f with
        | Go => let (log, raw'') := run_jobs interactive bg (then_op j) code' raw' r in ((j, during) :: log, raw'')
        | _ => ([(j, during)], raw')
        end
      else run_jobs interactive bg (then_op j) code raw r
  end.

(** eval.rs l.521-536 launch_subshell for one job: disable, run, enable; an error of the fork leaves at once *)
Fixpoint subshells (spawned : list bool) (raw : bool) : bool * bool :=
  match spawned with
  | [] => (true, raw)
  | true :: r => subshells r true
  | false :: _ => (false, false)
  end.

(** a line: for the chat, or with the commands in its substitutions and what the safety check says *)
Inductive verdict := Allowed | Denied | Cancelled.
Inductive line :=
| Chat
| Commands (substitutions : list bool) (parses : bool) (v : verdict) (js : list job).
(** eval.rs eval_str; confirm_action leaves the mode as it found it *)
Definition eval_str (interactive bg : bool) (l : line) (raw : bool) : list (job * bool) * bool :=
  match l with
  | Chat => ([], interactive)                                              (* l.68-112 *)
  | Commands subs parses v js =>
      let (ok, raw1) := subshells subs raw in
      if negb (ok && parses) then ([], raw1)
      else match v with Allowed => run_jobs interactive bg OpNone 0 raw1 js | _ => ([], raw1) end
  end.

(** ** The session *)
Inductive action :=
| Enters (l : line) (bg : bool)      (* Enter; execution.rs; bg: in the background *)
| Palette (ok : bool)                (* auxiliary.rs l.17-34 *)
| Picks                              (* RunInteractive, mod.rs l.992-1045, whatever it gives *)
| Records (entries picked named : bool) (* the macro: whether there is history, whether the picker and the reading of the name succeed; l.82-140 *)
| Diagnoses (shown : bool).          (* Alt+D, Diagnose_Model *)
Record session := Session { raw_of : bool; over : bool }.
Definition act (s : session) (a : action) : session :=
  if over s then s else
  match a with
  | Enters l bg => Session (snd (eval_str true bg l (raw_of s))) false
  | Palette ok => if ok then Session true false else Session false true    (* the loop is left and Repl dropped *)
  | Picks => Session true false
  | Records entries picked named =>
      if negb entries then s else if negb (picked && named) then Session false true else Session true false
  | Diagnoses shown => if shown then Session false false else s
  end.
(** setup, then the keys *)
Definition session_after (h : list action) : session := fold_left act h (Session true false).
(** a script or -c: nothing is set up, and nothing is undone at the end *)
Definition script_after (ls : list line) : bool := fold_left (fun raw l => snd (eval_str false false l raw)) ls false.
