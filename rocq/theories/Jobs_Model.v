(** Job control: dsh/src/process/{state,job_process,process,builtin,wait,job,
    job_wait,job_pty}.rs, dsh/src/shell/job.rs, dsh/src/proxy/builtin/jobs.rs.

    A pipeline (JobProcess linked through [next]) is the list of its stages; the
    empty list is [Job::process = None].  Pids, process groups and signals are
    numbers.  Output monitors, terminal ownership (tcsetpgrp) and messages are
    left out: they never change a job's state or the job table. *)
From Verif Require Import Base.
From Verif Require Export Numerals.

Definition pid := nat.
Definition signal := nat.
Definition SIGINT : signal := 2.
Definition SIGKILL : signal := 9.
Definition SIGTERM : signal := 15.
Definition SIGCONT : signal := 18.

(** process/state.rs l.5-9 ProcessState *)
Inductive pst := Running | Completed (code : nat) (sig : option signal) | Stopped (p : pid) (sig : signal).

(** process/process.rs l.28-40 Process and process/builtin.rs l.13-25
    BuiltinProcess: the fields job control reads.  A BuiltinProcess' [pid] is the
    shell's own pid in the foreground. *)
Record proc := Proc { builtin : bool; ppid : option pid; pstate : pst }.

(** process/job.rs l.22-47 Job: the fields job control reads *)
Record job := Job {
  jid : nat; jpgid : option pid; jfg : bool; jprocs : list proc; jstate : pst
}.

Definition set_pst (p : proc) (s : pst) : proc := Proc (builtin p) (ppid p) s.
Definition set_procs (j : job) (ps : list proc) : job := Job (jid j) (jpgid j) (jfg j) ps (jstate j).
Definition set_jstate (j : job) (s : pst) : job := Job (jid j) (jpgid j) (jfg j) (jprocs j) s.

(** job_process.rs l.157-165 is_stopped *)
Fixpoint is_stopped (ps : list proc) : bool :=
  match ps with
  | [] => true
  | p :: rest => match pstate p with Running => false | _ => is_stopped rest end
  end.

(** job_process.rs l.167-180 is_completed *)
Fixpoint is_completed (ps : list proc) : bool :=
  match ps with
  | [] => true
  | p :: rest => match pstate p with Completed _ _ => is_completed rest | _ => false end
  end.

(** job_process.rs l.185-202 is_pipeline_consumer_terminated *)
Fixpoint consumer_terminated (ps : list proc) : bool :=
  match ps with
  | [] => false
  | _ :: rest =>
      consumer_terminated rest ||
      match rest with
      | q :: _ => match pstate q with Completed 0 None => true | _ => false end
      | [] => false
      end
  end.

(** job_process.rs l.205-216 has_stopped_process *)
Fixpoint has_stopped (ps : list proc) : bool :=
  match ps with
  | [] => false
  | p :: rest => match pstate p with Stopped _ _ => true | _ => has_stopped rest end
  end.

(** wait.rs l.24-92 is_job_completed *)
Definition is_job_completed (j : job) : bool :=
  match jprocs j with
  | [] => true
  | ps => is_completed ps || (consumer_terminated ps && negb (has_stopped ps))
  end.

(** wait.rs l.8-22 is_job_stopped *)
Definition is_job_stopped (j : job) : bool := is_stopped (jprocs j).

(** job.rs l.49-61 and l.134-141 last_process_state *)
Fixpoint last_state (ps : list proc) : pst :=
  match ps with
  | [] => Completed 0 None
  | [p] => pstate p
  | _ :: rest => last_state rest
  end.

Definition pid_is (o : option pid) (q : pid) : bool :=
  match o with Some p => p =? q | None => false end.

(** process.rs l.75-88 Process::set_state, builtin.rs l.70-84
    BuiltinProcess::set_state (which looks at its own pid only when there is a
    next stage, and after the later stages), job_process.rs l.131 *)
Fixpoint set_state (ps : list proc) (q : pid) (s : pst) : list proc * bool :=
  match ps with
  | [] => ([], false)
  | p :: rest =>
      if builtin p then
        match rest with
        | [] => (ps, false)
        | _ =>
            let (rest', found) := set_state rest q s in
            if found then (p :: rest', true)
            else if pid_is (ppid p) q then (set_pst p s :: rest', true)
            else (p :: rest', false)
        end
      else if pid_is (ppid p) q then (set_pst p s :: rest, true)
      else let (rest', found) := set_state rest q s in (p :: rest', found)
  end.

(** job.rs l.378-382 set_process_state *)
Definition set_process_state (j : job) (q : pid) (s : pst) : job :=
  set_procs j (fst (set_state (jprocs j) q s)).

(** dsh-types ExitStatus as a builtin returns it *)
Inductive exit_status := ExitedWith (c : Z) | StillRunning | Control.

(** builtin.rs l.97-121 BuiltinProcess::launch: the state the stage is given *)
Definition builtin_state (e : exit_status) : pst :=
  match e with
  | ExitedWith c => if (0 <=? c)%Z then Completed 1 None else Completed 0 None
  | StillRunning => Running
  | Control => Completed 0 None
  end.

(** ** The operating system

    What the kernel knows of each child: no such child (never was, or already
    waited for), running, stopped (with or without the stop having been reported
    to the parent), terminated but not yet waited for. *)
Inductive kproc :=
| KGone | KRunning | KStopped (sig : signal) (reported : bool) | KExited (code : nat) | KKilled (sig : signal).
Definition kern := pid -> kproc.
Definition kset (k : kern) (p : pid) (s : kproc) : kern := fun q => if q =? p then s else k q.

(** wait.rs l.94-158 wait_pid_job with no_hang = true: waitpid(pid,
    WUNTRACED|WNOHANG).  `status as u8` is reduction modulo 256. *)
Definition wait_pid_job (k : kern) (p : pid) : kern * option pst :=
  match k p with
  | KGone => (k, Some (Completed 1 None))                    (* ECHILD *)
  | KRunning => (k, None)                                    (* StillAlive *)
  | KStopped sg false => (kset k p (KStopped sg true), Some (Stopped p sg))
  | KStopped sg true => (k, None)                            (* StillAlive *)
  | KExited c => (kset k p KGone, Some (Completed (c mod 256) None))
  | KKilled sg => (kset k p KGone, Some (Completed 1 (Some sg)))
  end.

(** process.rs l.398-414, builtin.rs l.123-129, job_process.rs l.408-413
    update_state *)
Fixpoint update_state (k : kern) (ps : list proc) : kern * list proc * option pst :=
  match ps with
  | [] => (k, [], None)
  | p :: rest =>
      if builtin p then
        let '(k', rest', r) := update_state k rest in (k', p :: rest', r)
      else
        match pstate p with
        | Completed _ _ => (k, ps, Some (pstate p))
        | _ =>
            let (k1, s) :=
              match ppid p with
              | Some q =>
                  let (k1, r) := wait_pid_job k q in
                  (k1, match r with Some s => s | None => pstate p end)
              | None => (k, pstate p)
              end in
            let '(k2, rest', _) := update_state k1 rest in
            (k2, set_pst p s :: rest', Some s)
        end
  end.

(** job.rs l.398-454 update_status: new kernel, new job, "is completed" *)
Definition update_status (k : kern) (j : job) : kern * job * bool :=
  let '(k', ps', r) := update_state k (jprocs j) in
  let j' := Job (jid j) (jpgid j) (jfg j) ps' (match r with Some s => s | None => jstate j end) in
  (k', j', is_job_completed j').

(** shell/job.rs l.139-162: one job of the first pass of check_job_state.
    Simplified: the kernel does not move between the two updates. *)
Definition poll_job (k : kern) (j : job) : kern * job :=
  let '(k1, j1, done) := update_status k j in
  if negb done && negb (jfg j1) then
    let '(k2, j2, _) := update_status k1 j1 in (k2, j2)
  else (k1, j1).

Fixpoint poll_all (k : kern) (js : list job) : kern * list job :=
  match js with
  | [] => (k, [])
  | j :: rest =>
      let (k1, j1) := poll_job k j in
      let (k2, rest') := poll_all k1 rest in
      (k2, j1 :: rest')
  end.

Definition state_completed (s : pst) : bool := match s with Completed _ _ => true | _ => false end.
Definition state_stopped (s : pst) : bool := match s with Stopped _ _ => true | _ => false end.

(** shell/job.rs l.123-199 check_job_state: kernel, remaining table, jobs
    reported as completed *)
Definition check_job_state (k : kern) (js : list job) : kern * list job * list job :=
  let (k', js') := poll_all k js in
  let (completed, active) := partition (fun j => state_completed (jstate j)) js' in
  (k', active, completed).

(** shell/mod.rs l.197-205 get_job_id *)
Definition next_id (js : list job) : nat :=
  match rev js with [] => 1 | j :: _ => S (jid j) end.

(** ** Waiting for a foreground job *)

(** the results of waitpid(None, WUNTRACED|WNOHANG) *)
Inductive wev :=
| WExited (p : pid) (status : nat) | WSignaled (p : pid) (sg : signal) | WStopped (p : pid) (sg : signal)
| WStillAlive | WEchild | WEintr | WUnexpected.

(** what the loop asks the kernel to do: killpg(pgid, signal), or kill(pid) when
    there is no process group *)
Inductive outcome := Waiting | DoneCompleted | DoneConsumer | DoneStopped | DoneNoChild | DoneUnexpected.

Definition event_state (e : wev) : option (pid * pst) :=
  match e with
  | WExited p st => Some (p, Completed (st mod 256) None)
  | WSignaled p sg => Some (p, Completed 1 (Some sg))
  | WStopped p sg => Some (p, Stopped p sg)
  | _ => None
  end.

Definition to_group (j : job) (sg : signal) : list (pid * signal) :=
  match jpgid j with Some g => [(g, sg)] | None => [] end.

(** job_wait.rs l.372-469 wait_process_no_hang_sync; l.266-370
    wait_process_no_hang is the same with output monitors.  Each iteration
    consumes whether a SIGINT had arrived and what waitpid returned, so the list
    is an arbitrary schedule.  [termok] is the result of killpg(SIGTERM) (l.446).
    Simplified: forwarding SIGINT to a job without process group (l.381-384, its
    first pid) is left out. *)
Fixpoint wait_loop (termok : bool) (sent : bool) (j : job) (evs : list (bool * wev))
  : job * list (pid * signal) * outcome :=
  match evs with
  | [] => (j, [], Waiting)
  | (int, e) :: rest =>
      let s0 := if int then to_group j SIGINT else [] in
      match event_state e with
      | None =>
          match e with
          | WStillAlive | WEintr =>
              let '(j', ss, o) := wait_loop termok sent j rest in (j', s0 ++ ss, o)
          | WEchild => (j, s0, DoneNoChild)
          | _ => (j, s0, DoneUnexpected)
          end
      | Some (p, st) =>
          let j1 := set_process_state j p st in
          let kill := match st with
                      | Completed (S _) _ => negb sent && match jpgid j with Some _ => true | None => false end
                      | _ => false
                      end in
          let s1 := s0 ++ (if kill then to_group j SIGKILL else []) in
          if is_job_completed j1 then (j1, s1, DoneCompleted)
          else if consumer_terminated (jprocs j1) && negb (is_completed (jprocs j1)) then
            (j1, s1 ++ to_group j SIGTERM ++ (if termok then to_group j SIGKILL else []), DoneConsumer)
          else if is_job_stopped j1 then (j1, s1, DoneStopped)
          else
            let '(j', ss, o) := wait_loop termok (sent || kill) j1 rest in (j', s1 ++ ss, o)
      end
  end.

(** ** fg, bg and job designators *)

Fixpoint index_of (f : job -> bool) (i : nat) (js : list job) : option nat :=
  match js with
  | [] => None
  | j :: rest => if f j then Some i else index_of f (S i) rest
  end.

(** proxy/builtin/jobs.rs l.22-67 parse_job_spec *)
Definition parse_job_spec (spec : str) (js : list job) : option nat :=
  let newest := match js with [] => None | _ => Some (length js - 1) end in
  match spec with
  | [] => newest
  | _ =>
      let s := trim spec in
      if str_eqb s (lit "%+") || str_eqb s (lit "+") then newest
      else if str_eqb s (lit "%-") || str_eqb s (lit "-") then
        if length js <? 2 then None else Some (length js - 2)
      else
        let d := match s with c :: s' => if (c =? chr "%")%N then s' else s | [] => s end in
        match parse_usize d with
        | Some n => index_of (fun j => (N.of_nat (jid j) =? n)%N) 0 js
        | None => None
        end
  end.

Fixpoint remove_at (i : nat) (js : list job) : list job :=
  match js, i with
  | [], _ => []
  | _ :: rest, 0 => rest
  | j :: rest, S i' => j :: remove_at i' rest
  end.

(** jobs.rs l.95-189 execute_fg.  [evs] is what the wait loop sees, [contok]
    whether sending SIGCONT succeeded.  Result: job table, the job that was
    waited for in its final form, signals sent, and success.  The terminal is a
    tty (job_wait.rs l.81). *)
Definition execute_fg (termok contok : bool) (spec : str) (evs : list (bool * wev)) (js : list job)
  : list job * option job * list (pid * signal) * bool :=
  match js with
  | [] => (js, None, [], true)
  | _ =>
      match parse_job_spec spec js with
      | None => (js, None, [], false)
      | Some i =>
          match nth_error js i with
          | None => (js, None, [], false)       (* Vec::remove would panic; never happens, see proofs *)
          | Some j =>
              let table := remove_at i js in
              let cont := state_stopped (jstate j) in
              let j1 := set_jstate j Running in
              (* job_wait.rs l.75-133 put_in_foreground_sync: kill(pgid, SIGCONT), one process *)
              let c := match jpgid j with Some g => if cont then [(g, SIGCONT)] else [] | None => [] end in
              if match c with [] => false | _ => negb contok end then (table, Some j1, c, false)
              else
                let '(j2, ss, _) := wait_loop termok false j1 evs in (table, Some j2, c ++ ss, true)
          end
      end
  end.

Fixpoint last_index (f : job -> bool) (i : nat) (js : list job) : option nat :=
  match js with
  | [] => None
  | j :: rest =>
      match last_index f (S i) rest with
      | Some n => Some n
      | None => if f j then Some i else None
      end
  end.

(** jobs.rs l.194-329 execute_bg: table, signals sent to a group, success *)
Definition execute_bg (contok : bool) (spec : str) (js : list job) : list job * list (pid * signal) * bool :=
  match js with
  | [] => (js, [], true)
  | _ =>
      let idx := match spec with
                 | [] => last_index (fun j => state_stopped (jstate j)) 0 js
                 | _ => parse_job_spec spec js
                 end in
      match idx with
      | None => (js, [], false)
      | Some i =>
          match nth_error js i with
          | None => (js, [], false)             (* indexing would panic; never happens, see proofs *)
          | Some j =>
              if negb (state_stopped (jstate j)) then (js, [], false)
              else
                let table := remove_at i js in
                match jpgid j with
                | Some g =>
                    if contok then (table ++ [set_jstate j Running], [(g, SIGCONT)], true)
                    else (table, [(g, SIGCONT)], false)
                | None => (table ++ [set_jstate j Running], [], true)
                end
          end
      end
  end.

(** eval.rs l.360-375: a launched job that is still running or stopped enters the
    table; its number was chosen before (l.227).  job.rs l.143-196: it is pushed
    in the background right after launch, or in the foreground after the wait
    loop. *)
Definition launch_bg (js : list job) (g : option pid) (ps : list proc) : list job :=
  js ++ [Job (next_id js) g false ps (match rev ps with p :: _ => pstate p | [] => Running end)].
Definition launch_fg (termok : bool) (js : list job) (g : option pid) (ps : list proc) (evs : list (bool * wev))
  : list job * list (pid * signal) * pst :=
  let j := Job (next_id js) g true ps (match rev ps with p :: _ => pstate p | [] => Running end) in
  let '(j', ss, _) := wait_loop termok false j evs in
  let st := last_state (jprocs j') in
  (match st with Completed _ _ => js | _ => js ++ [j'] end, ss, st).

(** shell/job.rs l.110-121 terminate_background_jobs.  [Job::pid] is the pid of
    the first stage. *)
Definition job_pid (j : job) : option pid := match jprocs j with p :: _ => ppid p | [] => None end.
Definition terminate_background (js : list job) : list (pid * signal) :=
  flat_map (fun j => if jfg j then [] else match job_pid j with Some p => [(p, SIGTERM)] | None => [] end) js.

(** signal.rs l.61-88 kill_process, job_process.rs l.380-391, shell/job.rs
    l.201-208 kill_wait_jobs: SIGKILL to every external stage of every job.
    A failing kill is only logged. *)
Definition kill_stages (ps : list proc) : list (pid * signal) :=
  flat_map (fun p => if builtin p then [] else match ppid p with Some q => [(q, SIGKILL)] | None => [] end) ps.
Definition kill_wait_jobs (js : list job) : list (pid * signal) :=
  flat_map (fun j => kill_stages (jprocs j)) js.

(** ** Histories: what a session does to the job table *)
Inductive op :=
| OLaunchBg (g : option pid) (ps : list proc)
| OLaunchFg (termok : bool) (g : option pid) (ps : list proc) (evs : list (bool * wev))
| OPoll
| OFg (termok contok : bool) (spec : str) (evs : list (bool * wev))
| OBg (contok : bool) (spec : str)
| OKernel (k : kern).                 (* processes run, stop, end: any new kernel state *)

Definition step (s : kern * list job) (o : op) : kern * list job :=
  let (k, js) := s in
  match o with
  | OLaunchBg g ps => (k, launch_bg js g ps)
  | OLaunchFg t g ps evs => (k, fst (fst (launch_fg t js g ps evs)))
  | OPoll => fst (check_job_state k js)
  | OFg t c spec evs => (k, fst (fst (fst (execute_fg t c spec evs js))))
  | OBg c spec => (k, fst (fst (execute_bg c spec js)))
  | OKernel k' => (k', js)
  end.
Definition run (s : kern * list job) (ops : list op) : kern * list job := fold_left step ops s.
