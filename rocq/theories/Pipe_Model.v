(** Model of how a job's processes get their descriptors:
    dsh/src/process/job.rs (launch_process), job_process.rs (launch), io.rs
    (create_pipe, handle_output_redirect), fork.rs (fork_process),
    process.rs (launch_prepared), redirect.rs (process).

    What is modelled: the descriptor tables of the shell and of every process it
    starts, as tables from numbers to open objects; which numbers the shell's
    [Context] carries from stage to stage; what is closed when.
    Simplifications: fork, pipe, dup2 and close only fail because a number is not
    open; nothing else in the shell opens or closes descriptors while one job is
    being launched; process groups, signals and data are not modelled; the task
    that copies a redirect's pipe to its file is recorded when it is spawned and
    not run. *)
From Verif Require Import Base.

(** ** Descriptor tables (the operating system's, per process) *)

(** What a descriptor can refer to: something that was there before (a terminal
    or anything else), the slave side of the job's pseudo-terminal, an end of a
    pipe created by the shell, a file opened for `<'. *)
Inductive obj :=
| Old (k : nat)
| Slave
| PipeR (p : nat)
| PipeW (p : nat)
| FileIn (name : str).

(** An open descriptor and its close-on-exec flag. *)
Record ent := Ent { what : obj; cloexec : bool }.

Definition table := list (option ent).

Definition get (t : table) (n : nat) : option ent := nth n t None.

Fixpoint put (t : table) (n : nat) (e : option ent) : table :=
  match n, t with
  | 0, [] => [e]
  | 0, _ :: t' => e :: t'
  | S n', [] => None :: put [] n' e
  | S n', x :: t' => x :: put t' n' e
  end.

(** close(2): nothing happens when the number is not open (the shell only logs
    the error, job.rs l.309-328). *)
Definition close (t : table) (n : nat) : table := put t n None.

(** the lowest number not in use *)
Fixpoint lowest (t : table) : nat :=
  match t with
  | [] => 0
  | None :: _ => 0
  | Some _ :: t' => S (lowest t')
  end.

(** execve(2) closes what is marked close-on-exec. *)
Definition exec_entry (e : option ent) : option ent :=
  match e with
  | Some x => if cloexec x then None else Some x
  | None => None
  end.
Definition exec_table (t : table) : table := map exec_entry t.

(** dup2(2) of an open number onto another one; the copy is not close-on-exec. *)
Definition dup2 (t : table) (from to : nat) : option table :=
  match get t from with
  | Some x => Some (put t to (Some (Ent (what x) false)))
  | None => None
  end.

(** close(2) where the code checks the result *)
Definition close_checked (t : table) (n : nat) : option table :=
  match get t n with
  | Some _ => Some (close t n)
  | None => None
  end.

(** ** What a child does before execve *)

(** process.rs l.318-330: standard input *)
Definition setup_stdin (t : table) (i o e : nat) : option table :=
  match (if i =? 0 then Some t else dup2 t i 0) with
  | None => None
  | Some t1 =>
      let keep := (i =? o) || (i =? e) in
      if (2 <? i) && negb keep then close_checked t1 i else Some t1
  end.

(** process.rs l.333-355: standard output and error are the same number *)
Definition setup_same (t : table) (o : nat) : option table :=
  match (if o =? 1 then Some t else dup2 t o 1) with
  | None => None
  | Some t1 =>
      match (if o =? 2 then Some t1 else dup2 t1 o 2) with
      | None => None
      | Some t2 => if 2 <? o then close_checked t2 o else Some t2
      end
  end.

(** process.rs l.357-385: one of the two streams [n] when they differ *)
Definition setup_one (t : table) (from n : nat) : option table :=
  if from =? n then Some t
  else match dup2 t from n with
       | None => None
       | Some t1 => if 2 <? from then close_checked t1 from else Some t1
       end.

(** process.rs launch_prepared l.318-386, up to execve: [None] is the early
    return, after which the child exits with status 1 (fork.rs l.143-146). *)
Definition child_setup (t : table) (i o e : nat) : option table :=
  match setup_stdin t i o e with
  | None => None
  | Some t1 =>
      if o =? e then setup_same t1 o
      else match setup_one t1 o 1 with
           | None => None
           | Some t2 => setup_one t2 e 2
           end
  end.

(** ** The shell's side *)

(** redirect.rs l.7-15 *)
Inductive redir :=
| RStdout (append : bool) (name : str)
| RStderr (append : bool) (name : str)
| RBoth (append : bool) (name : str)
| RInput (name : str).

(** A stage of a pipeline: an external command or a builtin
    (job_process.rs JobProcess). *)
Inductive kind := Command | Builtin.

(** dsh-types Context: the fields the launch code reads and writes *)
Record ctx := Ctx {
  infile : nat; outfile : nat; errfile : nat;
  captured : option nat;
  foreground : bool; interactive : bool
}.
Definition set_in c x := Ctx x (outfile c) (errfile c) (captured c) (foreground c) (interactive c).
Definition set_out c x := Ctx (infile c) x (errfile c) (captured c) (foreground c) (interactive c).
Definition set_err c x := Ctx (infile c) (outfile c) x (captured c) (foreground c) (interactive c).
Definition set_fg c x := Ctx (infile c) (outfile c) (errfile c) (captured c) x (interactive c).

(** A process of the job.  [forked] is false for a builtin that runs inside the
    shell.  [ptab] is the table the program runs with; [None] when the child gave
    up before execve.  A command uses 0, 1, 2; a builtin the numbers in [fds]
    (they write to ctx.outfile and so on). *)
Record proc := Proc {
  pkind : kind; forked : bool; ptab : option table; fds : nat * nat * nat
}.

(** The task spawned by Redirect::process: it owns number [cfd], which referred to
    [cobj] when it was spawned, and copies it to the file of [cred]. *)
Record copier := Copier { cfd : nat; cobj : option ent; cred : redir }.

(** The state of a launch.  [np] numbers the pipes created so far. *)
Record st := St {
  tb : table; np : nat; cx : ctx;
  procs : list proc; monitors : list nat; copiers : list copier
}.
Definition upd_tb s x := St x (np s) (cx s) (procs s) (monitors s) (copiers s).
Definition upd_cx s x := St (tb s) (np s) x (procs s) (monitors s) (copiers s).

Section Launch.

(** Which free number open and pipe give: POSIX says the lowest; any choice of a
    free one is allowed here ([pick] may look at the table), so the results do not
    depend on it. *)
Variable pick : table -> nat.
Definition alloc (t : table) : nat :=
  match get t (pick t) with None => pick t | Some _ => lowest t end.

(** nix::unistd::pipe: (read end, write end, state); neither is close-on-exec *)
Definition new_pipe (s : st) : nat * nat * st :=
  let r := alloc (tb s) in
  let t1 := put (tb s) r (Some (Ent (PipeR (np s)) false)) in
  let w := alloc t1 in
  let t2 := put t1 w (Some (Ent (PipeW (np s)) false)) in
  (r, w, St t2 (S (np s)) (cx s) (procs s) (monitors s) (copiers s)).

(** io.rs create_pipe l.263-267 *)
Definition create_pipe (s : st) : option nat * st :=
  let '(r, w, s1) := new_pipe s in
  (Some r, upd_cx s1 (set_out (cx s1) w)).

(** io.rs handle_output_redirect l.269-320; the job's stdout is 1 (job.rs
    l.104-106: Job::new) *)
Definition handle_output_redirect (rd : option redir) (s : st) : option nat * st :=
  match rd with
  | Some (RStdout _ _) =>
      let '(r, w, s1) := new_pipe s in (Some r, upd_cx s1 (set_out (cx s1) w))
  | Some (RStderr _ _) =>
      let '(r, w, s1) := new_pipe s in (Some r, upd_cx s1 (set_err (cx s1) w))
  | Some (RBoth _ _) =>
      let '(r, w, s1) := new_pipe s in
      (Some r, upd_cx s1 (set_err (set_out (cx s1) w) w))
  | Some (RInput _) => (None, s)
  | None =>
      match captured (cx s) with
      | Some c => (None, upd_cx s (set_out (cx s) c))
      | None => if infile (cx s) =? 0 then (None, s)
                else (None, upd_cx s (set_out (cx s) 1))
      end
  end.

Definition is_none {A} (x : option A) : bool := match x with None => true | Some _ => false end.

(** job_process.rs launch l.281-312: what the stage's output is.  The first
    component is the number the next stage will read, the second the one that the
    shell will monitor (cap_stdout). *)
Definition choose_output (rd : option redir) (slave : option nat) (has_next : bool) (s : st)
  : option nat * option nat * st :=
  if has_next then let (p, s1) := create_pipe s in (p, None, s1)
  else if negb (interactive (cx s)) && is_none rd && is_none slave && is_none (captured (cx s)) then
    let '(r, w, s1) := new_pipe s in
    (None, Some r, upd_cx s1 (set_out (cx s1) w))
  else let (p, s1) := handle_output_redirect rd s in (p, None, s1).

(** job_process.rs launch l.314-345: the pseudo-terminal replaces what is still
    the default *)
Definition apply_slave (slave : option nat) (c : ctx) : ctx :=
  match slave with
  | None => c
  | Some s =>
      let c1 := if infile c =? 0 then set_in c s else c in
      let c2 := if outfile c1 =? 1 then set_out c1 s else c1 in
      if errfile c2 =? 2 then set_err c2 s else c2
  end.

(** fork.rs l.77-110: a background command whose stream is still the default gets
    a pipe for it that the shell monitors; which = the stream's default number *)
Definition background_capture (slave : option nat) (cur which : nat) (s : st)
  : nat * option nat * st :=
  if (cur =? which) && negb (foreground (cx s)) && is_none slave then
    let '(r, w, s1) := new_pipe s in (w, Some r, s1)
  else (cur, None, s).

Definition olist {A} (x : option A) : list A := match x with Some a => [a] | None => [] end.

Definition add_proc s p := St (tb s) (np s) (cx s) (procs s ++ [p]) (monitors s) (copiers s).
Definition add_mons s l := St (tb s) (np s) (cx s) (procs s) (monitors s ++ l) (copiers s).
Definition add_copier s c := St (tb s) (np s) (cx s) (procs s) (monitors s) (copiers s ++ [c]).

(** job_process.rs launch l.347-378 and fork.rs: start the stage.  The result is
    the process's own view of its streams' numbers (get_io), what is to be
    monitored, and the state. *)
Definition start (k : kind) (slave : option nat) (s : st)
  : (nat * nat * nat) * list nat * st :=
  let c := cx s in
  match k with
  | Builtin =>
      let io := (infile c, outfile c, errfile c) in
      (* foreground: process.launch in the shell itself; background: fork, with a
         copy of the shell's table, and no execve *)
      (io, [], add_proc s (Proc Builtin (negb (foreground c)) (Some (tb s)) io))
  | Command =>
      let '(o, m1, s1) := background_capture slave (outfile c) 1 s in
      let '(e, m2, s2) := background_capture slave (errfile c) 2 s1 in
      let t := option_map exec_table (child_setup (tb s2) (infile c) o e) in
      ((infile c, o, e), olist m1 ++ olist m2, add_proc s2 (Proc Command true t (0, 1, 2)))
  end.

Definition some_is (x : option nat) (n : nat) : bool :=
  match x with Some m => m =? n | None => false end.

(** job.rs launch_process l.304-328: what the shell closes after a stage *)
Definition close_io (slave input : option nat) (io : nat * nat * nat) (t : table) : table :=
  let '(i, o, e) := io in
  let t1 := if negb (i =? 0) && (match input with
                                | Some fd => negb (i =? fd)
                                | None => negb (some_is slave i)
                                end) then close t i else t in
  let t2 := if negb (o =? 1) && negb (some_is slave o) then close t1 o else t1 in
  if negb (e =? 2) && negb (o =? e) && negb (some_is slave e) then close t2 e else t2.

(** redirect.rs process l.18-70: spawn the copy of whatever ctx.infile is now *)
Definition spawn_copier (rd : option redir) (s : st) : st :=
  match rd with
  | Some (RInput _) | None => s
  | Some r => add_copier s (Copier (infile (cx s)) (get (tb s) (infile (cx s))) r)
  end.

(** job.rs launch_process l.219-351, without the recursive call: [input] is the
    number of the file opened for `<'. *)
Definition stage (rd : option redir) (slave : option nat) (k : kind) (has_next : bool)
           (previous : nat) (input : option nat) (s : st) : st :=
  let '(pipe_out, cap, s1) := choose_output rd slave has_next s in
  let s2 := upd_cx s1 (apply_slave slave (cx s1)) in
  let '(io, mons, s3) := start k slave s2 in
  let s4 := match pipe_out with
            | Some p => upd_cx s3 (set_in (cx s3) p)
            | None => s3
            end in
  let s5 := add_mons s4 (olist cap ++ mons) in
  let s6 := upd_tb s5 (close_io slave input io (tb s5)) in
  let s7 := spawn_copier rd s6 in
  match input with
  | Some fd => if infile (cx s7) =? fd then upd_cx s7 (set_in (cx s7) previous) else s7
  | None => s7
  end.

(** std::fs::File::open succeeds on these names *)
Variable openable : str -> bool.

(** job.rs launch_process with its recursion (l.340-348); the boolean says whether
    it returned Ok.  The file of `<' stays open until the call returns. *)
Fixpoint launch (rd : option redir) (slave : option nat) (ks : list kind) (s : st) : st * bool :=
  match ks with
  | [] => (s, true)
  | k :: rest =>
      let previous := infile (cx s) in
      let has_next := match rest with [] => false | _ => true end in
      match rd with
      | Some (RInput name) =>
          if openable name then
            let fd := alloc (tb s) in
            let s1 := upd_cx (upd_tb s (put (tb s) fd (Some (Ent (FileIn name) true))))
                             (set_in (cx s) fd) in
            let s2 := stage rd slave k has_next previous (Some fd) s1 in
            let (s3, ok) := launch rd slave rest s2 in
            (upd_tb s3 (close (tb s3) fd), ok)
          else (s, false)
      | _ => launch rd slave rest (stage rd slave k has_next previous None s)
      end
  end.

(** shell/eval.rs execute_with_capture l.417-502 (the `|>' and `|:' forms): two
    pipes drained by two threads, a copy of the context that points at their write
    ends, a launch without a pseudo-terminal, and the write ends closed again.  The
    result also gives the read ends. *)
Definition execute_with_capture (rd : option redir) (ks : list kind) (s : st)
  : nat * nat * st * bool :=
  let '(ro, wo, s1) := new_pipe s in
  let '(re, we, s2) := new_pipe s1 in
  let c := Ctx (infile (cx s)) 1 we (Some wo) true (interactive (cx s)) in
  let (s3, ok) := launch rd None ks (upd_cx s2 c) in
  (ro, re, St (close (close (tb s3) wo) we) (np s3) (cx s) (procs s3) (monitors s3) (copiers s3), ok).

End Launch.

(** redirect.rs l.26-34, 46-54: whether the copying task gets its file open, given
    whether the file exists and its directory can be written: `>' creates, `>>'
    asks for append without create. *)
Definition task_opens (r : redir) (file_exists writable_dir : bool) : bool :=
  match r with
  | RStdout app _ | RStderr app _ | RBoth app _ =>
      if app then file_exists else file_exists || writable_dir
  | RInput _ => false
  end.

(** The allocation POSIX prescribes. *)
Definition posix : table -> nat := lowest.
