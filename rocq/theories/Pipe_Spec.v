(** What is claimed about a job's descriptors, in terms of what each started
    program finds open and what the shell keeps open. *)
From Verif Require Import Base Pipe_Model.

(** The object a program finds behind one of its numbers. *)
Definition finds (p : proc) (fd : nat) : option obj :=
  match ptab p with
  | Some t => option_map what (get t fd)
  | None => None
  end.

(** Its standard input, output and error. *)
Definition stdin_of (p : proc) : option obj := finds p (fst (fst (fds p))).
Definition stdout_of (p : proc) : option obj := finds p (snd (fst (fds p))).
Definition stderr_of (p : proc) : option obj := finds p (snd (fds p)).

(** The process never got to run its program. *)
Definition failed_to_start (p : proc) : Prop := ptab p = None.

(** [b] reads what [a] writes. *)
Definition feeds (a b : proc) : Prop :=
  exists k, stdout_of a = Some (PipeW k) /\ stdin_of b = Some (PipeR k).

(** Every stage feeds the next one. *)
Definition chained (l : list proc) : Prop :=
  forall i a b, nth_error l i = Some a -> nth_error l (S i) = Some b -> feeds a b.

(** A process can write into pipe [k]; the shell can; a process can read from it. *)
Definition can_write (p : proc) (k : nat) : Prop := exists fd, finds p fd = Some (PipeW k).
Definition can_read (p : proc) (k : nat) : Prop := exists fd, finds p fd = Some (PipeR k).
Definition holds (t : table) (o : obj) : Prop :=
  exists fd, option_map what (get t fd) = Some o.

(** The shell drains pipe [k] through a monitor. *)
Definition monitored (s : st) (k : nat) : Prop :=
  exists fd, In fd (monitors s) /\ option_map what (get (tb s) fd) = Some (PipeR k).

(** The shell before a job: its three standard streams are open and survive
    execve, and [n] is above the number of every pipe it knows. *)
Definition ready (t : table) (n : nat) : Prop :=
  get t 0 = Some (Ent (Old 0) false) /\
  get t 1 = Some (Ent (Old 1) false) /\
  get t 2 = Some (Ent (Old 2) false) /\
  forall fd k, option_map what (get t fd) = Some (PipeW k) \/
               option_map what (get t fd) = Some (PipeR k) -> k < n.

(** The pseudo-terminal, if there is one: its slave side is open in the shell. *)
Definition slave_ready (t : table) (slave : option nat) : Prop :=
  match slave with
  | None => True
  | Some s => 2 < s /\ exists x, get t s = Some (Ent Slave x)
  end.

(** The context a line starts with. *)
Definition default_ctx (fg inter : bool) : ctx := Ctx 0 1 2 None fg inter.

Definition start_state (t : table) (n : nat) (c : ctx) : st := St t n c [] [] [].

(** Where a job's input comes from and where its last stage writes. *)
Definition reads_job_input (slave : option nat) (p : proc) : Prop :=
  stdin_of p = Some (match slave with Some _ => Slave | None => Old 0 end).
Definition writes_job_output (slave : option nat) (fg inter : bool) (s : st) (p : proc) : Prop :=
  match slave with
  | Some _ => stdout_of p = Some Slave
  | None => if fg && inter then stdout_of p = Some (Old 1)
            else exists k, stdout_of p = Some (PipeW k) /\ monitored s k
  end.
Definition writes_job_errors (slave : option nat) (fg : bool) (s : st) (p : proc) : Prop :=
  match slave with
  | Some _ => stderr_of p = Some Slave
  | None => if fg then stderr_of p = Some (Old 2)
            else exists k, stderr_of p = Some (PipeW k) /\ monitored s k
  end.

Definition all_commands (ks : list kind) : Prop := forall k, In k ks -> k = Command.

(** Which streams an output redirect is about. *)
Definition takes_stdout (r : redir) : bool :=
  match r with RStdout _ _ | RBoth _ _ => true | _ => false end.
Definition takes_stderr (r : redir) : bool :=
  match r with RStderr _ _ | RBoth _ _ => true | _ => false end.
Definition is_output (r : redir) : bool := takes_stdout r || takes_stderr r.
Definition appends (r : redir) : bool :=
  match r with RStdout a _ | RStderr a _ | RBoth a _ => a | RInput _ => false end.

(** The shell's own terminal, or the job's pseudo-terminal. *)
Definition terminal (slave : option nat) (n : nat) : obj :=
  match slave with Some _ => Slave | None => Old n end.
