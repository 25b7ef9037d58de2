(** Vocabulary for the job-control properties, independent of the functions of
    Jobs_Model (only its data types are used). *)
From Verif Require Import Base Jobs_Model.

Definition completed (p : proc) : Prop := exists c sg, pstate p = Completed c sg.
Definition stopped (p : proc) : Prop := exists q sg, pstate p = Stopped q sg.
Definition running (p : proc) : Prop := pstate p = Running.

(** some stage that reads from another one has ended with status 0 *)
Definition consumer_succeeded (ps : list proc) : Prop :=
  exists before q after, ps = before ++ q :: after /\ before <> [] /\ pstate q = Completed 0 None.

(** the kernel still has a live process for this pid *)
Definition alive (k : kern) (p : pid) : Prop :=
  k p = KRunning \/ exists sg r, k p = KStopped sg r.

(** the first stage that is an external command *)
Fixpoint leader (ps : list proc) : option proc :=
  match ps with
  | [] => None
  | p :: rest => if builtin p then leader rest else Some p
  end.

(** what identifies a job, independent of the states recorded for it *)
Definition same_job (a b : job) : Prop :=
  jid a = jid b /\ jpgid a = jpgid b /\ jfg a = jfg b /\
  map ppid (jprocs a) = map ppid (jprocs b) /\ map builtin (jprocs a) = map builtin (jprocs b).

(** the process a wait event is about, and the state it reports *)
Definition about (e : wev) : option pid :=
  match e with WExited p _ | WSignaled p _ | WStopped p _ => Some p | _ => None end.
Definition reports (e : wev) : pst :=
  match e with
  | WExited _ st => Completed (st mod 256) None
  | WSignaled _ sg => Completed 1 (Some sg)
  | WStopped p sg => Stopped p sg
  | _ => Running
  end.
(** the last state reported for a process, or the one it had *)
Fixpoint latest (o : option pid) (s : pst) (evs : list (bool * wev)) : pst :=
  match evs with
  | [] => s
  | (_, e) :: rest =>
      latest o (match about e, o with
                | Some p, Some q => if p =? q then reports e else s
                | _, _ => s
                end) rest
  end.

(** pipelines of external commands with different pids, as forked *)
Definition externals (ps : list proc) : Prop :=
  Forall (fun p => builtin p = false /\ exists q, ppid p = Some q) ps /\ NoDup (map ppid ps).

(** wait events that do not end the waiting by themselves *)
Definition ordinary (e : bool * wev) : Prop := snd e <> WEchild /\ snd e <> WUnexpected.
