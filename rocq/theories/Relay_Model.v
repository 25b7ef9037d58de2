(** A command on a terminal of its own: its keys and its output are passed on by two tasks: dsh/src/process/io.rs l.122-255
    (PtyMonitor), dsh/src/process/job_pty.rs l.63-215, process/async_io.rs, process/job_wait.rs l.15-73.

    Steps of the tasks, the command and the person come in any order.  The line discipline of the terminals, signals and the
    100 ms timer are left out; the terminal ends when no process holds it and all was read, as on Linux.  Bytes are numbers. *)
From Verif Require Import Base.

(** io.rs l.129-152 normalize_tty_newlines: None when nothing changes, and the last byte *)
Fixpoint normalize (done data : list N) (prev : option N) (changed : bool) (normalized : list N) : option (list N) * option N :=
  match data with
  | [] => (if changed then Some normalized else None, prev)
  | b :: r =>
      if (b =? 10)%N && negb (match prev with Some p => (p =? 13)%N | None => false end)
      then normalize (done ++ [b]) r (Some b) true ((if changed then normalized else done) ++ [13; 10]%N)
      else normalize (done ++ [b]) r (Some b) changed (if changed then normalized ++ [b] else normalized)
  end.
(** io.rs l.206-228: what is shown of the chunks read *)
Fixpoint screen (tty : bool) (last : option N) (chunks : list (list N)) : list N :=
  match chunks with
  | [] => []
  | c :: r =>
      if tty then let (d, last') := normalize [] c last false [] in (match d with Some x => x | None => c end) ++ screen tty last' r
      else c ++ screen tty last r
  end.

Inductive state := Alive | Halted | Gone.
(** waiting for the command; waiting for the output to end; back at the prompt *)
Inductive phase := Waiting | Draining | Back.
Record relay := Relay {
  queue : list N;          (* typed and read by nobody *)
  buf : list N;            (* read by the task and not passed on *)
  given : list N;          (* passed on to the command *)
  lost : list N;           (* in the task's hands when it was aborted *)
  pending : list N;        (* written by the command and not read *)
  chunks : list (list N);  (* read by the other task *)
  wrote : list N;          (* all that was written *)
  typed : list N;          (* all that was typed *)
  holders : list nat;      (* the processes that hold the terminal; 0 is the command *)
  main : state;
  where_ : phase }.
Definition start : relay := Relay [] [] [] [] [] [] [] [] [0] Alive Waiting.

Inductive event :=
| Types (ks : list N) | Reads (n : nat) | Writes (n : nat)
| Prints (p : nat) (bs : list N) | Shows (n : nat)
| Forks (p q : nat) | Leaves (p : nat) | Halts | Continues | Killed
| Notices | Ends.

Definition mem_nat (p : nat) (l : list nat) : bool := existsb (Nat.eqb p) l.
(** a process that can act *)
Definition acts (s : relay) (p : nat) : bool :=
  mem_nat p (holders s) && match p, main s with 0, Halted => false | _, _ => true end.
Definition remove (p : nat) (l : list nat) : list nat := filter (fun q => negb (p =? q)) l.
Definition leave (s : relay) (p : nat) : relay :=
  Relay (queue s) (buf s) (given s) (lost s) (pending s) (chunks s) (wrote s) (typed s) (remove p (holders s)) (if p =? 0 then Gone else main s) (where_ s).
Definition step (s : relay) (e : event) : relay :=
  let 'Relay q b g l p c w t h m f := s in
  match e with
  | Types ks => Relay (q ++ ks) b g l p c w (t ++ ks) h m f
  | Reads n => match f with Back => s | _ => Relay (skipn n q) (b ++ firstn n q) g l p c w t h m f end       (* async_io.rs l.12-49 *)
  | Writes n => match f with Back => s | _ => Relay q (skipn n b) (g ++ firstn n b) l p c w t h m f end      (* l.63-91 *)
  | Prints x bs => if acts s x then Relay q b g l (p ++ bs) c (w ++ bs) t h m f else s
  | Shows n => match f with Back => s | _ => Relay q b g l (skipn (Nat.min n 4096) p) (c ++ [firstn (Nat.min n 4096) p]) w t h m f end
  | Forks x y => if acts s x && negb (y =? 0) then Relay q b g l p c w t (y :: h) m f else s
  | Leaves x => if acts s x then leave s x else s
  | Killed => if mem_nat 0 h then leave s 0 else s
  | Halts => match m with Alive => Relay q b g l p c w t h Halted f | _ => s end
  | Continues => match m with Halted => Relay q b g l p c w t h Alive f | _ => s end
  | Notices => match f, m with Waiting, Alive => s | Waiting, _ => Relay q b g l p c w t h m Draining | _, _ => s end  (* wait_job; job_pty.rs l.173 *)
  | Ends => match f, h, p with Draining, [], [] => Relay q [] g b p c w t h m Back | _, _, _ => s end              (* l.175-186 *)
  end.
Definition run (es : list event) : relay := fold_left step es start.
