(** The history of commands while the shell starts: dsh/src/lib.rs l.133-173, and dsh/src/history/command_history.rs l.83-110, l.202-297, l.395-416, l.493-539.
    Simplified: an entry is its command and its time; times are not negative; the database does not fail; one shell; no reload (l.300-392), which
    the arrow keys start later. *)
From Verif Require Import Base.

Definition row := (str * N)%type.
Definition not_of (c : str) (r : row) : bool := negb (str_eqb (fst r) c).
(** The table, newest first.  INSERT ... ON CONFLICT(command) DO UPDATE, l.428-442 *)
Fixpoint place (r : row) (db : list row) : list row :=
  match db with [] => [r] | x :: d => if (snd x <=? snd r)%N then r :: db else x :: place r d end.
Definition upsert (r : row) (db : list row) : list row := place r (filter (not_of (fst r)) db).
(** l.202-250: the rows, oldest first, and the time of the first of them; 0 without rows *)
Definition recent (n : nat) (db : list row) : list row := rev (firstn n db).
Definition first_time (rows : list row) : N := match rows with [] => 0%N | r :: _ => snd r end.
(** l.254-288 *)
Definition older (t : N) (n : nat) (db : list row) : list row := rev (firstn n (filter (fun r => (snd r <? t)%N) db)).
(** command_history.rs l.501-520 *)
Definition add (r : row) (mem : list row) : list row := filter (not_of (fst r)) mem ++ [r].

(** lib.rs l.138-173: where the thread is *)
Inductive place_of := Starting | Swapped (first : N) | Read (rows : list row) | Done.
Record state := State { db : list row; queue : list row; mem : list row; at_ : place_of }.
Inductive step :=
| Run (c : str) (t : N)   (* a command is recorded: l.493-539.  Before the swap there is neither a sender nor a database *)
| Write                   (* the writer takes a message: l.401-413 *)
| Swap                    (* lib.rs l.140-155 *)
| Fetch                   (* lib.rs l.158-159 *)
| Prepend.                (* lib.rs l.160-165, command_history.rs l.291-297 *)
Definition first_part : nat := 1000.
Definition second_part : nat := first_part * 9.
Definition go (s : state) (e : step) : state :=
  match e with
  | Run c t => State (db s) (match at_ s with Starting => queue s | _ => queue s ++ [(c, t)] end) (add (c, t) (mem s)) (at_ s)
  | Write => match queue s with [] => s | r :: q => State (upsert r (db s)) q (mem s) (at_ s) end
  | Swap => match at_ s with
            | Starting => State (db s) (queue s) (recent first_part (db s)) (Swapped (first_time (recent first_part (db s))))
            | _ => s
            end
  | Fetch => match at_ s with
             | Swapped t => State (db s) (queue s) (mem s) (if (0 <? t)%N then Read (older t second_part (db s)) else Done)
             | _ => s
             end
  | Prepend => match at_ s with Read rows => State (db s) (queue s) (rows ++ mem s) Done | _ => s end
  end.
Definition steps (es : list step) (s : state) : state := fold_left go es s.
(** lib.rs l.134 *)
Definition start (d : list row) : state := State d [] [] Starting.
