(** The time limit of the commands that complete arguments: dsh/src/completion/generators/script.rs l.23-75
    run_with_timeout (2000 ms), dsh/src/completion/dynamic.rs l.990-1026 wait_and_collect_lines (1500 ms).

    The processes are the child (sh) and those it leaves running with its output open ([helpers], a number).
    The pipe holds at most [cap] bytes.  The thread that reads, the thread that waits and the processes
    take steps in any order.  Errors of the calls themselves are left out; time is in milliseconds. *)
From Verif Require Import Base.

Section Limit.
(** the size of the pipe, the time limit, and String::from_utf8 ([None]: an error) *)
Variables (cap : nat) (limit : N) (utf8 : list N -> option str).

Inductive life := Running | Exited (ok : bool).
Inductive phase := Waiting | Joining (in_time : bool) | Done (result : option str).
Record st := St { child : life; helpers : nat; pipe : list N; got : list N; clock : N; stage : phase }.
Definition start : st := St Running 0 [] [] 0 Waiting.

Inductive event :=
| Write (bytes : list N)      (* a process writes *)
| Spawn                       (* a process leaves another one that holds the output *)
| Exit (ok : bool)            (* the child ends *)
| HelperExit
| Pass (ms : N)
| Read                        (* the thread that reads empties the pipe *)
| Wait                        (* wait_timeout returns *)
| Join.                       (* the thread that reads has ended *)

Definition writers (s : st) : nat := helpers s + match child s with Running => 1 | Exited _ => 0 end.
(** [None]: the step cannot be taken *)
Definition step (s : st) (e : event) : option st :=
  match e with
  | Write b => if (1 <=? writers s) && (length (pipe s) + length b <=? cap) then
                 Some (St (child s) (helpers s) (pipe s ++ b) (got s) (clock s) (stage s)) else None
  | Spawn => if 1 <=? writers s then Some (St (child s) (S (helpers s)) (pipe s) (got s) (clock s) (stage s)) else None
  | Exit ok => match child s with
               | Running => Some (St (Exited ok) (helpers s) (pipe s) (got s) (clock s) (stage s))
               | Exited _ => None
               end
  | HelperExit => match helpers s with
                  | 0 => None
                  | S n => Some (St (child s) n (pipe s) (got s) (clock s) (stage s))
                  end
  | Pass ms => Some (St (child s) (helpers s) (pipe s) (got s) (clock s + ms) (stage s))
  | Read => match pipe s with
            | [] => None
            | _ => Some (St (child s) (helpers s) [] (got s ++ pipe s) (clock s) (stage s))
            end
  (* script.rs l.50-73: the child has ended, or the time is over and it is killed *)
  | Wait => match stage s with
            | Waiting => match child s with
                         | Exited _ => Some (St (child s) (helpers s) (pipe s) (got s) (clock s) (Joining true))
                         | Running => if (limit <=? clock s)%N then Some (St (Exited false) (helpers s) (pipe s) (got s) (clock s) (Joining false)) else None
                         end
            | _ => None
            end
  (* l.53-55, l.70: the thread ends when nobody can write any more and all is read *)
  | Join => match stage s with
            | Joining in_time =>
                match writers s, pipe s with
                | 0, [] =>
                    let r := if in_time then
                               match utf8 (got s) with
                               | Some t => match child s with Exited true => Some t | _ => Some [] end
                               | None => None
                               end
                             else Some [] in
                    Some (St (child s) 0 [] (got s) (clock s) (Done r))
                | _, _ => None
                end
            | _ => None
            end
  end.
Fixpoint run (s : st) (es : list event) : option st :=
  match es with [] => Some s | e :: r => match step s e with Some s' => run s' r | None => None end end.
End Limit.
