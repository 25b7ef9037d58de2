(** AND-OR lists, as POSIX defines them, independently of the job loop. *)
From Verif Require Import Base Safety_Model Eval_Model.

(** what running one command means for the rest of the line *)
Inductive outcome1 :=
| Exited (status : nat)     (* it finished (or was captured) with this status *)
| Backgrounded              (* it goes on in the background: success *)
| Nothing                   (* there was nothing to run: the status is unchanged *)
| Suspended                 (* it was stopped: the line ends, status unchanged *)
| Broken.                   (* it could not be launched: the line fails *)

(** an AND-OR list: a command, or a shorter list followed by && or || and a
    command (both operators have the same precedence and associate to the left) *)
Inductive andor :=
| One (j : job)
| AndThen (l : andor) (j : job)
| OrElse (l : andor) (j : job).

Section Spec.
  Variable W : Type.
  (** one command, run from a world; the events are what one observes *)
  Variable exec : W -> list (nat * job) -> job -> W * outcome1 * list (nat * job) * list event.

  Inductive fin := Cont | Ended | Failed.
  Record res := Res { rw : W; rstatus : nat; rwaits : list (nat * job); revents : list event; rfin : fin }.

  Definition exec_after (r : res) (j : job) : res :=
    let '(w, o, wt, ev) := exec (rw r) (rwaits r) j in
    let ev' := revents r ++ ev in
    match o with
    | Exited c => Res w c wt ev' Cont
    | Backgrounded => Res w 0 wt ev' Cont
    | Nothing => Res w (rstatus r) wt ev' Cont
    | Suspended => Res w (rstatus r) wt ev' Ended
    | Broken => Res w (rstatus r) wt ev' Failed
    end.

  (** left-to-right short-circuit evaluation *)
  Fixpoint eval_andor (r : res) (l : andor) : res :=
    match l with
    | One j => exec_after r j
    | AndThen l' j =>
        let r' := eval_andor r l' in
        match rfin r' with
        | Cont => if rstatus r' =? 0 then exec_after r' j else r'
        | _ => r'
        end
    | OrElse l' j =>
        let r' := eval_andor r l' in
        match rfin r' with
        | Cont => if rstatus r' =? 0 then r' else exec_after r' j
        | _ => r'
        end
    end.

  (** lists separated by ';' *)
  Fixpoint eval_line (r : res) (ls : list andor) : res :=
    match ls with
    | [] => r
    | l :: rest =>
        let r' := eval_andor r l in
        match rfin r' with Cont => eval_line r' rest | _ => r' end
    end.
End Spec.

(** the job sequence of a line, each job carrying the operator that follows it *)
Fixpoint flat (l : andor) (o : list_op) : list (job * list_op) :=
  match l with
  | One j => [(j, o)]
  | AndThen l' j => flat l' OpAnd ++ [(j, o)]
  | OrElse l' j => flat l' OpOr ++ [(j, o)]
  end.
Definition flat_line (ls : list andor) : list (job * list_op) := flat_map (fun l => flat l OpNone) ls.

(** the commands of a line, in order *)
Fixpoint commands (l : andor) : list job :=
  match l with One j => [j] | AndThen l' j | OrElse l' j => commands l' ++ [j] end.

(** One command of the shell.  [bg] forces the background.  The job number is one
    more than that of the youngest job in the table.  Plain commands that go on
    running or are stopped enter the table; captured commands (`|>`, `|:`) never
    do, and being stopped or left running counts for them as status 130 and 0. *)
Section Exec.
  Variable W : Type.
  Variable launch : W -> job -> W * option pstate.
  Variable launch_capture : W -> job -> W * option (pstate * str).
  Variable lisp : W -> str -> W * bool.

  Definition next_number (wt : list (nat * job)) : nat :=
    match wt with [] => 1 | _ => S (fst (List.last wt (0, Job [] true false [] true))) end.

  Definition captured_status (p : pstate) : nat :=
    match p with PCompleted c => c | PStopped => 130 | PRunning => 0 end.

  Definition exec_cmd (bg : bool) (w : W) (wt : list (nat * job)) (j0 : job)
    : W * outcome1 * list (nat * job) * list event :=
    let j := Job (cmd j0) (if bg then false else foreground j0) (capture j0) (sexprs j0) (has_process j0) in
    let id := next_number wt in
    if capture j then
      match launch_capture w j with
      | (w', None) => (w', Broken, wt, [EPre (cmd j); ELaunch id j])
      | (w', Some (p, _)) =>
          let c := captured_status p in
          (w', Exited c, wt, [EPre (cmd j); ELaunch id j; EOut (cmd j) c; EPost (cmd j) c])
      end
    else if match sexprs j with [] => true | _ => false end then
      match launch w j with
      | (w', Some PRunning) => (w', Backgrounded, wt ++ [(id, j)], [EPre (cmd j); ELaunch id j])
      | (w', Some PStopped) => (w', Suspended, wt ++ [(id, j)], [EPre (cmd j); ELaunch id j])
      | (w', Some (PCompleted c)) => (w', Exited c, wt, [EPre (cmd j); ELaunch id j; EPost (cmd j) c])
      | (w', None) => (w', Broken, wt, [EPre (cmd j); ELaunch id j])
      end
    else if has_process j then
      match launch_capture w j with
      | (w', None) => (w', Broken, wt, [EPre (cmd j); ELaunch id j])
      | (w', Some (p, out)) =>
          let c := captured_status p in
          if (c =? 0) || negb (str_eqb out []) then
            let '(w'', ok, ev) := run_lisp W lisp w' (sexprs j) in
            let c' := if ok then c else 1 in
            (w'', Exited c', wt, [EPre (cmd j); ELaunch id j] ++ ev ++ [EPost (cmd j) c'])
          else (w', Exited c, wt, [EPre (cmd j); ELaunch id j])
      end
    else (w, Nothing, wt, [EPre (cmd j)]).
End Exec.

(** the jobs that were launched, in order *)
Definition launches (ev : list event) : list str :=
  flat_map (fun e => match e with ELaunch _ j => [cmd j] | _ => [] end) ev.
