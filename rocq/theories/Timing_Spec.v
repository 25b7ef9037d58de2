(** What the statistics should say, from the list of executions. *)
From Verif Require Import Base Timing_Model.

(** an execution: command, duration, success, time *)
Record execution := Execution { what : str; took : nat; well : bool; at_ : nat }.
Definition of_command (c : str) (l : list execution) : list execution := filter (fun x => str_eqb (what x) c) l.
(** [s] summarises the executions [l] of one command, which are not none *)
Definition summary (l : list execution) (s : stats) : Prop :=
  calls s = length l /\
  total s = list_sum (map took l) /\
  (forall x, In x l -> shortest s <= took x <= longest s) /\
  (exists x, In x l /\ took x = longest s) /\ (exists x, In x l /\ took x = shortest s) /\
  failed s = length (filter (fun x => negb (well x)) l) /\
  exists before x, l = before ++ [x] /\ last s = at_ x.
(** a table says exactly what happened *)
Definition says (t : table) (l : list execution) : Prop :=
  NoDup (map fst t) /\
  forall c, match get c t with Some s => summary (of_command c l) s | None => of_command c l = [] end.
(** what the file says; nothing if it is not there *)
Definition file_says (f : file) (l : list execution) : Prop :=
  match f with Some (Some t) => says t l | Some None => False | None => l = [] end.

(** the executions among the events of a shell *)
Definition execution_of (e : event) : list execution :=
  match e with Executed c d ok now _ => [Execution c d ok now] | _ => [] end.
(** events in the middle of a session, with writes that work *)
Definition ordinary (e : event) : Prop :=
  match e with Executed _ _ _ _ Written => True | Tick _ Written => True | _ => False end.
(** a session of a shell: it starts, runs and quits *)
Record session := Session { shell : nat; started : nat; during : list event; ended : nat }.
Definition events (s : session) : list (nat * event) :=
  (shell s, Start (started s)) :: map (pair (shell s)) (during s) ++ [(shell s, Quit (ended s) Written)].
Definition executions (s : session) : list execution := flat_map execution_of (during s).
