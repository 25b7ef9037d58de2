(** What is asked, what is answered, and what the shell may show of it. *)
From Verif Require Import Base Suggest_Model.
From Verif Require Direnv_Model History_Model.

(** [t] is [input] and something more *)
Definition continues (input t : str) : Prop := exists more, more <> [] /\ t = input ++ more.

(** steps of the worker, as opposed to keys *)
Definition by_worker (ev : event) : Prop := match ev with WCheck | WWake | WAnswer _ _ => True | _ => False end.

(** after the events [evs], the model had answered [text] to [r] at [t] *)
Definition answered (path : str -> bool -> option str) (g bf : bool) (evs : list event) (t : nat) (r : request) (text : str) : Prop :=
  exists before after s shown, evs = before ++ WAnswer t (Some text) :: after
    /\ run path (start g bf) before = Some (s, shown) /\ at_ (back s) = Fetching r.

(** the line, the time and the directory of an event that shows something *)
Definition typed_at (ev : event) (now : nat) (input : str) (cwd : str) : Prop :=
  match ev with
  | Refresh n _ _ i _ _ d => n = now /\ i = input /\ d = cwd
  | Force n i _ d => n = now /\ i = input /\ d = cwd
  | _ => False
  end.
(** a request about a line the user had typed, or about a directory entered *)
(** the last commands, newest first, eight at most *)
Definition recent (h : option History_Model.history) (l : list str) : Prop :=
  match h with
  | None => l = []
  | Some h => length l <= 8 /\ exists older, map History_Model.cmd (History_Model.hs h) = older ++ rev l /\ (length l = 8 \/ older = [])
  end.
Definition asked_for (r : request) (ev : event) : Prop :=
  match ev with
  | Refresh _ _ _ i _ h _ | Force _ i h _ => r_input r = i /\ trim i <> [] /\ recent h (r_history r)
  | Prefetch d => r_input r = [] /\ r_cwd r = Some d /\ r_history r = []
  | _ => False
  end.
(** the user has not asked for AI: no key for it, and the preference is off at every prompt *)
Definition unwanted (ev : event) : Prop :=
  match ev with Refresh _ _ bf _ _ _ _ => bf = false | Force _ _ _ _ => False | _ => True end.

Definition white (s : str) : Prop := forall c, In c s -> is_whitespace c = true.
Definition a_quote (c : char) : Prop := c = 34%N \/ c = 39%N \/ c = 96%N.
(** a command on one line, without blanks or quotes at its ends *)
Definition bare_line (t : str) : Prop :=
  ~ In 10%N t /\ (forall c r, t = c :: r -> is_whitespace c = false /\ ~ a_quote c)
  /\ (forall b c, t = b ++ [c] -> is_whitespace c = false /\ ~ a_quote c).
(** what is left of the line is blank; more lines may follow *)
Definition clear_line (b : str) : Prop := forall u v, b = u ++ v -> ~ In 10%N u -> white u.
