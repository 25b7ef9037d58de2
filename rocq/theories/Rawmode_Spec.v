(** Which mode the terminal should have. *)
From Verif Require Import Base Rawmode_Model.

(** the job runs on a terminal of its own, to which every key is passed on *)
Definition Own_terminal (interactive bg : bool) (j : job) : Prop :=
  kind_of j = Plain /\ interactive = true /\ bg = false /\ foreground j = true /\ pty j = true /\ builtin j = false.
(** a job with |> or |: that could not be started, or one with |: that has no command *)
Definition Stuck (j : job) : Prop :=
  (kind_of j = Structured /\ process j = false) \/ (kind_of j <> Plain /\ ends j = Failed).
(** the commands of the substitutions: none failed to start *)
Definition Spawned (subs : list bool) : Prop := ~ In false subs.
(** An action after which the mode is raw, or is not, whatever it was. *)
Definition Sets (a : action) (b : bool) : Prop :=
  match a with
  | Enters l bg => forall r, snd (eval_str true bg l r) = b
  | Palette ok => ok = b
  | Picks => b = true
  | Records entries picked named => entries = true /\ picked && named = b
  | Diagnoses shown => shown = true /\ b = false
  end.
Definition Keeps (a : action) : Prop :=
  match a with
  | Enters l bg => forall r, snd (eval_str true bg l r) = r
  | Palette _ | Picks => False
  | Records entries _ _ => entries = false
  | Diagnoses shown => shown = false
  end.
