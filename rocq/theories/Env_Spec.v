(** Vocabulary for the environment properties. *)
From Verif Require Import Base Output_Model Output_Spec Env_Model.

(** the value a child should see for a name: an exported shell variable overrides
    what the shell inherited or set with [set -x] *)
Definition effective (e : env) (name : str) : option str :=
  if in_dec str_eq_dec name (exported e) then
    match assoc name (variables e) with Some v => Some v | None => assoc name (system e) end
  else assoc name (system e).

(** with TERM defaulted when missing or empty *)
Definition child_sees (e : env) (name : str) : option str :=
  match effective e name with
  | Some (c :: r) => Some (c :: r)
  | Some [] => if str_eq_dec name (lit "TERM") then Some (lit "xterm-256color") else Some []
  | None => if str_eq_dec name (lit "TERM") then Some (lit "xterm-256color") else None
  end.

(** each name occurs once in the maps and sets *)
Definition well_formed (e : env) : Prop :=
  NoDup (map fst (system e)) /\ NoDup (exported e).

(** the search path the user has set *)
Definition search_dirs (e : env) : list str :=
  match assoc (lit "PATH") (system e) with
  | Some v => split_on (chr ":") v
  | None => [lit "/bin"; lit "/usr/bin"; lit "/sbin"; lit "/usr/sbin"]
  end.

(** the first directory holding a regular file of that name *)
Definition first_file (fs : str -> fkind) (dirs : list str) (cmd : str) (r : option str) : Prop :=
  match r with
  | Some p => exists before d after, dirs = before ++ d :: after /\ p = join d cmd /\
      (exists x, fs (join d cmd) = File x) /\
      (forall d', In d' before -> forall x, fs (join d' cmd) <> File x)
  | None => forall d, In d dirs -> forall x, fs (join d cmd) <> File x
  end.
