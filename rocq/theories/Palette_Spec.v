(** What is expected of the command palette. *)
From Verif Require Import Base Palette_Model.

(** the commands that were run beside the listings *)
Definition acts (r : list event * ending) : list (list str) :=
  flat_map (fun e => match e with Ran argv => [argv] | Listed _ => [] end) (fst r).

(** [pid] is the second word of a line of ps or lsof *)
Definition names_process (line pid : str) : Prop := exists owner rest, Words line (owner :: pid :: rest).

(** `docker exec`: the first word that is no option is the container *)
Fixpoint container (args : list str) : option str :=
  match args with
  | [] => None
  | a :: r => if starts_with (lit "-") a then container r else Some a
  end.
Definition exec_container (argv : list str) : option str :=
  match argv with
  | d :: e :: args => if str_eqb d (lit "docker") && str_eqb e (lit "exec") then container args else None
  | _ => None
  end.

(** the order of the list: by category, then by name *)
Definition comes_before {B} (a b : action B) : Prop :=
  Frecency_Model.str_cmp (category a) (category b) = Lt \/
  (category a = category b /\ Frecency_Model.str_cmp (aname a) (aname b) = Lt).
