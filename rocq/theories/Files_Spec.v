(** Which file names should be offered for the beginning of a path. *)
From Verif Require Import Base Menu_Spec.

Definition slash : char := chr "/".
Definition dot : str := lit ".".
(** A name of a directory entry *)
Definition entry_name (n : str) : Prop := n <> [] /\ ~ In slash n /\ n <> lit "." /\ n <> lit "..".
(** [token] is the beginning [p] of a name in the directory [d] *)
Inductive in_directory : str -> str -> str -> Prop :=
| Nothing_typed : in_directory [] dot []
| Whole_directory d : in_directory (d ++ [slash]) (d ++ [slash]) []
| Plain_name p : entry_name p -> in_directory p dot p
| Below_root p : entry_name p -> in_directory (slash :: p) [slash] p
| Below d p : d <> [] -> entry_name p -> in_directory (d ++ slash :: p) d p.
(** the path of the entry [n] of the directory [d], as it is written *)
Definition inside (d n s : str) : Prop :=
  d = dot /\ s = n \/
  d <> dot /\ ((exists e, d = e ++ [slash]) /\ s = d ++ n \/ ~ (exists e, d = e ++ [slash]) /\ s = d ++ slash :: n).
