(** What is expected of the explanation of options. *)
From Verif Require Import Base Explain_Model.

(** the first option of a level that has a name, and the description it has *)
Definition says (which : xoption -> option str) (name : str) (os : list xoption) (d : str) : Prop :=
  exists before o after, os = before ++ o :: after /\ which o = Some name /\ x_text o = Some d /\
  forall p, In p before -> which p <> Some name.
(** the innermost level that describes an option of this name; levels are listed outermost first *)
Definition innermost (which : xoption -> option str) (name : str) (levels : list (list xoption)) (d : str) : Prop :=
  exists outer os inner, levels = outer ++ os :: inner /\ says which name os d /\
  forall p e, In p inner -> ~ says which name p e.
(** the levels a line of subcommands goes through: the global options, then those of each subcommand *)
Inductive nested : list xsub -> list str -> list (list xoption) -> Prop :=
| Here subs : nested subs [] []
| Inside before s after name names rest :
    xs_name s = name -> (forall b, In b before -> xs_name b <> name) -> nested (xs_subs s) names rest ->
    nested (before ++ s :: after) (name :: names) (xs_options s :: rest).
