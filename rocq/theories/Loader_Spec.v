(** What is expected of the definitions of completions. *)
From Verif Require Import Base Comp_Model Loader_Model.

(** a name: not empty, no blanks *)
Definition named (s : str) : Prop := s <> [] /\ forall c, In c s -> is_whitespace c = false.
(** an option: -x in the short form, -xyz or --xyz in the long one, at least one of them *)
Definition good_short (s : str) : Prop := exists r, s = chr "-" :: r /\ hd 0%N r <> chr "-".
Definition good_long (s : str) : Prop := exists c r, s = chr "-" :: c :: r /\ s <> lit "--".
Definition good_option (o : coption) : Prop :=
  (short o <> None \/ long o <> None) /\ (forall s, short o = Some s -> good_short s) /\ (forall l, long o = Some l -> good_long l).
Inductive good_sub : subcommand -> Prop :=
| Good name aliases options args subs :
    named name -> Forall good_option options -> Forall good_sub subs -> good_sub (Sub name aliases options args subs).
Record good (f : file) : Prop := {
  good_name : named (f_command f);
  good_subs : Forall good_sub (d_subs (f_def f));
  good_globals : Forall good_option (d_globals (f_def f));
  good_arguments : Forall (fun n => n <> []) (f_names f) }.
(** there is a definition to be had at a path *)
Definition defines (fs : str -> look) (p : str) (f : file) : Prop := fs p = Is f /\ good f.
