(** What is expected of comp-gen and of the definitions it saves. *)
From Verif Require Import Base Comp_Model Comp_Run_Props Loader_Model Loader_Spec.
From Verif Require Compgen_Model.

(** an option or an argument of a definition, at any depth *)
Definition an_option (d : definition) (o : coption) : Prop := In o (d_globals d) \/ exists s, within (d_subs d) s /\ In o (s_options s).
Definition an_argument (d : definition) (a : argument) : Prop := In a (d_arguments d) \/ exists s, within (d_subs d) s /\ In a (s_arguments s).
(** something stands there *)
Definition said (s : str) : Prop := exists c, In c s /\ is_whitespace c = false.
(** an option that can be written *)
Definition written (o : coption) : Prop :=
  (short o <> None \/ long o <> None) /\ (forall s, short o = Some s -> said s) /\ (forall l, long o = Some l -> said l).

(** reading the files of a directory: [text] is what is in a file *)
Definition look_at (parse : str -> option Compgen_Model.json) (text : str -> option str) (p : str) : look :=
  match text p with
  | None => Absent
  | Some t => match parse t with
              | Some j => match Compgen_Model.decode j with Some f => Is f | None => Broken end
              | None => Broken
              end
  end.

(** the words behind comp-gen that are no options *)
Definition plain_words (args : list str) : list str := filter (fun a => negb (starts_with (lit "-") a)) args.

(** what comes out on stdout *)
Definition stdout_of (es : list Compgen_Model.event) : str := flat_map (fun e => match e with Compgen_Model.Out s => s | _ => [] end) es.
(** where a path below a directory leads, by its parts: [..] goes up; [None]: above the directory *)
Fixpoint below (at_ : list str) (parts : list str) : option (list str) :=
  match parts with
  | [] => Some at_
  | p :: r => if str_eqb p (lit "..") then match rev at_ with [] => None | _ :: up => below (rev up) r end else below (at_ ++ [p]) r
  end.
