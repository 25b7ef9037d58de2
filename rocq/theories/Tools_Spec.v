(** What the user relies on when the language model uses the tools. *)
From Verif Require Import Base Fs_Model Tools_Model.

(** [q] is in or below [d], where [d] is resolved if it exists and read literally
    otherwise *)
Definition inside (f : fs) (d : upath) (q : path) : Prop :=
  exists r rest, q = r ++ rest /\
    (canonicalize f d = Some r \/ (canonicalize f d = None /\ r = normalize_path d)).
Definition allowed (f : fs) (cwd skills : upath) (q : path) : Prop :=
  inside f cwd q \/ inside f skills q.
(** [q] is a directory on the way to an allowed directory, or inside one *)
Definition on_the_way (f : fs) (cwd skills : upath) (q : path) : Prop :=
  exists rest, allowed f cwd skills (q ++ rest).

(** every object sits in an existing directory *)
Definition well_formed (f : fs) : Prop :=
  forall d c k, f (d ++ [c]) = Some k -> d = [] \/ f d = Some KDir.
(** no path needs more links than the limit *)
Definition short_links (f : fs) : Prop :=
  forall n cs, resolve f n [] cs <> None -> resolve f max_links [] cs <> None.

(** an entry of the allowlist permits a command: same program text, and either any
    arguments or exactly these *)
Definition permits (split : str -> option (list str)) (entry program : str) (args : list str) : Prop :=
  split entry = Some [program] \/ split entry = Some (program :: args).

(** sh, bash, ...: "-c" may be combined with other one-letter options *)
Definition evaluates_string (args : list str) : Prop :=
  exists a, In a args /\ starts_with [45%N] a = true /\ starts_with [45%N; 45%N] a = false /\ In 99%N a.
