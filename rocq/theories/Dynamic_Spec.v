(** What the theorems about the project's completions say, without the functions of the model. *)
From Verif Require Import Base.
From Verif Require Direnv_Model Runtime_Spec.
From Verif Require Import Dynamic_Model.

(** a line that says nothing: blank or a comment *)
Definition quiet (l : str) : Prop := trim l = [] \/ exists r, trim l = chr "#" :: r.
Definition blanks (s : str) : Prop := Forall (fun c => is_whitespace c = true) s.
(** a name as it is written for a key: no blank in it, no colon at its end, neither a list item nor a comment *)
Definition key_name (n : str) : Prop :=
  n <> [] /\ Forall (fun c => is_whitespace c = false) n /\ last n 0%N <> chr ":" /\ hd 0%N n <> chr "-" /\ hd 0%N n <> chr "#".
(** the lines of a block of services, each name on a line of its own [k] columns in, and what it is
    made of deeper; [begun]: a service is already there *)
Inductive Services (k : nat) : bool -> list str -> list str -> Prop :=
| Sv_end : forall begun, Services k begun [] []
| Sv_quiet : forall begun l ls ns, quiet l -> Services k begun ls ns -> Services k begun (l :: ls) ns
| Sv_service : forall begun sp n tail ls ns, blanks sp -> length sp = k -> key_name n -> blanks tail -> Services k true ls ns ->
    Services k begun ((sp ++ n ++ chr ":" :: tail) :: ls) (n :: ns)
| Sv_inside : forall sp c r ls ns, blanks sp -> k < length sp -> is_whitespace c = false -> Services k true ls ns ->
    Services k true ((sp ++ c :: r) :: ls) ns.
(** a line that begins in the first column *)
Definition flush_left (l : str) : Prop := ~ quiet l /\ exists c r, l = c :: r /\ is_whitespace c = false.

(** the nearest of some files, those named first first *)
Definition Nearest_of (d : disk) (cwd : path) (names : list str) (p : path) : Prop :=
  exists a b pre n post, cwd = a ++ b /\ names = pre ++ n :: post /\ p = a ++ [n] /\ d p <> None
    /\ (forall m, In m pre -> d (a ++ [m]) = None)
    /\ (forall a' b' m, cwd = a' ++ b' -> length a < length a' -> In m names -> d (a' ++ [m]) = None).

(** time stamp and size of a file tell what is in it *)
Definition telling (ws : list world) : Prop :=
  forall w w' p, In w ws -> In w' ws -> signature w p = signature w' p -> files w p = files w' p.
(** the lock files, the justfiles and what make and just say are the same *)
Definition unwatched : list str := map lit ["bun.lockb"; "pnpm-lock.yaml"; "yarn.lock"; "Justfile"; "justfile"; ".justfile"]%string.
Definition rest_same (ws : list world) : Prop :=
  forall w w', In w ws -> In w' ws -> make_ w = make_ w' /\ just_ w = just_ w'
    /\ forall root n, In n unwatched -> files w (root ++ [n]) = None <-> files w' (root ++ [n]) = None.

(** a refresh of [k] ended with [v] and none ended with values after it *)
Definition Latest {K V} (h : list (event K V)) (k : K) (v : V) (t : nat) : Prop :=
  exists h1 h2, h = h1 ++ End t k (Some v) :: h2 /\ forall t' r, In (End t' k r) h2 -> r = None.
(** a line of the answer of a program that ended well and in time *)
Definition told (c : child) (l : str) : Prop :=
  success c = true /\ (exists e, ends c = Some e /\ e <= 1500) /\ exists l0, In l0 (Direnv_Model.lines (says c)) /\ l = trim l0 /\ l <> [].
