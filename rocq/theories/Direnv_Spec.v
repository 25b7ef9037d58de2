(** What .env and .envrc files say, and what a session of directory changes should
    make of them, without reference to how the shell does it. *)
From Verif Require Import Base Output_Model Env_Model Fs_Model Direnv_Model.

(** an assignment in .envrc, written bare or between quotes *)
Inductive style := Bare | Double | Single.
(** the environment file of a directory, as its author means it: none, an .env file
    with these names and values, or an .envrc file with these exports *)
Inductive wanted :=
| Nothing
| DotEnv (l : list (str * str))
| EnvRc (l : list (style * (str * str))).

Definition assignments (w : wanted) : list (str * str) :=
  match w with Nothing => [] | DotEnv l => l | EnvRc l => map snd l end.

(** how the files are written *)
Definition quoted (s : style) (v : str) : str :=
  match s with Bare => v | Double => lit """" ++ v ++ lit """" | Single => lit "'" ++ v ++ lit "'" end.
Definition env_line (a : str * str) : str := fst a ++ lit "=" ++ snd a ++ [10%N].
Definition envrc_line (a : style * (str * str)) : str :=
  lit "export " ++ fst (snd a) ++ lit "=" ++ quoted (fst a) (snd (snd a)) ++ [10%N].
Definition written (w : wanted) : dirfiles :=
  match w with
  | Nothing => Files NoFile NoFile
  | DotEnv l => Files (Text (flat_map env_line l)) NoFile
  | EnvRc l => Files NoFile (Text (flat_map envrc_line l))
  end.

(** names in capitals, as is usual *)
Definition capital (k : str) : Prop :=
  k <> [] /\ forall c, In c k -> (c < 128)%N /\ is_whitespace c = false /\ c <> chr "=" /\ ~ (97 <= c <= 122)%N.
Definition one_line (v : str) : Prop := ~ In 10%N v.
(** a value that is not quoted neither begins nor ends in a blank *)
Definition trimmed (v : str) : Prop :=
  match v with c :: _ => is_whitespace c = false | [] => True end /\
  match rev v with c :: _ => is_whitespace c = false | [] => True end.
Definition unquoted (v : str) : Prop :=
  match v with c :: _ => c <> chr """" /\ c <> chr "'" | [] => True end.
Definition good (w : wanted) : Prop :=
  match w with
  | Nothing => True
  | DotEnv l => Forall (fun a => capital (fst a) /\ one_line (snd a) /\ trimmed (snd a)) l
  | EnvRc l => Forall (fun a => capital (fst (snd a)) /\ one_line (snd (snd a)) /\
                               match fst a with Bare => trimmed (snd (snd a)) /\ unquoted (snd (snd a)) | _ => True end) l
  end.

(** the value the file gives a name: of several, the last *)
Fixpoint last_value (k : str) (l : list (str * str)) : option str :=
  match l with
  | [] => None
  | (k', v) :: r => match last_value k r with Some x => Some x | None => if str_eqb k k' then Some v else None end
  end.
Definition names (w : wanted) : list str := map fst (assignments w).

(** a session: the files at the time of each change, and the directory entered, or
    [None] if the change failed *)
Definition step := ((list str -> wanted) * option (list str))%type.
Definition files (s : step) : (list str -> dirfiles) * option (list str) :=
  (fun d => written (fst s d), snd s).

(** the directory's file in force after a session, the latest change first: the one
    it had when the session last entered the directory from outside *)
Fixpoint in_force (root : list str) (latest_first : list step) : option wanted :=
  match latest_first with
  | [] => None
  | (_, None) :: older => in_force root older
  | (w, Some d) :: older =>
      if path_starts_with root d then
        match in_force root older with Some x => Some x | None => Some (w root) end
      else None
  end.

(** where the session is *)
Fixpoint place (start : list str) (latest_first : list step) : list str :=
  match latest_first with
  | [] => start
  | (_, Some d) :: _ => d
  | (_, None) :: older => place start older
  end.

(** a new session: roots allowed, none of them entered yet *)
Definition fresh (start : list str) (e : env) (allowed : list (list str)) (p : str) : world :=
  World start e (map (fun d => Dirent d [] p false) allowed).

(** the names of the files belong to one directory each and are not otherwise used *)
Definition separate (allowed : list (list str)) (e : env) (steps : list step) : Prop :=
  NoDup allowed /\
  (forall s d k, In s steps -> In d allowed -> In k (names (fst s d)) ->
     k <> PATH /\ k <> PWD /\ assoc k (system e) = None) /\
  (forall s s' d d' k, In s steps -> In s' steps -> In d allowed -> In d' allowed ->
     In k (names (fst s d)) -> In k (names (fst s' d')) -> d = d').
