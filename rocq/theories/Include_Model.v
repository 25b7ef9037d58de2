(** The include builtin: dsh-builtin/src/include.rs.

    The program bash is an oracle: it is given a text and an environment and returns
    a status and what it wrote.  Bytes of the output are characters, or [None] for a
    byte that is not part of a character in UTF-8.  Iteration over HashMaps is
    iteration over lists.  Messages are left out. *)
From Verif Require Import Base Output_Model Env_Model.

Definition raw := list (option char).
Definition valid (s : str) : raw := map Some s.

Definition apostrophe : char := 39%N.
(** include.rs l.10-12 shell_escape_single *)
Definition escape_single (s : str) : str :=
  apostrophe :: flat_map (fun c => if (c =? apostrophe)%N then lit "'\''" else [c]) s ++ [apostrophe].
(** slice::join *)
Fixpoint join_with (sep : str) (l : list str) : str :=
  match l with [] => [] | [x] => x | x :: r => x ++ sep ++ join_with sep r end.
(** include.rs l.32-45: the text for bash -c *)
Definition source_cmd (script : str) (args : list str) : str :=
  match args with
  | [] => lit "source " ++ escape_single script ++ lit " && env -0"
  | _ => lit "set -- " ++ join_with (lit " ") (map escape_single args) ++ lit "; source " ++ escape_single script ++ lit " && env -0"
  end.

(** std::str::from_utf8 *)
Fixpoint from_utf8 (b : raw) : option str :=
  match b with
  | [] => Some []
  | Some c :: r => match from_utf8 r with Some s => Some (c :: s) | None => None end
  | None :: _ => None
  end.
(** slice::split at the NUL bytes *)
Fixpoint split_nul (cur : raw) (b : raw) : list raw :=
  match b with
  | [] => [rev cur]
  | Some 0%N :: r => rev cur :: split_nul [] r
  | x :: r => split_nul (x :: cur) r
  end.
(** str::split_once at the first equals sign *)
Fixpoint split_once (s : str) : option (str * str) :=
  match s with
  | [] => None
  | c :: r => if (c =? chr "=")%N then Some ([], r)
              else match split_once r with Some (k, v) => Some (c :: k, v) | None => None end
  end.
(** include.rs l.57-71: new_env *)
Definition add_part (m : map_) (part : raw) : map_ :=
  match part with
  | [] => m
  | _ => match from_utf8 part with
         | Some s => match split_once s with Some (k, v) => insert k v m | None => m end
         | None => m
         end
  end.
Definition new_env (stdout : raw) : map_ := fold_left add_part (split_nul [] stdout) [].

(** include.rs l.6-8 *)
Definition protected_vars : list str :=
  [lit "HOME"; lit "PATH"; lit "PWD"; lit "OLDPWD"; lit "SHELL"; lit "TERM"; lit "USER"; lit "LOGNAME"; lit "LANG"].
(** std::env::var(key).unwrap_or_default(), in the shell's own process *)
Definition current (proc : map_) (k : str) : str := match assoc k proc with Some v => v | None => [] end.
(** include.rs l.111-118 *)
Definition set_new (proc : map_) (m : map_) (e : env) : env :=
  fold_left (fun e p => if str_eqb (current proc (fst p)) (snd p) then e else set_env_var (fst p) (snd p) e) m e.
(** include.rs l.120-130 *)
Definition gone (m : map_) (k : str) : bool :=
  match assoc k m with Some _ => false | None => negb (mem_str k protected_vars) && negb (starts_with (lit "DSH_") k) end.
Definition unset_gone (proc : map_) (m : map_) (e : env) : env :=
  fold_left (fun e p => if gone m (fst p) then unset_env_var (fst p) e else e) proc e.

(** what running bash gives: its status and its standard output, or [None] if it could
    not be started *)
Definition bash := str -> map_ -> option (nat * raw).
(** include.rs l.18-140 command: [proc] is the environment of the shell's own process,
    which bash inherits; the result is the exit status.  A bash killed by a signal has
    some status other than 0. *)
Definition include (run : bash) (proc : map_) (argv : list str) (e : env) : nat * env :=
  match argv with
  | _ :: script :: args =>
      match run (source_cmd script args) proc with
      | Some (0, out) => let m := new_env out in (0, unset_gone proc m (set_new proc m e))
      | Some (status, _) => (status, e)
      | None => (1, e)
      end
  | _ => (1, e)
  end.
