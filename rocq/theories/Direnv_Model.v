(** Directory environments and changing the directory: dsh/src/direnv.rs,
    dsh/src/shell/hooks.rs (exec_chpwd_hooks), dsh/src/proxy/mod.rs (changepwd),
    dsh-builtin/src/cd.rs (the argument -), dsh/src/lisp/builtin.rs (allow-direnv,
    add_path).

    Directories are absolute and given by their components (Path::starts_with, by
    which direnv.rs compares, is component-wise); a root that is written relative
    never matches and is left out.  Messages are not modelled. *)
From Verif Require Import Base Output_Model Env_Model Fs_Model.

(** Path::display of an absolute path *)
Definition show_path (p : list str) : str :=
  match p with [] => lit "/" | _ => flat_map (fun c => chr "/" :: c) p end.

(** direnv.rs l.9-26 Entry (the field [old] of PathAddEntry is never read) *)
Inductive entry := EnvEntry (key value : str) | PathAdd (dir : str).

(** direnv.rs l.28-34 DirEnvironment *)
Record dirent := Dirent { dpath : list str; entries : list entry; env_path : str; loaded : bool }.

(** a file as fs::read_to_string sees it *)
Inductive file := NoFile | Unreadable | Text (s : str).
(** the two files direnv looks for in a directory *)
Record dirfiles := Files { dotenv : file; envrc : file }.

(** the results of reading: the panic is the index parts[1] out of range *)
Inductive outcome (A : Type) := Done (x : A) | Failed (* Err *) | Panicked.
Arguments Done {A}. Arguments Failed {A}. Arguments Panicked {A}.

(** str::lines: split at newlines, no last empty line, one carriage return removed
    from the end of a line *)
Definition strip_cr (l : str) : str :=
  match rev l with c :: r => if (c =? 13)%N then rev r else l | [] => l end.
Fixpoint lines_aux (cur : str) (s : str) : list str :=
  match s with
  | [] => match cur with [] => [] | _ => [rev cur] end
  | c :: r => if (c =? 10)%N then strip_cr (rev cur) :: lines_aux [] r else lines_aux (c :: cur) r
  end.
Definition lines (s : str) : list str := lines_aux [] s.

(** str::splitn(2, c) collected: the first part and, if [c] occurs, the rest *)
Fixpoint splitn2 (c : char) (s : str) : str * option str :=
  match s with
  | [] => ([], None)
  | x :: r => if (x =? c)%N then ([], Some r) else let (a, b) := splitn2 c r in (x :: a, b)
  end.

Section Direnv.
(** str::to_uppercase on a character beyond ASCII *)
Variable up : char -> str.
Definition up_char (c : char) : str :=
  if (c <? 128)%N then [if (97 <=? c)%N && (c <=? 122)%N then (c - 32)%N else c] else up c.
Definition to_uppercase (s : str) : str := flat_map up_char s.

(** direnv.rs l.116-126 read_env_config_file, the loop *)
Fixpoint read_env_lines (ls : list str) : outcome (list entry) :=
  match ls with
  | [] => Done []
  | l :: rest =>
      match splitn2 (chr "=") l with
      | (k, Some v) =>
          match read_env_lines rest with
          | Done es => Done (EnvEntry (to_uppercase (trim k)) (trim v) :: es)
          | o => o
          end
      | (_, None) => Panicked
      end
  end.

(** direnv.rs l.148-155: quotes around a value (value.len() is in bytes, and >= 2
    whenever there are two quotes) *)
Definition strip_quotes (v : str) : str :=
  match v with
  | c :: r =>
      if (c =? chr """")%N || (c =? chr "'")%N then
        match rev r with
        | d :: m => if (d =? c)%N then rev m else v
        | [] => v
        end
      else v
  | [] => v
  end.

(** direnv.rs l.128-162 read_envrc_config_file, the loop *)
Fixpoint read_envrc_lines (ls : list str) : outcome (list entry) :=
  match ls with
  | [] => Done []
  | l :: rest =>
      match splitn2 (chr " ") l with
      | (c, Some v) =>
          let cmd := to_uppercase (trim c) in
          let value := trim v in
          if str_eqb cmd (lit "PATH_ADD") then
            match read_envrc_lines rest with
            | Done es => Done (PathAdd value :: es)
            | o => o
            end
          else if str_eqb cmd (lit "EXPORT") then
            match splitn2 (chr "=") value with
            | (k, Some x) =>
                match read_envrc_lines rest with
                | Done es => Done (EnvEntry (to_uppercase (trim k)) (strip_quotes (trim x)) :: es)
                | o => o
                end
            | (_, None) => Panicked
            end
          else read_envrc_lines rest
      | (_, None) => Panicked
      end
  end.

(** direnv.rs l.88-113 read_env_file (of a root that is not loaded): the entries it
    appends.  .envrc needs the process to have a PATH, which allow-direnv has
    already asked for. *)
Definition read_env_file (f : dirfiles) : outcome (list entry) :=
  match dotenv f with
  | Text s => read_env_lines (lines s)
  | Unreadable => Failed
  | NoFile =>
      match envrc f with
      | Text s => read_envrc_lines (lines s)
      | Unreadable => Failed
      | NoFile => Done []
      end
  end.

(** direnv.rs l.46-68 set_env (of a root that is not loaded): the loop over the
    entries carries the growing search path *)
Fixpoint set_entries (es : list entry) (p : str) (e : env) : str * env :=
  match es with
  | [] => (p, e)
  | EnvEntry k v :: r => set_entries r p (set_env_var k v e)
  | PathAdd d :: r => set_entries r (d ++ p) e
  end.
Definition set_env (es : list entry) (e : env) : env :=
  let p := match assoc PATH (system e) with Some v => v | None => [] end in
  let (p', e') := set_entries es p e in
  set_env_var PATH p' e'.

Definition is_path_add (x : entry) : bool := match x with PathAdd _ => true | _ => false end.
(** direnv.rs l.70-86 remove_env (of a loaded root), without the clearing of the
    entries *)
Definition remove_env (d : dirent) (e : env) : env :=
  let e' := fold_left (fun e x => match x with EnvEntry k _ => unset_env_var k e | PathAdd _ => e end)
                      (entries d) e in
  if existsb is_path_add (entries d) then set_env_var PATH (env_path d) e' else e'.

(** direnv.rs l.164-205 check_path, the loop.  The second component of the result
    is the list of roots that is left: a root whose file cannot be read has been
    taken out. *)
Fixpoint check_roots (fs : list str -> dirfiles) (pwd : list str) (ds : list dirent) (e : env)
  : outcome unit * list dirent * env :=
  match ds with
  | [] => (Done tt, [], e)
  | d :: rest =>
      if path_starts_with (dpath d) pwd && negb (loaded d) then
        match read_env_file (fs (dpath d)) with
        | Done es =>
            let es' := entries d ++ es in
            let '(o, l, e') := check_roots fs pwd rest (set_env es' e) in
            (o, Dirent (dpath d) es' (env_path d) true :: l, e')
        | Failed => (Failed, rest, e)
        | Panicked => (Panicked, rest, e)
        end
      else if negb (path_starts_with (dpath d) pwd) && loaded d then
        let '(o, l, e') := check_roots fs pwd rest (remove_env d e) in
        (o, Dirent (dpath d) [] (env_path d) false :: l, e')
      else
        let '(o, l, e') := check_roots fs pwd rest e in (o, d :: l, e')
  end.

Definition check_path (fs : list str -> dirfiles) (pwd : list str) (ds : list dirent) (e : env)
  : outcome unit * list dirent * env :=
  let '(o, l, e') := check_roots fs pwd ds e in
  match o with Done _ => (o, l, reload_path e') | _ => (o, l, e') end.

(** the session: where the shell is, its environment, the roots allowed *)
Record world := World { cwd : list str; wenv : env; roots : list dirent }.

Definition OLDPWD := lit "OLDPWD".
Definition PWD := lit "PWD".

(** lisp/builtin.rs l.166-181 allow_direnv and direnv.rs l.36-44 new: [p] is the
    PATH of the shell's own process *)
Definition allow_direnv (dir : list str) (p : str) (w : world) : world :=
  World (cwd w) (wenv w) (roots w ++ [Dirent dir [] p false]).

(** proxy/mod.rs l.88-112 changepwd and hooks.rs l.10-23: [target] is the directory
    entered, [None] when set_current_dir fails.  The directory history, the Lisp
    hooks and the project variable that follow are left out. *)
Definition changepwd (fs : list str -> dirfiles) (target : option (list str)) (w : world)
  : outcome unit * world :=
  let e1 := set_var OLDPWD (show_path (cwd w)) (wenv w) in
  match target with
  | None => (Failed, World (cwd w) e1 (roots w))
  | Some d =>
      let e2 := set_env_var PWD (show_path d) e1 in
      let '(o, l, e3) := check_path fs d (roots w) e2 in
      (o, World d e3 l)
  end.

(** a session of directory changes, each with the files of its time; it ends at a
    panic *)
Fixpoint changes (steps : list ((list str -> dirfiles) * option (list str))) (w : world)
  : outcome unit * world :=
  match steps with
  | [] => (Done tt, w)
  | (fs, t) :: rest =>
      match changepwd fs t w with
      | (Panicked, w') => (Panicked, w')
      | (_, w') => changes rest w'
      end
  end.

(** cd.rs l.36-46: the directory that `cd -' asks for *)
Definition cd_minus (w : world) : option str := get_var (wenv w) OLDPWD.
End Direnv.
