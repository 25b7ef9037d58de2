(** The project manager: dsh-builtin/src/project.rs, dsh-types/src/project.rs,
    dsh-builtin/src/project_context.rs (find_project_root) and the end of
    dsh/src/shell/hooks.rs (exec_chpwd_hooks).

    Directories are absolute, canonical and given by their components.  The file
    projects.json is the list it decodes to (serde_json writes and reads back the same
    list; a file that cannot be read or written is left out).  Times are seconds.
    Messages are not modelled. *)
From Verif Require Import Base Output_Model Env_Model Fs_Model Direnv_Model.

(** dsh-types/src/project.rs l.5-11 Project; the description is never set *)
Record project := Project { pname : str; ppath : list str; accessed : N; created : N }.

(** Path::file_name of an absolute canonical path *)
Definition file_name (dir : list str) : option str := last (map Some dir) None.

Definition named (n : str) (p : project) : bool := str_eqb (pname p) n.
Fixpoint path_eqb (a b : list str) : bool :=
  match a, b with
  | [], [] => true
  | x :: a', y :: b' => str_eqb x y && path_eqb a' b'
  | _, _ => false
  end.
Definition at_path (d : list str) (p : project) : bool := path_eqb (ppath p) d.

(** project.rs l.136-171 add: [dir] is the current directory or the canonical form of the first
    argument ([None]: it has none), [given] the second argument.  [None] is an error. *)
Definition add (dir : option (list str)) (given : option str) (now : N) (ps : list project) : option (list project) :=
  match dir with
  | None => None
  | Some d =>
      match (match given with Some n => Some n | None => file_name d end) with
      | None => None
      | Some n =>
          if existsb (named n) ps then None
          else if existsb (at_path d) ps then None
          else Some (ps ++ [Project n d now now])
      end
  end.

(** sort_by_key(Reverse(last_accessed)), which is stable *)
Fixpoint ins (p : project) (l : list project) : list project :=
  match l with
  | [] => [p]
  | q :: r => if (accessed q <=? accessed p)%N then p :: l else q :: ins p r
  end.
Definition sorted (ps : list project) : list project := fold_right ins [] ps.

(** project.rs l.173-198 list: the projects in the order they are printed *)
Definition list_projects (ps : list project) : list project := sorted ps.

(** project.rs l.200-218 remove *)
Definition remove_project (n : str) (ps : list project) : option (list project) :=
  let kept := filter (fun p => negb (named n p)) ps in
  if length kept =? length ps then None else Some kept.

(** project.rs l.220-237 work, up to the save: the project found and the list with its time set *)
Fixpoint touch (n : str) (now : N) (ps : list project) : option (project * list project) :=
  match ps with
  | [] => None
  | p :: r =>
      if named n p then
        let p' := Project (pname p) (ppath p) now (created p) in Some (p', p' :: r)
      else match touch n now r with Some (q, r') => Some (q, p :: r') | None => None end
  end.

(** project.rs l.98-124 find_project_by_path *)
Fixpoint best (cur : option project) (dir : list str) (ps : list project) : option project :=
  match ps with
  | [] => cur
  | p :: r =>
      if path_starts_with (ppath p) dir then
        match cur with
        | None => best (Some p) dir r
        | Some c => best (if length (ppath c) <? length (ppath p) then Some p else cur) dir r
        end
      else best cur dir r
  end.
Definition find_project_by_path (dir : list str) (ps : list project) : option project := best None dir ps.

Definition DSH_PROJECT := lit "DSH_PROJECT".
Definition opt_eqb (a b : option str) : bool :=
  match a, b with Some x, Some y => str_eqb x y | None, None => true | _, _ => false end.

(** hooks.rs l.32-65, the end of exec_chpwd_hooks, without the Lisp hook of the switch *)
Definition switch_project (dir : list str) (ps : list project) (e : env) : env :=
  let cur := option_map pname (find_project_by_path dir ps) in
  let old := get_var e DSH_PROJECT in
  if opt_eqb cur old then e
  else match cur with
       | Some n => set_variables e (insert DSH_PROJECT n (variables e))
       | None => set_variables e (remove DSH_PROJECT (variables e))
       end.

(** the file of projects and the session *)
Record desk := Desk { projects : list project; world_ : world }.

Section Sessions.
(** str::to_uppercase beyond ASCII (used by direnv) *)
Variable up : char -> str.
(** the files direnv finds *)
Variable fs : list str -> dirfiles.
(** set_current_dir succeeds *)
Variable enters : list str -> bool.

(** proxy/mod.rs l.88-112 changepwd with the whole of exec_chpwd_hooks (the chpwd hooks written in
    Rust and Lisp left out).  An error of direnv returns before the project is looked up. *)
Definition go (dir : list str) (s : desk) : outcome unit * desk :=
  match Direnv_Model.changepwd up fs (if enters dir then Some dir else None) (world_ s) with
  | (Done u, w) => (Done u, Desk (projects s) (World (cwd w) (switch_project (cwd w) (projects s) (wenv w)) (roots w)))
  | (o, w) => (o, Desk (projects s) w)
  end.

(** project.rs l.220-250 work *)
Definition work (n : str) (now : N) (s : desk) : outcome unit * desk :=
  match touch n now (projects s) with
  | None => (Failed, s)
  | Some (p, ps) => go (ppath p) (Desk ps (world_ s))
  end.

(** project.rs l.14-80 command, l.469-491 jump, and cd to a directory.  [PmJump None] is pj or
    pm jump without a name, whose menu offers the names in the order of the list; its answer is
    [choice]. *)
Inductive pm :=
| PmAdd (dir : option (list str)) (given : option str) (now : N)
| PmRemove (name : option str)
| PmWork (name : option str) (now : N)
| PmList
| PmJump (name : option str) (choice : list str -> option str) (now : N)
| Cd (dir : list str).

Definition step (c : pm) (s : desk) : outcome unit * desk :=
  match c with
  | PmAdd d g now =>
      match add d g now (projects s) with Some ps => (Done tt, Desk ps (world_ s)) | None => (Failed, s) end
  | PmRemove (Some n) =>
      match remove_project n (projects s) with Some ps => (Done tt, Desk ps (world_ s)) | None => (Failed, s) end
  | PmRemove None => (Failed, s)
  | PmWork (Some n) now => work n now s
  | PmWork None _ => (Failed, s)
  | PmList => (Done tt, s)
  | PmJump (Some n) _ now => work n now s
  | PmJump None choice now =>
      match projects s with
      | [] => (Done tt, s)
      | _ => match choice (map pname (sorted (projects s))) with
             | Some n => work n now s
             | None => (Done tt, s)
             end
      end
  | Cd d => go d s
  end.

(** a session, which a panic of direnv ends: what was given and how it ended, and the end *)
Fixpoint session (cs : list pm) (s : desk) : list (pm * outcome unit) * desk :=
  match cs with
  | [] => ([], s)
  | c :: r =>
      match step c s with
      | (Panicked, s') => ([(c, Panicked)], s')
      | (o, s') => let (h, s'') := session r s' in ((c, o) :: h, s'')
      end
  end.
End Sessions.

(** ** pm activate *)

(** project_context.rs l.8-32 *)
Definition PROJECT_MARKERS : list str :=
  [lit "mise.toml"; lit ".tool-versions"; lit "Cargo.toml"; lit "rust-toolchain.toml"; lit "rust-toolchain";
   lit "package.json"; lit "turbo.json"; lit "project.json"; lit "pyproject.toml"; lit "requirements.txt";
   lit "Pipfile"; lit ".python-version"; lit ".node-version"; lit ".nvmrc"; lit "go.mod"; lit "Taskfile.yml";
   lit "Taskfile.yaml"; lit "Justfile"; lit "justfile"; lit ".justfile"; lit "Makefile"; lit "makefile"; lit ".git"].

(** project_context.rs l.81-98 find_project_root: Path::ancestors from the directory to the root;
    [rdir] is the directory reversed.  [exists_] is Path::exists. *)
Fixpoint ancestor_with (exists_ : list str -> bool) (rdir : list str) : option (list str) :=
  if existsb (fun m => exists_ (rev rdir ++ [m])) PROJECT_MARKERS then Some (rev rdir)
  else match rdir with [] => None | _ :: up => ancestor_with exists_ up end.
Definition find_project_root (exists_ : list str -> bool) (dir : list str) : list str :=
  match ancestor_with exists_ (rev dir) with Some d => d | None => dir end.

(** project.rs l.314-323 is_valid_env_key *)
Definition ascii_alpha (c : char) : bool := ((65 <=? c) && (c <=? 90) || (97 <=? c) && (c <=? 122))%N.
Definition ascii_digit (c : char) : bool := ((48 <=? c) && (c <=? 57))%N.
Definition is_valid_env_key (k : str) : bool :=
  match k with
  | [] => false
  | c :: r => ((c =? 95)%N || ascii_alpha c) && forallb (fun d => (d =? 95)%N || ascii_alpha d || ascii_digit d) r
  end.

(** project.rs l.325-335 unquote (the two quotes are of one byte each, so the slice is never inside
    a character) *)
Definition unquote (v : str) : str := strip_quotes (trim v).

(** project.rs l.298-305 parse_assignment *)
Definition parse_assignment (a : str) : option (str * str) :=
  match splitn2 (chr "=") a with
  | (k, Some v) => if is_valid_env_key (trim k) then Some (trim k, unquote (trim v)) else None
  | (_, None) => None
  end.

Definition comment (t : str) : bool := match t with [] => true | c :: _ => (c =? 35)%N end.

(** project.rs l.288-296 parse_assignment_line *)
Definition parse_assignment_line (l : str) : option (str * str) :=
  let t := trim l in
  if comment t then None
  else parse_assignment (trim (if starts_with (lit "export ") t then skipn 7 t else t)).

(** project.rs l.258-261 parse_dotenv_file *)
Definition parse_dotenv (s : str) : list (str * str) :=
  flat_map (fun l => match parse_assignment_line l with Some kv => [kv] | None => [] end) (lines s).

(** project.rs l.307-312 split_command_line: splitn(2, char::is_whitespace), of a trimmed line *)
Fixpoint split_space (s : str) : str * str :=
  match s with
  | [] => ([], [])
  | c :: r => if is_whitespace c then ([], r) else let (a, b) := split_space r in (c :: a, b)
  end.
Definition lower_ascii (s : str) : str := map (fun c => if (65 <=? c)%N && (c <=? 90)%N then (c + 32)%N else c) s.

(** project.rs l.263-286 parse_envrc_file: the variables and the directories of path_add *)
Inductive directive := Var (k v : str) | Dir (p : str).
Definition envrc_line (l : str) : option directive :=
  let t := trim l in
  if comment t then None
  else
    let (c, r) := split_space t in
    let cmd := lower_ascii (trim c) in
    if str_eqb cmd (lit "export") then
      match parse_assignment (trim r) with Some (k, v) => Some (Var k v) | None => None end
    else if str_eqb cmd (lit "path_add") then
      let p := unquote (trim r) in match p with [] => None | _ => Some (Dir p) end
    else None.
Definition parse_envrc (s : str) : list directive :=
  flat_map (fun l => match envrc_line l with Some d => [d] | None => [] end) (lines s).
Definition vars_of (ds : list directive) : list (str * str) :=
  flat_map (fun d => match d with Var k v => [(k, v)] | Dir _ => [] end) ds.
Definition adds_of (ds : list directive) : list str :=
  flat_map (fun d => match d with Var _ _ => [] | Dir p => [p] end) ds.

(** project.rs l.344-352 normalize_activation_path: shellexpand::tilde for a leading ~ or ~/ with the
    home directory [home]; Path::join *)
Definition tilde (home : str) (p : str) : str :=
  match p with
  | c :: r =>
      if (c =? 126)%N then
        match r with
        | [] => home
        | d :: _ => if (d =? 47)%N then home ++ r else p
        end
      else p
  | [] => p
  end.
Definition activation_path (home root p : str) : str := Env_Model.join root (tilde home p).

(** project.rs l.358-377 prepend_path.  The fallback to the PATH of the shell's own process is
    [own] (std::env::var). *)
Definition prepend_path (own : option str) (path : str) (e : env) : env :=
  let current := match get_var e PATH with
                 | Some v => v
                 | None => match own with Some v => v | None => [] end
                 end in
  if existsb (str_eqb path) (Base.split_on 58%N current) then e
  else set_env_var PATH (match current with [] => path | _ => path ++ 58%N :: current end) e.

(** what pm activate finds in the root: .env, .envrc, whether the root is allowed, and which of
    .venv and venv is a directory and has a directory bin *)
Record findings := Found { f_dotenv : file; f_envrc : file; f_allowed : bool; f_venv : option (str * bool) }.

Definition set_all (vs : list (str * str)) (e : env) : env := fold_left (fun e kv => set_env_var (fst kv) (snd kv) e) vs e.
Definition VIRTUAL_ENV := lit "VIRTUAL_ENV".

(** project.rs l.382-417 activate, the .env and .envrc steps *)
Definition apply_dotenv (f : file) (e : env) : option env :=
  match f with
  | NoFile => Some e
  | Unreadable => None
  | Text s => Some (set_all (parse_dotenv s) e)
  end.
Definition apply_envrc (home root : str) (own : option str) (f : file) (allowed : bool) (e : env) : option env :=
  match f with
  | NoFile => Some e
  | _ =>
      if allowed then
        match f with
        | Text s =>
            let ds := parse_envrc s in
            Some (fold_left (fun e p => prepend_path own (activation_path home root p) e) (adds_of ds) (set_all (vars_of ds) e))
        | _ => None
        end
      else Some e
  end.
(** project.rs l.419-430, the virtual environment *)
Definition apply_venv (home root : str) (own : option str) (v : option (str * bool)) (e : env) : env :=
  match v with
  | None => e
  | Some (name, bin) =>
      let venv := Env_Model.join root name in
      let e1 := set_env_var VIRTUAL_ENV venv e in
      if bin then prepend_path own (activation_path home root (Env_Model.join venv (lit "bin"))) e1 else e1
  end.

(** project.rs l.379-443 activate: the environment left, and whether it ended without an error *)
Definition activate (home root : str) (own : option str) (x : findings) (e : env) : env * bool :=
  match apply_dotenv (f_dotenv x) e with
  | None => (e, false)
  | Some e1 =>
      match apply_envrc home root own (f_envrc x) (f_allowed x) e1 with
      | None => (e1, false)
      | Some e2 => (apply_venv home root own (f_venv x) e2, true)
      end
  end.
