(** Choosing a task and reading a Taskfile: dsh-builtin/src/task.rs and
    dsh-builtin/src/project_context.rs.

    The detection of tasks of other kinds (which reads JSON and TOML and asks make and
    just) is an arbitrary list of tasks.  Listing and the interactive choice are only the
    fact that they run nothing by themselves. *)
From Verif Require Import Base Include_Model Direnv_Model.

(** task.rs l.18-33 *)
Record task := Task { source : str; name : str; command : str }.
Definition task_eqb (a b : task) : bool :=
  str_eqb (source a) (source b) && str_eqb (name a) (name b) && str_eqb (command a) (command b).

(** task.rs l.516-526 dedup_task_infos: [seen] the ones before *)
Fixpoint dedup (seen l : list task) : list task :=
  match l with
  | [] => []
  | t :: r => if existsb (task_eqb t) seen then dedup seen r else t :: dedup (t :: seen) r
  end.

(** str::split_once at a colon *)
Fixpoint split_colon (s : str) : option (str * str) :=
  match s with
  | [] => None
  | c :: r => if (c =? chr ":")%N then Some ([], r)
              else match split_colon r with Some (a, b) => Some (c :: a, b) | None => None end
  end.
(** task.rs l.245-248 split_qualified_task *)
Definition split_qualified (target : str) : option (str * str) :=
  match split_colon target with
  | Some ((_ :: _) as s, (_ :: _) as n) => Some (s, n)
  | _ => None
  end.
(** task.rs l.250-263 split_qualified_task_for_known_source *)
Definition split_known (tasks : list task) (src : option str) (target : str) : option str * str :=
  match src, split_qualified target with
  | None, Some (s, n) => if existsb (fun t => str_eqb (source t) s) tasks then (Some s, n) else (src, target)
  | _, _ => (src, target)
  end.
(** task.rs l.265-275 filtered_tasks *)
Definition is_none_or {A} (f : A -> bool) (o : option A) : bool := match o with None => true | Some x => f x end.
Definition filtered (tasks : list task) (src target : option str) : list task :=
  filter (fun t => is_none_or (str_eqb (name t)) target) (filter (fun t => is_none_or (str_eqb (source t)) src) tasks).
(** task.rs l.290-318 select_task *)
Inductive selection := Selected (t : task) | Ambiguous (l : list task) | NotFound.
Definition select (tasks : list task) (src : option str) (target : str) : selection :=
  let (src, target) := split_known tasks src target in
  match filtered tasks src (Some target) with
  | [] => NotFound
  | [t] => Selected t
  | l => Ambiguous l
  end.

(** task.rs l.177-218 parse_options *)
Record options := Options { list_ : bool; help : bool; opt_source : option str; target : option str }.
Fixpoint parse_options (o : options) (args : list str) : option options :=
  match args with
  | [] => Some o
  | a :: r =>
      if mem_str a (map lit ["-h"; "--help"; "help"]%string) then parse_options (Options (list_ o) true (opt_source o) (target o)) r
      else if mem_str a (map lit ["-l"; "--list"; "list"; "--json"]%string) then parse_options (Options true (help o) (opt_source o) (target o)) r
      else if mem_str a (map lit ["-s"; "--source"]%string) then
        match r with
        | s :: r' => parse_options (Options (list_ o) (help o) (Some s) (target o)) r'
        | [] => None
        end
      else if starts_with (lit "-") a then None
      else match target o with
           | Some _ => None
           | None => parse_options (Options (list_ o) (help o) (opt_source o) (Some a)) r
           end
  end.
(** task.rs l.57-175 command, what it decides to run: the task given to execute_task.
    [None]: nothing, or the interactive choice. *)
Definition chosen (tasks : list task) (args : list str) : option task :=
  match parse_options (Options false false None None) args with
  | None => None
  | Some o =>
      if help o || list_ o then None
      else match target o with
           | Some t => match select tasks (opt_source o) t with Selected x => Some x | _ => None end
           | None => None
           end
  end.

(** project_context.rs l.440-491 detect_taskfile_tasks, the loop over the lines *)
Definition skipped_names : list str := map lit ["desc"; "cmd"; "cmds"; "deps"; "vars"; "env"]%string.
Definition tab : char := 9%N.
Fixpoint scan (in_tasks : bool) (ls : list str) : list str :=
  match ls with
  | [] => []
  | line :: r =>
      let trimmed := trim line in
      match trimmed with
      | [] => scan in_tasks r
      | c :: _ =>
          if (c =? chr "#")%N then scan in_tasks r
          else if negb in_tasks then scan (str_eqb trimmed (lit "tasks:")) r
          else if negb (starts_with (lit " ") line) && negb (starts_with [tab] line) then []
          else match split_colon trimmed with
               | Some (raw, _) =>
                   if negb (starts_with (lit "  ") line) && negb (starts_with [tab] line) then scan true r
                   else let n := trim raw in
                        match n with
                        | [] => scan true r
                        | d :: _ => if (d =? chr "{")%N || mem_str n skipped_names then scan true r else n :: scan true r
                        end
               | None => scan true r
               end
      end
  end.
Definition taskfile_names (text : str) : list str := scan false (lines text).
