(** What is said of a project: its runtimes and their versions, the files that set up its
    environment (dsh-builtin/src/project_context.rs) and the tasks it has
    (project_context.rs, dsh-builtin/src/task.rs).

    The disk is a function from paths to what is there.  Reading TOML and JSON texts is a
    parameter; the lists make and just write are texts. *)
From Verif Require Import Base.
From Verif Require Direnv_Model Project_Model Task_Model Compgen_Model.

Definition path := list str.
(** [Text None]: not to be read, or not UTF-8 *)
Inductive node := Text (s : option str) | Folder.
Definition disk := path -> option node.
Definition there (d : disk) (p : path) : bool := match d p with Some _ => true | None => false end.
(** fs::read_to_string *)
Definition read (d : disk) (p : path) : option str := match d p with Some (Text s) => s | _ => None end.
Definition lines := Direnv_Model.lines.
(** a trimmed line that says nothing *)
Definition idle := Project_Model.comment.
(** project_context.rs l.81-98 *)
Definition root_of (d : disk) (cwd : path) : path := Project_Model.find_project_root (there d) cwd.

(** project_context.rs l.391-399 find_path_upwards; [up] is the directory reversed *)
Fixpoint upwards (d : disk) (up : path) (name : str) : option path :=
  if there d (rev up ++ [name]) then Some (rev up ++ [name])
  else match up with [] => None | _ :: r => upwards d r name end.
Definition find_up (d : disk) (cwd : path) (name : str) : option path := upwards d (rev cwd) name.

(** project_context.rs l.401-408 read_trimmed_file, of the content *)
Definition first_line (s : str) : option str := find (fun t => negb (idle t)) (map trim (lines s)).
(** project_context.rs l.340-356 parse_tool_versions, over the lines *)
Fixpoint tool_lines (names : list str) (ls : list str) : option str :=
  match ls with
  | [] => None
  | l :: r =>
      if idle (trim l) then tool_lines names r
      else match split_whitespace (trim l) with
           | [] => None
           | tool :: rest => if mem_str tool names then match rest with [] => None | v :: _ => Some v end else tool_lines names r
           end
  end.
Definition tool_versions (names : list str) (s : str) : option str := tool_lines names (lines s).

(** toml::Value; dates, numbers and truth values together *)
Inductive tval := TStr (s : str) | TTab (l : list (str * tval)) | TArr (l : list tval) | TOther.
Fixpoint tget {A} (k : str) (l : list (str * A)) : option A :=
  match l with [] => None | (k', v) :: r => if str_eqb k k' then Some v else tget k r end.
(** toml::Value::get with as_table, as_str *)
Definition sub (k : str) (v : tval) : option tval := match v with TTab l => tget k l | _ => None end.
Definition as_text (v : option tval) : option str := match v with Some (TStr s) => Some s | _ => None end.
(** project_context.rs l.375-389 extract_version_from_toml *)
Fixpoint extract (v : tval) : option str :=
  match v with
  | TStr s => Some s
  | TTab l => as_text (tget (lit "version") l)
  | TArr l => (fix any (l : list tval) : option str := match l with [] => None | x :: r => match extract x with Some s => Some s | None => any r end end) l
  | TOther => None
  end.
Definition or_else {A} (x y : option A) : option A := match x with Some _ => x | None => y end.

(** project_context.rs l.48-54 *)
Record runtime := Runtime { lang : str; source : str; version : option str; file : path }.

Section Toml.
Variable toml : str -> option tval.

(** project_context.rs l.358-373 parse_mise_tool_version *)
Definition mise_version (names : list str) (s : str) : option str :=
  match toml s with
  | Some v =>
      match sub (lit "tools") v with
      | Some (TTab t) =>
          (fix go (ns : list str) : option str :=
             match ns with
             | [] => None
             | n :: r => match tget n t with Some x => match extract x with Some y => Some y | None => go r end | None => go r end
             end) names
      | _ => None
      end
  | None => None
  end.
(** a runtime whose version stands in the nearest file of the name: l.263-309
    detect_runtime_from_text_file, _from_tool_versions, _from_mise *)
Definition from_file (d : disk) (cwd : path) (l : str) (src name : str) (get : str -> option str) : option runtime :=
  match find_up d cwd name with
  | Some p => match read d p with Some s => match get s with Some v => Some (Runtime l src (Some v) p) | None => None end | None => None end
  | None => None
  end.
Definition from_mise (d : disk) (cwd : path) (l : str) (names : list str) : option runtime := from_file d cwd l (lit "mise") (lit "mise.toml") (mise_version names).
Definition from_tools (d : disk) (cwd : path) (l : str) (names : list str) : option runtime := from_file d cwd l (lit ".tool-versions") (lit ".tool-versions") (tool_versions names).
Definition from_text (d : disk) (cwd : path) (l : str) (name : str) : option runtime := from_file d cwd l name name first_line.
(** l.249-261 detect_runtime_from_directory *)
Definition from_folder (d : disk) (cwd : path) (l : str) (name : str) : option runtime :=
  match find_up d cwd name with
  | Some p => match d p with Some Folder => Some (Runtime l name None p) | _ => None end
  | None => None
  end.
Definition channel (s : str) : option str :=
  match toml s with Some v => match sub (lit "toolchain") v with Some t => as_text (sub (lit "channel") t) | None => None end | None => None end.
(** l.311-338 detect_runtime_from_rust_toolchain *)
Definition from_toolchain (d : disk) (cwd : path) : option runtime :=
  match find_up d cwd (lit "rust-toolchain.toml") with
  | Some _ => from_file d cwd (lit "rust") (lit "rust-toolchain.toml") (lit "rust-toolchain.toml") channel
  | None => from_text d cwd (lit "rust") (lit "rust-toolchain")
  end.
Definition found_up (d : disk) (cwd : path) (name : str) : bool := match find_up d cwd name with Some _ => true | None => false end.
(** l.141-161 detect_rust_runtime *)
Definition rust (d : disk) (cwd root : path) : option runtime :=
  if there d (root ++ [lit "Cargo.toml"]) || found_up d cwd (lit "rust-toolchain.toml") || found_up d cwd (lit "rust-toolchain") then
    or_else (from_mise d cwd (lit "rust") [lit "rust"])
   (or_else (from_tools d cwd (lit "rust") [lit "rust"])
   (or_else (from_toolchain d cwd)
            (Some (Runtime (lit "rust") (lit "Cargo.toml") None (root ++ [lit "Cargo.toml"])))))
  else None.
(** l.163-184 detect_node_runtime *)
Definition node_js (d : disk) (cwd root : path) : option runtime :=
  if there d (root ++ [lit "package.json"]) || found_up d cwd (lit ".node-version") || found_up d cwd (lit ".nvmrc") then
    or_else (from_mise d cwd (lit "node") [lit "node"; lit "nodejs"])
   (or_else (from_tools d cwd (lit "node") [lit "node"; lit "nodejs"])
   (or_else (from_text d cwd (lit "node") (lit ".node-version"))
   (or_else (from_text d cwd (lit "node") (lit ".nvmrc"))
            (Some (Runtime (lit "node") (lit "package.json") None (root ++ [lit "package.json"]))))))
  else None.
Definition fallbacks (d : disk) (root : path) (l : str) (names : list str) : option runtime :=
  match find (fun n => there d (root ++ [n])) names with Some n => Some (Runtime l n None (root ++ [n])) | None => None end.
Definition python_files : list str := [lit "pyproject.toml"; lit "requirements.txt"; lit "Pipfile"].
(** l.186-220 detect_python_runtime *)
Definition python (d : disk) (cwd root : path) : option runtime :=
  if existsb (fun n => there d (root ++ [n])) (python_files ++ [lit ".venv"; lit "venv"]) || found_up d cwd (lit ".python-version") then
    or_else (from_mise d cwd (lit "python") [lit "python"])
   (or_else (from_tools d cwd (lit "python") [lit "python"])
   (or_else (from_text d cwd (lit "python") (lit ".python-version"))
   (or_else (from_folder d cwd (lit "python") (lit ".venv"))
   (or_else (from_folder d cwd (lit "python") (lit "venv"))
            (fallbacks d root (lit "python") python_files)))))
  else None.
(** l.222-247 detect_go_runtime *)
Definition go (d : disk) (cwd root : path) : option runtime :=
  if there d (root ++ [lit "go.mod"]) || found_up d cwd (lit "go.mod") then
    or_else (from_mise d cwd (lit "go") [lit "go"])
   (or_else (from_tools d cwd (lit "go") [lit "go"; lit "golang"])
            (fallbacks d root (lit "go") [lit "go.mod"]))
  else None.
Definition listed {A} (o : option A) : list A := match o with Some x => [x] | None => [] end.
(** l.103-118 detect_runtimes *)
Definition runtimes (d : disk) (cwd : path) : list runtime :=
  let root := root_of d cwd in listed (rust d cwd root) ++ listed (node_js d cwd root) ++ listed (python d cwd root) ++ listed (go d cwd root).
End Toml.

(** ** files that set up the environment *)

Fixpoint within (r p : path) : bool :=
  match r, p with
  | [], _ => true
  | x :: r', y :: p' => str_eqb x y && within r' p'
  | _, [] => false
  end.
Definition kinds : list (str * str) := [(lit "envrc", lit ".envrc"); (lit "dotenv", lit ".env"); (lit "venv", lit ".venv"); (lit "venv", lit "venv")].
(** l.120-139 detect_activations; the paths differ in their last name, so dedup_activations
    removes nothing *)
Definition activations (d : disk) (cwd : path) : list (str * path) :=
  flat_map (fun kn : str * str => match find_up d cwd (snd kn) with Some p => if within (root_of d cwd) p then [(fst kn, p)] else [] | None => [] end) kinds.

(** ** tasks *)

Notation task := Task_Model.task.
Notation Task := Task_Model.Task.
Definition json := Compgen_Model.json.
(** serde_json::Value::get *)
Definition field (k : str) (j : json) : option json := match j with Compgen_Model.Obj m => Compgen_Model.get m k | _ => None end.
(** serde_json::Value::as_object: the keys, each once; their order is not modelled *)
Definition keys (j : option json) : list str :=
  match j with Some (Compgen_Model.Obj l) => nodup str_eq_dec (map fst l) | _ => [] end.
Definition run_of (src pre n : str) : task := Task src n (pre ++ n).

Section Tasks.
Variable toml : str -> option tval.
Variable json_of : str -> option json.
(** what make and just write *)
Variables make_says just_says : option str.

(** a file of the project: not there, there and read, there and not to be read *)
Inductive got := Absent | Broken | Read (s : str).
Definition get (d : disk) (p : path) : got := match d p with None => Absent | Some (Text (Some s)) => Read s | _ => Broken end.
(** [None]: an error *)
Definition reading {A} (parse : str -> option A) (use : A -> list task) (g : got) : option (list task) :=
  match g with
  | Absent => Some []
  | Broken => None
  | Read s => match parse s with Some v => Some (use v) | None => None end
  end.
Definition usable (v : tval) : bool := match v with TOther => false | _ => true end.
(** project_context.rs l.415-438 detect_mise_tasks *)
Definition mise_tasks (d : disk) (root : path) : option (list task) :=
  reading toml (fun v => match sub (lit "tasks") v with
                         | Some (TTab l) => map (fun kv => run_of (lit "mise") (lit "mise run ") (fst kv)) (filter (fun kv => usable (snd kv)) l)
                         | _ => []
                         end) (get d (root ++ [lit "mise.toml"])).
(** l.440-491 detect_taskfile_tasks *)
Definition taskfile_tasks (d : disk) (root : path) : option (list task) :=
  reading Some (fun s => map (run_of (lit "taskfile") (lit "task ")) (Task_Model.taskfile_names s))
    (match get d (root ++ [lit "Taskfile.yml"]) with Absent => get d (root ++ [lit "Taskfile.yaml"]) | g => g end).
(** l.493-512 detect_turbo_tasks *)
Definition turbo_tasks (d : disk) (root : path) : option (list task) :=
  reading json_of (fun j => map (run_of (lit "turbo") (lit "turbo run ")) (keys (field (lit "tasks") j))) (get d (root ++ [lit "turbo.json"])).
(** l.514-547 detect_nx_tasks *)
Definition nx_tasks (d : disk) (root : path) : option (list task) :=
  reading json_of (fun j =>
    match (match field (lit "name") j with Some (Compgen_Model.Str s) => Some s | _ => match rev root with x :: _ => Some x | [] => None end end) with
    | Some p => map (run_of (lit "nx") (lit "nx run " ++ p ++ lit ":")) (keys (field (lit "targets") j))
    | None => []
    end) (get d (root ++ [lit "project.json"])).
(** l.410-422 detect_task_names_in_dir *)
Definition project_tasks (d : disk) (root : path) : option (list task) :=
  match mise_tasks d root, taskfile_tasks d root, turbo_tasks d root, nx_tasks d root with
  | Some a, Some b, Some c, Some e => Some (Task_Model.dedup [] (a ++ b ++ c ++ e))
  | _, _, _, _ => None
  end.
(** task.rs l.493-503 detect_js_manager *)
Definition manager (d : disk) (root : path) : str :=
  if there d (root ++ [lit "bun.lockb"]) then lit "bun"
  else if there d (root ++ [lit "pnpm-lock.yaml"]) then lit "pnpm"
  else if there d (root ++ [lit "yarn.lock"]) then lit "yarn"
  else lit "npm".
(** task.rs l.388-405: an error is no task *)
Definition js_tasks (d : disk) (root : path) : list task :=
  match get d (root ++ [lit "package.json"]) with
  | Read s => match json_of s with
              | Some j => let m := manager d root in map (run_of m (m ++ lit " run ")) (keys (field (lit "scripts") j))
              | None => []
              end
  | _ => []
  end.
Definition cargo_words : list str := map lit ["build"; "run"; "test"; "check"; "clippy"; "fmt"; "doc"]%string.
(** l.407-416 *)
Definition cargo_tasks (d : disk) (root : path) : list task :=
  if there d (root ++ [lit "Cargo.toml"]) then map (run_of (lit "cargo") (lit "cargo ")) cargo_words else [].
(** l.426-431: the name a line of `make -pRrq :` gives *)
Definition make_target (l : str) : option str :=
  if ends_with (lit ":") l then
    let t := firstn (length l - 1) l in
    if negb (starts_with (lit ".") t || starts_with (lit "#") t || starts_with (lit "%") t) && negb (mem_char (chr "%") t) && negb (mem_char (chr " ") t) then Some t else None
  else None.
(** l.418-440 *)
Definition make_tasks (d : disk) (root : path) : list task :=
  if there d (root ++ [lit "Makefile"]) || there d (root ++ [lit "makefile"]) then
    match make_says with Some s => map (run_of (lit "make") (lit "make ")) (flat_map (fun l => listed (make_target l)) (lines s)) | None => [] end
  else [].
(** l.507-512 remove_jsonc_comments: the text from two slashes to the end of the line, and the
    blocks, are dropped; [end_block] drops up to the end of a block, [None] if it has none *)
Fixpoint end_block (s : str) : option str :=
  match s with
  | a :: ((b :: r) as t) => if (a =? chr "*")%N && (b =? chr "/")%N then Some r else end_block t
  | _ => None
  end.
Fixpoint end_line (s : str) : str := match s with c :: r => if (c =? 10)%N then s else end_line r | [] => [] end.
Fixpoint uncomment (fuel : nat) (s : str) : str :=
  match fuel, s with
  | Datatypes.S n, c :: r =>
      if (c =? chr "/")%N then
        match r with
        | e :: r' =>
            if (e =? chr "/")%N then uncomment n (end_line r')
            else if (e =? chr "*")%N then match end_block r' with Some t => uncomment n t | None => c :: uncomment n r end
            else c :: uncomment n r
        | [] => [c]
        end
      else c :: uncomment n r
  | _, _ => []
  end.
Definition remove_comments (s : str) : str := uncomment (length s) s.
(** l.442-468 *)
Definition deno_tasks (d : disk) (root : path) : list task :=
  match (match get d (root ++ [lit "deno.json"]) with Absent => get d (root ++ [lit "deno.jsonc"]) | g => g end) with
  | Read s => match json_of (remove_comments s) with
              | Some j => map (run_of (lit "deno") (lit "deno task ")) (keys (field (lit "tasks") j))
              | None => []
              end
  | _ => []
  end.
(** l.470-488 *)
Definition just_tasks (d : disk) (root : path) : list task :=
  if existsb (fun n => there d (root ++ [n])) [lit "Justfile"; lit "justfile"; lit ".justfile"] then
    match just_says with Some s => map (run_of (lit "just") (lit "just ")) (split_whitespace s) | None => [] end
  else [].
(** l.370-491 detect_tasks_in_dir *)
Definition tasks (d : disk) (cwd : path) : option (list task) :=
  let root := root_of d cwd in
  match project_tasks d root with
  | Some a => Some (Task_Model.dedup [] (a ++ js_tasks d root ++ cargo_tasks d root ++ make_tasks d root ++ deno_tasks d root ++ just_tasks d root))
  | None => None
  end.
End Tasks.
