(** Loading config.lisp: dsh/src/lisp/mod.rs l.40-165, 281-297 (run_config_lisp, the snapshot of
    the environment and its restoration) and dsh/src/environment/mod.rs l.75-107.

    The settings whose contents do not matter here have the type [X] (any type), and maps are
    association lists.  The process environment holds the variables std::env::set_var accepts
    (no '=' or NUL in a name).  What else a configuration can change, such as files, is [beyond]. *)
From Verif Require Import Base Lread_Model Lisp_Model Hooks_Model.

Section Config.
Variable X : Type.
(** environment/mod.rs l.75-107 struct Environment *)
Record environment := {
  alias : list (str * str); abbreviations : list (str * str); autocompletion : list (list lv); paths : list str;
  variables : list (str * lv); exported_vars : list str; direnv_roots : list X; chpwd_hooks : list X; mcp_servers : list X;
  mcp_runtime : X; execute_allowlist : list str; system_env_vars : list (str * str); input_preferences : X; safety_level : X;
  command_cache : list (str * option str); executable_names : list str; output_history : X; ai_service : X; z_exclude : list str;
  startup_mode : bool; secret_manager : X }.
(** everything outside the Lisp heap; [actions]: the registry of the command palette *)
Record outside := { env : environment; actions : list (str * X); process : list (str * str); beyond : X }.
Definition with_env (f : environment -> environment) (w : outside) : outside :=
  {| env := f (env w); actions := actions w; process := process w; beyond := beyond w |}.

(** interpreter.rs l.220-227 (an entry is its target and definition), l.299-304 (the text of the value) *)
Definition push_autocomplete (w : outside) (entry : list lv) : outside :=
  with_env (fun e => {|
    alias := alias e; abbreviations := abbreviations e; autocompletion := autocompletion e ++ [entry]; paths := paths e;
    variables := variables e; exported_vars := exported_vars e; direnv_roots := direnv_roots e; chpwd_hooks := chpwd_hooks e; mcp_servers := mcp_servers e;
    mcp_runtime := mcp_runtime e; execute_allowlist := execute_allowlist e; system_env_vars := system_env_vars e; input_preferences := input_preferences e; safety_level := safety_level e;
    command_cache := command_cache e; executable_names := executable_names e; output_history := output_history e; ai_service := ai_service e; z_exclude := z_exclude e;
    startup_mode := startup_mode e; secret_manager := secret_manager e |}) w.
Definition insert_variable (w : outside) (k : str) (v : lv) : outside :=
  with_env (fun e => {|
    alias := alias e; abbreviations := abbreviations e; autocompletion := autocompletion e; paths := paths e;
    variables := put k v (variables e); exported_vars := exported_vars e; direnv_roots := direnv_roots e; chpwd_hooks := chpwd_hooks e; mcp_servers := mcp_servers e;
    mcp_runtime := mcp_runtime e; execute_allowlist := execute_allowlist e; system_env_vars := system_env_vars e; input_preferences := input_preferences e; safety_level := safety_level e;
    command_cache := command_cache e; executable_names := executable_names e; output_history := output_history e; ai_service := ai_service e; z_exclude := z_exclude e;
    startup_mode := startup_mode e; secret_manager := secret_manager e |}) w.

(** l.40-83 EnvironmentSnapshot and capture *)
Record snapshot := {
  s_alias : list (str * str); s_abbreviations : list (str * str); s_paths : list str; s_variables : list (str * lv);
  s_exported_vars : list str; s_direnv_roots : list X; s_mcp_servers : list X; s_mcp_runtime : X; s_execute_allowlist : list str;
  s_system_env_vars : list (str * str); s_input_preferences : X; s_safety_level : X; s_command_cache : list (str * option str);
  s_executable_names : list str; s_z_exclude : list str; s_startup_mode : bool; s_secret_manager : X }.
Definition capture (e : environment) : snapshot := {|
  s_alias := alias e; s_abbreviations := abbreviations e; s_paths := paths e; s_variables := variables e;
  s_exported_vars := exported_vars e; s_direnv_roots := direnv_roots e; s_mcp_servers := mcp_servers e; s_mcp_runtime := mcp_runtime e; s_execute_allowlist := execute_allowlist e;
  s_system_env_vars := system_env_vars e; s_input_preferences := input_preferences e; s_safety_level := safety_level e; s_command_cache := command_cache e;
  s_executable_names := executable_names e; s_z_exclude := z_exclude e; s_startup_mode := startup_mode e; s_secret_manager := secret_manager e |}.
(** l.143-164 restore_environment_snapshot *)
Definition restore (s : snapshot) (e : environment) : environment := {|
  alias := s_alias s; abbreviations := s_abbreviations s; autocompletion := autocompletion e; paths := s_paths s;
  variables := s_variables s; exported_vars := s_exported_vars s; direnv_roots := s_direnv_roots s; chpwd_hooks := chpwd_hooks e; mcp_servers := s_mcp_servers s;
  mcp_runtime := s_mcp_runtime s; execute_allowlist := s_execute_allowlist s; system_env_vars := s_system_env_vars s; input_preferences := s_input_preferences s; safety_level := s_safety_level s;
  command_cache := s_command_cache s; executable_names := s_executable_names s; output_history := output_history e; ai_service := ai_service e; z_exclude := s_z_exclude s;
  startup_mode := s_startup_mode s; secret_manager := s_secret_manager s |}.
(** l.111-117: before the file is run *)
Definition start_loading (e : environment) : environment := {|
  alias := alias e; abbreviations := abbreviations e; autocompletion := autocompletion e; paths := paths e;
  variables := variables e; exported_vars := exported_vars e; direnv_roots := direnv_roots e; chpwd_hooks := chpwd_hooks e; mcp_servers := [];
  mcp_runtime := mcp_runtime e; execute_allowlist := execute_allowlist e; system_env_vars := system_env_vars e; input_preferences := input_preferences e; safety_level := safety_level e;
  command_cache := command_cache e; executable_names := executable_names e; output_history := output_history e; ai_service := ai_service e; z_exclude := z_exclude e;
  startup_mode := true; secret_manager := secret_manager e |}.
(** l.125: after success *)
Definition with_startup (b : bool) (e : environment) : environment := {|
  alias := alias e; abbreviations := abbreviations e; autocompletion := autocompletion e; paths := paths e;
  variables := variables e; exported_vars := exported_vars e; direnv_roots := direnv_roots e; chpwd_hooks := chpwd_hooks e; mcp_servers := mcp_servers e;
  mcp_runtime := mcp_runtime e; execute_allowlist := execute_allowlist e; system_env_vars := system_env_vars e; input_preferences := input_preferences e; safety_level := safety_level e;
  command_cache := command_cache e; executable_names := executable_names e; output_history := output_history e; ai_service := ai_service e; z_exclude := z_exclude e;
  startup_mode := b; secret_manager := secret_manager e |}.

(** std::env::var_os, remove_var, set_var *)
Fixpoint var_of (k : str) (l : list (str * str)) : option str :=
  match l with [] => None | (x, v) :: r => if str_eqb x k then Some v else var_of k r end.
Definition remove_var (k : str) (l : list (str * str)) : list (str * str) := filter (fun p => negb (str_eqb (fst p) k)) l.
Fixpoint set_var (k v : str) (l : list (str * str)) : list (str * str) :=
  match l with [] => [(k, v)] | (x, w) :: r => if str_eqb x k then (x, v) :: r else (x, w) :: set_var k v r end.
(** l.281-297 restore_process_env *)
Definition restore_process (old now : list (str * str)) : list (str * str) :=
  let kept := fold_left (fun l k => match var_of k old with Some _ => l | None => remove_var k l end) (map fst now) now in
  fold_left (fun l p => set_var (fst p) (snd p) l) old kept.
(** model/env.rs l.88-96 snapshot_entries and restore_entries, of the outermost frame *)
Fixpoint entries_of (h : heap) (i : nat) : list (str * lv) :=
  match h with [] => [] | fr :: old => if i =? length old then entries fr else entries_of old i end.
Fixpoint put_entries (h : heap) (i : nat) (es : list (str * lv)) : heap :=
  match h with [] => [] | fr :: old => if i =? length old then {| parent := parent fr; entries := es |} :: old else fr :: put_entries old i es end.

Variable unum : char -> bool.
Variable native : nat -> str -> list lv -> M outside lv.
(** l.85-141 run_config_lisp; [file]: what the file holds, [None] when it cannot be read.  Returns
    whether it succeeded *)
Definition load_config (fuel : nat) (file : option str) : M outside bool := fun s =>
  match file with
  | None => Ok _ _ false s
  | Some text =>
      let snap := capture (env (world _ s)) in
      let old := entries_of (hp _ s) 0 in
      let acts := actions (world _ s) in
      let proc := process (world _ s) in
      match run unum outside native insert_variable push_autocomplete fuel (wrapped (trim text)) {| hp := hp _ s; world := with_env start_loading (world _ s) |} with
      | Ok _ _ _ s' => Ok _ _ true {| hp := hp _ s'; world := with_env (with_startup (s_startup_mode snap)) (world _ s') |}
      | Err _ _ s' =>
          Ok _ _ false {| hp := put_entries (hp _ s') 0 old;
                          world := {| env := restore snap (env (world _ s')); actions := acts; process := restore_process proc (process (world _ s')); beyond := beyond (world _ s') |} |}
      | Fuel _ _ => Fuel _ _
      end
  end.
End Config.
