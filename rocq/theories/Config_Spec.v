(** What a configuration that fails must leave as it was. *)
From Verif Require Import Base Lread_Model Lisp_Model Lisp_Spec Config_Model.

Section Spec.
Variable X : Type.
(** the settings of the shell, one by one *)
Record same_settings (a b : environment X) : Prop := {
  same_alias : alias X a = alias X b;
  same_abbreviations : abbreviations X a = abbreviations X b;
  same_paths : paths X a = paths X b;
  same_variables : variables X a = variables X b;
  same_exported : exported_vars X a = exported_vars X b;
  same_direnv : direnv_roots X a = direnv_roots X b;
  same_servers : mcp_servers X a = mcp_servers X b;
  same_runtime : mcp_runtime X a = mcp_runtime X b;
  same_allowlist : execute_allowlist X a = execute_allowlist X b;
  same_system : system_env_vars X a = system_env_vars X b;
  same_preferences : input_preferences X a = input_preferences X b;
  same_safety : safety_level X a = safety_level X b;
  same_cache : command_cache X a = command_cache X b;
  same_executables : executable_names X a = executable_names X b;
  same_z : z_exclude X a = z_exclude X b;
  same_mode : startup_mode X a = startup_mode X b;
  same_secrets : secret_manager X a = secret_manager X b }.
(** the entries for completing the arguments of commands *)
Definition same_completions (a b : environment X) : Prop := autocompletion X a = autocompletion X b.
(** settings, palette and process environment; a variable is seen by programs through its name *)
Definition same_outside (a b : outside X) : Prop :=
  same_settings (env X a) (env X b) /\ actions X a = actions X b /\ forall k v, In (k, v) (process X a) <-> In (k, v) (process X b).
(** every variable of the process has one value *)
Definition wf_process (w : outside X) : Prop := NoDup (map fst (process X w)).
(** functions outside Lisp drop no frame, hang none elsewhere, and give a process variable one value *)
Definition decent_native (native : nat -> str -> list lv -> M (outside X) lv) : Prop :=
  forall i n args s,
    match native i n args s with
    | Ok _ _ _ s' | Err _ _ s' =>
        (forall j fr, frame_at (hp _ s) j = Some fr -> exists fr', frame_at (hp _ s') j = Some fr' /\ parent fr' = parent fr) /\
        (wf_process (world _ s) -> wf_process (world _ s'))
    | Fuel _ _ => True
    end.
End Spec.
