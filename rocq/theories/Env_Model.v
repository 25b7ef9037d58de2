(** Shell variables, the environment of child processes and command lookup:
    dsh/src/environment/{variables,paths,mod}.rs, dsh/src/process/process.rs
    (prepare_execution), dsh/src/proxy/mod.rs and dsh-builtin/src/{export,set,
    add_path}.rs.

    HashMaps and HashSets are lists; their arbitrary iteration order is the
    arbitrary order of the list. *)
From Verif Require Import Base Output_Model.

Definition map_ := list (str * str).
Fixpoint assoc (k : str) (m : map_) : option str :=
  match m with [] => None | (k', v) :: r => if str_eqb k k' then Some v else assoc k r end.
(** HashMap::insert and HashMap::remove *)
Definition remove (k : str) (m : map_) : map_ := filter (fun p => negb (str_eqb k (fst p))) m.
Definition insert (k v : str) (m : map_) : map_ := (k, v) :: remove k m.
(** HashSet::insert *)
Definition add (k : str) (s : list str) : list str := if mem_str k s then s else k :: s.

(** the part of the file system lookups see *)
Inductive fkind := Missing | Directory | File (executable : bool).
Definition is_file (f : fkind) : bool := match f with File _ => true | _ => false end.

(** environment/mod.rs l.68-113 Environment, the fields used here; the command cache
    maps a name to the remembered result *)
Record env := Env {
  variables : map_; exported : list str; system : map_; paths : list str;
  cache : list (str * option str); history : history; mcp : str -> option str
}.
Definition set_variables e x := Env x (exported e) (system e) (paths e) (cache e) (history e) (mcp e).
Definition set_exported e x := Env (variables e) x (system e) (paths e) (cache e) (history e) (mcp e).
Definition set_system e x := Env (variables e) (exported e) x (paths e) (cache e) (history e) (mcp e).
Definition set_paths e x := Env (variables e) (exported e) (system e) x (cache e) (history e) (mcp e).
Definition set_cache e x := Env (variables e) (exported e) (system e) (paths e) x (history e) (mcp e).

(** environment/variables.rs l.9-44 get_var.  [mcp] answers MCP_SERVERS,
    MCP_CONNECTED and MCP_TOOLS (counts of an object outside the model). *)
Definition get_var (e : env) (key : str) : option str :=
  match parse_output_var key (lit "OUT") with
  | Some i => option_map out (get (history e) (N.to_nat i))
  | None =>
      match parse_output_var key (lit "ERR") with
      | Some i => option_map err (get (history e) (N.to_nat i))
      | None =>
          if mem_str key [lit "MCP_SERVERS"; lit "MCP_CONNECTED"; lit "MCP_TOOLS"] then mcp e key
          else
            match assoc key (variables e) with
            | Some v => Some v
            | None =>
                match key with
                | c :: r => if (c =? chr "$")%N then assoc r (system e) else assoc key (system e)
                | [] => assoc key (system e)
                end
            end
      end
  end.

Definition TERM := lit "TERM".
Definition PATH := lit "PATH".
Definition default_term := lit "xterm-256color".
Definition non_empty (v : str) : bool := match v with [] => false | _ => true end.

(** environment/variables.rs l.78-92 child_process_env *)
Definition child_process_env (e : env) : map_ :=
  let m := fold_left (fun m k => match assoc k (variables e) with Some v => insert k v m | None => m end)
                     (exported e) (system e) in
  match assoc TERM m with
  | Some (_ :: _) => m
  | _ => insert TERM default_term m
  end.

(** CString::new fails on an interior NUL *)
Definition c_string_ok (p : str * str) : bool := negb (mem_char 0%N (fst p)) && negb (mem_char 0%N (snd p)).

(** process/process.rs l.125-230 prepare_execution: the environment entries, as
    (name, value); the program and its arguments are left out *)
Definition prepared_env (e : env) : map_ :=
  let from_system :=
    filter (fun p => negb (mem_str (fst p) (exported e)) &&
                     negb (str_eqb (fst p) TERM && negb (non_empty (snd p))) && c_string_ok p) (system e) in
  let from_exported :=
    flat_map (fun k => match assoc k (variables e) with
                       | Some v => if str_eqb k TERM && negb (non_empty v) then []
                                   else if c_string_ok (k, v) then [(k, v)] else []
                       | None => []
                       end) (exported e) in
  let term_exported :=
    existsb (fun k => str_eqb k TERM && match assoc k (variables e) with Some v => non_empty v | None => false end)
            (exported e) in
  let term_set :=
    term_exported ||
    (if mem_str TERM (exported e) then false
     else match assoc TERM (system e) with Some v => non_empty v | None => false end) in
  from_system ++ from_exported ++ (if term_set then [] else [(TERM, default_term)]).

(** ** Lookup *)
Section Lookup.
Variable fs : str -> fkind.

(** Path::join for a relative or absolute second part *)
Definition join (dir cmd : str) : str :=
  match cmd with
  | c :: _ =>
      if (c =? chr "/")%N then cmd
      else match rev dir with
           | [] => cmd
           | d :: _ => if (d =? chr "/")%N then dir ++ cmd else dir ++ lit "/" ++ cmd
           end
  | [] => match rev dir with [] => [] | d :: _ => if (d =? chr "/")%N then dir else dir ++ lit "/" end
  end.

(** environment/paths.rs l.62-70 lookup_path_uncached *)
Fixpoint search_path (ps : list str) (cmd : str) : option str :=
  match ps with
  | [] => None
  | d :: r => if is_file (fs (join d cmd)) then Some (join d cmd) else search_path r cmd
  end.

Fixpoint cached (cmd : str) (c : list (str * option str)) : option (option str) :=
  match c with [] => None | (k, r) :: rest => if str_eqb cmd k then Some r else cached cmd rest end.

(** environment/paths.rs l.20-53 lookup *)
Definition lookup (e : env) (cmd : str) : option str * env :=
  if starts_with (lit "/") cmd || starts_with (lit "./") cmd then
    (if is_file (fs cmd) then Some cmd else None, e)
  else
    match cached cmd (cache e) with
    | Some r => (r, e)
    | None => let r := search_path (paths e) cmd in (r, set_cache e ((cmd, r) :: cache e))
    end.

(** environment/paths.rs l.101-116 reload_path *)
Definition reload_path (e : env) : env :=
  set_cache (set_paths e (match assoc PATH (system e) with
                          | Some v => split_on (chr ":") v
                          | None => [lit "/bin"; lit "/usr/bin"; lit "/sbin"; lit "/usr/sbin"]
                          end)) [].

(** variables.rs l.56-75 set_system_env_var, unset_system_env_var; proxy/mod.rs
    l.142-160 (the set -x builtin and direnv) *)
Definition set_env_var (k v : str) (e : env) : env :=
  let e' := set_system e (insert k v (system e)) in if str_eqb k PATH then reload_path e' else e'.
Definition unset_env_var (k : str) (e : env) : env :=
  let e' := set_system e (remove k (system e)) in if str_eqb k PATH then reload_path e' else e'.
(** proxy/mod.rs l.141-143 set_var (the set builtin) *)
Definition set_var (k v : str) (e : env) : env := set_variables e (insert k v (variables e)).
(** proxy/mod.rs l.288-304 export_var, set_and_export_var; export.rs *)
Definition export_var (k : str) (e : env) : env := set_exported e (add k (exported e)).
Definition set_and_export_var (k v : str) (e : env) : env :=
  set_exported (set_variables e (insert k v (variables e))) (add k (exported e)).
(** proxy/mod.rs l.114-116 insert_path at 0 (add_path.rs l.17) *)
Definition add_path (d : str) (e : env) : env := set_paths e (d :: paths e).

Inductive eop :=
| ESetEnv (k v : str) | EUnsetEnv (k : str) | ESet (k v : str) | EExport (k : str) | EExportValue (k v : str)
| EAddPath (d : str) | ELookup (cmd : str).
Definition estep (e : env) (o : eop) : env :=
  match o with
  | ESetEnv k v => set_env_var k v e
  | EUnsetEnv k => unset_env_var k e
  | ESet k v => set_var k v e
  | EExport k => export_var k e
  | EExportValue k v => set_and_export_var k v e
  | EAddPath d => add_path d e
  | ELookup c => snd (lookup e c)
  end.
Definition erun (e : env) (ops : list eop) : env := fold_left estep ops e.

(** environment/mod.rs l.130-178 new: the shell starts with the process environment *)
Definition env_new (vars : map_) (h : Output_Model.history) (m : str -> option str) : env :=
  set_variables (reload_path (Env [] [] vars [] [] h m)) [(lit "SAFETY_LEVEL", lit "normal")].
End Lookup.
