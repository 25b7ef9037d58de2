(** What is offered off the project: dsh/src/completion/dynamic.rs.

    Files are those of Runtime_Model, paths are lists of names and canonical.  The clock counts
    milliseconds.  The fuzzy matcher ([matches], integrated.rs l.909-911), the time stamps of files and
    what the programs write (taken to be UTF-8) are parameters.  Descriptions and priorities are left out except where
    named; the counters for the diagnostics (l.88-122, l.824-835) are not modelled. *)
From Verif Require Import Base.
From Verif Require Direnv_Model Project_Model Runtime_Model Task_Model Comp_Model.

(** ** The services of a compose file *)
(** l.887-938: the indentation is the number of leading blank characters *)
Fixpoint indent (l : str) : nat :=
  match l with c :: r => if is_whitespace c then S (indent r) else 0 | [] => 0 end.
(** l.919 trim_end_matches(':') *)
Fixpoint drop_colons (r : str) : str := match r with c :: t => if (c =? chr ":")%N then drop_colons t else r | [] => [] end.
Definition key_text (t : str) : str := trim (rev (drop_colons (rev t))).
Definition idle_line (t : str) : bool := match t with [] => true | _ => starts_with (lit "#") t end.
(** l.895-904: the lines behind the first one that says services, with its indentation *)
Fixpoint services_block (ls : list str) : option (nat * list str) :=
  match ls with
  | [] => None
  | l :: r => if str_eqb (trim l) (lit "services:") then Some (indent l, r) else services_block r
  end.
(** l.895-932 behind that line: [at_] is service_indent *)
Fixpoint service_lines (outer : nat) (at_ : option nat) (ls : list str) : list str :=
  match ls with
  | [] => []
  | l :: r =>
      let t := trim l in
      if idle_line t then service_lines outer at_ r
      else if indent l <=? outer then []
      else if starts_with (lit "-") t then service_lines outer at_ r
      else if negb (ends_with (lit ":") t) then service_lines outer at_ r
      else
        let k := key_text t in
        if match k with [] => true | _ => mem_char 32%N k end then service_lines outer at_ r
        else match at_ with
             | None => k :: service_lines outer (Some (indent l)) r
             | Some i => if indent l =? i then k :: service_lines outer at_ r else service_lines outer at_ r
             end
  end.
(** l.934-936 *)
Fixpoint once (seen l : list str) : list str :=
  match l with [] => [] | x :: r => if mem_str x seen then once seen r else x :: once (x :: seen) r end.
Definition service_names (s : str) : list str :=
  match services_block (Direnv_Model.lines s) with
  | Some (i, r) => once [] (service_lines i None r)
  | None => []
  end.

Definition path := Runtime_Model.path.
Definition disk := Runtime_Model.disk.
(** l.871-885 find_compose_file: [up] is the folder reversed *)
Definition compose_names : list str := map lit ["compose.yaml"; "compose.yml"; "docker-compose.yaml"; "docker-compose.yml"]%string.
Fixpoint compose_above (d : disk) (up : path) : option path :=
  match find (fun n => Runtime_Model.there d (rev up ++ [n])) compose_names with
  | Some n => Some (rev up ++ [n])
  | None => match up with [] => None | _ :: r => compose_above d r end
  end.
Definition compose_file (d : disk) (cwd : path) : option path := compose_above d (rev cwd).

(** ** Values kept with the signature of their files *)
(** l.579-643: an entry whose signature is the present one is used; otherwise the values are loaded,
    and kept unless that fails.  An error is no value ([None]) *)
Section Kept.
Context {K S V : Type} (keq : K -> K -> bool) (seq : S -> S -> bool).
Fixpoint entry (k : K) (c : list (K * (S * V))) : option (S * V) :=
  match c with (k', e) :: r => if keq k k' then Some e else entry k r | [] => None end.
Definition lookup (k : K) (s : S) (load : option V) (c : list (K * (S * V))) : option V * list (K * (S * V)) :=
  match entry k c with
  | Some (s', v) => if seq s' s then (Some v, c) else match load with Some w => (Some w, (k, (s, w)) :: c) | None => (None, c) end
  | None => match load with Some w => (Some w, (k, (s, w)) :: c) | None => (None, c) end
  end.
End Kept.
(** the files and what make and just write about them; [stamp] is the time a file was written *)
Record world := World { files : disk; stamp : path -> nat; size : path -> nat; make_ : option str; just_ : option str }.
(** l.20-24, l.837-850 file_metadata_signature *)
Definition signature (w : world) (p : path) : option (nat * nat) :=
  match files w p with Some _ => Some (stamp w p, size w p) | None => None end.
(** l.852-869 task_completion_signature *)
Definition watched : list str := map lit
  ["mise.toml"; "Taskfile.yml"; "Taskfile.yaml"; "turbo.json"; "project.json"; "package.json"; "Cargo.toml"; "Makefile"; "makefile"; "deno.json"; "deno.jsonc"]%string.
Definition task_signature (w : world) (root : path) : list (option (nat * nat)) := map (fun n => signature w (root ++ [n])) watched.
Definition sig_eqb (a b : option (nat * nat)) : bool :=
  match a, b with Some (x, y), Some (x', y') => (x =? x') && (y =? y') | None, None => true | _, _ => false end.
Fixpoint sigs_eqb (a b : list (option (nat * nat))) : bool :=
  match a, b with x :: r, y :: t => sig_eqb x y && sigs_eqb r t | [], [] => true | _, _ => false end.
Fixpoint path_eqb (a b : path) : bool :=
  match a, b with x :: r, y :: t => str_eqb x y && path_eqb r t | [], [] => true | _, _ => false end.
Section Tasks.
Variable toml : str -> option Runtime_Model.tval.
Variable json_of : str -> option Runtime_Model.json.
Definition listing (w : world) (root : path) : option (list Task_Model.task) :=
  Runtime_Model.tasks toml json_of (make_ w) (just_ w) (files w) root.
Definition task_cache := list (path * (list (option (nat * nat)) * list Task_Model.task)).
(** l.579-596 load_project_tasks *)
Definition project_tasks (w : world) (cwd : path) (c : task_cache) : option (list Task_Model.task) * task_cache :=
  let root := Runtime_Model.root_of (files w) cwd in
  lookup path_eqb sigs_eqb root (task_signature w root) (listing w root) c.
(** completions asked for, one after the other, each in a state of the world *)
Fixpoint asks (h : list (world * path)) (c : task_cache) : list (option (list Task_Model.task)) :=
  match h with [] => [] | (w, cwd) :: r => let (a, c') := project_tasks w cwd c in a :: asks r c' end.
End Tasks.
Definition compose_cache := list (path * (option (nat * nat) * list str)).
(** l.610-631 load_compose_services; no file is an empty list here *)
Definition compose_services (w : world) (cwd : path) (c : compose_cache) : option (list str) * compose_cache :=
  match compose_file (files w) cwd with
  | None => (Some [], c)
  | Some p => lookup path_eqb sig_eqb p (signature w p) (option_map service_names (Runtime_Model.read (files w) p)) c
  end.
Fixpoint compose_asks (h : list (world * path)) (c : compose_cache) : list (option (list str)) :=
  match h with [] => [] | (w, cwd) :: r => let (a, c') := compose_services w cwd c in a :: compose_asks r c' end.

(** ** Values refreshed in the background *)
Definition ttl : nat := 1000.
(** [running]: the threads that have been started and have not ended *)
Record store {K V : Type} := Store { entries : list (K * (V * nat)); pending : list K; running : list K }.
Arguments store : clear implicits.
Arguments Store {K V}.
Section Refresh.
Context {K V : Type} (keq : K -> K -> bool).
Fixpoint held (k : K) (c : list (K * (V * nat))) : option (V * nat) :=
  match c with (k', e) :: r => if keq k k' then Some e else held k r | [] => None end.
Definition without (k : K) (l : list K) : list K := filter (fun x => negb (keq k x)) l.
(** HashSet::insert *)
Definition insert (k : K) (l : list K) : bool * list K := if existsb (keq k) l then (false, l) else (true, k :: l).
(** start a refresh unless one is pending *)
Definition start (k : K) (s : store K V) : store K V :=
  match insert k (pending s) with
  | (true, p) => Store (entries s) p (k :: running s)
  | (false, p) => Store (entries s) p (running s)
  end.
(** l.659-693 load_command_values (and l.706-735 of load_external_candidates): the values kept, if
    any, and the state with the refresh that may have been started *)
Definition consult (now : nat) (k : K) (s : store K V) : option V * store K V :=
  match held k (entries s) with
  | Some (v, at_) => (Some v, if ttl <=? now - at_ then start k s else s)
  | None => (None, start k s)
  end.
Fixpoint drop_one (k : K) (l : list K) : list K :=
  match l with x :: r => if keq k x then r else x :: drop_one k r | [] => [] end.
(** l.769-790 spawn_command_refresh, l.801-820 spawn_external_refresh, l.737-757: a loader ends, with
    values or with an error *)
Definition finish (now : nat) (k : K) (r : option V) (s : store K V) : store K V :=
  let p := without k (pending s) in
  let t := drop_one k (running s) in
  match r with Some v => Store ((k, (v, now)) :: entries s) p t | None => Store (entries s) p t end.
Inductive event := Ask (now : nat) (k : K) | End (now : nat) (k : K) (r : option V).
Definition step (s : store K V) (e : event) : store K V :=
  match e with Ask now k => snd (consult now k s) | End now k r => finish now k r s end.
Definition run (h : list event) : store K V := fold_left step h (Store [] [] []).
End Refresh.
Arguments event : clear implicits.
Arguments Ask {K V}.
Arguments End {K V}.
(** l.645-693: with nothing kept, nothing is offered *)
Definition command_values {K} (keq : K -> K -> bool) (now : nat) (k : K) (s : store K (list str)) : list str * store K (list str) :=
  let (v, s') := consult keq now k s in (match v with Some l => l | None => [] end, s').

(** ** Words of git, docker and kubectl *)
Inductive wanted := Branches | Remotes | Worktrees | Services | Contexts | Namespaces.
Definition second (p : list str) : str := nth 1 p [].
(** l.163-256 collect_git_candidates, for an argument with this index: the two halves of the match
    differ in the index only *)
Definition git_words (path : list str) (index : nat) : option wanted :=
  match path with
  | [] => None
  | sub :: _ =>
      if mem_str sub (map lit ["checkout"; "switch"; "merge"; "rebase"]%string) then Some Branches
      else if mem_str sub (map lit ["push"; "pull"; "fetch"]%string) then Some (if index =? 0 then Remotes else Branches)
      else if str_eqb sub (lit "remote") then
        if mem_str (second path) (map lit ["remove"; "rename"; "show"; "get-url"; "set-url"]%string) then Some Remotes else None
      else if str_eqb sub (lit "worktree") then
        if mem_str (second path) (map lit ["remove"; "move"; "lock"; "unlock"; "repair"]%string) then Some Worktrees
        else if str_eqb (second path) (lit "add") && (0 <? index) then Some Branches else None
      else None
  end.
Definition git_wants (p : Comp_Model.parsed) : option wanted :=
  match Comp_Model.ctx p with
  | Comp_Model.In_argument i _ => git_words (Comp_Model.path p) i
  | Comp_Model.In_sub => git_words (Comp_Model.path p) (length (Comp_Model.path p) - 2)
  | _ => None
  end.
(** l.258-297 collect_docker_candidates *)
Definition service_commands : list str := map lit
  ["build"; "cp"; "create"; "down"; "exec"; "kill"; "logs"; "pause"; "port"; "ps"; "pull"; "push"; "restart"; "rm"; "run"; "scale"; "start"; "stop"; "top"; "unpause"; "up"; "wait"]%string.
Definition docker_wants (p : Comp_Model.parsed) : option wanted :=
  match Comp_Model.path p with
  | c :: n :: _ =>
      if str_eqb c (lit "compose") then
        match Comp_Model.ctx p with
        | Comp_Model.In_sub | Comp_Model.In_argument _ _ => if mem_str n service_commands then Some Services else None
        | _ => None
        end
      else None
  | _ => None
  end.
(** l.299-330 collect_kubectl_candidates *)
Definition kubectl_wants (p : Comp_Model.parsed) : option wanted :=
  match Comp_Model.ctx p with
  | Comp_Model.In_value o _ =>
      if str_eqb o (lit "--context") then Some Contexts
      else if mem_str o [lit "-n"; lit "--namespace"] then Some Namespaces else None
  | Comp_Model.In_sub | Comp_Model.In_argument _ _ =>
      match Comp_Model.path p with
      | a :: b :: _ => if str_eqb a (lit "config") && str_eqb b (lit "use-context") then Some Contexts else None
      | _ => None
      end
  | _ => None
  end.
(** integrated.rs l.478-509 collect_dynamic_candidates, for these three *)
Definition wants (p : Comp_Model.parsed) : option wanted :=
  if str_eqb (Comp_Model.command p) (lit "git") then git_wants p
  else if str_eqb (Comp_Model.command p) (lit "docker") then docker_wants p
  else if str_eqb (Comp_Model.command p) (lit "kubectl") then kubectl_wants p
  else None.
(** l.373-378: the folder the branches are kept for; the command itself runs in [cwd] *)
Definition scope (d : disk) (cwd : path) : path := Runtime_Model.root_of d cwd.

(** ** Programs that are asked *)
(** l.994-1026 wait_and_collect_lines: the program ends after [ends] milliseconds ([None]: never)
    with success or not; the pipe is closed by the last process that holds it: [others] milliseconds
    after the start for those that are not the program itself ([None]: never) *)
Definition patience : nat := 1500.
Record child := Child { ends : option nat; success : bool; others : option nat; says : str }.
Definition answer_lines (s : str) : list str := filter (fun l => match l with [] => false | _ => true end) (map trim (Direnv_Model.lines s)).
(** when it returns ([None]: never), and what *)
Definition collect_lines (c : child) : option nat * list str :=
  match ends c with
  | Some e =>
      if e <=? patience then (option_map (Nat.max e) (others c), if success c then answer_lines (says c) else [])
      else (option_map (Nat.max patience) (others c), [])
  | None => (option_map (Nat.max patience) (others c), [])
  end.
Fixpoint split_tab (s : str) : option (str * str) :=
  match s with
  | c :: r => if (c =? 9)%N then Some ([], r) else match split_tab r with Some (a, b) => Some (c :: a, b) | None => None end
  | [] => None
  end.
Section External.
Variable matches : str -> str -> bool.
(** l.957-980 of run_external_completer_for_key: the text and its description *)
Definition external_line (token : str) (l : str) : option (str * option str) :=
  let (t, d) := match split_tab l with Some (a, b) => (trim a, Some (trim b)) | None => (trim l, None) end in
  match t with [] => None | _ => if matches token t then Some (t, d) else None end.
Definition external (token : str) (c : child) : list (str * option str) :=
  flat_map (fun l => match external_line token l with Some x => [x] | None => [] end) (snd (collect_lines c)).
End External.
(** l.442-448: the lines of `git worktree list --porcelain` *)
Definition worktree (l : str) : option str := if starts_with (lit "worktree ") l then Some (skipn 9 l) else None.
Definition worktrees (c : child) : list str := flat_map (fun l => match worktree l with Some x => [x] | None => [] end) (snd (collect_lines c)).

(** l.1028-1041 format_task_description, truncate_string *)
Definition truncate (max : nat) (s : str) : str := if length s <=? max then s else firstn (max - 3) s ++ lit "...".
Definition task_description (source command : str) : str := truncate 80 (source ++ lit ": " ++ command).
