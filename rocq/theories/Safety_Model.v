(** The safety guard: dsh/src/safety/mod.rs, and the tool-call loop that
    consults it: dsh/src/ai_features/service.rs. *)
From Verif Require Import Base.

(** safety/mod.rs l.4-9 SafetyResult *)
Inductive verdict :=
| Allowed
| Denied (why : str)
| Confirm (why : str).

(** safety/mod.rs l.11-16 SafetyLevel *)
Inductive level := Strict | Normal | Loose.

(** safety/mod.rs l.18-32 SafetyLevel::from_str.  str::to_lowercase is modelled
    by ASCII lowering [lower]: the Unicode characters whose lower case is an
    ASCII letter (the Kelvin sign) are not modelled. *)
Definition level_from_str (s : str) : option level :=
  let l := lower s in
  if str_eqb l (lit "strict") then Some Strict
  else if str_eqb l (lit "normal") then Some Normal
  else if str_eqb l (lit "loose") then Some Loose
  else None.

(** l.348-354 get_command_name.  std::path::Path::file_name (Unix): the last
    component if it is a normal one; empty and "." components do not count, ".."
    is not a normal component. *)
Definition file_name (p : str) : option str :=
  let comps := filter (fun c => negb (str_eqb c []) && negb (str_eqb c (lit "."))) (split_on (chr "/") p) in
  match rev comps with
  | [] => None
  | c :: _ => if str_eqb c (lit "..") then None else Some c
  end.
Definition get_command_name (cmd : str) : str :=
  match file_name cmd with Some n => n | None => cmd end.

(** l.49-53 always_warn_commands *)
Definition always_warn : list str :=
  map lit ["dd"; "mkfs"; "format"; "reboot"; "shutdown"; "poweroff"; "mkswap"]%string.

Definition arg_in (arg : str) (l : list string) : bool := mem_str arg (map lit l).

(** l.369-408 check_rm *)
Definition check_rm (args : list str) : option str :=
  let composite a := starts_with (lit "-rx") a || starts_with (lit "-rf") a || starts_with (lit "-fr") a in
  let recursive := existsb (fun a => arg_in a ["-r"; "-R"; "--recursive"]%string || composite a) args in
  let force := existsb (fun a => arg_in a ["-f"; "--force"]%string || composite a) args in
  let root_path := existsb (fun a => arg_in a ["/"; "/*"]%string) args in
  if recursive && force && root_path
  then Some (lit "High Risk: 'rm -rf /' detected. This is extremely dangerous.")
  else if recursive && force
  then Some (lit "High Risk: Recursive forced deletion ('rm -rf') detected.")
  else if recursive then Some (lit "Recursive deletion detected. Proceed?")
  else None.

(** l.410-445 check_git *)
Definition check_git (args : list str) : option str :=
  match args with
  | [] => None
  | sub :: rest =>
      if str_eqb sub (lit "push") then
        if existsb (fun a => arg_in a ["--force"; "-f"; "--force-with-lease"]%string) rest
        then Some (lit "Git push force detected. This may rewrite history.") else None
      else if str_eqb sub (lit "clean") then
        if existsb (mem_char (chr "x")) rest
        then Some (lit "Git clean with ignored files option (-x) detected.") else None
      else if str_eqb sub (lit "reset") then
        if existsb (str_eqb (lit "--hard")) rest
        then Some (lit "Git reset --hard detected. Uncommitted changes will be lost.") else None
      else None
  end.

(** l.447-454 check_recursive *)
Definition check_recursive (args : list str) : option str :=
  if existsb (fun a => arg_in a ["-R"; "--recursive"]%string) args
  then Some (lit "Recursive operation detected. Proceed?") else None.

(** l.456-483 check_cp *)
Definition check_cp (args : list str) : option str :=
  let recursive := existsb (fun a => arg_in a ["-r"; "-R"; "--recursive"]%string
                                     || (starts_with (lit "-") a && mem_char (chr "r") a)) args in
  let force := existsb (fun a => arg_in a ["-f"; "--force"]%string) args in
  if recursive && force
  then Some (lit "Potentially dangerous copy (recursive + force) detected. Proceed?") else None.

(** l.485-495 check_mv *)
Definition check_mv (args : list str) : option str := None.

(** l.497-519 check_data_exfiltration: the first argument that matches decides
    which of the two messages is given. *)
Fixpoint check_data_exfiltration (args : list str) : option str :=
  match args with
  | [] => None
  | a :: rest =>
      if arg_in a ["-d"; "--data"; "-F"; "--form"; "-T"; "--upload-file"]%string
      then Some (lit "Potential data exfiltration detected (data upload). Proceed?")
      else if arg_in a ["--post-data"; "--post-file"]%string
      then Some (lit "Potential data exfiltration detected (POST data). Proceed?")
      else check_data_exfiltration rest
  end.

(** l.521-557 check_sensitive_file_access *)
Fixpoint check_sensitive_file_access (args : list str) : option str :=
  match args with
  | [] => None
  | a :: rest =>
      let msg what := Some (lit "Access to " ++ lit what ++ lit " detected: '" ++ a ++ lit "'. Proceed?") in
      if contains (lit ".ssh") a || contains (lit "id_rsa") a || contains (lit "id_ed25519") a
      then msg "SSH key"%string
      else if contains (lit ".aws/credentials") a || contains (lit ".config/gcloud") a
              || contains (lit ".azure") a
      then msg "cloud credentials"%string
      else if arg_in a ["/etc/shadow"; "/etc/passwd"]%string
      then msg "system file"%string
      else if contains (lit ".env") a
      then msg "environment file"%string
      else if ends_with (lit "_history") a
      then msg "shell history"%string
      else check_sensitive_file_access rest
  end.

(** l.559-571 check_package_manager: returns None on both branches *)
Definition check_package_manager (args : list str) : option str :=
  match args with
  | sub :: _ => if arg_in sub ["install"; "add"; "i"]%string then None else None
  | [] => None
  end.

(** l.55-79 the registered checkers, l.161 self.checkers.get *)
Definition checker (cmd : str) : option (list str -> option str) :=
  if str_eqb cmd (lit "rm") then Some check_rm
  else if str_eqb cmd (lit "git") then Some check_git
  else if arg_in cmd ["chmod"; "chown"]%string then Some check_recursive
  else if str_eqb cmd (lit "cp") then Some check_cp
  else if str_eqb cmd (lit "mv") then Some check_mv
  else if arg_in cmd ["curl"; "wget"]%string then Some check_data_exfiltration
  else if arg_in cmd ["cat"; "less"; "more"; "head"; "tail"; "grep"; "awk"; "sed"]%string
  then Some check_sensitive_file_access
  else if arg_in cmd ["npm"; "pip"; "pip3"; "cargo"; "gem"; "apt"; "apt-get"; "yum"; "brew"]%string
  then Some check_package_manager
  else None.

(** l.152-165 and l.207-220: always-warn list, then the specific checker.
    [shown] is the name quoted in the always-warn message: the cleaned name in
    check_jobs, the name as given in check_command (the two messages also differ
    by the word "system"; that word is kept in [label]). *)
Definition check_one (label : str) (shown name : str) (args : list str) : verdict :=
  if mem_str name always_warn
  then Confirm (label ++ lit " '" ++ shown ++ lit "' detected. Proceed?")
  else match checker name with
       | Some f => match f args with Some m => Confirm m | None => Allowed end
       | None => Allowed
       end.

(** l.356-358, l.360-365 *)
Definition is_network_tool (c : str) : bool := arg_in c ["curl"; "wget"; "fetch"; "scp"]%string.
Definition is_execution_tool (c : str) : bool :=
  arg_in c ["sh"; "bash"; "zsh"; "fish"; "python"; "perl"; "ruby"; "sudo"]%string.

(** l.126-127: the first white-space separated word, "" if there is none *)
Definition first_word (cmd : str) : str :=
  match split_whitespace cmd with w :: _ => w | [] => [] end.

(** l.120-167, the Normal-mode loop.  A job is represented by its [cmd] text,
    the only field check_jobs reads.  [prev] is jobs[i-1]. *)
Fixpoint check_normal (prev : option str) (jobs : list str) (allow : list str) : verdict :=
  match jobs with
  | [] => Allowed
  | j :: rest =>
      if mem_str j allow then check_normal (Some j) rest allow
      else
        let cmd_name := get_command_name (first_word j) in
        let pipe_bad :=
          match prev with
          | None => false
          | Some p => is_network_tool (get_command_name (first_word p)) && is_execution_tool cmd_name
          end in
        if pipe_bad
        then Confirm (lit "Dangerous pipeline detected: '"
                      ++ match prev with Some p => get_command_name (first_word p) | None => [] end
                      ++ lit " | " ++ cmd_name
                      ++ lit "'. This looks like a 'curl | sh' pattern. Proceed?")
        else
          match split_whitespace j with
          | [] => check_normal (Some j) rest allow
          | c :: args =>
              match check_one (lit "Potentially dangerous system command")
                              (get_command_name c) (get_command_name c) args with
              | Allowed => check_normal (Some j) rest allow
              | v => v
              end
          end
  end.

(** l.92-170 check_jobs *)
Definition check_jobs (jobs : list str) (l : level) (allow : list str) : verdict :=
  match l with
  | Loose => Allowed
  | Strict =>
      if match jobs with [] => false | _ => forallb (fun j => mem_str j allow) jobs end
      then Allowed
      else match jobs with
           | j :: _ => Confirm (lit "Command execution '" ++ j ++ lit "' requested in Strict mode.")
           | [] => Allowed
           end
  | Normal => check_normal None jobs allow
  end.

(** l.174-223 check_command *)
Definition check_command (l : level) (cmd : str) (args : list str) (allow : list str) : verdict :=
  let full := match args with [] => cmd | _ => cmd ++ lit " " ++ join_with (lit " ") args end in
  if mem_str full allow then Allowed
  else if mem_str cmd allow then Allowed
  else match l with
       | Loose => Allowed
       | Strict => Confirm (lit "Command '" ++ cmd ++ lit "' will be executed. Proceed?")
       | Normal => check_one (lit "Potentially dangerous command") cmd (get_command_name cmd) args
       end.

(** l.580-607 check_environment_modification *)
Definition dangerous_vars : list str :=
  map lit ["LD_PRELOAD"; "LD_LIBRARY_PATH"; "DYLD_INSERT_LIBRARIES"; "PYTHONPATH";
           "PERL5LIB"; "RUBYLIB"; "NODE_OPTIONS"]%string.
Definition check_environment_modification (key value : str) (l : level) : verdict :=
  if mem_str key dangerous_vars then
    match l with
    | Loose => Allowed
    | _ => Confirm (lit "Modification of dangerous environment variable '" ++ key
                    ++ lit "' detected. Proceed?")
    end
  else Allowed.

(** dsh/src/lisp/builtin.rs l.96-125 set_variable and l.40-94 set_env share this
    shape: a verdict other than Allowed is an error and leaves the table as it
    was.  The table is an association list, newest binding first. *)
Definition guarded_set (l : level) (key value : str) (vars : list (str * str)) : option (list (str * str)) :=
  match check_environment_modification key value l with
  | Allowed => Some ((key, value) :: vars)
  | _ => None
  end.

(** * MCP tool calls *)

(** l.296-301 *)
Definition is_mcp_command_execution_tool (t : str) : bool :=
  arg_in t ["bash"; "run_command"; "execute_command"; "execute"; "terminal"]%string.

Definition mutating_markers : list str :=
  map lit ["write"; "edit"; "update"; "delete"; "remove"; "create"; "execute"; "run"; "apply";
           "install"; "set"; "post"; "put"; "patch"; "push"; "kill"; "start"; "stop"; "restart";
           "connect"; "disconnect"; "submit"]%string.
Definition read_markers : list str :=
  map lit ["list"; "get"; "read"; "search"; "find"; "show"; "status"; "describe"; "fetch";
           "query"; "view"; "ls"; "stat"]%string.

(** l.311-346 is_read_only_mcp_tool *)
Definition is_read_only_mcp_tool (t : str) : bool :=
  let name := lower t in
  if existsb (fun m => contains m name) mutating_markers then false
  else existsb (fun m => contains m name) read_markers.

Section MCP.
  (** serde_json is not modelled: [normalise a] is the re-serialised JSON value
      of [a] ([None] when [a] is not JSON), [command_of a] the string member
      "command" of the JSON object [a], if any (l.274-280, l.303-309). *)
  Variable normalise : str -> option str.
  Variable command_of : str -> option str.

  (** l.274-280 *)
  Definition mcp_allowlist_entry (tool args : str) : str :=
    lit "mcp:" ++ tool ++ lit ":" ++
    match normalise args with Some n => n | None => trim args end.
  (** l.282-284 *)
  Definition mcp_allowlist_prefix (tool : str) : str := lit "mcp:" ++ tool.
  (** l.286-294 *)
  Definition is_allowlisted_mcp_call (tool args : str) (allow : list str) : bool :=
    mem_str (mcp_allowlist_entry tool args) allow || mem_str (mcp_allowlist_prefix tool) allow.

  (** l.226-272 check_mcp_tool *)
  Definition check_mcp_tool (tool args : str) (l : level) (allow : list str) : verdict :=
    match l with
    | Loose => Allowed
    | _ =>
        if is_allowlisted_mcp_call tool args allow then Allowed
        else if is_mcp_command_execution_tool tool then
          match (match command_of args with
                 | Some c => match split_whitespace c with w :: a => Some (w, a) | [] => None end
                 | None => None
                 end) with
          | Some (w, a) => check_command l w a allow
          | None => Confirm (lit "MCP tool '" ++ tool
                      ++ lit "' requested command execution, but arguments could not be validated safely. Proceed?")
          end
        else match l with
             | Strict => Confirm (lit "MCP tool '" ++ tool ++ lit "' execution requested in Strict mode. Proceed?")
             | _ => if is_read_only_mcp_tool tool then Allowed
                    else Confirm (lit "MCP tool '" ++ tool ++ lit "' may have side effects. Proceed?")
             end
    end.

  (** repl/confirmation.rs l.12-17 *)
  Inductive answer := Yes | No | AlwaysAllow | AskFailed.

  (** ai_features/service.rs l.165-242: one tool call.  [ask] is the user's answer
      to the question, [None] when there is no confirmation handler.  Result: the
      new allowlist, whether the tool was executed, whether the loop goes on
      ([confirm] failing aborts the request: `?`). *)
  Record tool_step := { allow' : list str; executed : bool; goes_on : bool }.
  Definition run_tool (l : level) (allow : list str) (handler : option answer) (tool args : str) : tool_step :=
    match check_mcp_tool tool args l allow with
    | Allowed => {| allow' := allow; executed := true; goes_on := true |}
    | Denied _ => {| allow' := allow; executed := false; goes_on := true |}
    | Confirm _ =>
        match handler with
        | None => {| allow' := allow; executed := false; goes_on := true |}
        | Some Yes => {| allow' := allow; executed := true; goes_on := true |}
        | Some AlwaysAllow =>
            let e := mcp_allowlist_entry tool args in
            {| allow' := if mem_str e allow then allow else allow ++ [e];
               executed := true; goes_on := true |}
        | Some No => {| allow' := allow; executed := false; goes_on := true |}
        | Some AskFailed => {| allow' := allow; executed := false; goes_on := false |}
        end
    end.

  (** a whole sequence of calls; each carries the answer the user gives if asked.
      Result: final allowlist and the calls that were executed. *)
  Fixpoint run_tools (l : level) (allow : list str) (calls : list (str * str * option answer))
    : list str * list (str * str) :=
    match calls with
    | [] => (allow, [])
    | (tool, args, h) :: rest =>
        let s := run_tool l allow h tool args in
        let now := if executed s then [(tool, args)] else [] in
        if goes_on s then
          let (al, ex) := run_tools l (allow' s) rest in (al, now ++ ex)
        else (allow' s, now)
    end.
End MCP.
Arguments mcp_allowlist_prefix : simpl never.

(** * Sanitising text for a language model *)

(** char::is_control: general category Cc *)
Definition is_control (c : char) : bool := ((c <? 32) || ((127 <=? c) && (c <? 160)))%N.
Definition is_kept_ws (c : char) : bool := ((c =? 10) || (c =? 13) || (c =? 9))%N.
(** l.665-672, l.700-705 *)
Definition is_invisible (c : char) : bool :=
  (((8203 <=? c) && (c <=? 8207)) || ((8232 <=? c) && (c <=? 8233))
   || ((8234 <=? c) && (c <=? 8238)) || ((8288 <=? c) && (c <=? 8303)))%N.

Definition marker : str := lit "...(truncated)".

(** l.687-716 sanitize_ai_input; [None] is the panic of String::truncate at an
    offset inside a character *)
Definition sanitize_ai_input (input : str) (max_length : nat) : option str :=
  let s := filter (fun c => negb (is_control c) || is_kept_ws c) input in
  let s := filter (fun c => negb (is_invisible c)) s in
  if max_length <? blen s then
    match split_byte s max_length with
    | Some (p, _) => Some (p ++ marker)
    | None => None
    end
  else Some s.

(** l.610-633 *)
Definition injection_patterns : list str :=
  map lit ["ignore previous"; "ignore all previous"; "ignore the above"; "disregard previous";
           "disregard all previous"; "forget previous"; "forget all previous";
           "forget your instructions"; "override your instructions"; "new instructions";
           "system prompt"; "you are now"; "act as if"; "pretend you are"; "jailbreak";
           "do anything now"; "dan mode"; "developer mode"; "ignore safety"; "bypass safety";
           "ignore security"; "bypass security"]%string.

(** l.636-684 check_prompt_injection: number of warnings of each kind (their
    texts are fixed).  to_lowercase as ASCII [lower], see [level_from_str]. *)
Inductive warning := WPattern (p : str) | WLong | WControl | WUnicode.
Definition check_prompt_injection (input : str) : list warning :=
  map WPattern (filter (fun p => contains p (lower input)) injection_patterns)
  ++ (if (10000 <? N.of_nat (blen input))%N then [WLong] else [])
  ++ (if existsb (fun c => is_control c && negb (is_kept_ws c)) input then [WControl] else [])
  ++ (if existsb is_invisible input then [WUnicode] else []).
