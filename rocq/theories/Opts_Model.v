(** The builtins that read their options with the getopts crate (0.2.24):
    dsh-builtin/src/{set,dmv,gpr}.rs and dsh-builtin/src/serve/{mod,config,server}.rs.

    Simplifications: the layout of the option list in a usage text is a parameter;
    log messages (tracing) are not part of the output. *)
From Verif Require Import Base Numerals.
From Verif Require Env_Model Dmv_Model.

(** ** getopts *)

(** getopts::Name and one call of optflag, optopt or optmulti: [short] is [None] for "" *)
Inductive name := Short (c : char) | Long (s : str).
Record opt := Opt { short : option char; long : str; takes : bool; multi : bool }.
Definition optflag c l := Opt (Some c) (lit l) false false.
Definition optopt c l := Opt (Some c) (lit l) true false.

(** getopts::Name::from_str: one byte is a short name *)
Definition name_of (s : str) : name :=
  match s with
  | [c] => if utf8_len c =? 1 then Short c else Long s
  | _ => Long s
  end.
Definition shown (n : name) : str := match n with Short c => [c] | Long s => s end.

(** getopts find_opt.  The crate looks at the main names before the aliases; the
    names of each command here are distinct, so this finds the same option. *)
Definition has (n : name) (o : opt) : bool :=
  match n with
  | Short c => match short o with Some d => (c =? d)%N | None => false end
  | Long s => str_eqb s (long o)
  end.
Definition find_opt (os : list opt) (n : name) : option opt := List.find (has n) os.

(** getopts::Fail and its Display *)
Inductive fail := Missing (n : name) | Unrecognized (n : name) | Duplicated (n : name) | Unexpected (n : name).
Definition show_fail (f : fail) : str :=
  match f with
  | Missing n => lit "Argument to option '" ++ shown n ++ lit "' missing"
  | Unrecognized n => lit "Unrecognized option: '" ++ shown n ++ lit "'"
  | Duplicated n => lit "Option '" ++ shown n ++ lit "' given more than once"
  | Unexpected n => lit "Option '" ++ shown n ++ lit "' does not take an argument"
  end.

(** an option as it was given, named by its long name *)
Definition given : Type := (str * option str)%type.

(** Options::parse, the letters of one word such as -abc: the flags, and the option
    that takes an argument with what follows it in the word *)
Inductive letters := Bad (c : char) | Read (flags : list given) (last : option (char * opt * option str)).
Fixpoint cluster (os : list opt) (cs : str) : letters :=
  match cs with
  | [] => Read [] None
  | c :: r =>
      match find_opt os (Short c) with
      | None => Bad c
      | Some o =>
          if takes o then Read [] (Some (c, o, match r with [] => None | _ => Some r end))
          else match cluster os r with
               | Bad d => Bad d
               | Read fl last => Read ((long o, None) :: fl) last
               end
      end
  end.

(** is_arg *)
Definition is_arg (w : str) : bool := starts_with (lit "-") w && (1 <? blen w).

(** splitn(2, '=') *)
Fixpoint cut_at_equals (s : str) : str * option str :=
  match s with
  | [] => ([], None)
  | c :: r => if (c =? chr "=")%N then ([], Some r) else let '(a, b) := cut_at_equals r in (c :: a, b)
  end.

Definition result : Type := (fail + list given * list str)%type.
Definition more (g : list given) (f : list str) (r : result) : result :=
  match r with inl e => inl e | inr (g', f') => inr (g ++ g', f ++ f') end.

(** Options::parse (free arguments may stand among the options), the loop *)
Fixpoint words (os : list opt) (args : list str) : result :=
  match args with
  | [] => inr ([], [])
  | cur :: rest =>
      if negb (is_arg cur) then more [] [cur] (words os rest)
      else if str_eqb cur (lit "--") then inr ([], rest)
      else
        let finish (g : list given) (n : name) (o : opt) (i : option str) : result :=
          if takes o then
            match i with
            | Some v => more (g ++ [(long o, Some v)]) [] (words os rest)
            | None => match rest with
                      | [] => inl (Missing n)
                      | v :: rest' => more (g ++ [(long o, Some v)]) [] (words os rest')
                      end
            end
          else match i with
               | Some _ => inl (Unexpected n)
               | None => more (g ++ [(long o, None)]) [] (words os rest)
               end in
        if starts_with (lit "--") cur then
          let '(a, i) := cut_at_equals (skipn 2 cur) in
          let n := name_of a in
          match find_opt os n with
          | None => inl (Unrecognized n)
          | Some o => finish [] n o i
          end
        else
          match cluster os (skipn 1 cur) with
          | Bad c => inl (Unrecognized (Short c))
          | Read fl None => more fl [] (words os rest)
          | Read fl (Some (c, o, i)) => finish fl (Short c) o i
          end
  end.

(** the name shown for an option given twice: the short one if it has one *)
Definition main_name (o : opt) : name := match short o with Some c => Short c | None => Long (long o) end.
Definition times (g : list given) (o : opt) : nat := length (filter (fun x : given => str_eqb (fst x) (long o)) g).
(** Options::parse, the check after the loop *)
Definition parse (os : list opt) (args : list str) : result :=
  match words os args with
  | inl e => inl e
  | inr (g, f) =>
      match List.find (fun o => negb (multi o) && (1 <? times g o)) os with
      | Some o => inl (Duplicated (main_name o))
      | None => inr (g, f)
      end
  end.

(** Matches::opt_present, opt_str and opt_strs, by long name *)
Definition present (g : list given) (l : str) : bool := existsb (fun x : given => str_eqb (fst x) l) g.
Definition value (g : list given) (l : str) : option str :=
  match List.find (fun x : given => str_eqb (fst x) l) g with Some (_, v) => v | None => None end.
Definition values (g : list given) (l : str) : list str :=
  flat_map (fun x : given => if str_eqb (fst x) l then match snd x with Some v => [v] | None => [] end else []) g.

(** ** output *)
Inductive line := OutLine (s : str) | ErrLine (s : str).

(** ** set *)

(** set.rs l.26-27 *)
Definition set_opts : list opt := [optflag (chr "x") "export"; optflag (chr "h") "help"].
(** set.rs l.20-54 command; [args] are the words after the command name, [usage] the
    usage text *)
Definition set_cmd (usage : str) (args : list str) (e : Env_Model.env) : nat * list line * Env_Model.env :=
  match parse set_opts args with
  | inl f => (1, [ErrLine (show_fail f)], e)
  | inr (g, free) =>
      if present g (lit "help") then (0, [OutLine usage], e)
      else match free with
           | [key; val] =>
               if present g (lit "export") then (0, [], Env_Model.set_env_var key val e)
               else (0, [], Env_Model.set_var key val e)
           | _ => (0, [OutLine usage], e)
           end
  end.

(** ** dmv *)

(** dmv.rs l.25-32 *)
Definition dmv_opts : list opt :=
  [optflag (chr "n") "dry-run"; optflag (chr "v") "verbose"; optflag (chr "f") "force"; optflag (chr "h") "help"].
Inductive dmv_run :=
| Said (status : nat) (ls : list line)                        (** nothing was tried *)
| Ran (verbose : bool) (o : Dmv_Model.outcome).               (** execute_dmv was called *)
Section Dmv.
Variable allowed : Dmv_Model.dir -> str -> str -> bool.
Variable class : str -> option (char -> bool).
(** dmv.rs l.23-77 command *)
Definition dmv_cmd (help : str) (args : list str) (d : Dmv_Model.dir) (below : list str) : dmv_run :=
  match parse dmv_opts args with
  | inl f => Said 1 [ErrLine (lit "dmv: " ++ show_fail f)]
  | inr (g, free) =>
      if present g (lit "help") then Said 0 [OutLine help]
      else match free with
           | [pattern; replacement] =>
               let dry := present g (lit "dry-run") in
               let verbose := present g (lit "verbose") || dry in
               Ran verbose (Dmv_Model.dmv allowed class pattern replacement dry (present g (lit "force")) d below)
           | _ => Said 1 [ErrLine (lit "dmv: exactly two arguments required: pattern and replacement");
                          ErrLine (lit "Usage: dmv [options] pattern replacement")]
           end
  end.
End Dmv.

(** ** serve *)

(** serve/config.rs l.73-90 *)
Definition serve_opts : list opt :=
  [optopt (chr "p") "port"; optflag (chr "v") "verbose"; optflag (chr "o") "open";
   Opt None (lit "cors") false false; Opt None (lit "no-index") false false; optflag (chr "h") "help"].

(** what a directory turns out to be *)
Inductive found := Absent | NotDirectory | Unreadable | Usable.
(** serve/config.rs l.7-23 ServeConfig *)
Record config := Config {
  host : str; port : N; directory : str; verbose : bool; open_browser : bool; cors : bool; index : bool
}.
(** the errors of serve/error.rs that can come from the arguments *)
Inductive serve_error :=
| InvalidPort (p : N) | DirectoryNotFound (d : str) | IsNoDirectory (d : str) | PermissionDenied (d : str)
| ArgumentError (msg : str) | NoCurrentDirectory.

(** <u32 as FromStr>::from_str *)
Definition parse_u32 (s : str) : option N :=
  match parse_usize s with Some n => if (n <? 4294967296)%N then Some n else None | None => None end.

Section Serve.
(** the kernel's answers: the current directory, what a path is, whether a port is free *)
Variable cwd : option str.
Variable look : str -> found.
Variable port_free : N -> bool.
(** the list of options in the usage text *)
Variable options_text : str.

(** Path::join of the current directory and a relative path *)
Definition under (c d : str) : str := if ends_with (lit "/") c then c ++ d else c ++ lit "/" ++ d.

(** config.rs l.43-65 validate *)
Definition validate (c : config) : serve_error + config :=
  if (port c =? 0)%N then inl (InvalidPort 0)
  else match look (directory c) with
       | Absent => inl (DirectoryNotFound (directory c))
       | NotDirectory => inl (IsNoDirectory (directory c))
       | Unreadable => inl (PermissionDenied (directory c))
       | Usable => inr c
       end.

(** config.rs l.107-122 *)
Definition port_of (g : list given) : serve_error + N :=
  match value g (lit "port") with
  | None => inr 8000%N
  | Some s =>
      match parse_u32 s with
      | Some p => if ((p =? 0) || (65535 <? p))%N then inl (InvalidPort p) else inr p
      | None => inl (ArgumentError (lit "Invalid port number: '" ++ s ++ lit "'. Port must be a number between 1 and 65535"))
      end
  end.
(** config.rs l.131-147 and the default of l.29 *)
Definition directory_of (free : list str) : serve_error + str :=
  match free with
  | [] => inr (match cwd with Some c => c | None => lit "." end)
  | d :: _ =>
      if starts_with (lit "/") d then inr d
      else match cwd with Some c => inr (under c d) | None => inl NoCurrentDirectory end
  end.
(** config.rs l.69-153 parse_arguments *)
Definition parse_arguments (program : str) (args : list str) : serve_error + config :=
  match parse serve_opts args with
  | inl f => inl (ArgumentError (lit "Error parsing arguments: " ++ show_fail f))
  | inr (g, free) =>
      if present g (lit "help") then
        inl (ArgumentError (lit "Usage: " ++ program ++ lit " [OPTIONS] [DIRECTORY]" ++ options_text))
      else match port_of g with
           | inl e => inl e
           | inr p =>
               match directory_of free with
               | inl e => inl e
               | inr d => validate (Config (lit "127.0.0.1") p d (present g (lit "verbose")) (present g (lit "open"))
                                           (present g (lit "cors")) (negb (present g (lit "no-index"))))
               end
           end
  end.

(** a socket that accepts connections, the directory served and how *)
Record listener := Listener { at_host : str; at_port : N; serves : str; with_index : bool; with_cors : bool }.
Definition banner (c : config) (p : str) : list line :=
  [OutLine (lit "doge-shell HTTP server starting..."); OutLine (lit "  Directory: " ++ directory c);
   OutLine (lit "  Port: " ++ p); OutLine (lit "  Press Ctrl+C to stop the server"); OutLine []].
Definition show_port (p : N) : str := Dmv_Model.show (N.to_nat p).
(** server.rs l.25-60 start, l.148-196 run_server_async: a failure to bind is logged by
    the spawned task, which then ends normally.  A served session ends at a signal. *)
Definition start_http_server (c : config) : nat * list line * option listener :=
  (0, banner c (show_port (port c)),
   if port_free (port c) then Some (Listener (host c) (port c) (directory c) (index c) (cors c)) else None).

(** error.rs l.49-80 user_message, and l.81 to_string of the rest *)
Definition user_message (e : serve_error) : str :=
  match e with
  | InvalidPort p => lit "Invalid port number: " ++ show_port p ++ lit "." ++ [10%N] ++ lit "Port must be between 1 and 65535." ++ [10%N] ++ lit "Example: serve -p 8080"
  | DirectoryNotFound d => lit "Directory not found: " ++ d ++ [10%N] ++ lit "Make sure the directory exists and you have permission to access it."
  | PermissionDenied d => lit "Permission denied: " ++ d ++ [10%N] ++ lit "Make sure you have read permission for this directory." ++ [10%N] ++ lit "Try: chmod +r """ ++ d ++ lit """"
  | IsNoDirectory d => lit "Path is not a directory: " ++ d ++ [10%N] ++ lit "Please specify a directory path, not a file."
  | ArgumentError m => m
  | NoCurrentDirectory => lit "I/O error"
  end.
(** mod.rs l.20-50 command *)
Definition serve (program : str) (args : list str) : nat * list line * option listener :=
  match parse_arguments program args with
  | inl (ArgumentError m) => if contains (lit "Usage:") m then (0, [OutLine m], None) else (1, [ErrLine (lit "serve: " ++ m)], None)
  | inl e => (1, [ErrLine (lit "serve: " ++ user_message e)], None)
  | inr c => start_http_server c
  end.
End Serve.

(** ** gpr *)

(** gpr.rs l.26-33 *)
Definition gpr_opts : list opt :=
  [optflag (chr "c") "create"; optflag (chr "w") "web"; optopt (chr "t") "title"; optopt (chr "b") "body";
   optopt (chr "B") "base"; optflag (chr "d") "draft"; optflag (chr "h") "help"].

(** what running gh comes to: it could not be started, or its success and its output *)
Inductive ran := NotStarted (e : str) | Ended (ok : bool) (out err : str).
Record gpr_world := GprWorld {
  in_repository : bool;             (** git rev-parse --git-dir succeeds *)
  gh_installed : bool;
  stdin_line : option str;          (** the line read for the title; [None] is an error *)
  gh : list str -> ran;             (** running gh with these arguments *)
  requests : str + list N;          (** the pull requests gh lists: an error or their numbers *)
  choose : list N -> option nat     (** which line is picked, if any *)
}.

(** sort_by_key(Reverse(number)): a stable sort, largest first *)
Fixpoint place (n : N) (l : list N) : list N :=
  match l with [] => [n] | m :: r => if (m <=? n)%N then n :: m :: r else m :: place n r end.
Definition newest_first (l : list N) : list N := fold_right place [] l.

(** gpr.rs l.70-86 open_pr_list_web; the runs of gh are reported *)
Definition web_args : list str := [lit "pr"; lit "list"; lit "--web"].
Definition open_web (w : gpr_world) : nat * list line * list (list str) :=
  match gh w web_args with
  | Ended true _ _ => (0, [], [web_args])
  | Ended false _ _ => (1, [ErrLine (lit "gpr: failed to open PR list in browser")], [web_args])
  | NotStarted e => (1, [ErrLine (lit "gpr: " ++ e)], [])
  end.
(** gpr.rs l.120-145 *)
Definition create_args (title : str) (g : list given) : list str :=
  [lit "pr"; lit "create"; lit "--title"; title]
  ++ match value g (lit "body") with Some b => [lit "--body"; b] | None => [] end
  ++ match value g (lit "base") with Some b => [lit "--base"; b] | None => [] end
  ++ if present g (lit "draft") then [lit "--draft"] else [].
(** gpr.rs l.89-180 create_pr *)
Definition create_pr (w : gpr_world) (g : list given) : nat * list line * list (list str) :=
  let title := match value g (lit "title") with
               | Some t => Some t
               | None => option_map trim (stdin_line w)
               end in
  match title with
  | None => (1, [ErrLine (lit "gpr: failed to read title")], [])
  | Some [] => (1, [ErrLine (lit "gpr: title is required")], [])
  | Some t =>
      let a := create_args t g in
      let said := [OutLine (lit "Creating PR...")] in
      match gh w a with
      | NotStarted e => (1, said ++ [ErrLine (lit "gpr: " ++ e)], [])
      | Ended false _ err => (1, said ++ [ErrLine (lit "gpr: " ++ trim err)], [a])
      | Ended true (c :: o) _ => (0, said ++ [OutLine (lit "PR created: " ++ trim (c :: o))], [a])
      | Ended true [] (c :: e) => (0, said ++ [OutLine (trim (c :: e))], [a])
      | Ended true [] [] => (0, said, [a])
      end
  end.
Definition checkout_args (n : N) : list str := [lit "pr"; lit "checkout"; show_port n].
(** gpr.rs l.183-272 checkout_pr *)
Definition checkout_pr (w : gpr_world) : nat * list line * list (list str) :=
  match requests w with
  | inl e => (1, [ErrLine (lit "gpr: failed to get PRs: " ++ e)], [])
  | inr [] => (1, [ErrLine (lit "gpr: no PR found")], [])
  | inr l =>
      let shown := newest_first l in
      match choose w shown with
      | None => (0, [], [])
      | Some i =>
          match nth_error shown i with
          | None => (0, [], [])
          | Some n =>
              let a := checkout_args n in
              let said := [OutLine (lit "Checking out PR #" ++ show_port n ++ lit "...")] in
              match gh w a with
              | NotStarted e => (1, said ++ [ErrLine (lit "gpr: failed to checkout PR: " ++ e)], [])
              | Ended false _ err => (1, said ++ [ErrLine (lit "gpr: failed to checkout PR: " ++ trim err)], [a])
              | Ended true _ err => (0, said ++ [OutLine (trim err)], [a])
              end
          end
      end
  end.
(** gpr.rs l.23-67 command; argv starts with the command name, which is a free argument *)
Definition gpr (usage : str) (argv : list str) (w : gpr_world) : nat * list line * list (list str) :=
  match parse gpr_opts argv with
  | inl f => (1, [ErrLine (lit "gpr: " ++ show_fail f)], [])
  | inr (g, _) =>
      if present g (lit "help") then (0, [OutLine usage], [])
      else if negb (in_repository w) then (1, [ErrLine (lit "gpr: not a git repository")], [])
      else if negb (gh_installed w) then (1, [ErrLine (lit "gpr: gh command not found")], [])
      else if present g (lit "web") then open_web w
      else if present g (lit "create") then create_pr w g
      else checkout_pr w
  end.
