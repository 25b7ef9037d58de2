(** Views of the system: procs (dsh-builtin/src/procs.rs), the directory and git parts of the
    prompt (dsh/src/prompt/modules/directory.rs, git.rs), the names offered for users, groups
    and interfaces (dsh/src/completion/generators/user.rs, group.rs, interface.rs), the mcp
    command (dsh-builtin/src/mcp.rs, dsh/src/lisp/stdlib/mcp.rs) and tm (dsh-builtin/src/tm.rs). *)
From Verif Require Import Base Outside_Model.
From Verif Require Dmv_Model Lread_Model Frecency_Model Numerals.

(** ** procs *)

(** a process as listed; the usage as a number without NaN *)
Record proc := Proc { pid : N; pname : str; cpu : N }.
Record screen := App { listed : list proc; sel : option nat; filt : str; typing : bool }.
Inductive signal := Term | Kill.
(** keys; modifiers are read with the key but not looked at (l.198-236) *)
Inductive code := Char (c : char) | Enter | Esc | Backspace | Up | Down | OtherKey.
Record key := Key { ctrl : bool; what : code }.
(** sort_by, stable, larger usage first (l.73) *)
Definition sort_procs (l : list proc) : list proc := Frecency_Model.sort (fun p q => (cpu q <=? cpu p)%N) l.
Section Procs.
(** str::to_lowercase *)
Variable low : str -> str.
(** l.56-94 refresh_processes; [snap] is what the system reports *)
Definition refresh (snap : list proc) (a : screen) : screen :=
  let sorted := sort_procs snap in
  let l := match filt a with [] => sorted | f => filter (fun p => contains (low f) (low (pname p))) sorted end in
  let s := match sel a with
           | Some i => if length l <=? i then match l with [] => None | _ => Some (length l - 1) end else Some i
           | None => match l with [] => None | _ => Some 0 end
           end in
  App l s (filt a) (typing a).
(** l.36-54 *)
Definition start (snap : list proc) : screen := refresh snap (App [] None [] false).
(** l.103-137 *)
Definition next (a : screen) : screen :=
  match listed a with
  | [] => a
  | l => App l (Some (match sel a with Some i => if length l - 1 <=? i then 0 else i + 1 | None => 0 end)) (filt a) (typing a)
  end.
Definition previous (a : screen) : screen :=
  match listed a with
  | [] => a
  | l => App l (Some (match sel a with Some i => if i =? 0 then length l - 1 else i - 1 | None => 0 end)) (filt a) (typing a)
  end.
(** l.139-146: the process selected; every listed process is one of the last report *)
Definition selected (a : screen) : option proc := match sel a with Some i => nth_error (listed a) i | None => None end.
Definition send (s : signal) (a : screen) : list (N * signal) := match selected a with Some p => [(pid p, s)] | None => [] end.
(** l.196-247: a key, with what the system reports if it is asked; [None]: left *)
Definition press (k : key) (snap : list proc) (a : screen) : option screen * list (N * signal) :=
  if typing a then
    match what k with
    | Enter => (Some (App (listed a) (sel a) (filt a) false), [])
    | Esc => (Some (refresh snap (App (listed a) (sel a) [] false)), [])
    | Char c => (Some (refresh snap (App (listed a) (sel a) (filt a ++ [c]) true)), [])
    | Backspace => (Some (refresh snap (App (listed a) (sel a) (removelast (filt a)) true)), [])
    | _ => (Some a, [])
    end
  else
    match what k with
    | Esc => (None, [])
    | Down => (Some (next a), [])
    | Up => (Some (previous a), [])
    | Char c =>
        if (c =? chr "q")%N then (None, [])
        else if (c =? chr "j")%N then (Some (next a), [])
        else if (c =? chr "k")%N then (Some (previous a), [])
        else if (c =? chr "/")%N then (Some (App (listed a) (sel a) (filt a) true), [])
        else if (c =? chr "x")%N then (Some a, send Term a)
        else if (c =? chr "X")%N then (Some a, send Kill a)
        else (Some a, [])
    | _ => (Some a, [])
    end.
(** a turn of the loop: a key or none, then a refresh if a second has passed (l.96-101) *)
Inductive event := Pressed (k : key) (snap : list proc) | Second (snap : list proc).
Definition turn (a : screen) (e : event) : option screen * list (N * signal) :=
  match e with Pressed k snap => press k snap a | Second snap => (Some (refresh snap a), []) end.
Fixpoint view (a : screen) (es : list event) : option screen * list (N * signal) :=
  match es with
  | [] => (Some a, [])
  | e :: r => match turn a e with
              | (None, s) => (None, s)
              | (Some b, s) => let '(c, t) := view b r in (c, s ++ t)
              end
  end.
End Procs.

(** ** the prompt *)

(** absolute paths as their names; Display *)
Definition shown_path (p : list str) : str := match p with [] => lit "/" | _ => flat_map (fun n => chr "/" :: n) p end.
(** Path::strip_prefix *)
Fixpoint strip (r p : list str) : option (list str) :=
  match r, p with
  | [], _ => Some p
  | x :: r', y :: p' => if str_eqb x y then strip r' p' else None
  | _, [] => None
  end.
Definition join_slash (l : list str) : str := join_with (lit "/") l.
(** directory.rs l.43-82 format_prompt_path; [dot_git]: the directory holds .git.  Names are
    text and none is ".." *)
Definition prompt_path (cwd : list str) (root home : option (list str)) (dot_git : bool) : str * bool :=
  let other :=
    if dot_git then (last cwd [], false)
    else match home with
         | Some h => (Dmv_Model.replace (shown_path h) (lit "~") (shown_path cwd), false)
         | None => (shown_path cwd, false)
         end in
  match root with
  | Some r =>
      match strip r cwd with
      | Some [] => (last r [], true)
      | Some rel => (last r [] ++ lit "/" ++ join_slash rel, true)
      | None => other
      end
  | None => other
  end.

(** git.rs l.20-73 render, the colours left out *)
Record counts := Counts { conflicted : N; ahead : N; behind : N; staged : N; renamed : N; deleted : N; modified : N; untracked : N }.
Definition part (mark : str) (n : N) : str := if (0 <? n)%N then mark ++ Lread_Model.show_nat n else [].
Definition status_text (c : counts) : str :=
  part (lit "=") (conflicted c) ++
  (if (0 <? ahead c)%N && (0 <? behind c)%N then lit " " ++ [8661%N] ++ lit " "
   else part (lit " " ++ [8673%N]) (ahead c) ++ part (lit " " ++ [8675%N]) (behind c)) ++
  part (lit " +") (staged c) ++ part (lit " " ++ [187%N]) (renamed c) ++ part (lit " " ++ [10008%N]) (deleted c) ++
  part (lit " !") (modified c) ++ part (lit " ?") (untracked c).
Definition git_part (mark branch : str) (c : counts) : str :=
  lit " on " ++ mark ++ lit " " ++ branch ++ match status_text c with [] => [] | s => lit " [" ++ trim s ++ lit "]" end.

(** ** users, groups and interfaces *)

Record cand := Cand { text : str; about : option str }.
Definition numeral (s : str) : option N :=
  match Numerals.parse_usize s with Some n => if (n <? 4294967296)%N then Some n else None | None => None end.
(** user.rs l.46-73: a line of /etc/passwd *)
Definition user_of (system : bool) (line : str) : list cand :=
  if starts_with (lit "#") line || match line with [] => true | _ => false end then []
  else match split_on (chr ":") line with
       | name :: _ :: u :: _ :: gecos :: _ =>
           match numeral u with
           | Some n => if system || (1000 <=? n)%N || str_eqb name (lit "root")
                       then [Cand name (match gecos with [] => None | _ => Some gecos end)] else []
           | None => []
           end
       | _ => []
       end.
(** group.rs l.31-46 *)
Definition group_of (line : str) : list cand :=
  if starts_with (lit "#") line || match line with [] => true | _ => false end then []
  else match split_on (chr ":") line with
       | name :: r => [Cand name (match nth_error r 1 with
                                  | Some g => option_map (fun n => lit "GID: " ++ Lread_Model.show_nat n) (numeral g)
                                  | None => None
                                  end)]
       | [] => []
       end.
(** sort_by on the texts, stable *)
Definition sort_cands (le : cand -> cand -> bool) (l : list cand) : list cand := Frecency_Model.sort le l.
Definition text_le (a b : cand) : bool := match Frecency_Model.str_cmp (text a) (text b) with Gt => false | _ => true end.
Section Names.
Variable low : str -> str.
(** filter_candidates *)
Definition begins (token : str) (c : cand) : bool := starts_with (low token) (low (text c)).
Definition narrowed (token : str) (l : list cand) : list cand := match token with [] => l | _ => filter (begins token) l end.
(** user.rs l.33-80 and group.rs l.24-58 without the cache; [file]: the lines, [None] if the
    file cannot be read as text *)
Definition users (system : bool) (file : option (list str)) (token : str) : list cand :=
  narrowed token (sort_cands text_le (match file with Some ls => flat_map (user_of system) ls | None => [] end)).
Definition groups (file : option (list str)) (token : str) : list cand :=
  narrowed token (sort_cands text_le (match file with Some ls => flat_map group_of ls | None => [] end)).
(** interface.rs l.80-95 *)
Definition priority (name : str) : nat :=
  if starts_with (lit "eth") name || starts_with (lit "enp") name || starts_with (lit "eno") name then 0
  else if starts_with (lit "wlan") name || starts_with (lit "wlp") name then 1
  else if str_eqb name (lit "lo") then 5
  else if starts_with (lit "docker") name || starts_with (lit "br-") name || starts_with (lit "veth") name then 4
  else 3.
Definition interface_le (a b : cand) : bool :=
  if priority (text a) <? priority (text b) then true
  else if priority (text b) <? priority (text a) then false else text_le a b.
(** interface.rs l.30-78; [devices]: the names in /sys/class/net that are text, with what is said of them *)
Definition interfaces (devices : list cand) (token : str) : list cand := narrowed token (sort_cands interface_le devices).
End Names.

(** ** mcp *)

(** mcp.rs l.12-48: the Lisp text that is run, or a status *)
Inductive mcp_act := Shows (status : nat) | Runs (code : str).
Definition quoted (f label : str) : str := lit "(" ++ f ++ lit " " ++ [34%N] ++ label ++ [34%N] ++ lit ")".
Definition mcp_act_of (args : list str) : mcp_act :=
  match args with
  | [] => Shows 0
  | a :: r =>
      let is := fun x y => str_eqb a (lit x) || str_eqb a (lit y) in
      if is "status"%string "s"%string then Runs (lit "(mcp-status)")
      else if is "connect"%string "c"%string then match r with [] => Shows 1 | l :: _ => Runs (quoted (lit "mcp-connect") l) end
      else if is "disconnect"%string "d"%string then match r with [] => Runs (lit "(mcp-disconnect-all)") | l :: _ => Runs (quoted (lit "mcp-disconnect") l) end
      else if is "list"%string "l"%string then Runs (lit "(mcp-list)")
      else if is "tools"%string "t"%string then Runs (lit "(mcp-list-tools)")
      else if is "help"%string "-h"%string || str_eqb a (lit "--help") then Shows 0
      else Shows 1
  end.
(** dsh/src/proxy/builtin/lisp.rs l.11-21: an error of the engine is written to stderr and
    forgotten; [wrote]: stderr takes it *)
Definition mcp_status (run : str -> bool) (wrote : bool) (args : list str) : nat :=
  match mcp_act_of args with
  | Shows s => s
  | Runs c => if run c then 0 else if wrote then 0 else 1
  end.
(** stdlib/mcp.rs l.163-168: the description in the list of tools; [None]: a panic *)
Definition tool_line (desc : str) : option str :=
  if 50 <? blen desc then match split_byte desc 47 with Some (a, _) => Some (a ++ lit "...") | None => None end else Some desc.

(** ** tm *)

(** tm.rs l.47-123; the outputs kept, the line taken; both descriptors take what is written *)
Definition tm (history : list (str * str)) (pick : list (str * str) -> option (str * str)) (s : fds) : nat * fds :=
  match history with
  | [] => (1, snd (write_line true 2 (lit "tm: no output history available") s))
  | _ =>
      match pick history with
      | None => (0, s)
      | Some (o, e) =>
          let s1 := match o with [] => s | _ => snd (write_line true 1 o s) end in
          (0, match e with [] => s1 | _ => snd (write_line true 2 e s1) end)
      end
  end.

(** ** reload *)

(** str::find and str::rfind: the text in front of the first (last) place and from it on *)
Fixpoint find_text (pat s : str) : option (str * str) :=
  if starts_with pat s then Some ([], s)
  else match s with [] => None | c :: r => match find_text pat r with Some (a, b) => Some (c :: a, b) | None => None end end.
Fixpoint rfind_char (x : char) (s : str) : option (str * str) :=
  match s with
  | [] => None
  | c :: r => match rfind_char x r with
              | Some (a, b) => Some (c :: a, b)
              | None => if (c =? x)%N then Some ([], s) else None
              end
  end.
Definition home_config : str := lit "~/.config/dsh/config.lisp".
(** str::trim_start_matches: as often as it is there; the fuel is the length *)
Fixpoint trim_matches (fuel : nat) (pat s : str) : str :=
  match fuel with
  | 0 => s
  | Datatypes.S n => if starts_with pat s then trim_matches n pat (skipn (length pat) s) else s
  end.
(** dsh/src/proxy/builtin/reload.rs l.41-104 format_reload_error; [e] is what the error shows *)
Definition reload_message (e : str) : str :=
  if contains (lit "No such file or directory") e || contains (lit "Failed to read config file") e then
    match find_text home_config e with
    | Some _ => lit "reload: file not found: " ++ home_config
    | None =>
        match rfind_char (chr "/") e with
        | Some (_, b) =>
            match find_text (lit " ") b with
            | Some (f, _) => lit "reload: file not found: ~/.config/dsh/" ++ skipn 1 f
            | None => lit "reload: file not found: " ++ home_config
            end
        | None => lit "reload: file not found: " ++ home_config
        end
    end
  else if contains (lit "Permission denied") e then lit "reload: permission denied: cannot read ~/.config/dsh/config.lisp"
  else if contains (lit "failed get xdg directory") e then lit "reload: configuration directory error: unable to access ~/.config/dsh/"
  else match find_text (lit "Parse error:") e with
  | Some (_, b) => lit "reload: syntax error: " ++ trim_matches (length b) (lit "Parse error: ") b
  | None =>
      match find_text (lit "Runtime error:") e with
      | Some (_, b) => lit "reload: runtime error: " ++ trim_matches (length b) (lit "Runtime error: ") b
      | None => if contains (lit "I/O error") e || contains (lit "io::Error") e then lit "reload: I/O error: " ++ e else lit "reload: " ++ e
      end
  end.
(** what the evaluation of the file came to; an error of reading shows only its context
    (dsh/src/lisp/mod.rs l.97-98) *)
Inductive loaded := Done | Unread (path cause : str) | Failed (text : str).
Definition error_text (r : loaded) : option str :=
  match r with Done => None | Unread p _ => Some (lit "Failed to read config file: " ++ p) | Failed t => Some t end.
(** dsh-builtin/src/reload.rs l.12-47: the words after the name; the status, the lines on stderr
    and whether the file was evaluated; stdout and stderr take what is written *)
Definition reload (args : list str) (r : loaded) : nat * list str * bool :=
  match args with
  | [] => match error_text r with
          | None => (0, [], true)
          | Some e => (1, [reload_message e; lit "reload: " ++ e], true)
          end
  | [a] => if str_eqb a (lit "--help") || str_eqb a (lit "-h") then (0, [], false)
           else (1, [lit "reload: invalid option: " ++ a; lit "Usage: reload [--help|-h]"], false)
  | _ => (1, [lit "reload: too many arguments"; lit "Usage: reload [--help|-h]"], false)
  end.
