(** Where completion takes signals, processes and the commands of the system from:
    dsh/src/completion/generators/{signal,process,system}.rs.

    Case mapping ([upper], [low]) and the fuzzy matcher are parameters; instants are milliseconds. *)
From Verif Require Import Base.
From Verif Require Frecency_Model Lread_Model Menu_Model Commands_Model.

(** ** signal.rs *)

(** l.5-37; the descriptions are left out *)
Definition signals : list (str * N) :=
  [(lit "SIGHUP", 1); (lit "SIGINT", 2); (lit "SIGQUIT", 3); (lit "SIGILL", 4); (lit "SIGTRAP", 5); (lit "SIGABRT", 6);
   (lit "SIGBUS", 7); (lit "SIGFPE", 8); (lit "SIGKILL", 9); (lit "SIGUSR1", 10); (lit "SIGSEGV", 11); (lit "SIGUSR2", 12);
   (lit "SIGPIPE", 13); (lit "SIGALRM", 14); (lit "SIGTERM", 15); (lit "SIGSTKFLT", 16); (lit "SIGCHLD", 17);
   (lit "SIGCONT", 18); (lit "SIGSTOP", 19); (lit "SIGTSTP", 20); (lit "SIGTTIN", 21); (lit "SIGTTOU", 22);
   (lit "SIGURG", 23); (lit "SIGXCPU", 24); (lit "SIGXFSZ", 25); (lit "SIGVTALRM", 26); (lit "SIGPROF", 27);
   (lit "SIGWINCH", 28); (lit "SIGIO", 29); (lit "SIGPWR", 30); (lit "SIGSYS", 31)]%N.
(** strip_prefix("SIG").unwrap_or(name) *)
Definition short (n : str) : str := if starts_with (lit "SIG") n then skipn 3 n else n.
(** l.47-72 generate_candidates: the names offered *)
Definition signal_names (upper : str -> str) (token : str) : list str :=
  map fst (filter (fun s => str_eqb token [] || starts_with (upper token) (fst s) ||
                            starts_with (upper token) (short (fst s)) || starts_with token (Lread_Model.show_nat (snd s))) signals).

(** ** process.rs *)

(** a directory of /proc whose name is a number, with what its file comm says *)
Record process := Process { pid : N; comm : option str }.
(** a candidate: the number as text and the name *)
Definition offer (p : process) : str * option str := (Lread_Model.show_nat (pid p), option_map trim (comm p)).
Definition by_pid (a b : process) : bool := (pid a <=? pid b)%N.
(** l.76-101 *)
Definition wanted (low : str -> str) (token : str) (c : str * option str) : bool :=
  str_eqb token [] || starts_with token (fst c) ||
  match snd c with Some d => contains (low token) (low d) | None => false end.
(** l.21-104 generate_candidates at [now], when /proc holds [procs]; what is kept is the one list and when it expires
    (cache.rs l.112-121 get_entry does not extend).  The sort is stable. *)
Definition kept_list := option (list (str * option str) * nat).
Definition process_candidates (low : str -> str) (now : nat) (token : str) (procs : list process) (kept : kept_list)
  : list (str * option str) * kept_list :=
  let fresh := map offer (Frecency_Model.sort by_pid procs) in
  let (l, kept') :=
    match kept with
    | Some (l, e) => if now <? e then (l, kept) else (fresh, Some (fresh, now + 1000))
    | None => (fresh, Some (fresh, now + 1000))
    end in
  (filter (wanted low token) l, kept').

(** ** system.rs *)

(** completion.rs l.49 MAX_RESULT *)
Definition max_result : nat := 500.
(** l.14-24: the names known and when they were learnt, whether a scan is under way, and the recent answers *)
Record state := State { names : option (list str * nat); scanning : bool; recent : Menu_Model.cache str }.
Definition start : state := State None false [].
(** a word is completed; a scan ends, having seen the disk; the names are given by the shell
    (environment/paths.rs l.153, lib.rs l.229 and l.243); PATH is set (paths.rs l.115) *)
Inductive event :=
| Ask (now : nat) (token : str) (w : Commands_Model.world)
| Scanned (now : nat) (w : Commands_Model.world)
| Given (now : nat) (l : list str)
| Path_set.

Section System.
Variable fuzzy : str -> str -> bool.
(** the directories of PATH in the environment the shell was started with: std::env is not changed by
    the shell's own variables *)
Variable own : list str.

(** l.71-91: the set of names, in order *)
Definition scan (w : Commands_Model.world) : list str :=
  map fst (fst (Commands_Model.push
    (Frecency_Model.sort Commands_Model.text_leb
       (flat_map (fun d => match Commands_Model.read_dir w d with
                           | Some es => map Commands_Model.name (filter (Commands_Model.taken fuzzy []) es)
                           | None => []
                           end) own)) [])).
(** l.43-58 should_refresh *)
Definition too_old (now : nat) (s : state) : bool := match names s with Some (_, t) => 30 * 1000 <? now - t | None => true end.
(** l.115-219 generate_candidates; a scan that begins here ends in a later event.  Stopping at the maximum
    is the same as cutting off. *)
Definition fresh_answer (token : str) (w : Commands_Model.world) (s : state) : list str :=
  let named := if (starts_with (lit "/") token || starts_with (lit "./") token) && Commands_Model.is_file w token then [token] else [] in
  named ++
  firstn (max_result - length named)
    (match names s with
     | Some (l, _) => filter (fun c => Commands_Model.matches fuzzy token c && negb (mem_str c named)) l
     | None => map fst (Commands_Model.from_paths fuzzy w token own named)
     end).
Definition ask (now : nat) (token : str) (w : Commands_Model.world) (s : state) : list str * state :=
  let miss :=
    let l := fresh_answer token w s in
    (l, State (names s) (scanning s || too_old now s)
              (match token with [] => recent s | _ => Menu_Model.set 2000 now token l (recent s) end)) in
  match token with
  | [] => miss
  | _ => match Menu_Model.lookup (fun x => x) now token (recent s) with Some (_, l, _) => (l, s) | None => miss end
  end.
Definition step (s : state) (e : event) : state :=
  match e with
  | Ask now token w => snd (ask now token w s)
  | Scanned now w => State (Some (scan w, now)) false (recent s)      (* l.93-97 *)
  | Given now l => State (Some (l, now)) (scanning s) (recent s)      (* l.26-31 *)
  | Path_set => State None false (recent s)                           (* l.33-39 *)
  end.
Definition run (es : list event) : state := fold_left step es start.
End System.
