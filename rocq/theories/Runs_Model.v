(** Builtins that start other commands: dsh/src/proxy/mod.rs (dispatch, capture_command),
    dsh/src/proxy/builtin/{registry,external,history,jobs,lisp,var}.rs, and
    dsh-builtin/src/{task,bookmark,snippet,notebook_play,safe_run,trigger}.rs.

    What the builtins do is a trace of events.  How a started program ends, what it
    prints, what the language model answers and what the user replies are oracles.
    Messages are left out except questions. *)
From Verif Require Import Base Include_Model.

(** the questions of safe-run and notebook-play *)
Inductive question := Inspect | Immediately | Execute | Release | Play.
Inductive event :=
| Asked (q : question) (yes : bool)
| Started (program : str) (args : list str)
| Handled (name : str) (argv : list str)      (* a handler of the shell itself *)
| Printed (text : str).
Inductive outcome := Exit (status : nat) | Crash (* a panic *).
Definition run := (list event * outcome)%type.

(** proxy/builtin/registry.rs l.25-57 *)
Definition registry : list str :=
  map lit ["exit"; "history"; "reload"; "z"; "jobs"; "fg"; "bg"; "lisp"; "lisp-run"; "var"; "read"]%string.
(** how many words a handler takes for granted: history.rs l.15 (argv[1..]), lisp.rs l.12
    (argv[1]), l.28 (remove(0)), var.rs l.46 (argv[1]) *)
Definition needs (name : str) : nat :=
  if str_eqb name (lit "history") then 1
  else if str_eqb name (lit "lisp") then 2
  else if str_eqb name (lit "lisp-run") then 1
  else if str_eqb name (lit "read") then 2
  else 0.

Section Runs.
(** whether a program that is started succeeds; whether a handler does *)
Variable succeeds : str -> list str -> bool.
Variable handler_ok : str -> list str -> bool.

(** external.rs l.32-33 *)
Definition use_shell (cmd : str) (argv : list str) : bool :=
  match argv with
  | [] => mem_char (chr " ") cmd || mem_char (chr "|") cmd || mem_char (chr ">") cmd || mem_char (chr "&") cmd
  | _ => false
  end.
(** the three ways a dispatch ends: Ok, Err, a panic *)
Inductive dispatched := Done | Err | Panic.
(** external.rs l.16-68 execute and proxy/mod.rs l.118-126 dispatch *)
Definition dispatch (cmd : str) (argv : list str) : event * dispatched :=
  if mem_str cmd registry then
    (Handled cmd argv,
     if length argv <? needs cmd then Panic else if handler_ok cmd argv then Done else Err)
  else
    let (p, a) := if use_shell cmd argv then (lit "sh", [lit "-c"; cmd]) else (cmd, argv) in
    (Started p a, if succeeds p a then Done else Err).
(** Ok(_) => ExitedWith(0), Err(_) => ExitedWith(1), used by all the callers *)
Definition finish (r : event * dispatched) : run :=
  ([fst r], match snd r with Done => Exit 0 | Err => Exit 1 | Panic => Crash end).

(** bookmark.rs l.186-203 run_bookmark, snippet.rs l.208-233 run_snippet, task.rs
    l.344-361 execute_task: [None] is an unknown name *)
Definition run_stored (stored : option str) : run :=
  match stored with
  | Some c => finish (dispatch (lit "sh") [lit "sh"; lit "-c"; c])
  | None => ([], Exit 1)
  end.

(** notebook_play.rs: the executable blocks of a file, by name; [None] if there is no such
    file or it cannot be read.  Each is the list of its lines, trimmed, without empty
    lines and comments. *)
Definition notebooks := str -> option (list (list str)).
Inductive reply := No | Quit | Anything_else (* also an empty line, and the end of the input *).
(** l.83-86: the result of a line is dropped; a panic is not *)
Fixpoint play_lines (ls : list str) : list event * bool :=
  match ls with
  | [] => ([], true)
  | l :: r =>
      let (e, d) := dispatch l [] in
      match d with
      | Panic => ([e], false)
      | _ => let (es, ok) := play_lines r in (e :: es, ok)
      end
  end.
(** l.52-90 *)
Fixpoint play (blocks : list (list str)) (replies : list reply) : run :=
  match blocks with
  | [] => ([], Exit 0)
  | b :: rest =>
      let (a, replies') := match replies with a :: r => (a, r) | [] => (Anything_else, []) end in
      match a with
      | Quit => ([Asked Play false], Exit 0)
      | No => let (es, o) := play rest replies' in (Asked Play false :: es, o)
      | Anything_else =>
          match play_lines b with
          | (es, false) => (Asked Play true :: es, Crash)
          | (es, true) => let (es', o) := play rest replies' in (Asked Play true :: es ++ es', o)
          end
      end
  end.
(** l.11-50 *)
Definition notebook_play (files : notebooks) (replies : list reply) (argv : list str) : run :=
  match argv with
  | [] => ([], Exit 1)
  | path :: _ => match files path with Some blocks => play blocks replies | None => ([], Exit 1) end
  end.

(** safe_run.rs.  [analysis] is [None] when there is no key, no client or no answer,
    otherwise whether an inspection is recommended; [capture] is proxy/mod.rs l.366-387
    (status and standard output); an answer is [None] if reading it fails. *)
Definition answers := question -> option bool.
Definition confirm (a : answers) (q : question) : bool := match a q with Some true => true | _ => false end.
(** &s[..n] of a string longer than n bytes: [None] is the panic *)
Definition cut (n : nat) (s : str) : option str :=
  if n <? blen s then option_map fst (split_byte s n) else Some s.
(** l.230-440 inspect_and_run *)
Definition truncated (out : str) : str := if 8000 <? blen out then lit "... (truncated, total length: " else [].
Definition inspect_and_run (capture : str -> option (nat * str)) (a : answers) (full : str) : run :=
  let started := Started (lit "sh") [lit "-c"; full] in
  match capture full with
  | None => ([started], Exit 1)
  | Some (code, []) => ([started], Exit code)
  | Some (code, out) =>
      match cut 8000 out with
      | None => ([started], Crash)
      | Some preview =>
          match cut 2000 (preview ++ truncated out) with
          | None => ([started], Crash)
          | Some _ =>
              if confirm a Release then ([started; Asked Release true; Printed out], Exit code)
              else ([started; Asked Release false], Exit 1)
          end
      end
  end.
(** l.16-228 command *)
Definition safe_run (analysis : str -> option bool) (capture : str -> option (nat * str)) (a : answers) (argv : list str) : run :=
  match argv with
  | _ :: cmd :: args =>
      let full := join_with (lit " ") (cmd :: args) in
      let go (es : list event) := let (e, o) := finish (dispatch cmd args) in (es ++ e, o) in
      match analysis full with
      | None => ([], Exit 1)
      | Some true =>
          if confirm a Inspect then let (es, o) := inspect_and_run capture a full in (Asked Inspect true :: es, o)
          else match a Inspect with
               | None => ([Asked Inspect false], Exit 1)
               | _ => if confirm a Immediately then go [Asked Inspect false; Asked Immediately true]
                      else ([Asked Inspect false; Asked Immediately false], Exit 1)
               end
      | Some false => if confirm a Execute then go [Asked Execute true] else ([Asked Execute false], Exit 1)
      end
  | _ => ([], Exit 1)
  end.

(** trigger.rs l.52-125, the loop.  A change arrives at a time (in milliseconds) with
    whether its path matches; [last] is the time of the last run; the command takes no
    time to start and some time to run, during which changes queue up: the time of a
    change is the time at which it is taken from the queue. *)
Fixpoint watch (last : nat) (changes : list (nat * bool)) : list nat :=
  match changes with
  | [] => []
  | (t, matches) :: r =>
      if matches then if t - last <? 500 then watch last r else t :: watch t r
      else watch last r
  end.
End Runs.
