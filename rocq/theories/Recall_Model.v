(** Looking back: the builtins history, out and read and the internal __dsh_print_last_stdout.
    dsh/src/proxy/builtin/{history,var}.rs and dsh-builtin/src/out.rs.

    What a builtin prints is a list of texts, one per call of write_stdout or println. *)
From Verif Require Import Base.
From Verif Require Numerals Lread_Model Direnv_Model History_Model Output_Model Env_Model.

(** ** proxy/builtin/history.rs *)

(** l.50-72 HistoryOptions and its defaults *)
Record options := Options {
  help : bool; verbose : bool; query : option str; scope : History_Model.scope; status : History_Model.status;
  slow : option N; limit : N }.
Definition defaults : options := Options false false None History_Model.Global History_Model.AnyStatus None 200.
Definition set_help o := Options true (verbose o) (query o) (scope o) (status o) (slow o) (limit o).
Definition set_verbose o := Options (help o) true (query o) (scope o) (status o) (slow o) (limit o).
Definition set_query o q := Options (help o) (verbose o) (Some q) (scope o) (status o) (slow o) (limit o).
Definition set_scope o s := Options (help o) (verbose o) (query o) s (status o) (slow o) (limit o).
Definition set_status o s := Options (help o) (verbose o) (query o) (scope o) s (slow o) (limit o).
Definition set_slow o n := Options (help o) (verbose o) (query o) (scope o) (status o) n (limit o).
Definition set_limit o n := Options (help o) (verbose o) (query o) (scope o) (status o) (slow o) n.

(** l.133-140 parse_scope *)
Definition parse_scope (v : str) : History_Model.scope :=
  if str_eqb v (lit "session") then History_Model.InSession
  else if str_eqb v (lit "cwd") then History_Model.InCwd
  else if str_eqb v (lit "project") then History_Model.InProject
  else History_Model.Global.
(** l.142-148 parse_status *)
Definition parse_status (v : str) : History_Model.status :=
  if str_eqb v (lit "success") then History_Model.Success
  else if str_eqb v (lit "failure") || str_eqb v (lit "failed") then History_Model.Failure
  else History_Model.AnyStatus.

(** l.75-123 parse: the index loop as a recursion on the words that remain.  An option that needs a value
    and is the last word changes nothing.  u64 and usize are the same size. *)
Fixpoint parse (args : list str) (o : options) : options :=
  match args with
  | [] => o
  | a :: r =>
      if mem_str a [lit "-h"; lit "--help"] then parse r (set_help o)
      else if mem_str a [lit "-v"; lit "--verbose"] then parse r (set_verbose o)
      else if mem_str a [lit "-q"; lit "--query"] then
        match r with [] => o | v :: r' => parse r' (set_query o v) end
      else if mem_str a [lit "-s"; lit "--scope"] then
        match r with [] => o | v :: r' => parse r' (set_scope o (parse_scope v)) end
      else if mem_str a [lit "--status"] then
        match r with [] => o | v :: r' => parse r' (set_status o (parse_status v)) end
      else if mem_str a [lit "--slow"] then
        match r with [] => o | v :: r' => parse r' (set_slow o (Numerals.parse_usize v)) end
      else if mem_str a [lit "-n"; lit "--limit"] then
        match r with
        | [] => o
        | v :: r' => parse r' (match Numerals.parse_usize v with Some n => set_limit o (N.max n 1) | None => o end)
        end
      else parse r (match query o with None => set_query o a | Some _ => o end)
  end.

(** l.125-130 has_filters *)
Definition has_filters (o : options) : bool :=
  match query o with Some _ => true | None => false end ||
  match scope o with History_Model.Global => false | _ => true end ||
  match status o with History_Model.AnyStatus => false | _ => true end ||
  match slow o with Some _ => true | None => false end.

Definition tab : str := [9%N].
(** l.150-167 format_entry; [stamp] writes a moment, or "-" *)
Definition format_entry (stamp : Z -> str) (e : History_Model.entry) : str :=
  let m := History_Model.outcome e in
  stamp (History_Model.when e) ++ tab ++
  match History_Model.exit_code m with
  | Some 0%Z => lit "ok"
  | Some c => lit "err:" ++ Lread_Model.show_int c
  | None => lit "-"
  end ++ tab ++
  match History_Model.duration m with Some d => Lread_Model.show_nat d ++ lit "ms" | None => lit "-" end ++ tab ++
  match History_Model.cwd m with Some d => d | None => lit "-" end ++ tab ++ History_Model.cmd e.

(** where and in what session the shell is *)
Record place := Place { at_dir : option str; at_project : option str; at_session : option str }.
(** l.12-47 execute, for a shell that has a history; [None]: the help is printed.  The first word is the
    command's own name. *)
Definition history (lower : str -> str) (stamp : Z -> str) (here : place) (h : History_Model.history) (argv : list str)
  : option (list str) :=
  let o := parse (tl argv) defaults in
  if help o then None
  else
    let q := History_Model.Query (query o) (scope o) (status o) (slow o) (Some (N.to_nat (limit o)))
                                 (at_dir here) (at_project here) (at_session here) in
    Some (map (fun e => if verbose o || has_filters o then format_entry stamp e else History_Model.cmd e)
              (History_Model.search_entries lower q h)).

(** ** dsh-builtin/src/out.rs *)

Inductive answer := Printed (lines : list str) | Refused (message : str) | Panicked.

(** l.55, l.79 the variable asked for *)
Definition out_var (i : N) : str := lit "OUT[" ++ Lread_Model.show_nat i ++ lit "]".
(** l.53-70 show_output *)
Definition show_output (e : Env_Model.env) (i : N) : answer :=
  match Env_Model.get_var e (out_var i) with
  | Some [] => Printed [lit "(empty output)"]
  | Some s => Printed [s]
  | None => Refused (lit "out: no output at index " ++ Lread_Model.show_nat i)
  end.

(** l.82-87 the first line, cut; [None]: the cut is inside a character *)
Definition preview (s : str) : option str :=
  let p := match Direnv_Model.lines s with l :: _ => l | [] => lit "(empty)" end in
  if 60 <? blen p then match split_byte p 57 with Some (a, _) => Some (a ++ lit "...") | None => None end
  else Some p.
(** l.88-90 *)
Definition row (i : N) (s p : str) : str :=
  lit "  [" ++ Lread_Model.show_nat i ++ lit "] " ++ Lread_Model.show_nat (N.of_nat (length (Direnv_Model.lines s))) ++
  lit " lines, " ++ Lread_Model.show_nat (N.of_nat (blen s)) ++ lit " bytes: " ++ p.
(** l.77-94: [n] more captures from [i] on *)
Fixpoint rows (e : Env_Model.env) (i : N) (n : nat) : option (list str) :=
  match n with
  | 0 => Some []
  | S n' =>
      match Env_Model.get_var e (out_var i) with
      | Some s =>
          match preview s with
          | Some p => match rows e (i + 1) n' with Some r => Some (row i s p :: r) | None => None end
          | None => None
          end
      | None => Some []
      end
  end.
(** l.72-103 list_outputs, without its title and the empty lines; a panic takes the rows already printed
    with it here *)
Definition list_outputs (e : Env_Model.env) : answer :=
  match rows e 1 10 with
  | None => Panicked
  | Some [] => Printed [lit "  No output history available."; lit "  Execute some commands to start collecting output."]
  | Some r => Printed r
  end.
(** l.21-51 command: the answer, and the environment afterwards (l.105-111 clear_outputs leaves it) *)
Definition out (e : Env_Model.env) (argv : list str) : answer * Env_Model.env :=
  (match tl argv with
   | [] => show_output e 1
   | a :: _ =>
       if mem_str a [lit "--list"; lit "-l"] then list_outputs e
       else if mem_str a [lit "--clear"; lit "-c"] then Refused (lit "out: --clear is not implemented yet")
       else if mem_str a [lit "--help"; lit "-h"] then Printed [lit "Usage: out [N] [OPTIONS]"]
       else match Numerals.parse_usize a with
            | Some 0%N => Refused (lit "out: index must be 1 or greater")
            | Some n => show_output e n
            | None => Refused (lit "out: invalid argument '" ++ a ++ lit "'")
            end
   end, e).

(** l.148-164 print_last_stdout: the text written *)
Definition print_last_stdout (e : Env_Model.env) : str :=
  match Env_Model.get_var e (lit "OUT") with
  | Some s => if ends_with [10%N] s then s else s ++ [10%N]
  | None => []
  end.

(** ** proxy/builtin/var.rs l.39-58 execute_read *)

(** the open descriptors, with the bytes that can be read from each up to its end *)
Definition descriptors := list (nat * list N).
Fixpoint open_at (fd : nat) (fds : descriptors) : option (list N) :=
  match fds with [] => None | (n, b) :: r => if n =? fd then Some b else open_at fd r end.
Definition close (fd : nat) (fds : descriptors) : descriptors := filter (fun p => negb (fst p =? fd)) fds.

(** str::trim_end_matches of a newline *)
Fixpoint drop_lf (r : str) : str := match r with c :: r' => if (c =? 10)%N then drop_lf r' else r | [] => [] end.
Definition trim_lf (s : str) : str := rev (drop_lf (rev s)).

Inductive ended := Assigned | Failed | Died.
(** the file made from the descriptor is dropped after reading, which closes it; [utf8] decodes
    *)
Definition read_ (utf8 : list N -> option str) (fds : descriptors) (infile : nat) (argv : list str) (e : Env_Model.env)
  : ended * descriptors * Env_Model.env :=
  match open_at infile fds with
  | None => (Failed, fds, e)
  | Some bytes =>
      let fds := close infile fds in
      match argv with
      | _ :: name :: _ =>
          match utf8 bytes with
          | Some s =>
              (Assigned, fds,
               Env_Model.set_variables e (Env_Model.insert (chr "$" :: name) (trim_lf s) (Env_Model.variables e)))
          | None => (Failed, fds, e)
          end
      | _ => (Died, fds, e)
      end
  end.
