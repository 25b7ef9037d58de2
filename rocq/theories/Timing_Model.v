(** Command statistics: dsh/src/command_timing.rs, its callers in dsh/src/repl/mod.rs and
    dsh/src/repl/key_handlers/execution.rs, and the builtin in
    dsh-builtin/src/command_timing.rs.

    Counters and times are natural numbers (u64 overflow is left out); the file is the
    table it holds, or unreadable (partly written); which of the two a save leaves, or
    whether it fails to open the file, is an oracle. *)
From Verif Require Import Base.

(** dsh/src/command_timing.rs l.21-37 *)
Record stats := Stats { calls : nat; total : nat; longest : nat; shortest : nat; failed : nat; last : nat }.
(** l.41-51 new *)
Definition new_stats (d : nat) (ok : bool) (now : nat) : stats := Stats 1 d d d (if ok then 0 else 1) now.
(** l.54-63 record *)
Definition record_stats (s : stats) (d : nat) (ok : bool) (now : nat) : stats :=
  Stats (calls s + 1) (total s + d) (Nat.max (longest s) d) (Nat.min (shortest s) d)
        (if ok then failed s else failed s + 1) now.
(** l.66-70 average_duration_ms *)
Definition average (s : stats) : nat := total s / calls s.

(** the map of statistics *)
Definition table := list (str * stats).
Fixpoint get (c : str) (t : table) : option stats :=
  match t with [] => None | (x, s) :: r => if str_eqb x c then Some s else get c r end.
Fixpoint record (c : str) (d : nat) (ok : bool) (now : nat) (t : table) : table :=
  match t with
  | [] => [(c, new_stats d ok now)]
  | (x, s) :: r => if str_eqb x c then (x, record_stats s d ok now) :: r else (x, s) :: record c d ok now r
  end.

(** l.84-95 *)
Record timing := Timing { tab : table; dirty : bool; dirty_records : nat; last_saved : option nat }.
(** the file: absent, unreadable, or a table *)
Definition file := option (option table).
(** l.214-218 mark_clean *)
Definition mark_clean (now : nat) (t : timing) : timing := Timing (tab t) false 0 (Some now).
(** l.110-135 load_from_file and l.300-307 create_shared_timing (the derived Default) *)
Definition load (now : nat) (f : file) : timing :=
  match f with Some (Some t) => mark_clean now (Timing t false 0 None) | _ => Timing [] false 0 None end.
(** how writing the file goes: done; it cannot be opened; it is cut short and this is
    noticed; it is cut short when the buffer is dropped, which is not noticed (BufWriter) *)
Inductive writing := Written | No_file | Torn | Torn_silently.
Definition write (w : writing) (now : nat) (t : timing) (f : file) : timing * file :=
  match w with
  | Written => (mark_clean now t, Some (Some (tab t)))
  | No_file => (t, f)
  | Torn => (t, Some None)
  | Torn_silently => (mark_clean now t, Some None)
  end.
(** l.138-153 save_to_file *)
Definition save (w : writing) (now : nat) (t : timing) (f : file) : timing * file :=
  if dirty t then write w now t f else (t, f).
(** l.17-18, l.156-173 save_to_file_if_due *)
Definition save_if_due (w : writing) (now : nat) (t : timing) (f : file) : timing * file :=
  let elapsed := match last_saved t with None => true | Some at_ => 5000 <=? now - at_ end in
  if dirty t then if elapsed || (10 <=? dirty_records t) then save w now t f else (t, f) else (t, f).

(** what happens in a shell; times are in milliseconds *)
Inductive event :=
| Start (now : nat)                                                 (* repl/mod.rs l.305 *)
| Executed (c : str) (d : nat) (ok : bool) (now : nat) (w : writing) (* execution.rs l.147-158 *)
| Tick (now : nat) (w : writing)                                    (* repl/mod.rs l.718-722 *)
| Quit (now : nat) (w : writing)                                    (* repl/mod.rs l.148-152, Drop *)
| Clear.                                                            (* timing --clear, in the builtin: l.203-210, 94-107 *)
(** the shells by number, and the file they share *)
Record world := World { shells : nat -> timing; stored : file }.
Definition set_shell (i : nat) (t : timing) (m : nat -> timing) : nat -> timing := fun j => if j =? i then t else m j.
Definition step (w : world) (ie : nat * event) : world :=
  let (i, e) := ie in
  match e with
  | Start now => World (set_shell i (load now (stored w)) (shells w)) (stored w)
  | Executed c d ok now wr =>
      let t := shells w i in
      let t := Timing (record c d ok now (tab t)) true (dirty_records t + 1) (last_saved t) in
      let (t, f) := save_if_due wr now t (stored w) in World (set_shell i t (shells w)) f
  | Tick now wr => let (t, f) := save_if_due wr now (shells w i) (stored w) in World (set_shell i t (shells w)) f
  | Quit now wr => let (t, f) := save wr now (shells w i) (stored w) in World (set_shell i t (shells w)) f
  | Clear => World (shells w) (Some (Some []))
  end.
Definition steps (l : list (nat * event)) (w : world) : world := fold_left step l w.

(** dsh-builtin/src/command_timing.rs l.133-139 recent_failures *)
Definition recent_failures (hours now : nat) (t : table) : list str :=
  map fst (filter (fun p => (0 <? failed (snd p)) && (now - hours <? last (snd p))) t).
(** l.117-129 top_slowest and top_frequent: [all] is the statistics in whatever order the
    map gives them; the sort is stable *)
Fixpoint insert_by (key : stats -> nat) (x : stats) (l : list stats) : list stats :=
  match l with [] => [x] | y :: r => if key x <? key y then y :: insert_by key x r else x :: l end.
Definition top (key : stats -> nat) (n : nat) (all : list stats) : list stats := firstn n (fold_right (insert_by key) [] all).

(** dsh/src/command_timing.rs l.266-286 extract_command_name *)
Definition command_name (input : str) : option str :=
  match split_whitespace (trim input) with
  | [] => None
  | w :: _ => match List.last (split_on (chr "/") w) w with
              | [] => None
              | c :: r => if (c =? chr "!")%N || (c =? chr "?")%N then None else Some (c :: r)
              end
  end.
