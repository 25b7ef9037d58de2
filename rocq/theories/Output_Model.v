(** Output capture: dsh-types/src/output_history.rs and the terminal side of
    dsh/src/process/io.rs. *)
From Verif Require Import Base.
From Verif Require Export Numerals.

(** ** dsh-types/src/output_history.rs *)

(** l.20-31 OutputEntry; the timestamp is left out *)
Record entry := Entry { command : str; out : str; err : str; code : Z }.

(** l.46-48 size *)
Definition size (e : entry) : nat := blen (command e) + blen (out e) + blen (err e).

(** str::is_char_boundary: false beyond the end *)
Definition is_char_boundary (s : str) (b : nat) : bool :=
  match split_byte s b with Some _ => true | None => false end.

(** l.66-68, l.73-75: the loop moving the cut down to a character boundary *)
Fixpoint floor_boundary (s : str) (b : nat) : nat :=
  if is_char_boundary s b then b else match b with 0 => 0 | S b' => floor_boundary s b' end.

Definition marker : str := 10%N :: lit "... (truncated)".

(** l.77-84, one of the two streams; [None] is the panic of String::truncate off a
    character boundary *)
Definition cut (s : str) (b : nat) : option str :=
  if b <? blen s then
    match split_byte s b with Some (p, _) => Some (p ++ marker) | None => None end
  else Some s.

Section History.
(** l.62-63 [(max_size as f64 * (stdout.len() as f64 / total as f64)) as usize]:
    the share of stdout, in floating point.  Any function will do. *)
Variable share : nat -> nat -> nat -> nat.

(** l.51-85 truncate *)
Definition truncate (max_size : nat) (e : entry) : option entry :=
  let total := blen (out e) + blen (err e) in
  if total <=? max_size then Some e
  else if total =? 0 then Some e
  else
    let out_max := floor_boundary (out e) (share max_size (blen (out e)) total) in
    let err_max := floor_boundary (err e) (max_size - out_max) in
    match cut (out e) out_max, cut (err e) err_max with
    | Some o, Some r => Some (Entry (command e) o r (code e))
    | _, _ => None
    end.

(** l.89-101 OutputHistory, entries newest first *)
Record history := History {
  entries : list entry; max_entries : nat; max_per_entry : nat; total_size : nat; max_total : nat
}.

(** l.123-136 with_capacity, l.111-119 new *)
Definition with_capacity (n per tot : nat) : history := History [] n per 0 tot.

(** VecDeque::pop_back *)
Fixpoint pop_back (es : list entry) : option (list entry * entry) :=
  match es with
  | [] => None
  | [e] => Some ([], e)
  | e :: rest =>
      match pop_back rest with Some (rest', x) => Some (e :: rest', x) | None => None end
  end.

(** one iteration of either eviction loop *)
Definition evict (es : list entry) (tot : nat) : list entry * nat :=
  match pop_back es with Some (es', old) => (es', tot - size old) | None => (es, tot) end.

(** l.147-151; [None] = still looping when the fuel is used up *)
Fixpoint evict_count (fuel max : nat) (es : list entry) (tot : nat) : option (list entry * nat) :=
  if max <=? length es then
    match fuel with 0 => None | S f => let (es', tot') := evict es tot in evict_count f max es' tot' end
  else Some (es, tot).

(** l.154-158 *)
Fixpoint evict_size (fuel new max : nat) (es : list entry) (tot : nat) : option (list entry * nat) :=
  if (max <? tot + new) && (0 <? length es) then
    match fuel with 0 => None | S f => let (es', tot') := evict es tot in evict_size f new max es' tot' end
  else Some (es, tot).

(** l.142-163 push *)
Definition push (fuel : nat) (h : history) (e : entry) : option history :=
  match truncate (max_per_entry h) e with
  | None => None
  | Some e' =>
      match evict_count fuel (max_entries h) (entries h) (total_size h) with
      | None => None
      | Some (es1, t1) =>
          match evict_size fuel (size e') (max_total h) es1 t1 with
          | None => None
          | Some (es2, t2) => Some (History (e' :: es2) (max_entries h) (max_per_entry h) (t2 + size e') (max_total h))
          end
      end
  end.

(** l.204-207 clear *)
Definition clear (h : history) : history := History [] (max_entries h) (max_per_entry h) 0 (max_total h).

(** a session: pushes and clears *)
Inductive hop := Push (e : entry) | Clear.
Fixpoint hrun (fuel : nat) (h : history) (ops : list hop) : option history :=
  match ops with
  | [] => Some h
  | Push e :: rest => match push fuel h e with Some h' => hrun fuel h' rest | None => None end
  | Clear :: rest => hrun fuel (clear h) rest
  end.
End History.

(** l.166-172 get *)
Definition get (h : history) (i : nat) : option entry :=
  if (i =? 0) || (length (entries h) <? i) then None else nth_error (entries h) (i - 1).

(** l.229-248 parse_output_var *)
Definition parse_output_var (key prefix : str) : option N :=
  let key := match key with c :: k => if (c =? chr "$")%N then k else key | [] => key end in
  if str_eqb key prefix then Some 1%N
  else
    let pattern := prefix ++ lit "[" in
    if starts_with pattern key && ends_with (lit "]") key then
      parse_usize (firstn (length key - 1 - length pattern) (skipn (length pattern) key))
    else None.

(** ** dsh/src/process/io.rs *)

Definition byte := N.
Definition CR : byte := 13%N.
Definition LF : byte := 10%N.

(** l.129-152 normalize_tty_newlines: the loop state is the previous byte and the
    rewritten copy, present once something changed *)
Fixpoint norm_loop (before : list byte) (prev : option byte) (norm : option (list byte)) (data : list byte)
  : option byte * option (list byte) :=
  match data with
  | [] => (prev, norm)
  | b :: rest =>
      let norm' :=
        if (b =? LF)%N && negb (match prev with Some p => (p =? CR)%N | None => false end) then
          Some ((match norm with Some n => n | None => before end) ++ [CR; LF])
        else match norm with Some n => Some (n ++ [b]) | None => None end in
      norm_loop (before ++ [b]) (Some b) norm' rest
  end.
Definition normalize_tty_newlines (data : list byte) (last : option byte) : option byte * option (list byte) :=
  norm_loop [] last None data.

(** l.174-258 process_output: what the reads, already cut into chunks, display and
    capture.  Read errors other than end of file are left out. *)
Fixpoint process_output (tty : bool) (last : option byte) (chunks : list (list byte)) : list byte * list byte :=
  match chunks with
  | [] => ([], [])
  | data :: rest =>
      let (last', shown) :=
        if tty then
          let (l, n) := normalize_tty_newlines data last in
          (l, match n with Some x => x | None => data end)
        else (match rev data with b :: _ => Some b | [] => None end, data) in
      let (d, c) := process_output tty last' rest in
      (shown ++ d, data ++ c)
  end.

(** ** Output monitors, io.rs l.20-26 and l.51-126 *)

(** What a monitor's pipe delivers: characters, pauses longer than the 200 ms
    timeout, and end of file at the end of the list.  Simplified: valid UTF-8
    only. *)
Inductive item := Ch (c : char) | Pause.

Inductive line_result := Line (l : str) | TimedOut.

(** tokio's read_line under time::timeout: characters read before the timeout are
    in the future's own buffer, which is dropped with it.  An empty line at the end
    of the list is end of file. *)
Fixpoint read_line (acc : str) (s : list item) : line_result * list item :=
  match s with
  | [] => (Line acc, [])
  | Pause :: rest => (TimedOut, rest)
  | Ch c :: rest => if (c =? LF)%N then (Line (acc ++ [c]), rest) else read_line (acc ++ [c]) rest
  end.

(** l.20-26 append_output_chunk *)
Definition append_output_chunk (started : bool) (buffer chunk : str) : bool * str :=
  (true, (if started then buffer else buffer ++ [13%N; 10%N]) ++ chunk).

(** the monitor's state: started, what was displayed, what was captured *)
Record monitor := Monitor { started : bool; shown : str; captured : str }.
Definition append_line (m : monitor) (line : str) : monitor :=
  let (st, sh) := append_output_chunk (started m) (shown m) line in Monitor st sh (captured m ++ line).

(** l.70-90 output: one attempt, then l.92-125 output_all with [block]: until end of
    file, or, without block, until the first pause.  [None] = out of fuel. *)
Definition output (m : monitor) (s : list item) : monitor * list item :=
  match read_line [] s with
  | (Line [], rest) => (m, rest)
  | (Line l, rest) => (append_line m l, rest)
  | (TimedOut, rest) => (m, rest)
  end.
Fixpoint output_all (fuel : nat) (block : bool) (m : monitor) (s : list item) : option (monitor * list item) :=
  match fuel with
  | 0 => None
  | S f =>
      match read_line [] s with
      | (Line [], rest) => Some (m, rest)
      | (Line l, rest) => output_all f block (append_line m l) rest
      | (TimedOut, rest) => if block then output_all f block m rest else Some (m, rest)
      end
  end.
