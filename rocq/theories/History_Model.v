(** Command history: dsh/src/history/command_history.rs and the arrow keys of
    dsh/src/repl/key_handlers/navigation.rs.

    The SQLite table command_history (dsh/src/db.rs l.51-64, unique index on command,
    l.113-116) is the list of its rows in insertion order; statements are assumed to
    succeed. *)
From Verif Require Import Base.

(** history/entry.rs l.11-35 and HistoryMetadata, command_history.rs l.21-28 *)
Record meta := Meta {
  exit_code : option Z; duration : option N; cwd : option str; session : option str; host : option str }.
Record entry := Entry { cmd : str; when : Z; count : Z; context : option str; outcome : meta }.
Definition no_meta := Meta None None None None None.

(** l.61-73 History; db, size and sender are handled below.  Indices are 64-bit. *)
Record history := Hist {
  hs : list entry; index : N; word : option str; cache : list str; normalized : list str }.
Definition set_index h (i : N) := Hist (hs h) i (word h) (cache h) (normalized h).
Definition set_word h (w : option str) := Hist (hs h) (index h) w (cache h) (normalized h).
Definition len (h : history) : N := N.of_nat (length (hs h)).

(** l.83-94 new *)
Definition new_history : history := Hist [] 0 None [] [].

(** l.127-134 get *)
Definition get (h : history) (i : N) : option str :=
  if (i <? len h)%N then option_map cmd (nth_error (hs h) (N.to_nat i)) else None.

Definition two64 : N := (2 ^ 64)%N.

Section Navigation.
(** whether the build has overflow checks (dev profile) or wraps (release) *)
Variable checks : bool.
Definition sub1 (i : N) : option N :=
  if (i =? 0)%N then (if checks then None else Some (two64 - 1)%N) else Some (i - 1)%N.
Definition add1 (i : N) : option N :=
  if (i =? two64 - 1)%N then (if checks then None else Some 0%N) else Some (i + 1)%N.

(** l.142-151: the search loop of back; outer [None] = panic, or out of fuel *)
Fixpoint back_loop (fuel : nat) (h : history) (w : str) (i : N) : option (option str * N) :=
  match fuel with
  | 0 => None
  | S f =>
      match get h i with
      | None => Some (None, i)
      | Some e =>
          if starts_with w e then Some (Some e, i)
          else match sub1 i with
               | None => None
               | Some i' => if (i' =? 0)%N then Some (None, i') else back_loop f h w i'
               end
      end
  end.
(** l.137-158 back *)
Definition back (h : history) : option (option str * history) :=
  if (0 <? index h)%N then
    match sub1 (index h) with
    | None => None
    | Some i =>
        match word h with
        | Some w => match back_loop (S (length (hs h))) h w i with
                    | Some (r, i') => Some (r, set_index h i')
                    | None => None
                    end
        | None => Some (get h i, set_index h i)
        end
    end
  else Some (None, h).

(** l.166-172: the search loop of forward *)
Fixpoint forward_loop (fuel : nat) (h : history) (w : str) (i : N) : option (option str * N) :=
  match fuel with
  | 0 => None
  | S f =>
      match get h i with
      | None => Some (None, i)
      | Some e =>
          if starts_with w e then Some (Some e, i)
          else match add1 i with None => None | Some i' => forward_loop f h w i' end
      end
  end.
(** l.161-179 forward *)
Definition forward (h : history) : option (option str * history) :=
  match add1 (index h) with
  | None => None
  | Some i =>
      if (i <? len h)%N then
        match word h with
        | Some w => match forward_loop (S (length (hs h))) h w i with
                    | Some (r, i') => Some (r, set_index h i')
                    | None => None
                    end
        | None => Some (get h i, set_index h i)
        end
      else Some (None, h)
  end.
(** l.182-194 reset_index, at_end, at_latest_entry *)
Definition reset_index (h : history) : history := set_index h (len h).
Definition at_end (h : history) : bool := (index h =? len h)%N.
Definition at_latest_entry (h : history) : bool := (index h =? len h - 1)%N.

(** ** the arrow keys: the history and the input line *)
Definition is_empty (s : str) : bool := match s with [] => true | _ => false end.

(** navigation.rs l.18-49 handle_history_previous, outside completion mode and with
    the lock free *)
Definition up (h : history) (input : str) : option (history * str) :=
  let h := if is_empty input then set_word h None else h in
  let h := if at_end h && negb (match word h with Some _ => true | None => false end) && negb (is_empty input)
           then set_word h (Some input) else h in
  match back h with
  | None => None
  | Some (Some c, h') => Some (h', c)
  | Some (None, h') => Some (h', input)
  end.
(** navigation.rs l.51-92 handle_history_next *)
Definition saved (h : history) : str := match word h with Some w => w | None => [] end.
Definition down (h : history) (input : str) : option (history * str) :=
  let h := if is_empty input then set_word h None else h in
  if at_end h then Some (h, input)
  else match forward h with
       | None => None
       | Some (Some c, h') => Some (h', c)
       | Some (None, h') =>
           Some (if at_latest_entry h' then reset_index h' else h', saved h')
       end.

(** repl/mod.rs l.603-612 stop_history_mode (Enter, Ctrl-C) *)
Definition stop_history_mode (h : history) : history := reset_index (set_word h None).
End Navigation.

(** ** recording *)
Section Recording.
(** str::to_lowercase *)
Variable lower : str -> str.

(** Iterator::position and Vec::remove *)
Fixpoint position {A} (f : A -> bool) (l : list A) : option nat :=
  match l with [] => None | x :: r => if f x then Some 0 else option_map S (position f r) end.
Definition remove_at {A} (i : nat) (l : list A) : list A := firstn i l ++ skipn (S i) l.

(** l.113-119 rebuild_normalized_entries *)
Definition rebuild (h : history) : history :=
  Hist (hs h) (index h) (word h) (cache h) (map (fun e => lower (cmd e)) (hs h)).

(** l.501-520: one command of a batch *)
Definition write_one (ctx : option str) (h : history) (r : str * Z) : history :=
  let (c, t) := r in
  let same := fun e => str_eqb (cmd e) c in
  match position same (hs h) with
  | Some pos =>
      let n := match nth_error (hs h) pos with Some e => (count e + 1)%Z | None => 1%Z end in
      Hist (remove_at pos (hs h) ++ [Entry c t n ctx no_meta]) (index h) (word h) (cache h)
           (remove_at pos (normalized h) ++ [lower c])
  | None => Hist (hs h ++ [Entry c t 1 ctx no_meta]) (index h) (word h) (cache h) (normalized h ++ [lower c])
  end.
(** l.524-530: the cache of recent commands *)
Definition cache_one (cs : list str) (c : str) : list str :=
  let cs := filter (fun x => negb (str_eqb x c)) cs ++ [c] in
  if 100 <? length cs then tl cs else cs.
(** l.493-531 write_batch, in-memory part *)
Definition write_batch (ctx : option str) (batch : list (str * Z)) (h : history) : history :=
  let h := if length (normalized h) =? length (hs h) then h else rebuild h in
  let h := fold_left (write_one ctx) batch h in
  let h := reset_index h in
  Hist (hs h) (index h) (word h) (fold_left cache_one (map fst batch) (cache h)) (normalized h).

(** l.541-553 record_outcome, in-memory part: the newest entry with that command *)
Fixpoint update_first (f : entry -> bool) (g : entry -> entry) (l : list entry) : list entry :=
  match l with [] => [] | e :: r => if f e then g e :: r else e :: update_first f g r end.
Definition record_outcome (ctx : option str) (c : str) (m : meta) (h : history) : history :=
  Hist (rev (update_first (fun e => str_eqb (cmd e) c)
                          (fun e => Entry (cmd e) (when e) (count e) ctx m) (rev (hs h))))
       (index h) (word h) (cache h) (normalized h).

(** the last 100 commands, l.237-241 and l.386-389 *)
Definition last100 (es : list entry) : list str := map cmd (skipn (length es - 100) es).

(** l.201-246 load_recent, given the rows the query returns *)
Definition load (rows : list entry) (h : history) : history :=
  rebuild (Hist rows (N.of_nat (length rows)) (word h) (last100 rows) (normalized h)).
(** l.291-297 prepend *)
Definition prepend (es : list entry) (h : history) : history :=
  reset_index (rebuild (Hist (es ++ hs h) (index h) (word h) (cache h) (normalized h))).
(** l.300-392 reload, given the rows the query returns *)
Definition merge_one (last : Z) (acc : list entry) (e : entry) : list entry :=
  if (last <=? when e)%Z && negb (existsb (fun h => str_eqb (cmd h) (cmd e)) acc) then acc ++ [e] else acc.
Definition reload (rows : list entry) (h : history) : history :=
  if at_end h then
    let merged := match rev rows with
                  | [] => hs h
                  | l :: _ => fold_left (merge_one (when l)) (hs h) rows
                  end in
    let h' := reset_index (rebuild (Hist merged (index h) (word h) (cache h) (normalized h))) in
    Hist (hs h') (index h') (word h') (last100 merged) (normalized h')
  else h.

(** l.570-585 search_first *)
Definition search_first (h : history) (w : str) : option str :=
  match find (starts_with w) (rev (cache h)) with
  | Some c => Some c
  | None => find (starts_with w) (map cmd (rev (hs h)))
  end.

(** ** search_entries, l.30-56 and l.596-665 *)
Inductive scope := Global | InSession | InCwd | InProject.
Inductive status := AnyStatus | Success | Failure.
Record query := Query {
  text : option str; qscope : scope; qstatus : status; min_duration : option N; limit : option nat;
  current_cwd : option str; current_project : option str; current_session : option str }.

Definition opt_eqb (a b : option str) : bool :=
  match a, b with Some x, Some y => str_eqb x y | None, None => true | _, _ => false end.

(** one entry, with its lowercase text, passes all filters *)
Definition passes (q : query) (low : str) (e : entry) : bool :=
  match text q with Some t => contains (lower t) low | None => true end &&
  match qstatus q with
  | AnyStatus => true
  | Success => match exit_code (outcome e) with Some c => (c =? 0)%Z | None => false end
  | Failure => match exit_code (outcome e) with Some c => negb (c =? 0)%Z | None => false end
  end &&
  match min_duration q with
  | Some d => negb (match duration (outcome e) with Some x => x <? d | None => 0 <? d end)%N
  | None => true
  end &&
  match qscope q with
  | Global => true
  | InSession => opt_eqb (session (outcome e)) (current_session q)
  | InCwd => opt_eqb (cwd (outcome e)) (current_cwd q)
  | InProject => opt_eqb (context e) (current_project q)
  end.
Fixpoint search_loop (q : query) (pairs : list (entry * str)) (matched : list entry) : list entry :=
  match pairs with
  | [] => matched
  | (e, low) :: r =>
      if passes q low e then
        let matched := matched ++ [e] in
        match limit q with
        | Some n => if n <=? length matched then matched else search_loop q r matched
        | None => search_loop q r matched
        end
      else search_loop q r matched
  end.
Definition search_entries (q : query) (h : history) : list entry :=
  match limit q with
  | Some 0 => []
  | _ =>
      let lows := if length (normalized h) =? length (hs h) then normalized h
                  else map (fun e => lower (cmd e)) (hs h) in
      search_loop q (rev (combine (hs h) lows)) []
  end.

(** a session on the in-memory history.  [OLoad] and [OReload] are given whatever rows
    the queries return. *)
Inductive op :=
| OWrite (ctx : option str) (batch : list (str * Z)) | OOutcome (ctx : option str) (c : str) (m : meta)
| OLoad (rows : list entry) | OPrepend (rows : list entry) | OReload (rows : list entry)
| OMove (i : N) (w : option str).
Definition step (h : history) (o : op) : history :=
  match o with
  | OWrite ctx b => write_batch ctx b h
  | OOutcome ctx c m => record_outcome ctx c m h
  | OLoad rows => load rows h
  | OPrepend rows => prepend rows h
  | OReload rows => reload rows h
  | OMove i w => set_word (set_index h i) w
  end.
Definition run (h : history) (ops : list op) : history := fold_left step ops h.
End Recording.

(** ** the database *)

(** l.425-434: the upsert *)
Fixpoint upsert (ctx : option str) (c : str) (t : Z) (rows : list entry) : list entry :=
  match rows with
  | [] => [Entry c t 1 ctx no_meta]
  | r :: rest => if str_eqb (cmd r) c then Entry c t (count r + 1) ctx (outcome r) :: rest
                 else r :: upsert ctx c t rest
  end.
(** l.416-443 write_batch_sync *)
Definition db_write (ctx : option str) (batch : list (str * Z)) (rows : list entry) : list entry :=
  fold_left (fun rows (r : str * Z) => upsert ctx (fst r) (snd r) rows) batch rows.
(** l.445-474 update_metadata_sync *)
Definition db_outcome (ctx : option str) (c : str) (m : meta) (rows : list entry) : list entry :=
  map (fun r => if str_eqb (cmd r) c
                then Entry (cmd r) (when r) (count r) (match ctx with Some x => Some x | None => context r end) m
                else r) rows.

(** the background writer: messages are queued in order (mpsc channel) and applied in
    order, l.395-413 *)
Inductive msg := WriteBatch (b : list (str * Z)) (ctx : option str) | UpdateMetadata (c : str) (ctx : option str) (m : meta).
Definition apply_msg (rows : list entry) (m : msg) : list entry :=
  match m with WriteBatch b ctx => db_write ctx b rows | UpdateMetadata c ctx md => db_outcome ctx c md rows end.

Section Session.
Variable lower : str -> str.
(** memory, table and queue *)
Record store := Store { mem : history; rows : list entry; queue : list msg }.
Inductive sop := SWrite (ctx : option str) (b : list (str * Z)) | SOutcome (ctx : option str) (c : str) (m : meta) | SDrain.
Definition sstep (s : store) (o : sop) : store :=
  match o with
  | SWrite ctx b => Store (write_batch lower ctx b (mem s)) (rows s) (queue s ++ [WriteBatch b ctx])
  | SOutcome ctx c m => Store (record_outcome ctx c m (mem s)) (rows s) (queue s ++ [UpdateMetadata c ctx m])
  | SDrain => match queue s with [] => s | m :: q => Store (mem s) (apply_msg (rows s) m) q end
  end.
Definition srun (s : store) (ops : list sop) : store := fold_left sstep ops s.
End Session.
