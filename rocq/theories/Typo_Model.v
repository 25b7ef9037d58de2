(** "Did you mean": dsh/src/command_suggestion.rs, and its use for an unknown command in
    dsh/src/shell/parse.rs l.395-432. *)
From Verif Require Import Base Frecency_Model Table_Model.

(** ** l.12-48 levenshtein_distance *)
(** l.34-43, the inner loop: [left] is curr_row[j], [prev] is prev_row[j..]; the values
    curr_row[j + 1..].  The two rows always have b_len + 1 entries. *)
Fixpoint next_row (x : char) (b : str) (prev : list nat) (left : nat) : list nat :=
  match b, prev with
  | y :: b', p :: ((q :: _) as prev') =>
      let cost := if (x =? y)%N then 0 else 1 in
      let v := Nat.min (Nat.min (q + 1) (left + 1)) (p + cost) in
      v :: next_row x b' prev' v
  | _, _ => []
  end.
(** l.31-46, the outer loop, with the number [i] of the row *)
Fixpoint rows_over (a b : str) (i : nat) (prev : list nat) : list nat :=
  match a with
  | [] => prev
  | x :: a' => rows_over a' b (i + 1) ((i + 1) :: next_row x b prev (i + 1))
  end.
Definition levenshtein_distance (a b : str) : nat :=
  match a, b with
  | [], _ => length b
  | _, [] => length a
  | _, _ => nth (length b) (rows_over a b 0 (seq 0 (S (length b)))) 0
  end.

(** ** the candidates *)
Record suggestion := Suggestion { command : str; distance : nat }.
(** what has been seen, and the suggestions so far *)
Definition acc := (list str * list suggestion)%type.
(** l.138-159 push_candidate *)
Definition push_candidate (typo candidate : str) (s : acc) : acc :=
  let (seen, found) := s in
  let n := blen typo in
  if negb ((2 <=? n) && (n <=? 30)) || mem_str candidate seen then s
  else
    let max_distance := Nat.max 2 (n * 30 / 100) in
    let d := levenshtein_distance typo candidate in
    if (d <=? max_distance) && (0 <? d) then (seen ++ [candidate], found ++ [Suggestion candidate d]) else s.

(** a directory entry: its name if that is Unicode, and file_type if it can be asked for; whether
    the file may be executed is not asked *)
Inductive kind := KFile | KLink | KOther.
Record entry := Entry { entry_name : option str; entry_kind : option kind; executable : bool }.
(** l.80-104 *)
Definition push_entry (typo : str) (s : acc) (e : entry) : acc :=
  match entry_name e with
  | None => s
  | Some name =>
      if mem_str name (fst s) then s
      else if starts_with (lit ".") name then s
      else match entry_kind e with
           | Some KOther => s
           | _ => push_candidate typo name s
           end
  end.
(** l.108-112: by distance, then by name *)
Definition nearer (a b : suggestion) : comparison :=
  match Nat.compare (distance a) (distance b) with Eq => str_cmp (command a) (command b) | c => c end.
(** l.66-117 find_similar_commands; [read_dir] is None for a directory that cannot be read *)
Definition find_similar_commands (read_dir : str -> option (list entry)) (typo : str) (paths builtins : list str) : list suggestion :=
  let s := fold_left (fun s b => push_candidate typo b s) builtins ([], []) in
  let s := fold_left (fun s p => match read_dir p with Some es => fold_left (push_entry typo) es s | None => s end) paths s in
  firstn 3 (sort_by nearer (snd s)).
(** l.119-135 find_similar_candidates *)
Definition find_similar_candidates (typo : str) (candidates : list str) : list suggestion :=
  firstn 3 (sort_by nearer (snd (fold_left (fun s b => push_candidate typo b s) candidates ([], [])))).

(** l.162-173 format_suggestions *)
Definition crlf : str := [13%N; 10%N].
Definition format_suggestions (l : list suggestion) : option str :=
  match l with
  | [] => None
  | _ => Some ([13%N] ++ lit "Did you mean: " ++ join_with (lit ", ") (map command l) ++ lit " ?" ++ crlf)
  end.
(** parse.rs l.405-432: the message for an unknown command; [tasks] are the tasks of the project *)
Definition unknown_command (read_dir : str -> option (list entry)) (paths builtins tasks : list str) (cmd : str) : str :=
  let m := match format_suggestions (find_similar_commands read_dir cmd paths builtins) with Some m => m | None => [] end in
  let t := match find_similar_candidates cmd tasks with
           | [] => []
           | l => [13%N] ++ lit "Project tasks: " ++ join_with (lit ", ") (map (fun s => lit "task " ++ command s) l) ++ crlf
           end in
  match m, t with
  | [], [] => lit "unknown command: " ++ cmd
  | _, _ => lit "unknown command: " ++ cmd ++ [10%N] ++ m ++ t
  end.
