(** Model of the line editor, dsh/src/input/editor.rs.

    Not modelled: colours and terminal output ([print*], [color_ranges],
    [can_execute], [completion]), and the calls into the parser
    ([get_words], [get_cursor_word]).  [None] is a Rust panic: an index out of
    range, a byte offset that is not a character boundary, or an unsigned
    subtraction that underflows. *)
From Verif Require Import Base.

Section Editor.
(** UnicodeWidthChar::width(c).unwrap_or_default(): an oracle. *)
Variable cw : char -> nat.

(** editor.rs 16-27: [input], [indices], [cursor], [cached_display_width]. *)
Record ed := mkEd { text : str; idx : list nat; cur : nat; width : nat }.

(** editor.rs 30-41 *)
Definition new : ed := mkEd [] [] 0 0.

(** editor.rs 417-421: sum of the character widths *)
Fixpoint sum_width (s : str) : nat :=
  match s with [] => 0 | c :: s' => cw c + sum_width s' end.

(** editor.rs 341-346 *)
Definition update_indices (e : ed) : ed := mkEd (text e) (char_offsets (text e)) (cur e) (width e).
(** editor.rs 416-422 *)
Definition recalculate_display_width (e : ed) : ed :=
  mkEd (text e) (idx e) (cur e) (sum_width (text e)).
(** editor.rs 348-350 *)
Definition len (e : ed) : nat := length (idx e).
(** editor.rs 63-69 *)
Definition as_str (e : ed) : str := text e.
Definition cursor (e : ed) : nat := cur e.
(** editor.rs 410-412 *)
Definition display_width (e : ed) : nat := width e.

(** editor.rs 79-85 *)
Definition move_to_begin (e : ed) : ed := mkEd (text e) (idx e) 0 (width e).
Definition move_to_end (e : ed) : ed := mkEd (text e) (idx e) (len e) (width e).

(** editor.rs 43-49 *)
Definition reset (e : ed) (s : str) : ed :=
  move_to_end (recalculate_display_width (update_indices (mkEd s (idx e) (cur e) (width e)))).
(** editor.rs 71-77 *)
Definition clear (e : ed) : ed := mkEd [] [] 0 0.

(** editor.rs 303-309 *)
Definition byte_index (e : ed) : option nat :=
  if cur e =? length (idx e) then Some (blen (text e)) else nth_error (idx e) (cur e).

(** usize subtraction that panics on underflow *)
Definition checked_sub (a b : nat) : option nat := if b <=? a then Some (a - b) else None.

Fixpoint map_opt {A B} (f : A -> option B) (l : list A) : option (list B) :=
  match l with
  | [] => Some []
  | x :: l' =>
      match f x, map_opt f l' with
      | Some y, Some l'' => Some (y :: l'')
      | _, _ => None
      end
  end.

(** editor.rs 311-327 *)
Definition shift_indices_from (l : list nat) (start : nat) (delta : Z) : option (list nat) :=
  if (delta =? 0)%Z || (length l <=? start) then Some l
  else if (0 <? delta)%Z then
    Some (firstn start l ++ map (fun i => i + Z.to_nat delta) (skipn start l))
  else
    match map_opt (fun i => checked_sub i (Z.to_nat (- delta))) (skipn start l) with
    | Some r => Some (firstn start l ++ r)
    | None => None
    end.

(** editor.rs 329-339 *)
Definition char_len_at (e : ed) (i : nat) : option nat :=
  if length (idx e) <=? i then Some 0
  else if S i <? length (idx e) then
    match nth_error (idx e) (S i), nth_error (idx e) i with
    | Some a, Some b => checked_sub a b
    | _, _ => None
    end
  else
    match nth_error (idx e) i with
    | Some b => Some (blen (text e) - b)
    | None => None
    end.

(** String::insert_str / String::insert: panics off a boundary *)
Definition string_insert (s : str) (b : nat) (x : str) : option str :=
  match split_byte s b with Some (p, q) => Some (p ++ x ++ q) | None => None end.
(** String::replace_range / drain with a byte range *)
Definition string_replace (s : str) (a b : nat) (x : str) : option str :=
  if a <=? b then
    match split_byte s a, split_byte s b with
    | Some (p, _), Some (_, q) => Some (p ++ x ++ q)
    | _, _ => None
    end
  else None.
(** Vec::insert / Vec::splice(i..i): panics when i > len *)
Definition vec_splice {A} (l : list A) (i : nat) (x : list A) : option (list A) :=
  if i <=? length l then Some (firstn i l ++ x ++ skipn i l) else None.
(** Vec::remove *)
Definition vec_remove {A} (l : list A) (i : nat) : option (list A) :=
  if i <? length l then Some (firstn i l ++ skipn (S i) l) else None.

(** editor.rs 87-99 *)
Definition insert (e : ed) (ch : char) : option ed :=
  match byte_index e with
  | None => None
  | Some b =>
      match string_insert (text e) b [ch], vec_splice (idx e) (cur e) [b] with
      | Some t, Some l =>
          match shift_indices_from l (cur e + 1) (Z.of_nat (utf8_len ch)) with
          | Some l' => Some (mkEd t l' (cur e + 1) (width e + cw ch))
          | None => None
          end
      | _, _ => None
      end
  end.

(** editor.rs 101-124 *)
Definition insert_str (e : ed) (s : str) : option ed :=
  match s with
  | [] => Some e
  | _ =>
      match byte_index e with
      | None => None
      | Some b =>
          match string_insert (text e) b s, vec_splice (idx e) (cur e) (offsets_from b s) with
          | Some t, Some l =>
              match shift_indices_from l (cur e + length s) (Z.of_nat (blen s)) with
              | Some l' => Some (mkEd t l' (cur e + length s) (width e + sum_width s))
              | None => None
              end
          | _, _ => None
          end
      end
  end.

(** editor.rs 126-148 *)
Definition replace_range_chars (e : ed) (start end_ : nat) (r : str) : option (ed * bool) :=
  if (end_ <? start) || (len e <? end_) then Some (e, false)
  else
    let byte_of i := if i =? len e then Some (blen (text e)) else nth_error (idx e) i in
    match byte_of start, byte_of end_ with
    | Some sb, Some eb =>
        match string_replace (text e) sb eb r with
        | Some t =>
            let e1 := recalculate_display_width (update_indices (mkEd t (idx e) (cur e) (width e))) in
            Some (mkEd (text e1) (idx e1) (start + length r) (width e1), true)
        | None => None
        end
    | _, _ => None
    end.

(** the common body of backspace (editor.rs 152-166) and delete_char
    (editor.rs 570-583): drop the character number [i] *)
Definition remove_char (e : ed) (i : nat) : option ed :=
  match nth_error (idx e) i, char_len_at e i with
  | Some b, Some n =>
      match split_byte (text e) b with
      | None => None
      | Some (_, tail) =>
          let w := match tail with c :: _ => width e - cw c | [] => width e end in
          match string_replace (text e) b (b + n) [], vec_remove (idx e) i with
          | Some t, Some l =>
              match shift_indices_from l i (- Z.of_nat n) with
              | Some l' => Some (mkEd t l' (cur e) w)
              | None => None
              end
          | _, _ => None
          end
      end
  | _, _ => None
  end.

(** editor.rs 150-169 *)
Definition backspace (e : ed) : option ed :=
  if (0 <? cur e) && (cur e <=? length (idx e)) then
    match remove_char e (cur e - 1) with
    | Some e' => Some (mkEd (text e') (idx e') (cur e - 1) (width e'))
    | None => None
    end
  else Some e.

(** repeated backspace: editor.rs 171-175, 204-206 *)
Fixpoint backspacen (n : nat) (e : ed) : option ed :=
  match n with
  | 0 => Some e
  | S n' => match backspace e with Some e' => backspacen n' e' | None => None end
  end.

(** editor.rs 565-584 *)
Definition delete_char (e : ed) : option ed :=
  if (len e <=? cur e) || (length (idx e) <=? cur e) then Some e
  else remove_char e (cur e).

(** editor.rs 177-183 *)
Definition move_by (e : ed) (offset : Z) : ed :=
  if (offset <? 0)%Z
  then mkEd (text e) (idx e) (cur e - Z.to_nat (- offset)) (width e)
  else mkEd (text e) (idx e) (Nat.min (len e) (cur e + Z.to_nat offset)) (width e).

(** the loop "while idx > 0 && p(chars[idx-1]) { idx -= 1 }"
    (editor.rs 194-201, 269-276, 505-511) *)
Fixpoint scan_left (p : char -> bool) (cs : str) (i : nat) : option nat :=
  match i with
  | 0 => Some 0
  | S j =>
      match nth_error cs j with
      | None => None
      | Some c => if p c then scan_left p cs j else Some i
      end
  end.

(** the loop "while idx < len && p(chars[idx]) { idx += 1 }" (editor.rs
    291-298); [rest] are the characters from [i] on *)
Fixpoint scan_right (p : char -> bool) (rest : str) (i : nat) : nat :=
  match rest with
  | [] => i
  | c :: rest' => if p c then scan_right p rest' (S i) else i
  end.

Definition not_ws (c : char) : bool := negb (is_whitespace c).

(** editor.rs 191-201 and 266-276 *)
Definition word_left_pos (e : ed) : option nat :=
  match scan_left is_whitespace (text e) (cur e) with
  | Some i => scan_left not_ws (text e) i
  | None => None
  end.

(** editor.rs 185-207 *)
Definition delete_word_backward (e : ed) : option ed :=
  if cur e =? 0 then Some e
  else match word_left_pos e with
       | Some i => backspacen (cur e - i) e
       | None => None
       end.

(** editor.rs 260-279 *)
Definition move_word_left (e : ed) : option ed :=
  if cur e =? 0 then Some e
  else match word_left_pos e with
       | Some i => Some (mkEd (text e) (idx e) i (width e))
       | None => None
       end.

(** editor.rs 281-301 *)
Definition move_word_right (e : ed) : ed :=
  if len e <=? cur e then e
  else
    let i := scan_right not_ws (skipn (cur e) (text e)) (cur e) in
    let j := scan_right is_whitespace (skipn i (text e)) i in
    mkEd (text e) (idx e) j (width e).

(** editor.rs 209-225 *)
Definition delete_to_end (e : ed) : option ed :=
  if len e <=? cur e then Some e
  else
    match byte_index e with
    | None => None
    | Some b =>
        match split_byte (text e) b with
        | None => None
        | Some (p, _) =>
            Some (recalculate_display_width (mkEd p (firstn (cur e) (idx e)) (cur e) (width e)))
        end
    end.

(** editor.rs 227-258 *)
Definition delete_to_beginning (e : ed) : option ed :=
  if cur e =? 0 then Some e
  else
    match byte_index e with
    | None => None
    | Some b =>
        match split_byte (text e) b with
        | None => None
        | Some (_, q) =>
            if cur e <=? length (idx e) then
              match map_opt (fun i => checked_sub i b) (skipn (cur e) (idx e)) with
              | Some l => Some (recalculate_display_width (mkEd q l 0 (width e)))
              | None => None
              end
            else None
        end
    end.

(** editor.rs 455-461 *)
Definition char_at (e : ed) (i : nat) : option (option char) :=
  if length (idx e) <=? i then Some None
  else match nth_error (idx e) i with
       | None => None
       | Some b => match split_byte (text e) b with
                   | None => None
                   | Some (_, q) => Some (hd_error q)
                   end
       end.

(** editor.rs 507: characters that end a word for abbreviation expansion *)
Definition abbr_sep (c : char) : bool :=
  is_whitespace c || mem_char c (lit "|&;()").

(** editor.rs 483-532 *)
Definition get_current_word_for_abbr (e : ed) : option (option str) :=
  match text e with
  | [] => Some None
  | _ =>
      if cur e =? 0 then Some None
      else
        match scan_left (fun c => negb (abbr_sep c)) (text e) (cur e) with
        | None => None
        | Some start =>
            if start <? cur e then
              if cur e <=? length (text e) then
                let w := firstn (cur e - start) (skipn start (text e)) in
                Some (match trim w with [] => None | _ => Some w end)
              else None
            else Some None
        end
  end.

(** editor.rs 545-549 *)
Fixpoint delete_chars (n : nat) (e : ed) : option ed :=
  match n with
  | 0 => Some e
  | S n' =>
      if cur e <? len e then
        match delete_char e with Some e' => delete_chars n' e' | None => None end
      else delete_chars n' e
  end.

(** editor.rs 552-554 *)
Fixpoint insert_chars (s : str) (e : ed) : option ed :=
  match s with
  | [] => Some e
  | c :: s' => match insert e c with Some e' => insert_chars s' e' | None => None end
  end.

(** editor.rs 536-563 *)
Definition replace_current_word (e : ed) (expansion : str) : option (ed * bool) :=
  match get_current_word_for_abbr e with
  | None => None
  | Some None => Some (e, false)
  | Some (Some w) =>
      let n := length w in
      if n <=? cur e then
        match delete_chars n (mkEd (text e) (idx e) (cur e - n) (width e)) with
        | Some e1 => match insert_chars expansion e1 with
                     | Some e2 => Some (e2, true)
                     | None => None
                     end
        | None => None
        end
      else Some (e, false)
  end.

(** editor.rs 426-444 *)
Fixpoint cursor_for_width (target : nat) (s : str) (current n : nat) : nat :=
  match s with
  | [] => n
  | c :: s' =>
      if 2 * target <? 2 * current + cw c then n
      else cursor_for_width target s' (current + cw c) (S n)
  end.
Definition set_cursor_from_display_width (e : ed) (target : nat) : ed :=
  mkEd (text e) (idx e) (cursor_for_width target (text e) 0 0) (width e).

(** editor.rs 361-377, 388-404: one step of the wrapping loop *)
Definition wrap_step (columns : nat) (st : nat * nat) (c : char) : nat * nat :=
  let (w, lines) := st in
  if (c =? 10)%N then (0, S lines)
  else if (0 <? columns) && (columns <? w + cw c) then (cw c, S lines)
  else (w + cw c, lines).

(** editor.rs 353-380 *)
Definition cursor_pos (e : ed) (columns prompt_width : nat) : option (nat * nat) :=
  if cur e =? 0 then Some (prompt_width, 0)
  else
    match byte_index e with
    | None => None
    | Some b =>
        match split_byte (text e) b with
        | None => None
        | Some (p, _) => Some (fold_left (wrap_step columns) p (prompt_width, 0))
        end
    end.

(** editor.rs 383-407 *)
Definition line_count (e : ed) (columns prompt_width : nat) : nat :=
  match text e with
  | [] => 1
  | _ => snd (fold_left (wrap_step columns) (text e) (prompt_width, 1))
  end.

(** editor.rs 748-757 *)
Definition split_current_pos (e : ed) : option (option (str * str)) :=
  match byte_index e with
  | None => None
  | Some b =>
      if b =? blen (text e) then Some None
      else match split_byte (text e) b with
           | Some pq => Some (Some pq)
           | None => None
           end
  end.

(** One call of the editor's public editing interface. *)
Inductive op :=
| OInsert (c : char) | OInsertStr (s : str)
| OBackspace | OBackspaceN (n : nat) | ODeleteChar
| ODeleteWordBackward | ODeleteToEnd | ODeleteToBeginning
| OMoveBy (z : Z) | OMoveToBegin | OMoveToEnd | OMoveWordLeft | OMoveWordRight
| OReset (s : str) | OClear
| OReplaceRange (a b : nat) (s : str) | OReplaceWord (s : str)
| OClick (column : nat).

(** The boolean is the return value of the two calls that have one; the other
    calls return [true] here. *)
Definition no_out (r : option ed) : option (ed * bool) :=
  match r with Some e => Some (e, true) | None => None end.

Definition step (e : ed) (o : op) : option (ed * bool) :=
  match o with
  | OInsert c => no_out (insert e c)
  | OInsertStr s => no_out (insert_str e s)
  | OBackspace => no_out (backspace e)
  | OBackspaceN n => no_out (backspacen n e)
  | ODeleteChar => no_out (delete_char e)
  | ODeleteWordBackward => no_out (delete_word_backward e)
  | ODeleteToEnd => no_out (delete_to_end e)
  | ODeleteToBeginning => no_out (delete_to_beginning e)
  | OMoveBy z => Some (move_by e z, true)
  | OMoveToBegin => Some (move_to_begin e, true)
  | OMoveToEnd => Some (move_to_end e, true)
  | OMoveWordLeft => no_out (move_word_left e)
  | OMoveWordRight => Some (move_word_right e, true)
  | OReset s => Some (reset e s, true)
  | OClear => Some (clear e, true)
  | OReplaceRange a b s => replace_range_chars e a b s
  | OReplaceWord s => replace_current_word e s
  | OClick c => Some (set_cursor_from_display_width e c, true)
  end.

Fixpoint run (e : ed) (os : list op) : option (ed * list bool) :=
  match os with
  | [] => Some (e, [])
  | o :: os' =>
      match step e o with
      | None => None
      | Some (e', b) =>
          match run e' os' with
          | None => None
          | Some (e'', bs) => Some (e'', b :: bs)
          end
      end
  end.

End Editor.
