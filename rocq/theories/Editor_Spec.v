(** Specification of the line editor: the text before the cursor and the text
    after it.  No byte offsets, no caches. *)
From Verif Require Import Base Editor_Model.

Record zip := Zip { before : str; after : str }.

Definition whole (z : zip) : str := before z ++ after z.

(** [s] without its longest suffix of characters satisfying [p] *)
Fixpoint drop_while (p : char -> bool) (s : str) : str :=
  match s with [] => [] | c :: s' => if p c then drop_while p s' else s end.
Definition strip_suffix (p : char -> bool) (s : str) : str := rev (drop_while p (rev s)).
Fixpoint take_while (p : char -> bool) (s : str) : str :=
  match s with [] => [] | c :: s' => if p c then c :: take_while p s' else [] end.
Definition suffix_while (p : char -> bool) (s : str) : str := rev (take_while p (rev s)).

Definition blank := is_whitespace.
Definition nonblank (c : char) := negb (is_whitespace c).

(** what remains before the start of the word to the left of the cursor *)
Definition before_word (b : str) : str := strip_suffix nonblank (strip_suffix blank b).

(** characters that can be part of an abbreviation *)
Definition abbr_char (c : char) : bool :=
  negb (is_whitespace c || (c =? chr "|")%N || (c =? chr "&")%N || (c =? chr ";")%N
        || (c =? chr "(")%N || (c =? chr ")")%N).

(** move the cursor to character position [n] (at most the end) *)
Definition goto (z : zip) (n : nat) : zip := Zip (firstn n (whole z)) (skipn n (whole z)).

Definition s_insert (z : zip) (s : str) : zip := Zip (before z ++ s) (after z).
Definition s_backspace (n : nat) (z : zip) : zip :=
  Zip (firstn (length (before z) - n) (before z)) (after z).
Definition s_delete (z : zip) : zip := Zip (before z) (tl (after z)).
Definition s_delete_word_backward (z : zip) : zip := Zip (before_word (before z)) (after z).
Definition s_word_left (z : zip) : zip := goto z (length (before_word (before z))).
Definition s_word_right (z : zip) : zip :=
  let w := take_while nonblank (after z) in
  let sp := take_while blank (drop_while nonblank (after z)) in
  goto z (length (before z) + length w + length sp).
Definition s_move (z : zip) (d : Z) : zip :=
  goto z (Z.to_nat (Z.of_nat (length (before z)) + d)).
Definition s_replace_range (z : zip) (a b : nat) (r : str) : zip * bool :=
  if (a <=? b) && (b <=? length (whole z))
  then (Zip (firstn a (whole z) ++ r) (skipn b (whole z)), true)
  else (z, false).
Definition s_replace_word (z : zip) (r : str) : zip * bool :=
  match suffix_while abbr_char (before z) with
  | [] => (z, false)
  | _ => (Zip (strip_suffix abbr_char (before z) ++ r) (after z), true)
  end.

(** column at which the character number [i] of [s] starts *)
Definition column (cw : char -> nat) (s : str) (i : nat) : nat :=
  list_sum (map cw (firstn i s)).

(** a click at column [t] puts the cursor behind every character whose middle
    is at or left of [t] *)
Definition s_click (cw : char -> nat) (z : zip) (t : nat) : zip :=
  goto z (length (filter (fun i => column cw (whole z) i + column cw (whole z) (S i) <=? 2 * t)
                         (seq 0 (length (whole z))))).

Definition s_step (cw : char -> nat) (z : zip) (o : op) : zip * bool :=
  match o with
  | OInsert c => (s_insert z [c], true)
  | OInsertStr s => (s_insert z s, true)
  | OBackspace => (s_backspace 1 z, true)
  | OBackspaceN n => (s_backspace n z, true)
  | ODeleteChar => (s_delete z, true)
  | ODeleteWordBackward => (s_delete_word_backward z, true)
  | ODeleteToEnd => (Zip (before z) [], true)
  | ODeleteToBeginning => (Zip [] (after z), true)
  | OMoveBy d => (s_move z d, true)
  | OMoveToBegin => (goto z 0, true)
  | OMoveToEnd => (goto z (length (whole z)), true)
  | OMoveWordLeft => (s_word_left z, true)
  | OMoveWordRight => (s_word_right z, true)
  | OReset s => (Zip s [], true)
  | OClear => (Zip [] [], true)
  | OReplaceRange a b r => s_replace_range z a b r
  | OReplaceWord r => s_replace_word z r
  | OClick t => (s_click cw z t, true)
  end.

Fixpoint s_run (cw : char -> nat) (z : zip) (os : list op) : zip * list bool :=
  match os with
  | [] => (z, [])
  | o :: os' =>
      let (z1, b) := s_step cw z o in
      let (z2, bs) := s_run cw z1 os' in
      (z2, b :: bs)
  end.
