(** What the tokens of a line are, independently of the scanner. *)
From Verif Require Import Base Token_Model.
From Coq Require Import Sorting.Sorted.

(** quoting after a prefix: which quotes are open, and whether the last character was a
    backslash that protects the next one *)
Definition quoting1 (st : quote_state * bool) (c : char) : quote_state * bool :=
  match st with
  | (q, true) => (q, false)
  | (Unquoted, false) => if (c =? 39)%N then (Single, false) else if (c =? 34)%N then (Double, false) else (Unquoted, (c =? 92)%N)
  | (Single, false) => (if (c =? 39)%N then Unquoted else Single, false)
  | (Double, false) => if (c =? 34)%N then (Unquoted, false) else (Double, (c =? 92)%N)
  end.
Definition quoting (prefix : str) : quote_state * bool := fold_left quoting1 prefix (Unquoted, false).

(** characters that separate tokens *)
Definition splits (m : separator_mode) (c : char) : Prop :=
  match m with
  | Parser => c = 32%N \/ c = 9%N
  | CompletionRange => is_whitespace c = true \/ In c (lit "|&;()<>")
  end.
(** position [i] of the line holds an unquoted, unescaped separator *)
Definition separator_at (m : separator_mode) (line : str) (i : nat) : Prop :=
  exists c, nth_error line i = Some c /\ splits m c /\ quoting (firstn i line) = (Unquoted, false).

(** the spans of a token denote its text *)
Definition denotes (line : str) (t : span) : Prop :=
  char_start t < char_end t <= length line /\
  raw t = firstn (char_end t - char_start t) (skipn (char_start t) line) /\
  byte_start t = blen (firstn (char_start t) line) /\
  byte_end t = blen (firstn (char_end t) line).
Definition before (a b : span) : Prop := char_end a < char_start b.
Definition covers (t : span) (i : nat) : Prop := char_start t <= i < char_end t.
Definition tokens_of (line : str) (m : separator_mode) (ts : list span) : Prop :=
  Forall (denotes line) ts /\ StronglySorted before ts /\
  forall i, i < length line -> (Exists (fun t => covers t i) ts <-> ~ separator_at m line i).
