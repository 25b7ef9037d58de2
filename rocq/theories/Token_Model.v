(** Tokens of a line for completion: dsh/src/completion/shell_token.rs, and the text a
    completed path is inserted as: dsh/src/completion/shell_path.rs. *)
From Verif Require Import Base.

(** shell_token.rs l.1-5, l.16-21 *)
Inductive separator_mode := Parser | CompletionRange.
Inductive quote_state := Unquoted | Single | Double.
(** shell_token.rs l.7-14 *)
Record span := Span { raw : str; byte_start : nat; byte_end : nat; char_start : nat; char_end : nat }.

(** shell_token.rs l.138-145 *)
Definition is_separator (c : char) (m : separator_mode) : bool :=
  match m with
  | Parser => mem_char c [32; 9]%N
  | CompletionRange => is_whitespace c || mem_char c (lit "|&;()<>")
  end.

(** the variables of the loop, l.24-29 *)
Record scan := Scan { spans : list span; current : str; token_start : option (nat * nat); quote : quote_state; escaped : bool }.
(** l.104-112 *)
Definition ensure (t : option (nat * nat)) (b i : nat) : option (nat * nat) :=
  match t with None => Some (b, i) | _ => t end.
(** l.114-136 push_current_span *)
Definition push_current (s : scan) (b i : nat) : scan :=
  match token_start s with
  | None => s
  | Some (bs, cs) =>
      match current s with
      | [] => Scan (spans s) (current s) None (quote s) (escaped s)
      | _ => Scan (spans s ++ [Span (current s) bs b cs i]) [] None (quote s) (escaped s)
      end
  end.
(** l.31-76: one character, at byte [b] and character [i] *)
Definition scan1 (m : separator_mode) (b i : nat) (c : char) (s : scan) : scan :=
  let start := ensure (token_start s) b i in
  let cur := current s ++ [c] in
  if escaped s then Scan (spans s) cur start (quote s) false
  else match quote s with
       | Unquoted =>
           if is_separator c m then push_current s b i
           else Scan (spans s) cur start
                  (if (c =? 39)%N then Single else if (c =? 34)%N then Double else Unquoted) (c =? 92)%N
       | Single => Scan (spans s) cur start (if (c =? 39)%N then Unquoted else Single) false
       | Double => Scan (spans s) cur start (if (c =? 34)%N then Unquoted else Double) (c =? 92)%N
       end.
Fixpoint scan_from (m : separator_mode) (b i : nat) (l : str) (s : scan) : scan :=
  match l with
  | [] => push_current s b i
  | c :: r => scan_from m (b + utf8_len c) (S i) r (scan1 m b i c s)
  end.
(** l.23-89 *)
Definition tokenize (input : str) (m : separator_mode) : list span :=
  spans (scan_from m 0 0 input (Scan [] [] None Unquoted false)).
(** l.91-102 *)
Definition token_at_char_cursor (input : str) (cursor_pos : nat) (m : separator_mode) : option span :=
  let cursor := Nat.min cursor_pos (length input) in
  find (fun s => (char_start s <=? cursor) && (cursor <=? char_end s)) (tokenize input m).

(** ** shell_path.rs *)
(** l.3-9 *)
Inductive style := Plain | Escaped | SingleQuoted (closed : bool) | DoubleQuoted (closed : bool).
(** l.95-111; str::len is in bytes *)
Definition detect_style (raw : str) : style :=
  if starts_with [34%N] raw then DoubleQuoted ((1 <? blen raw) && ends_with [34%N] raw)
  else if starts_with [39%N] raw then SingleQuoted ((1 <? blen raw) && ends_with [39%N] raw)
  else if mem_char 92%N raw then Escaped
  else Plain.
(** l.113-120: str::strip_prefix and strip_suffix of one character *)
Definition strip_prefix1 (q : char) (s : str) : str :=
  match s with c :: r => if (c =? q)%N then r else s | [] => s end.
Definition strip_suffix1 (q : char) (s : str) : str := rev (strip_prefix1 q (rev s)).
Definition strip_wrapping_quote (raw : str) (q : char) (closed : bool) : str :=
  let inner := strip_prefix1 q raw in if closed then strip_suffix1 q inner else inner.
(** l.122-139 *)
Fixpoint decode_backslashes (s : str) : str :=
  match s with
  | [] => []
  | c :: r => if (c =? 92)%N then match r with d :: r' => d :: decode_backslashes r' | [] => [c] end
              else c :: decode_backslashes r
  end.
(** l.18-31 from_raw *)
Definition normalize (raw : str) : str :=
  match detect_style raw with
  | Plain | Escaped => decode_backslashes raw
  | SingleQuoted closed => decode_backslashes (strip_wrapping_quote raw 39%N closed)
  | DoubleQuoted closed => decode_backslashes (strip_wrapping_quote raw 34%N closed)
  end.
(** l.141-203 *)
Definition escape (special : char -> bool) (path : str) : str :=
  flat_map (fun c => if special c then [92%N; c] else [c]) path.
Definition special_unquoted (c : char) : bool :=
  is_whitespace c || mem_char c (lit "\'|&;()<>$`{}*?[]" ++ [34%N]).
Definition escape_unquoted := escape special_unquoted.
Definition escape_single_quoted := escape (fun c => mem_char c (lit "\'")).
Definition escape_double_quoted := escape (fun c => mem_char c (lit "\$`" ++ [34%N])).
(** l.38-57 encode *)
Definition encode (st : style) (path : str) : str :=
  match st with
  | Plain | Escaped => escape_unquoted path
  | SingleQuoted closed => [39%N] ++ escape_single_quoted path ++ (if closed then [39%N] else [])
  | DoubleQuoted closed => [34%N] ++ escape_double_quoted path ++ (if closed then [34%N] else [])
  end.
(** l.64-66 *)
Definition format_path_for_token (path raw_token : str) : str := encode (detect_style raw_token) path.

(** completion/display.rs Candidate: the variants that matter here *)
Inductive candidate :=
| CPath (p : str) | CFile (p : str) (is_dir : bool) | CItem (text description : str) | COther (text : str).
(** l.68-93 *)
Definition format_candidates_for_token (l : list candidate) (raw_token : option str) : list candidate :=
  match raw_token with
  | None | Some [] => l
  | Some raw =>
      let st := detect_style raw in
      map (fun c => match c with
                    | CPath p => CPath (encode st p)
                    | CFile p d => CFile (encode st p) d
                    | CItem t d => if str_eqb d (lit "(file)") || str_eqb d (lit "(directory)") then CItem (encode st t) d else c
                    | COther _ => c
                    end) l
  end.
