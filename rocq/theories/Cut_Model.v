(** Shortening text for display or for a request, and looking back for a word: functions that
    index strings by byte.  Sources are named beside each definition.  [None] is the panic of
    an index inside a character. *)
From Verif Require Import Base.

(** the decimal digits of a number (Display of usize); only its presence matters here *)
Fixpoint digits (fuel n : nat) : str :=
  match fuel with
  | 0 => []
  | S f => (if n <? 10 then [] else digits f (n / 10)) ++ [N.of_nat (48 + n mod 10)]
  end.
Definition usize_str (n : nat) : str := digits (S n) n.

Definition dots : str := lit "...".

(** ** Cuts at a fixed byte offset *)
(** if s.len() > limit { format!("{}...", &s[..keep]) } else { s } *)
Definition cut (limit keep : nat) (mark s : str) : option str :=
  if limit <? blen s then match split_byte s keep with Some (a, _) => Some (a ++ mark) | None => None end else Some s.
(** dsh/src/repl/key_handlers/execution.rs l.185-189: the command in the desktop notification *)
Definition notification_preview : str -> option str := cut 50 47 dots.
(** dsh-builtin/src/bookmark.rs l.111-115 *)
Definition bookmark_row : str -> option str := cut 50 47 dots.
(** dsh-builtin/src/snippet.rs l.118-122 *)
Definition snippet_row : str -> option str := cut 50 47 dots.
(** dsh/src/lisp/stdlib/mcp.rs l.166-170 *)
Definition mcp_row : str -> option str := cut 50 47 dots.
(** str::lines().next(): the text before the first newline, without a carriage return at its end *)
Fixpoint before_newline (s : str) : str := match s with [] => [] | c :: r => if (c =? 10)%N then [] else c :: before_newline r end.
Definition has_newline (s : str) : bool := mem_char 10%N s.
Definition drop_cr (s : str) : str := match rev s with c :: r => if (c =? 13)%N then rev r else s | [] => s end.
Definition first_line (s : str) : option str :=
  match s with [] => None | _ => Some (let l := before_newline s in if has_newline s then drop_cr l else l) end.
(** dsh-builtin/src/out.rs l.82-87 *)
Definition out_row (output : str) : option str := cut 60 57 dots (match first_line output with Some l => l | None => lit "(empty)" end).
(** dsh-builtin/src/safe_run.rs l.290-299 and l.390-394: the text for the analysis and the text shown *)
Definition safe_run_preview (stdout : str) : option (str * str) :=
  let total := lit "... (truncated, total length: " ++ usize_str (blen stdout) ++ lit ")" in
  match cut (8 * 1000) (8 * 1000) total stdout with
  | None => None
  | Some preview => match cut (2 * 1000) (2 * 1000) (lit "... (preview truncated to 2kb)") preview with
                    | None => None
                    | Some shown => Some (preview, shown)
                    end
  end.
(** dsh/src/ai_features/analysis.rs l.230-235, after sanitizing *)
Definition analysis_text : str -> option str := cut (8 * 1000) (8 * 1000) (lit "...(truncated)").
(** dsh/src/prompt/mod.rs l.709-717: what the prompt shows for the contents of .git/HEAD *)
Definition head_name (content : str) : option str :=
  let c := trim content in
  if starts_with (lit "ref: refs/heads/") c then Some (skipn 16 c)
  else if 7 <=? blen c then match split_byte c 7 with Some (a, _) => Some a | None => None end
  else Some (lit "DETACHED").

(** ** Careful cuts *)
(** str::floor_char_boundary, as the prefix it selects *)
Fixpoint floor_prefix (n : nat) (s : str) : str :=
  match s with
  | [] => []
  | c :: r => if utf8_len c <=? n then c :: floor_prefix (n - utf8_len c) r else []
  end.
(** dsh-builtin/src/chatgpt/tool/mod.rs l.77-85 *)
Definition truncate_args (s : str) : str := if 80 <? blen s then floor_prefix 80 s ++ dots else s.
(** l.87-96; MAX_OUTPUT_LENGTH is 4096 (l.14) *)
Definition truncate_output (s : str) : str :=
  if 4096 <? blen s then
    let a := floor_prefix 4096 s in
    a ++ 10%N :: lit "... (truncated " ++ usize_str (blen s - blen a) ++ lit " characters)"
  else s.
(** dsh-builtin/src/chatgpt/skills.rs l.161-173: char_indices().nth(max) *)
Definition truncate_chars (s : str) (max : nat) : option str :=
  if length s <=? max then Some s
  else
    let stop := match nth_error (char_offsets s) max with Some i => i | None => blen s end in
    match split_byte s stop with Some (a, _) => Some (a ++ dots) | None => None end.
(** dsh/src/completion/dynamic.rs l.1033-1041 *)
Definition truncate_string (s : str) (max : nat) : str := if length s <=? max then s else firstn (max - 3) s ++ dots.
(** dsh/src/completion/display.rs l.36-60; [cw] is the display width of a character, and the
    width of a string is taken to be the sum *)
Section Width.
Variable cw : char -> nat.
Definition width (s : str) : nat := list_sum (map cw s).
Definition ellipsis : char := 8230%N.
Fixpoint take_width (max used : nat) (s : str) : str :=
  match s with
  | [] => []
  | c :: r => if max - 1 <? used + cw c then [ellipsis] else c :: take_width max (used + cw c) r
  end.
Definition truncate_to_width (s : str) (max : nat) : str :=
  if max =? 0 then [] else if width s <=? max then s else take_width max 0 s.
End Width.
(** dsh/src/completion/parser.rs l.110-122: the token up to the cursor; [b] is the distance of
    the cursor from the start of the token in bytes.  The loop steps back to a boundary *)
Definition on_boundary (s : str) (b : nat) : bool := match split_byte s b with Some _ => true | None => false end.
Fixpoint step_back (s : str) (b : nat) : nat :=
  if on_boundary s b then b else match b with 0 => 0 | S b' => step_back s b' end.
Definition token_to_cursor (raw : str) (b : nat) : option str :=
  if b <? blen raw then match split_byte raw (step_back raw b) with Some (a, _) => Some a | None => None end else Some raw.
(** dsh/src/completion/cache.rs l.168-192 longest_live_prefix; [live] says whether an entry for
    the key is present and not expired.  Keys of increasingly shorter prefixes are tried *)
Fixpoint shorter_prefix (live : str -> bool) (rev_input : str) : option str :=
  match rev_input with
  | [] => None
  | _ :: r => if live (rev r) then Some (rev r) else shorter_prefix live r
  end.
Definition longest_live_prefix (live : str -> bool) (input : str) : option (str * bool) :=
  if live input then Some (input, true)
  else match shorter_prefix live (rev input) with Some k => Some (k, false) | None => None end.

(** ** Looking back for a word *)
(** dsh/src/repl/completion.rs l.153-159 trailing_symbol: the byte position behind the last
    separator is taken to be one more than its start *)
Definition symbol_sep (c : char) : bool := is_whitespace c || (c =? chr "(")%N || (c =? chr ")")%N.
Fixpoint last_sep (b : nat) (s : str) : option nat :=
  match s with
  | [] => None
  | c :: r => match last_sep (b + utf8_len c) r with Some i => Some i | None => if symbol_sep c then Some b else None end
  end.
Definition trailing_symbol (s : str) : option str :=
  match split_byte s (match last_sep 0 s with Some i => S i | None => 0 end) with Some (_, t) => Some t | None => None end.
(** l.10-11 *)
Definition mcp_forms : list str := [lit "mcp-add-stdio"; lit "mcp-add-http"; lit "mcp-add-sse"; lit "mcp-clear"].
(** l.128-151 mcp_form_completion, called for every line drawn with the cursor at its end
    (repl_ai.rs l.113-117, completion.rs l.33); the outer [None] is a panic *)
Definition mcp_form_completion (input : str) : option (option str) :=
  let trimmed := trim_end input in
  match trimmed with
  | [] => Some None
  | _ =>
      match trailing_symbol trimmed with
      | None => None
      | Some token =>
          if (match token with [] => true | _ => false end) || negb (starts_with (lit "mcp-") token) then Some None
          else
            match find (fun c => starts_with token c && (length token <? length c)) mcp_forms with
            | None => Some None
            | Some c => Some (Some (trimmed ++ skipn (length token) c ++ skipn (length trimmed) input))
            end
      end
  end.
(** dsh/src/repl/key_handlers/completion.rs l.176-193, l.227-240: the line after choosing [val];
    the mark of history entries is a clock, four bytes long, and a space *)
Definition clock : str := [128338%N; 32%N].
Inductive chosen := ReplaceLine (command : str) | InsertValue (val : str).
Definition choose (val : str) : option chosen :=
  if starts_with clock val then match split_byte val 3 with Some (_, r) => Some (ReplaceLine (trim r)) | None => None end
  else Some (InsertValue val).
