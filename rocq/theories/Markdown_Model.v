(** Drawing Markdown on the terminal: dsh-builtin/src/markdown.rs.  The parser (pulldown-cmark) is an
    oracle: what is modelled is the drawing of its events, in any order.  Tags the drawing does not know
    are [TOther]; tables, their parts and footnote definitions are [TBlock]. *)
From Verif Require Import Base Lread_Model.

Inductive style := Bold | Italic | Strike | CodeBlock | Heading (level : nat) | Link (dest : str) | Quote.
Inductive tag :=
| TParagraph | THeading (level : nat) | TQuote | TCodeBlock | TEmphasis | TStrong | TStrike
| TList (start : option N) | TItem | TLink (dest : str) | TImage | TBlock | TOther.
Inductive event :=
| Start (t : tag) | End (t : tag) | Text (s : str) | Code (s : str) | InlineMath (s : str) | DisplayMath (s : str)
| SoftBreak | HardBreak | Rule | Html (s : str) | InlineHtml (s : str) | TaskMarker (checked : bool) | FootnoteRef (name : str).

(** l.4-22 *)
Definition esc (s : string) : str := 27%N :: lit s.
Definition ansi_reset := esc "[0m".
Definition ansi_bold := esc "[1m".
Definition ansi_italic := esc "[3m".
Definition ansi_strike := esc "[9m".
Definition ansi_dim := esc "[2m".
Definition ansi_underline := esc "[4m".
Definition heading_color (level : nat) : str :=
  match level with 1 => esc "[38;5;81m" | 2 => esc "[38;5;110m" | 3 => esc "[38;5;39m" | 4 => esc "[38;5;153m" | _ => esc "[38;5;189m" end.
Definition color_inline_code := esc "[38;5;214m".
Definition color_block := esc "[48;5;234m" ++ esc "[38;5;223m".
Definition color_quote := esc "[38;5;244m".
Definition color_link := esc "[38;5;75m".
Definition color_marker := esc "[38;5;150m".

(** l.66-73; a list is the number of its next item, or none *)
Record drawing := Drawing { buffer : str; styles : list style; lists : list (option N); pending : nat; line_start : bool; wrote : bool }.
Definition empty : drawing := Drawing [] [] [] 0 false false.
Definition push (t : str) (d : drawing) : drawing := Drawing (buffer d ++ t) (styles d) (lists d) (pending d) (line_start d) (wrote d).
Definition at_start (b : bool) (d : drawing) : drawing := Drawing (buffer d) (styles d) (lists d) (pending d) b (wrote d).
Definition written (d : drawing) : drawing := Drawing (buffer d) (styles d) (lists d) (pending d) (line_start d) true.
Definition with_styles (l : list style) (d : drawing) : drawing := Drawing (buffer d) l (lists d) (pending d) (line_start d) (wrote d).
Definition with_lists (l : list (option N)) (d : drawing) : drawing := Drawing (buffer d) (styles d) l (pending d) (line_start d) (wrote d).
Definition want (n : nat) (d : drawing) : drawing :=
  if wrote d then Drawing (buffer d) (styles d) (lists d) (max (pending d) n) (line_start d) (wrote d) else d.
(** l.375-385 *)
Definition ensure_newline := want 1.
Definition ensure_blank_line := want 2.
Fixpoint copies (n : nat) (s : str) : str := match n with 0 => [] | S k => s ++ copies k s end.
(** l.355-373 flush_newlines: every wanted newline is written, but none at the very beginning *)
Definition flush_newlines (d : drawing) : drawing :=
  match pending d with
  | 0 => d
  | n => Drawing (match buffer d with [] => [] | b => b ++ copies n [10%N] end) (styles d) (lists d) 0 true (wrote d)
  end.
(** l.446-460 *)
Definition is_quote (s : style) : bool := match s with Quote => true | _ => false end.
Definition quote_depth (d : drawing) : nat := length (filter is_quote (styles d)).
Definition quote_prefix (d : drawing) : str := copies (quote_depth d) [9474%N; 32%N].
(** l.343-353 *)
Definition prepare_line (d : drawing) : drawing :=
  let d := flush_newlines d in
  if line_start d then
    match quote_prefix d with
    | [] => d
    | p => written (at_start false (push p d))
    end
  else d.
(** l.462-479 current_style: every style on the stack; of two headings the upper one *)
Record flags := Flags { bold : bool; italic : bool; strike : bool; code_block : bool; inline_code : bool; heading : option nat; link : bool; quote : bool }.
Definition no_flags := Flags false false false false false None false false.
Definition add_flag (f : flags) (s : style) : flags :=
  match s with
  | Bold => Flags true (italic f) (strike f) (code_block f) (inline_code f) (heading f) (link f) (quote f)
  | Italic => Flags (bold f) true (strike f) (code_block f) (inline_code f) (heading f) (link f) (quote f)
  | Strike => Flags (bold f) (italic f) true (code_block f) (inline_code f) (heading f) (link f) (quote f)
  | CodeBlock => Flags (bold f) (italic f) (strike f) true (inline_code f) (heading f) (link f) (quote f)
  | Heading l => Flags (bold f) (italic f) (strike f) (code_block f) (inline_code f) (Some l) (link f) (quote f)
  | Link _ => Flags (bold f) (italic f) (strike f) (code_block f) (inline_code f) (heading f) true (quote f)
  | Quote => Flags (bold f) (italic f) (strike f) (code_block f) (inline_code f) (heading f) (link f) true
  end.
Definition current_style (d : drawing) : flags := fold_left add_flag (styles d) no_flags.
Definition with_code (f : flags) : flags := Flags (bold f) (italic f) (strike f) (code_block f) true (heading f) (link f) (quote f).
(** l.391-444 write_styled *)
Definition style_prefix (f : flags) : str :=
  (match heading f with
   | Some l => heading_color l ++ ansi_bold ++ (if l =? 1 then ansi_underline else [])
   | None => (if bold f then ansi_bold else []) ++ (if italic f then ansi_italic else [])
   end) ++ (if strike f then ansi_strike else []) ++ (if inline_code f then color_inline_code else [])
  ++ (if link f then color_link ++ ansi_underline else []) ++ (if quote f && negb (inline_code f) then color_quote else []).
Definition write_styled (t : str) (f : flags) (d : drawing) : drawing :=
  match t with
  | [] => d
  | _ => let p := style_prefix f in
         written (at_start false (push (p ++ t ++ (match p with [] => [] | _ => ansi_reset end)) d))
  end.
(** l.231-259 push_code_block_text *)
Definition code_line (q : str) (indent : str) (l : str) : str := q ++ indent ++ color_block ++ [32%N] ++ l ++ [32%N] ++ ansi_reset.
Definition push_code_block_text (t : str) (d : drawing) : drawing :=
  let d := flush_newlines d in
  let indent := copies (length (lists d)) [32%N; 32%N] in
  ensure_newline (written (at_start false (push (join_with [10%N] (map (code_line (quote_prefix d) indent) (split_on 10%N t))) d))).
(** l.194-222 push_text *)
Fixpoint text_lines (f : flags) (ls : list str) (d : drawing) : drawing :=
  match ls with
  | [] => d
  | [l] => write_styled l f d
  | l :: r => text_lines f r (prepare_line (at_start true (push [10%N] (write_styled l f d))))
  end.
Definition push_text (t : str) (d : drawing) : drawing :=
  match t with
  | [] => d
  | _ => let f := current_style d in
         if code_block f then push_code_block_text t d else text_lines f (split_on 10%N t) (prepare_line d)
  end.
(** l.224-229 *)
Definition push_inline_code (t : str) (d : drawing) : drawing :=
  let f := with_code (current_style d) in write_styled t f (prepare_line d).
(** l.261-271 *)
Definition line_break (d : drawing) : drawing := prepare_line (at_start true (push [10%N] d)).
(** l.273-282 *)
Definition rule (d : drawing) : drawing :=
  at_start true (push (ansi_dim ++ copies 40 [9472%N] ++ ansi_reset ++ [10%N]) (flush_newlines (ensure_blank_line d))).
(** l.284-289 *)
Definition task_marker (checked : bool) (d : drawing) : drawing :=
  at_start false (push (color_marker ++ (if checked then lit "[x]" else lit "[ ]") ++ ansi_reset ++ [32%N]) d).
(** l.291-330 start_list_item; the top of the stack is the last element *)
Definition bump (l : list (option N)) : list (option N) :=
  match rev l with Some n :: r => rev r ++ [Some (n + 1)%N] | _ => l end.
Definition marker (l : list (option N)) : str :=
  match rev l with
  | [] => []
  | None :: _ => color_marker ++ [8226%N] ++ ansi_reset ++ [32%N]
  | Some n :: _ => color_marker ++ show_nat n ++ lit "." ++ ansi_reset ++ [32%N]
  end.
Definition start_list_item (d : drawing) : drawing :=
  let d := flush_newlines d in
  let d := at_start true (if line_start d then d else push [10%N] d) in
  let d := push (quote_prefix d) d in
  let d := push (copies (length (lists d) - 1) [32%N; 32%N]) d in
  let d := with_lists (bump (lists d)) (push (marker (lists d)) d) in
  written (at_start false d).
(** l.332-341 *)
Definition append_link_suffix (dest : str) (d : drawing) : drawing :=
  match dest with [] => d | _ => written (at_start false (push (lit " (" ++ dest ++ lit ")") d)) end.
(** l.481-491 pop_style: the last one that fits is taken out *)
Fixpoint take_first (p : style -> bool) (l : list style) : option (style * list style) :=
  match l with
  | [] => None
  | s :: r => if p s then Some (s, r) else match take_first p r with Some (x, r') => Some (x, s :: r') | None => None end
  end.
Definition pop_style (p : style -> bool) (d : drawing) : option style * drawing :=
  match take_first p (rev (styles d)) with Some (s, r) => (Some s, with_styles (rev r) d) | None => (None, d) end.
Definition popped (p : style -> bool) (d : drawing) : drawing := snd (pop_style p d).
Definition styled (s : style) (d : drawing) : drawing := with_styles (styles d ++ [s]) d.

(** l.96-140 start_tag *)
Definition start_tag (t : tag) (d : drawing) : drawing :=
  match t with
  | TParagraph => if (length (lists d) =? 0) && (quote_depth d =? 0) then ensure_blank_line d else ensure_newline d
  | THeading l => styled (Heading l) (ensure_blank_line d)
  | TQuote => styled Quote (ensure_blank_line d)
  | TCodeBlock => styled CodeBlock (ensure_blank_line d)
  | TEmphasis => styled Italic d
  | TStrong => styled Bold d
  | TStrike => styled Strike d
  | TList n => let d := ensure_blank_line d in with_lists (lists d ++ [n]) d
  | TItem => start_list_item d
  | TLink dest => styled (Link dest) d
  | TImage => d
  | TBlock => ensure_blank_line d
  | TOther => d
  end.
(** l.142-192 end_tag *)
Definition end_tag (t : tag) (d : drawing) : drawing :=
  match t with
  | TParagraph => ensure_newline d
  | THeading _ => ensure_blank_line (popped (fun s => match s with Heading _ => true | _ => false end) d)
  | TQuote => ensure_blank_line (popped is_quote d)
  | TCodeBlock => ensure_blank_line (popped (fun s => match s with CodeBlock => true | _ => false end) d)
  | TEmphasis => popped (fun s => match s with Italic => true | _ => false end) d
  | TStrong => popped (fun s => match s with Bold => true | _ => false end) d
  | TStrike => popped (fun s => match s with Strike => true | _ => false end) d
  | TList _ => ensure_newline (with_lists (removelast (lists d)) d)
  | TItem => ensure_newline (if line_start d then d else at_start true (push [10%N] d))
  | TLink _ => match pop_style (fun s => match s with Link _ => true | _ => false end) d with
               | (Some (Link dest), d') => append_link_suffix dest d'
               | (_, d') => d'
               end
  | TBlock => ensure_blank_line d
  | TImage | TOther => d
  end.
(** l.76-94 handle_event *)
Definition handle_event (d : drawing) (e : event) : drawing :=
  match e with
  | Start t => start_tag t d
  | End t => end_tag t d
  | Text s | Html s | InlineHtml s => push_text s d
  | Code s | InlineMath s => push_inline_code s d
  | DisplayMath s => push_code_block_text s (ensure_blank_line d)
  | SoftBreak | HardBreak => line_break d
  | Rule => rule d
  | TaskMarker c => task_marker c d
  | FootnoteRef n => push_text (lit "[" ++ n ++ lit "]") d
  end.
(** l.493-499 finish *)
Fixpoint drop_newlines (s : str) : str := match s with c :: r => if (c =? 10)%N then drop_newlines r else s | [] => [] end.
Definition finish (d : drawing) : str := rev (drop_newlines (rev (buffer (flush_newlines d)))).
Definition draw (es : list event) : str := finish (fold_left handle_event es empty).
(** l.31-63 render_markdown and render_markdown_with_fallback *)
Definition render_markdown (parse : str -> list event) (input : str) : option str :=
  if mem_char 0%N input then None
  else match trim input with [] => Some [] | _ => Some (draw (parse input)) end.
Definition render_with_fallback (parse : str -> list event) (input : str) : str :=
  match render_markdown parse input with Some ((_ :: _) as r) => r | _ => input end.
