(** Tab: the menu of candidates and what is put into the line.
    dsh/src/completion/display.rs (the part that says what is selected), ui.rs, framework.rs,
    selection.rs (up to the collection of file names), skim_adapter.rs (replace_space),
    dsh/src/completion/integrated.rs l.847-900, dsh/src/repl/key_handlers/completion.rs l.99-289.
    A candidate is the text of it: skim_adapter.rs l.7-19 (output) and display.rs l.787-799
    (get_display_name) are the same field for every kind of candidate.  What is drawn is not
    modelled but for the number of columns, which moves the selection.  The smart pipe and the
    generative command, which come before all this (l.63-97), are in Offer_Model. *)
From Verif Require Import Base Editor_Model Token_Model.

(** ** The menu *)
(** crossterm::event::KeyCode and KeyModifiers, as far as they are told apart here *)
Inductive key := Up | Down | Left | Right | Tab | PageUp | PageDown | Home | End_ | Enter | Esc | Backspace | Char (c : char) | OtherKey.
Inductive mods := Plain | Control | OtherMods.
Inductive event := Pressed (k : key) (m : mods) | Released (k : key) (m : mods) | NoKey.
(** ui.rs l.127-140 *)
Inductive command := MoveUp | MoveDown | MoveLeft | MoveRight | MovePageUp | MovePageDown | MoveHome | MoveEnd | Submit | Input (c : char) | Cancel | Noop.
(** ui.rs l.142-175 interpret_event *)
Definition interpret (e : event) : command :=
  match e with
  | Pressed k m =>
      match k, m with
      | Up, _ => MoveUp
      | Down, _ => MoveDown
      | Left, _ => MoveLeft
      | Right, _ => MoveRight
      | Tab, Plain => MoveRight
      | PageUp, _ => MovePageUp
      | PageDown, _ => MovePageDown
      | Home, _ => MoveHome
      | End_, _ => MoveEnd
      | Enter, _ => Submit
      | Esc, _ | Backspace, _ => Cancel
      | Char c, Control => if (c =? 99)%N || (c =? 103)%N then Cancel else Input c
      | Char c, Plain => if (c =? 113)%N then Cancel else Input c
      | Char c, OtherMods => Input c
      | _, _ => Noop
      end
  | _ => Noop
  end.

(** display.rs l.90-103: [width_of] is the width of the terminal the layout was made for *)
Record menu := Menu { shown : list str; at_ : nat; layout : option nat; more : bool }.

(** "📋" *)
Definition clipboard : char := 128203%N.
(** display.rs l.64-88 and l.264: the line that says how many are left *)
Definition message (remaining : str) : str := clipboard :: lit " ...and " ++ remaining ++ lit " more items available".

Section Menu.
(** the decimal numeral of a number, and the widths on the screen: of a candidate's name with its
    mark and, behind it, its description (display.rs l.142-160) *)
Variable numeral : nat -> str.
Variable width : str -> nat.

(** display.rs l.245-280 new_with_config *)
Definition new_menu (items : list str) (max : nat) : menu :=
  if max <? length items
  then Menu (firstn max items ++ [message (numeral (length items - max))]) 0 None true
  else Menu items 0 None false.
(** display.rs l.140-211 calculate_layout: the number of columns.  Simplified: the width of the
    message line is [width] of it *)
Definition columns (items : list str) (terminal : nat) : nat :=
  let widest := Nat.max (fold_right Nat.max 0 (map width items)) 10 in
  Nat.max (Nat.min (Nat.max 1 ((terminal - 4) / (widest + 1 + 2))) (Nat.max (length items) 1)) 1.
(** display.rs l.213-224, l.392-462: drawing makes the layout for the present width of the
    terminal, which may be unknown (an error) *)
Definition draw (terminal : option nat) (d : menu) : option menu :=
  match terminal with
  | Some w => Some (Menu (shown d) (at_ d) (Some (columns (shown d) w)) (more d))
  | None => None
  end.
(** display.rs l.341-367 *)
Definition move_up (d : menu) : menu :=
  match layout d with
  | Some n => if n <=? at_ d then Menu (shown d) (at_ d - n) (layout d) (more d) else d
  | None => d
  end.
Definition move_down (d : menu) : menu :=
  match layout d with
  | Some n => if at_ d + n <? length (shown d) then Menu (shown d) (at_ d + n) (layout d) (more d) else d
  | None => d
  end.
Definition move_left (d : menu) : menu :=
  if 0 <? at_ d then Menu (shown d) (at_ d - 1) (layout d) (more d) else d.
Definition move_right (d : menu) : menu :=
  if at_ d + 1 <? length (shown d) then Menu (shown d) (at_ d + 1) (layout d) (more d) else d.
(** display.rs l.369-383 get_selected, l.697-700 selected_output *)
Definition selected (d : menu) : option str :=
  match nth_error (shown d) (at_ d) with
  | Some c =>
      if more d && (at_ d =? length (shown d) - 1) && starts_with [clipboard] c then None else Some c
  | None => None
  end.
(** ui.rs l.36-42 *)
Inductive outcome := Submitted (v : str) | Typed (c : char) | Cancelled | NoSelection | Failed.
(** ui.rs l.58-124 run, behind the first drawing.  Every event comes with the width of the terminal
    at that time.  MovePageUp, MovePageDown, MoveHome and MoveEnd do nothing: CompletionDisplay
    keeps the empty bodies of the trait (l.14-17, display.rs l.668-701).  [None]: still open.
    The second component: the events that are left *)
Fixpoint interact (events : list (event * option nat)) (d : menu) : option (outcome * list (event * option nat)) :=
  match events with
  | [] => None
  | (e, w) :: rest =>
      let go d' := match draw w d' with Some d'' => interact rest d'' | None => Some (Failed, rest) end in
      match interpret e with
      | MoveUp => go (move_up d)
      | MoveDown => go (move_down d)
      | MoveLeft => go (move_left d)
      | MoveRight => go (move_right d)
      | MovePageUp | MovePageDown | MoveHome | MoveEnd => go d
      | Submit => Some (match selected d with Some v => Submitted v | None => NoSelection end, rest)
      | Input c => Some (Typed c, rest)
      | Cancel => Some (Cancelled, rest)
      | Noop => interact rest d
      end
  end.
(** the loop with the first drawing, l.63.  The first element of the list is that drawing *)
Definition open_menu (items : list str) (max : nat) (events : list (event * option nat)) : option (outcome * list (event * option nat)) :=
  match events with
  | [] => None
  | (_, w) :: rest => match draw w (new_menu items max) with Some d => interact rest d | None => Some (Failed, rest) end
  end.

(** framework.rs l.98-110 continue_inline_input *)
Definition continue_input (input : str) (c : char) : str :=
  match token_at_char_cursor input (length input) CompletionRange with
  | None => [c]
  | Some t => if length input <=? char_start t then [c] else raw t ++ [c]
  end.
(** framework.rs l.38-53 *)
Inductive kind := Inline | Skim.
Inductive selection := Selected (v : str) | Nothing | Interactive (items : list str).
Definition events := list (event * option nat).
(** selection.rs l.69-101, framework.rs l.64-96, l.172-190.  [input] is the text the menu is told *)
Definition select (items : list str) (input : str) (max : nat) (k : kind) (ev : events) : option (selection * events) :=
  match items with
  | [] => Some (Nothing, ev)
  | [x] => Some (Selected x, ev)
  | _ =>
      match k with
      | Skim => Some (Interactive items, ev)
      | Inline =>
          match open_menu items max ev with
          | None => None
          | Some (Submitted v, r) => Some (Selected v, r)
          | Some (Typed c, r) => Some (Selected (continue_input input c), r)
          | Some (_, r) => Some (Nothing, r)
          end
      end
  end.

(** ** The other sources: selection.rs *)
(** skim_adapter.rs l.82-98 replace_space *)
Fixpoint replace_space_from (inside : bool) (s : str) : str :=
  match s with
  | [] => []
  | c :: r =>
      if is_whitespace c then (if inside then replace_space_from true r else 95%N :: replace_space_from true r)
      else c :: replace_space_from false r
  end.
Definition replace_space : str -> str := replace_space_from false.

(** completion/mod.rs AutoComplete: a completion declared with the Lisp form autocomplete (the
    target is written with _ for -, lisp/interpreter.rs l.189).  [ByFunction]: what the function
    gives for the argument it gets; [ByCommand]: what sh -c printed, [None] if it did not start or
    did not print UTF-8 *)
Inductive answer := Values (l : list str) | Text (s : str) | Other.
Inductive how := ByFunction (f : str -> answer) | ByCommand (out : option str) | ByList (l : list str) | ByNothing.
Record declared := Declared { target : str; gives : how }.

(** str::lines *)
Fixpoint lines_from (cur : str) (s : str) : list str :=
  match s with
  | [] => match cur with [] => [] | _ => [cur] end
  | c :: r =>
      if (c =? 10)%N
      then (match rev cur with 13%N :: x => rev x | _ => cur end) :: lines_from [] r
      else lines_from (cur ++ [c]) r
  end.
Definition lines : str -> list str := lines_from [].
(** selection.rs l.122-146 completion_from_cmd: the menu is told an empty input (l.28-32, l.104-120) *)
Definition from_command (out : option str) (max : nat) (k : kind) (ev : events) : option (selection * events) :=
  match out with
  | None => Some (Nothing, ev)
  | Some t => select (filter (fun x => negb (match x with [] => true | _ => false end)) (map trim (lines t))) [] max k ev
  end.
(** selection.rs l.199-264 completion_from_lisp_with_prompt *)
Fixpoint from_declared (l : list declared) (input : str) (max : nat) (k : kind) (ev : events) : option (selection * events) :=
  match l with
  | [] => Some (Nothing, ev)
  | d :: r =>
      if starts_with (target d) (replace_space input)
      then match gives d with
           | ByFunction f =>
               match f (replace_space input) with
               | Values items => select items input max k ev
               | Text s => Some (Selected s, ev)
               | Other => Some (Nothing, ev)
               end
           | ByCommand out =>
               match from_command out max k ev with
               | Some (Selected v, ev') => Some (Selected (if starts_with (lit "*") v then skipn 2 v else v), ev')
               | x => x
               end
           | ByList items => select (map trim items) input max k ev
           | ByNothing => Some (Nothing, ev)
           end
      else from_declared r input max k ev
  end.
(** selection.rs l.266-294 completion_for_z *)
Definition for_z (dirs : option (list str)) (input : str) (max : nat) (k : kind) (ev : events) : option (selection * events) :=
  if negb (starts_with (lit "z ") (trim_start input)) && negb (str_eqb (trim input) (lit "z")) then Some (Nothing, ev)
  else match dirs with Some l => select l input max k ev | None => Some (Nothing, ev) end.
(** where candidates come from besides the engine: the declarations, the visited directories,
    the files and commands (selection.rs l.296-345; a parameter here) *)
Record rest_ := Rest { decls : list declared; visited : option (list str); files : list str }.
(** selection.rs l.148-197 input_completion *)
Definition input_completion (s : rest_) (input : str) (max : nat) (k : kind) (ev : events) : option (selection * events) :=
  match from_declared (decls s) input max k ev with
  | Some (Nothing, ev1) =>
      match for_z (visited s) input max k ev1 with
      | Some (Nothing, ev2) => select (files s) input max k ev2
      | x => x
      end
  | x => x
  end.

(** ** The line *)
(** integrated.rs l.866-890 option_value_range_from_token *)
Definition value_range (token : str) (start : nat) (option_name : str) : option (nat * nat) :=
  let short :=
    if (blen option_name =? 2) && negb (starts_with (lit "--") option_name) && starts_with option_name token
    then match skipn (length option_name) token with
         | [] => None
         | c :: _ => if (c =? 61)%N then None else Some (start + length option_name, start + length token)
         end
    else None in
  if starts_with (lit "--") option_name
  then if starts_with (option_name ++ [61%N]) token then Some (start + length (option_name ++ [61%N]), start + length token) else short
  else short.
(** integrated.rs l.847-864, l.892-900.  [option_name]: the option whose value is completed
    (CompletionContext::OptionValue) *)
Definition replacement_range (input : str) (pos : nat) (option_name : option str) : option (nat * nat) :=
  match token_at_char_cursor input pos CompletionRange with
  | None => None
  | Some t =>
      let token := firstn (char_end t - char_start t) (skipn (char_start t) input) in
      match option_name with
      | Some o => match value_range token (char_start t) o with Some r => Some r | None => Some (char_start t, char_end t) end
      | None => Some (char_start t, char_end t)
      end
  end.

Variable cw : char -> nat.
(** Input::get_cursor_word (the part modelled by Keys_Model.get_pos_word) *)
Variable cursor_word : str -> nat -> option str.
(** input/editor.rs l.464-479 get_completion_word_fallback *)
Definition word_fallback (e : ed) : option str :=
  match text e with
  | [] => None
  | _ =>
      if cur e =? 0 then None
      else match token_at_char_cursor (text e) (cur e) CompletionRange with
           | None => None
           | Some t => if (cur e <=? char_start t) || (match raw t with [] => true | _ => false end) then None else Some (raw t)
           end
  end.
(** key_handlers/completion.rs l.293-298 *)
Definition query (e : ed) : option str :=
  match cursor_word (text e) (cur e) with Some q => Some q | None => word_fallback e end.

(** "🕒 " *)
Definition clock : str := [128338; 32]%N.
(** what became of the line; [Asks]: another program is asked (skim) and puts its answer in later *)
Inductive result := Done (e : ed) | Asks (items : list str) (range : option (nat * nat)) (back : nat) | Panicked | Waiting.
Definition lift (o : option ed) : result := match o with Some e => Done e | None => Panicked end.
(** l.166-188 and l.219-236: [val[3..]] panics inside a character *)
Definition put (e : ed) (range : option (nat * nat)) (removal : option nat) (v : str) : result :=
  if starts_with clock v
  then match split_byte v 3 with Some (_, c) => Done (reset cw e (trim c)) | None => Panicked end
  else match range with
       | Some (a, b) => match replace_range_chars cw e a b v with Some (e', _) => Done e' | None => Panicked end
       | None =>
           match (match removal with Some n => backspacen cw n e | None => Some e end) with
           | Some e' => lift (insert_str cw e' v)
           | None => Panicked
           end
       end.
(** l.258-267: the next word of the suggestion that is drawn, if there is one *)
Definition suggestion_word (e : ed) (chunk : option str) : result :=
  match chunk with Some s => lift (insert_str cw e s) | None => Done e end.
(** l.99-272 handle_trigger_completion.  [engine] are the candidates of the integrated engine, as
    texts to insert, with the kind of menu they ask for; [own] is the kind of DSH_COMPLETION_FRAMEWORK *)
Definition tab (e : ed) (engine : list str) (engine_kind own : kind) (option_name : option str) (s : rest_)
    (chunk : option str) (max : nat) (ev : events) : result :=
  let removal := option_map (@length char) (query e) in
  let range := replacement_range (text e) (cur e) option_name in
  let fallback ev :=
    match input_completion s (text e) max own ev with
    | None => Waiting
    | Some (Selected v, _) => put e None removal v
    | Some (Interactive items, _) => Asks items None (match removal with Some n => n | None => 0 end)
    | Some (Nothing, _) => suggestion_word e chunk
    end in
  match engine with
  | [] => fallback ev
  | _ =>
      match select engine (text e) max engine_kind ev with
      | None => Waiting
      | Some (Selected v, _) => put e range removal v
      | Some (Interactive items, _) => Asks items range (match removal with Some n => n | None => 0 end)
      | Some (Nothing, ev') => fallback ev'
      end
  end.
End Menu.
