(** Keys at the prompt: dsh/src/repl/key_action.rs, dsh/src/repl/handler.rs l.65-332,
    dsh/src/repl/key_handlers/*.rs, dsh/src/repl/suggestion_manager.rs and the parts of
    dsh/src/repl/{mod,completion,render,input_analysis}.rs they call.

    The line editor is the one of Editor_Model.  What the history, the file system, the
    clipboard, the completion menu and the clock answer is not modelled: each key event carries
    those answers ([world]), so that theorems hold for every answer.  Drawing is left out,
    except for what it stores in the state ([redraw]).  [None] is a panic. *)
From Verif Require Import Base Editor_Model Check_Model.
From Verif Require Peg_Model Grammar_Model Parse_Model.

(** ** Keys and actions *)

(** crossterm KeyCode, the keys that key_action.rs names *)
Inductive code := KChar (c : char) | KUp | KDown | KLeft | KRight | KBackspace | KTab | KBackTab | KEnter | KEsc | KOtherKey.
(** crossterm KeyModifiers: a bit set; [m_other] stands for the remaining bits *)
Record mods := Mods { m_ctrl : bool; m_alt : bool; m_shift : bool; m_other : bool }.
Definition none := Mods false false false false.
Definition ctrl := Mods true false false false.
Definition alt := Mods false true false false.
Definition shift := Mods false false true false.
Definition mods_eqb (a b : mods) : bool :=
  Bool.eqb (m_ctrl a) (m_ctrl b) && Bool.eqb (m_alt a) (m_alt b) && Bool.eqb (m_shift a) (m_shift b) && Bool.eqb (m_other a) (m_other b).
Record key := Key { k_code : code; k_mods : mods }.

(** key_action.rs l.15-72 *)
Inductive action :=
| CursorLeft | CursorRight | CursorWordLeft | CursorWordRight | CursorToBegin | CursorToEnd
| HistoryPrevious | HistoryNext | HistorySearch
| InsertChar (c : char) | InsertPairedChar (o c : char) | Backspace | DeleteWordBackward | DeleteToEnd | DeleteToBeginning
| TriggerCompletion | AcceptCompletion | AcceptSuggestionFull | AcceptSuggestionWord | RotateSuggestionForward | RotateSuggestionBackward
| Execute | ExecuteBackground | OpenCommandPalette
| AiAutoFix | AiSmartCommit | AiDiagnose | ForceAiSuggestion | AiExplainCommand | MacroRecord
| PasteClipboard | ClearScreen | Interrupt | ToggleSudo | CancelCompletion
| OvertypeClosingBracket (c : char) | ExpandAbbreviationAndInsertSpace
| Unsupported.

(** key_action.rs l.75-93 (fields that are used) *)
Record kctx := KCtx { cursor_at_end : bool; has_suggestion : bool; has_completion : bool; next_char : option char; c_auto_pair : bool }.

Definition is_char (x : ascii) (c : char) : bool := (c =? chr x)%N.
(** key_action.rs l.159-166 *)
Definition closing (o : char) : char :=
  if is_char "(" o then chr ")" else if is_char "{" o then chr "}" else if is_char "[" o then chr "]" else o.

(** key_action.rs l.99-266 determine_key_action; the arms in source order *)
Definition char_action (c : char) (m : mods) (x : kctx) : action :=
  let accept := has_suggestion x && negb (has_completion x) && cursor_at_end x in
  if is_char "f" c && mods_eqb m alt && accept then AcceptSuggestionWord
  else if is_char "]" c && mods_eqb m alt then RotateSuggestionForward
  else if is_char "[" c && mods_eqb m alt then RotateSuggestionBackward
  else if is_char "f" c && mods_eqb m ctrl && accept then AcceptSuggestionFull
  else if (c =? 32)%N && mods_eqb m none then ExpandAbbreviationAndInsertSpace
  else if mods_eqb m none && c_auto_pair x && mem_char c ([40; 123; 91; 39; 34]%N) then InsertPairedChar c (closing c)
  else if mods_eqb m none && c_auto_pair x && mem_char c ([41; 125; 93]%N) then
    match next_char x with
    | Some n => if (n =? c)%N then OvertypeClosingBracket c else InsertChar c
    | None => InsertChar c
    end
  else if mods_eqb m none || mods_eqb m shift then InsertChar c
  else if mods_eqb m alt then
    (if is_char "f" c then AiAutoFix
     else if is_char "s" c then ForceAiSuggestion
     else if is_char "e" c then AiExplainCommand
     else if is_char "c" c then AiSmartCommit
     else if is_char "d" c then AiDiagnose
     else if is_char "m" c then MacroRecord
     else if is_char "x" c then OpenCommandPalette
     else Unsupported)
  else if mods_eqb m ctrl then
    (if is_char "a" c then CursorToBegin
     else if is_char "e" c then (if has_completion x then AcceptCompletion else CursorToEnd)
     else if is_char "c" c then Interrupt
     else if is_char "l" c then ClearScreen
     else if is_char "r" c then HistorySearch
     else if is_char "v" c then PasteClipboard
     else if is_char "w" c then DeleteWordBackward
     else if is_char "k" c then DeleteToEnd
     else if is_char "u" c then DeleteToBeginning
     else Unsupported)
  else Unsupported.
Definition determine_key_action (k : key) (x : kctx) : action :=
  let m := k_mods k in
  let accept := has_suggestion x && negb (has_completion x) && cursor_at_end x in
  match k_code k with
  | KUp => if mods_eqb m none then HistoryPrevious else Unsupported
  | KDown => if mods_eqb m none then HistoryNext else Unsupported
  | KRight =>
      if m_ctrl m then (if accept then AcceptSuggestionWord else CursorWordRight)
      else if accept then AcceptSuggestionFull
      else if has_completion x && cursor_at_end x then AcceptCompletion
      else CursorRight
  | KLeft => if m_ctrl m then CursorWordLeft else CursorLeft
  | KChar c => char_action c m x
  | KBackspace => if mods_eqb m none then Backspace else Unsupported
  | KTab | KBackTab => if mods_eqb m none then TriggerCompletion else Unsupported
  | KEnter => if mods_eqb m none then Execute else if mods_eqb m alt then ExecuteBackground else Unsupported
  | KEsc => if mods_eqb m none then (if has_completion x || has_suggestion x then CancelCompletion else ToggleSudo) else Unsupported
  | KOtherKey => Unsupported
  end.

(** ** Suggestions *)

(** repl/completion.rs l.168-192 next_word_chunk on a non-empty suffix: the position at which
    the loop stops, counted in characters *)
Fixpoint chunk_end (in_word : bool) (s : str) : nat * bool :=
  match s with
  | [] => (0, in_word)
  | c :: r =>
      if is_whitespace c then
        (if in_word then (1, true) else let '(n, w) := chunk_end false r in (S n, w))
      else let '(n, w) := chunk_end true r in (S n, w)
  end.
Definition next_word_chunk (suffix : str) : str :=
  let '(n, w) := chunk_end false suffix in if w then firstn n suffix else suffix.

(** repl/suggestion_manager.rs l.3-8: [active], [candidates], [index].  A suggestion is its
    [full] text and its source (a number) *)
Definition suggestion := (str * nat)%type.
Record mgr := Mgr { active : option suggestion; cands : list suggestion; sindex : nat }.
(** l.24-28 clear *)
Definition mgr_clear : mgr := Mgr None [] 0.
(** l.30-47 rotate; the sum is signed, remainders truncate towards zero *)
Definition rotate (m : mgr) (step : Z) : mgr * bool :=
  let len := length (cands m) in
  if len <=? 1 then (m, false)
  else
    let next := Z.rem (Z.of_nat (sindex m) + step) (Z.of_nat len) in
    let next := if (next <? 0)%Z then (next + Z.of_nat len)%Z else next in
    if Z.to_nat next =? sindex m then (m, false)
    else (Mgr (nth_error (cands m) (Z.to_nat next)) (cands m) (Z.to_nat next), true).
Definition sugg_eqb (a b : suggestion) : bool := str_eqb (fst a) (fst b) && (snd a =? snd b).
(** Vec::dedup_by: drops an element equal to the one kept before it *)
Fixpoint dedup (prev : option suggestion) (l : list suggestion) : list suggestion :=
  match l with
  | [] => []
  | x :: r =>
      match prev with
      | Some p => if sugg_eqb x p then dedup prev r else x :: dedup (Some x) r
      | None => x :: dedup (Some x) r
      end
  end.
Fixpoint suggs_eqb (a b : list suggestion) : bool :=
  match a, b with
  | [], [] => true
  | x :: a', y :: b' => sugg_eqb x y && suggs_eqb a' b'
  | _, _ => false
  end.
(** l.49-66 update_candidates *)
Definition update_candidates (m : mgr) (l : list suggestion) : mgr :=
  match dedup None l with
  | [] => mgr_clear
  | c => if suggs_eqb c (cands m) then Mgr (nth_error (cands m) (sindex m)) (cands m) (sindex m)
         else Mgr (nth_error c 0) c 0
  end.
(** text.starts_with(prefix) then text[prefix.len()..] *)
Fixpoint strip (prefix text : str) : option str :=
  match prefix, text with
  | [], t => Some t
  | p :: prefix', c :: t => if (p =? c)%N then strip prefix' t else None
  | _ :: _, [] => None
  end.
(** l.68-74 suffix: the grey text drawn behind the line *)
Definition ghost (m : mgr) (input : str) : option str :=
  match active m with
  | None => None
  | Some (full, _) => match strip input full with Some (c :: r) => Some (c :: r) | _ => None end
  end.

(** ** Completion shown behind the line *)
(** a word of the line: is it a command name, its text, where it starts and ends (bytes), is the
    cursor in it *)
Record lword := LWord { w_cmd : bool; w_text : str; w_start : nat; w_end : nat; w_current : bool }.
(** parser/ast.rs l.247-304 get_span; [line] turns character positions into byte positions *)
Section Words.
Import Peg_Model Grammar_Model Parse_Model.
Variable line : str.
Definition byte_at (i : nat) : nat := blen (firstn i line).
Fixpoint get_span (pos : nat) (p : pair_) : option (str * nat * nat * bool) :=
  match p with
  | Node r s t inner =>
      match r with
      | span | s_quoted | d_quoted | argv0 | args | proc_subst | subshell | simple_command | simple_command_bg | command | commands =>
          (fix go l := match l with [] => None | q :: l' => match get_span pos q with Some x => Some x | None => go l' end end) inner
      | word | glob_word | variable | literal_s_quoted | literal_d_quoted | proc_subst_direction
      | stdout_redirect_direction | stderr_redirect_direction | stdouterr_redirect_direction =>
          let a := byte_at s in let b := byte_at (s + length t) in
          Some (t, a, b, (a <? pos) && (pos <=? b))
      | _ => None
      end
  end.
Definition words_under (cmd : bool) (pos : nat) (p : pair_) : list lword :=
  flat_map (fun q => flat_map (fun x => match get_span pos x with
                                        | Some (t, a, b, cur) => [LWord cmd t a b cur] | None => [] end) (inner_of q)) (inner_of p).
(** parser/ast.rs l.177-245 to_words *)
Fixpoint to_words (pos : nat) (p : pair_) : list lword :=
  match p with
  | Node r s t inner =>
      match r with
      | argv0 => words_under true pos p
      | args => words_under false pos p
      | _ =>
          (fix go l := match l with
                       | [] => []
                       | q :: l' =>
                           match q with
                           | Node rq _ _ innerq =>
                               (match rq with
                                | simple_command | simple_command_bg =>
                                    (fix go2 k := match k with [] => [] | x :: k' => to_words pos x ++ go2 k' end) innerq
                                | argv0 => words_under true pos q
                                | args => words_under false pos q
                                | commands | command => to_words pos q
                                | _ => []
                                end) ++ go l'
                           end
                       end) inner
      end
  end.
(** parser/ast.rs l.158-176 get_words, get_words_from_pairs (commands and command at the top);
    [pos] is the cursor, counted in characters (editor.rs l.586-592) *)
Definition get_words (pos : nat) : option (list lword) :=
  match parse line with
  | Ok ps _ _ => Some (flat_map (fun p => flat_map (to_words pos) (inner_of p)) ps)
  | _ => None
  end.

(** parser/ast.rs l.140-156 search_inner_word *)
Definition search_inner_word (pos : nat) (p : pair_) : option str :=
  let hit q := let a := byte_at (start_of q) in let b := byte_at (end_of q) in (a <? pos) && (pos <=? b) in
  match rule_of p with
  | s_quoted | d_quoted => match find hit (inner_of p) with Some q => Some (text_of q) | None => None end
  | word | glob_word | variable => if hit p then Some (text_of p) else None
  | _ => None
  end.
(** parser/ast.rs l.76-138 search_pos_word: the first hit in the order of the tree *)
Fixpoint search_pos_word (pos : nat) (p : pair_) : option str :=
  match p with
  | Node r s t inner =>
      match r with
      | commands | command | simple_command | simple_command_bg | span | proc_subst | subshell =>
          (fix go l := match l with [] => None | q :: l' => match search_pos_word pos q with Some x => Some x | None => go l' end end) inner
      | argv0 | args =>
          (fix go l := match l with
                       | [] => None
                       | q :: l' =>
                           match q with
                           | Node _ _ _ innerq =>
                               match (fix go2 k := match k with
                                                   | [] => None
                                                   | x :: k' =>
                                                       match (match rule_of x with proc_subst | subshell => search_pos_word pos x | _ => search_inner_word pos x end) with
                                                       | Some y => Some y
                                                       | None => go2 k'
                                                       end
                                                   end) innerq with
                               | Some y => Some y
                               | None => go l'
                               end
                           end
                       end) inner
      | _ => None
      end
  end.
(** parser/ast.rs l.57-74 get_pos_word; [pos] is the cursor, counted in characters *)
Definition get_pos_word (pos : nat) : option str :=
  match peg gram (fuel line) (Nt command) 0 line with
  | Ok (Node command _ _ inner :: _) _ _ =>
      (fix go l := match l with [] => None | q :: l' => match search_pos_word pos q with Some x => Some x | None => go l' end end) inner
  | _ => None
  end.
End Words.
(** key_handlers/completion.rs l.99-103, l.218-236: the word taken as the query of the fallback
    completion, and what choosing [text] does.  When the parser finds no word, the token at the
    cursor is taken; that case is not modelled ([None]) *)
Definition fallback_choice (line : str) (pos : nat) (text : str) : option (nat * str) :=
  match get_pos_word line pos with Some q => Some (length q, text) | None => None end.

(** repl/input_analysis.rs l.47-98: the completion of the line ([completion_full]) and the text
    drawn behind it ([completion]); [names] is Environment::search_prefix and [paths] is
    complete_path_for_span *)
Section Analysis.
Variable names : str -> option str.
Variable paths : lword -> option (str * str). (* suffix, full *)
Fixpoint analyze_words (input : str) (l : list lword) : option str * option str :=
  match l with
  | [] => (None, None)
  | w :: l' =>
      match w_text w with
      | [] => analyze_words input l'
      | _ =>
          if w_current w then
            match (if w_cmd w then names (w_text w) else None) with
            | Some file => (Some file, strip input file)
            | None => match paths w with
                      | Some (suffix, full) => (Some full, Some suffix)
                      | None => analyze_words input l'
                      end
            end
          else analyze_words input l'
      end
  end.
Definition analyze_input (input : str) (pos : nat) (completion : option str) : option str * option str :=
  match input with
  | c :: _ => if is_char "!" c then (None, None)
              else match completion with
                   | Some x => (None, Some x)
                   | None => match get_words input pos with
                             | Some l => analyze_words input l
                             | None => (None, None)
                             end
                   end
  | [] => match completion with Some x => (None, Some x) | None => (None, None) end
  end.
End Analysis.

(** ** The state of the prompt and the answers of the world *)
Record rs := Rs {
  input : ed;                       (* Repl::input *)
  comp : option str;                (* Repl::input.completion *)
  mgr_ : mgr;                       (* Repl::suggestion_manager *)
  autofix : option str;             (* Repl::auto_fix_suggestion *)
  buffer : str;                     (* Repl::multiline_buffer *)
  auto_pair : bool;                 (* input_preferences.auto_pair *)
  abbrs : list (str * str);         (* environment.abbreviations *)
  ctrl_x : bool                     (* Repl::ctrl_x_pressed *)
}.
Definition set_input r x := Rs x (comp r) (mgr_ r) (autofix r) (buffer r) (auto_pair r) (abbrs r) (ctrl_x r).
Definition set_comp r x := Rs (input r) x (mgr_ r) (autofix r) (buffer r) (auto_pair r) (abbrs r) (ctrl_x r).
Definition set_mgr r x := Rs (input r) (comp r) x (autofix r) (buffer r) (auto_pair r) (abbrs r) (ctrl_x r).
Definition set_autofix r x := Rs (input r) (comp r) (mgr_ r) x (buffer r) (auto_pair r) (abbrs r) (ctrl_x r).
Definition set_buffer r x := Rs (input r) (comp r) (mgr_ r) (autofix r) x (auto_pair r) (abbrs r) (ctrl_x r).
Definition set_ctrl_x r x := Rs (input r) (comp r) (mgr_ r) (autofix r) (buffer r) (auto_pair r) (abbrs r) x.

(** what the completion menu did on Tab: key_handlers/completion.rs l.63-257 *)
Inductive tab_result :=
| TabReset (line : str)                    (* smart pipe, generative command, history candidate *)
| TabRange (start stop : nat) (text : str) (* candidate with a replacement range *)
| TabPatch (count : nat) (text : str)      (* candidate without one: [count] characters are erased *)
| TabNone.                                 (* nothing chosen *)
Record world := World {
  history_hit : option str;                (* get_completion_from_history: the entry found *)
  names_ : str -> option str;
  paths_ : lword -> option (str * str);
  suggested : list suggestion;             (* the candidates of refresh_inline_suggestion *)
  tab : tab_result;
  clipboard : option str;
  recalled : option str;                   (* the line that history navigation, the palette or an editor puts in place *)
  esc_twice : bool                         (* the second Esc within the time limit *)
}.

(** what is started *)
Inductive started :=
| ShellLine (text : str) (background : bool)  (* Shell::eval_str: checked by the safety guard, recorded *)
| RawSh (command query : str)                 (* sh -c command, then its output and the query to the AI service *)
| OpenEditorOn (text : str).

Section Keys.
Variable cw : char -> nat.

(** repl/render.rs l.212-256: what drawing the line stores.  [reset_] is [reset_completion].
    Simplified: when the text is the one analysed last, the code reuses that analysis *)
Definition redraw (w : world) (reset_ : bool) (r : rs) : rs :=
  let t := text (input r) in
  let '(r1, shown) :=
    if (match t with [] => true | _ => false end) || reset_ then (set_comp r None, None)
    else
      let '(r1, h) := match history_hit w with
                      | Some entry => (set_comp r (Some entry), strip t entry)
                      | None => (r, None)
                      end in
      let '(full, suffix) := analyze_input (names_ w) (paths_ w) t (cur (input r)) h in
      (match full with Some c => set_comp r1 (Some c) | None => r1 end,
       match suffix with Some s => Some s | None => h end) in
  match shown with
  | Some _ => set_mgr r1 mgr_clear
  | None => match comp r1 with  (* repl_ai.rs l.70-75, l.120 *)
            | Some _ => set_mgr r1 mgr_clear
            | None => set_mgr r1 (update_candidates (mgr_ r1) (suggested w))
            end
  end.
(** the grey text the user sees behind the line after [redraw]: render.rs l.265-270, l.322 *)
Definition shown_suffix (w : world) (reset_ : bool) (r : rs) : option str :=
  let t := text (input r) in
  if (match t with [] => true | _ => false end) || reset_ then ghost (mgr_ (redraw w reset_ r)) t
  else
    let h := match history_hit w with Some entry => strip t entry | None => None end in
    match snd (analyze_input (names_ w) (paths_ w) t (cur (input r)) h) with
    | Some s => Some s
    | None => match h with Some s => Some s | None => ghost (mgr_ (redraw w reset_ r)) t end
    end.

(** repl/mod.rs l.559-591 accept_suggestion *)
Definition accept_suggestion (word : bool) (r : rs) : option (rs * bool) :=
  match active (mgr_ r) with
  | None => Some (r, false)
  | Some (full, _) =>
      match strip (text (input r)) full with
      | None | Some [] => Some (r, false)
      | Some suffix =>
          let chunk := if word then next_word_chunk suffix else suffix in
          match insert_str cw (input r) chunk with
          | None => None
          | Some e => Some (if word then set_input r e else set_mgr (set_input r e) mgr_clear, true)
          end
      end
  end.

Definition look (l : list (str * str)) (k : str) : option str :=
  option_map snd (find (fun p => str_eqb (fst p) k) l).
(** handler.rs l.183-190, execution.rs l.57-64 *)
Definition expand_abbr (r : rs) : option (rs * bool) :=
  match get_current_word_for_abbr (input r) with
  | None => None
  | Some None => Some (r, false)
  | Some (Some w) =>
      match look (abbrs r) w with
      | None => Some (r, false)
      | Some x => match replace_current_word cw (input r) x with
                  | None => None
                  | Some (e, b) => Some (set_input r e, b)
                  end
      end
  end.

(** text.replace("\r\n", "\n").replace('\r', "\n"): editing.rs l.82 *)
Fixpoint replace_crlf (s : str) : str :=
  match s with
  | 13%N :: ((10%N :: _) as r) => replace_crlf r
  | c :: r => c :: replace_crlf r
  | [] => []
  end.
Definition normalize_newlines (s : str) : str := map (fun c => if (c =? 13)%N then 10%N else c) (replace_crlf s).

(** editing.rs l.18-36 *)
Definition pairs : list (char * char) := [(40, 41); (123, 125); (91, 93); (39, 39); (34, 34)]%N.
Definition handle_backspace (r : rs) : option rs :=
  let e := input r in
  let e1 :=
    if auto_pair r && (0 <? cur e) && (cur e <? len e) then
      match char_at e (cur e - 1), char_at e (cur e) with
      | Some (Some p), Some (Some n) =>
          if existsb (fun q => (fst q =? p)%N && (snd q =? n)%N) pairs then delete_char cw e else Some e
      | Some _, Some _ => Some e
      | _, _ => None
      end
    else Some e in
  match e1 with
  | None => None
  | Some e1 => match backspace cw e1 with Some e2 => Some (set_input r e2) | None => None end
  end.

(** str::rfind of a pattern: the text before and behind the last occurrence *)
Fixpoint rsplit (p s : str) : option (str * str) :=
  match s with
  | [] => None
  | c :: r => match rsplit p r with
              | Some (a, b) => Some (c :: a, b)
              | None => match strip p s with Some b => Some ([], b) | None => None end
              end
  end.
Definition ends_with_char (c : char) (s : str) : bool := match rev s with x :: _ => (x =? c)%N | [] => false end.
Definition starts_with_char (c : char) (s : str) : bool := match s with x :: _ => (x =? c)%N | [] => false end.
(** repl/mod.rs l.1229-1250 detect_ai_pipe *)
Definition detect_ai_pipe (t : str) : option (str * str) :=
  match rsplit (lit "|!") t with
  | None => None
  | Some (a, b) =>
      let command := trim a in
      let part := trim b in
      let query :=
        if ((starts_with_char 34%N part && ends_with_char 34%N part) || (starts_with_char 39%N part && ends_with_char 39%N part)) && (1 <? length part)
        then removelast (tl part) else part in
      match command, query with
      | _ :: _, _ :: _ => Some (command, query)
      | _, _ => None
      end
  end.

(** key_handlers/execution.rs l.15-234 handle_execute *)
Definition handle_execute (r : rs) : option (rs * option started) :=
  match enter (buffer r) (text (input r)) with
  | Wait b => Some (set_mgr (set_input (set_buffer r b) (clear (input r))) mgr_clear, None)
  | Run combined =>
      let r1 := match buffer r with
                | [] => r
                | _ => set_buffer (set_input r (reset cw (input r) combined)) []
                end in
      match detect_ai_pipe (text (input r1)) with
      | Some (command, query) => Some (set_input r1 (clear (input r1)), Some (RawSh command query))
      | None =>
          match expand_abbr r1 with
          | None => None
          | Some (r2, _) =>
              let r3 := set_comp r2 None in
              match text (input r3) with
              | [] => Some (r3, None)
              | t => Some (set_mgr (set_input r3 (clear (input r3))) mgr_clear, Some (ShellLine t false))
              end
          end
      end
  end.
(** execution.rs l.238-305 handle_execute_background *)
Definition handle_execute_background (r : rs) : rs * option started :=
  let r1 := set_comp r None in
  match text (input r1) with
  | [] => (r1, None)
  | t => (set_mgr (set_input r1 (clear (input r1))) mgr_clear, Some (ShellLine t true))
  end.

(** handler.rs l.115-127 *)
Definition context (r : rs) : option kctx :=
  let e := input r in
  match char_at e (cur e) with
  | None => None
  | Some n => Some (KCtx (cur e =? len e)
                         (match active (mgr_ r) with Some _ => true | None => match text e, autofix r with [], Some _ => true | _, _ => false end end)
                         (match comp r with Some _ => true | None => false end) n (auto_pair r))
  end.

(** what remains to do after the action: nothing, draw, or run the line *)
Inductive next := Done | Draw (reset_ : bool) | RunLine.
Definition edited (r : rs) (e : option ed) (n : next) : option (rs * next * option started) :=
  match e with Some e' => Some (set_input r e', n, None) | None => None end.
(** key_handlers/completion.rs l.63-272 *)
Definition handle_tab (w : world) (r : rs) : option (rs * next * option started) :=
  match tab w with
  | TabReset line => Some (set_input r (reset cw (input r) line), Draw true, None)
  | TabRange a b t => match replace_range_chars cw (input r) a b t with Some (e, _) => Some (set_input r e, Draw true, None) | None => None end
  | TabPatch n t => match backspacen cw n (input r) with
                    | Some e => edited r (insert_str cw e t) (Draw true)
                    | None => None
                    end
  | TabNone => match accept_suggestion true r with Some (r', _) => Some (r', Draw true, None) | None => None end
  end.
(** input_analysis.rs l.250-261 *)
Definition toggle_sudo (r : rs) : rs :=
  let t := text (input r) in
  set_input r (reset cw (input r) (match strip (lit "sudo ") t with Some x => x | None => lit "sudo " ++ t end)).
(** handler.rs l.133-287.  The AI keys, the palette, macros and history search do not change
    the line here, except through [recalled] *)
Definition apply_action (w : world) (a : action) (r : rs) : option (rs * next * option started) :=
  let e := input r in
  match a with
  | CursorToBegin => Some (set_input r (move_to_begin e), Done, None)
  | CursorToEnd => Some (set_input r (move_to_end e), Done, None)
  | CursorLeft => if 0 <? cur e then Some (set_comp (set_input r (move_by e (-1))) None, Done, None) else Some (r, Done, None)
  | CursorRight => if cur e <? len e then Some (set_input r (move_by e 1), Done, None) else Some (r, Done, None)
  | CursorWordLeft => edited r (move_word_left e) Done
  | CursorWordRight => Some (set_input r (move_word_right e), Done, None)
  | InsertChar c => edited r (insert cw e c) (Draw false)
  | InsertPairedChar o c =>
      match insert cw e o with
      | Some e1 => match insert cw e1 c with Some e2 => Some (set_input r (move_by e2 (-1)), Draw false, None) | None => None end
      | None => None
      end
  | OvertypeClosingBracket _ => Some (set_input r (move_by e 1), Done, None)
  | ExpandAbbreviationAndInsertSpace =>
      match expand_abbr r with
      | Some (r1, b) => edited r1 (insert cw (input r1) 32%N) (Draw b)
      | None => None
      end
  | Backspace => match handle_backspace r with Some r' => Some (r', Draw true, None) | None => None end
  | DeleteWordBackward => edited r (delete_word_backward cw e) (Draw true)
  | DeleteToEnd => edited r (delete_to_end cw e) (Draw true)
  | DeleteToBeginning => edited r (delete_to_beginning cw e) (Draw true)
  | HistoryPrevious | HistoryNext =>
      Some (match recalled w with Some t => set_input r (reset cw e t) | None => r end, Draw false, None)
  | HistorySearch | OpenCommandPalette =>
      Some (match recalled w with Some t => set_comp (set_input r (reset cw e t)) None | None => r end, Done, None)
  | TriggerCompletion => handle_tab w r
  | AcceptCompletion =>
      Some (match comp r with Some c => set_comp (set_input r (reset cw e c)) None | None => r end, Draw false, None)
  | AcceptSuggestionFull =>
      match text e, autofix r with
      | [], Some fix_ => Some (set_autofix (set_input r (reset cw e fix_)) None, Draw true, None)
      | _, _ => match accept_suggestion false r with Some (r', b) => Some (r', Draw b, None) | None => None end
      end
  | AcceptSuggestionWord => match accept_suggestion true r with Some (r', b) => Some (r', Draw b, None) | None => None end
  | RotateSuggestionForward => Some (set_mgr r (fst (rotate (mgr_ r) 1)), Draw false, None)
  | RotateSuggestionBackward => Some (set_mgr r (fst (rotate (mgr_ r) (-1))), Draw false, None)
  | CancelCompletion => Some (set_mgr r mgr_clear, Draw true, None)
  | PasteClipboard => match clipboard w with
                      | Some t => edited r (insert_str cw e (normalize_newlines t)) (Draw false)
                      | None => Some (r, Draw false, None)
                      end
  | ToggleSudo => Some (if esc_twice w then toggle_sudo r else r, if esc_twice w then Draw true else Done, None)
  | ClearScreen => Some (set_mgr (set_input r (clear e)) mgr_clear, Done, None)
  | Interrupt => Some (set_mgr (set_buffer (set_input r (clear e)) []) mgr_clear, Done, None)
  | Execute => Some (r, RunLine, None)
  | ExecuteBackground => let '(r', s) := handle_execute_background r in Some (r', Done, s)
  | AiSmartCommit => Some (set_input r (reset cw e (lit "aic")), RunLine, None)
  | AiDiagnose => Some (r, Done, None)
  | AiAutoFix | ForceAiSuggestion | AiExplainCommand | MacroRecord | Unsupported => Some (r, Draw false, None)
  end.
(** handler.rs l.65-332 handle_key_event and repl/mod.rs l.962-980 *)
Definition press (r : rs) (kw : key * world) : option (rs * option started) :=
  let '(k, w) := kw in
  let is_ctrl c := match k_code k with KChar x => is_char c x && mods_eqb (k_mods k) ctrl | _ => false end in
  if is_ctrl "x"%char then Some (set_ctrl_x r true, None)
  else if ctrl_x r && is_ctrl "e"%char then
    let r := set_ctrl_x r false in
    Some (match recalled w with Some t => set_input r (reset cw (input r) t) | None => r end, Some (OpenEditorOn (text (input r))))
  else
    let r := set_ctrl_x r false in
    match context r with
    | None => None
    | Some x =>
        match apply_action w (determine_key_action k x) r with
        | None => None
        | Some (r', Done, s) => Some (r', s)
        | Some (r', Draw b, s) => Some (redraw w b r', s)
        | Some (r', RunLine, _) => handle_execute r'
        end
    end.
(** handler.rs l.40-50, editing.rs l.80-95: a bracketed paste *)
Definition paste (r : rs) (t : str) (w : world) : option rs :=
  match insert_str cw (input r) (normalize_newlines t) with
  | Some e => Some (redraw w true (set_input r e))
  | None => None
  end.
Fixpoint presses (r : rs) (l : list (key * world)) : option (rs * list started) :=
  match l with
  | [] => Some (r, [])
  | k :: l' => match press r k with
               | None => None
               | Some (r', s) => match presses r' l' with
                                 | None => None
                                 | Some (r'', ss) => Some (r'', match s with Some x => x :: ss | None => ss end)
                                 end
               end
  end.
End Keys.
