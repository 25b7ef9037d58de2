(** Alt+D, the diagnosis of the last command: dsh/src/repl/key_handlers/ai.rs l.55-179,
    dsh/src/ai_features/analysis.rs l.148-213, dsh/src/ai_features/ui.rs, and what is captured of a command:
    dsh/src/process/job_pty.rs l.165-213.

    The service, its fixed instructions and the removal of escape sequences are parameters.  Messages are roles
    and texts; drawing is left out. *)
From Verif Require Import Base.
From Verif Require Safety_Model Direnv_Model Lread_Model.

(** ** ui.rs l.163-197 extract_command *)

Definition fence (line : str) : bool :=
  let t := trim line in starts_with (lit "```bash") t || starts_with (lit "```sh") t || str_eqb t (lit "```").
Fixpoint collect (ls : list str) (in_block : bool) (command : str) : str :=
  match ls with
  | [] => command
  | l :: r =>
      if fence l then (if in_block then command else collect r true command)
      else if in_block then collect r true ((match command with [] => [] | _ => command ++ [10%N] end) ++ l)
      else collect r false command
  end.
Definition extract_command (text : str) : option str :=
  match collect (Direnv_Model.lines text) false [] with [] => None | c => Some (trim c) end.

(** ** ui.rs l.58-161 AiChatUi::run *)

Inductive code := Enter | Backspace | Esc | Char (c : char) | Other.
(** KeyEvent with its kind and the two modifiers that matter *)
Record key := Key { what : code; ctrl : bool; alt : bool; pressed : bool }.
Inductive outcome := Apply (c : str) | Ask (q : str) | Quit.
(** l.114-157: one event, when [shown] is the answer shown and [buf] what was written *)
Definition ui_key (shown buf : str) (k : key) : option outcome * str :=
  let apply := (option_map Apply (extract_command shown), buf) in
  if pressed k then
    match what k with
    | Enter => (if str_eqb (trim buf) [] then None else Some (Ask buf), buf)
    | Backspace => (None, removelast buf)
    | Char c =>
        if (c =? chr "y")%N && ctrl k then apply
        else if (c =? chr "a")%N && alt k then apply
        else if (c =? chr "c")%N && ctrl k then (Some Quit, buf)
        else if negb (ctrl k) && negb (alt k) then (None, buf ++ [c])
        else (None, buf)
    | Esc => (Some Quit, buf)
    | Other => (None, buf)
    end
  else (None, buf).
(** the outcome and the events left; None: it waits for more *)
Fixpoint ui (shown buf : str) (keys : list key) : option (outcome * list key) :=
  match keys with
  | [] => None
  | k :: r => match ui_key shown buf k with (Some o, _) => Some (o, r) | (None, buf') => ui shown buf' r end
  end.

(** ** analysis.rs and ai.rs *)
Inductive role := System | User | Assistant.
Definition message : Type := role * str.
Inductive ending := Ended (line : option str) | Waiting | Crashed.

Section Service.
Variable instructions : str.
Variable send : list message -> option str.

(** analysis.rs l.154-177; None: the shell is stopped at an offset inside a character *)
Definition query (command output : str) (status : Z) : option str :=
  match Safety_Model.sanitize_ai_input command 1000, Safety_Model.sanitize_ai_input output 2000 with
  | Some c, Some o =>
      match (if 4000 <? blen o then option_map (fun p => fst p ++ lit "...(truncated)") (split_byte o 4000) else Some o) with
      | Some t => Some (lit "Command: `" ++ c ++ lit "`" ++ [10%N] ++ lit "Exit code: " ++ Lread_Model.show_int status ++ [10%N] ++
                        lit "Output:" ++ [10%N] ++ lit "```" ++ [10%N] ++ t ++ [10%N] ++ lit "```")
      | None => None
      end
  | _, _ => None
  end.
(** ai.rs l.110-154 and analysis.rs l.190-213: the requests sent and how it ends *)
Fixpoint dialog (fuel : nat) (shown : str) (history : list message) (keys : list key) : list (list message) * ending :=
  match fuel with
  | 0 => ([], Waiting)
  | S fuel' =>
      match ui shown [] keys with
      | None => ([], Waiting)
      | Some (Quit, _) => ([], Ended None)
      | Some (Apply c, _) => ([], Ended (Some c))
      | Some (Ask q, rest) =>
          match Safety_Model.sanitize_ai_input q 1000 with
          | None => ([], Crashed)
          | Some q' =>
              let h := history ++ [(User, q')] in
              match send h with
              | None => ([h], Ended None)
              | Some a => let (rs, e) := dialog fuel' a (h ++ [(Assistant, a)]) rest in (h :: rs, e)
              end
          end
      end
  end.
(** ai.rs l.55-179; [raw]: whether the terminal is in raw mode afterwards, as it was before: the guard of the dialog
    (ui.rs l.23-31) leaves raw mode and nothing enters it again *)
Record result := Result { sent : list (list message); ending_of : ending; raw : bool }.
Definition diagnose (configured : bool) (status : Z) (command output : str) (keys : list key) : result :=
  if negb configured || (status =? 0)%Z then Result [] (Ended None) true
  else match query command output status with
       | None => Result [] Crashed true
       | Some q =>
           let h := [(System, instructions); (User, q)] in
           match send h with
           | None => Result [h] (Ended None) true
           | Some a => let (rs, e) := dialog (S (length keys)) a (h ++ [(Assistant, a)]) keys in Result (h :: rs) e false
           end
       end.
End Service.

(** ** job_pty.rs: what is captured *)

(** a command of the session: its line, what it wrote to its two outputs, the order in which both appeared, and
    whether it ran on a terminal of its own (l.49-51: every foreground command of an interactive shell,
    unless this is switched off) *)
Record ran := Ran { line_of : str; status_of : Z; out : str; err : str; screen : str; on_terminal : bool }.
Section Capture.
Variable strip : str -> str.
(** l.165-213: the entry of the history, its two texts; the cut of long entries is modelled in Output_Model *)
Definition captured (r : ran) : option (str * str) :=
  let '(o, e) := if on_terminal r then (screen r, []) else (out r, err r) in
  match o, e with [], [] => None | _, _ => Some (strip o, strip e) end.
(** output_history.get_stderr(1).unwrap_or_default() *)
Definition newest_err (rs : list ran) : str :=
  fold_left (fun acc r => match captured r with Some (_, e) => e | None => acc end) rs [].
(** Alt+D after the commands [rs] and [r] *)
Definition alt_d (instructions : str) (send : list message -> option str) (configured : bool) (rs : list ran) (r : ran) (keys : list key) : result :=
  diagnose instructions send configured (status_of r) (line_of r) (newest_err (rs ++ [r])) keys.
End Capture.
