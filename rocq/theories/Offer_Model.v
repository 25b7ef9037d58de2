(** Commands offered by the language model, and what the Enter key does with the line. *)
From Verif Require Import Base Safety_Model Suggest_Model.
From Verif Require Check_Model Editor_Model.

(** dsh/src/ai_features/mod.rs l.42-51 sanitize_code_block *)
Definition strip_prefix (p s : str) : option str := if starts_with p s then Some (skipn (length p) s) else None.
Definition sanitize_code_block (content : str) : str :=
  let content := trim_any [96%N] content in
  match strip_prefix (lit "bash" ++ [10%N]) content with
  | Some s => s
  | None => match strip_prefix (lit "json" ++ [10%N]) content with Some s => s | None => content end
  end.

(** dsh/src/ai_features/command.rs l.15-80 expand_smart_pipe, l.85-150 run_generative_command
    and fix_command, after the model has answered [content]; [read] is
    serde_json::from_str::<AiCommandResponse>.  None: an error, nothing is offered.  The safety
    components are those of the live service, service.rs l.110-120, which are always there. *)
Definition offered (read : str -> option (str * list str)) (lv : level) (allow : list str) (content : str) : option str :=
  match read (sanitize_code_block content) with
  | None => None
  | Some (command, args) =>
      match check_command lv command args allow with
      | Allowed => Some (join_with (lit " ") (command :: args))
      | _ => None
      end
  end.

(** str::rfind for a pattern of two characters: what stands before and after *)
Fixpoint cut_last (a b : char) (s : str) : option (str * str) :=
  match s with
  | [] => None
  | c :: r => match cut_last a b r with
              | Some (u, v) => Some (c :: u, v)
              | None => match r with
                        | d :: v => if (c =? a)%N && (d =? b)%N then Some ([], v) else None
                        | [] => None
                        end
              end
  end.
Definition bar : char := 124%N.
Definition question : char := 63%N.
Definition bang : char := 33%N.

(** dsh/src/repl/mod.rs l.1206-1215 detect_smart_pipe *)
Definition detect_smart_pipe (input : str) : option str :=
  match cut_last bar question input with
  | Some (_, q) => match trim q with [] => None | t => Some t end
  | None => None
  end.
(** l.1217-1226 detect_generative_command *)
Definition detect_generative_command (input : str) : option str :=
  match strip_prefix (lit "??") (trim_start input) with
  | Some q => match trim q with [] => None | t => Some t end
  | None => None
  end.
(** l.1230-1251 detect_ai_pipe *)
Definition unquote (q : str) : str :=
  if ((starts_with [34%N] q && ends_with [34%N] q) || (starts_with [39%N] q && ends_with [39%N] q)) && (1 <? blen q)
  then removelast (tl q) else q.
Definition detect_ai_pipe (input : str) : option (str * str) :=
  match cut_last bar bang input with
  | Some (c, q) =>
      let command := trim c in
      let query := unquote (trim q) in
      match command, query with [], _ | _, [] => None | _, _ => Some (command, query) end
  | None => None
  end.

(** key_handlers/completion.rs l.62-98 handle_trigger_completion, the part for |? and ??:
    [ask_pipe] and [ask_command] are expand_smart_pipe and run_generative_command for a query,
    None when they fail.  Some: the line is replaced and nothing else is done; None: ordinary
    completion follows. *)
Definition trigger (ask_pipe ask_command : str -> option str) (input : str) : option str :=
  let generate :=
    match detect_generative_command input with
    | Some q => ask_command q
    | None => None
    end in
  match detect_smart_pipe input with
  | Some q => match ask_pipe q with
              | Some expanded => match cut_last bar question input with
                                 | Some (prefix, _) => Some (prefix ++ lit "| " ++ expanded)
                                 | None => generate
                                 end
              | None => generate
              end
  | None => generate
  end.

(** key_handlers/execution.rs l.15-100 handle_execute, up to the call of eval_str.
    [Waits b]: the buffer of unfinished lines is now [b].  [Shelled c q]: [c] is given to
    /bin/sh, and its output with the query [q] to the model (run_ai_pipe, repl/mod.rs l.1254-1330,
    whose first act is Command::new("sh").arg("-c").arg(c)).  [Evals t]: Shell::eval_str is called
    with [t].  The outer option is None when slicing the line would panic. *)
Inductive deed := Waits (buffer : str) | Shelled (command query : str) | Evals (text : str) | Nothing.
Fixpoint assoc (k : str) (l : list (str * str)) : option str :=
  match l with (a, b) :: r => if str_eqb a k then Some b else assoc k r | [] => None end.
Definition evals (t : str) : deed := match t with [] => Nothing | _ => Evals t end.
Definition press_enter (cw : char -> nat) (abbreviations : list (str * str)) (buffer : str) (e : Editor_Model.ed) : option deed :=
  match Check_Model.enter buffer (Editor_Model.as_str e) with
  | Check_Model.Wait b => Some (Waits b)
  | Check_Model.Run t =>
      let e1 := match buffer with [] => e | _ => Editor_Model.reset cw e t end in
      match detect_ai_pipe (Editor_Model.as_str e1) with
      | Some (c, q) => Some (Shelled c q)
      | None =>
          match Editor_Model.get_current_word_for_abbr e1 with
          | None => None
          | Some None => Some (evals (Editor_Model.as_str e1))
          | Some (Some w) =>
              match assoc w abbreviations with
              | None => Some (evals (Editor_Model.as_str e1))
              | Some x => match Editor_Model.replace_current_word cw e1 x with
                          | Some (e2, _) => Some (evals (Editor_Model.as_str e2))
                          | None => None
                          end
              end
          end
      end
  end.
