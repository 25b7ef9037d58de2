(** A whole line, from its text to its effects: dsh/src/shell/eval.rs (eval_str), with
    dsh/src/shell/parse.rs as it is, that is with the substitutions of the line being run
    while the line is read.  Parse_Model has the same functions with substitutions as an
    oracle without effects; the loop over the jobs is Eval_Model.

    Left out: the history entry, [!] for the AI assistant, printing, the hooks called for an
    unknown command (the line then fails, as here), failures of pipe(2) and fork(2), and the
    terminal. *)
From Verif Require Import Base Safety_Model Peg_Model Grammar_Model Parse_Model.
From Verif Require Eval_Model Direnv_Model.

(** the result of a step that may fail, or never return *)
Inductive res (A : Type) := Got (a : A) | Bad | Stuck.
Arguments Got {A} a. Arguments Bad {A}. Arguments Stuck {A}.

Section Line.
Variable W : Type.
(** spawn_subshell and wait_pid_job (eval.rs l.521-581): the job runs in a child; its exit
    status, and what it wrote to the pipe *)
Variable spawn : W -> job -> W * (nat * str).
(** how many bytes a pipe holds *)
Variable capacity : nat.
(** the number of the descriptor a process substitution leaves open *)
Variable next_fd : W -> str.
Variable resolve : str -> found.

(** eval.rs l.521-535 launch_subshell: the jobs one after the other, each waited for; the
    operators between them and their statuses are not looked at.  Nobody reads the pipe
    before the last one has ended (parse.rs l.307-311), so a child that has to write more
    than the pipe holds never ends. *)
Fixpoint launch_subshell (w : W) (written : str) (js : list job) : W * res str :=
  match js with
  | [] => (w, Got written)
  | j :: rest =>
      let '(w', (status, out)) := spawn w j in
      if capacity <? blen (written ++ out) then (w', Stuck)
      else launch_subshell w' (written ++ out) rest
  end.
(** parse.rs l.558-570 read_fd: trim_end_matches of the newline.  The output is taken to be
    text (from_utf8_lossy is left out). *)
Fixpoint trim_newlines (s : str) : str :=
  match s with
  | [] => []
  | c :: r => match trim_newlines r with [] => if (c =? 10)%N then [] else [c] | t => c :: t end
  end.
(** parse.rs l.300-343: the words a substitution stands for *)
Definition words_of (w : W) (k : subshell_type) (out : str) : list str :=
  match k with
  | Subshell => Direnv_Model.lines (trim_newlines out)
  | CommandSubstitution => split_whitespace (trim_newlines out)
  | ProcessSubstitution => [lit "/dev/fd/" ++ next_fd w]
  | SubNone => []
  end.
Definition run_sub (w : W) (k : subshell_type) (js : list job) : W * res (list str) :=
  let '(w', r) := launch_subshell w [] js in
  (w', match r with Got out => Got (words_of w' k out) | Bad => Bad | Stuck => Stuck end).

(** loops and steps over a world *)
Definition bind {A B} (x : W * res A) (f : W -> A -> W * res B) : W * res B :=
  let '(w, r) := x in match r with Got a => f w a | Bad => (w, Bad) | Stuck => (w, Stuck) end.
Definition foldw {A B} (f : W -> B -> A -> W * res B) : list A -> W -> B -> W * res B :=
  fix go l w b := match l with [] => (w, Got b) | x :: r => bind (f w b x) (fun w b' => go r w b') end.

Section Rec.
Variable sub_commands : W -> pctx -> pair_ -> W * res (list job).

(** parse.rs l.60-114, l.166-225 *)
Definition parse_span_inner_w (c : pctx) (w : W) (acc : list parg) (q : pair_) : W * res (list parg) :=
  match rule_of q with
  | subshell =>
      foldw (fun w acc p => bind (sub_commands w (PCtx (fg c) true false) p)
                                 (fun w js => (w, Got (acc ++ [(text_of p, Some (Subshell, js))])))) (inner_of q) w acc
  | proc_subst =>
      foldw (fun w acc p => bind (sub_commands w (PCtx (fg c) false true) p)
                                 (fun w js => (w, Got (acc ++ [(text_of p, Some (ProcessSubstitution, js))])))) (inner_of q) w acc
  | command_subst =>
      foldw (fun w acc p => bind (sub_commands w (PCtx (fg c) true false) p)
                                 (fun w js => (w, Got (acc ++ [(text_of p, Some (CommandSubstitution, js))])))) (inner_of q) w acc
  | _ => (w, Got (acc ++ [(get_string q, None)]))
  end.
(** parse.rs l.47-238 parse_argv *)
Definition parse_argv1_w (c : pctx) (w : W) (st : job * list parg) (p : pair_) : W * res (job * list parg) :=
  let '(j, acc) := st in
  match rule_of p with
  | argv0 =>
      bind (foldw (fun w acc s => foldw (parse_span_inner_w c) (inner_of s) w acc) (inner_of p) w acc)
           (fun w acc' => (w, Got (j, acc')))
  | args =>
      foldw (fun w '(j, acc) s =>
        match rule_of s with
        | redirect => (w, Got (parse_redirect j (inner_of s), acc))
        | _ => bind (foldw (parse_span_inner_w c) (inner_of s) w acc) (fun w acc' => (w, Got (j, acc')))
        end) (inner_of p) w (j, acc)
  | _ => (w, Got (j, acc))
  end.
Definition parse_argv_w (c : pctx) (w : W) (j : job) (p : pair_) : W * res (job * list parg) :=
  foldw (fun w st q => match rule_of q with
                       | simple_command => foldw (parse_argv1_w c) (inner_of q) w st
                       | _ => parse_argv1_w c w st q
                       end) (inner_of p) w (j, []).

(** parse.rs l.289-352: the substitutions of a command are run, in order *)
Definition argv_of_w (w : W) (l : list parg) : W * res (list str) :=
  foldw (fun w acc '(t, s) =>
    match s with
    | None => (w, Got (acc ++ [t]))
    | Some (k, js) => match js with
                      | [] => (w, Got acc)
                      | _ => bind (run_sub w k js) (fun w ws => (w, Got (acc ++ ws)))
                      end
    end) l w [].
(** parse.rs l.353-438: the rest of parse_command, given the words *)
Definition finish_command (c : pctx) (j1 : job) (words : list str) : res job :=
  match words with
  | [] => Got j1
  | a0 :: rest =>
      let '(argv, j2) := match rest with
                         | _ :: _ => if str_eqb a0 (lit "nopty") then (rest, set_disable_pty j1 true) else (a0 :: rest, j1)
                         | [] => (a0 :: rest, j1)
                         end in
      let name := match argv with x :: _ => x | [] => [] end in
      match resolve name with
      | IsBuiltin => Got (set_procs j2 (procs j2 ++ [Builtin name argv]))
      | IsLisp => Got (set_procs j2 (procs j2 ++ [LispFn name argv]))
      | IsProgram path => Got (set_foreground (set_procs j2 (procs j2 ++ [Program path argv])) (fg c))
      | IsDir => Got (set_procs j2 (procs j2 ++ [Builtin name [lit "cd"; name]]))
      | IsUnknown => Bad
      end
  end.
(** parse.rs l.277-438 parse_command *)
Definition parse_command_w (c : pctx) (w : W) (j : job) (p : pair_) : W * res job :=
  bind (parse_argv_w c w j p) (fun w '(j1, pargs) =>
  bind (argv_of_w w pargs) (fun w words => (w, finish_command c j1 words))).

(** parse.rs l.440-556 parse_jobs *)
Definition parse_jobs1_w (text : str) (w : W) (st : pctx * list job) (p : pair_) : W * res (pctx * list job) :=
  let '(c, jobs) := st in
  match rule_of p with
  | simple_command =>
      bind (parse_command_w c w (new_job text) p)
           (fun w j => (w, Got (c, if has_process j then jobs ++ [mark c j] else jobs)))
  | simple_command_bg =>
      match find (fun q => rule_eqb (rule_of q) simple_command) (inner_of p) with
      | Some q =>
          bind (parse_command_w c w (new_job (text_of p)) q)
               (fun w j => (w, Got (c, if has_process j then jobs ++ [set_foreground (mark c j) false] else jobs)))
      | None => (w, Got (c, jobs))
      end
  | pipe_command =>
      let jobs := match jobs with [] => [mark c (new_job text)] | _ => jobs end in
      foldw (fun w '(c, jobs) q =>
        match rule_of q, last_of jobs with
        | simple_command, Some j =>
            bind (parse_command_w (PCtx true (in_subshell c) (in_proc_subst c)) w j q)
                 (fun w j' => (w, Got (PCtx true (in_subshell c) (in_proc_subst c), on_last (fun _ => j') jobs)))
        | simple_command_bg, Some j =>
            bind (parse_command_w (PCtx false (in_subshell c) (in_proc_subst c)) w j q)
                 (fun w j' => (w, Got (PCtx false (in_subshell c) (in_proc_subst c), on_last (fun _ => j') jobs)))
        | _, _ => (w, Got (c, jobs))
        end) (inner_of p) w (c, jobs)
  | capture_suffix => (w, Got (c, on_last (fun j => set_capture j true) jobs))
  | struct_pipe_command =>
      (w, Got (c, fold_left (fun jobs q =>
        match rule_of q with
        | lisp_expr => match jobs with
                       | [] => [set_struct (new_job text) [text_of q]]
                       | _ => on_last (fun j => set_struct j (struct_exprs j ++ [text_of q])) jobs
                       end
        | _ => jobs
        end) (inner_of p) jobs))
  | _ => (w, Got (c, jobs))
  end.
(** parse.rs l.240-275 parse_commands *)
Definition parse_commands1_w (w : W) (st : pctx * list job) (p : pair_) : W * res (pctx * list job) :=
  let '(c, jobs) := st in
  match rule_of p with
  | command => foldw (parse_jobs1_w (text_of p)) (inner_of p) w (c, jobs)
  | command_list_sep =>
      match inner_of p with
      | q :: _ => (w, Got (c, match rule_of q with
                              | and_op => on_last (fun j => set_op j OpAnd) jobs
                              | or_op => on_last (fun j => set_op j OpOr) jobs
                              | _ => jobs
                              end))
      | [] => (w, Got (c, jobs))
      end
  | _ => (w, Got (c, jobs))
  end.
End Rec.

Fixpoint parse_commands_w (depth : nat) (w : W) (c : pctx) (p : pair_) : W * res (list job) :=
  match depth with
  | 0 => (w, Bad)
  | S d =>
      match rule_of p with
      | commands => bind (foldw (parse_commands1_w (parse_commands_w d)) (inner_of p) w (c, []))
                         (fun w x => (w, Got (snd x)))
      | _ => (w, Got [])
      end
  end.
(** eval.rs l.504-519 get_jobs, after expansion *)
Definition get_jobs (w : W) (line : str) : W * res (list job) :=
  match parse line with
  | Ok (p :: _) _ _ => parse_commands_w (height p) w (PCtx true false false) p
  | Ok [] _ _ => (w, Got [])
  | _ => (w, Bad)
  end.

(** eval.rs l.583-592 transform_input_for_smart_pipe *)
Definition smart_pipe (input : str) : str :=
  let t := trim_start input in
  if starts_with (lit "|") t && negb (starts_with (lit "|>") t) && negb (starts_with (lit "||") t)
  then lit "__dsh_print_last_stdout " ++ input else input.

(** aliases, variables and the like (parser/expansion): [None] is an error *)
Variable expand : str -> option str.
Variable launch : W -> Eval_Model.job -> W * option Eval_Model.pstate.
Variable launch_capture : W -> Eval_Model.job -> W * option (Eval_Model.pstate * str).
Variable lisp : W -> str -> W * bool.

(** the fields of a job the loop looks at *)
Definition to_op (o : list_op) : Eval_Model.list_op :=
  match o with OpNone => Eval_Model.OpNone | OpAnd => Eval_Model.OpAnd | OpOr => Eval_Model.OpOr end.
Definition to_run (j : job) : Eval_Model.job * Eval_Model.list_op :=
  (Eval_Model.Job (cmd j) (foreground j) (capture j) (struct_exprs j) (has_process j), to_op (op j)).

(** eval.rs l.98-413 eval_str: the smart pipe, reading the line (and running its
    substitutions), the safety question, the loop.  Without an outcome the line failed
    before the question, or never returned. *)
Definition eval_line (bg : bool) (w : W) (wt : list (nat * Eval_Model.job)) (lv : level) (allow : list str)
    (ask : answer) (input : str) : W * res (Eval_Model.outcome W) :=
  match expand (smart_pipe input) with
  | None => (w, Bad)
  | Some line =>
      bind (get_jobs w line) (fun w jobs =>
        (w, Got (Eval_Model.eval_jobs W launch launch_capture lisp bg w wt lv allow ask (map to_run jobs))))
  end.
End Line.
