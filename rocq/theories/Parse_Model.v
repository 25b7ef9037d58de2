(** From the parse tree to jobs: dsh/src/parser/ast.rs (get_string) and
    dsh/src/shell/parse.rs.  Running a substitution while parsing is an oracle that
    returns the words the substitution stands for; job numbers, process groups and the
    messages for unknown commands are left out ([None] is the error). *)
From Verif Require Import Base Peg_Model Grammar_Model.

Definition pair_ := node rule.

Definition is_rule (a b : rule) : {a = b} + {a <> b}.
Proof. decide equality. Defined.
Definition rule_eqb (a b : rule) : bool := if is_rule a b then true else false.

(** ast.rs l.29-51: removing backslashes; one at the very end is kept *)
Fixpoint unescape (s : str) : str :=
  match s with
  | [] => []
  | c :: r => if (c =? 92)%N then match r with d :: r' => d :: unescape r' | [] => [c] end
              else c :: unescape r
  end.
(** ast.rs l.7-56 get_string *)
Fixpoint get_string (p : pair_) : str :=
  match p with
  | Node r _ t inner =>
      match r with
      | s_quoted | d_quoted => match inner with Node _ _ t' _ :: _ => t' | [] => [] end
      | span => match inner with q :: _ => get_string q | [] => [] end
      | word | glob_word => unescape t
      | _ => t
      end
  end.

(** process/redirect.rs l.7-16 *)
Inductive redirection :=
| StdoutOutput (dest : str) | StdoutAppend (dest : str) | StderrOutput (dest : str) | StderrAppend (dest : str)
| StdouterrOutput (dest : str) | StdouterrAppend (dest : str) | Input (dest : str).
Inductive subshell_type := SubNone | Subshell | ProcessSubstitution | CommandSubstitution.
Inductive list_op := OpNone | OpAnd | OpOr.

(** what a command name is found to be (parse.rs l.369-391): a builtin, a function of the
    Lisp engine, a program, a directory, nothing *)
Inductive found := IsBuiltin | IsLisp | IsProgram (path : str) | IsDir | IsUnknown.
Inductive process := Builtin (name : str) (argv : list str) | LispFn (name : str) (argv : list str) | Program (path : str) (argv : list str).

(** process/job.rs l.26-63 Job, the fields the parser sets; [procs] is the chain built by
    set_process *)
Record job := Job {
  cmd : str; procs : list process; foreground : bool; sub : subshell_type;
  redirection_of : option redirection; op : list_op; capture : bool; disable_pty : bool; struct_exprs : list str
}.
(** job.rs l.95-121 *)
Definition new_job (c : str) : job := Job c [] true SubNone None OpNone false false [].
Definition set_procs j x := Job (cmd j) x (foreground j) (sub j) (redirection_of j) (op j) (capture j) (disable_pty j) (struct_exprs j).
Definition set_foreground j x := Job (cmd j) (procs j) x (sub j) (redirection_of j) (op j) (capture j) (disable_pty j) (struct_exprs j).
Definition set_sub j x := Job (cmd j) (procs j) (foreground j) x (redirection_of j) (op j) (capture j) (disable_pty j) (struct_exprs j).
Definition set_redirect j x := Job (cmd j) (procs j) (foreground j) (sub j) x (op j) (capture j) (disable_pty j) (struct_exprs j).
Definition set_op j x := Job (cmd j) (procs j) (foreground j) (sub j) (redirection_of j) x (capture j) (disable_pty j) (struct_exprs j).
Definition set_capture j x := Job (cmd j) (procs j) (foreground j) (sub j) (redirection_of j) (op j) x (disable_pty j) (struct_exprs j).
Definition set_disable_pty j x := Job (cmd j) (procs j) (foreground j) (sub j) (redirection_of j) (op j) (capture j) x (struct_exprs j).
Definition set_struct j x := Job (cmd j) (procs j) (foreground j) (sub j) (redirection_of j) (op j) (capture j) (disable_pty j) x.
Definition has_process (j : job) : bool := match procs j with [] => false | _ => true end.

(** parse.rs l.30-45 ParseContext *)
Record pctx := PCtx { fg : bool; in_subshell : bool; in_proc_subst : bool }.

(** loops over a list that may fail *)
Definition foldm {A B} (f : B -> A -> option B) : list A -> B -> option B :=
  fix go l b := match l with [] => Some b | x :: r => match f b x with Some b' => go r b' | None => None end end.

Section Parse.
Variable resolve : str -> found.
Variable substitute : subshell_type -> list job -> list str.

(** an argument before substitutions are run: text, and the jobs of a substitution *)
Definition parg := (str * option (subshell_type * list job))%type.

(** parse.rs l.119-164: a redirect replaces the one set before; the destination is the
    text of the span as typed *)
Definition redirect_of (rule_ : option rule) (dest : str) : option redirection :=
  match rule_ with
  | Some stdout_redirect_direction_out => Some (StdoutOutput dest)
  | Some stdout_redirect_direction_append => Some (StdoutAppend dest)
  | Some stderr_redirect_direction_out => Some (StderrOutput dest)
  | Some stderr_redirect_direction_append => Some (StderrAppend dest)
  | Some stdouterr_redirect_direction_out => Some (StdouterrOutput dest)
  | Some stdouterr_redirect_direction_append => Some (StdouterrAppend dest)
  | Some stdin_redirect_direction_in => Some (Input dest)
  | _ => None
  end.
Definition parse_redirect (j : job) (inner : list pair_) : job :=
  snd (fold_left (fun '(r, j) p =>
    match rule_of p with
    | stdout_redirect_direction | stderr_redirect_direction | stdouterr_redirect_direction | stdin_redirect_direction =>
        (match inner_of p with q :: _ => Some (rule_of q) | [] => r end, j)
    | span => (r, set_redirect j (redirect_of r (text_of p)))
    | _ => (r, j)
    end) inner (None, j)).

Section Rec.
(** the recursive call, for the jobs inside a substitution: parse_commands *)
Variable sub_commands : pctx -> pair_ -> option (list job).

(** parse.rs l.60-114 (argv0) and l.166-225 (args): the pairs inside a span.  In l.78-91
    the pair "<(" of a process substitution is not skipped; parse_commands returns no
    jobs for it and l.298 drops it, as l.186 does. *)
Definition parse_span_inner (c : pctx) (acc : list parg) (q : pair_) : option (list parg) :=
  match rule_of q with
  | subshell =>
      foldm (fun acc p => match sub_commands (PCtx (fg c) true false) p with
                          | Some js => Some (acc ++ [(text_of p, Some (Subshell, js))]) | None => None end) (inner_of q) acc
  | proc_subst =>
      foldm (fun acc p => match sub_commands (PCtx (fg c) false true) p with
                          | Some js => Some (acc ++ [(text_of p, Some (ProcessSubstitution, js))]) | None => None end) (inner_of q) acc
  | command_subst =>
      foldm (fun acc p => match sub_commands (PCtx (fg c) true false) p with
                          | Some js => Some (acc ++ [(text_of p, Some (CommandSubstitution, js))]) | None => None end) (inner_of q) acc
  | _ => Some (acc ++ [(get_string q, None)])
  end.
(** parse.rs l.47-238 parse_argv; the arm for simple_command (l.228-231) is
    [parse_argv_bg] below *)
Definition parse_argv1 (c : pctx) (st : job * list parg) (p : pair_) : option (job * list parg) :=
  let '(j, acc) := st in
  match rule_of p with
  | argv0 =>
      match foldm (fun acc s => foldm (parse_span_inner c) (inner_of s) acc) (inner_of p) acc with
      | Some acc' => Some (j, acc') | None => None end
  | args =>
      foldm (fun '(j, acc) s =>
        match rule_of s with
        | redirect => Some (parse_redirect j (inner_of s), acc)
        | _ => match foldm (parse_span_inner c) (inner_of s) acc with Some acc' => Some (j, acc') | None => None end
        end) (inner_of p) (j, acc)
  | _ => Some (j, acc)
  end.
Definition parse_argv (c : pctx) (j : job) (p : pair_) : option (job * list parg) :=
  foldm (fun st q => match rule_of q with
                     | simple_command => foldm (parse_argv1 c) (inner_of q) st
                     | _ => parse_argv1 c st q
                     end) (inner_of p) (j, []).

(** parse.rs l.289-352 *)
Definition argv_of (l : list parg) : list str :=
  flat_map (fun '(t, s) => match s with
                           | None => [t]
                           | Some (k, js) => match js with [] => [] | _ => substitute k js end
                           end) l.
(** parse.rs l.277-438 parse_command *)
Definition parse_command (c : pctx) (j : job) (p : pair_) : option job :=
  match parse_argv c j p with
  | None => None
  | Some (j1, pargs) =>
      match argv_of pargs with
      | [] => Some j1
      | a0 :: rest =>
          let '(argv, j2) := match rest with
                             | _ :: _ => if str_eqb a0 (lit "nopty") then (rest, set_disable_pty j1 true) else (a0 :: rest, j1)
                             | [] => (a0 :: rest, j1)
                             end in
          let name := match argv with x :: _ => x | [] => [] end in
          match resolve name with
          | IsBuiltin => Some (set_procs j2 (procs j2 ++ [Builtin name argv]))
          | IsLisp => Some (set_procs j2 (procs j2 ++ [LispFn name argv]))
          | IsProgram path => Some (set_foreground (set_procs j2 (procs j2 ++ [Program path argv])) (fg c))
          | IsDir => Some (set_procs j2 (procs j2 ++ [Builtin name [lit "cd"; name]]))
          | IsUnknown => None
          end
      end
  end.

Definition mark (c : pctx) (j : job) : job :=
  let j := if in_subshell c then set_sub j Subshell else j in
  if in_proc_subst c then set_sub j ProcessSubstitution else j.
(** changing the last element (jobs.last_mut()) *)
Definition on_last {A} (f : A -> A) (l : list A) : list A :=
  match rev l with x :: r => rev (f x :: r) | [] => [] end.
Definition last_of {A} (l : list A) : option A := match rev l with x :: _ => Some x | [] => None end.

(** parse.rs l.440-556 parse_jobs: one pair inside a command *)
Definition parse_jobs1 (text : str) (st : pctx * list job) (p : pair_) : option (pctx * list job) :=
  let '(c, jobs) := st in
  match rule_of p with
  | simple_command =>
      match parse_command c (new_job text) p with
      | Some j => Some (c, if has_process j then jobs ++ [mark c j] else jobs)
      | None => None
      end
  | simple_command_bg =>
      match find (fun q => rule_eqb (rule_of q) simple_command) (inner_of p) with
      | Some q =>
          match parse_command c (new_job (text_of p)) q with
          | Some j => Some (c, if has_process j then jobs ++ [set_foreground (mark c j) false] else jobs)
          | None => None
          end
      | None => Some (c, jobs)
      end
  | pipe_command =>
      let jobs := match jobs with [] => [mark c (new_job text)] | _ => jobs end in
      foldm (fun '(c, jobs) q =>
        match rule_of q, last_of jobs with
        | simple_command, Some j =>
            match parse_command (PCtx true (in_subshell c) (in_proc_subst c)) j q with
            | Some j' => Some (PCtx true (in_subshell c) (in_proc_subst c), on_last (fun _ => j') jobs)
            | None => None
            end
        | simple_command_bg, Some j =>
            match parse_command (PCtx false (in_subshell c) (in_proc_subst c)) j q with
            | Some j' => Some (PCtx false (in_subshell c) (in_proc_subst c), on_last (fun _ => j') jobs)
            | None => None
            end
        | _, _ => Some (c, jobs)
        end) (inner_of p) (c, jobs)
  | capture_suffix => Some (c, on_last (fun j => set_capture j true) jobs)
  | struct_pipe_command =>
      Some (c, fold_left (fun jobs q =>
        match rule_of q with
        | lisp_expr => match jobs with
                       | [] => [set_struct (new_job text) [text_of q]]
                       | _ => on_last (fun j => set_struct j (struct_exprs j ++ [text_of q])) jobs
                       end
        | _ => jobs
        end) (inner_of p) jobs)
  | _ => Some (c, jobs)
  end.
(** parse.rs l.240-275 parse_commands: one pair *)
Definition parse_commands1 (st : pctx * list job) (p : pair_) : option (pctx * list job) :=
  let '(c, jobs) := st in
  match rule_of p with
  | command => foldm (parse_jobs1 (text_of p)) (inner_of p) (c, jobs)
  | command_list_sep =>
      match inner_of p with
      | q :: _ => Some (c, match rule_of q with
                           | and_op => on_last (fun j => set_op j OpAnd) jobs
                           | or_op => on_last (fun j => set_op j OpOr) jobs
                           | _ => jobs
                           end)
      | [] => Some (c, jobs)
      end
  | _ => Some (c, jobs)
  end.
End Rec.

(** parse.rs l.240-275; the recursion follows the nesting of substitutions, [depth]
    bounds it *)
Fixpoint parse_commands (depth : nat) (c : pctx) (p : pair_) : option (list job) :=
  match depth with
  | 0 => None
  | S d =>
      match rule_of p with
      | commands => option_map snd (foldm (parse_commands1 (parse_commands d)) (inner_of p) (c, []))
      | _ => Some []
      end
  end.
Fixpoint height (p : pair_) : nat :=
  match p with Node _ _ _ inner => S ((fix go l := match l with [] => 0 | x :: r => Nat.max (height x) (go r) end) inner) end.

(** shell/eval.rs l.504-519 get_jobs after expansion: the jobs of a line *)
Definition jobs_of (line : str) : option (list job) :=
  match parse line with
  | Ok (p :: _) _ _ => parse_commands (height p) (PCtx true false false) p
  | Ok [] _ _ => Some []
  | _ => None
  end.
End Parse.
