(** The grammar of command lines: dsh/src/shell.pest, rule by rule.  Rules marked [_] in
    the source leave no pair and are plain definitions here. *)
From Verif Require Import Base Peg_Model.

Inductive rule :=
| escape_sequence | word | variable | glob_word | brace_word
| s_quoted | literal_s_quoted | d_quoted | literal_d_quoted
| proc_subst_direction_in | proc_subst_direction | proc_subst | command_subst | subshell
| stdin_redirect_direction_in | stdouterr_redirect_direction_out | stdouterr_redirect_direction_append
| stderr_redirect_direction_out | stderr_redirect_direction_append
| stdout_redirect_direction_out | stdout_redirect_direction_append
| stdouterr_redirect_direction | stderr_redirect_direction | stdout_redirect_direction | stdin_redirect_direction
| redirect | span | argv0 | args
| background_op | capture_op | struct_pipe_op | pipeline_op | sequential_op | and_op | or_op
| command_list_sep | simple_command | simple_command_bg | pipe_command | struct_pipe_command | lisp_expr
| capture_suffix | command | commands.

Definition ch (c : char) : expr rule := Lit [c].
Arguments ch c%N.
Definition tx (s : string) : expr rule := Lit (lit s).
Arguments tx s%string.
(** alternatives of single characters *)
Fixpoint one_of (l : str) : expr rule :=
  match l with [] => Not (Lit []) | [c] => ch c | c :: r => Alt (ch c) (one_of r) end.

(** l.1 sp *)
Definition sp : expr rule := one_of [32; 9; 13]%N.
(** the characters excluded in l.3: bar, ampersand, semicolon, space, tab, CR, LF, backquote,
    braces, angle brackets, parentheses, dollar, double and single quote, star, question
    mark, square brackets, backslash *)
Definition special : str := [124; 38; 59; 32; 9; 13; 10; 96; 123; 125; 60; 62; 40; 41; 36; 34; 39; 42; 63; 91; 93; 92]%N.
(** l.2-4 word_char *)
Definition word_char : expr rule := Seq (Not (one_of special)) Any.
(** l.9 glob_char, l.10 glob_remaining_char *)
Definition glob_char : expr rule := one_of [42; 63; 91]%N.
Definition glob_remaining_char : expr rule :=
  Alt word_char (Alt glob_char (Alt (ch 93) (Alt (ch 123) (Alt (ch 125) (Nt escape_sequence))))).
(** l.38 quoted *)
Definition quoted : expr rule := Alt (Nt d_quoted) (Nt s_quoted).
(** l.34 group_list *)
Definition group_list : expr rule := Nt commands.
(** l.70 lisp_inner *)
Definition lisp_inner : expr rule := Alt (Seq (Not (Alt (tx ")") (tx "("))) Any) (Nt lisp_expr).

Definition gram (r : rule) : expr rule :=
  match r with
  | escape_sequence => Seq (ch 92) Any                                                    (* l.5 *)
  | word => Plus (Alt (Nt escape_sequence) word_char)                                     (* l.7 *)
  | variable => Seq (tx "$") (Nt word)                                                    (* l.8 *)
  | glob_word => Seq (Star (Alt word_char (Nt escape_sequence))) (Seq glob_char (Star glob_remaining_char))   (* l.11 *)
  | brace_word => Seq (Star (Alt word_char (Alt (Nt escape_sequence) glob_char))) (Seq (ch 123) (Star glob_remaining_char)) (* l.13 *)
  | s_quoted => Seq (ch 39) (Seq (Star (Nt literal_s_quoted)) (ch 39))                    (* l.15-18 *)
  | literal_s_quoted => Plus (Alt (Lit [92; 39]%N) (Alt (Seq (Not (ch 39)) Any) sp))      (* l.19 *)
  | d_quoted => Seq (ch 34) (Seq (Star (Nt literal_d_quoted)) (ch 34))                    (* l.21-24 *)
  | literal_d_quoted =>                                                                   (* l.25-27 *)
      Plus (Alt (Seq (Not (one_of [34; 92; 96; 36]%N)) Any) (Alt (Seq (ch 92) Any) sp))
  | proc_subst_direction_in => tx "<("                                                    (* l.29 *)
  | proc_subst_direction => Nt proc_subst_direction_in                                    (* l.30 *)
  | proc_subst => Seq (Nt proc_subst_direction) (Seq group_list (tx ")"))                 (* l.31 *)
  | command_subst => Seq (tx "$(") (Seq (Star sp) (Seq group_list (Seq (Star sp) (tx ")")))) (* l.32 *)
  | subshell => Seq (tx "(") (Seq group_list (tx ")"))                                    (* l.33 *)
  | stdin_redirect_direction_in => tx "<"                                                 (* l.40 *)
  | stdouterr_redirect_direction_out => tx "&>"
  | stdouterr_redirect_direction_append => tx "&>>"
  | stderr_redirect_direction_out => tx "2>"
  | stderr_redirect_direction_append => tx "2>>"
  | stdout_redirect_direction_out => tx ">"
  | stdout_redirect_direction_append => tx ">>"
  | stdouterr_redirect_direction => Alt (Nt stdouterr_redirect_direction_append) (Nt stdouterr_redirect_direction_out)
  | stderr_redirect_direction => Alt (Nt stderr_redirect_direction_append) (Nt stderr_redirect_direction_out)
  | stdout_redirect_direction => Alt (Nt stdout_redirect_direction_append) (Nt stdout_redirect_direction_out)
  | stdin_redirect_direction => Nt stdin_redirect_direction_in                            (* l.50 *)
  | redirect =>                                                                           (* l.51 *)
      Seq (Alt (Nt stdouterr_redirect_direction) (Alt (Nt stderr_redirect_direction)
            (Alt (Nt stdout_redirect_direction) (Nt stdin_redirect_direction))))
          (Seq (Star sp) (Nt span))
  | span =>                                                                               (* l.52 *)
      Alt quoted (Alt (Nt glob_word) (Alt (Nt brace_word) (Alt (Nt word) (Alt (Nt variable)
        (Alt (Nt proc_subst) (Alt (Nt subshell) (Nt command_subst)))))))
  | argv0 => Nt span                                                                      (* l.53 *)
  | args => Plus (Seq (Star sp) (Alt (Nt redirect) (Nt span)))                            (* l.54 *)
  | background_op => Seq (Not (tx "&&")) (tx "&")                                         (* l.56 *)
  | capture_op => tx "|>"
  | struct_pipe_op => tx "|:"
  | pipeline_op => Seq (Not (Alt (tx "|>") (tx "|:"))) (tx "|")
  | sequential_op => tx ";"
  | and_op => tx "&&"
  | or_op => tx "||"                                                                      (* l.62 *)
  | command_list_sep => Alt (Nt sequential_op) (Alt (Nt and_op) (Nt or_op))               (* l.64 *)
  | simple_command => Seq (Star sp) (Seq (Nt argv0) (Star (Nt args)))                     (* l.65 *)
  | simple_command_bg => Seq (Nt simple_command) (Seq (Star sp) (Nt background_op))       (* l.66 *)
  | pipe_command =>                                                                       (* l.67 *)
      Seq (Nt pipeline_op) (Seq (Star sp) (Seq (Alt (Nt simple_command_bg) (Nt simple_command)) (Star sp)))
  | struct_pipe_command => Seq (Nt struct_pipe_op) (Seq (Star sp) (Seq (Nt lisp_expr) (Star sp))) (* l.68 *)
  | lisp_expr => Seq (tx "(") (Seq (Star lisp_inner) (tx ")"))                            (* l.69 *)
  | capture_suffix => Seq (Star sp) (Nt capture_op)                                       (* l.71 *)
  | command =>                                                                            (* l.72 *)
      Seq (Star (Alt (Seq (Star sp) (Nt simple_command_bg)) (Nt simple_command)))
        (Seq (Star sp) (Seq (Star (Alt (Nt struct_pipe_command) (Nt pipe_command))) (Opt (Nt capture_suffix))))
  | commands =>                                                                           (* l.73 *)
      Seq (Seq (Star sp) (Nt command)) (Star (Seq (Nt command_list_sep) (Seq (Star sp) (Nt command))))
  end.

(** the order in which rules may call one another before consuming anything *)
Definition rank (r : rule) : nat :=
  match r with
  | escape_sequence | literal_s_quoted | literal_d_quoted | proc_subst_direction_in
  | stdin_redirect_direction_in | stdouterr_redirect_direction_out | stdouterr_redirect_direction_append
  | stderr_redirect_direction_out | stderr_redirect_direction_append
  | stdout_redirect_direction_out | stdout_redirect_direction_append
  | background_op | capture_op | struct_pipe_op | pipeline_op | sequential_op | and_op | or_op
  | variable | s_quoted | d_quoted | command_subst | subshell | lisp_expr => 0
  | word | glob_word | brace_word | proc_subst_direction
  | stdouterr_redirect_direction | stderr_redirect_direction | stdout_redirect_direction | stdin_redirect_direction
  | command_list_sep | struct_pipe_command | pipe_command | capture_suffix => 1
  | proc_subst | redirect => 2
  | span => 3
  | argv0 | args => 4
  | simple_command => 5
  | simple_command_bg => 6
  | command => 7
  | commands => 8
  end.
Definition ranks := 9.
Definition sizes := 120.
Definition eats_rule (r : rule) : bool := match r with command | commands => false | _ => true end.

(** ShellParser::parse(Rule::commands, input): fuel for the longest run *)
Definition fuel (s : str) : nat := length s * (S ranks * S sizes) + ranks * S sizes + 1 + length s.
Definition parse (s : str) : res rule := peg gram (fuel s) (Nt commands) 0 s.
