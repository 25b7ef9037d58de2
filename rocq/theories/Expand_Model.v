(** Expansion of a line before it runs: dsh/src/parser/expansion.rs, and get_jobs of
    dsh/src/shell/eval.rs.

    Variables are [get_var] of Env_Model; the home directory is an oracle; matching one
    glob pattern against the file system (find_glob_root and the globmatch crate,
    l.12-46 and l.124-155) is an oracle that returns the displayed paths, none when
    nothing matches or the pattern is refused. *)
From Verif Require Import Base Peg_Model Grammar_Model Parse_Model Env_Model.

(** ** l.48-102 expand_braces *)
(** an unescaped [x] at this place, [prev] being the character before it (none at the start) *)
Definition unescaped (prev : option char) : bool := match prev with Some p => negb (p =? 92)%N | None => true end.
(** l.56-66: the loop that looks for the outermost pair.  [i] is the position, [stack] the
    positions of the open braces, innermost first. *)
Fixpoint find_pair (i : nat) (stack : list nat) (prev : option char) (l : str) : option (nat * nat) :=
  match l with
  | [] => None
  | c :: r =>
      if (c =? 123)%N && unescaped prev then find_pair (S i) (i :: stack) (Some c) r
      else if (c =? 125)%N && unescaped prev then
        match stack with
        | [start] => Some (start, i)
        | _ :: stack' => find_pair (S i) stack' (Some c) r
        | [] => find_pair (S i) [] (Some c) r
        end
      else find_pair (S i) stack (Some c) r
  end.
(** l.70-92: splitting the content at its top-level commas; [cur] is the part being read,
    [depth] may not become negative here because the content is balanced *)
Fixpoint split_parts (depth : nat) (cur : str) (prev : option char) (l : str) : list str :=
  match l with
  | [] => [cur]
  | c :: r =>
      if (c =? 123)%N && unescaped prev then split_parts (S depth) (cur ++ [c]) (Some c) r
      else if (c =? 125)%N && unescaped prev then split_parts (depth - 1) (cur ++ [c]) (Some c) r
      else if (c =? 44)%N && (depth =? 0) && unescaped prev then cur :: split_parts depth [] (Some c) r
      else split_parts depth (cur ++ [c]) (Some c) r
  end.
(** l.48-102; each recursive call is on a shorter text, [fuel] bounds the depth *)
Fixpoint braces (fuel : nat) (pattern : str) : option (list str) :=
  match fuel with
  | 0 => None
  | S n =>
      match find_pair 0 [] None pattern with
      | Some (start, i) =>
          let prefix := firstn start pattern in
          let suffix := skipn (S i) pattern in
          let content := firstn (i - S start) (skipn (S start) pattern) in
          foldm (fun acc part => option_map (app acc) (braces n (prefix ++ part ++ suffix))) (split_parts 0 [] None content) []
      | None => Some [pattern]
      end
  end.
Definition expand_braces (pattern : str) : option (list str) := braces (S (length pattern)) pattern.
(** [C15_braces_terminate] shows that there is always a result *)
Definition expand_braces_ (pattern : str) : list str := match expand_braces pattern with Some l => l | None => [] end.

Definition has (c : char) (s : str) : bool := mem_char c s.
Definition has_glob (s : str) : bool := has 42%N s || has 63%N s || has 91%N s.

Section Expand.
Variable home : option str.
Variable glob : str -> list str.
Variable alias : map_.

(** shellexpand::tilde: a leading tilde alone or before a slash *)
Definition tilde (s : str) : str :=
  match s with
  | c :: r => if (c =? 126)%N && (match r with [] => true | d :: _ => (d =? 47)%N end)
              then match home with Some h => h ++ r | None => s end else s
  | [] => s
  end.

(** l.110-159: a word with glob characters or braces *)
Definition expand_pattern (t : str) : list str :=
  flat_map (fun pat => if has_glob pat then match glob pat with [] => [pat] | ps => map (fun p => [34%N] ++ p ++ [34%N]) ps end else [pat])
    (expand_braces_ (tilde t)).

(** l.177-192 and l.248-263: the words of a command name; the first may be an alias *)
Definition expand_name (v : list str) : list str :=
  match v with
  | a :: r => trim (match assoc a alias with Some val => val | None => a end) :: map trim r
  | [] => []
  end.

(** l.104-308 expand_alias_tilde *)
Fixpoint expand_tree (p : pair_) : list str :=
  match p with
  | Node r _ t inner =>
      (* all inner pairs *)
      let each := fix each (l : list pair_) : list str := match l with [] => [] | q :: l' => expand_tree q ++ each l' end in
      (* l.177-192: the inner pairs of a command name *)
      let names := fix names (l : list pair_) : list str := match l with [] => [] | q :: l' => expand_name (expand_tree q) ++ names l' end in
      match r with
      | glob_word | brace_word => expand_pattern t
      | word | variable | s_quoted | d_quoted | literal_s_quoted | literal_d_quoted
      | stdout_redirect_direction | stderr_redirect_direction | stdouterr_redirect_direction
      | stdin_redirect_direction | stdin_redirect_direction_in | command_subst => [tilde t]
      | argv0 => names inner
      | pipe_command | redirect => each inner
      | _ =>
          (* l.207-304 *)
          (fix go (l : list pair_) : list str :=
             match l with
             | [] => []
             | Node r' _ t' inner' as q :: l' =>
                 match r' with
                 | simple_command_bg =>
                     (fix bg (m : list pair_) : list str :=
                        match m with
                        | [] => []
                        | x :: m' => (if rule_eqb (rule_of x) background_op then [text_of x] else expand_tree x) ++ bg m'
                        end) inner'
                 | proc_subst => [lit "<("] ++ each inner' ++ [lit ")"]
                 | command_subst => [t']
                 | subshell => [lit "("] ++ each inner' ++ [lit ")"]
                 | argv0 => names inner'
                 | pipe_command =>
                     (fix pc (m : list pair_) : list str :=
                        match m with
                        | [] => []
                        | x :: m' => (if rule_eqb (rule_of x) pipeline_op then [text_of x] else expand_tree x) ++ pc m'
                        end) inner'
                 | commands | command | simple_command | args | span => each inner'
                 | word | glob_word | brace_word | variable | s_quoted | d_quoted | literal_s_quoted | literal_d_quoted
                 | proc_subst_direction_in | stdout_redirect_direction | stderr_redirect_direction
                 | stdouterr_redirect_direction => expand_tree q
                 | _ => []
                 end ++ go l'
             end) inner
      end
  end.

(** l.369-415 check_expansion_needed; for argv0 the alias is looked up under the string of
    the first inner pair *)
Fixpoint needed (p : pair_) : bool :=
  match p with
  | Node r _ t inner =>
      let any := fix any (l : list pair_) : bool := match l with [] => false | q :: l' => needed q || any l' end in
      match r with
      | glob_word | brace_word => has_glob t || has 126%N t || has 36%N t || has 123%N t
      | word | variable | s_quoted | d_quoted => has 126%N t || has 36%N t
      | argv0 => match inner with q :: _ => match assoc (get_string q) alias with Some _ => true | None => false end | [] => false end || any inner
      | _ => any inner
      end
  end.

Variable e : env.
(** l.438-456 expand_var_args *)
Definition var_text (arg : str) : str :=
  match get_var e arg with
  | None => arg
  | Some [] => [34; 34]%N
  | Some v => if has 10%N v || has 32%N v || has 9%N v
              then [34%N] ++ flat_map (fun c => if (c =? 34)%N then [92; 34]%N else [c]) v ++ [34%N]
              else trim v
  end.
Definition expand_var_args (args : list str) : list str := map var_text args.

(** l.458-505 expand_command_alias *)
Definition expand_command (p : pair_) : list str :=
  match rule_of p with
  | command =>
      flat_map (fun q => match rule_of q with
                         | simple_command => expand_var_args (expand_tree q)
                         | simple_command_bg => expand_var_args (expand_tree q) ++ [lit "&"]
                         | pipe_command => [lit "|"] ++ expand_var_args (expand_tree q)
                         | struct_pipe_command | capture_suffix => [text_of q]
                         | _ => []
                         end) (inner_of p)
  | command_list_sep => [text_of p]
  | _ => []
  end.
(** l.423-436 expand_alias_from_pairs *)
Definition expand_pairs (ps : list pair_) : str :=
  join_with (lit " ") (flat_map (fun p => flat_map expand_command (inner_of p)) ps).

(** l.316-367 parse_with_expansion and eval.rs l.504-509: the text whose parse is run *)
Definition has_meta (s : str) : bool := has 126%N s || has 36%N s || has 123%N s || has_glob s.
Definition expanded (input : str) : str :=
  match parse input with
  | Ok ps _ _ =>
      if negb (has_meta input) && match alias with [] => true | _ => false end then input
      else if existsb needed ps then expand_pairs ps
      else input
  | _ => input
  end.

Variable resolve : str -> found.
Variable substitute : subshell_type -> list job -> list str.
(** eval.rs l.504-519 get_jobs *)
Definition get_jobs (input : str) : option (list job) := jobs_of resolve substitute (expanded input).
End Expand.
