(** What is completed and what is offered: dsh/src/completion/parser.rs,
    dsh/src/completion/context.rs, dsh/src/completion/generator.rs and
    dsh/src/completion/generators/{command,subcommand,option,argument,script}.rs.

    The definitions of commands (JSON files) are a function from names to definitions.
    Files, processes, users and the like are oracles, and so are the output of the shell that
    runs a completion script and the Unicode classes of characters. *)
From Verif Require Import Base Token_Model.
From Verif Require Dmv_Model.

(** ** Definitions of commands: dsh/src/completion/command.rs *)
(** l.98-135; the types whose values are read off the system are one constructor *)
Inductive arg_type :=
| Choice (l : list str) | Script (template : str) | Command_with_args | Other_type (n : nat).
(** l.82-93 *)
Record argument := Argument { multiple : bool; a_type : option arg_type }.
(** l.45-61 *)
Record coption := Coption {
  short : option str; long : option str; takes_value : bool;
  value_type : option arg_type; o_argument : option argument }.
(** l.24-41 *)
Inductive subcommand :=
| Sub (name : str) (aliases : list str) (options : list coption) (arguments : list argument) (subs : list subcommand).
Definition s_name (s : subcommand) : str := let (n, _, _, _, _) := s in n.
Definition s_aliases (s : subcommand) : list str := let (_, a, _, _, _) := s in a.
Definition s_options (s : subcommand) : list coption := let (_, _, o, _, _) := s in o.
Definition s_arguments (s : subcommand) : list argument := let (_, _, _, a, _) := s in a.
Definition s_subs (s : subcommand) : list subcommand := let (_, _, _, _, s) := s in s.
(** l.6-20 *)
Record definition := Definition_ { d_subs : list subcommand; d_globals : list coption; d_arguments : list argument }.

Definition is_name (o : option str) (name : str) : bool := match o with Some x => str_eqb x name | None => false end.
(** l.64-66 matches_name *)
Definition matches_name (o : coption) (name : str) : bool := is_name (short o) name || is_name (long o) name.
(** l.68-73 value_type *)
Definition o_type (o : coption) : option arg_type :=
  match o_argument o with
  | Some a => match a_type a with Some t => Some t | None => value_type o end
  | None => value_type o
  end.
(** l.75-77 expects_value *)
Definition expects_value (o : coption) : bool :=
  match o_argument o with Some _ => true | None => match value_type o with Some _ => true | None => takes_value o end end.

(** context.rs l.475-499, and the same functions in generators/argument.rs l.274-281,
    generators/option.rs and generators/subcommand.rs *)
Definition sub_matches (name : str) (s : subcommand) : bool := str_eqb (s_name s) name || mem_str name (s_aliases s).
Definition sub_starts (p : str) (s : subcommand) : bool := starts_with p (s_name s) || existsb (starts_with p) (s_aliases s).
Definition find_sub (l : list subcommand) (name : str) : option subcommand := find (sub_matches name) l.

(** ** The parser: dsh/src/completion/parser.rs *)
(** l.66-91 *)
Inductive context :=
| In_command | In_sub | In_short | In_long
| In_value (option_name : str) (ty : option arg_type) | In_argument (index : nat) (ty : option arg_type).
(** l.29-54; args, options and cursor_index are read by the completers of single programs
    only and are left out *)
Record parsed := Parsed {
  command : str; path : list str; raw_args : list str; current : str; current_arg : option str;
  ctx : context; opts : list str; sargs : list str }.

(** l.5-13 *)
Definition is_option (t : str) : bool := starts_with (lit "-") t.
Definition is_long (t : str) : bool := starts_with (lit "--") t.
(** str::split_once *)
Fixpoint split_once (c : char) (s : str) : option (str * str) :=
  match s with
  | [] => None
  | x :: r => if (x =? c)%N then Some ([], r) else match split_once c r with Some (a, b) => Some (x :: a, b) | None => None end
  end.
(** l.15-26 split_inline_long_option *)
Definition split_inline (t : str) : option (str * str) :=
  if is_long t then
    match split_once (chr "=") t with
    | Some (n, v) => if blen n <=? 2 then None else Some (n, v)
    | None => None
    end
  else None.

(** l.163-185 find_cursor_token_index; [pos] counts bytes *)
Fixpoint cursor_token (i : nat) (ss : list span) (pos : nat) : nat * bool :=
  match ss with
  | [] => (i, false)
  | s :: r => if pos <=? byte_end s then (i, byte_start s <=? pos) else cursor_token (S i) r pos
  end.
(** l.112-121: the longest prefix of at most [n] bytes *)
Fixpoint take_bytes (n : nat) (s : str) : str :=
  match s with
  | [] => []
  | c :: r => if utf8_len c <=? n then c :: take_bytes (n - utf8_len c) r else []
  end.
(** l.101-129: the tokens with the one at the cursor cut there, or an empty one put there *)
Definition cursor_tokens (input : str) (pos : nat) : list str * nat :=
  let ss := tokenize input Parser in
  let ts := map raw ss in
  let (i, inside) := cursor_token 0 ss pos in
  if inside then
    match nth_error ss i with
    | Some s => let rel := pos - byte_start s in
                (if rel <? blen (raw s) then firstn i ts ++ take_bytes rel (raw s) :: skipn (S i) ts else ts, i)
    | None => (ts, i)
    end
  else (firstn i ts ++ [] :: skipn i ts, i).

(** l.341-351 has_space_after_command *)
Definition space_after (input cmd : str) : bool :=
  let t := trim_start input in
  starts_with cmd t && match nth_error t (length cmd) with Some c => is_whitespace c | None => false end.
(** the part of [looks_like_subcommand] l.360-370 and [looks_like_path_argument] l.528-535: the
    last dot is neither first nor last *)
Fixpoint until_dot (s : str) : str * str :=
  match s with
  | [] => ([], [])
  | c :: r => if (c =? chr ".")%N then ([], s) else let (a, b) := until_dot r in (c :: a, b)
  end.
Definition has_extension (t : str) : bool :=
  match until_dot (rev t) with
  | (_ :: _, _ :: _ :: _) => true
  | _ => false
  end.
Definition path_like (t : str) : bool := mem_char (chr "/") t || mem_char (chr "\") t || has_extension t.
(** l.537-557 option_takes_value *)
Definition known_value_options : list str :=
  map lit ["--message"; "-m"; "--target"; "--features"; "--git"; "--path"; "--name"; "-u"; "--user"; "-g"; "--group";
           "-n"; "--namespace"; "--context"; "-C"; "--chdir"; "-c"; "-o"; "--output"; "-f"; "--file"]%string.
Definition option_takes_value (o : str) : bool := mem_str o known_value_options.
(** l.559-574 is_redirect_operator *)
Definition is_digit (c : char) : bool := (48 <=? c)%N && (c <=? 57)%N.
Definition strip_suffix (p s : str) : option str := if ends_with p s then Some (firstn (length s - length p) s) else None.
Definition is_redirect (t : str) : bool :=
  mem_str t (map lit [">"; ">>"; "<"; "&>"; "&>>"]%string) ||
  match strip_suffix (lit ">>") t with
  | Some p => forallb is_digit p
  | None => match strip_suffix (lit ">") t with Some p => forallb is_digit p | None => false end
  end.

Section Completion.
(** char::is_alphabetic and char::is_alphanumeric *)
Variable alphabetic alphanumeric : char -> bool.

Definition is_vowel (c : char) : bool := mem_char (lower_char c) (lit "aeiou").
Fixpoint alternates (l : list bool) : bool :=
  match l with a :: ((b :: _) as r) => negb (Bool.eqb a b) && alternates r | _ => true end.
(** l.353-427 looks_like_subcommand *)
Definition looks_like_sub (t : str) : bool :=
  negb (is_option t) && negb (has_extension t) &&
  negb (mem_char (chr "/") t || mem_char (chr "\") t) &&
  negb ((blen t <? 2) || (32 <? blen t)) &&
  negb ((length t =? 4) && (length (filter is_vowel t) =? 2) &&
        (length (filter (fun c => negb (is_vowel c) && alphabetic c) t) =? 2) && alternates (map is_vowel t)) &&
  forallb (fun c => alphanumeric c || (c =? chr "-")%N || (c =? chr "_")%N) t.
(** l.219-238: the leading tokens that look like subcommands, and the others *)
Fixpoint leading (ts : list str) : list str * list str :=
  match ts with
  | [] => ([], [])
  | t :: r => if looks_like_sub t then let (a, b) := leading r in (t :: a, b) else ([], ts)
  end.
(** l.244-282: options and arguments; [skip] is either of the two flags, of which at most one
    is set *)
Fixpoint classify (skip : bool) (ts : list str) : list str * list str :=
  match ts with
  | [] => ([], [])
  | t :: r =>
      if skip then classify false r
      else if is_redirect t then classify true r
      else if is_option t then
        match split_inline t with
        | Some (name, _) => let (o, a) := classify false r in (name :: o, a)
        | None =>
            let value := match r with n :: _ => negb (is_option n) && option_takes_value t | [] => false end in
            let (o, a) := classify value r in (t :: o, a)
        end
      else let (o, a) := classify false r in (o, t :: a)
  end.
(** l.515-526 argument_index *)
Definition argument_index (args : list str) (cur : str) : nat := length args - (if mem_str cur args then 1 else 0).
(** l.429-513 determine_completion_context, with the cursor behind the first token: [prev] is the
    token before the current one *)
Definition context_of (index : nat) (cur prev : str) (sub args : list str) (space : bool) : context :=
  match split_inline cur with
  | Some (name, _) => In_value name None
  | None =>
      if is_long cur then In_long
      else if is_option cur then (if blen cur =? 2 then In_short else In_long)
      else if is_option prev && option_takes_value prev then In_value prev None
      else if (index =? 1) && negb space then In_command
      else if is_redirect prev then In_argument (length args) None
      else if is_redirect cur then In_argument (length args) None
      else if path_like cur then In_argument (argument_index args cur) None
      else if match sub with [] => true | _ => looks_like_sub cur end
           then (if space then In_sub else In_command)
      else In_argument (argument_index args cur) None
  end.
(** l.187-339 analyze_tokens *)
Definition analyze (ts : list str) (index : nat) (input : str) : parsed :=
  match ts with
  | [] => Parsed [] [] [] [] None In_command [] []
  | cmd :: rest =>
      let (sub, args) := leading rest in
      let (o, a) := classify false args in
      let space := space_after input cmd in
      let '(cur, c) :=
        if index =? 0 then (cmd, In_command)
        else
          let raw_current := nth index ts [] in
          let c := context_of index raw_current (nth (index - 1) ts []) sub a space in
          (match c, split_inline raw_current with In_value _ _, Some (_, v) => v | _, _ => raw_current end, c) in
      Parsed cmd sub args cur (Some cur) c o a
  end.
(** l.101-132 parse *)
Definition parse (input : str) (pos : nat) : parsed :=
  let (ts, i) := cursor_tokens input pos in analyze ts i input.

(** ** Correction by the definitions: dsh/src/completion/context.rs *)
(** l.8-23 normalize_specified_option *)
Definition normalize_option (os : list str) (raw_token name : str) : list str :=
  let os := map (fun o => if str_eqb o raw_token then name else o) os in
  if mem_str name os then os else os ++ [name].
(** l.25-46 split_attached_short_option_value *)
Fixpoint attached (t : str) (os : list coption) : option (str * option arg_type * str) :=
  match os with
  | [] => None
  | o :: r =>
      match short o with
      | Some s =>
          if (blen s =? 2) && expects_value o && starts_with s t then
            match skipn (length s) t with
            | [] => attached t r
            | c :: v => if (c =? chr "=")%N then attached t r else Some (s, o_type o, c :: v)
            end
          else attached t r
      | None => attached t r
      end
  end.
Definition attached_value (t : str) (os : list coption) : option (str * option arg_type * str) :=
  if is_option t && negb (is_long t) then attached t os else None.
(** Iterator::rposition *)
Fixpoint rposition (f : str -> bool) (l : list str) : option nat :=
  match l with
  | [] => None
  | x :: r => match rposition f r with Some i => Some (S i) | None => if f x then Some 0 else None end
  end.
(** l.413-443 current_raw_index *)
Definition raw_index (p : parsed) : option nat :=
  match raw_args p with
  | [] => None
  | l =>
      match current p with
      | [] =>
          match rposition (fun t => match split_inline t with Some (_, []) => true | _ => false end) l with
          | Some i => Some i
          | None => match rposition (str_eqb []) l with Some i => Some i | None => Some (length l) end
          end
      | cur =>
          match rposition (fun t => str_eqb t cur || match split_inline t with Some (_, v) => str_eqb v cur | None => false end) l with
          | Some i => Some i
          | None => Some (length l)
          end
      end
  end.
(** l.408-411 current_raw_token *)
Definition raw_token (p : parsed) : option str :=
  match raw_index p with Some i => nth_error (raw_args p) i | None => None end.
(** l.445-456 previous_raw_token *)
Definition raw_previous (p : parsed) : option str :=
  match raw_index p with Some (S i) => nth_error (raw_args p) i | _ => None end.
(** l.458-477 collect_available_options *)
Fixpoint path_options (subs : list subcommand) (names : list str) : list coption :=
  match names with
  | [] => []
  | n :: r => match find_sub subs n with Some s => s_options s ++ path_options (s_subs s) r | None => [] end
  end.
Definition available (d : definition) (names : list str) : list coption := d_globals d ++ path_options (d_subs d) names.
(** l.393-406 remove_current_value_from_arguments *)
Definition remove_nth {A} (n : nat) (l : list A) : list A := firstn n l ++ skipn (S n) l.
Definition without_value (cur : str) (args : list str) : list str :=
  match cur with
  | [] => args
  | _ => match rposition (str_eqb cur) args with Some i => remove_nth i args | None => args end
  end.
Definition with_context (c : context) (p : parsed) : parsed :=
  Parsed (command p) (path p) (raw_args p) (current p) (current_arg p) c (opts p) (sargs p).
Definition with_path (l : list str) (p : parsed) : parsed :=
  Parsed (command p) l (raw_args p) (current p) (current_arg p) (ctx p) (opts p) (sargs p).
(** l.337-391 correct_option_value_context *)
Definition value_of_option (d : definition) (p : parsed) : option parsed :=
  let os := available d (path p) in
  let value name ty raw v :=
    Parsed (command p) (path p) (raw_args p) v (Some v) (In_value name ty) (normalize_option (opts p) raw name) (sargs p) in
  let inline :=
    match raw_token p with
    | Some raw =>
        match split_inline raw with
        | Some (name, v) =>
            match find (fun o => matches_name o name) os with
            | Some o =>
                if expects_value o then Some (value name (o_type o) raw v)
                else Some (Parsed (command p) (path p) (raw_args p) raw (Some raw) In_long (opts p) (sargs p))
            | None => None
            end
        | None => None
        end
    | None => None
    end in
  match inline with
  | Some q => Some q
  | None =>
      match match raw_token p with Some raw => option_map (fun x => (raw, x)) (attached_value raw os) | None => None end with
      | Some (raw, (name, ty, v)) => Some (value name ty raw v)
      | None =>
          if is_option (current p) then None
          else match raw_previous p with
               | Some prev =>
                   match find (fun o => matches_name o prev && expects_value o) os with
                   | Some o =>
                       Some (Parsed (command p) (path p) (raw_args p) (current p) (current_arg p) (In_value prev (o_type o))
                               (opts p) (without_value (current p) (sargs p)))
                   | None => None
                   end
               | None => None
               end
      end
  end.

(** l.63-76: the names of the subcommands on the way, what can follow them, and the tokens that
    lead nowhere *)
Fixpoint walk (subs : list subcommand) (names : list str) : list str * list subcommand * list str :=
  match names with
  | [] => ([], subs, [])
  | n :: r =>
      match find_sub subs n with
      | Some s => let '(v, l, bad) := walk (s_subs s) r in (s_name s :: v, l, bad)
      | None => ([], subs, names)
      end
  end.
(** l.224-268: further subcommands among the arguments.  [inl]: the current token is one of them
    or the start of one; [inr]: those found, what can follow them, and how many *)
Fixpoint more_subs (cur : str) (subs : list subcommand) (ts : list str) : list str + (list str * list subcommand * nat) :=
  match ts with
  | [] => inr ([], subs, 0)
  | t :: r =>
      match find_sub subs t with
      | Some s =>
          if str_eqb t cur then inl []
          else match more_subs cur (s_subs s) r with
               | inl v => inl (s_name s :: v)
               | inr (v, l, n) => inr (s_name s :: v, l, S n)
               end
      | None => if str_eqb t cur && existsb (sub_starts t) subs then inl [] else inr ([], subs, 0)
      end
  end.
(** l.167-212: for an argument, whether it is the value of the last of some combined short options *)
Definition combined (d : definition) (p : parsed) : option str :=
  let len := length (raw_args p) in
  let i := match current p with [] => if 1 <=? len then Some (len - 1) else None
                              | _ => if 2 <=? len then Some (len - 2) else None end in
  match match i with Some i => nth_error (raw_args p) i | None => None end with
  | Some prev =>
      if is_option prev && negb (is_long prev) && (2 <? blen prev) then
        let s := chr "-" :: [last prev 0%N] in
        match find (fun o => is_name (short o) s) (available d (path p)) with
        | Some o => if expects_value o then Some s else None
        | None => None
        end
      else None
  | None => None
  end.
(** l.57-335 correct_parsed_command_line *)
Definition correct1 (d : definition) (p : parsed) : parsed :=
  let '(valid, subs, bad) := walk (d_subs d) (path p) in
  match bad with
  | first :: more =>
      (* l.78-152 *)
      let arguments :=
        let args := bad ++ sargs p in
        Parsed (command p) valid (bad ++ raw_args p) (current p) (current_arg p)
          (match ctx p with In_short | In_long => ctx p | _ => In_argument (argument_index args (current p)) None end)
          (opts p) args in
      match more with
      | [] =>
          if str_eqb first (current p) then
            if existsb (sub_starts first) subs && negb (is_option first) then with_context In_sub (with_path valid p)
            else if is_option first then with_context (match ctx p with In_short => In_short | _ => In_long end) (with_path valid p)
            else arguments
          else arguments
      | _ => arguments
      end
  | [] =>
      match value_of_option d p with
      | Some q => q
      | None =>
          match ctx p, subs with
          | In_sub, [] => with_context (In_argument 0 None) p
          | _, _ =>
              match (match ctx p with In_argument _ _ => combined d p | _ => None end) with
              | Some o => with_context (In_value o None) p
              | None =>
                  (* l.214-221 *)
                  let p1 := match ctx p with
                            | In_argument _ _ => if existsb (sub_starts (current p)) subs then with_context In_sub p else p
                            | _ => p
                            end in
                  match more_subs (current p) subs (raw_args p) with
                  | inl v => with_context In_sub (with_path (valid ++ v) p1)
                  | inr (v, subs', n) =>
                      let p2 :=
                        if n =? 0 then p1
                        else
                          let c := if n <? length (raw_args p) then
                                     if (length (raw_args p) =? n + 1) && str_eqb (nth n (raw_args p) []) (current p)
                                     then In_argument 0 None else In_argument (length (sargs p)) None
                                   else In_argument 0 None in
                          let c := if is_option (current p) && negb (existsb (sub_matches (current p)) subs')
                                   then match ctx p with In_short => In_short | In_long => In_long | _ => c end else c in
                          with_context c (with_path (valid ++ v) p1) in
                      match value_of_option d p2 with Some q => q | None => p2 end
                  end
              end
          end
      end
  end.

Variable db : str -> option definition.
Definition correct (p : parsed) : parsed := match db (command p) with Some d => correct1 d p | None => p end.

(** l.503-519 find_command_with_args_arg *)
Fixpoint first_command (i : nat) (defs : list argument) (args : list str) : option (nat * str) :=
  match defs, args with
  | d :: defs, a :: args => match a_type d with Some Command_with_args => Some (i, a) | _ => first_command (S i) defs args end
  | _, _ => None
  end.
Definition command_argument (p : parsed) : option (nat * str) :=
  match db (command p) with Some d => first_command 0 (d_arguments d) (sargs p) | None => None end.

(** format!("{:?}") of a text: which characters are not printed as they are, and how, is an
    oracle *)
Variable printable : char -> bool.
Variable escape_name : char -> str.
Definition debug (s : str) : str :=
  [34%N] ++ flat_map (fun c => if (c =? 34)%N || (c =? 92)%N then [92%N; c]
                              else if printable c then [c] else 92%N :: escape_name c) s ++ [34%N].
(** the tokens behind the first one that is [t] *)
Fixpoint behind (t : str) (l : list str) : list str :=
  match l with [] => [] | x :: r => if str_eqb x t then r else behind t r end.
(** l.521-563 reparse_inner_command *)
Definition inner_line (p : parsed) (name : str) : str :=
  let quote a := if mem_char 32%N a || mem_char 9%N a then debug a else a in
  join_with [32%N] (name :: map quote (behind name (raw_args p)) ++ (match current p with [] => [[]] | _ => [] end)).
Definition inner (p : parsed) (name : str) : parsed := let l := inner_line p name in parse l (blen l).

(** ** Candidates *)
(** command.rs l.191-219 *)
Inductive kind := K_sub | K_short | K_long | K_argument | K_file | K_directory | K_process.
Record candidate := Candidate { text : str; what : kind; priority : nat }.
(** what was found, and the command lines that were given to sh to find it; or the definition of
    a command is wanted (GeneratorError::MissingCommand) *)
Inductive outcome := Missing (c : str) | Found (l : list candidate) (ran : list str).

(** generators/filesystem.rs, generators/system.rs with the database's names, and the values of
    the other types; what sh prints *)
Variable files : str -> list candidate.
Variable commands : str -> list candidate.
Variable other : nat -> str -> list candidate.
Variable fuzzy : str -> str -> bool.
Variable shell : str -> str.

(** generators/script.rs l.107-131: the text given to sh *)
Fixpoint replace_args (i : nat) (args : list str) (s : str) : str :=
  match args with
  | [] => s
  | a :: r => replace_args (S i) r (Dmv_Model.replace (lit "$ARG_" ++ Dmv_Model.show i) a s)
  end.
Definition script_text (template : str) (p : parsed) : str :=
  let s := Dmv_Model.replace (lit "$COMMAND") (command p) template in
  let s := Dmv_Model.replace (lit "$CURRENT_TOKEN") (match current_arg p with Some a => a | None => [] end) s in
  let s := Dmv_Model.replace (lit "$SUBCOMMAND") (hd [] (path p)) s in
  replace_args 0 (sargs p) s.
(** l.135-157 *)
Definition script_values (cur out : str) : list candidate :=
  flat_map (fun line =>
    let t := trim line in
    match t with
    | [] => []
    | _ => let v := match split_once 9%N t with Some (v, _) => v | None => t end in
           if starts_with cur v then [Candidate v K_argument 60] else []
    end) (split_on 10%N out).
(** generators/argument.rs l.206-261 generate_candidates_for_type *)
Definition of_type (t : arg_type) (p : parsed) : list candidate * list str :=
  match t with
  | Choice l => (map (fun c => Candidate c K_argument 60) (filter (fun c => fuzzy c (current p)) l), [])
  | Script template => let s := script_text template p in (script_values (current p) (shell s), [s])
  | Command_with_args => (commands (current p), [])
  | Other_type n => (other n (current p), [])
  end.
(** generators/subcommand.rs l.69-93, generators/option.rs l.82-106 *)
Fixpoint current_sub (subs : list subcommand) (names : list str) : option subcommand :=
  match names with
  | [] => None
  | [n] => find_sub subs n
  | n :: r => match find_sub subs n with Some s => current_sub (s_subs s) r | None => None end
  end.
(** generators/subcommand.rs l.95-106 matched_subcommand_text *)
Definition matched_text (p : str) (s : subcommand) : option str :=
  if starts_with p (s_name s) then Some (s_name s) else find (starts_with p) (s_aliases s).
Definition sub_candidates (p : str) (l : list subcommand) : list candidate :=
  flat_map (fun s => match matched_text p s with Some t => [Candidate t K_sub 100] | None => [] end) l.
(** generators/subcommand.rs l.16-67 *)
Definition gen_sub (d : definition) (p : parsed) : outcome :=
  let (l, ran) :=
    match current_sub (d_subs d) (path p) with
    | Some s => (sub_candidates (current p) (s_subs s), [])
    | None =>
        let l := sub_candidates (current p) (d_subs d) in
        match nth_error (d_arguments d) (length (sargs p)) with
        | Some a => match a_type a with
                    | Some t => let (m, ran) := of_type t p in (l ++ m, ran)
                    | None => (l, [])   (* ArgumentType::String: no candidates *)
                    end
        | None => (l, [])
        end
    end in
  Found (match l with [] => files (current p) | _ => l end) ran.
(** generators/option.rs l.64-80 *)
Definition sub_options (d : definition) (p : parsed) : list coption :=
  d_globals d ++ match current_sub (d_subs d) (path p) with Some s => s_options s | None => [] end.
Definition offered (p : parsed) (k : kind) (o : option str) : list candidate :=
  match o with
  | Some n => if starts_with (current p) n && negb (mem_str n (opts p)) then [Candidate n k 80] else []
  | None => []
  end.
(** l.11-30 and l.32-62 *)
Definition short_candidates (d : definition) (p : parsed) : list candidate :=
  flat_map (fun o => offered p K_short (short o)) (sub_options d p).
Definition long_candidates (d : definition) (p : parsed) : list candidate :=
  flat_map (fun o => offered p K_long (long o) ++ offered p K_short (short o)) (sub_options d p).
(** generators/argument.rs l.263-269 resolve_argument_definition *)
Definition argument_definition (l : list argument) (i : nat) : option argument :=
  match nth_error l i with
  | Some a => Some a
  | None => match rev l with a :: _ => if multiple a then Some a else None | [] => None end
  end.
(** l.53-63: the arguments of the innermost subcommand that is found *)
Fixpoint arguments_of (args : list argument) (subs : list subcommand) (names : list str) : list argument :=
  match names with
  | [] => args
  | n :: r => match find_sub subs n with Some s => arguments_of (s_arguments s) (s_subs s) r | None => args end
  end.
(** l.29-93 generate_argument_candidates, before the inner command is looked at *)
Definition gen_argument (index : nat) (ty : option arg_type) (p : parsed) : list candidate * list str :=
  match ty with
  | Some t => of_type t p
  | None =>
      let (l, ran) :=
        match db (command p) with
        | Some d =>
            match argument_definition (arguments_of (d_arguments d) (d_subs d) (path p)) index with
            | Some a => match a_type a with Some t => of_type t p | None => ([], []) end
            | None => ([], [])
            end
        | None => ([], [])
        end in
      (match l with [] => files (current p) | _ => l end, ran)
  end.
(** l.95-143 generate_option_value_candidates *)
Definition gen_value (name : str) (ty : option arg_type) (p : parsed) : list candidate * list str :=
  let ty := match ty with
            | Some t => Some t
            | None => match db (command p) with
                      | Some d => match find (fun o => matches_name o name) (available d (path p)) with
                                  | Some o => o_type o
                                  | None => None
                                  end
                      | None => None
                      end
            end in
  let (l, ran) := match ty with Some t => of_type t p | None => ([], []) end in
  (match l with [] => files (current p) | _ => l end, ran).

(** generator.rs l.63-103 generate_candidates; [None]: the stack is exhausted *)
Fixpoint generate (depth : nat) (p0 : parsed) : option outcome :=
  match depth with
  | 0 => None
  | S depth =>
      let p := correct p0 in
      let option_candidates (of_definition : definition -> parsed -> list candidate) :=
        (* argument.rs l.145-203 *)
        match command_argument p with
        | Some (_, name) =>
            let l := match db (command p) with Some d => of_definition d p | None => [] end in
            match generate depth (inner p name) with
            | Some (Found m ran) => Some (Found (l ++ m) ran)
            | r => r
            end
        | None => Some (match db (command p) with Some d => Found (of_definition d p) [] | None => Missing (command p) end)
        end in
      match ctx p with
      | In_command => Some (Found (commands (current p)) [])
      | In_sub => Some (match db (command p) with Some d => gen_sub d p | None => Missing (command p) end)
      | In_short => option_candidates short_candidates
      | In_long => option_candidates long_candidates
      | In_value name ty => let (l, ran) := gen_value name ty p in Some (Found l ran)
      | In_argument index ty =>
          let (l, ran) := gen_argument index ty p in
          match command_argument p with
          | Some (i, name) =>
              if i <? index then
                match generate depth (inner p name) with
                | Some (Found m ran') => Some (Found m (ran ++ ran'))
                | r => r
                end
              else Some (Found l ran)
          | None => Some (Found l ran)
          end
      end
  end.

(** integrated.rs l.223-242 convert_to_parsed_command_line; [resolve] is the alias table.  Every
    definition is taken to be loaded. *)
Variable resolve : str -> str.
Definition with_command (c : str) (p : parsed) : parsed :=
  Parsed c (path p) (raw_args p) (current p) (current_arg p) (ctx p) (opts p) (sargs p).
Definition convert (line : str) (pos : nat) : parsed :=
  let p := parse line pos in correct (with_command (resolve (command p)) p).
(** l.368-455 collect_command_candidates, without the loading of missing definitions *)
Definition collect (depth : nat) (line : str) (pos : nat) : option outcome :=
  let p := convert line pos in
  match ctx p with In_command => Some (Found [] []) | _ => generate depth p end.
(** repl/key_handlers/completion.rs l.122-146: the cursor is counted in characters (input.rs) *)
Definition complete_at (depth : nat) (line : str) (cursor : nat) : option outcome := collect depth line cursor.
End Completion.
