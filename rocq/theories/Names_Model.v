(** The builtins alias and abbr. *)
From Verif Require Import Base Env_Model Frecency_Model.

Section Names.
(** char::is_alphabetic and char::is_alphanumeric, which the standard library decides from the
    Unicode tables *)
Variable alphabetic alphanumeric : char -> bool.

(** What a builtin writes to its output: a text, or a table with these rows (the tables of the
    crate tabled are outside the model: only their rows are kept).  Writes succeed. *)
Inductive said := Says (t : str) | Rows (r : list (str * str)).
Record answer := Answer { table : map_; told : list said; complaints : list str; status : nat }.

(** dsh-builtin/src/alias.rs l.150-158 remove_surrounding_quotes; the slice is by bytes, and
    both ends are characters of one byte *)
Definition remove_surrounding_quotes (s : str) : str :=
  if (2 <=? blen s) && ((starts_with [34%N] s && ends_with [34%N] s) || (starts_with [39%N] s && ends_with [39%N] s))
  then removelast (tl s) else s.

(** alias.rs l.162-183 is_valid_alias_name *)
Definition is_valid_alias_name (name : str) : bool :=
  match name with
  | [] => false
  | c :: r => (alphabetic c || (c =? 95)%N) && forallb (fun c => alphanumeric c || (c =? 95)%N || (c =? 45)%N) r
  end.

(** str::is_empty *)
Definition is_nil (s : str) : bool := match s with [] => true | _ => false end.

(** str::splitn(2, c): the text before the first c, and the text behind it if there is one *)
Fixpoint cut_at (c : char) (s : str) : str * option str :=
  match s with
  | [] => ([], None)
  | x :: r => if (x =? c)%N then ([], Some r) else let '(a, b) := cut_at c r in (x :: a, b)
  end.

(** alias.rs l.96-147 set_alias_from_assignment, with proxy/mod.rs l.179-182 set_alias *)
Definition set_alias_from_assignment (t : map_) (a : str) : answer :=
  match cut_at 61%N a with
  | (_, None) => Answer t [] [lit "alias: invalid assignment format"] 1
  | (n, Some c) =>
      let name := trim n in
      let command := trim c in
      if is_nil name then Answer t [] [lit "alias: empty alias name"] 1
      else if is_nil command then Answer t [] [lit "alias: empty command (use unalias to remove aliases)"] 1
      else
        let command := remove_surrounding_quotes command in
        if negb (is_valid_alias_name name) then Answer t [] [lit "alias: invalid alias name: " ++ name] 1
        else Answer (insert name command t) [] [] 0
  end.

(** alias.rs l.75-93 show_specific_alias, with proxy/mod.rs l.174-177 get_alias *)
Definition show_specific_alias (t : map_) (name : str) : answer :=
  match assoc name t with
  | Some c => Answer t [Says (name ++ lit "='" ++ c ++ lit "'")] [] 0
  | None => Answer t [] [lit "alias: " ++ name ++ lit ": not found"] 1
  end.

(** alias.rs l.46-72 list_all_aliases *)
Definition name_leb (a b : str * str) : bool := match str_cmp (fst a) (fst b) with Gt => false | _ => true end.
Definition list_all_aliases (t : map_) : answer :=
  match t with
  | [] => Answer t [Says (lit "No aliases defined")] [] 0
  | _ => Answer t [Rows (sort name_leb t)] [] 0
  end.

(** alias.rs l.19-43 command *)
Definition alias_command (t : map_) (argv : list str) : answer :=
  match argv with
  | [_] => list_all_aliases t
  | [_; a] => if mem_char 61%N a then set_alias_from_assignment t a else show_specific_alias t a
  | _ => Answer t [] [lit "alias: invalid number of arguments"; lit "Usage: alias [name[=command]]"] 1
  end.

(** dsh-builtin/src/abbr.rs l.103-121 list_all_abbreviations, with proxy/mod.rs l.206-214 list_abbrs:
    the order of a hash table, here any order *)
Definition list_all_abbreviations (t : map_) : answer :=
  match t with
  | [] => Answer t [Says (lit "No abbreviations defined")] [] 0
  | _ => Answer t [Rows t] [] 0
  end.

(** abbr.rs l.124-134 show_specific_abbreviation *)
Definition show_specific_abbreviation (t : map_) (name : str) : answer :=
  match assoc name t with
  | Some x => Answer t [Says (lit "abbr " ++ name ++ lit " '" ++ x ++ lit "'")] [] 0
  | None => Answer t [] [lit "abbr: no abbreviation named '" ++ name ++ lit "'"] 1
  end.

(** abbr.rs l.137-155 add_abbreviation, with proxy/mod.rs l.189-195 add_abbr; the arrow is U+2192 *)
Definition add_abbreviation (t : map_) (name expansion : str) : answer :=
  if is_nil name || mem_char 32%N name || mem_char 9%N name
  then Answer t [] [lit "abbr: invalid abbreviation name (cannot contain spaces)"] 1
  else Answer (insert name expansion t) [Says (lit "Added abbreviation: " ++ name ++ [32; 8594; 32]%N ++ expansion)] [] 0.

(** abbr.rs l.158-168 remove_abbreviation, with proxy/mod.rs l.197-204 remove_abbr *)
Definition remove_abbreviation (t : map_) (name : str) : answer :=
  match assoc name t with
  | Some _ => Answer (remove name t) [Says (lit "Removed abbreviation: " ++ name)] [] 0
  | None => Answer t [] [lit "abbr: no abbreviation named '" ++ name ++ lit "'"] 1
  end.

Definition usage : str := lit "Usage: abbr [-a|-e|-l|-s] [name] [expansion]".
Definition is_add (o : str) : bool := str_eqb o (lit "-a") || str_eqb o (lit "--add").
(** abbr.rs l.26-100 command *)
Definition abbr_command (t : map_) (argv : list str) : answer :=
  match argv with
  | [_] => list_all_abbreviations t
  | [_; a] =>
      if mem_str a [lit "-l"; lit "-s"; lit "--list"] then list_all_abbreviations t
      else if starts_with (lit "-e") a then Answer t [] [lit "abbr: -e option requires abbreviation name"; lit "Usage: abbr -e <name>"] 1
      else show_specific_abbreviation t a
  | [_; o; name] =>
      if str_eqb o (lit "-e") || str_eqb o (lit "--erase") then remove_abbreviation t name
      else if is_add o then Answer t [] [lit "abbr: -a option requires expansion"; lit "Usage: abbr -a <name> <expansion>"] 1
      else Answer t [] [lit "abbr: invalid option"; usage] 1
  | [_; o; name; x] =>
      if is_add o then add_abbreviation t name x else Answer t [] [lit "abbr: invalid option"; usage] 1
  | _ :: o :: name :: rest =>
      if is_add o then add_abbreviation t name (join_with (lit " ") rest) else Answer t [] [lit "abbr: too many arguments"; usage] 1
  | _ => Answer t [] [lit "abbr: too many arguments"; usage] 1
  end.
End Names.

(** repl/handler.rs l.184-198, the action ExpandAbbreviationAndInsertSpace: the line after the
    space bar is pressed (completion and its cache left out).  None: slicing the line would panic *)
From Verif Require Import Editor_Model.
Definition press_space (cw : char -> nat) (abbreviations : map_) (e : ed) : option ed :=
  let spaced e := Editor_Model.insert cw e 32%N in
  match get_current_word_for_abbr e with
  | None => None
  | Some None => spaced e
  | Some (Some w) =>
      match Env_Model.assoc w abbreviations with
      | None => spaced e
      | Some x => match replace_current_word cw e x with Some (e', _) => spaced e' | None => None end
      end
  end.
