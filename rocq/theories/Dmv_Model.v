(** Bulk renaming: the [dmv] builtin (dsh-builtin/src/dmv.rs). *)
From Verif Require Import Base.

Section Class.
(** What the regex crate makes of the characters between brackets; [None]: it refuses them.
    Simplification: a class is taken to end at the first closing bracket, as dmv.rs copies it
    (the crate also accepts a class whose first character is a closing bracket). *)
Variable class : str -> option (char -> bool).

(** ** The pattern *)
(** One regex atom: a character of a set once, or as often as possible *)
Inductive item := One (p : char -> bool) | Many (p : char -> bool).
Inductive part := Out (i : item) | Group (l : list item).
Definition is_c (c d : char) : bool := (d =? c)%N.
Definition not_slash (d : char) : bool := negb (d =? chr "/")%N.
(** the dot of a regex *)
Definition not_newline (d : char) : bool := negb (d =? 10)%N.

(** l.276-312 glob_to_regex, the items instead of the text of the regex.  [cls] holds the
    characters of an open class, last first; a class left open makes a regex the crate refuses *)
Fixpoint group_items (cls : option str) (s : str) : option (list item) :=
  match cls with
  | Some acc =>
      match s with
      | [] => None
      | c :: r => if (c =? chr "]")%N
                  then match class (rev acc), group_items None r with Some p, Some l => Some (One p :: l) | _, _ => None end
                  else group_items (Some (c :: acc)) r
      end
  | None =>
      match s with
      | [] => Some []
      | c :: r =>
          if (c =? chr "*")%N then
            match r with
            | d :: r' => if (d =? chr "*")%N then match group_items None r' with Some l => Some (Many not_newline :: l) | None => None end
                         else match group_items None r with Some l => Some (Many not_slash :: l) | None => None end
            | [] => Some [Many not_slash]
            end
          else if (c =? chr "?")%N then match group_items None r with Some l => Some (One not_slash :: l) | None => None end
          else if (c =? chr "[")%N then group_items (Some []) r
          else match group_items None r with Some l => Some (One (is_c c) :: l) | None => None end
      end
  end.

(** l.190-274 parse_pattern: the glob that selects files and the regex that captures.  [MGroup]
    carries the nesting depth and the content so far, last first *)
Inductive mode := MTop | MGroup (depth : nat) (acc : str) | MClass (acc : str).
Definition add (g : str) (p : option part) (r : option (str * list part)) : option (str * list part) :=
  match p, r with Some p, Some (gl, ps) => Some (g ++ gl, p :: ps) | _, _ => None end.
Definition group_part (acc : str) : option part := match group_items None (rev acc) with Some l => Some (Group l) | None => None end.
Fixpoint parse (m : mode) (s : str) : option (str * list part) :=
  match m with
  | MGroup d acc =>
      match s with
      | [] => None
      | c :: r => if (c =? chr "(")%N then parse (MGroup (S d) (c :: acc)) r
                  else if (c =? chr ")")%N then
                    match d with
                    | 0 => None
                    | 1 => add (lit "*") (group_part acc) (parse MTop r)
                    | S d' => parse (MGroup d' (c :: acc)) r
                    end
                  else parse (MGroup d (c :: acc)) r
      end
  | MClass acc =>
      match s with
      | [] => None
      | c :: r => if (c =? chr "]")%N
                  then add (lit "[" ++ rev acc ++ lit "]") (match class (rev acc) with Some p => Some (Out (One p)) | None => None end) (parse MTop r)
                  else parse (MClass (c :: acc)) r
      end
  | MTop =>
      match s with
      | [] => Some ([], [])
      | c :: r =>
          if (c =? chr "(")%N then parse (MGroup 1 []) r
          else if (c =? chr "*")%N then
            match r with
            | d :: r' => if (d =? chr "*")%N then add (lit "**") (Some (Out (Many not_newline))) (parse MTop r')
                         else add (lit "*") (Some (Out (Many not_slash))) (parse MTop r)
            | [] => Some (lit "*", [Out (Many not_slash)])
            end
          else if (c =? chr "?")%N then add (lit "?") (Some (Out (One not_slash))) (parse MTop r)
          else if (c =? chr "[")%N then parse (MClass []) r
          (* a closing parenthesis is copied into the regex, which the crate then refuses *)
          else if (c =? chr ")")%N then None
          else add [c] (Some (Out (One (is_c c)))) (parse MTop r)
      end
  end.
Definition parse_pattern (pattern : str) : option (str * list part) := parse MTop pattern.
End Class.

(** ** Finding files *)
(** l.377-424 pattern_match_impl; [None]: the slice at l.399 is inside a character.  The loop
    over byte offsets visits every boundary in turn and, behind a character of more than one
    byte, an offset inside it. *)
Fixpoint glob_match (pat text : str) : option bool :=
  match pat with
  | [] => Some (match text with [] => true | _ => false end)
  | p :: rest =>
      if (p =? chr "*")%N then
        match rest with
        | [] => Some true
        | _ =>
            (fix each (t : str) : option bool :=
               match glob_match rest t with
               | None => None
               | Some true => Some true
               | Some false => match t with [] => Some false | c :: t' => if utf8_len c =? 1 then each t' else None end
               end) text
        end
      else match text with
           | [] => Some false
           | c :: t => if (p =? chr "?")%N then glob_match rest t else if (c =? p)%N then glob_match rest t else Some false
           end
  end.
(** l.345-366 find_matches_in_dir over the names of a directory in listing order *)
Fixpoint find_in (glob : str) (names : list str) : option (list str) :=
  match names with
  | [] => Some []
  | n :: r => match glob_match glob n with
              | None => None
              | Some b => match find_in glob r with Some l => Some (if b then n :: l else l) | None => None end
              end
  end.
(** l.318-343 find_matches_recursive: with a leading [**/] all directories below are searched
    too.  [below] are the names in them; what is found there is kept as its name only, since
    the rest of the code looks at nothing else *)
Definition recursive : str := lit "**/".
Definition find (glob : str) (names below : list str) : option (list str) :=
  if starts_with recursive glob then find_in (skipn 3 glob) (names ++ below) else find_in glob names.

(** ** The new name *)
(** the prefixes made of characters of a set, longest first *)
Fixpoint runs (p : char -> bool) (s : str) : list (str * str) :=
  match s with
  | [] => [([], [])]
  | c :: t => if p c then map (fun xu => (c :: fst xu, snd xu)) (runs p t) ++ [([], s)] else [([], s)]
  end.
(** the ways to match items at the start of a text, in the order a backtracking matcher tries them *)
Fixpoint items_match (l : list item) (s : str) : list (str * str) :=
  match l with
  | [] => [([], s)]
  | One p :: r => match s with c :: t => if p c then map (fun xu => (c :: fst xu, snd xu)) (items_match r t) else [] | [] => [] end
  | Many p :: r => flat_map (fun xu => map (fun yv => (fst xu ++ fst yv, snd yv)) (items_match r (snd xu))) (runs p s)
  end.
(** the captures of the ways to match a whole text *)
Fixpoint parts_match (l : list part) (s : str) : list (list str) :=
  match l with
  | [] => match s with [] => [[]] | _ => [] end
  | Out i :: r => flat_map (fun xu => parts_match r (snd xu)) (items_match [i] s)
  | Group g :: r => flat_map (fun xu => map (cons (fst xu)) (parts_match r (snd xu))) (items_match g s)
  end.
(** Regex::captures of the anchored regex: leftmost-first semantics *)
Definition captures (l : list part) (name : str) : option (list str) := hd_error (parts_match l name).

(** str::replace: non-overlapping occurrences from the left *)
Fixpoint replace_from (from to : str) (skip : nat) (s : str) : str :=
  match s with
  | [] => []
  | c :: t => match skip with
              | S k => replace_from from to k t
              | 0 => if starts_with from s then to ++ replace_from from to (length from - 1) t else c :: replace_from from to 0 t
              end
  end.
Definition replace (from to s : str) : str := replace_from from to 0 s.
(** format!("{i}") of a number *)
Fixpoint show_fuel (f n : nat) : str :=
  match f with
  | 0 => []
  | S f' => if n <? 10 then [N.of_nat (48 + n)] else show_fuel f' (n / 10) ++ [N.of_nat (48 + n mod 10)]
  end.
Definition show (n : nat) : str := show_fuel (S n) n.
Definition placeholder (i : nat) : str := chr "$" :: show i.
(** l.442-452 *)
Fixpoint substitute (i : nat) (caps : list str) (s : str) : str :=
  match caps with [] => s | c :: r => substitute (S i) r (replace (placeholder i) c s) end.
Definition new_name (replacement name : str) (caps : list str) : str := substitute 1 caps (replace (lit "$0") name replacement).
(** l.426-462 generate_replacement for a file of the current directory: the new name in it *)
Definition generate (ps : list part) (replacement name : str) : option str :=
  match captures ps name with Some caps => Some (new_name replacement name caps) | None => None end.
(** l.132-138 *)
Definition plan (ps : list part) (replacement : str) (found : list str) : list (str * str) :=
  flat_map (fun n => match generate ps replacement n with Some m => [(n, m)] | None => [] end) found.

(** ** Renaming *)
(** an entry of the directory: what it is, and whether it is a link to nothing *)
Record entry := Entry { ident : nat; dangling : bool }.
Definition dir := list (str * entry).
Fixpoint lookup (d : dir) (n : str) : option entry :=
  match d with [] => None | (m, e) :: r => if str_eqb m n then Some e else lookup r n end.
(** Path::exists follows links *)
Definition exists_at (d : dir) (n : str) : bool := match lookup d n with Some e => negb (dangling e) | None => false end.
(** l.464-490 check_rename_conflicts, [true]: no conflict *)
Fixpoint no_conflict (d : dir) (force : bool) (seen : list str) (ops : list (str * str)) : bool :=
  match ops with
  | [] => true
  | (_, m) :: r => negb (exists_at d m && negb force) && negb (mem_str m seen) && no_conflict d force (m :: seen) r
  end.
(** rename(2) inside one directory, when it succeeds: the old entry takes the place of the new
    one; of one name to itself nothing happens *)
Definition move (d : dir) (a b : str) : dir :=
  if str_eqb a b then d
  else map (fun ne => if str_eqb (fst ne) a then (b, snd ne) else ne) (filter (fun ne => negb (str_eqb (fst ne) b)) d).
(** a name that stays in the directory; the model stops at other new names *)
Definition plain_name (n : str) : bool :=
  negb (mem_char (chr "/") n) && negb (mem_char 0%N n) && negb (str_eqb n []) && negb (str_eqb n (lit ".")) && negb (str_eqb n (lit "..")).
Inductive outcome :=
| Crash                        (** a panic *)
| Refused                      (** an error before any renaming *)
| Stopped (d : dir)            (** a rename failed; those before it are done *)
| Renamed (d : dir) (count : nat)
| Elsewhere.                   (** a new name outside the directory: not modelled *)
Section Kernel.
(** whether the kernel carries out a rename *)
Variable allowed : dir -> str -> str -> bool.
(** l.145-185 *)
Fixpoint perform (dry : bool) (d : dir) (count : nat) (ops : list (str * str)) : outcome :=
  match ops with
  | [] => Renamed d count
  | (a, b) :: r =>
      if dry then perform dry d (S count) r
      else match lookup d a with
           | Some _ => if allowed d a b then perform dry (move d a b) (S count) r else Stopped d
           | None => Stopped d
           end
  end.
Variable class : str -> option (char -> bool).
(** l.111-188 execute_dmv *)
Definition dmv (pattern replacement : str) (dry force : bool) (d : dir) (below : list str) : outcome :=
  match parse_pattern class pattern with
  | None => Refused
  | Some (glob, ps) =>
      match find glob (map fst d) below with
      | None => Crash
      | Some found =>
          let ops := plan ps replacement found in
          if forallb (fun op => plain_name (snd op)) ops then
            if no_conflict d force [] ops then perform dry d 0 ops else Refused
          else Elsewhere
      end
  end.
End Kernel.
