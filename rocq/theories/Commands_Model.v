(** The commands and files offered for a word when nothing else is known about it:
    dsh/src/completion/commands.rs, dsh/src/completion/selection.rs l.283-512 and dirs.rs l.37-46.

    The fuzzy matcher (fuzzy.rs l.8-13 is modelled, the matcher behind it is [fuzzy]), the expansion of the
    tilde and std::path's parent and file_name are parameters.  The menu itself is modelled elsewhere. *)
From Verif Require Import Base.
From Verif Require Frecency_Model Menu_Model.

(** ** what is on disk *)
Inductive kind := Regular | Directory | Link | Special.
(** an entry of a directory, as DirEntry::file_type and DirEntry::metadata tell, which do not follow links;
    names that are no text are not listed here (they are skipped) *)
Record entry := Entry { name : str; what : kind; x_bits : bool }.
Record world := World {
  read_dir : str -> option (list entry); is_file : str -> bool; is_dir : str -> bool; canonical : str -> option str }.

(** Candidate::Item with its description "(file)", "(directory)" or "(command)" *)
Inductive label := File | Dir | Command.
Definition item : Type := str * label.

(** dirs.rs l.37-46 is_executable; the mode of a link is 0777 *)
Definition executable (e : entry) : bool := match what e with Link => true | _ => x_bits e end.
(** the order of texts and of file names is that of their bytes, which is that of the characters *)
Definition text_leb (a b : str) : bool := match Frecency_Model.str_cmp a b with Gt => false | _ => true end.

Section Matching.
Variable fuzzy : str -> str -> bool.
(** fuzzy.rs l.8-13 *)
Definition matches (q n : str) : bool := match q with [] => true | _ => fuzzy n q end.

(** ** commands.rs *)

(** l.53-76 the entry is taken, apart from what was seen *)
Definition taken (q : str) (e : entry) : bool :=
  matches q (name e) && match what e with Regular | Link => true | _ => false end && executable e.
(** l.80-84 *)
Fixpoint push (ns seen : list str) : list item * list str :=
  match ns with
  | [] => ([], seen)
  | n :: r => if mem_str n seen then push r seen else let (l, s) := push r (n :: seen) in ((n, Command) :: l, s)
  end.
(** l.40-88 get_executables_into *)
Definition get_executables (w : world) (dir q : str) (seen : list str) : list item * list str :=
  match read_dir w dir with
  | Some es =>
      push (Frecency_Model.sort text_leb (map name (filter (fun e => negb (mem_str (name e) seen) && taken q e) es))) seen
  | None => ([], seen)
  end.
(** l.28-30 *)
Fixpoint from_paths (w : world) (q : str) (paths seen : list str) : list item :=
  match paths with
  | [] => []
  | d :: r => let (l, s) := get_executables w d q seen in l ++ from_paths w q r s
  end.
(** l.8-37 get_commands *)
Definition get_commands (w : world) (paths : list str) (q : str) : list item :=
  (if starts_with (lit "/") q && is_file w q then [(q, Command)] else []) ++
  (if starts_with (lit "./") q && is_file w q then [(q, Command)] else []) ++
  from_paths w q paths [].

(** l.120-124 the text after the last slash *)
Definition base (t : str) : str := last (split_on (chr "/") t) [].
(** l.126-170 one candidate; the index kept for a name is where it stands in the result *)
Fixpoint put (x : item) (res : list item) : list item :=
  match res with
  | [] => [x]
  | y :: r =>
      if str_eqb (base (fst y)) (base (fst x)) then
        match snd y, snd x with File, Command => x :: r | _, _ => y :: r end
      else y :: put x r
  end.
(** l.99-179 deduplicate_candidates *)
Definition deduplicate (items : list item) : list item := fold_left (fun res x => put x res) items [].

(** ** selection.rs *)

(** l.448-512 get_file_completions_with_filter_sync.  The names of a directory are different, so that the set of the
    candidates in their order is the sorted list. *)
Definition by_name (a b : entry) : bool := text_leb (name a) (name b).
Definition files (w : world) (dir prefix q : str) : list item :=
  let prefix := match prefix with [] => [] | _ => if ends_with (lit "/") prefix then prefix else prefix ++ lit "/" end in
  match read_dir w dir with
  | Some es =>
      map (fun e => (prefix ++ name e, match what e with Regular => File | _ => Dir end))
          (Frecency_Model.sort by_name (filter (fun e => matches q (name e)) es))
  | None => []
  end.

Variables (tilde : str -> str) (parent file_name : str -> option str).
Definition is_empty (s : str) : bool := match s with [] => true | _ => false end.
(** l.371-388: where to look, for what, and whether only there *)
Definition place (w : world) (cwd q : str) : str * str * bool :=
  let x := tilde q in
  if is_dir w x then (x, [], true)
  else match parent x with
       | Some p => match file_name x with
                   | Some f => (p, f, negb (is_empty p))
                   | None => (x, [], negb (is_empty p))
                   end
       | None => (cwd, q, false)
       end.
(** l.347-421 collect_current_context_candidates; the current directory can be told *)
Definition collect (w : world) (paths : list str) (cwd q : str) : list item :=
  let '(p, f, only) := place w cwd q in
  let dir := match canonical w p with Some d => d | None => cwd end in
  let items := files w dir p f in
  if only then items else deduplicate (items ++ get_commands w paths q).
End Matching.

(** ** l.22-25, l.283-338 completion_from_current_with_prompt: what is put to the user at [now], and the cache
    afterwards; [fresh] is what [collect] gives at that moment.  Nothing is shown for an empty list. *)
Definition ttl : nat := 3000.
Definition current (now : nat) (q : str) (fresh : list item) (c : Menu_Model.cache item) : list item * Menu_Model.cache item :=
  match Menu_Model.lookup fst now q c with
  | Some (k, l, _) => (l, Menu_Model.extend ttl now k c)
  | None => (fresh, match fresh with [] => c | _ => Menu_Model.set ttl now q fresh c end)
  end.
