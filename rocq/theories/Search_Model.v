(** Which files the chat's tools show: dsh-builtin/src/chatgpt/tool/{gitignore,ls,search,read}.rs.

    Paths are absolute, canonical lists of names (what resolve_tool_path gives is Tools_Model's
    matter).  Names are taken to be UTF-8.  Of the `ignore` library the meaning of one line of an
    ignore file is a parameter; that the last rule that says something decides, that one malformed
    line makes `add` report an error, and that a walk starts at its root without asking the rules
    about the root, are modelled as its documentation tells.  The order in which a folder is read is
    that of the list of its entries. *)
From Verif Require Import Base.
From Verif Require Direnv_Model Lread_Model Frecency_Model.

Definition path := list str.
Fixpoint path_eqb (a b : path) : bool :=
  match a, b with x :: r, y :: t => str_eqb x y && path_eqb r t | [], [] => true | _, _ => false end.
(** Path::strip_prefix *)
Fixpoint strip_prefix (base p : path) : option path :=
  match base, p with
  | [], _ => Some p
  | b :: base', c :: p' => if str_eqb b c then strip_prefix base' p' else None
  | _ :: _, [] => None
  end.

(** ** gitignore.rs *)
(** a rule: ignore, do not ignore, or nothing about this path (a folder or not) *)
Definition rule := path -> bool -> option bool.
Inductive ignore_file := Missing | Unreadable | Lines (ls : list str).
Section Rules.
Variable rule_of : str -> option rule.
(** l.18-22 GitignoreBuilder::add, as a whole: an error when any line is malformed *)
Fixpoint rules (ls : list str) : option (list rule) :=
  match ls with
  | [] => Some []
  | l :: r => match rule_of l, rules r with Some x, Some xs => Some (x :: xs) | _, _ => None end
  end.
(** Gitignore::matched *)
Definition matched (rs : list rule) (p : path) (dir : bool) : option bool :=
  fold_left (fun acc r => match r p dir with Some b => Some b | None => acc end) rs None.
Definition ignores (rs : list rule) (p : path) (dir : bool) : bool := match matched rs p dir with Some true => true | _ => false end.
(** l.36-46: the folders passed on the way down from the base *)
Fixpoint passed (current rest : path) : list path :=
  match rest with [] => [] | c :: r => (current ++ [c]) :: passed (current ++ [c]) r end.
Section Ignored.
Variable is_dir : path -> bool.
Variable git : path -> ignore_file.
(** l.6-53 is_gitignored; [git base] is the file .gitignore in [base] *)
Definition is_ignored (p base : path) : bool :=
  match git base with
  | Missing | Unreadable => false
  | Lines ls =>
      match rules ls with
      | None => false
      | Some rs =>
          ignores rs p (is_dir p) ||
          match strip_prefix base p with
          | Some r => existsb (fun q => negb (path_eqb q p) && ignores rs q true) (passed base r)
          | None => false
          end
      end
  end.
(** read.rs l.40-62, behind resolve_tool_path: [content] is what fs::read_to_string gives *)
Definition read_text (content : path -> option str) (p base : path) : option str :=
  if is_ignored p base then None else content p.

(** ** ls.rs *)
(** [meta]: a folder or not, and the size, of the entry itself (links are not followed) *)
Record dirent := Dirent { name : str; meta : option (bool * N) }.
Definition pad8 (s : str) : str := repeat 32%N (8 - length s) ++ s.
(** l.71-91 *)
Definition entry_line (e : dirent) : str :=
  match meta e with
  | Some (true, _) => lit "d " ++ pad8 (lit "-")
  | Some (false, n) => lit "- " ++ pad8 (Lread_Model.show_nat n)
  | None => lit "? " ++ pad8 (lit "?")
  end ++ lit " " ++ name e ++ [10%N].
Definition before (a b : dirent) : bool := match Frecency_Model.str_cmp (name a) (name b) with Gt => false | _ => true end.
(** l.53-58 *)
Definition shown_entries (dir base : path) (es : list dirent) : list dirent :=
  Frecency_Model.sort before (filter (fun e => negb (is_ignored (dir ++ [name e]) base)) es).
(** l.28-95 behind resolve_tool_path: [None] is an error.  [es] are the entries of the folder, [None] when
    it is none or cannot be read *)
Definition list_folder (said : str) (dir base : path) (es : option (list dirent)) : option str :=
  if is_ignored dir base then None
  else match es with
       | None => None
       | Some l => Some (lit "Directory listing for `" ++ said ++ lit "`:" ++ [10%N] ++
                         match shown_entries dir base l with [] => lit "(empty directory)" | es' => flat_map entry_line es' end)
       end.
End Ignored.
End Rules.

(** ** search.rs *)
(** a file's lines ([None] for one that is not UTF-8), a link or other special file, a folder *)
Inductive node := File (lines : option (list (option str))) | Special | Folder (l : list (str * node)).
Definition is_folder (n : node) : bool := match n with Folder _ => true | _ => false end.
Definition hidden (n : str) : bool := starts_with (lit ".") n.
Section Walk.
(** the walk leaves out hidden names, and in a git repository what its rules ignore *)
Variable repository : bool.
Variable rs : list rule.
Definition skips (p : path) (n : str) (dir : bool) : bool := hidden n || (repository && ignores rs (p ++ [n]) dir).
(** WalkBuilder::new(root) .. build(): the root itself and all below it *)
Fixpoint walk (p : path) (n : node) : list (path * node) :=
  (p, n) ::
  match n with
  | Folder l => (fix go l := match l with
                             | (nm, m) :: r => (if skips p nm (is_folder m) then [] else walk (p ++ [nm]) m) ++ go r
                             | [] => []
                             end) l
  | _ => []
  end.
End Walk.
(** l.76-78, l.115-117: at most 50 *)
Definition max_results : nat := 50.
Fixpoint collect (hit : path * node -> option str) (n : nat) (es : list (path * node)) : list str :=
  match es with
  | [] => []
  | e :: r =>
      if max_results <=? n then []
      else match hit e with Some x => x :: collect hit (S n) r | None => collect hit n r end
  end.
Definition shown (p : path) : str := join_with (lit "/") p.
(** l.127-145: the first line with the query *)
Fixpoint first_line (query : str) (i : nat) (ls : list (option str)) : option (nat * str) :=
  match ls with
  | [] => None
  | Some l :: r => if contains query l then Some (i, l) else first_line query (S i) r
  | None :: r => first_line query (S i) r
  end.
Definition content_hit (query : str) (cwd : path) (e : path * node) : option str :=
  match snd e with
  | File (Some ls) =>
      match first_line query 0 ls, strip_prefix cwd (fst e) with
      | Some (i, l), Some r => Some (shown r ++ lit ":" ++ Lread_Model.show_nat (N.of_nat (i + 1)) ++ lit ": " ++ trim l)
      | _, _ => None
      end
  | _ => None
  end.

(** glob::Pattern with the default options.  Character classes are not modelled *)
Inductive token := Char (c : char) | AnyChar | AnySequence | AnyRecursive.
Inductive outcome := Match | Sub | Entire.
(** Pattern::matches_from; the outcome [Entire]: no text that is a tail of this one can match either *)
Fixpoint matches_from (ts : list token) (s : str) {struct ts} : outcome :=
  match ts with
  | [] => match s with [] => Match | _ => Sub end
  | AnySequence :: r =>
      (fix go (s : str) : outcome :=
         match matches_from r s with
         | Sub => match s with [] => matches_from r [] | _ :: s' => go s' end
         | m => m
         end) s
  | AnyRecursive :: r =>
      match matches_from r s with
      | Sub => (fix go (s : str) : outcome :=
                  match s with
                  | [] => matches_from r []
                  | c :: s' => if (c =? chr "/")%N then match matches_from r s' with Sub => go s' | m => m end else go s'
                  end) s
      | m => m
      end
  | AnyChar :: r => match s with [] => Entire | _ :: s' => matches_from r s' end
  | Char c :: r => match s with [] => Entire | x :: s' => if (x =? c)%N then matches_from r s' else Sub end
  end.
(** the tokens of a query without brackets and without two stars in a row *)
Definition token_of (c : char) : token := if (c =? chr "*")%N then AnySequence else if (c =? chr "?")%N then AnyChar else Char c.
Definition pattern (query : str) : list token := AnyRecursive :: map token_of query.
Definition glob (query : str) (s : str) : bool := match matches_from (pattern query) s with Match => true | _ => false end.
Definition absolute (p : path) : str := match p with [] => lit "/" | _ => flat_map (fun c => chr "/" :: c) p end.
(** l.80-104: the whole path or the name *)
Definition name_hit (query : str) (cwd : path) (e : path * node) : option str :=
  if is_folder (snd e) then None
  else if glob query (absolute (fst e)) || glob query (last (fst e) []) then option_map shown (strip_prefix cwd (fst e)) else None.
Inductive kind := By_name | By_content.
Definition hit_of (k : kind) := match k with By_name => name_hit | By_content => content_hit end.
Definition results (repository : bool) (rs : list rule) (k : kind) (query : str) (cwd root : path) (n : node) : list str :=
  collect (hit_of k query cwd) 0 (walk repository rs root n).
(** l.153-170 *)
Definition answer (query said : str) (found : list str) : str :=
  let head := lit "Search results for `" ++ query ++ lit "` in `" ++ said ++ lit "`:" ++ [10%N] in
  match found with
  | [] => head ++ lit "(no matches found)"
  | _ => let out := head ++ flat_map (fun r => lit "- " ++ r ++ [10%N]) found in
         out ++ if max_results <? length (Direnv_Model.lines out) then lit "... (results truncated)" else []
  end.
