(** The file tools offered to the language model:
    dsh-builtin/src/chatgpt/tool/{mod,read,edit,ls,search}.rs.

    The path argument is the text after shellexpand::full (mod.rs l.180-181), which is taken as
    given.  The .gitignore test (gitignore.rs) is an arbitrary predicate. *)
From Verif Require Import Base Fs_Model Serve_Model.

(** mod.rs l.98-114 normalize_path *)
Definition normalize_path (p : upath) : path :=
  fold_left (fun acc c => if str_eqb c dotdot then removelast acc else acc ++ [c]) (comps p) [].

(** mod.rs l.123-125 canonicalize_or_normalize *)
Definition canonicalize_or_normalize (f : fs) (p : upath) : path :=
  match canonicalize f p with Some q => q | None => normalize_path p end.

(** mod.rs l.127-161 resolve_with_existing_ancestor.  The components come last first;
    [tail] is must_dir of the text still under examination.  The suffix is built with
    PathBuf::from(name).join(suffix), starting from the empty path: it ends in a slash,
    and so does the result. *)
Fixpoint existing_ancestor (f : fs) (rcs : list str) (tail : bool) (suffix : list str) : option upath :=
  match canonicalize f (UPath true (rev rcs) tail) with
  | Some c => Some (UPath true (c ++ suffix) (match suffix with [] => false | _ => true end))
  | None =>
      match rcs with
      | [] => None
      | name :: rest => if str_eqb name dotdot then None else existing_ancestor f rest false (name :: suffix)
      end
  end.

Section Tools.
Variable cwd : upath.       (** the current directory *)
Variable skills : upath.    (** ~/.config/dsh/skills *)
Variable ignored : path -> bool.

(** mod.rs l.163-173 allowed_tool_roots, is_path_within_tool_roots *)
Definition roots (f : fs) : list path := [canonicalize_or_normalize f cwd; canonicalize_or_normalize f skills].
Definition within (f : fs) (p : path) : bool := existsb (fun r => path_starts_with r p) (roots f).

(** mod.rs l.175-210 resolve_tool_path *)
Definition resolve_tool_path (f : fs) (expanded : str) : option upath :=
  let p := parse_path expanded in
  let a := if absolute p then p else join cwd p in
  let resolved := match canonicalize f a with
                  | Some c => Some (canonical c)
                  | None => existing_ancestor f (rev (comps a)) (must_dir a) []
                  end in
  match resolved with
  | Some r => if within f (comps r) then Some r else None
  | None => None
  end.

(** read.rs l.28-60: the file read and its content *)
Definition read_tool (f : fs) (expanded : str) : option (path * str) :=
  match resolve_tool_path f expanded with
  | Some r => if ignored (comps r) then None else read_file f r
  | None => None
  end.

(** edit.rs l.33-89: directories made, file written, file system after *)
Record edit_result := Edit { made : list path; written : option path; after : fs }.
Definition edit_tool (f : fs) (expanded contents : str) (confirmed : bool) : edit_result :=
  match resolve_tool_path f expanded with
  | None => Edit [] None f
  | Some r =>
      if ignored (comps r) then Edit [] None f
      else
        let '(made, f1, ok) := match rev (comps r) with
                               | [] => ([], f, true)
                               | _ :: rparent => mkdirs f rparent
                               end in
        if negb ok then Edit made None f1
        else if negb confirmed then Edit made None f1
        else match write_file f1 r contents with
             | Some (q, f2) => Edit made (Some q) f2
             | None => Edit made None f1
             end
  end.

(** ls.rs l.28-56 and search.rs l.52-64: the directory whose entries are listed, or
    below which files are searched *)
Definition listed_dir (f : fs) (expanded : str) : option path :=
  match resolve_tool_path f expanded with
  | Some r => match canonicalize f r with
              | Some q => if is_dir_at f q then Some q else None
              | None => None
              end
  | None => None
  end.
End Tools.

(** ** execute.rs: the command tool.  [split] is shell_words::split, [is_skill] the test
    of l.219-233, [confirm] the user's answer. *)
Section Execute.
Variable split : str -> option (list str).

(** l.144-153 contains_shell_expression *)
Definition contains_shell_expression (tokens : list str) : bool :=
  existsb (fun t => contains (lit "$(") t || contains [96%N] t || contains [10%N] t
                    || existsb (fun c => existsb (fun m => (c =? m)%N) (lit "|&;><")) t) tokens.

(** l.155-161 program_name: the last component, the text itself when there is none
    (Path::file_name is None for a path ending in ".." and for the root) *)
Definition program_name (p : str) : str :=
  match rev (comps (parse_path p)) with
  | w :: _ => if str_eqb w dotdot then p else w
  | [] => p
  end.
(** l.163-165 *)
Definition is_path_qualified (p : str) : bool :=
  contains [slash] p || contains [92%N] p || absolute (parse_path p).

Definition mem (s : str) (l : list str) : bool := existsb (str_eqb s) l.
(** l.167-181 invokes_string_eval; eq_ignore_ascii_case through [lower] *)
Definition lower_ascii (c : char) : char := if ((65 <=? c) && (c <=? 90))%N then (c + 32)%N else c.
Definition invokes_string_eval (program : str) (args : list str) : bool :=
  let n := program_name program in
  if mem n [lit "sh"; lit "bash"; lit "zsh"; lit "fish"; lit "ksh"] then existsb (fun a => mem a [lit "-c"; lit "-lc"]) args
  else if mem n [lit "python"; lit "python3"; lit "perl"; lit "ruby"; lit "node"] then existsb (fun a => mem a [lit "-c"; lit "-e"]) args
  else if mem n [lit "pwsh"; lit "powershell"] then existsb (fun a => mem (map lower_ascii a) [lit "-c"; lit "-command"]) args
  else false.

(** l.183-194 allowlist_program_matches *)
Definition allowlist_program_matches (entry program : str) : bool :=
  if is_path_qualified entry then str_eqb entry program
  else if is_path_qualified program then false
  else str_eqb (program_name entry) (program_name program).
(** l.196-211 *)
Definition allowlist_entry_matches (entry program : str) (args : list str) : bool :=
  match split entry with
  | Some (e :: rest) =>
      if negb (allowlist_program_matches e program) then false
      else match rest with [] => true | _ => if list_eq_dec str_eq_dec rest args then true else false end
  | _ => false
  end.
(** l.213-217 *)
Definition command_is_allowlisted (program : str) (args : list str) (allowlist : list str) : bool :=
  existsb (fun e => allowlist_entry_matches e program args) allowlist.

(** l.42-104 run, up to the start of the process: what is started, and whether the user
    was asked *)
Definition execute_tool (is_skill : str -> bool) (confirm : str -> bool) (allowlist : list str) (command : str)
  : option (str * list str) :=
  if forallb is_whitespace command then None
  else match split command with
       | Some (program :: args) =>
           if contains_shell_expression (program :: args) then None
           else if invokes_string_eval program args then None
           else
             let allowed := command_is_allowlisted program args allowlist in
             let skill := is_skill program in
             if negb allowed && negb skill then None
             else if skill && negb (confirm command) then None
             else Some (program, args)
       | _ => None
       end.
End Execute.
