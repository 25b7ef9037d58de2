(** Where the definitions of completions come from: dsh/src/completion/json_loader.rs,
    dsh/src/completion/command.rs l.138-165 and dsh/src/completion/integrated.rs l.244-268.

    Reading a file and parsing its JSON are one oracle: what is at a path is nothing, something that is
    no definition, or a definition.  Descriptions are left out. *)
From Verif Require Import Base Comp_Model.

(** command.rs l.6-20; the names of the top-level arguments stand beside them *)
Record file := File { f_command : str; f_def : definition; f_names : list str }.
Inductive look := Absent | Broken | Is (f : file).

Definition blank_in (s : str) : bool := existsb is_whitespace s.
(** json_loader.rs l.279-304 validate_option *)
Definition valid_option (o : coption) : bool :=
  match short o, long o with None, None => false | _, _ => true end &&
  match short o with Some s => starts_with (lit "-") s && negb (starts_with (lit "--") s) | None => true end &&
  match long o with Some l => starts_with (lit "-") l && negb (blen l <? 2) && negb (str_eqb l (lit "--")) | None => true end.
(** l.239-277 validate_subcommand *)
Fixpoint valid_sub (s : subcommand) : bool :=
  let (name, _, options, _, subs) := s in
  negb (str_eqb name []) && negb (blank_in name) && forallb valid_option options &&
  (fix all (l : list subcommand) : bool := match l with [] => true | x :: r => valid_sub x && all r end) subs.
(** l.199-237 validate_completion, validate_argument *)
Definition validate (f : file) : bool :=
  negb (str_eqb (f_command f) []) && negb (blank_in (f_command f)) &&
  forallb valid_sub (d_subs (f_def f)) && forallb valid_option (d_globals (f_def f)) &&
  forallb (fun n => negb (str_eqb n [])) (f_names f).
(** l.157-197 load_completion_file, load_completion_from_content *)
Definition usable (l : look) : option file := match l with Is f => if validate f then Some f else None | _ => None end.

(** Path::join *)
Definition join (dir name : str) : str := if starts_with (lit "/") name then name else dir ++ lit "/" ++ name.
Fixpoint first_usable (fs : str -> look) (paths : list str) : option file :=
  match paths with [] => None | p :: r => match usable (fs p) with Some f => Some f | None => first_usable fs r end end.
(** l.306-363 load_command_completion *)
Definition load (embedded fs : str -> look) (dirs : list str) (name : str) : option file :=
  let file_name := name ++ lit ".json" in
  match usable (embedded file_name) with
  | Some f => Some f
  | None => first_usable fs (map (fun d => join d file_name) dirs)
  end.
(** l.38-58 get_default_completion_dirs: [config] and [home] are what the system says *)
Definition default_dirs (config home : option str) : list str :=
  match config with Some c => [c ++ lit "/dsh/completions"] | None => [] end ++
  match home with Some h => [h ++ lit "/.config/dsh/completions"] | None => [] end ++ [lit "./completions"].

(** command.rs l.138-165: the definitions of this session *)
Definition table := list (str * file).
Fixpoint get (t : table) (name : str) : option file :=
  match t with [] => None | (n, f) :: r => if str_eqb n name then Some f else get r name end.
Definition add (t : table) (f : file) : table := (f_command f, f) :: t.
(** integrated.rs l.244-268 ensure_command_completion_loaded *)
Definition ensure (embedded fs : str -> look) (dirs : list str) (t : table) (name : str) : table :=
  match name with
  | [] => t
  | _ => match get t name with
         | Some _ => t
         | None => match load embedded fs dirs name with Some f => add t f | None => t end
         end
  end.
(** a session: commands completed, each with the file system as it then is *)
Fixpoint session (embedded : str -> look) (dirs : list str) (t : table) (l : list ((str -> look) * str)) : table :=
  match l with [] => t | (fs, name) :: r => session embedded dirs (ensure embedded fs dirs t name) r end.
