(** The git builtins ga, gco, gwt and glog: dsh-builtin/src/{ga,gco,gwt,glog}.rs.

    What git prints is a text; what the builtin makes git do is a list of argument lists.  The menus
    (skim, sk, fzf) are their answers.  Messages, the exit status and the preview are not modelled. *)
From Verif Require Import Base Numerals Direnv_Model.

Definition args := list str.

(** ** ga.rs *)

(** what a menu returns: whether it was left with Esc, and the items that were marked *)
Record picked (A : Type) := Picked { is_abort : bool; selected : list A }.
Arguments Picked {A}. Arguments is_abort {A}. Arguments selected {A}.

(** l.148-175 get_git_status: (path, display) for each line; [None]: the slice line[3..] is inside a
    character and panics *)
Fixpoint status_items (ls : list str) : option (list (str * str)) :=
  match ls with
  | [] => Some []
  | l :: r =>
      if blen l <? 4 then status_items r
      else match split_byte l 3 with
           | None => None
           | Some (_, path) => match status_items r with Some es => Some ((path, l) :: es) | None => None end
           end
  end.
(** l.41-136 command, inside a repository: [stdout] is what git status --porcelain prints, [menu] the
    menu ([None]: it failed).  The result is [None] for a panic. *)
Definition ga (stdout : str) (menu : list (str * str) -> option (picked (str * str))) : option (list args) :=
  match status_items (lines stdout) with
  | None => None
  | Some [] => Some []
  | Some es =>
      match (match menu es with Some p => selected p | None => [] end) with
      | [] => Some []
      | sel => Some [lit "add" :: map fst sel]
      end
  end.

(** ** gco.rs *)

(** l.157-178 get_git_branches *)
Definition branch_items (stdout : str) : list str :=
  filter (fun l => match l with [] => false | _ => true end)
         (map (fun l => trim (filter (fun c => negb (c =? 42)%N) l)) (lines stdout)).

(** str::find of a text: what stands before and after its first occurrence *)
Fixpoint cut_sub (sub s : str) : option (str * str) :=
  if starts_with sub s then Some ([], skipn (length sub) s)
  else match s with
       | [] => None
       | c :: r => match cut_sub sub r with Some (a, b) => Some (c :: a, b) | None => None end
       end.
(** l.180-201 extract_branch_name *)
Definition extract_branch_name (b : str) : str :=
  let t := trim b in
  match cut_sub (lit " -> ") t with
  | Some (_, target) => match splitn2 47%N target with (_, Some l) => l | (_, None) => target end
  | None =>
      if starts_with (lit "remotes/") t then
        match splitn2 47%N (skipn 8 t) with (_, Some l) => l | (_, None) => t end
      else t
  end.
(** l.26-143 command, inside a repository *)
Definition gco (stdout : str) (menu : list str -> option (picked str)) : list args :=
  match branch_items stdout with
  | [] => []
  | [b] => [[lit "checkout"; extract_branch_name b]]
  | bs =>
      match (match menu bs with Some p => if is_abort p then [] else selected p | None => [] end) with
      | [] => []
      | v :: _ => [[lit "checkout"; extract_branch_name v]]
      end
  end.

(** ** gwt.rs *)

(** l.131-138 Action *)
Inductive action := List_ | Remove (force : bool) | Prune | Add (branch : str) (create : bool) | AddFromPr | ShowUsage.
(** l.124-128 CommandOptions *)
Record options := Options { act : action; change_dir : bool; open_editor : bool }.
(** the variables of the loop *)
Record flags := Flags { f_cd : bool; f_edit : bool; f_new : bool; f_branch : option str; f_remove : bool; f_prune : bool; f_force : bool; f_pr : bool }.
(** l.160-214, one argument *)
Definition flag (a : str) (f : flags) : option flags :=
  let is x := str_eqb a (lit x) in
  if is "-r"%string then Some (Flags (f_cd f) (f_edit f) (f_new f) (f_branch f) true (f_prune f) (f_force f) (f_pr f))
  else if is "-P"%string || is "--pr"%string then Some (Flags (f_cd f) (f_edit f) (f_new f) (f_branch f) (f_remove f) (f_prune f) (f_force f) true)
  else if is "-p"%string then Some (Flags (f_cd f) (f_edit f) (f_new f) (f_branch f) (f_remove f) true (f_force f) (f_pr f))
  else if is "-f"%string || is "--force"%string then Some (Flags (f_cd f) (f_edit f) (f_new f) (f_branch f) (f_remove f) (f_prune f) true (f_pr f))
  else if is "-rf"%string || is "-fr"%string then Some (Flags (f_cd f) (f_edit f) (f_new f) (f_branch f) true (f_prune f) true (f_pr f))
  else if is "-n"%string then Some (Flags false (f_edit f) (f_new f) (f_branch f) (f_remove f) (f_prune f) (f_force f) (f_pr f))
  else if is "-b"%string then Some (Flags (f_cd f) (f_edit f) true (f_branch f) (f_remove f) (f_prune f) (f_force f) (f_pr f))
  else if is "-e"%string then Some (Flags (f_cd f) true (f_new f) (f_branch f) (f_remove f) (f_prune f) (f_force f) (f_pr f))
  else if is "-be"%string || is "-eb"%string then Some (Flags (f_cd f) true true (f_branch f) (f_remove f) (f_prune f) (f_force f) (f_pr f))
  else if is "-bn"%string || is "-nb"%string then Some (Flags false (f_edit f) true (f_branch f) (f_remove f) (f_prune f) (f_force f) (f_pr f))
  else if is "-en"%string || is "-ne"%string then Some (Flags false true (f_new f) (f_branch f) (f_remove f) (f_prune f) (f_force f) (f_pr f))
  else if is "-ben"%string || is "-bne"%string || is "-ebn"%string || is "-enb"%string || is "-nbe"%string || is "-neb"%string
       then Some (Flags false true true (f_branch f) (f_remove f) (f_prune f) (f_force f) (f_pr f))
  else if starts_with (lit "-") a then None
  else match f_branch f with
       | Some _ => None
       | None => Some (Flags (f_cd f) (f_edit f) (f_new f) (Some a) (f_remove f) (f_prune f) (f_force f) (f_pr f))
       end.
Fixpoint flags_of (l : list str) (f : flags) : option flags :=
  match l with [] => Some f | a :: r => match flag a f with Some f' => flags_of r f' | None => None end end.
(** l.141-247 parse_options; [None] is an error *)
Definition parse_options (l : list str) : option options :=
  match l with
  | [] => Some (Options List_ false false)
  | _ =>
      match flags_of l (Flags true false false None false false false false) with
      | None => None
      | Some f =>
          if f_remove f then Some (Options (Remove (f_force f)) false false)
          else if f_prune f then Some (Options Prune false false)
          else if f_pr f then Some (Options AddFromPr (f_cd f) (f_edit f))
          else match f_branch f with
               | Some b => Some (Options (Add b (f_new f)) (f_cd f) (f_edit f))
               | None => if f_edit f || f_new f then None else Some (Options ShowUsage false false)
               end
      end
  end.

(** l.328-330 sanitize_branch_name; l.348-351 format_worktree_dir *)
Definition sanitize_branch_name (b : str) : str := map (fun c => if mem_char c (lit "/\:*?""<>|") then 45%N else c) b.
Definition format_worktree_dir (project b : str) : str := project ++ 45%N :: sanitize_branch_name b.
(** l.333-345 get_worktree_path: [root] is the repository's top directory by its components, last
    first; [None]: it is the root of the file system *)
Definition get_worktree_path (rroot : list str) (b : str) : option (list str) :=
  match rroot with
  | [] => None
  | project :: parent => Some (rev parent ++ [format_worktree_dir project b])
  end.
(** l.354-404 add_worktree; [None] is an error *)
Definition add_worktree (exists_ : list str -> bool) (rroot : list str) (b : str) (create : bool) : option (list args * list str) :=
  match get_worktree_path rroot b with
  | None => None
  | Some p =>
      if exists_ p then None
      else Some ([if create then [lit "worktree"; lit "add"; lit "-b"; b; show_path p] else [lit "worktree"; lit "add"; show_path p; b]], p)
  end.

(** l.473-519 get_linked_worktrees, the loop over the lines of git worktree list --porcelain *)
Fixpoint worktree_loop (ls : list str) (cur : option str) (is_main : bool) (acc : list str) : list str :=
  let push := match cur with Some w => if is_main then acc else acc ++ [w] | None => acc end in
  match ls with
  | [] => push
  | l :: r =>
      if starts_with (lit "worktree ") l then worktree_loop r (Some (skipn 9 l)) false push
      else if str_eqb l (lit "bare") then worktree_loop r cur true acc
      else worktree_loop r cur is_main acc
  end.
Definition get_linked_worktrees (stdout : str) : list str := tl (worktree_loop (lines stdout) None false []).
(** l.522-556 remove_worktree *)
Definition remove_worktree (path : str) (force : bool) : args :=
  [lit "worktree"; lit "remove"] ++ (if force then [lit "--force"] else []) ++ [path].
(** l.407-470 remove_worktree_interactive *)
Definition remove_interactive (stdout : str) (force : bool) (menu : list str -> option (picked str)) : list args :=
  match get_linked_worktrees stdout with
  | [] => []
  | [w] => [remove_worktree w force]
  | ws =>
      match (match menu ws with Some p => if is_abort p then [] else selected p | None => [] end) with
      | [] => []
      | w :: _ => [remove_worktree w force]
      end
  end.
(** l.36-118 command: the removals it makes git do *)
Definition gwt_removals (argv : list str) (stdout : str) (menu : list str -> option (picked str)) : list args :=
  match parse_options (tl argv) with
  | Some (Options (Remove force) _ _) => remove_interactive stdout force menu
  | _ => []
  end.

(** ** glog.rs *)

(** l.63-83 LogOptions *)
Record log_options := LogOptions { limit : N; graph : bool; all_branches : bool; oneline : bool }.
(** l.86-117 parse_arguments, the arguments after the name *)
Fixpoint log_loop (l : list str) (o : log_options) : log_options :=
  match l with
  | [] => o
  | a :: r =>
      if str_eqb a (lit "-n") || str_eqb a (lit "--number") then
        match r with
        | v :: r' => match parse_usize v with
                     | Some n => log_loop r' (LogOptions n (graph o) (all_branches o) (oneline o))
                     | None => log_loop r o
                     end
        | [] => o
        end
      else if str_eqb a (lit "--no-graph") then log_loop r (LogOptions (limit o) false (all_branches o) (oneline o))
      else if str_eqb a (lit "-a") || str_eqb a (lit "--all") then log_loop r (LogOptions (limit o) (graph o) true (oneline o))
      else if str_eqb a (lit "--oneline") then log_loop r (LogOptions (limit o) (graph o) (all_branches o) true)
      else log_loop r o
  end.
Definition parse_arguments (argv : list str) : log_options := log_loop (tl argv) (LogOptions 50 true false false).
(** l.301-320 strip_ansi_codes *)
Definition ascii_letter (c : char) : bool := ((65 <=? c) && (c <=? 90) || (97 <=? c) && (c <=? 122))%N.
Fixpoint strip_ansi (skipping : bool) (s : str) : str :=
  match s with
  | [] => []
  | c :: r =>
      if skipping then strip_ansi (negb (ascii_letter c)) r
      else if (c =? 27)%N then
        match r with
        | d :: r' => if (d =? 91)%N then strip_ansi true r' else c :: strip_ansi false r
        | [] => [c]
        end
      else c :: strip_ansi false r
  end.
Definition hexdigit (c : char) : bool := ((48 <=? c) && (c <=? 57) || (65 <=? c) && (c <=? 70) || (97 <=? c) && (c <=? 102))%N.
Definition graph_char (c : char) : bool := mem_char c (lit "*|\/- ").
Fixpoint drop_graph (w : str) : str := match w with c :: r => if graph_char c then drop_graph r else w | [] => [] end.
(** l.285-298 extract_commit_hash *)
Definition extract_commit_hash (l : str) : option str :=
  find (fun w => (7 <=? blen w) && forallb hexdigit w) (map drop_graph (split_whitespace (strip_ansi false l))).
(** l.323-356 numbered_commit_selection *)
Definition numbered (entries : list str) (input : str) : option str :=
  let t := trim input in
  if str_eqb t (lit "q") || str_eqb t (lit "quit") then None
  else match parse_usize t with
       | Some n => if (0 <? n)%N && (n <=? N.of_nat (length entries))%N then nth_error entries (N.to_nat n - 1) else None
       | None => None
       end.
(** l.359-386 checkout_commit up to git: [answer] is the line typed (letters beyond ASCII are not
    lowered; none of them becomes one of y, e, s) *)
Definition checkout_commit (hash answer : str) : list args :=
  let t := lower (trim answer) in
  if str_eqb t (lit "y") || str_eqb t (lit "yes") then [[lit "checkout"; hash]] else [].
(** l.20-58 command, inside a repository with commits: [line] is the line selected *)
Definition glog (line : option str) (answer : str) : list args :=
  match line with
  | None => []
  | Some l => match extract_commit_hash l with Some h => checkout_commit h answer | None => [] end
  end.
