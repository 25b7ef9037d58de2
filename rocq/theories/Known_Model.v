(** The command name suggested for the first word of a line, and how the names are known:
    dsh/src/environment/paths.rs l.71-97 and l.166-182, environment/mod.rs l.286-383, dirs.rs l.5-35,
    lib.rs l.222-246 and repl/completion.rs l.67-86.

    The kept file is modelled as what its JSON holds; a file that cannot be read or parsed is None. *)
From Verif Require Import Base Commands_Model.
From Verif Require Frecency_Model Env_Model Sources_Model.

(** ** environment/mod.rs *)

(** l.288-311 collect_executables: the set of names, sorted; the same test of the entries as in system.rs *)
Definition collect (paths : list str) (w : world) : list str := Sources_Model.scan (fun _ _ => true) paths w.
(** what std::fs::metadata says of a directory: when it was modified, in seconds, and its length *)
Definition meta : Type := str -> option (option N * N).
(** l.313-319 PathCacheSignature, l.328-353 executable_cache_signature *)
Record sign := Sign { path : str; exists_ : bool; modified : option N; len : N }.
Definition signature (paths : list str) (m : meta) : list sign :=
  map (fun p => match m p with Some (t, n) => Sign p true t n | None => Sign p false None 0 end) paths.
(** l.321-326 *)
Record kept := Kept { version : N; signs : list sign; found : list str }.
Definition opt_eqb (a b : option N) : bool :=
  match a, b with Some x, Some y => (x =? y)%N | None, None => true | _, _ => false end.
Definition sign_eqb (a b : sign) : bool :=
  str_eqb (path a) (path b) && Bool.eqb (exists_ a) (exists_ b) && opt_eqb (modified a) (modified b) && (len a =? len b)%N.
Fixpoint signs_eqb (a b : list sign) : bool :=
  match a, b with
  | [], [] => true
  | x :: a', y :: b' => sign_eqb x y && signs_eqb a' b'
  | _, _ => false
  end.
(** l.359-368 load_cached_executables *)
Definition load (paths : list str) (m : meta) (file : option kept) : option (list str) :=
  match file with
  | Some k => if (version k =? 1)%N && signs_eqb (signs k) (signature paths m) then Some (found k) else None
  | None => None
  end.
(** l.370-383 save_cached_executables; the signature is taken after the names were collected *)
Definition save (paths : list str) (m : meta) (names : list str) : kept := Kept 1 (signature paths m) names.

(** ** paths.rs *)

(** the binary search of slice::partition_point between [lo] and [hi] *)
Fixpoint halve (fuel : nat) (p : str -> bool) (l : list str) (lo hi : nat) : nat :=
  match fuel with
  | 0 => lo
  | S fuel' =>
      if lo <? hi then
        let mid := (lo + hi) / 2 in
        match nth_error l mid with
        | Some x => if p x then halve fuel' p l (mid + 1) hi else halve fuel' p l lo mid
        | None => lo
        end
      else lo
  end.
Definition partition_point (p : str -> bool) (l : list str) : nat := halve (length l) p l 0 (length l).
(** l.175-181 *)
Definition below (prefix n : str) : bool := match Frecency_Model.str_cmp n prefix with Lt => true | _ => false end.
Definition first_known (names : list str) (prefix : str) : option str :=
  match nth_error names (partition_point (below prefix) names) with
  | Some n => if starts_with prefix n then Some n else None
  | None => None
  end.
(** dirs.rs l.5-35 search_file; the first argument is what is left of the directory *)
Fixpoint best (es : list entry) (prefix : str) (acc : option str) : option str :=
  match es with
  | [] => acc
  | e :: r =>
      if starts_with prefix (name e) && match what e with Regular => true | _ => false end && executable e then
        if str_eqb (name e) prefix then Some (name e)
        else best r prefix (match acc with Some b => if text_leb b (name e) then acc else Some (name e) | None => Some (name e) end)
      else best r prefix acc
  end.
Definition search_file (w : world) (dir prefix : str) : option str :=
  match read_dir w dir with Some es => best es prefix None | None => None end.
(** l.71-97 search *)
Fixpoint search_dirs (w : world) (paths : list str) (cmd : str) : option str :=
  match paths with
  | [] => None
  | d :: r => match search_file w d cmd with Some f => Some f | None => search_dirs w r cmd end
  end.
Definition search (w : world) (paths : list str) (cmd : str) : option str :=
  if starts_with (lit "/") cmd || starts_with (lit "./") cmd then if is_file w cmd then Some cmd else None
  else if existsb (fun d => is_file w (Env_Model.join d cmd)) paths then Some cmd
  else search_dirs w paths cmd.
(** l.166-182 search_prefix *)
Definition search_prefix (w : world) (paths names : list str) (prefix : str) : option str :=
  match names with [] => search w paths prefix | _ => first_known names prefix end.

(** ** repl/completion.rs l.67-83: the line [a ++ word ++ b] with the word at [word]; the completion of a path, which is
    tried when this gives nothing, is modelled elsewhere *)
Definition command_word (w : world) (paths names : list str) (a word b : str) : option str :=
  match search_prefix w paths names word with
  | Some n => if blen word <? blen n then Some (a ++ n ++ b) else None
  | None => None
  end.

(** ** the session: the names known, the directories a scan is under way for, and PATH *)
Record state := State { names : list str; scan_of : option (list str); path_now : list str; file : option kept }.
(** lib.rs l.222-246 at the start, after config.lisp *)
Definition begin (paths : list str) (m : meta) (f : option kept) : state :=
  State (match load paths m f with Some l => l | None => [] end) (Some paths) paths f.
(** the scan ends, having seen the disk as [w], and the file is written when the directories are as in [m];
    PATH is set (paths.rs l.101-116) *)
Inductive event := Scanned (w : world) (m : meta) | Path_set (paths : list str).
Definition step (s : state) (e : event) : state :=
  match e with
  | Scanned w m =>
      match scan_of s with
      | Some ps => State (collect ps w) None (path_now s) (Some (save ps m (collect ps w)))
      | None => s
      end
  | Path_set ps => State [] (scan_of s) ps (file s)
  end.
Definition run (s : state) (es : list event) : state := fold_left step es s.
Definition suggest (s : state) (w : world) (prefix : str) : option str := search_prefix w (path_now s) (names s) prefix.
