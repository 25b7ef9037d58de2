(** Paths and a file system with symbolic links, as seen through the system calls the
    program makes.  Not modelled: permissions, hard links, mount points, concurrent
    changes by other processes. *)
From Verif Require Import Base.

(** the pieces of a string between separators *)
Fixpoint split_on (sep : char) (s : str) : list str :=
  match s with
  | [] => [[]]
  | c :: s' =>
      if (c =? sep)%N then [] :: split_on sep s'
      else match split_on sep s' with
           | w :: ws => (c :: w) :: ws
           | [] => [[c]]
           end
  end.

Definition slash : char := 47%N.
Definition dot : str := [46%N].
Definition dotdot : str := [46%N; 46%N].

(** std::path::PathBuf: [comps] are its components (empty ones and "." dropped, as
    Path::components does), [must_dir] that the text ends in "/" or in a "." component,
    which the kernel reads as "this must be a directory" *)
Record upath := UPath { absolute : bool; comps : list str; must_dir : bool }.

Definition parse_path (s : str) : upath :=
  let parts := split_on slash s in
  UPath (match s with c :: _ => (c =? slash)%N | [] => false end)
        (filter (fun w => negb (str_eqb w []) && negb (str_eqb w dot)) parts)
        (match last parts [] with [] => true | w => str_eqb w dot end).

(** Path::join: an absolute argument replaces the base; joining "" appends a slash *)
Definition join (base p : upath) : upath :=
  if absolute p then p else UPath (absolute base) (comps base ++ comps p) (must_dir p).

(** canonical paths: components from the root, none of them a link or ".." *)
Definition path := list str.

Inductive kind := KFile (content : str) | KDir | KLink (abs : bool) (target : list str).

(** what exists, by canonical path of its directory plus name; the root [[]] is a directory *)
Definition fs := path -> option kind.

(** path_resolution(7): follow components from directory [cur]; at most [n] links *)
Fixpoint resolve (f : fs) (n : nat) : path -> list str -> option path :=
  fix go (cur : path) (cs : list str) {struct cs} : option path :=
    match cs with
    | [] => Some cur
    | c :: rest =>
        if str_eqb c dotdot then go (removelast cur) rest
        else
          match f (cur ++ [c]) with
          | None => None
          | Some KDir => go (cur ++ [c]) rest
          | Some (KFile _) => match rest with [] => Some (cur ++ [c]) | _ => None end
          | Some (KLink a t) =>
              match n with
              | 0 => None
              | S n' => resolve f n' (if a then [] else cur) (t ++ rest)
              end
          end
    end.
Definition max_links := 40.

Definition is_dir_at (f : fs) (p : path) : bool :=
  match p with [] => true | _ => match f p with Some KDir => true | _ => false end end.

(** realpath(3) / fs::canonicalize of an absolute path *)
Definition canonicalize (f : fs) (p : upath) : option path :=
  match resolve f max_links [] (comps p) with
  | Some q => if must_dir p && negb (is_dir_at f q) then None else Some q
  | None => None
  end.
(** Path::exists, is_dir, is_file *)
Definition exists_path (f : fs) (p : upath) : bool := match canonicalize f p with Some _ => true | None => false end.
Definition is_dir (f : fs) (p : upath) : bool := match canonicalize f p with Some q => is_dir_at f q | None => false end.
Definition is_file (f : fs) (p : upath) : bool :=
  match canonicalize f p with Some q => negb (is_dir_at f q) | None => false end.

(** open for reading: the file found and its content *)
Definition read_file (f : fs) (p : upath) : option (path * str) :=
  match canonicalize f p with
  | Some q => if is_dir_at f q then None else match f q with Some (KFile c) => Some (q, c) | _ => None end
  | None => None
  end.

Definition path_eqb (a b : path) : bool := if list_eq_dec str_eq_dec a b then true else false.
Definition put (f : fs) (p : path) (k : kind) : fs := fun q => if path_eqb q p then Some k else f q.

(** open with O_CREAT: where the file is (or would be made); a dangling link is followed
    to the place it points to *)
Fixpoint resolve_create (f : fs) (n : nat) : path -> list str -> option path :=
  fix go (cur : path) (cs : list str) {struct cs} : option path :=
    match cs with
    | [] => Some cur
    | c :: rest =>
        if str_eqb c dotdot then go (removelast cur) rest
        else
          match f (cur ++ [c]) with
          | None => match rest with [] => Some (cur ++ [c]) | _ => None end
          | Some KDir => go (cur ++ [c]) rest
          | Some (KFile _) => match rest with [] => Some (cur ++ [c]) | _ => None end
          | Some (KLink a t) =>
              match n with
              | 0 => None
              | S n' => resolve_create f n' (if a then [] else cur) (t ++ rest)
              end
          end
    end.
(** fs::write: creat + write.  A trailing slash makes O_CREAT fail with EISDIR
    whatever is there. *)
Definition write_file (f : fs) (p : upath) (content : str) : option (path * fs) :=
  if must_dir p then None
  else match resolve_create f max_links [] (comps p) with
       | Some q => if is_dir_at f q then None else Some (q, put f q (KFile content))
       | None => None
       end.

(** mkdir(2): [inl (Some _)] = made, [inl None] = the name exists (EEXIST), [inr] = the
    parent is missing or not a directory *)
Definition mkdir (f : fs) (cs : list str) : (option (path * fs)) + unit :=
  match rev cs with
  | [] => inl None
  | c :: rparent =>
      match resolve f max_links [] (rev rparent) with
      | None => inr tt
      | Some d =>
          if negb (is_dir_at f d) then inr tt
          else if str_eqb c dotdot then inl None
          else match f (d ++ [c]) with
               | Some _ => inl None
               | None => inl (Some (d ++ [c], put f (d ++ [c]) KDir))
               end
      end
  end.

(** std::fs::create_dir_all; the components come last first.  Returns the directories
    made, the file system after, and whether it succeeded. *)
Fixpoint mkdirs (f : fs) (rcs : list str) : list path * fs * bool :=
  match mkdir f (rev rcs) with
  | inl (Some (q, f')) => ([q], f', true)
  | inl None => ([], f, is_dir f (UPath true (rev rcs) false))
  | inr _ =>
      match rcs with
      | [] => ([], f, false)
      | _ :: parent =>
          let '(made, f1, ok) := mkdirs f parent in
          if ok then
            match mkdir f1 (rev rcs) with
            | inl (Some (q, f')) => (made ++ [q], f', true)
            | _ => (made, f1, is_dir f1 (UPath true (rev rcs) false))
            end
          else (made, f1, false)
      end
  end.

(** Path::starts_with: component-wise prefix *)
Fixpoint path_starts_with (root p : path) : bool :=
  match root, p with
  | [], _ => true
  | a :: r, b :: q => str_eqb a b && path_starts_with r q
  | _, _ => false
  end.
