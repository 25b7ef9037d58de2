(** Opening the database: dsh/src/db.rs l.12-160.

    A table is its columns and rows; a row gives a value for a column.  Each statement is a transaction of its own, as
    in SQLite.  Names are compared exactly; the types, NOT NULL and key constraints of columns are left out, and so are
    the file itself and its permissions. *)
From Verif Require Import Base.

Inductive value := Null | Int (n : Z) | Text (s : str).
Definition row : Type := list (str * value).
Record table := Table { columns : list str; rows : list row }.
Record db := Db { tables : str -> option table; indexes : str -> option (str * str * bool) }.

Inductive statement :=
| Create (t : str) (cols : list str)                       (* CREATE TABLE IF NOT EXISTS *)
| Add (t c : str) (default : value)                        (* ALTER TABLE ADD COLUMN, an error is ignored *)
| Index (name t c : str) (unique : bool).                  (* CREATE [UNIQUE] INDEX IF NOT EXISTS *)

Fixpoint get (r : row) (c : str) : option value := match r with [] => None | (k, v) :: q => if str_eqb k c then Some v else get q c end.
Definition value_eqb (a b : value) : bool :=
  match a, b with Int n, Int m => (n =? m)%Z | Text s, Text t => str_eqb s t | _, _ => false end.
(** whether a column has the same value twice; NULLs are distinct *)
Fixpoint twice (vs : list (option value)) : bool :=
  match vs with
  | [] => false
  | v :: r => existsb (fun w => match v, w with Some a, Some b => value_eqb a b | _, _ => false end) r || twice r
  end.
Definition put {A} (f : str -> option A) (k : str) (x : A) : str -> option A := fun n => if str_eqb n k then Some x else f n.

(** None: an error *)
Definition exec (s : statement) (d : db) : option db :=
  match s with
  | Create t cols => match tables d t with Some _ => Some d | None => Some (Db (put (tables d) t (Table cols [])) (indexes d)) end
  | Add t c v =>
      match tables d t with
      | None => Some d
      | Some b => if mem_str c (columns b) then Some d
                  else Some (Db (put (tables d) t (Table (columns b ++ [c]) (map (fun r => r ++ [(c, v)]) (rows b)))) (indexes d))
      end
  | Index name t c unique =>
      match indexes d name with
      | Some _ => Some d
      | None =>
          match tables d t with
          | None => None
          | Some b => if mem_str c (columns b) && negb (unique && twice (map (fun r => get r c) (rows b)))
                      then Some (Db (tables d) (put (indexes d) name (t, c, unique))) else None
          end
      end
  end.
(** until the first error; the database as it is then, and whether there was none *)
Fixpoint run (ss : list statement) (d : db) : db * bool :=
  match ss with [] => (d, true) | s :: r => match exec s d with Some d' => run r d' | None => (d, false) end end.

(** db.rs l.49-158 *)
Definition history_columns : list str :=
  [lit "id"; lit "command"; lit "timestamp"; lit "context"; lit "exit_code"; lit "duration_ms"; lit "cwd"; lit "session_id"; lit "hostname"; lit "count"].
Definition visit_columns : list str := [lit "id"; lit "path"; lit "timestamp"; lit "context"].
Definition snippet_columns : list str := [lit "id"; lit "name"; lit "command"; lit "description"; lit "tags"; lit "created_at"; lit "last_used"; lit "use_count"].
Definition schema : list statement :=
  [ Create (lit "command_history") history_columns;
    Add (lit "command_history") (lit "count") (Int 1);
    Add (lit "command_history") (lit "exit_code") Null;
    Add (lit "command_history") (lit "duration_ms") Null;
    Add (lit "command_history") (lit "cwd") Null;
    Add (lit "command_history") (lit "session_id") Null;
    Add (lit "command_history") (lit "hostname") Null;
    Create (lit "directory_visits") visit_columns;
    Create (lit "directory_snapshot") [lit "path"; lit "score"; lit "last_accessed"; lit "access_count"; lit "half_life"; lit "context"];
    Index (lit "idx_command_history_timestamp") (lit "command_history") (lit "timestamp") false;
    Index (lit "idx_command_history_command") (lit "command_history") (lit "command") true;
    Index (lit "idx_directory_visits_timestamp") (lit "directory_visits") (lit "timestamp") false;
    Create (lit "snippets") snippet_columns;
    Index (lit "idx_snippets_name") (lit "snippets") (lit "name") false;
    Create (lit "bookmarks") [lit "id"; lit "name"; lit "command"; lit "created_at"; lit "use_count"];
    Create (lit "dir_aliases") [lit "name"; lit "path"] ].
(** Db::new: the database left behind and whether it opened *)
Definition open (d : db) : db * bool := run schema d.
