(** The window title while a command runs: dsh/src/terminal/title.rs, and TitleGuard of
    dsh/src/shell/eval.rs l.21-41.  A job is its text and its processes, each an external program or a
    builtin, with its name. *)
From Verif Require Import Base Safety_Model.

Inductive process := Command (name : str) | Builtin (name : str).
Record job := Job { cmd : str; processes : list process; foreground : bool }.

(** title.rs l.6 *)
Definition default_title : str := lit "dsh".
(** l.17-21 write_title *)
Definition write_title (t : str) : str := [27%N] ++ lit "]0;" ++ t ++ [7%N] ++ [27%N] ++ lit "]2;" ++ t ++ [7%N].
(** l.33-45 *)
Fixpoint last_external_process_name (l : list process) : option str :=
  match l with
  | [] => None
  | p :: r => match last_external_process_name r with
              | Some n => Some n
              | None => match p with Command n => Some n | Builtin _ => None end
              end
  end.
(** l.47-49 *)
Definition first_token (s : str) : str := match split_whitespace s with w :: _ => w | [] => default_title end.
(** l.68-77: an empty file name cannot be *)
Definition basename (raw : str) : str := match file_name raw with Some n => n | None => raw end.
(** l.51-66; MAX_TITLE_CHARS is 64 *)
Definition sanitize_title (raw : str) : str :=
  match trim (filter (fun c => negb (is_control c)) (basename raw)) with
  | [] => default_title
  | t => firstn 64 t
  end.
(** l.23-31 *)
Definition command_title (j : job) : str :=
  match last_external_process_name (processes j) with
  | Some n => sanitize_title n
  | None => sanitize_title (first_token (cmd j))
  end.
(** eval.rs l.25-41: what the terminal gets before and after the job *)
Definition guard (interactive : bool) (j : job) : str * str :=
  if interactive && foreground j then (write_title (command_title j), write_title default_title) else ([], []).
