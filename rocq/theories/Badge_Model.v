(** The versions of tools in the prompt: dsh/src/prompt/mod.rs l.533-546, l.575-601, l.720-762, l.795-810, l.1013-1136;
    dsh/src/prompt/modules/rust.rs, nodejs.rs, python.rs, go.rs, kubernetes.rs, aws.rs, docker.rs;
    dsh/src/repl/mod.rs l.743-790.

    Rust, Node, Python and Go have the same fields and functions; one of them is modelled.  Whether the directory is
    a project of the tool and where its version is set are given with each change of directory, as
    [refresh_project_types] reads them then.  Colours are left out.  A question is asked in the directory of the tick. *)
From Verif Require Import Base.
From Verif Require Prompt_Model.
Import Prompt_Model.

Record badge := Badge { cwd : str; project : bool; source : option str; version : option str; wait : gate; pending : list str }.
Inductive event :=
| Cd (dir : str) (is_project : bool) (src : option str)
| Tick (now : N)
| Answered (i : nat) (now : N) (out : option str).
(** l.730-734 needs_rust_check *)
Definition needs_check (now : N) (b : badge) : bool :=
  match version b with None => true | Some _ => false end && (allowed (wait b) <=? now)%N && project b.
Definition drop_nth {A} (i : nat) (l : list A) : list A := firstn i l ++ skipn (i + 1) l.
Definition step (b : badge) (e : event) : badge :=
  match e with
  (* l.533-546 set_current: only when the directory changes *)
  | Cd d p s => if str_eqb (cwd b) d then b else Badge d p s None (wait b) (pending b)
  (* repl/mod.rs l.744-753: the question runs on its own *)
  | Tick now => if needs_check now b then Badge (cwd b) (project b) (source b) (version b) (wait b) (pending b ++ [cwd b]) else b
  (* l.720-723, l.795-797; an answer to no question does not occur *)
  | Answered i now out =>
      match nth_error (pending b) i with
      | None => b
      | Some _ =>
          match out with
          | Some v => Badge (cwd b) (project b) (source b) (Some v) (reset now) (drop_nth i (pending b))
          | None => Badge (cwd b) (project b) (source b) (version b) (failure now (wait b)) (drop_nth i (pending b))
          end
      end
  end.
Definition start (d : str) (p : bool) (s : option str) (now : N) : badge := Badge d p s None (Gate now 5) [].
Definition run (b : badge) (es : list event) : badge := fold_left step es b.
(** modules/rust.rs l.25-48; the text after the icon *)
Definition in_parens (s : str) : str := lit "(" ++ s ++ lit ")".
Definition render (icon : str) (b : badge) : option str :=
  match version b with
  | Some v => match source b with
              | Some s => Some (lit " " ++ icon ++ lit " " ++ v ++ lit " " ++ in_parens s)
              | None => Some (lit " " ++ icon ++ lit " " ++ v)
              end
  | None => if project b then
              match source b with
              | Some s => Some (lit " " ++ icon ++ lit " " ++ in_parens s)
              | None => Some (lit " " ++ icon)
              end
            else None
  end.

(** ** What the tools print; [None]: the command could not be started, [false]: it failed *)
Definition printed := option (bool * str).
Definition success (p : printed) : option str := match p with Some (true, s) => Some s | _ => None end.
(** l.1013-1025 *)
Definition rust_version (p : printed) : option str :=
  match success p with Some s => nth_error (split_whitespace s) 1 | None => None end.
(** l.1027-1038 *)
Definition node_version (p : printed) : option str := match success p with Some s => Some (trim s) | None => None end.
(** l.1040-1064 *)
Definition python_version (p3 p : printed) : option str :=
  match (match p3 with Some _ => success p3 | None => success p end) with
  | Some s => nth_error (split_whitespace s) 1
  | None => None
  end.
(** l.1066-1083 *)
Definition go_version (p : printed) : option str :=
  match success p with
  | Some s => match nth_error (split_whitespace s) 2 with
              | Some t => Some (if starts_with (lit "go") t then skipn 2 t else t)
              | None => None
              end
  | None => None
  end.
(** l.1085-1109 *)
Definition bar : char := 124%N.
Definition k8s_info (p : printed) : option (str * option str) :=
  match success p with
  | Some s => match split_on bar s with
              | [] => None
              | [c] => Some (c, None)
              | c :: n :: _ => Some (c, match n with [] => None | _ => Some n end)
              end
  | None => None
  end.
(** modules/kubernetes.rs l.24-39, after the icon *)
Definition k8s_text (i : str * option str) : str :=
  fst i ++ match snd i with Some n => lit " (" ++ n ++ lit ")" | None => [] end.
(** l.1111-1115 *)
Definition aws_profile (first second : option str) : option str := match first with Some x => Some x | None => second end.
(** l.1117-1136, l.1171-1176 *)
Definition value_of (v : option str) : option str :=
  match v with Some x => match trim x with [] => None | t => Some t end | None => None end.
Definition docker_context (var : option str) (p : printed) : option str :=
  match value_of var with Some c => Some c | None => match success p with Some s => Some (trim s) | None => None end end.
(** modules/docker.rs l.24-32, after the icon *)
Definition docker_text (c : option str) : option str :=
  match c with Some x => if str_eqb x (lit "default") then None else Some x | None => None end.
