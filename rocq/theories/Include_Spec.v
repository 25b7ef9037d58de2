(** How a POSIX shell divides a command line into words, and what a script that is
    sourced leaves behind. *)
From Verif Require Import Base Output_Model Env_Model Include_Model.

(** ** Shell words: POSIX 2.2.1, 2.2.2 and the operators used here *)
Inductive token := Word (w : str) | Semi | And_if.
(** [cur] is the word begun, the latest character first *)
Definition finish (cur : option str) : list token := match cur with Some w => [Word (rev w)] | None => [] end.
Definition more (cur : option str) (c : char) : option str :=
  match cur with Some w => Some (c :: w) | None => Some [c] end.
Definition begun (cur : option str) : option str := match cur with Some w => Some w | None => Some [] end.
Fixpoint shell_tokens (quoted : bool) (cur : option str) (s : str) : list token :=
  match s with
  | [] => finish cur
  | c :: r =>
      if quoted then
        if (c =? apostrophe)%N then shell_tokens false cur r else shell_tokens true (more cur c) r
      else if (c =? apostrophe)%N then shell_tokens true (begun cur) r
      else if (c =? chr " ")%N then finish cur ++ shell_tokens false None r
      else if (c =? chr ";")%N then finish cur ++ Semi :: shell_tokens false None r
      else match r with
           | d :: r' =>
               if (c =? chr "\")%N then shell_tokens false (more cur d) r'
               else if (c =? chr "&")%N && (d =? chr "&")%N then finish cur ++ And_if :: shell_tokens false None r'
               else shell_tokens false (more cur c) r
           | [] => shell_tokens false (more cur c) r
           end
  end.
Definition read_by_shell (s : str) : list token := shell_tokens false None s.

(** ** What a script does *)
(** what it prints, and the environment it leaves: names and values, the values any
    bytes but NUL *)
Record effect := Effect { printed : raw; leaves : list (str * raw) }.
(** what env -0 writes *)
Definition env_zero (l : list (str * raw)) : raw :=
  flat_map (fun p => valid (fst p) ++ Some (chr "=") :: snd p ++ [Some 0%N]) l.
(** a bash that runs [script] with [args] in an environment, and then env -0 *)
Definition runs (run : bash) (proc : map_) (script : str) (args : list str) (x : effect) : Prop :=
  run (source_cmd script args) proc = Some (0, printed x ++ env_zero (leaves x)).

(** an environment as bash has one: names are not empty and have no equals sign or NUL,
    values have no NUL, each name occurs once *)
Definition proper (l : list (str * raw)) : Prop :=
  NoDup (map fst l) /\
  Forall (fun p => fst p <> [] /\ ~ In (chr "=") (fst p) /\ ~ In 0%N (fst p) /\ ~ In (Some 0%N) (snd p)) l.
(** all the values are text *)
Definition textual (l : list (str * raw)) (m : map_) : Prop := l = map (fun p => (fst p, valid (snd p))) m.

(** names that stay although the script has unset them *)
Definition kept_anyway (k : str) : Prop :=
  In k [lit "HOME"; lit "PATH"; lit "PWD"; lit "OLDPWD"; lit "SHELL"; lit "TERM"; lit "USER"; lit "LOGNAME"; lit "LANG"]
  \/ exists r, k = lit "DSH_" ++ r.
