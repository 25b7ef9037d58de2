(** What the safety guard promises, in terms of command words only. *)
From Verif Require Import Base.

(** the last proper component of the path [p] is [n]: nothing but "/" and "/."
    follows it, and it is neither "." nor ".." *)
Definition program_name (p n : str) : Prop :=
  n <> [] /\ n <> lit "." /\ n <> lit ".." /\ ~ In (chr "/") n /\
  exists dir trail,
    p = dir ++ n ++ concat (map (cons (chr "/")) trail)
    /\ (dir = [] \/ exists d, dir = d ++ lit "/")
    /\ (forall t, In t trail -> t = [] \/ t = lit ".").

(** the name a command word is known under: its last component, or the word
    itself when it has none *)
Definition known_as (w n : str) : Prop :=
  program_name w n \/ ((forall m, ~ program_name w m) /\ n = w).

Definition one_of (x : str) (l : list string) : Prop := exists s, In s l /\ x = lit s.
Definition has_arg (args : list str) (P : str -> Prop) : Prop := exists a, In a args /\ P a.
Definition begins (p : string) (a : str) : Prop := exists t, a = lit p ++ t.
Definition mentions (p : string) (a : str) : Prop := exists x y, a = x ++ lit p ++ y.

(** the dangerous command / argument combinations of the documentation *)
Inductive dangerous : str -> list str -> Prop :=
| D_system n args :
    one_of n ["dd"; "mkfs"; "format"; "reboot"; "shutdown"; "poweroff"; "mkswap"] -> dangerous n args
| D_rm args :
    has_arg args (fun a => one_of a ["-r"; "-R"; "--recursive"]
                           \/ begins "-rx" a \/ begins "-rf" a \/ begins "-fr" a) ->
    dangerous (lit "rm") args
| D_git_push args :
    has_arg args (fun a => one_of a ["--force"; "-f"; "--force-with-lease"]) ->
    dangerous (lit "git") (lit "push" :: args)
| D_git_clean args :
    has_arg args (fun a => In (chr "x") a) -> dangerous (lit "git") (lit "clean" :: args)
| D_git_reset args :
    In (lit "--hard") args -> dangerous (lit "git") (lit "reset" :: args)
| D_perm n args :
    one_of n ["chmod"; "chown"] -> has_arg args (fun a => one_of a ["-R"; "--recursive"]) ->
    dangerous n args
| D_cp args :
    has_arg args (fun a => one_of a ["-r"; "-R"; "--recursive"] \/ (begins "-" a /\ In (chr "r") a)) ->
    has_arg args (fun a => one_of a ["-f"; "--force"]) ->
    dangerous (lit "cp") args
| D_upload n args :
    one_of n ["curl"; "wget"] ->
    has_arg args (fun a => one_of a ["-d"; "--data"; "-F"; "--form"; "-T"; "--upload-file";
                                     "--post-data"; "--post-file"]) ->
    dangerous n args
| D_secret n args :
    one_of n ["cat"; "less"; "more"; "head"; "tail"; "grep"; "awk"; "sed"] ->
    has_arg args (fun a => mentions ".ssh" a \/ mentions "id_rsa" a \/ mentions "id_ed25519" a
                           \/ mentions ".aws/credentials" a \/ mentions ".config/gcloud" a
                           \/ mentions ".azure" a \/ one_of a ["/etc/shadow"; "/etc/passwd"]
                           \/ mentions ".env" a \/ exists t, a = t ++ lit "_history") ->
    dangerous n args.

(** a command line text is dangerous: its first word names a program, and that
    program with the remaining words is a listed combination *)
Definition dangerous_line (line : str) : Prop :=
  exists w args n, Words line (w :: args) /\ known_as w n /\ dangerous n args.

Definition downloads (line : str) : Prop :=
  exists w args n, Words line (w :: args) /\ known_as w n /\ one_of n ["curl"; "wget"; "fetch"; "scp"].
Definition interprets (line : str) : Prop :=
  exists w args n, Words line (w :: args) /\ known_as w n
    /\ one_of n ["sh"; "bash"; "zsh"; "fish"; "python"; "perl"; "ruby"; "sudo"].

(** command [i] of a line needs a question in Normal mode *)
Definition needs_question (jobs : list str) (i : nat) : Prop :=
  exists j, nth_error jobs i = Some j /\
    (dangerous_line j
     \/ exists k p, i = S k /\ nth_error jobs k = Some p /\ downloads p /\ interprets j).

(** removing [drop]-able characters in place *)
Inductive keeps (bad : char -> Prop) : str -> str -> Prop :=
| keeps_nil : keeps bad [] []
| keeps_drop c s t : bad c -> keeps bad s t -> keeps bad (c :: s) t
| keeps_keep c s t : ~ bad c -> keeps bad s t -> keeps bad (c :: s) (c :: t).

(** control characters other than tab, line feed and carriage return, and the
    invisible characters U+200B-200F, U+2028-202E, U+2060-206F *)
Definition unwanted (c : char) : Prop :=
  ((c < 32 \/ 127 <= c < 160) /\ c <> 9 /\ c <> 10 /\ c <> 13)%N
  \/ (8203 <= c <= 8207 \/ 8232 <= c <= 8238 \/ 8288 <= c <= 8303)%N.
