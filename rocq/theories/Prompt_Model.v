(** The prompt: what `git status` says (dsh/src/prompt/mod.rs), the branch of HEAD, the
    repository the prompt is of while directories change and a background task looks (also
    dsh/src/repl/mod.rs), the tools asked in the background, the status and time of the last
    command (dsh/src/prompt/modules/exit_status.rs, execution_time.rs). *)
From Verif Require Import Base.
From Verif Require Lread_Model Dmv_Model Views_Model.

(** ** git status *)

(** mod.rs l.55-67 GitStatus, without oid and branch_status, which are not shown *)
Record stats := Stats { branch : str; ahead : N; behind : N; staged : N; modified : N; untracked : N; conflicted : N; renamed : N; deleted : N }.
Definition none_yet : stats := Stats [] 0 0 0 0 0 0 0 0.
(** a value of the line `# branch.ab`, without the sign *)
Definition signed (sign : str) (w : str) : option N := Views_Model.numeral (Dmv_Model.replace sign [] w).
(** mod.rs l.889-967 list_stats; the counters do not overflow *)
Definition list_stats (line : str) (s : stats) : stats :=
  if starts_with (lit "#") line then
    let words := split_whitespace line in
    if starts_with (lit "# branch.oid") line then s
    else if starts_with (lit "# branch.head") line then
      match nth_error words 2 with
      | Some b => Stats b (ahead s) (behind s) (staged s) (modified s) (untracked s) (conflicted s) (renamed s) (deleted s)
      | None => s
      end
    else if starts_with (lit "# branch.ab") line then
      let a := match nth_error words 2 with Some v => match signed (lit "+") v with Some n => n | None => ahead s end | None => ahead s end in
      let b := match nth_error words 3 with Some v => match signed (lit "-") v with Some n => n | None => behind s end | None => behind s end in
      Stats (branch s) a b (staged s) (modified s) (untracked s) (conflicted s) (renamed s) (deleted s)
    else s
  else if starts_with (lit "?") line then Stats (branch s) (ahead s) (behind s) (staged s) (modified s) (untracked s + 1) (conflicted s) (renamed s) (deleted s)
  else if starts_with (lit "u") line then Stats (branch s) (ahead s) (behind s) (staged s) (modified s) (untracked s) (conflicted s + 1) (renamed s) (deleted s)
  else if starts_with (lit "1") line || starts_with (lit "2") line then
    match line with
    | _ :: _ :: r =>
        let x := nth 0 r (chr ".") in
        let y := nth 1 r (chr ".") in
        Stats (branch s) (ahead s) (behind s)
          (if negb (x =? chr ".")%N && negb (x =? chr "?")%N then staged s + 1 else staged s)
          (if (y =? chr "M")%N then modified s + 1 else modified s)
          (untracked s) (conflicted s)
          (if (x =? chr "R")%N then renamed s + 1 else renamed s)
          (if (x =? chr "D")%N || (y =? chr "D")%N then deleted s + 1 else deleted s)
    | _ => s
    end
  else s.
(** mod.rs l.868-887 parse_git_status_output; [None]: a line that is not UTF-8, at which
    read_line fails and the loop ends *)
Fixpoint parse_lines (ls : list (option str)) (s : stats) : stats :=
  match ls with
  | Some l :: r => parse_lines r (list_stats (trim l) s)
  | _ => s
  end.
Definition parse_status (ls : list (option str)) : stats := parse_lines ls none_yet.
(** mod.rs l.706-716 get_head_branch: what HEAD holds; [None]: a panic *)
Definition head_name (content : str) : option str :=
  let c := trim content in
  if starts_with (lit "ref: refs/heads/") c then Some (skipn (length (lit "ref: refs/heads/")) c)
  else if 7 <=? blen c then match split_byte c 7 with Some (a, _) => Some a | None => None end
  else Some (lit "DETACHED").

(** ** the repository of the prompt *)

Definition path := list str.
(** Path::starts_with *)
Fixpoint under (r p : path) : bool :=
  match r, p with
  | [], _ => true
  | x :: r', y :: p' => str_eqb x y && under r' p'
  | _, [] => false
  end.
(** what is on disk: the nearest repository (l.969-1011), what git says in a directory
    (l.829-866), the branch of HEAD of a repository (l.683-719) *)
Record world := World { nearest : path -> option path; stat_of : path -> option stats; head_of : path -> option str }.
(** the background task (repl/mod.rs l.887-920): looking for the repository of a directory,
    or waiting for git in a directory *)
Inductive phase := Idle | Finding (c : path) | Fetching (d : path).
(** the fields of Prompt that matter; [known] in the order the set is gone through *)
Record st := St { cwd : path; root : option path; needs : bool; known : list path; cache : option (stats * path); task : phase }.
Definition encloses (r : option path) (p : path) : bool := match r with Some x => under x p | None => false end.
(** mod.rs l.520-572 set_current, get_git_root_cached_only *)
Definition cd (p : path) (s : st) : st :=
  if encloses (root s) p then St p (root s) (needs s) (known s) (cache s) (task s)
  else match find (fun r => under r p) (known s) with
       | Some r => St p (Some r) false (known s) None (task s)
       | None => St p None true (known s) (cache s) (task s)
       end.
(** l.603-610 update_git_root *)
Definition set_root (r : option path) (s : st) : st :=
  St (cwd s) r false (match r with Some x => x :: known s | None => known s end) None (task s).
(** l.653-665 update_git_status *)
Definition set_status (v : option stats) (s : st) : st :=
  match root s, v with
  | Some r, Some x => St (cwd s) (root s) (needs s) (known s) (Some (x, r)) (task s)
  | _, _ => s
  end.
(** l.628-640 get_git_status_cached: an old status is shown too *)
Definition cached (s : st) : option stats :=
  match root s, cache s with
  | Some r, Some (v, r') => if list_eq_dec str_eq_dec r r' then Some v else None
  | _, _ => None
  end.
Definition with_branch (b : str) (v : stats) : stats := Stats b (ahead v) (behind v) (staged v) (modified v) (untracked v) (conflicted v) (renamed v) (deleted v).
Definition forget (s : st) : st := St (cwd s) (root s) true (known s) None (task s).
(** l.337-376 print_preprompt: the status shown, and what is left *)
Definition print (w : world) (s : st) : option stats * st :=
  match (if encloses (root s) (cwd s) then match root s with Some r => head_of w r | None => None end else None) with
  | Some b =>
      match cached s with
      | Some v => if str_eqb (branch v) b then (Some v, s) else (Some (with_branch b v), forget s)
      | None => (Some (with_branch b none_yet), forget s)
      end
  | None => (cached s, s)
  end.
(** repl/mod.rs l.887-920: the task begins, finds the repository, has the answer of git; it is
    begun only if none is under way *)
Definition begin (s : st) : st :=
  match task s with
  | Idle => St (cwd s) (root s) (needs s) (known s) (cache s) (if needs s then Finding (cwd s) else match root s with Some _ => Fetching (cwd s) | None => Idle end)
  | _ => s
  end.
Definition found (w : world) (s : st) : st :=
  match task s with
  | Finding c => let t := set_root (nearest w c) s in
                 St (cwd t) (root t) (needs t) (known t) (cache t) (match root t with Some _ => Fetching (cwd t) | None => Idle end)
  | _ => s
  end.
Definition fetched (w : world) (s : st) : st :=
  match task s with
  | Fetching d => let t := set_status (stat_of w d) s in St (cwd t) (root t) (needs t) (known t) (cache t) Idle
  | _ => s
  end.
Inductive event := Cd (p : path) | Printed (w : world) | Begun | Found (w : world) | Fetched (w : world).
Definition step (e : event) (s : st) : st :=
  match e with
  | Cd p => cd p s
  | Printed w => snd (print w s)
  | Begun => begin s
  | Found w => found w s
  | Fetched w => fetched w s
  end.
Fixpoint run (es : list event) (s : st) : st := match es with [] => s | e :: r => run r (step e s) end.

(** ** tools asked in the background *)

(** mod.rs l.105-132 BackoffGate; seconds *)
Record gate := Gate { allowed : N; delay : N }.
Definition failure (now : N) (g : gate) : gate := Gate (now + delay g) (N.min (delay g * 2) 300).
Definition reset (now : N) : gate := Gate now 5.
(** a tool: what is shown, the gate, how many questions are under way (repl/mod.rs l.792-817:
    every idle tick may start one) *)
Record tool := Tool { shown : option str; waits : gate; asked : nat }.
(** l.779-793 should_check_k8s, should_check_docker; [usable]: the command is there and set up *)
Definition ask (usable : bool) (now : N) (t : tool) : tool :=
  if match shown t with None => true | Some _ => false end && (allowed (waits t) <=? now)%N && usable then Tool (shown t) (waits t) (asked t + 1) else t.
Definition answer (now : N) (v : option str) (t : tool) : tool :=
  match asked t with
  | 0 => t
  | Datatypes.S n => match v with Some x => Tool (Some x) (reset now) n | None => Tool (shown t) (failure now (waits t)) n end
  end.
Inductive tick := Ask (usable : bool) (now : N) | Answer (now : N) (v : option str).
Definition tool_step (t : tool) (e : tick) : tool := match e with Ask u n => ask u n t | Answer n v => answer n v t end.
Definition tools (t : tool) (es : list tick) : tool := fold_left tool_step es t.
(** l.785-787, repl/mod.rs l.803-807: the profile, read from the environment on a tick *)
Definition profile (env : option str) (t : option str) : option str := match t with None => env | Some x => Some x end.

(** ** the last command *)

(** modules/exit_status.rs l.22-32, colours left out *)
Definition status_part (status : Z) : option str := if (status =? 0)%Z then None else Some (lit " " ++ [10008%N] ++ lit " " ++ Lread_Model.show_int status).
(** modules/execution_time.rs l.22-38; whole seconds *)
Definition time_part (secs : option N) : option str :=
  match secs with
  | None => None
  | Some n =>
      if (2 <=? n)%N then
        Some (lit " " ++ if (n <? 60)%N then Lread_Model.show_nat n ++ lit "s"
                         else Lread_Model.show_nat (n / 60) ++ lit "m" ++ Lread_Model.show_nat (n mod 60) ++ lit "s")
      else None
  end.
