(** The GitHub notifications of the prompt: dsh/src/github.rs, the settings in dsh/src/repl/mod.rs l.187-240
    and the badge in dsh/src/prompt/mod.rs l.411-456.

    The answers of the service are parameters; what the shell asks of it is a list of requests, all sent
    with the token.  background_github_task_dynamic and check_github (l.254-309) are not used by the shell
    and not modelled. *)
From Verif Require Import Base.
From Verif Require Numerals.

(** the fields of a notification that are looked at; [None]: missing or not a text *)
Record notification := Notification { reason : option str; subject_url : option str; id : option str }.

(** l.11-23 GitHubStatus *)
Record status := Status { review_count : nat; mention_count : nat; other_count : nat; has_error : bool }.
Definition fresh : status := Status 0 0 0 false.
Definition total (s : status) : nat := review_count s + mention_count s + other_count s.

(** how the service answers at one moment: the list of notifications ([None]: an error, or something else
    than a list), what it says at the address of a pull request, and whether it marks a thread *)
Record pull := Pull { state : option str; merged : option bool }.
Record service := Service {
  notifications : option (list notification); pull_at : str -> option pull; marks : str -> bool }.

Inductive request := AskAll | AskPull (url : str) | Mark (thread : str).

(** l.48-75 is_pr_closed_or_merged; [None]: no answer, an error or no JSON *)
Definition is_pr_closed_or_merged (s : service) (url : str) : bool :=
  match pull_at s url with
  | Some p => str_eqb (match state p with Some x => x | None => [] end) (lit "closed") ||
              match merged p with Some b => b | None => false end
  | None => false
  end.

Definition reason_of (n : notification) : str := match reason n with Some r => r | None => [] end.
(** l.118-138 what becomes of one notification: whether it is kept, and the requests made *)
Definition judged (s : service) (n : notification) : bool * list request :=
  if str_eqb (reason_of n) (lit "review_requested") then
    match subject_url n with
    | Some url =>
        if is_pr_closed_or_merged s url then
          match id n with
          | Some i => (negb (marks s i), [AskPull url; Mark i])
          | None => (true, [AskPull url])
          end
        else (true, [AskPull url])
    | None => (true, [])
    end
  else (true, []).

(** l.161-167 the reasons that count, if the filter names them *)
Definition allowed_reasons (filter : option str) : option (list str) :=
  match filter with
  | Some f => if starts_with (lit "reason:") f then Some (map trim (split_on (chr ",") (skipn 7 f))) else None
  | None => None
  end.
(** l.171-190, one notification *)
Definition counted (allowed : option (list str)) (st : status) (n : notification) : status :=
  let r := reason_of n in
  if match allowed with Some l => negb (mem_str r l) | None => false end then st
  else if str_eqb r (lit "review_requested") then Status (S (review_count st)) (mention_count st) (other_count st) (has_error st)
  else if str_eqb r (lit "mention") || str_eqb r (lit "assign")
       then Status (review_count st) (S (mention_count st)) (other_count st) (has_error st)
  else Status (review_count st) (mention_count st) (S (other_count st)) (has_error st).
(** l.159-197 parse_notifications *)
Definition parse_notifications (ns : list notification) (filter : option str) : status :=
  fold_left (counted (allowed_reasons filter)) ns fresh.
(** l.103-156 fetch_notifications.  The notifications are handled five at a time and come back in any
    order; here in the order of the list (the theorems say that the order does not matter). *)
Definition fetch (s : service) (filter : option str) : option status * list request :=
  match notifications s with
  | None => (None, [AskAll])
  | Some ns =>
      (Some (parse_notifications (List.filter (fun n => fst (judged s n)) ns) filter),
       AskAll :: flat_map (fun n => snd (judged s n)) ns)
  end.

(** ** repl/mod.rs l.191-231 *)

(** the values of Lisp that matter *)
Inductive value := Text (s : str) | Int (z : Z) | Other.
(** the global variables *)
Definition variables := str -> option value.
Record config := Config { pat : option str; interval : N; only : option str }.
Definition text_of (v : option value) : option str := match v with Some (Text s) => Some s | _ => None end.
Definition config_from (vars : variables) : config :=
  Config (text_of (vars (lit "*github-pat*")))
         (match vars (lit "*github-notify-interval*") with
          | Some (Text s) => match Numerals.parse_usize s with Some n => n | None => 60 end
          | Some (Int z) => if (z <? 0)%Z then 60 else Z.to_N z
          | _ => 60
          end)
         (text_of (vars (lit "*github-notifications-filter*"))).

(** l.217 *)
Definition sleep_seconds (c : config) : N := if (0 <? interval c)%N then interval c else 60.

(** ** the shell: the settings made at its start, the variables, the counts *)
Record shell := Shell { settings : config; vars : variables; status_ : status }.
Definition start (v : variables) : shell := Shell (config_from v) v fresh.
(** a variable is set; the interval is over while the prompt is or is not in a repository *)
Inductive event := SetVar (name : str) (v : value) | Tick (under_git : bool) (s : service).
(** l.209-251, one round *)
Definition step (sh : shell) (e : event) : shell * list request :=
  match e with
  | SetVar name v => (Shell (settings sh) (fun x => if str_eqb x name then Some v else vars sh x) (status_ sh), [])
  | Tick under s =>
      match pat (settings sh) with
      | None => (sh, [])
      | Some _ =>
          if under then
            match fetch s (only (settings sh)) with
            | (Some st, rs) => (Shell (settings sh) (vars sh) st, rs)
            | (None, rs) =>
                (Shell (settings sh) (vars sh)
                       (Status (review_count (status_ sh)) (mention_count (status_ sh)) (other_count (status_ sh)) true), rs)
            end
          else (sh, [])
      end
  end.
Fixpoint run (sh : shell) (es : list event) : shell * list request :=
  match es with
  | [] => (sh, [])
  | e :: r => let (sh', a) := step sh e in let (sh'', b) := run sh' r in (sh'', a ++ b)
  end.

(** ** prompt/mod.rs l.411-456: the signs shown, each with its number; colours and the icon left out *)
Inductive sign := Reviews | Mentions | Others.
Inductive badge := NoBadge | ErrorBadge | Counts (l : list (sign * nat)).
Definition shown (in_git : bool) (st : status) : badge :=
  if in_git then
    if 0 <? total st then
      Counts ((if 0 <? review_count st then [(Reviews, review_count st)] else []) ++
              (if 0 <? mention_count st then [(Mentions, mention_count st)] else []) ++
              (if 0 <? other_count st then [(Others, other_count st)] else []))
    else if has_error st then ErrorBadge else NoBadge
  else NoBadge.
