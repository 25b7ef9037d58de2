(** What the builtins history, out and read should do. *)
From Verif Require Import Base.
From Verif Require Numerals History_Model Output_Model Env_Model.

(** ** history *)

(** one thing said to history: an option, in its short or its long form, with its value, or a bare word *)
Inductive item :=
| IHelp (long : bool) | IVerbose (long : bool) | IQuery (long : bool) (v : str) | IScope (long : bool) (v : str)
| IStatus (v : str) | ISlow (v : str) | ILimit (long : bool) (v : str) | IWord (w : str).
Definition said (i : item) : list str :=
  match i with
  | IHelp l => [if l then lit "--help" else lit "-h"]
  | IVerbose l => [if l then lit "--verbose" else lit "-v"]
  | IQuery l v => [if l then lit "--query" else lit "-q"; v]
  | IScope l v => [if l then lit "--scope" else lit "-s"; v]
  | IStatus v => [lit "--status"; v]
  | ISlow v => [lit "--slow"; v]
  | ILimit l v => [if l then lit "--limit" else lit "-n"; v]
  | IWord w => [w]
  end.
Definition option_words : list str :=
  [lit "-h"; lit "--help"; lit "-v"; lit "--verbose"; lit "-q"; lit "--query"; lit "-s"; lit "--scope"; lit "--status";
   lit "--slow"; lit "-n"; lit "--limit"].

(** the values documented in the help *)
Inductive Scope_word : str -> History_Model.scope -> Prop :=
| sw_global : Scope_word (lit "global") History_Model.Global
| sw_session : Scope_word (lit "session") History_Model.InSession
| sw_cwd : Scope_word (lit "cwd") History_Model.InCwd
| sw_project : Scope_word (lit "project") History_Model.InProject.
Inductive Status_word : str -> History_Model.status -> Prop :=
| tw_any : Status_word (lit "any") History_Model.AnyStatus
| tw_success : Status_word (lit "success") History_Model.Success
| tw_failure : Status_word (lit "failure") History_Model.Failure.
(** a number below 2^64 *)
Definition Number (s : str) (n : N) : Prop := (n < 2 ^ 64)%N /\ Numerals.Dec s n.

Definition well_said (i : item) : Prop :=
  match i with
  | IScope _ v => exists s, Scope_word v s
  | IStatus v => exists s, Status_word v s
  | ISlow v => exists n, Number v n
  | ILimit _ v => exists n, Number v n /\ (1 <= n)%N
  | IWord w => ~ In w option_words
  | _ => True
  end.

(** the last of the items that [f] selects, if any *)
Definition Last {A} (f : item -> option A) (its : list item) (a : option A) : Prop :=
  match a with
  | Some x => exists before i after, its = before ++ i :: after /\ f i = Some x /\ Forall (fun j => f j = None) after
  | None => Forall (fun j => f j = None) its
  end.
Definition First {A} (f : item -> option A) (its : list item) (a : option A) : Prop :=
  match a with
  | Some x => exists before i after, its = before ++ i :: after /\ f i = Some x /\ Forall (fun j => f j = None) before
  | None => Forall (fun j => f j = None) its
  end.
Definition query_of i := match i with IQuery _ v => Some v | _ => None end.
Definition word_of i := match i with IWord w => Some w | _ => None end.
Definition scope_of i := match i with IScope _ v => Some v | _ => None end.
Definition status_of i := match i with IStatus v => Some v | _ => None end.
Definition slow_of i := match i with ISlow v => Some v | _ => None end.
Definition limit_of i := match i with ILimit _ v => Some v | _ => None end.

(** the query asked for: of options given twice the last counts; the query option is preferred to a word,
    and of the words the first counts *)
Record Asked (its : list item) (q : History_Model.query) : Prop := {
  asked_query : exists o w, Last query_of its o /\ First word_of its w /\
                History_Model.text q = match o with Some v => Some v | None => w end;
  asked_scope : exists v, Last scope_of its v /\
                match v with Some v => Scope_word v (History_Model.qscope q) | None => History_Model.qscope q = History_Model.Global end;
  asked_status : exists v, Last status_of its v /\
                 match v with Some v => Status_word v (History_Model.qstatus q) | None => History_Model.qstatus q = History_Model.AnyStatus end;
  asked_slow : exists v, Last slow_of its v /\
               match v with Some v => exists n, Number v n /\ History_Model.min_duration q = Some n
                          | None => History_Model.min_duration q = None end;
  asked_limit : exists v, Last limit_of its v /\
                match v with Some v => exists n, Number v n /\ History_Model.limit q = Some (N.to_nat n)
                           | None => History_Model.limit q = Some 200 end }.

(** the columns of a line *)
Definition columns (cs : list str) : str := join_with [9%N] cs.

(** ** out *)

(** what capture number [n] wrote, the newest being number 1 *)
Definition captured (e : Env_Model.env) (n : nat) : option str :=
  match n with
  | 0 => None
  | S k => option_map Output_Model.out (nth_error (Output_Model.entries (Env_Model.history e)) k)
  end.

(** ** read *)

(** [s] without the newlines at its end *)
Definition Chomped (s t : str) : Prop := exists k, s = t ++ repeat 10%N k /\ forall u, t <> u ++ [10%N].
