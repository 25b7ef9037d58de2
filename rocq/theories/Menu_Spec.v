(** What the list shown by Tab should be. *)
From Verif Require Import Base Menu_Model.
From Verif Require Frecency_Model.

(** [a] is listed above [b]: the higher score, then the kind (subcommands, long options, short
    options, arguments, directories, files, processes, the rest), then the alphabet *)
Definition kinds : list kind := [SubCommand; LongOption; ShortOption; Argument; Directory; File; Process; Generic].
Definition kind_above (a b : kind) : Prop := exists l r, kinds = l ++ r /\ In a l /\ In b r.
Definition above (a b : cand) : Prop :=
  (score b < score a)%N \/
  score a = score b /\ (kind_above (what a) (what b) \/ what a = what b /\ Frecency_Model.str_cmp (text a) (text b) = Lt).

(** What one line of the history gives a candidate: ten points for a line that has it as a word,
    and five hundred more if it is a line of the same command *)
Definition has_word (w line : str) : Prop := In w (split_whitespace line).
Definition of_command (command : option str) (line : str) : Prop :=
  exists c, command = Some c /\ (line = c \/ exists r, line = c ++ lit " " ++ r).
Inductive points (command : option str) (w line : str) : nat -> Prop :=
| Not_used : ~ has_word w line -> points command w line 0
| Used : has_word w line -> ~ of_command command line -> points command w line 10
| Used_here : has_word w line -> of_command command line -> points command w line 510.
(** The newest lines count first, two thousand of them, and none any more once there are more
    than five thousand points *)
Inductive collected (command : option str) (w : str) : list str -> nat -> nat -> Prop :=
| Over s : collected command w [] s s
| Full line lines s : 5000 < s -> collected command w (line :: lines) s s
| More line lines s n t : s <= 5000 -> points command w line n -> collected command w lines (s + n) t -> collected command w (line :: lines) s t.
Definition may_be_boosted (c : cand) : Prop := what c <> File /\ what c <> Directory.
Definition boost (command : option str) (history : option (list str)) (c : cand) (n : nat) : Prop :=
  match history with
  | None => n = 0
  | Some h => (may_be_boosted c -> collected command (text c) (firstn 2000 (rev h)) 0 n) /\ (~ may_be_boosted c -> n = 0)
  end.
(** the candidate as it is listed *)
Definition listed_as (command : option str) (history : option (list str)) (c x : cand) : Prop :=
  exists n, boost command history c n /\ text x = text c /\ what x = what c /\ score x = N.min (score c + N.of_nat n) (2 ^ 32 - 1).

(** ** The caches *)
(** one press of Tab: when (in milliseconds), on which line, the command of the line, and what
    collecting the candidates at that moment, for the cursor and in the directory of that moment, gives *)
Record press := Press { at_ : nat; line : str; cmd : str; now_right : list cand }.
(** the commands whose candidates change by themselves *)
Definition always_fresh (c : str) : Prop := In c (map lit ["task"; "pm"; "pj"; "mcp"; "git"; "docker"; "kubectl"]%string).
Definition begins_with (p s : str) : Prop := exists r, s = p ++ r.
(** the word the line ends with *)
Definition last_word (l w : str) : Prop :=
  Forall (fun c => is_whitespace c = false) w /\ (l = w \/ exists a c, l = a ++ c :: w /\ is_whitespace c = true).
(** what is shown of an older list for a longer line *)
Definition still_fits (l s : str) : Prop := begins_with l s \/ exists w, last_word l w /\ w <> [] /\ begins_with w s.
