(** What completing a line means, independently of the parser and the generators. *)
From Verif Require Import Base Token_Model Token_Spec Comp_Model.

(** [w] is what stands between the last separator before position [k] and position [k] *)
Definition typed_at (line : str) (k : nat) (w : str) : Prop :=
  exists i, i <= k /\ w = firstn (k - i) (skipn i line) /\
    (i = 0 \/ separator_at Parser line (i - 1)) /\ forall j, i <= j < k -> ~ separator_at Parser line j.
(** the words that end before position [k], and those that start after it *)
Definition words_before (ts : list span) (k : nat) : list str := map raw (filter (fun t => char_end t <? k) ts).
Definition words_after (ts : list span) (k : nat) : list str := map raw (filter (fun t => k <? char_start t) ts).
Definition ascii (s : str) : Prop := Forall (fun c => (c < 128)%N) s.

(** [w] is an option with its value, written as --name=value *)
Definition with_value (w name v : str) : Prop :=
  w = name ++ chr "=" :: v /\ ~ In (chr "=") name /\ exists c r, name = lit "--" ++ c :: r.

(** a word without blanks, quotes and backslashes *)
Definition plain (w : str) : Prop :=
  Forall (fun c => ~ In c [32; 9; 39; 34; 92]%N /\ is_whitespace c = false) w.

(** [subs] are the subcommands that can follow the words [ws] of a command with subcommands [l];
    [names] are the proper names of those words.  No proper name is also another's alias. *)
Inductive follows : list subcommand -> list str -> list str -> list subcommand -> Prop :=
| f_here l : follows l [] [] l
| f_step l w s ws names subs :
    find_sub l w = Some s -> find_sub l (s_name s) = Some s ->
    follows (s_subs s) ws names subs -> follows l (w :: ws) (s_name s :: names) subs.
(** the names of the options of a command start with a dash *)
Definition dashed (d : definition) : Prop :=
  forall p o n, In o (available d p) -> matches_name o n = true -> is_option n = true.
(** [t] is a name of [s] that starts with [p] *)
Definition names_sub (p : str) (s : subcommand) (t : str) : Prop :=
  (t = s_name s \/ In t (s_aliases s)) /\ starts_with p t = true.

(** words followed by a blank each, and a last word, which may be empty *)
Definition line_of (ws : list str) (last : str) : str := flat_map (fun w => w ++ [32%N]) ws ++ last.
