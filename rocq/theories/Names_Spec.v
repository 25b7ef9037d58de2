(** What the builtins alias and abbr promise: which arguments define which name, what stays as
    it was, and what a table holds after any sequence of commands. *)
From Verif Require Import Base Env_Model Offer_Spec.

(** the table [t'] is [t] with [n] standing for [c] *)
Definition defined (t t' : map_) (n c : str) : Prop := assoc n t' = Some c /\ forall m, m <> n -> assoc m t' = assoc m t.
Definition forgotten (t t' : map_) (n : str) : Prop := assoc n t' = None /\ forall m, m <> n -> assoc m t' = assoc m t.

(** an alias is named by a letter or underscore, then letters, digits, underscores and hyphens *)
Definition alias_name (letter letter_or_digit : char -> Prop) (n : str) : Prop :=
  exists c r, n = c :: r /\ (letter c \/ c = 95%N) /\ forall d, In d r -> letter_or_digit d \/ d = 95%N \/ d = 45%N.
(** [a] has the form n = c: blanks around both sides and one pair of quotes around c are dropped *)
Definition assignment (a n c : str) : Prop :=
  exists l r v, a = l ++ 61%N :: r /\ ~ In 61%N l /\ trimmed l n /\ trimmed r v /\ v <> [] /\ unquoted v c.

(** an abbreviation has a name without blanks *)
Definition abbr_name (n : str) : Prop := n <> [] /\ ~ In 32%N n /\ ~ In 9%N n.
Definition adds (argv : list str) (n x : str) : Prop :=
  abbr_name n /\ exists a o v rest, argv = a :: o :: n :: v :: rest /\ (o = lit "-a" \/ o = lit "--add") /\ x = join_with (lit " ") (v :: rest).
Definition erases (argv : list str) (n : str) : Prop := exists a o, argv = [a; o; n] /\ (o = lit "-e" \/ o = lit "--erase").

(** after a sequence of commands [n] stands for [x]: some command said so, and no later one spoke
    about [n] *)
Definition stands {cmd} (says : cmd -> str -> str -> Prop) (undoes : cmd -> str -> Prop) (h : list cmd) (n x : str) : Prop :=
  exists before c after, h = before ++ c :: after /\ says c n x /\
    forall d, In d after -> (forall y, ~ says d n y) /\ ~ undoes d n.
