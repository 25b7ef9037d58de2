(** What a complete text is, without reference to the scanner. *)
From Verif Require Import Base.

Definition opening : str := [40; 91; 123]%N.
Definition partner (b : char) : char := if (b =? 40)%N then 41%N else if (b =? 91)%N then 93%N else 125%N.

(** the inside of double quotes: characters and escaped characters *)
Inductive dquoted : str -> Prop :=
| dq_nil : dquoted []
| dq_char c t : c <> 34%N -> c <> 92%N -> dquoted t -> dquoted (c :: t)
| dq_esc c t : dquoted t -> dquoted (92%N :: c :: t).

(** [complete o s]: in [s] every quote, bracket and escape is closed; [o] is the bracket that
    [s] is the inside of, if any.  A closing bracket other than the one that would end [o] is
    an ordinary character. *)
Inductive complete : option char -> str -> Prop :=
| c_nil o : complete o []
| c_char o c s : ~ In c ([39; 34; 92]%N ++ opening) -> option_map partner o <> Some c -> complete o s -> complete o (c :: s)
| c_esc o c s : complete o s -> complete o (92%N :: c :: s)
| c_single o t s : ~ In 39%N t -> complete o s -> complete o (39%N :: t ++ 39%N :: s)
| c_double o t s : dquoted t -> complete o s -> complete o (34%N :: t ++ 34%N :: s)
| c_group o b t s : In b opening -> complete (Some b) t -> complete o s -> complete o (b :: t ++ partner b :: s).

(** the last characters before trailing blanks are a pipe or a conjunction *)
Definition ends_in_operator (s : str) : Prop :=
  exists t w, s = t ++ w /\ forallb is_whitespace w = true /\ (exists u, t = u ++ lit "|" \/ t = u ++ lit "&&").
