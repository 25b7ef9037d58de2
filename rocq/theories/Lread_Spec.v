(** How Lisp values are written, independently of the reader. *)
From Verif Require Import Base Numerals Lread_Model.

Definition ascii (c : char) : Prop := (c < 128)%N.
Definition last_ascii (s : str) : Prop := exists a c, s = a ++ [c] /\ ascii c.
(** white space and comments: two semicolons up to the end of the line *)
Inductive Gap : str -> Prop :=
| G_nil : Gap []
| G_blank c g : is_whitespace c = true -> ascii c -> Gap g -> Gap (c :: g)
| G_comment (t : str) g : ~ In 10%N t -> Gap g -> Gap (lit ";;" ++ t ++ 10%N :: g).
(** the characters that end a word *)
Definition Break (c : char) : Prop := is_whitespace c = true \/ In c (lit "()',;").
Definition ends_word (q : str) : Prop := match q with [] => True | c :: _ => Break c end.

Section Numeric.
Variable unum : char -> bool.
(** a name: no blank or bracket in it, not the beginning of a number or a string, not one of
    nil, t and f in any case; and the last character is ASCII *)
Definition Name (s : str) : Prop :=
  last_ascii s /\ Forall (fun c => ~ Break c) s /\
  (forall c r, s = c :: r -> is_numeric unum c = false /\ c <> 34%N) /\
  (forall c r, s = chr "-" :: c :: r -> is_numeric unum c = false) /\
  ~ In (lower s) [lit "nil"; lit "t"; lit "f"].
Definition i64 (z : Z) : Prop := (- 2 ^ 63 <= z < 2 ^ 63)%Z.

(** lists and strings, which show their own end *)
Definition closed (s : str) : Prop := (exists a, s = a ++ [chr ")"]) \/ (exists r, s = 34%N :: r).
(** [Writes v s]: the text [s] is a way to write [v].  [Items l s]: [s] lists the values [l],
    each followed by white space or comments; nothing is needed in front of a bracket or quote,
    nor after a list or string *)
Inductive Writes : value -> str -> Prop :=
| W_true s : lower s = lit "t" -> Writes VTrue s
| W_false s : lower s = lit "f" -> Writes VFalse s
| W_nil s : lower s = lit "nil" -> Writes (VList []) s
| W_nat s n : Dec s n -> i64 (Z.of_N n) -> Writes (VInt (Z.of_N n)) s
| W_neg s n : Dec s n -> i64 (- Z.of_N n) -> Writes (VInt (- Z.of_N n)) (chr "-" :: s)
| W_float a b m n : Dec a m -> Dec b n -> Writes (VFloat (a ++ chr "." :: b)) (a ++ chr "." :: b)
| W_string s : last_ascii s -> ~ In 34%N s -> Writes (VString s) (34%N :: s ++ [34%N])
| W_name s : Name s -> Writes (VSymbol s) s
| W_quote v s : Writes v s -> Writes (VList [VSymbol (lit "quote"); v]) (chr "'" :: s)
| W_comma v s : Writes v s -> Writes (VList [VSymbol (lit "comma"); v]) (chr "," :: s)
| W_list l g s : Gap g -> Items l s -> Writes (VList l) (chr "(" :: g ++ s ++ [chr ")"])
with Items : list value -> str -> Prop :=
| I_nil : Items [] []
| I_last v s g : Writes v s -> Gap g -> Items [v] (s ++ g)
| I_cons v s g l t : Writes v s -> Gap g -> (g = [] -> closed s \/ exists c r, t = c :: r /\ In c (lit "(',")) -> Items l t -> Items (v :: l) (s ++ g ++ t).

(** the values made of integers, names, booleans and lists *)
Inductive Plain : value -> Prop :=
| P_true : Plain VTrue
| P_false : Plain VFalse
| P_int z : i64 z -> Plain (VInt z)
| P_name s : Name s -> Plain (VSymbol s)
| P_list l : Forall Plain l -> Plain (VList l).
End Numeric.
