(** What the Lisp library should do: integers as integers, equality as equality, printing without end. *)
From Verif Require Import Base Lisp_Model.
From Coq Require Import ZArith.

Definition i64 (z : Z) : Prop := (- 2 ^ 63 <= z < 2 ^ 63)%Z.
Definition sum (l : list Z) : Z := fold_right Z.add 0%Z l.
Definition product (l : list Z) : Z := fold_right Z.mul 1%Z l.
(** every intermediate result, from the left *)
Definition sums_fit (l : list Z) : Prop := forall k, i64 (sum (firstn k l)).
Definition products_fit (l : list Z) : Prop := forall k, i64 (product (firstn k l)).
(** [q] is [x / y] without its fraction *)
Definition cut_quotient (x y q : Z) : Prop :=
  (exists r, x = y * q + r /\ Z.abs r < Z.abs y /\ (0 <= r * x))%Z.

(** plain data: no functions, floats, tables *)
Inductive Plain : lv -> Prop :=
| Plain_true : Plain LTrue
| Plain_false : Plain LFalse
| Plain_int z : Plain (LInt z)
| Plain_str s : Plain (LStr s)
| Plain_sym s : Plain (LSym s)
| Plain_list l : Forall Plain l -> Plain (LList l).
(** every text inside is ASCII *)
Definition ascii (s : str) : Prop := Forall (fun c => (c < 128)%N) s.
Inductive Ascii : lv -> Prop :=
| Ascii_true : Ascii LTrue
| Ascii_false : Ascii LFalse
| Ascii_int z : Ascii (LInt z)
| Ascii_str s : ascii s -> Ascii (LStr s)
| Ascii_sym s : ascii s -> Ascii (LSym s)
| Ascii_other s : ascii s -> Ascii (LOther s)
| Ascii_native n : Ascii (LNative n)
| Ascii_list l : Forall Ascii l -> Ascii (LList l)
| Ascii_lambda c ns body : Forall ascii ns -> Forall Ascii body -> Ascii (LLambda c ns body)
| Ascii_macro c ns body : Forall ascii ns -> Forall Ascii body -> Ascii (LMacro c ns body)
| Ascii_tail f l : Ascii (LTail f l).
(** no function defined in Lisp inside *)
Inductive NoLambda : lv -> Prop :=
| NL_plain v : (forall l, v <> LList l) -> (forall c ns b, v <> LLambda c ns b /\ v <> LMacro c ns b) -> NoLambda v
| NL_list l : Forall NoLambda l -> NoLambda (LList l).

(** what is held under a key: the value of the last pair with it *)
Definition holds (ps : list (lv * lv)) (k v : lv) : Prop := exists a b, ps = a ++ (k, v) :: b /\ ~ In k (map fst b).
Definition flat (ps : list (lv * lv)) : list lv := concat (map (fun p => [fst p; snd p]) ps).
