(** Parsing expression grammars as run by the pest crate (version 2), the engine behind
    dsh/src/parser/mod.rs.  Only the operators used in dsh/src/shell.pest are present;
    that grammar defines neither WHITESPACE nor COMMENT, so the atomic marks of a rule
    have no effect, and silent rules are macros. *)
From Verif Require Import Base.

Section Peg.
Variable rule : Type.

Inductive expr :=
| Lit (s : str)            (** "text" *)
| Any                      (** ANY *)
| Seq (a b : expr)         (** a ~ b *)
| Alt (a b : expr)         (** a | b *)
| Star (a : expr)          (** a* *)
| Opt (a : expr)           (** a? *)
| Not (a : expr)           (** !a *)
| Nt (r : rule).           (** a rule that is not silent *)
(** a+ *)
Definition Plus (a : expr) : expr := Seq a (Star a).

(** pest::iterators::Pair: rule, start of the span, text of the span, inner pairs.
    Positions count characters (pest counts bytes). *)
Inductive node := Node (r : rule) (start : nat) (text : str) (inner : list node).
Definition rule_of (n : node) := let '(Node r _ _ _) := n in r.
Definition start_of (n : node) := let '(Node _ s _ _) := n in s.
Definition text_of (n : node) := let '(Node _ _ t _) := n in t.
Definition inner_of (n : node) := let '(Node _ _ _ i) := n in i.
Definition end_of (n : node) := start_of n + length (text_of n).

Inductive res :=
| Out                                             (** not enough fuel *)
| Fail
| Ok (nodes : list node) (consumed rest : str).

Variable gram : rule -> expr.

(** ordered choice, greedy repetition, no backtracking into a success; a predicate
    consumes nothing and leaves no pairs *)
Fixpoint peg (fuel : nat) (e : expr) (pos : nat) (s : str) : res :=
  match fuel with
  | 0 => Out
  | S n =>
      match e with
      | Lit t => if starts_with t s then Ok [] t (skipn (length t) s) else Fail
      | Any => match s with c :: r => Ok [] [c] r | [] => Fail end
      | Seq a b =>
          match peg n a pos s with
          | Ok n1 c1 r1 =>
              match peg n b (pos + length c1) r1 with
              | Ok n2 c2 r2 => Ok (n1 ++ n2) (c1 ++ c2) r2
              | x => x
              end
          | x => x
          end
      | Alt a b => match peg n a pos s with Fail => peg n b pos s | x => x end
      | Star a =>
          match peg n a pos s with
          | Fail => Ok [] [] s
          | Ok n1 c1 r1 =>
              match peg n (Star a) (pos + length c1) r1 with
              | Ok n2 c2 r2 => Ok (n1 ++ n2) (c1 ++ c2) r2
              | x => x
              end
          | Out => Out
          end
      | Opt a => match peg n a pos s with Fail => Ok [] [] s | x => x end
      | Not a => match peg n a pos s with Fail => Ok [] [] s | Ok _ _ _ => Fail | Out => Out end
      | Nt r =>
          match peg n (gram r) pos s with
          | Ok ns c rest => Ok [Node r pos c ns] c rest
          | x => x
          end
      end
  end.
End Peg.
Arguments Lit {rule} s. Arguments Any {rule}. Arguments Seq {rule} a b. Arguments Alt {rule} a b.
Arguments Star {rule} a. Arguments Opt {rule} a. Arguments Not {rule} a. Arguments Nt {rule} r.
Arguments Plus {rule} a. Arguments Node {rule} r start text inner.
Arguments rule_of {rule} n. Arguments start_of {rule} n. Arguments text_of {rule} n. Arguments inner_of {rule} n. Arguments end_of {rule} n.
Arguments Out {rule}. Arguments Fail {rule}. Arguments Ok {rule} nodes consumed rest.
Arguments peg {rule} gram fuel e pos s.
