(** What the list of skills should say.  Only the entries and the functions that a user sees ([summary], [text_of], [ask]) are used. *)
From Verif Require Import Base Skills_Model.
From Coq Require Import Permutation.

(** A line, with its end *)
Definition a_line (l : str) : Prop := ~ In 10%N l.
Definition with_end (l : str) : str := l ++ [10%N].
(** A line of the head of a skill that is neither its end nor its description *)
Definition other (l : str) : Prop := a_line l /\ trim l <> lit "---" /\ starts_with (lit "description") (trim l) = false.
(** A text without blanks around it or quotation marks at the start *)
Definition plain (v : str) : Prop := v <> [] /\ trim v = v /\ a_line v /\ (forall r, v <> 34%N :: r) /\ (forall r, v <> 39%N :: r).

(** The folder between two questions: a file is written or added, at a time later than all before; an entry is removed.
    Entries are told apart by their names. *)
Definition dir := list entry.
Inductive change : N -> dir -> N -> dir -> Prop :=
| ch_write t a e b t' e' : (t < t')%N -> e_name e' = e_name e -> changed_at e' = t' -> change t (a ++ e :: b) t' (a ++ e' :: b)
| ch_add t a b t' e : (t < t')%N -> changed_at e = t' -> change t (a ++ b) t' (a ++ e :: b)
| ch_remove t a e b : change t (a ++ e :: b) t (a ++ b)
| ch_wait t d t' : (t <= t')%N -> change t d t' d.
Inductive changes : N -> dir -> N -> dir -> Prop :=
| cs_none t d : changes t d t d
| cs_one t d t1 d1 t2 d2 : change t d t1 d1 -> changes t1 d1 t2 d2 -> changes t d t2 d2.

(** No entry is changed after [t] *)
Definition past (t : N) (d : dir) : Prop := forall e, In e d -> (changed_at e <= t)%N.

(** The answers to questions, one after the other *)
Fixpoint answers (ds : list dir) (c : cache) : list str :=
  match ds with [] => [] | d :: r => let (f, c') := ask (Some d) c in f :: answers r c' end.
(** The folders seen by one question after another *)
Inductive history : N -> dir -> list dir -> Prop :=
| h_end t d : history t d []
| h_more t d t' d' r : changes t d t' d' -> history t' d' r -> history t d (d' :: r).
