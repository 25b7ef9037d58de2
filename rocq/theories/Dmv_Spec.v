(** Bulk renaming, in a reader's terms. *)
From Verif Require Import Base Dmv_Model.

(** which names a glob stands for *)
Inductive glob_matches : str -> str -> Prop :=
| gm_end : glob_matches [] []
| gm_star p x s : glob_matches p s -> glob_matches (chr "*" :: p) (x ++ s)
| gm_any p c s : glob_matches p s -> glob_matches (chr "?" :: p) (c :: s)
| gm_char p c s : c <> chr "*" -> c <> chr "?" -> glob_matches p s -> glob_matches (c :: p) (c :: s).
(** which texts a sequence of regex atoms stands for *)
Inductive takes : list item -> str -> Prop :=
| takes_nil : takes [] []
| takes_one p c l s : p c = true -> takes l s -> takes (One p :: l) (c :: s)
| takes_many p x l s : Forall (fun c => p c = true) x -> takes l s -> takes (Many p :: l) (x ++ s).
(** how a name is divided over the parts of a pattern, with the texts of the groups *)
Inductive divides : list part -> str -> list str -> Prop :=
| div_nil : divides [] [] []
| div_out i r x s caps : takes [i] x -> divides r s caps -> divides (Out i :: r) (x ++ s) caps
| div_group g r x s caps : takes g x -> divides r s caps -> divides (Group g :: r) (x ++ s) (x :: caps).
(** a replacement as the help text describes it: text and references to groups; reference 0
    is the whole name *)
Inductive piece := Text (s : str) | Ref (i : nat).
Definition written (p : piece) : str := match p with Text s => s | Ref i => chr "$" :: [N.of_nat (48 + i)] end.
Definition means (name : str) (caps : list str) (p : piece) : str := match p with Text s => s | Ref i => nth i (name :: caps) [] end.
Definition no_dollar (s : str) : Prop := ~ In (chr "$") s.
(** fewer than ten groups, references to existing groups only, no dollar sign in plain text *)
Definition proper (n : nat) (p : piece) : Prop := match p with Text s => no_dollar s | Ref i => i <= n end.
(** a directory in which every name occurs once *)
Definition sound (d : dir) : Prop := NoDup (map fst d).
(** [d'] is [d] after the renames [ops], all at once: each file under its new name, its old
    name free, every other name as it was, and nothing gained or lost *)
Definition renamed (ops : list (str * str)) (d d' : dir) : Prop :=
  (forall a b, In (a, b) ops -> lookup d' b = lookup d a /\ lookup d' a = None) /\
  (forall n, ~ In n (map fst ops) -> ~ In n (map snd ops) -> lookup d' n = lookup d n) /\
  map snd d' = map snd d.
(** characters that stand for themselves in a pattern *)
Definition ordinary (s : str) : Prop := Forall (fun c => ~ In c (lit "()*?[")) s.

(** ** The language of patterns, as the help describes it *)
Inductive elem := Self (c : char) | AnyOne | AnyRun | AnyDeep | Set_ (body : str).
Inductive pelem := Bare (e : elem) | Paren (l : list elem).
Definition text (e : elem) : str :=
  match e with Self c => [c] | AnyOne => lit "?" | AnyRun => lit "*" | AnyDeep => lit "**" | Set_ b => chr "[" :: b ++ [chr "]"] end.
Definition ptext (p : pelem) : str := match p with Bare e => text e | Paren l => chr "(" :: flat_map text l ++ [chr ")"] end.
(** the texts an element stands for *)
Definition fits (class : str -> option (char -> bool)) (e : elem) (s : str) : Prop :=
  match e with
  | Self c => s = [c]
  | AnyOne => exists d, s = [d] /\ d <> chr "/"
  | AnyRun => ~ In (chr "/") s
  | AnyDeep => ~ In 10%N s
  | Set_ b => exists d p, s = [d] /\ class b = Some p /\ p d = true
  end.
Inductive fits_list (class : str -> option (char -> bool)) : list elem -> str -> Prop :=
| fl_nil : fits_list class [] []
| fl_cons e l x s : fits class e x -> fits_list class l s -> fits_list class (e :: l) (x ++ s).
(** the names a pattern stands for, with the texts in parentheses *)
Inductive fits_pattern (class : str -> option (char -> bool)) : list pelem -> str -> list str -> Prop :=
| fp_nil : fits_pattern class [] [] []
| fp_bare e l x s caps : fits class e x -> fits_pattern class l s caps -> fits_pattern class (Bare e :: l) (x ++ s) caps
| fp_paren g l x s caps : fits_list class g x -> fits_pattern class l s caps -> fits_pattern class (Paren g :: l) (x ++ s) (x :: caps).
(** balanced parentheses *)
Inductive balanced : str -> Prop :=
| bal_nil : balanced []
| bal_char c s : c <> chr "(" -> c <> chr ")" -> balanced s -> balanced (c :: s)
| bal_paren a b : balanced a -> balanced b -> balanced (chr "(" :: a ++ chr ")" :: b).
(** a star is not written before another *)
Definition starry (e : elem) : bool := match e with AnyRun | AnyDeep => true | _ => false end.
Fixpoint unambiguous (l : list elem) : Prop :=
  match l with
  | [] => True
  | e :: r => (e = AnyRun -> match r with e' :: _ => starry e' = false | [] => True end) /\ unambiguous r
  end.
Fixpoint punambiguous (l : list pelem) : Prop :=
  match l with
  | [] => True
  | e :: r => (e = Bare AnyRun -> match r with Bare e' :: _ => starry e' = false | _ => True end) /\ punambiguous r
  end.
(** elements that can be written; in parentheses a parenthesis stands for itself *)
Definition writable (class : str -> option (char -> bool)) (special : str) (e : elem) : Prop :=
  match e with Self c => ~ In c special | Set_ b => ~ In (chr "]") b /\ class b <> None | _ => True end.
Definition pwritable (class : str -> option (char -> bool)) (p : pelem) : Prop :=
  match p with
  | Bare e => writable class (lit "()*?[") e
  | Paren l => Forall (writable class (lit "*?[")) l /\ unambiguous l /\ balanced (flat_map text l)
  end.
(** what selects files for a pattern: the pattern with a star for each pair of parentheses *)
Definition glob_of (p : pelem) : str := match p with Bare e => text e | Paren _ => lit "*" end.
