(** Vocabulary for the prompt. *)
From Verif Require Import Base Prompt_Model.
From Verif Require Lread_Model.

(** the lines of `git status --porcelain=2 --branch` *)
Inductive entry :=
| Oid (r : str) | Head (b : str) | Upstream (r : str) | Ab (a b : N)
| Changed (two : bool) (x y : char) (r : str)  (* in the index and in the work tree *)
| Unmerged (r : str) | Untracked (r : str).
Definition text (e : entry) : str :=
  match e with
  | Oid r => lit "# branch.oid " ++ r
  | Head b => lit "# branch.head " ++ b
  | Upstream r => lit "# branch.upstream " ++ r
  | Ab a b => lit "# branch.ab +" ++ Lread_Model.show_nat a ++ lit " -" ++ Lread_Model.show_nat b
  | Changed two x y r => (if two then lit "2 " else lit "1 ") ++ x :: y :: r
  | Unmerged r => lit "u " ++ r
  | Untracked r => lit "? " ++ r
  end.
Definition word (s : str) : Prop := s <> [] /\ forall c, In c s -> is_whitespace c = false.
(** as git writes them: a dot stands for no change *)
Definition proper (e : entry) : Prop :=
  match e with
  | Head b => word b
  | Ab a b => (a < 4294967296)%N /\ (b < 4294967296)%N
  | Changed _ x y _ => is_whitespace x = false /\ is_whitespace y = false /\ x <> chr "?"
  | _ => True
  end.
(** how many entries there are of a kind *)
Definition tally (k : entry -> bool) (es : list entry) : N := N.of_nat (length (filter k es)).
Definition in_index (e : entry) : bool := match e with Changed _ x _ _ => negb (x =? chr ".")%N | _ => false end.
Definition edited (e : entry) : bool := match e with Changed _ _ y _ => (y =? chr "M")%N | _ => false end.
Definition moved (e : entry) : bool := match e with Changed _ x _ _ => (x =? chr "R")%N | _ => false end.
Definition gone (e : entry) : bool := match e with Changed _ x y _ => (x =? chr "D")%N || (y =? chr "D")%N | _ => false end.
Definition new (e : entry) : bool := match e with Untracked _ => true | _ => false end.
Definition unmerged (e : entry) : bool := match e with Unmerged _ => true | _ => false end.
Definition line (e : entry) : option str := Some (text e ++ [10%N]).

(** the repository found encloses the directory *)
Definition honest (w : world) : Prop := forall c r, nearest w c = Some r -> under r c = true.
Definition start (p : path) : st := St p None true [] None Idle.
(** the directory is changed only while no task is under way *)
Fixpoint calm (es : list event) (s : st) : Prop :=
  match es with
  | [] => True
  | e :: r => match e with Cd _ => task s = Idle | _ => True end /\ calm r (step e s)
  end.
Definition world_of (e : event) : option world := match e with Printed w | Found w | Fetched w => Some w | _ => None end.
(** git said this of the directory; the repository was found from the directory *)
Definition told (es : list event) (d : path) (v : stats) : Prop := exists w, In (Fetched w) es /\ stat_of w d = Some v.
Definition located (es : list event) (d r : path) : Prop := exists w, In (Found w) es /\ nearest w d = Some r.
(** the same but for the branch *)
Definition same_counts (v v0 : stats) : Prop := v = with_branch (branch v) v0.

(** a gate that was made by the program *)
Definition gate_ok (g : gate) : Prop := (5 <= delay g <= 300)%N.
