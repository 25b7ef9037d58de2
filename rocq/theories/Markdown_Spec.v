(** What a drawing of a Markdown text is expected to be. *)
From Verif Require Import Base Markdown_Model.

(** ** nothing is lost *)

(** the text an event carries *)
Definition carries (e : event) : str :=
  match e with
  | Text s | Code s | InlineMath s | DisplayMath s | Html s | InlineHtml s => s
  | FootnoteRef n => lit "[" ++ n ++ lit "]"
  | _ => []
  end.
(** the text of an answer, a link's destination following the link; [open] are the links not yet closed *)
Fixpoint content (open : list str) (es : list event) : str :=
  match es with
  | [] => []
  | Start (TLink d) :: r => content (d :: open) r
  | End (TLink _) :: r => match open with d :: o => d ++ content o r | [] => content [] r end
  | e :: r => carries e ++ content open r
  end.
(** what the drawing itself may write: colours, marks, numbers, blanks and newlines *)
Definition own (c : char) : bool :=
  ((48 <=? c) && (c <=? 57) || (c =? 27) || (c =? 10) || (c =? 9474) || (c =? 9472) || (c =? 8226))%N || mem_char c (lit "[]();.mx ").
(** [s] is part of [t], in order *)
Inductive Within : str -> str -> Prop :=
| W_nil t : Within [] t
| W_take c s t : Within s t -> Within (c :: s) (c :: t)
| W_skip c s t : Within s t -> Within s (c :: t).
Definition no_newline (s : str) : str := filter (fun c => negb (c =? 10)%N) s.

(** ** the terminal's pen *)

(** reading a text as a terminal does: [None] is a sequence it does not know, or a line left coloured *)
Inductive mode := Ground | Escape | Params (p : str).
Definition read_char (st : option (mode * bool)) (c : char) : option (mode * bool) :=
  match st with
  | None => None
  | Some (Ground, on) => if (c =? 27)%N then Some (Escape, on) else if (c =? 10)%N && on then None else Some (Ground, on)
  | Some (Escape, on) => if (c =? 91)%N then Some (Params [], on) else None
  | Some (Params p, on) =>
      if (c =? 109)%N then Some (Ground, negb (str_eqb p (lit "0")))
      else if ((48 <=? c) && (c <=? 57) || (c =? 59))%N then Some (Params (p ++ [c]), on) else None
  end.
Definition reading (s : str) (st : option (mode * bool)) : option (mode * bool) := fold_left read_char s st.
(** read from the beginning, the pen is neutral at every newline and at the end *)
Definition neutral (s : str) : Prop := reading s (Some (Ground, false)) = Some (Ground, false).

(** ** lists *)

(** what stands within one item: no item of the same list, nested lists complete *)
Definition simple (e : event) : bool := match e with Start (TList _) | End (TList _) | Start TItem => false | _ => true end.
Inductive Body : list event -> Prop :=
| B_nil : Body []
| B_event e r : simple e = true -> Body r -> Body (e :: r)
| B_list n m k items r : Items k items -> Body r -> Body (Start (TList n) :: items ++ End (TList m) :: r)
with Items : nat -> list event -> Prop :=
| I_nil : Items 0 []
| I_item k body r : Body body -> Items k r -> Items (S k) (Start TItem :: body ++ End TItem :: r).
Scheme Body_rec2 := Induction for Body Sort Prop with Items_rec2 := Induction for Items Sort Prop.
