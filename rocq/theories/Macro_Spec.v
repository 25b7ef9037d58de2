(** What a macro should be: the function of that name, without parameters, that hands each
    of the commands to `sh`, in order.  Nothing here mentions the model of recording. *)
From Verif Require Import Base Lread_Model.

Definition runs (c : str) : value := VList [VSymbol (lit "sh"); VString c].
Definition macro (name : str) (commands : list str) : value :=
  VList (VSymbol (lit "defun") :: VSymbol name :: VList [] :: map runs commands).

(** the values a string of which holds a quote *)
Fixpoint Mentions (v : value) : Prop :=
  match v with
  | VString s => In 34%N s
  | VList l => (fix any (l : list value) : Prop := match l with [] => False | x :: r => Mentions x \/ any r end) l
  | _ => False
  end.
