(** What a typed line does: which and-or lists its separators make of its commands. *)
From Verif Require Import Base Parse_Model Parse_Spec.
From Verif Require Eval_Model Eval_Spec.
Import Eval_Spec(One, AndThen, OrElse).

(** what a job is, apart from the operator behind it *)
Definition what (s : shape) : list process * bool * option redirection := let '(p, f, r, _) := s in (p, f, r).
(** as it is handed to the process layer: nothing captured, no expressions *)
Definition handed (j : job) : Eval_Model.job := Eval_Model.Job (cmd j) (foreground j) false [] true.

(** Commands of one segment after the first are lists of their own: the first ones are in the
    background.  [cur] is the list being read. *)
Fixpoint own (done : list Eval_Spec.andor) (cur : Eval_Spec.andor) (js : list Eval_Model.job) : list Eval_Spec.andor * Eval_Spec.andor :=
  match js with [] => (done, cur) | j :: r => own (done ++ [cur]) (One j) r end.
(** the separator says how the first command of a segment goes on *)
Fixpoint lists (done : list Eval_Spec.andor) (cur : Eval_Spec.andor) (rest : list (separator * list Eval_Model.job)) : list Eval_Spec.andor :=
  match rest with
  | (s, j :: js) :: r =>
      let '(d, c) := match s with
                     | Semi => own (done ++ [cur]) (One j) js
                     | AndIf => own done (AndThen cur j) js
                     | OrIf => own done (OrElse cur j) js
                     end in lists d c r
  | (_, []) :: r => lists done cur r
  | [] => done ++ [cur]
  end.
Definition line_lists (l : line) (jss : list (list Eval_Model.job)) : list Eval_Spec.andor :=
  match jss with
  | (j :: js) :: rest => let '(d, c) := own [] (One j) js in lists d c (combine (map fst (snd l)) rest)
  | _ => []
  end.
