(** Where the candidates may come from. *)
From Verif Require Import Base Sources_Model.
From Verif Require Commands_Model Commands_Spec.

(** [t] is a name that matches, as a beginning, the signal [n] of number [k] *)
Definition Names_signal (upper : str -> str) (t n : str) (k : N) (digits : str) : Prop :=
  t = [] \/ (exists r, n = upper t ++ r) \/ (exists r, n = lit "SIG" ++ upper t ++ r) \/ (exists r, digits = t ++ r).

Section System.
Variable fuzzy : str -> str -> bool.
Variable own : list str.
(** at some event of the history [t] was there: an executable in a directory of the PATH the shell was started
    with, a name given, or a file named by its path *)
Definition Was_there (es : list event) (t : str) : Prop :=
  exists e, In e es /\
    match e with
    | Ask _ token w => t = token /\ Commands_Model.is_file w t = true \/ exists d, In d own /\ Commands_Spec.Offers fuzzy w [] d t
    | Scanned _ w => exists d, In d own /\ Commands_Spec.Offers fuzzy w [] d t
    | Given _ l => In t l
    | Path_set => False
    end.
End System.
