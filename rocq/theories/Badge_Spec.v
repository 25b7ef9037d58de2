(** What the prompt should say about tools.  Only the events, the fields of the state and [run] of the model are used. *)
From Verif Require Import Base Badge_Model.

(** The version shown at the end is the answer to a question asked in the directory where the shell now is,
    which is a project of the tool. *)
Definition FromHere (b : badge) (es : list event) (v : str) : Prop :=
  exists a i now rest d, es = a ++ Answered i now (Some v) :: rest
    /\ nth_error (pending (run b a)) i = Some d /\ d = cwd (run b es) /\ project (run b es) = true
    /\ forall e, In e rest -> match e with Cd d' _ _ => d' = d | _ => True end.
(** The directory changes only when no question is under way. *)
Inductive calm : badge -> list event -> Prop :=
| calm_nil b : calm b []
| calm_cd b es d p s : calm b es -> (d = cwd (run b es) \/ pending (run b es) = []) -> calm b (es ++ [Cd d p s])
| calm_tick b es now : calm b es -> calm b (es ++ [Tick now])
| calm_answer b es i now o : calm b es -> calm b (es ++ [Answered i now o]).
(** Nothing but blanks *)
Definition blank (s : str) : Prop := forall c, In c s -> is_whitespace c = true.
Definition word (s : str) : Prop := s <> [] /\ forall c, In c s -> is_whitespace c = false.
