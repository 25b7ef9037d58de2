(** What the forms, the list of variables and the renderer should do.  Nothing here uses the functions of the model. *)
From Verif Require Import Base Lisp_Model Forms_Model.

(** Nothing is written: the argument is missing, is NIL or is false. *)
Definition Missing (args : list lv) (i : nat) : Prop :=
  nth_error args i = None \/ nth_error args i = Some (LList []).
Inductive MaybeText (args : list lv) (i : nat) : option str -> Prop :=
| mt_none : Missing args i -> MaybeText args i None
| mt_false : nth_error args i = Some LFalse -> MaybeText args i None
| mt_some t : nth_error args i = Some (LStr t) -> MaybeText args i (Some t).
Inductive MaybeFlag (args : list lv) (i : nat) : option bool -> Prop :=
| mf_none : Missing args i -> MaybeFlag args i None
| mf_false : nth_error args i = Some LFalse -> MaybeFlag args i (Some false)
| mf_true : nth_error args i = Some LTrue -> MaybeFlag args i (Some true).
Inductive ListOfTexts (args : list lv) (i : nat) : list str -> Prop :=
| lt_none : Missing args i -> ListOfTexts args i []
| lt_false : nth_error args i = Some LFalse -> ListOfTexts args i []
| lt_some l : nth_error args i = Some (LList (map LStr l)) -> ListOfTexts args i l.
(** An entry is a list that begins with a key and a value. *)
Definition written_entry (e : str * str * list lv) : lv := LList (LStr (fst (fst e)) :: LStr (snd (fst e)) :: snd e).
Inductive ListOfEntries (args : list lv) (i : nat) : list (str * str * list lv) -> Prop :=
| le_none : Missing args i -> ListOfEntries args i []
| le_false : nth_error args i = Some LFalse -> ListOfEntries args i []
| le_some l : nth_error args i = Some (LList (map written_entry l)) -> ListOfEntries args i l.
(** The last entry for a key counts. *)
Definition LastEntry (l : list (str * str * list lv)) (k v : str) : Prop :=
  exists a x b, l = a ++ (k, v, x) :: b /\ forall e, In e b -> fst (fst e) <> k.

(** The server that the arguments of a form describe *)
Inductive Describes : form -> server -> Prop :=
| d_stdio args l c ws vs es d a :
    nth_error args 0 = Some (LStr l) -> nth_error args 1 = Some (LStr c) ->
    ListOfTexts args 2 ws -> ListOfEntries args 3 es -> MaybeText args 4 d -> MaybeText args 5 a ->
    (forall k v, In (k, v) vs <-> LastEntry es k v) -> NoDup (map fst vs) ->
    Describes (FStdio args) (Server l a (Stdio c ws vs d))
| d_sse args l u a :
    nth_error args 0 = Some (LStr l) -> nth_error args 1 = Some (LStr u) -> MaybeText args 2 a ->
    Describes (FSse args) (Server l a (Sse u))
| d_http args l u h b a :
    nth_error args 0 = Some (LStr l) -> nth_error args 1 = Some (LStr u) ->
    MaybeText args 2 h -> MaybeFlag args 3 b -> MaybeText args 4 a ->
    Describes (FHttp args) (Server l a (Http u h b)).

(** A line of the list of variables *)
Definition Line (k v : str) (line : str) : Prop := line = k ++ lit "=" ++ v.

(** All bytes written, in order *)
Fixpoint written (os : list op) : list N :=
  match os with [] => [] | Put b :: r => b ++ written r | Flush _ :: r => written r end.
Definition fails (o : op) : Prop := exists n, o = Flush (Some n).
(** Two servers that differ at most in the order of their variables *)
Inductive Alike : server -> server -> Prop :=
| al_same s : Alike s s
| al_vars l a c ws vs vs' d : (forall p, In p vs <-> In p vs') -> Alike (Server l a (Stdio c ws vs d)) (Server l a (Stdio c ws vs' d)).
(** What a list of forms leaves: the servers of those that describe one, in order *)
Inductive Leaves : list form -> list server -> Prop :=
| lv_nil : Leaves [] []
| lv_some fs ss f s : Leaves fs ss -> Describes f s -> Leaves (fs ++ [f]) (ss ++ [s])
| lv_error fs ss f : Leaves fs ss -> f <> FClear -> (forall s, ~ Describes f s) -> Leaves (fs ++ [f]) ss
| lv_clear fs ss : Leaves fs ss -> Leaves (fs ++ [FClear]) [].
(** The first list is what is left of the second after some elements are taken out. *)
Inductive Within {A} : list A -> list A -> Prop :=
| wi_nil : Within [] []
| wi_keep x a b : Within a b -> Within (x :: a) (x :: b)
| wi_skip x a b : Within a b -> Within a (x :: b).
