(** Programs and states for which the Lisp theorems hold. *)
From Verif Require Import Base Lread_Model Lisp_Model.

(** the last expression of a macro is a constant, a name or a quoted template *)
Definition quiet (e : lv) : Prop := match e with LList (h :: _) => h = LSym (lit "quote") | _ => True end.
Definition quiet_end (body : list lv) : Prop := match rev body with [] => True | e :: _ => quiet e end.
(** the functions that evaluate an expression in the frame they are called from *)
Definition reflective (n : str) : Prop := In n [lit "eval"; lit "apply"; lit "map"; lit "filter"].

(** [Data]: values without the names [comma] and [defmacro] and without reflective functions,
    whose functions have [Code] as bodies and whose macros end quietly.
    [Template]: data in which names are inserted.
    [Code]: data, and the special forms, with templates anywhere but in the arguments of a call
    (the call could be that of a macro, which gets the template unevaluated) *)
Inductive Data : lv -> Prop :=
| D_true : Data LTrue
| D_false : Data LFalse
| D_int z : Data (LInt z)
| D_str s : Data (LStr s)
| D_other t : Data (LOther t)
| D_sym s : s <> lit "comma" -> s <> lit "defmacro" -> Data (LSym s)
| D_native n : ~ reflective n -> Data (LNative n)
| D_lambda cl ns body : Forall Code body -> Data (LLambda cl ns body)
| D_macro cl ns body : Forall Code body -> quiet_end body -> Data (LMacro cl ns body)
| D_list l : Forall Data l -> Data (LList l)
with Template : lv -> Prop :=
| T_data v : Data v -> Template v
| T_comma x : Template (LList [LSym (lit "comma"); LSym x])
| T_list h t : h <> LSym (lit "comma") -> Forall Template (h :: t) -> Template (LList (h :: t))
with Code : lv -> Prop :=
| C_data e : Data e -> Code e
| C_quote t : Template t -> Code (LList [LSym (lit "quote"); t])
| C_assign kw k x : In kw [lit "define"; lit "set"] -> Code x -> Code (LList [LSym kw; LSym k; x])
| C_defun kw k args body : In kw [lit "defun"; lit "fn"] -> Forall Code body -> Code (LList (LSym kw :: LSym k :: LList args :: body))
| C_defmacro k args body : Forall Code body -> quiet_end body -> Code (LList (LSym (lit "defmacro") :: LSym k :: LList args :: body))
| C_lambda args body : Forall Code body -> Code (LList (LSym (lit "lambda") :: LList args :: body))
| C_let kw ds body : In kw [lit "let"; lit "v-let"; lit "value-let"] -> Forall Decl ds -> Forall Code body -> Code (LList (LSym kw :: LList ds :: body))
| C_block kw l : In kw [lit "begin"; lit "when"; lit "if"; lit "and"; lit "or"] -> Forall Code l -> Code (LList (LSym kw :: l))
| C_cond l : Forall Clause l -> Code (LList (LSym (lit "cond") :: l))
with Decl : lv -> Prop :=
| Decl_intro k x : Code x -> Decl (LList [LSym k; x])
with Clause : lv -> Prop :=
| Clause_intro t e : Code t -> Code e -> Clause (LList [t; e]).

(** every variable holds such a value *)
Definition good_heap (h : heap) : Prop := Forall (fun fr => Forall (fun p => Data (snd p)) (entries fr)) h.
Definition good {W} (s : state W) : Prop := good_heap (hp W s).
(** native functions do not look at the frame of the call and make such values of such values *)
Definition good_native {W} (native : nat -> str -> list lv -> M W lv) : Prop :=
  (forall i j n args, native i n args = native j n args) /\
  (forall i n args s, Forall Data args -> good s ->
     match native i n args s with Ok _ _ v s' => Data v /\ good s' | Err _ _ s' => good s' | Fuel _ _ => False end).

(** ** frames *)
(** frame number [i]; the heap lists the newest frame first *)
Definition frame_at (h : heap) (i : nat) : option frame := nth_error (rev h) i.
(** the value a single frame gives to a name *)
Definition binds (fr : frame) (k : str) (v : lv) : Prop := In (k, v) (entries fr).
Definition unbound (fr : frame) (k : str) : Prop := ~ In k (map fst (entries fr)).
(** going from frame [i] outwards, [j] is the first frame with a binding of [k], and gives it [v] *)
Inductive Nearest (h : heap) (k : str) : nat -> nat -> lv -> Prop :=
| Near_here i fr v : frame_at h i = Some fr -> binds fr k v -> Nearest h k i i v
| Near_up i fr p j v : frame_at h i = Some fr -> unbound fr k -> parent fr = Some p -> Nearest h k p j v -> Nearest h k i j v.
(** a frame's parent is older, and a name is bound at most once in a frame (a HashMap) *)
Definition wf_heap (h : heap) : Prop :=
  forall i fr, frame_at h i = Some fr -> NoDup (map fst (entries fr)) /\ forall p, parent fr = Some p -> p < i.
(** [fr'] is [fr] with [k] bound to [v] *)
Definition rebound (fr fr' : frame) (k : str) (v : lv) : Prop :=
  parent fr' = parent fr /\ binds fr' k v /\ forall k' w, k' <> k -> (binds fr' k' w <-> binds fr k' w).
(** [fr'] is [fr] without [k] *)
Definition removed (fr fr' : frame) (k : str) : Prop :=
  parent fr' = parent fr /\ unbound fr' k /\ forall k' w, k' <> k -> (binds fr' k' w <-> binds fr k' w).
(** the heaps have the same frames but for number [j] *)
Definition same_but (j : nat) (h h' : heap) : Prop := length h' = length h /\ forall i, i <> j -> frame_at h' i = frame_at h i.

(** the name [set] occurs nowhere *)
Inductive NoSet : lv -> Prop :=
| N_true : NoSet LTrue
| N_false : NoSet LFalse
| N_int z : NoSet (LInt z)
| N_str s : NoSet (LStr s)
| N_other t : NoSet (LOther t)
| N_native n : NoSet (LNative n)
| N_sym s : s <> lit "set" -> NoSet (LSym s)
| N_list l : Forall NoSet l -> NoSet (LList l)
| N_lambda cl ns body : Forall NoSet body -> NoSet (LLambda cl ns body)
| N_macro cl ns body : Forall NoSet body -> NoSet (LMacro cl ns body)
| N_tail fn args : NoSet fn -> Forall NoSet args -> NoSet (LTail fn args).
Definition noset_heap (h : heap) : Prop := Forall (fun fr => Forall (fun p => NoSet (snd p)) (entries fr)) h.
(** every frame that was there, other than [env], is unchanged *)
Definition others_kept (env : nat) (h h' : heap) : Prop :=
  length h <= length h' /\ forall j, j < length h -> j <> env -> frame_at h' j = frame_at h j.
(** native functions change no frame but that of the call, and make no [set] out of nothing *)
Definition noset_native {W} (native : nat -> str -> list lv -> M W lv) : Prop :=
  forall i n args s, Forall NoSet args -> noset_heap (hp W s) ->
    match native i n args s with
    | Ok _ _ v s' => NoSet v /\ noset_heap (hp W s') /\ others_kept i (hp W s) (hp W s')
    | Err _ _ s' => noset_heap (hp W s') /\ others_kept i (hp W s) (hp W s')
    | Fuel _ _ => True
    end.

(** ** data *)
(** values the evaluator gives back as they are *)
Definition self_evaluating (v : lv) : Prop := match v with LSym _ | LList (_ :: _) => False | _ => True end.
Definition function (v : lv) : Prop := match v with LNative _ | LLambda _ _ _ => True | _ => False end.
(** no list in the data starts with the name [comma] *)
Inductive CommaFree : lv -> Prop :=
| CF_atom v : (forall l, v <> LList l) -> CommaFree v
| CF_nil : CommaFree (LList [])
| CF_cons h t : h <> LSym (lit "comma") -> Forall CommaFree (h :: t) -> CommaFree (LList (h :: t)).
