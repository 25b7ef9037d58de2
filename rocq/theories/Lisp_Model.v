(** The Lisp evaluator: dsh/src/lisp/interpreter.rs, dsh/src/lisp/model/env.rs and the functions
    eval, apply, map and filter of dsh/src/lisp/default_environment.rs.

    Frames are kept in a heap: a list with the newest frame first; the frame's number is the
    number of older frames (Rc pointers).  Lists are immutable.  Floats, hash maps, tables and
    foreign values are [LOther].  The other native functions, the shell variable written by
    v-let and the entry added by autocomplete are oracles on the state ([W] is everything
    outside the Lisp heap).  Error messages and the export flag of functions are dropped. *)
From Verif Require Import Base Lread_Model.

(** model/value.rs l.24-58 *)
Inductive lv :=
| LTrue | LFalse | LInt (z : Z) | LStr (s : str) | LSym (s : str) | LList (l : list lv) | LOther (tag : str)
| LNative (name : str)
| LLambda (closure : nat) (args : list str) (body : list lv)
| LMacro (closure : nat) (args : list str) (body : list lv)
| LTail (fn : lv) (args : list lv).
Definition nil_v : lv := LList [].
Definition of_bool (b : bool) : lv := if b then LTrue else LFalse.
(** l.106-110 *)
Definition truthy (v : lv) : bool := match v with LList [] | LFalse => false | _ => true end.
(** into_value, for reading programs in examples *)
Fixpoint embed (v : value) : lv :=
  match v with
  | VTrue => LTrue | VFalse => LFalse | VInt z => LInt z | VFloat t => LOther t | VString s => LStr s | VSymbol s => LSym s
  | VList l => LList (map embed l)
  end.

(** ** model/env.rs *)
Record frame := { parent : option nat; entries : list (str * lv) }.
Definition heap := list frame.
Fixpoint assoc (k : str) (l : list (str * lv)) : option lv :=
  match l with [] => None | (x, v) :: r => if str_eqb x k then Some v else assoc k r end.
Fixpoint put (k : str) (v : lv) (l : list (str * lv)) : list (str * lv) :=
  match l with [] => [(k, v)] | (x, w) :: r => if str_eqb x k then (x, v) :: r else (x, w) :: put k v r end.
Fixpoint del (k : str) (l : list (str * lv)) : list (str * lv) :=
  match l with [] => [] | (x, w) :: r => if str_eqb x k then r else (x, w) :: del k r end.
(** l.28-35 extend: the new frame's number and the heap with it *)
Definition extend (h : heap) (p : option nat) : nat * heap := (length h, {| parent := p; entries := [] |} :: h).
(** l.37-47 *)
Fixpoint get (h : heap) (i : nat) (k : str) : option lv :=
  match h with
  | [] => None
  | fr :: old =>
      if i =? length old then
        match assoc k (entries fr) with
        | Some v => Some v
        | None => match parent fr with Some p => get old p k | None => None end
        end
      else get old i k
  end.
(** l.49-52 *)
Fixpoint define (h : heap) (i : nat) (k : str) (v : lv) : heap :=
  match h with
  | [] => []
  | fr :: old => if i =? length old then {| parent := parent fr; entries := put k v (entries fr) |} :: old else fr :: define old i k v
  end.
(** l.54-74; [None]: the error *)
Fixpoint set (h : heap) (i : nat) (k : str) (v : lv) : option heap :=
  match h with
  | [] => None
  | fr :: old =>
      if i =? length old then
        match assoc k (entries fr) with
        | Some _ => Some ({| parent := parent fr; entries := put k v (entries fr) |} :: old)
        | None => match parent fr with
                  | Some p => match set old p k v with Some old' => Some (fr :: old') | None => None end
                  | None => None
                  end
        end
      else match set old i k v with Some old' => Some (fr :: old') | None => None end
  end.
(** l.76-83 *)
Fixpoint undefine (h : heap) (i : nat) (k : str) : heap :=
  match h with
  | [] => []
  | fr :: old =>
      if i =? length old then
        match assoc k (entries fr) with
        | Some _ => {| parent := parent fr; entries := del k (entries fr) |} :: old
        | None => match parent fr with Some p => fr :: undefine old p k | None => h end
        end
      else fr :: undefine old i k
  end.

(** ** interpreter.rs *)
Section Eval.
Variable W : Type.
Record state := { hp : heap; world : W }.
Inductive res A := Ok (a : A) (s : state) | Err (s : state) | Fuel.
Arguments Ok {A}. Arguments Err {A}. Arguments Fuel {A}.
Definition M A := state -> res A.
Definition ret {A} (a : A) : M A := fun s => Ok a s.
Definition fail {A} : M A := fun s => Err s.
Definition bind {A B} (m : M A) (k : A -> M B) : M B := fun s => match m s with Ok a s' => k a s' | Err s' => Err s' | Fuel => Fuel end.
(** native functions other than eval, apply, map and filter: they see the frame of the call *)
Variable native : nat -> str -> list lv -> M lv.
(** v-let: variables.insert (l.299-304); autocomplete (l.180-235) *)
Variable set_variable : W -> str -> lv -> W.
Variable add_autocomplete : W -> list lv -> W.

Definition m_get (i : nat) (k : str) : M lv := fun s => match get (hp s) i k with Some v => Ok v s | None => Err s end.
Definition m_define (i : nat) (k : str) (v : lv) : M unit := fun s => Ok tt {| hp := define (hp s) i k v; world := world s |}.
Definition m_set (i : nat) (k : str) (v : lv) : M unit := fun s => match set (hp s) i k v with Some h => Ok tt {| hp := h; world := world s |} | None => Err s end.
Definition m_extend (p : nat) : M nat := fun s => let (i, h) := extend (hp s) (Some p) in Ok i {| hp := h; world := world s |}.
Definition m_world (f : W -> W) : M unit := fun s => Ok tt {| hp := hp s; world := f (world s) |}.

(** l.523-565 *)
Record ctx := { found_tail : bool; in_func : bool; quoting : bool }.
Definition top : ctx := {| found_tail := false; in_func := false; quoting := false |}.
Definition not_tail (c : ctx) : ctx := {| found_tail := true; in_func := in_func c; quoting := quoting c |}.
Definition with_quoting (b : bool) (c : ctx) : ctx := {| found_tail := found_tail c; in_func := in_func c; quoting := b |}.
Definition body_ctx : ctx := {| found_tail := false; in_func := true; quoting := false |}.

Inductive form := FComma | FQuote | FDefine | FSet | FDefmacro | FDefun | FAutocomplete | FLambda | FLet | FVlet | FBegin | FCond | FWhen | FIf | FAnd | FOr.
(** the keywords of l.92-405, in the order of the arms *)
Definition forms : list (str * form) :=
  [(lit "comma", FComma); (lit "quote", FQuote); (lit "define", FDefine); (lit "set", FSet); (lit "defmacro", FDefmacro);
   (lit "defun", FDefun); (lit "fn", FDefun); (lit "autocomplete", FAutocomplete); (lit "lambda", FLambda); (lit "let", FLet);
   (lit "v-let", FVlet); (lit "value-let", FVlet); (lit "begin", FBegin); (lit "cond", FCond); (lit "when", FWhen); (lit "if", FIf);
   (lit "and", FAnd); (lit "or", FOr)].
Definition form_of (v : lv) : option form :=
  match v with LSym k => match find (fun p => str_eqb (fst p) k) forms with Some (_, f) => Some f | None => None end | _ => None end.

(** l.452-467 value_to_argnames *)
Fixpoint argnames (l : list lv) : option (list str) :=
  match l with
  | [] => Some []
  | LSym s :: r => match argnames r with Some t => Some (s :: t) | None => None end
  | _ => None
  end.

Section Step.
Variable rec : ctx -> nat -> lv -> M lv.
Fixpoint map_m (f : lv -> M lv) (l : list lv) : M (list lv) :=
  match l with
  | [] => ret []
  | x :: r => bind (f x) (fun v => bind (map_m f r) (fun vs => ret (v :: vs)))
  end.
(** default_environment.rs l.329-356 filter *)
Fixpoint filter_m (f : lv -> M lv) (l : list lv) : M (list lv) :=
  match l with
  | [] => ret []
  | x :: r => bind (f x) (fun v => bind (filter_m f r) (fun vs => ret (if truthy v then x :: vs else vs)))
  end.
(** l.23-51 eval_block_inner *)
Fixpoint block (c : ctx) (env : nat) (l : list lv) : M lv :=
  match l with
  | [] => ret nil_v
  | [e] => rec c env e
  | e :: r => bind (rec (not_tail c) env e) (fun _ => block c env r)
  end.
(** l.253-275 and l.281-310: the declarations of let; [after] is what v-let adds *)
Fixpoint decls (after : str -> lv -> M unit) (c : ctx) (env : nat) (l : list lv) : M unit :=
  match l with
  | [] => ret tt
  | LList (LSym k :: e :: _) :: r => bind (rec (not_tail c) env e) (fun v => bind (after k v) (fun _ => bind (m_define env k v) (fun _ => decls after c env r)))
  | _ => fail
  end.
(** l.328-350 *)
Fixpoint cond (c : ctx) (env : nat) (l : list lv) : M lv :=
  match l with
  | [] => ret nil_v
  | LList (test :: e :: _) :: r => bind (rec (not_tail c) env test) (fun v => if truthy v then rec c env e else cond c env r)
  | _ => fail
  end.
(** l.388-411 *)
Fixpoint and_or (is_or : bool) (c : ctx) (env : nat) (last : lv) (l : list lv) : M lv :=
  match l with
  | [] => ret last
  | e :: r => bind (rec (not_tail c) env e) (fun v => if eqb is_or (truthy v) then ret v else and_or is_or c env v r)
  end.
(** l.488-502: binding the arguments *)
Fixpoint bind_args (i : nat) (names : list str) (args : list lv) : M unit :=
  match names with
  | [] => ret tt
  | n :: names' =>
      if str_eqb n (lit "...") then m_define i n (LList args)
      else match args with
           | v :: args' => bind (m_define i n v) (fun _ => bind_args i names' args')
           | [] => bind_args i names' []
           end
  end.
Definition quoted (v : lv) : lv := LList [LSym (lit "quote"); v].
(** l.469-522 call_function_or_macro, with the native functions that call the evaluator
    (default_environment.rs l.312-356, 494-512) *)
Definition call (env : nat) (fn : lv) (args : list lv) : M lv :=
  match fn with
  | LNative n =>
      if str_eqb n (lit "eval") then match args with e :: _ => rec top env e | [] => fail end
      else if str_eqb n (lit "apply") then match args with f :: LList ps :: _ => rec top env (LList (f :: ps)) | _ => fail end
      else if str_eqb n (lit "map") then
        match args with f :: LList l :: _ => bind (map_m (fun v => rec top env (LList [f; quoted v])) l) (fun vs => ret (LList vs)) | _ => fail end
      else if str_eqb n (lit "filter") then
        match args with f :: LList l :: _ => bind (filter_m (fun v => rec top env (LList [f; quoted v])) l) (fun vs => ret (LList vs)) | _ => fail end
      else native env n args
  | LLambda cl names body | LMacro cl names body => bind (m_extend cl) (fun i => bind (bind_args i names args) (fun _ => block body_ctx i body))
  | _ => fail
  end.
(** l.433-439: the loop that runs pending tail calls *)
Fixpoint settle (fuel : nat) (env : nat) (m : M lv) : M lv := fun s =>
  match m s with
  | Ok (LTail fn args) s' => match fuel with 0 => Fuel | S f => settle f env (call env fn args) s' end
  | r => r
  end.
Definition is_macro (v : lv) : bool := match v with LMacro _ _ _ => true | _ => false end.
(** l.60-449 eval_inner.  [tco]: pending tail calls are made, as in the code; without it every
    call is made at once *)
Definition step (tco : bool) (fuel : nat) (c : ctx) (env : nat) (e : lv) : M lv :=
  match e with
  | LSym k => if quoting c then ret e else m_get env k
  | LList (h :: t) =>
      if quoting c && negb (match h with LSym k => str_eqb k (lit "comma") | _ => false end) then
        bind (map_m (rec c env) (h :: t)) (fun vs => ret (LList vs))
      else
      match form_of h with
      | Some FComma => match t with x :: _ => rec (with_quoting false c) env x | [] => fail end
      | Some FQuote => match t with x :: _ => rec (with_quoting true c) env x | [] => fail end
      | Some FDefine => match t with LSym k :: x :: _ => bind (rec (not_tail c) env x) (fun v => bind (m_define env k v) (fun _ => ret v)) | _ => fail end
      | Some FSet => match t with LSym k :: x :: _ => bind (rec (not_tail c) env x) (fun v => bind (m_set env k v) (fun _ => ret v)) | _ => fail end
      | Some FDefmacro =>
          match t with
          | LSym k :: LList a :: body => match argnames a with Some ns => bind (m_define env k (LMacro env ns body)) (fun _ => ret nil_v) | None => fail end
          | _ => fail
          end
      | Some FDefun =>
          match t with
          | LSym k :: LList a :: body => match argnames a with Some ns => bind (m_define env k (LLambda env ns body)) (fun _ => ret nil_v) | None => fail end
          | _ => fail
          end
      | Some FAutocomplete => match t with LSym k :: x :: _ => bind (m_world (fun w => add_autocomplete w t)) (fun _ => ret nil_v) | _ => fail end
      | Some FLambda => match t with LList a :: body => match argnames a with Some ns => ret (LLambda env ns body) | None => fail end | _ => fail end
      | Some FLet =>
          match t with
          | LList ds :: body => bind (m_extend env) (fun i => bind (decls (fun _ _ => ret tt) c i ds) (fun _ => block c i body))
          | _ => fail
          end
      | Some FVlet =>
          match t with
          | LList ds :: body => bind (m_extend env) (fun i => bind (decls (fun k v => m_world (fun w => set_variable w k v)) c i ds) (fun _ => block c i body))
          | _ => fail
          end
      | Some FBegin => block c env t
      | Some FCond => cond c env t
      | Some FWhen => match t with x :: body => bind (rec (not_tail c) env x) (fun v => if truthy v then block c env body else ret nil_v) | [] => fail end
      | Some FIf =>
          match t with
          | x :: a :: r => bind (rec (not_tail c) env x) (fun v => if truthy v then rec c env a else match r with b :: _ => rec c env b | [] => ret nil_v end)
          | _ => fail
          end
      | Some FAnd => and_or false c env (of_bool true) t
      | Some FOr => and_or true c env (of_bool false) t
      | None =>
          bind (rec (not_tail c) env h) (fun fn =>
          if is_macro fn then bind (call env fn t) (fun x => rec top env x)
          else bind (map_m (rec (not_tail c) env) t) (fun args =>
               if tco && negb (found_tail c) && in_func c then ret (LTail fn args)
               else settle fuel env (call env fn args)))
      end
  | _ => ret e
  end.
End Step.
Fixpoint eval (tco : bool) (fuel : nat) (c : ctx) (env : nat) (e : lv) : M lv :=
  match fuel with
  | 0 => fun _ => Fuel
  | S f => step (eval tco f) tco f c env e
  end.
End Eval.
