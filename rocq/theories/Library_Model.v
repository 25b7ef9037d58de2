(** The functions of the Lisp library that do not call the evaluator: dsh/src/lisp/stdlib/{core,list,math}.rs,
    the second half of dsh/src/lisp/default_environment.rs, and the operators, the comparison and the
    printing of dsh/src/lisp/model/value.rs and lambda.rs.

    Values are those of Lisp_Model; a float is [LOther] with its printed form, and what is done with
    floats, tables and foreign values is left to oracles.  A call may also panic, or not come back:
    [Unfinished] is what is known after [fuel] steps.  Error messages are dropped. *)
From Verif Require Import Base Lread_Model Lisp_Model.
From Coq Require Import ZArith.

Inductive outcome := Val (v : lv) | Error | Panic | Unfinished.

(** i64 (model/mod.rs l.8-19, default feature i64 of dsh/Cargo.toml l.17) *)
Definition min_int : Z := (- 9223372036854775808)%Z.
Definition max_int : Z := 9223372036854775807%Z.
Definition fits (z : Z) : bool := ((min_int <=? z) && (z <=? max_int))%Z.
Definition wrap (z : Z) : Z := ((z - min_int) mod 18446744073709551616 + min_int)%Z.

Section Library.
(** overflow is checked in a debug build and wraps in a release build (Cargo.toml l.52-63) *)
Variable checked : bool.
(** floats: the neutral float, and the operators with a float on one side *)
Variable float_zero : str -> option lv.
Variable float_op : char -> lv -> lv -> option lv.
(** equality of floats, hash maps, foreign values *)
Variable other_eq : str -> str -> bool.
(** Debug of a value *)
Variable debug : lv -> str.

Definition int_result (z : Z) : outcome := if fits z then Val (LInt z) else if checked then Panic else Val (LInt (wrap z)).
Definition of_option (o : option lv) : outcome := match o with Some v => Val v | None => Error end.
(** value.rs l.385-416 Add *)
Definition add2 (a b : lv) : outcome :=
  match a, b with
  | LInt x, LInt y => int_result (x + y)
  | LStr x, LStr y => Val (LStr (x ++ y))
  | LStr x, LInt y => Val (LStr (x ++ show_int y))
  | LInt x, LStr y => Val (LStr (show_int x ++ y))
  | LOther _, (LInt _ | LStr _ | LOther _) | (LInt _ | LStr _), LOther _ => of_option (float_op 43%N a b)
  | _, _ => Error
  end.
(** l.426-444 Sub, l.454-472 Mul, l.482-500 Div; integer division panics on zero and on MIN / -1 in
    every build *)
Definition arith2 (op : char) (int : Z -> Z -> outcome) (a b : lv) : outcome :=
  match a, b with
  | LInt x, LInt y => int x y
  | LOther _, (LInt _ | LOther _) | LInt _, LOther _ => of_option (float_op op a b)
  | _, _ => Error
  end.
Definition sub2 : lv -> lv -> outcome := arith2 45%N (fun x y => int_result (x - y)).
Definition mul2 : lv -> lv -> outcome := arith2 42%N (fun x y => int_result (x * y)).
Definition quotient (x y : Z) : outcome :=
  if (y =? 0)%Z then Panic else if fits (Z.quot x y) then Val (LInt (Z.quot x y)) else Panic.
Definition div2 : lv -> lv -> outcome := arith2 47%N quotient.

Fixpoint fold (f : lv -> lv -> outcome) (acc : lv) (l : list lv) : outcome :=
  match l with
  | [] => Val acc
  | x :: r => match f acc x with Val v => fold f v r | o => o end
  end.
(** utils.rs l.8-21 require_arg *)
Definition arg (l : list lv) (i : nat) (k : lv -> outcome) : outcome := match nth_error l i with Some v => k v | None => Error end.
Definition list_arg (l : list lv) (i : nat) (k : list lv -> outcome) : outcome := arg l i (fun v => match v with LList x => k x | _ => Error end).
Definition int_arg (l : list lv) (i : nat) (k : Z -> outcome) : outcome := arg l i (fun v => match v with LInt x => k x | _ => Error end).

(** math.rs l.20-45: the neutral value is chosen by the argument at index 1 *)
Definition plus (l : list lv) : outcome :=
  arg l 1 (fun v =>
    match v with
    | LInt _ => fold add2 (LInt 0) l
    | LStr _ => fold add2 (LStr []) l
    | LOther t => match float_zero t with Some z => fold add2 z l | None => Error end
    | _ => Error
    end).
(** math.rs l.48-103 *)
Definition minus (l : list lv) : outcome := arg l 0 (fun a => arg l 1 (fun b => sub2 a b)).
Definition times (l : list lv) : outcome := fold mul2 (LInt 1) l.
Definition over (l : list lv) : outcome := arg l 0 (fun a => arg l 1 (fun b => div2 a b)).
Definition truncate (l : list lv) : outcome :=
  arg l 0 (fun a => arg l 1 (fun b => match a, b with LInt x, LInt y => quotient x y | _, _ => Error end)).
(** math.rs l.105-132 range: [acc] is the list so far, last first *)
Fixpoint range_loop (fuel : nat) (cur stop : Z) (acc : list lv) : outcome :=
  if (cur =? stop)%Z then Val (LList (rev acc))
  else match fuel with
       | 0 => Unfinished
       | S f => match int_result (cur + 1) with Val (LInt n) => range_loop f n stop (LInt cur :: acc) | o => o end
       end.
Definition range (fuel : nat) (l : list lv) : outcome := int_arg l 0 (fun a => int_arg l 1 (fun b => range_loop fuel a b [])).

(** value.rs l.347-375 PartialEq, lambda.rs l.15-21; lists by their elements (two references to one
    list are equal at once, which matters only for lists with native functions in them) *)
Fixpoint veq (a b : lv) : bool :=
  let fix all (x y : list lv) : bool :=
    match x, y with [], [] => true | v :: x', w :: y' => veq v w && all x' y' | _, _ => false end in
  match a, b with
  | LTrue, LTrue | LFalse, LFalse => true
  | LInt x, LInt y => (x =? y)%Z
  | LStr x, LStr y | LSym x, LSym y => str_eqb x y
  | LList x, LList y => all x y
  | LOther x, LOther y => other_eq x y
  | LLambda c ns body, LLambda c' ns' body' | LMacro c ns body, LMacro c' ns' body' =>
      (c =? c') && (if list_eq_dec (list_eq_dec N.eq_dec) ns ns' then true else false) && all body body'
  | LTail f x, LTail g y => veq f g && all x y
  | _, _ => false
  end.
(** value.rs l.379-383 and l.526-534: each of the two calls the other *)
Fixpoint partial_cmp (fuel : nat) (a b : lv) : option (option comparison) :=
  match fuel with
  | 0 => None
  | S f => match cmp f a b with Some o => Some (Some o) | None => None end
  end
with cmp (fuel : nat) (a b : lv) : option comparison :=
  match fuel with
  | 0 => None
  | S f => match partial_cmp f a b with
           | None => None
           | Some (Some o) => Some o
           | Some None => Some (if str_eqb (debug a) (debug b) then Eq else Lt)
           end
  end.
(** default_environment.rs l.454-493: the four comparisons *)
Definition compare (fuel : nat) (test : comparison -> bool) (l : list lv) : outcome :=
  arg l 0 (fun a => arg l 1 (fun b =>
    match partial_cmp fuel a b with None => Unfinished | Some (Some o) => Val (of_bool (test o)) | Some None => Val LFalse end)).
(** list.rs l.52-64 sort, by insertion: a list of two or more is compared at least once *)
Fixpoint insert (fuel : nat) (x : lv) (l : list lv) : option (list lv) :=
  match l with
  | [] => Some [x]
  | y :: r => match cmp fuel x y with
              | None => None
              | Some Gt => match insert fuel x r with Some r' => Some (y :: r') | None => None end
              | Some _ => Some (x :: l)
              end
  end.
Fixpoint sorted (fuel : nat) (l : list lv) : option (list lv) :=
  match l with
  | [] => Some []
  | x :: r => match sorted fuel r with Some r' => insert fuel x r' | None => None end
  end.
Definition sort (fuel : nat) (l : list lv) : outcome :=
  list_arg l 0 (fun x => match sorted fuel x with Some y => Val (LList y) | None => Unfinished end).
(** list.rs l.6-50, l.66-77 *)
Definition car (l : list lv) : outcome := list_arg l 0 (fun x => match x with v :: _ => Val v | [] => Error end).
Definition cdr (l : list lv) : outcome := list_arg l 0 (fun x => Val (LList (tl x))).
Definition cons_ (l : list lv) : outcome := arg l 0 (fun v => list_arg l 1 (fun x => Val (LList (v :: x)))).
Definition list_ (l : list lv) : outcome := Val (LList l).
Definition nth_ (l : list lv) : outcome :=
  int_arg l 0 (fun i => list_arg l 1 (fun x =>
    if (i <? 0)%Z then Error else Val (nth (Z.to_nat i) x nil_v))).
Definition reverse (l : list lv) : outcome := list_arg l 0 (fun x => Val (LList (rev x))).
(** default_environment.rs l.357-370 *)
Definition length_ (l : list lv) : outcome := list_arg l 0 (fun x => Val (LInt (Z.of_nat (length x)))).
(** l.424-453 *)
Definition not_ (l : list lv) : outcome := arg l 0 (fun a => Val (of_bool (negb (truthy a)))).
Definition equal (l : list lv) : outcome := arg l 0 (fun a => arg l 1 (fun b => Val (of_bool (veq a b)))).
Definition unequal (l : list lv) : outcome := arg l 0 (fun a => arg l 1 (fun b => Val (of_bool (negb (veq a b))))).
(** core.rs l.5-60, math.rs l.7-18 *)
Definition yes_nil (b : bool) : lv := if b then LTrue else nil_v.
Definition is_null (l : list lv) : outcome := arg l 0 (fun v => Val (of_bool (match v with LList [] => true | _ => false end))).
Definition is_symbol (l : list lv) : outcome := arg l 0 (fun v => Val (yes_nil (match v with LSym _ => true | _ => false end))).
Definition is_boolean (l : list lv) : outcome := arg l 0 (fun v => Val (yes_nil (match v with LTrue | LFalse => true | _ => false end))).
Definition is_procedure (l : list lv) : outcome := arg l 0 (fun v => Val (yes_nil (match v with LLambda _ _ _ | LNative _ => true | _ => false end))).
Definition is_pair (l : list lv) : outcome := arg l 0 (fun v => Val (yes_nil (match v with LList _ => true | _ => false end))).

Definition library (fuel : nat) : list (str * (list lv -> outcome)) :=
  [(lit "+", plus); (lit "-", minus); (lit "*", times); (lit "/", over); (lit "truncate", truncate); (lit "range", range fuel);
   (lit "<", compare fuel (fun o => match o with Lt => true | _ => false end));
   (lit "<=", compare fuel (fun o => match o with Gt => false | _ => true end));
   (lit ">", compare fuel (fun o => match o with Gt => true | _ => false end));
   (lit ">=", compare fuel (fun o => match o with Lt => false | _ => true end));
   (lit "==", equal); (lit "!=", unequal); (lit "not", not_); (lit "sort", sort fuel);
   (lit "car", car); (lit "cdr", cdr); (lit "cons", cons_); (lit "list", list_); (lit "nth", nth_); (lit "reverse", reverse); (lit "length", length_);
   (lit "is_null", is_null); (lit "is_symbol", is_symbol); (lit "is_boolean", is_boolean); (lit "is_procedure", is_procedure); (lit "is_pair", is_pair)].
(** the native function of that name, called with evaluated arguments *)
Definition call (fuel : nat) (name : str) (args : list lv) : outcome :=
  match find (fun p => str_eqb (fst p) name) (library fuel) with Some (_, f) => f args | None => Error end.

(** ** printing: value.rs l.288-321, list.rs l.73-92, lambda.rs l.31-46; [None] is a panic.  The slice
    of the body is by bytes, its end is counted in characters. *)
Definition cut_body (s : str) : option str :=
  match length s with
  | 0 => None
  | S n => match split_byte s 1 with
           | None => None
           | Some (_, t) => if n <? 1 then None else match split_byte t (n - 1) with Some (u, _) => Some u | None => None end
           end
  end.
Fixpoint show (v : lv) : option str :=
  let fix each (l : list lv) : option (list str) :=
    match l with
    | [] => Some []
    | x :: r => match show x with
                | Some s => match each r with Some t => Some (s :: t) | None => None end
                | None => None
                end
    end in
  let shown_list l := match l with [] => Some (lit "NIL") | _ => match each l with Some t => Some (lit "(" ++ join_with [32%N] t ++ lit ")") | None => None end end in
  let lambda ns body := match shown_list body with
                        | Some b => match cut_body b with Some u => Some (lit "(" ++ join_with [32%N] ns ++ lit ") " ++ u) | None => None end
                        | None => None
                        end in
  match v with
  | LTrue => Some (lit "T")
  | LFalse => Some (lit "F")
  | LInt z => Some (show_int z)
  | LStr s | LSym s | LOther s => Some s
  | LList l => shown_list l
  | LNative _ => Some (lit "<native_function>")
  | LLambda _ ns body => match lambda ns body with Some s => Some (lit "<func:(lambda " ++ s ++ lit ")>") | None => None end
  | LMacro _ ns body => match lambda ns body with Some s => Some (lit "(macro " ++ s ++ lit ")") | None => None end
  | LTail _ _ => Some (lit "<tail-call>")
  end.

(** ** hash maps: default_environment.rs l.372-422.  A map is shared by all who hold it: [maps] are the
    maps made so far, a map is its number. *)
Definition table := list (lv * lv).
Fixpoint find_key (k : lv) (t : table) : option lv :=
  match t with [] => None | (x, v) :: r => if veq k x then Some v else find_key k r end.
Fixpoint put_key (k v : lv) (t : table) : table :=
  match t with [] => [(k, v)] | (x, w) :: r => if veq k x then (x, v) :: r else (x, w) :: put_key k v r end.
(** l.372-400 hash; [None] for an odd number of arguments *)
Fixpoint pairs (l : list lv) (t : table) : option table :=
  match l with [] => Some t | [_] => None | k :: v :: r => pairs r (put_key k v t) end.
Definition hash (l : list lv) (maps : list table) : option (nat * list table) :=
  match pairs l [] with Some t => Some (length maps, maps ++ [t]) | None => None end.
Definition hash_get (m : nat) (k : lv) (maps : list table) : lv :=
  match nth_error maps m with Some t => match find_key k t with Some v => v | None => nil_v end | None => nil_v end.
Fixpoint update (m : nat) (f : table -> table) (maps : list table) : list table :=
  match maps, m with [], _ => [] | t :: r, 0 => f t :: r | t :: r, S m' => t :: update m' f r end.
Definition hash_set (m : nat) (k v : lv) (maps : list table) : list table := update m (put_key k v) maps.
End Library.
