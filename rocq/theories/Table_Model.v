(** Tables of the structured pipeline: dsh/src/lisp/model/table.rs, dsh/src/lisp/stdlib/table.rs,
    and the evaluation of |: in dsh/src/shell/eval.rs. *)
From Verif Require Import Base Frecency_Model Lread_Model.
From Coq Require Import ZArith.

Section Table.
(** f64: to_bits equality, partial_cmp, the conversion of an u64, <f64 as FromStr> and Display *)
Variable F : Type.
Variable feq : F -> F -> bool.
Variable fcmp : F -> F -> option comparison.
Variable of_big : N -> F.
Variable float_of : str -> option F.
Variable show_float : F -> str.

(** serde_json::Value.  [JInt]: as_i64 is Some; [JBig]: an integer above i64::MAX.  The map of an
    object is a BTreeMap (the feature preserve_order is off): its entries in the order of the keys. *)
Inductive json := JNull | JBool (b : bool) | JInt (z : Z) | JBig (n : N) | JFloat (f : F) | JString (s : str)
| JArray (l : list json) | JObject (l : list (str * json)).
(** lisp/model/value.rs l.24-58, the values a table can get from JSON or CSV; Value::NIL is the
    empty list.  A HashMap is given by its entries. *)
Inductive value := VTrue | VFalse | VInt (z : Z) | VFloat (f : F) | VString (s : str) | VList (l : list value) | VMap (l : list (str * value)).

(** the order in which a HashMap is walked: any *)
Variable walk : list (str * json) -> list (str * json).
(** BTreeMap::from_iter: inserting one after the other, a later entry replaces an earlier one *)
Fixpoint btree_insert {A} (k : str) (a : A) (l : list (str * A)) : list (str * A) :=
  match l with
  | [] => [(k, a)]
  | (k', a') :: r => match str_cmp k k' with Lt => (k, a) :: l | Eq => (k, a) :: r | Gt => (k', a') :: btree_insert k a r end
  end.
Definition btree {A} (l : list (str * A)) : list (str * A) := fold_left (fun m ka => btree_insert (fst ka) (snd ka) m) l [].

(** table.rs l.494-533 json_to_value *)
Fixpoint json_to_value (j : json) : value :=
  match j with
  | JNull => VList []
  | JBool b => if b then VTrue else VFalse
  | JInt z => VInt z
  | JBig n => VFloat (of_big n)
  | JFloat f => VFloat f
  | JString s => VString s
  | JArray l => VList (map json_to_value l)
  | JObject l => VMap (map (fun ka => (fst ka, json_to_value (snd ka))) l)
  end.
(** l.535-592 value_to_json; the floats here come from JSON or CSV, and those of JSON are finite
    (Number::from_f64 is None for the others, which become null: not modelled) *)
Fixpoint value_to_json (v : value) : json :=
  match v with
  | VList [] => JNull
  | VTrue => JBool true
  | VFalse => JBool false
  | VInt z => JInt z
  | VFloat f => JFloat f
  | VString s => JString s
  | VList l => JArray (map value_to_json l)
  | VMap l => JObject (btree (walk (map (fun ka => (fst ka, value_to_json (snd ka))) l)))
  end.

(** l.18-50 Record: an IndexMap, which keeps the order of first insertion *)
Definition record := list (str * value).
Fixpoint get (r : record) (k : str) : option value :=
  match r with (k', v) :: r' => if str_eqb k' k then Some v else get r' k | [] => None end.
Fixpoint set (r : record) (k : str) (v : value) : record :=
  match r with
  | (k', v') :: r' => if str_eqb k' k then (k', v) :: r' else (k', v') :: set r' k v
  | [] => [(k, v)]
  end.
Definition set_all (l : list (str * value)) : record := fold_left (fun r kv => set r (fst kv) (snd kv)) l [].

Record table := Table { columns : list str; rows : list record }.
Definition value_column : str := lit "value".

(** l.166-196 from_json_objects; elements that are not objects are passed over *)
Definition add_new (cols : list str) (k : str) : list str := if mem_str k cols then cols else cols ++ [k].
Definition entries (j : json) : list (str * json) := match j with JObject l => l | _ => [] end.
Definition is_object (j : json) : bool := match j with JObject _ => true | _ => false end.
Definition from_json_objects (objs : list json) : table :=
  Table (fold_left (fun cols j => fold_left add_new (map fst (entries j)) cols) objs [])
        (map (fun j => set_all (map (fun ka => (fst ka, json_to_value (snd ka))) (entries j))) (filter is_object objs)).
(** l.126-163 from_json_value *)
Definition cell (j : json) : record := set [] value_column (json_to_value j).
Definition from_json (j : json) : table :=
  match j with
  | JArray [] => Table [] []
  | JArray l => if forallb is_object l then from_json_objects l else Table [value_column] (map cell l)
  | JObject _ => from_json_objects [j]
  | _ => Table [value_column] [cell j]
  end.
(** l.287-302 to_json, before serde_json::to_string *)
Definition to_json (t : table) : json :=
  JArray (map (fun r => JObject (btree (map (fun kv => (fst kv, value_to_json (snd kv))) r))) (rows t)).

(** <i64 as FromStr>::from_str: a sign of either kind, then digits *)
Definition int_of (s : str) : option Z :=
  match s with
  | c :: r => if (c =? chr "+")%N then (if all_digits r then parse_i64 r else None) else parse_i64 s
  | [] => None
  end.
(** l.199-229 from_csv: [header] and [records] are what the csv crate reads; it refuses records
    of another length than the header *)
Definition csv_value (field : str) : value :=
  match int_of field with Some n => VInt n | None => match float_of field with Some f => VFloat f | None => VString field end end.
Definition from_csv (header : list str) (records : list (list str)) : table :=
  Table header (map (fun rec => set_all (map (fun hf => (fst hf, csv_value (snd hf))) (combine header rec))) records).
(** l.231-262 to_csv, up to the csv crate's writer; [show] is Display for the values that are not
    strings, numbers or booleans *)
Variable show : value -> str.
Definition csv_text (v : value) : str :=
  match v with
  | VString s => s | VInt z => show_int z | VFloat f => show_float f | VTrue => lit "T" | VFalse => lit "F" | _ => show v
  end.
Definition to_csv (t : table) : list str * list (list str) :=
  (columns t, map (fun r => map (fun c => match get r c with Some v => csv_text v | None => [] end) (columns t)) (rows t)).

(** l.335-349 select, l.352-365 head and tail *)
Definition select (t : table) (cols : list str) : table :=
  Table cols (map (fun r => fold_left (fun n c => match get r c with Some v => set n c v | None => n end) cols []) (rows t)).
Definition head (t : table) (n : nat) : table := Table (columns t) (firstn n (rows t)).
Definition tail (t : table) (n : nat) : table := Table (columns t) (skipn (length (rows t) - n) (rows t)).

(** value.rs l.347-375 PartialEq; two HashMaps are equal only if they are the same object, which a
    value given in an expression never is *)
Fixpoint value_eqb (a b : value) : bool :=
  match a, b with
  | VTrue, VTrue => true
  | VFalse, VFalse => true
  | VInt x, VInt y => (x =? y)%Z
  | VFloat x, VFloat y => feq x y
  | VString x, VString y => str_eqb x y
  | VList x, VList y =>
      (fix all x y := match x, y with [], [] => true | p :: x', q :: y' => value_eqb p q && all x' y' | _, _ => false end) x y
  | _, _ => false
  end.
(** l.408-421 where_eq, l.424-434 where_contains *)
Definition where_eq (t : table) (c : str) (v : value) : table :=
  Table (columns t) (filter (fun r => match get r c with Some x => value_eqb x v | None => false end) (rows t)).
Definition where_contains (t : table) (c sub : str) : table :=
  Table (columns t) (filter (fun r => match get r c with Some (VString s) => contains sub s | _ => false end) (rows t)).
(** l.438-459 where_cmp *)
Definition compares (op : str) (n v : Z) : bool :=
  (if str_eqb op (lit ">") then v <? n
   else if str_eqb op (lit "<") then n <? v
   else if str_eqb op (lit ">=") then v <=? n
   else if str_eqb op (lit "<=") then n <=? v
   else if str_eqb op (lit "=") || str_eqb op (lit "==") then n =? v
   else if str_eqb op (lit "!=") then negb (n =? v)
   else false)%Z.
Definition where_cmp (t : table) (c op : str) (v : Z) : table :=
  Table (columns t) (filter (fun r => match get r c with Some (VInt n) => compares op n v | _ => false end) (rows t)).

(** l.462-486 order_by: the comparison *)
Definition cell_cmp (a b : option value) : comparison :=
  match a, b with
  | Some (VInt x), Some (VInt y) => (x ?= y)%Z
  | Some (VFloat x), Some (VFloat y) => match fcmp x y with Some c => c | None => Eq end
  | Some (VString x), Some (VString y) => str_cmp x y
  | None, Some _ => Gt
  | Some _, None => Lt
  | _, _ => Eq
  end.
Definition row_cmp (c : str) (ascending : bool) (a b : record) : comparison :=
  let cmp := cell_cmp (get a c) (get b c) in if ascending then cmp else CompOpp cmp.
(** slice::sort_by: for up to 20 elements an insertion from the right, element by element, which
    is what is modelled; longer slices are sorted by another stable algorithm, with the same
    result if the comparison is a total order, and may panic if it is not *)
Fixpoint insert_from_right {A} (cmp : A -> A -> comparison) (x : A) (before : list A (* last first *)) : list A :=
  match before with
  | [] => [x]
  | y :: r => match cmp x y with Lt => y :: insert_from_right cmp x r | _ => x :: before end
  end.
Definition sort_by {A} (cmp : A -> A -> comparison) (l : list A) : list A :=
  rev (fold_left (fun acc x => insert_from_right cmp x acc) l []).
Definition order_by (t : table) (c : str) (ascending : bool) : table :=
  Table (columns t) (sort_by (row_cmp c ascending) (rows t)).

(** what is put on the screen, l.305-331 to_display, before the frame is drawn: the header and
    the cells of each row, [shown] being Display *)
Definition display (shown : value -> str) (t : table) : list (list str) :=
  columns t :: map (fun r => map (fun c => match get r c with Some v => shown v | None => [] end) (columns t)) (rows t).
End Table.

(** ** |: in dsh/src/shell/eval.rs l.275-350 *)
Section StructPipe.
Variable V : Type.
Variable W : Type.
(** Value::String, and whether a value is Value::NIL *)
Variable of_text : str -> V.
Variable is_nil : V -> bool.
(** evaluating an expression with $_ bound to the value: None is an error *)
Variable lisp : W -> V -> str -> W * option V.
Fixpoint stages (w : W) (v : V) (status : Z) (exprs : list str) : W * V * Z :=
  match exprs with
  | [] => (w, v, status)
  | e :: r => let (w1, res) := lisp w v e in
              match res with Some v' => stages w1 v' status r | None => (w1, v, 1%Z) end
  end.
(** the command has ended with [status] and written [output]: the status of the job, and the value
    printed if any *)
Definition struct_pipe (w : W) (status : Z) (output : str) (exprs : list str) : W * Z * option V :=
  if negb (status =? 0)%Z && match output with [] => true | _ => false end then (w, status, None)
  else let '(w1, v, st) := stages w (of_text output) status exprs in (w1, st, if is_nil v then None else Some v).
End StructPipe.
