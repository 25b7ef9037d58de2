(** What tables are for: data that survives being read and written, rows in order, rows chosen. *)
From Verif Require Import Base Frecency_Model Table_Model.
From Coq Require Import ZArith Sorting.Sorted.

(** the rows with the property, all of them and in their order *)
Inductive kept {A} (P : A -> Prop) : list A -> list A -> Prop :=
| kept_nil : kept P [] []
| kept_yes x l l' : P x -> kept P l l' -> kept P (x :: l) (x :: l')
| kept_no x l l' : ~ P x -> kept P l l' -> kept P (x :: l) l'.

Section Spec.
Variable F : Type.
Variable fcmp : F -> F -> option comparison.
Notation json := (json F).
Notation value := (value F).
Notation record := (record F).

Definition key_lt (a b : str) : Prop := str_cmp a b = Lt.
(** JSON as serde_json reads it, with the keys of an object in order, in which no array is empty
    and all whole numbers are within 64 bits with sign *)
Inductive sound : json -> Prop :=
| s_null : sound (JNull F)
| s_bool b : sound (JBool F b)
| s_int z : sound (JInt F z)
| s_float f : sound (JFloat F f)
| s_string s : sound (JString F s)
| s_array l : l <> [] -> Forall sound l -> sound (JArray F l)
| s_object l : StronglySorted key_lt (map fst l) -> Forall (fun ka => sound (snd ka)) l -> sound (JObject F l).
Definition object (j : json) : Prop := exists l, j = JObject F l.

(** the cell of a row in a column *)
Definition cell_is (r : record) (c : str) (v : value) : Prop := exists a b, r = a ++ (c, v) :: b /\ ~ In c (map fst a).

(** which of two cells comes first; a row without one comes last *)
Inductive cell_le : option value -> option value -> Prop :=
| le_int x y : (x <= y)%Z -> cell_le (Some (VInt F x)) (Some (VInt F y))
| le_string x y : str_cmp x y <> Gt -> cell_le (Some (VString F x)) (Some (VString F y))
| le_float x y : fcmp x y = Some Lt \/ fcmp x y = Some Eq -> cell_le (Some (VFloat F x)) (Some (VFloat F y))
| le_missing a : cell_le a None.
(** floats that can be compared with each other (all but NaN) *)
Definition float_order (ok : F -> Prop) : Prop :=
  (forall x y, ok x -> ok y -> exists c, fcmp x y = Some c /\ fcmp y x = Some (CompOpp c)) /\
  (forall x y z, ok x -> ok y -> ok z -> fcmp x y <> Some Gt -> fcmp y z <> Some Gt -> fcmp x z <> Some Gt).
(** all cells of the column are whole numbers, or all are texts, or all are floats *)
Definition one_kind (ok : F -> Prop) (c : str) (rs : list record) : Prop :=
  (forall r v, In r rs -> get F r c = Some v -> exists z, v = VInt F z) \/
  (forall r v, In r rs -> get F r c = Some v -> exists s, v = VString F s) \/
  (forall r v, In r rs -> get F r c = Some v -> exists f, v = VFloat F f /\ ok f).

(** every field of every row is in a column *)
Definition complete_table (t : table F) : Prop := forall r c v, In r (rows F t) -> In (c, v) r -> In c (columns F t).
End Spec.
