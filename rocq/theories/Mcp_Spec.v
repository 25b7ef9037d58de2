(** What is expected of the servers of external tools. *)
From Verif Require Import Base Mcp_Model.

(** the characters a function name may have *)
Definition name_char (c : char) : Prop := ((97 <= c <= 122) \/ (48 <= c <= 57) \/ c = 95)%N.
(** a part of a name: not empty, no underscore at an end, no two in a row *)
Record part (s : str) : Prop := {
  part_chars : Forall name_char s;
  part_some : s <> [];
  part_front : forall r, s <> 95%N :: r;
  part_back : forall r, s <> r ++ [95%N];
  part_single : forall a b, s <> a ++ [95; 95]%N ++ b }.

Section Spec.
Variable transport : Type.
(** the tools of the servers, each with its server *)
Definition offered (ss : list (server transport)) : list binding :=
  flat_map (fun s => map (Binding (label _ (conf _ s))) (tools _ s)) ss.
(** the configured servers that count: with a label, and the first of each label *)
Definition counts (cs : list (config transport)) (c : config transport) : Prop :=
  exists before after, cs = before ++ c :: after /\ trim (label _ c) <> [] /\ forall d, In d before -> label _ d <> label _ c.
End Spec.
