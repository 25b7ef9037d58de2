(** Vocabulary for the output-capture properties, independent of the functions of
    Output_Model (only its data types and the marker text are used). *)
From Verif Require Import Base Output_Model.

(** ** the history *)

Definition bytes (e : entry) : nat := blen (command e) + blen (out e) + blen (err e).
Fixpoint total (es : list entry) : nat := match es with [] => 0 | e :: r => bytes e + total r end.

(** the captures since the last clear, newest first *)
Fixpoint since (acc : list entry) (ops : list hop) : list entry :=
  match ops with
  | [] => acc
  | Push e :: rest => since (e :: acc) rest
  | Clear :: rest => since [] rest
  end.

(** [s'] is [s], or a proper prefix of [s] followed by the truncation note *)
Definition shortened (s s' : str) : Prop :=
  s' = s \/ exists p q, s = p ++ q /\ q <> [] /\ s' = p ++ (10%N :: lit "... (truncated)").

(** how one capture is stored under a per-entry limit *)
Definition stored (limit : nat) (e e' : entry) : Prop :=
  command e' = command e /\ code e' = code e /\
  (blen (out e) + blen (err e) <= limit -> e' = e) /\
  shortened (out e) (out e') /\ shortened (err e) (err e') /\
  (limit < blen (out e) + blen (err e) -> blen (out e') + blen (err e') <= limit + 32).

(** what is kept of all captures (newest first): as many of the newest as fit both
    limits, but always the newest one *)
Definition retained (n budget : nat) (all kept : list entry) : Prop :=
  exists k, kept = firstn k all /\ k <= length all /\ k <= n /\ (all <> [] -> 1 <= k) /\
    (k <= 1 \/ total kept <= budget) /\
    (k = length all \/ k = n \/ budget < total (firstn (S k) all)).

(** ** $OUT and $ERR *)

(** the name, with or without a dollar sign, denotes capture number [n] *)
Inductive denotes (prefix : str) : str -> N -> Prop :=
| den_plain : denotes prefix prefix 1
| den_index t n : (Dec t n \/ exists t', t = chr "+" :: t' /\ Dec t' n) -> (n < 2 ^ 64)%N ->
    denotes prefix (prefix ++ lit "[" ++ t ++ lit "]") n
| den_dollar name n : denotes prefix name n -> (forall r, name <> chr "$" :: r) -> denotes prefix (chr "$" :: name) n.

(** ** newlines for a raw terminal *)

(** byte [i] of the stream as it must be shown: a line feed that does not follow a
    carriage return gets one *)
Definition shown_byte (data : list byte) (i : nat) : list byte :=
  match nth_error data i with
  | Some 10%N =>
      match i with
      | 0 => [13%N; 10%N]
      | S j => match nth_error data j with Some 13%N => [10%N] | _ => [13%N; 10%N] end
      end
  | Some b => [b]
  | None => []
  end.
Definition shown_stream (data : list byte) : list byte := flat_map (shown_byte data) (seq 0 (length data)).

(** ** monitors *)
Definition all_text (s : list item) : str :=
  flat_map (fun i => match i with Ch c => [c] | Pause => [] end) s.
(** pauses only at the start of a line *)
Fixpoint line_paced (at_start : bool) (s : list item) : Prop :=
  match s with
  | [] => True
  | Pause :: r => at_start = true /\ line_paced true r
  | Ch c :: r => line_paced (c =? 10)%N r
  end.
