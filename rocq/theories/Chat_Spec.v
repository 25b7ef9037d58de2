(** What is expected of a chat with tools. *)
From Verif Require Import Base Mcp_Model Chat_Model.

(** a tool's result as the service expects it: by the id of the call, with the text of the result *)
Definition tool_result (id text : str) : value := Obj [(lit "role", Str (lit "tool")); (lit "tool_call_id", Str id); (lit "content", Str text)].
(** a service's answer: the first of its choices counts *)
Definition first_choice (r c : value) : Prop := exists more, field "choices" r = Some (Arr (c :: more)).
Section Spec.
Variable transport : Type.
Notation trace := (list (event transport)).
(** the conversation: what the model said and what the tools answered, in order *)
Definition conversation (tr : trace) : list value :=
  flat_map (fun e => match e with Heard m => [m] | Told id text => [tool_result id text] | _ => [] end) tr.
(** after each message of the model there is one result for each of its calls, in order and by its id *)
Inductive answered : list value -> Prop :=
| answered_none : answered []
| answered_more l m results : answered l ->
    Forall2 (fun c r => exists text, r = tool_result (id_of c) text) (match calls_of m with Some cs => cs | None => [] end) results ->
    answered (l ++ m :: results).
(** the requests to the model, and those for a summary *)
Definition asked (tr : trace) : list (list value) := flat_map (fun e => match e with Asked ms => [ms] | _ => [] end) tr.
Definition summed (tr : trace) : list (list value) := flat_map (fun e => match e with Summed ms => [ms] | _ => [] end) tr.
(** the text occurs in one of the messages of a request *)
Definition mentions (ms : list value) (s : str) : Prop := exists role pre post, In (says role (pre ++ s ++ post)) ms.
End Spec.
(** the parts of an answer in the usual form *)
Definition text_part (s : str) : value := Obj [(lit "type", Str (lit "text")); (lit "text", Str s)].
(** in the order of their names *)
Definition by_name {A} (a b : str * A) : Prop := Frecency_Model.str_cmp (fst a) (fst b) <> Gt.
