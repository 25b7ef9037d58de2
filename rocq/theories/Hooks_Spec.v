(** What calling hooks should mean. *)
From Verif Require Import Base Lread_Model Lisp_Model.

Section Spec.
Variable W : Type.
(** [call_each call hooks]: the hooks are called one after the other; the first error ends it *)
Fixpoint call_each (call : lv -> M W lv) (hooks : list lv) : M W (list lv) :=
  match hooks with
  | [] => ret W []
  | f :: r => bind W (call f) (fun v => bind W (call_each call r) (fun vs => ret W (v :: vs)))
  end.
(** the state with a new innermost frame of frame 0 in which the name [hook] is bound *)
Definition in_hook_frame (f : lv) (s : state W) : state W :=
  {| hp := {| parent := Some 0; entries := [(lit "hook", f)] |} :: hp W s; world := world W s |}.
(** the hooks of the session, and the function map as it comes *)
Definition hooks_are (name : str) (hooks : list lv) (s : state W) : Prop :=
  get (hp W s) 0 name = Some (LList hooks) /\ get (hp W s) 0 (lit "map") = Some (LNative (lit "map")).
End Spec.

(** a name as hooks have it: no blanks, brackets or quotes *)
Definition hook_name (name : str) : Prop :=
  In name [lit "*pre-exec-hooks*"; lit "*post-exec-hooks*"; lit "*completion-hooks*"].
(** the texts that arrive: no double quote, not empty, the last character ASCII *)
Definition plain_text (s : str) : Prop := ~ In 34%N s /\ exists a c, s = a ++ [c] /\ (c < 128)%N.

(** A command name as it is typed without quotes: every character that means something to
    the shell, among them brackets and quotes, follows a backslash. *)
Inductive bare_name : str -> Prop :=
| B_nil : bare_name []
| B_escaped c r : bare_name r -> bare_name (92%N :: c :: r)
| B_plain c r : ~ In c [40; 41; 59; 39; 34; 32; 9; 10; 13; 92]%N -> bare_name r -> bare_name (c :: r).

(** the evaluation had no effect on the Lisp frames or on anything outside *)
Definition no_effect {W A} (s : state W) (r : Lisp_Model.res W A) : Prop :=
  match r with Ok _ _ _ s' | Err _ _ s' => s' = s | Fuel _ _ => True end.
