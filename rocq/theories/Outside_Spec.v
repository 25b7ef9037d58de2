(** Vocabulary for the editor, ai-commit, what builtins write and gh-notify. *)
From Verif Require Import Base Opts_Model Opts_Spec Outside_Model.
From Verif Require Compgen_Model.

Definition nl : char := 10%N.
(** a text that does not end in a newline *)
Definition no_nl_end (s : str) : Prop := forall t, s <> t ++ [nl].

(** the answers at the prompt of ai-commit *)
Definition yes (s : str) : Prop := In (lower (trim s)) [lit "y"; lit "yes"].
Definition no (s : str) : Prop := In (lower (trim s)) [lit "n"; lit "no"].
Definition edits (s : str) : Prop := In (lower (trim s)) [lit "e"; lit "edit"].
(** answers after which the prompt is shown again *)
Definition undecided (a : answer * str) : Prop := exists s, fst a = Typed s /\ ~ yes s /\ ~ no s.
Definition nonblank (s : str) : Prop := exists c, In c s /\ is_whitespace c = false.

(** a notification the service sent *)
Definition has_text (m : list (str * Compgen_Model.json)) (k : string) (s : str) : Prop := Compgen_Model.get m (lit k) = Some (Compgen_Model.Str s).
Definition describes (j : Compgen_Model.json) (n : note) : Prop := exists m sm rm, j = Compgen_Model.Obj m /\ has_text m "id" (note_id n) /\ has_text m "reason" (reason n) /\
  (exists u, has_text m "_updated_at" u) /\
  Compgen_Model.get m (lit "subject") = Some (Compgen_Model.Obj sm) /\ has_text sm "title" (title n) /\ (exists k, has_text sm "type" k) /\
  match subject_url n with Some u => has_text sm "url" u | None => Compgen_Model.get sm (lit "url") = None \/ Compgen_Model.get sm (lit "url") = Some Compgen_Model.Null end /\
  Compgen_Model.get m (lit "repository") = Some (Compgen_Model.Obj rm) /\ has_text rm "full_name" (full_name n) /\ has_text rm "html_url" (html_url n) /\
  ((Compgen_Model.get m (lit "unread") = None /\ unread n = false) \/ Compgen_Model.get m (lit "unread") = Some (Compgen_Model.Bool (unread n))).
(** the notifications to list: unread, and of a repository whose name holds one of the patterns *)
Definition matches (patterns : list str) (n : note) : Prop := patterns = [] \/ exists p, In p patterns /\ contains (lower p) (lower (full_name n)) = true.
Definition to_list (patterns : list str) (n : note) : Prop := unread n = true /\ matches patterns n.
(** the elements with a property, in their order *)
Inductive Keeps {A} (P : A -> Prop) : list A -> list A -> Prop :=
| keeps_nil : Keeps P [] []
| keeps_in x l k : P x -> Keeps P l k -> Keeps P (x :: l) (x :: k)
| keeps_out x l k : ~ P x -> Keeps P l k -> Keeps P (x :: l) k.
(** the options ask for the list, not for help *)
Definition quiet (argv : list str) (g : list given) : Prop := exists f, proper notify_opts argv g f /\ ~ gave g "help".
(** the patterns given with -r *)
Definition patterns (g : list given) (ps : list str) : Prop := forall p, In p ps <-> In (lit "repo", Some p) g.
(** the token used: of the shell's variable, else of Lisp's, else of the environment *)
Definition token_of (w : notify_world) (t : str) : Prop :=
  shell_var w = Some t \/ (shell_var w = None /\ lisp_var w = Some t) \/ (shell_var w = None /\ lisp_var w = None /\ env_token w = Some t).
(** what is offered *)
Definition offered (g : list given) (w : notify_world) (ns : list note) : Prop := exists l all ps,
  service w = Some (Compgen_Model.Arr l) /\ Forall2 describes l all /\ patterns g ps /\ Keeps (to_list ps) all ns.
(** the page of a notification *)
Definition page (w : notify_world) (n : note) (u : str) : Prop :=
  (exists s m, subject_url n = Some s /\ ask w s = Some (Compgen_Model.Obj m) /\ has_text m "html_url" u) \/
  (u = html_url n /\ forall s m v, subject_url n = Some s -> ask w s = Some (Compgen_Model.Obj m) -> ~ has_text m "html_url" v).
