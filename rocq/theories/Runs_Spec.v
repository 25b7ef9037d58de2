(** What it means for a command to be run, for consent, and for arguments to be passed. *)
From Verif Require Import Base Include_Model Runs_Model.

(** what the program sh does with its arguments (POSIX, sh): -c and a text runs the text;
    a word that is not an option is the name of a file to run *)
Inductive sh_job := Text (commands : str) | Script (file : str) (params : list str) | Input | Options (l : list str).
Definition sh_does (args : list str) : sh_job :=
  match args with
  | [] => Input
  | a :: rest =>
      if str_eqb a (lit "-c") then match rest with c :: _ => Text c | [] => Options args end
      else if starts_with (lit "-") a then Options args
      else Script a rest
  end.
(** a trace runs the command line [c] *)
Definition runs_text (es : list event) (c : str) : Prop :=
  exists args, In (Started (lit "sh") args) es /\ sh_does args = Text c.

(** an event by which something runs *)
Definition acts (e : event) : Prop := match e with Started _ _ | Handled _ _ => True | _ => False end.
(** whatever runs is preceded by an answer yes *)
Definition with_consent (es : list event) : Prop :=
  forall before e after, es = before ++ e :: after -> acts e -> exists q, In (Asked q true) before.
(** an answer that allows execution, as its text says: not the one about looking first *)
Definition allows (q : question) : Prop := match q with Immediately | Execute | Play | Release => True | Inspect => False end.
Definition with_consent_to_run (es : list event) : Prop :=
  forall before e after, es = before ++ e :: after -> acts e -> exists q, allows q /\ In (Asked q true) before.
