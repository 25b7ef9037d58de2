(** What a user expects of a script on standard input, of the status dsh leaves with,
    and of leaving the prompt.  Nothing here mentions the model. *)
From Verif Require Import Base.

(** a line that ends the script: the word exit alone *)
Definition Stop (l : option str) : Prop := l = None \/ exists t, l = Some t /\ trim t = lit "exit".

(** the commands of lines that can be read, in order: each line without the blanks
    around it, and no blank line *)
Inductive Commands : list (option str) -> list str -> Prop :=
| no_line : Commands [] []
| blank_line l ls cs : trim l = [] -> Commands ls cs -> Commands (Some l :: ls) cs
| a_line l ls cs : trim l <> [] -> trim l <> lit "exit" -> Commands ls cs ->
    Commands (Some l :: ls) (trim l :: cs).

(** what a script should run: the commands before the first line that ends it *)
Definition ScriptRuns (lines : list (option str)) (cs : list str) : Prop :=
  exists a b, lines = a ++ b /\ Commands a cs /\
    match b with [] => True | l :: _ => Stop l end.

(** running commands one after the other, whatever each comes to *)
Inductive InTurn {W R} (eval : W -> str -> W * R) : W -> list str -> W -> list R -> Prop :=
| none_left w : InTurn eval w [] w []
| one_more w c w' r cs w'' rs : eval w c = (w', r) -> InTurn eval w' cs w'' rs ->
    InTurn eval w (c :: cs) w'' (r :: rs).
