(** What z should do. *)
From Verif Require Import Base Frecency_Model Jump_Model.
From Coq Require Import ZArith.

Definition subcommand (a : str) : Prop := In a [lit "add"; lit "remove"; lit "rm"; lit "aliases"; lit "alias"].
Definition lists (a : str) : Prop := a = lit "-l" \/ a = lit "--list".
Definition asks (a : str) : Prop := a = lit "-i" \/ a = lit "--interactive".
Definition cleans (a : str) : Prop := a = lit "-c" \/ a = lit "--clean".
Definition word (a : str) : Prop := ~ lists a /\ ~ asks a /\ ~ cleans a.
(** the words without the options, in order *)
Inductive Words_of : list str -> list str -> Prop :=
| Words_none : Words_of [] []
| Words_word a l ws : word a -> Words_of l ws -> Words_of (a :: l) (a :: ws)
| Words_option a l ws : ~ word a -> Words_of l ws -> Words_of (a :: l) ws.
(** the best of the visited directories for a query *)
Definition fit (m : moment) (q p : str) (s : Z) : Prop := score m p q = Some s /\ (25 < s)%Z.
Definition best (m : moment) (q : str) (l : list str) (p : str) : Prop :=
  In p l /\ exists s, fit m q p s /\
  forall p' s', In p' l -> fit m q p' s' -> (s' < s)%Z \/ (s' = s /\ (frecency m p' <= frecency m p)%Z).
(** the name a command gives a meaning to *)
Inductive Names (here : str) : list str -> str -> option str -> Prop :=
| Names_here n : Names here [lit "z"; lit "add"; n] n (Some here)
| Names_path n p r : Names here (lit "z" :: lit "add" :: n :: p :: r) n (Some p)
| Names_not rm n r : rm = lit "remove" \/ rm = lit "rm" -> Names here (lit "z" :: rm :: n :: r) n None.
(** a directory is the same from everywhere *)
Definition absolute (chdir : str -> str -> option str) (d : str) : Prop := forall c, chdir c d = Some d.
