(** How the words after a command are read as options and operands, and vocabulary for
    the commands set, dmv, serve and gpr. *)
From Verif Require Import Base Numerals Opts_Model.
From Verif Require Env_Model Env_Spec Output_Spec.

(** a word that is no option: a single dash, or one not starting with a dash *)
Definition operand (w : str) : Prop := w = lit "-" \/ forall t, w <> chr "-" :: t.

(** the ways to name an option after two dashes *)
Definition called (o : opt) (s : str) : Prop := s = long o \/ exists c, short o = Some c /\ s = [c].

(** a list of options that can be told apart *)
Record well_named (os : list opt) : Prop := WellNamed {
  longs : forall o o', In o os -> In o' os -> long o = long o' -> o = o';
  shorts : forall o o' c, In o os -> In o' os -> short o = Some c -> short o' = Some c -> o = o';
  long_names : forall o, In o os -> 2 <= length (long o) /\ ~ In (chr "=") (long o);
  letters_ascii : forall o c, In o os -> short o = Some c -> (c < 128)%N /\ c <> chr "-" /\ c <> chr "="
}.

(** the letters [s] are those of the flags [fl] *)
Definition spells (os fl : list opt) (s : str) : Prop := Forall2 (fun o c => In o os /\ takes o = false /\ short o = Some c) fl s.
Definition flags (fl : list opt) : list given := map (fun o => (long o, None)) fl.

(** [Reads os args g f]: the words [args] give the options [g], in order, and the operands [f] *)
Inductive Reads (os : list opt) : list str -> list given -> list str -> Prop :=
| R_none : Reads os [] [] []
| R_operand w r g f : operand w -> Reads os r g f -> Reads os (w :: r) g (w :: f)
| R_rest r : Reads os (lit "--" :: r) [] r
| R_flag o s r g f : In o os -> takes o = false -> called o s -> Reads os r g f -> Reads os ((lit "--" ++ s) :: r) ((long o, None) :: g) f
| R_value o s v r g f : In o os -> takes o = true -> called o s -> Reads os r g f ->
    Reads os ((lit "--" ++ s ++ lit "=" ++ v) :: r) ((long o, Some v) :: g) f
| R_value_next o s v r g f : In o os -> takes o = true -> called o s -> Reads os r g f ->
    Reads os ((lit "--" ++ s) :: v :: r) ((long o, Some v) :: g) f
| R_letters fl s r g f : fl <> [] -> spells os fl s -> Reads os r g f -> Reads os ((lit "-" ++ s) :: r) (flags fl ++ g) f
| R_letters_value fl s o c v r g f : spells os fl s -> In o os -> takes o = true -> short o = Some c -> v <> [] -> Reads os r g f ->
    Reads os ((lit "-" ++ s ++ c :: v) :: r) (flags fl ++ (long o, Some v) :: g) f
| R_letters_next fl s o c v r g f : spells os fl s -> In o os -> takes o = true -> short o = Some c -> Reads os r g f ->
    Reads os ((lit "-" ++ s ++ [c]) :: v :: r) (flags fl ++ (long o, Some v) :: g) f.

(** no option is given twice, but those that may be *)
Definition once (os : list opt) (g : list given) : Prop := forall o, In o os -> multi o = false ->
  forall i j v w, nth_error g i = Some (long o, v) -> nth_error g j = Some (long o, w) -> i = j.
(** the words are a proper use *)
Definition proper (os : list opt) (args : list str) (g : list given) (f : list str) : Prop := Reads os args g f /\ once os g.
(** an option is among those given *)
Definition gave (g : list given) (l : string) : Prop := exists v, In (lit l, v) g.

(** a name whose value the shell does not compute *)
Definition ordinary (k : str) : Prop :=
  (forall n, ~ Output_Spec.denotes (lit "OUT") k n) /\ (forall n, ~ Output_Spec.denotes (lit "ERR") k n) /\
  ~ In k [lit "MCP_SERVERS"; lit "MCP_CONNECTED"; lit "MCP_TOOLS"] /\ forall t, k <> chr "$" :: t.

(** how a port is written: decimal digits, maybe after a plus sign *)
Definition port_text (s : str) (p : N) : Prop := (1 <= p <= 65535)%N /\ (Dec s p \/ exists t, s = chr "+" :: t /\ Dec t p).
Definition on_stdout (ls : list line) : Prop := forall l, In l ls -> exists s, l = OutLine s.
