(** What a typed line means, independently of the grammar.

    A line is a list of segments joined by [;], [&&] or [||].  A segment is a number of
    background commands ([cmd &]) followed by at most one pipeline.  A command is a name
    and items: arguments and redirections.  Everything may be separated by blanks. *)
From Verif Require Import Base Parse_Model.

(** space, tab, carriage return *)
Definition blank (c : char) : bool := mem_char c [32; 9; 13]%N.
Definition gap (g : str) : Prop := forallb blank g = true.
(** characters with a meaning of their own outside quotes *)
Definition meta : str := lit "|&;`{}<>()$*?[]\'" ++ [34; 10; 32; 9; 13]%N.
Definition ordinary (c : char) : bool := negb (mem_char c meta).

Inductive word :=
| Bare (l : list (bool * char))   (** each character as it is, or after a backslash *)
| Single (t : str)                (** 't' *)
| Double (t : str)                (** "t" *)
| Var (n : str).                  (** $n *)
Definition typed_word (w : word) : str :=
  match w with
  | Bare l => flat_map (fun bc : bool * char => let '(b, c) := bc in if b then [92%N; c] else [c]) l
  | Single t => [39%N] ++ t ++ [39%N]
  | Double t => [34%N] ++ t ++ [34%N]
  | Var n => 36%N :: n
  end.
(** the argument it stands for, before variables are replaced *)
Definition meaning (w : word) : str :=
  match w with Bare l => map snd l | Single t => t | Double t => t | Var n => 36%N :: n end.
Definition valid_word (w : word) : Prop :=
  match w with
  | Bare l => l <> [] /\ forall b c, In (b, c) l -> b = false -> ordinary c = true
  | Single t => ~ In 39%N t /\ ends_with [92%N] t = false
  | Double t => forall c, In c t -> ~ In c [34; 92; 96; 36]%N
  | Var n => n <> [] /\ forallb ordinary n = true
  end.

Inductive direction := OutTrunc | OutAppend | ErrTrunc | ErrAppend | BothTrunc | BothAppend | FromFile.
Definition typed_direction (d : direction) : str :=
  match d with
  | OutTrunc => lit ">" | OutAppend => lit ">>" | ErrTrunc => lit "2>" | ErrAppend => lit "2>>"
  | BothTrunc => lit "&>" | BothAppend => lit "&>>" | FromFile => lit "<"
  end.
Definition redirection_for (d : direction) (file : str) : redirection :=
  match d with
  | OutTrunc => StdoutOutput file | OutAppend => StdoutAppend file | ErrTrunc => StderrOutput file
  | ErrAppend => StderrAppend file | BothTrunc => StdouterrOutput file | BothAppend => StdouterrAppend file
  | FromFile => Input file
  end.

Inductive item :=
| Arg (before : str) (w : word)
| Redir (before : str) (d : direction) (between : str) (file : str).
Definition typed_item (i : item) : str :=
  match i with
  | Arg g w => g ++ typed_word w
  | Redir g d h file => g ++ typed_direction d ++ h ++ file
  end.
Definition in_quotes (w : word) : Prop := match w with Single _ | Double _ => True | _ => False end.
(** only an argument in quotes may follow what is before it without a blank *)
Definition valid_item (i : item) : Prop :=
  match i with
  | Arg g w => gap g /\ (g <> [] \/ in_quotes w) /\ valid_word w
  | Redir g d h file => gap g /\ g <> [] /\ gap h /\ file <> [] /\ forallb ordinary file = true
  end.

Record cmdline := CmdLine { lead : str; name : word; items : list item; trail : str }.
Definition typed_cmd (c : cmdline) : str := lead c ++ typed_word (name c) ++ flat_map typed_item (items c) ++ trail c.
Definition valid_cmd (c : cmdline) : Prop :=
  gap (lead c) /\ gap (trail c) /\ valid_word (name c) /\ Forall valid_item (items c).
Definition argv (c : cmdline) : list str :=
  meaning (name c) :: flat_map (fun i => match i with Arg _ w => [meaning w] | Redir _ _ _ _ => [] end) (items c).
Definition redirections (c : cmdline) : list redirection :=
  flat_map (fun i => match i with Arg _ _ => [] | Redir _ d _ f => [redirection_for d f] end) (items c).

Record segment := Segment { bgs : list cmdline; pipe : list cmdline }.
Definition typed_segment (s : segment) : str :=
  flat_map (fun c => typed_cmd c ++ lit "&") (bgs s) ++ join_with (lit "|") (map typed_cmd (pipe s)).
Definition valid_segment (s : segment) : Prop :=
  Forall valid_cmd (bgs s ++ pipe s) /\ bgs s ++ pipe s <> [] /\
  (* [|:] and [|>] are other operators *)
  Forall (fun c => lead c <> []) (tl (pipe s)).

Inductive separator := Semi | AndIf | OrIf.
Definition typed_sep (s : separator) : str := match s with Semi => lit ";" | AndIf => lit "&&" | OrIf => lit "||" end.
Definition op_for (s : separator) : list_op := match s with Semi => OpNone | AndIf => OpAnd | OrIf => OpOr end.
(** a first segment, and the following ones with the separator before each *)
Definition line := (segment * list (separator * segment))%type.
Definition typed_line (l : line) : str :=
  typed_segment (fst l) ++ flat_map (fun sg : separator * segment => typed_sep (fst sg) ++ typed_segment (snd sg)) (snd l).
Fixpoint valid_rest (prev : segment) (r : list (separator * segment)) : Prop :=
  match r with
  | [] => True
  | (s, g) :: r' => valid_segment g /\ (pipe prev = [] -> s <> AndIf) (* "&" and "&&" must be kept apart *) /\ valid_rest g r'
  end.
Definition valid_line (l : line) : Prop := valid_segment (fst l) /\ valid_rest (fst l) (snd l).

(** the jobs it stands for *)
Section Jobs.
Variable resolve : str -> found.
Definition known (c : cmdline) : Prop :=
  meaning (name c) <> lit "nopty" /\
  match resolve (meaning (name c)) with IsUnknown | IsDir => False | _ => True end.
Definition process_for (c : cmdline) : process :=
  match resolve (meaning (name c)) with
  | IsProgram p => Program p (argv c)
  | IsLisp => LispFn (meaning (name c)) (argv c)
  | _ => Builtin (meaning (name c)) (argv c)
  end.
(** processes, foreground, redirection, operator towards the next job *)
Definition shape := (list process * bool * option redirection * list_op)%type.
Definition shape_of (j : job) : shape := (procs j, foreground j, redirection_of j, op j).
Definition last_redirection (l : list redirection) : option redirection :=
  match rev l with r :: _ => Some r | [] => None end.
Definition segment_jobs (g : segment) : list shape :=
  map (fun c => ([process_for c], false, last_redirection (redirections c), OpNone)) (bgs g) ++
  match pipe g with
  | [] => []
  | cs => [(map process_for cs, true, last_redirection (flat_map redirections cs), OpNone)]
  end.
Definition with_op (o : list_op) (l : list shape) : list shape :=
  match rev l with (ps, f, r, _) :: before => rev before ++ [(ps, f, r, o)] | [] => [] end.
Fixpoint rest_jobs (prev : list shape) (r : list (separator * segment)) : list shape :=
  match r with
  | [] => prev
  | (s, g) :: r' => with_op (op_for s) prev ++ rest_jobs (segment_jobs g) r'
  end.
Definition line_jobs (l : line) : list shape := rest_jobs (segment_jobs (fst l)) (snd l).
Definition all_commands (l : line) : list cmdline :=
  bgs (fst l) ++ pipe (fst l) ++ flat_map (fun sg : separator * segment => bgs (snd sg) ++ pipe (snd sg)) (snd l).
End Jobs.

(** ** spans of the tree (C10): in order, nested, and each text is the slice of the line *)
From Verif Require Import Peg_Model.
Inductive faithful {R} (line : str) : nat -> nat -> list (node R) -> Prop :=
| faithful_nil lo hi : lo <= hi -> faithful line lo hi []
| faithful_cons lo hi r start text inner ns :
    lo <= start -> firstn (length text) (skipn start line) = text ->
    faithful line start (start + length text) inner ->
    faithful line (start + length text) hi ns ->
    faithful line lo hi (Node r start text inner :: ns).
