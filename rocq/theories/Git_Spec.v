(** What the git builtins are expected to do, said of what git prints and of the git commands run. *)
From Verif Require Import Base.

(** ** what git prints *)

(** git status --porcelain prints two state letters, a blank and the name.  A name is printed as it
    is when it is made of visible ASCII characters other than the quote and the backslash; with blanks
    too, it stands between double quotes.  (Names with other characters are printed with backslashes.) *)
Definition visible (c : char) : Prop := (33 <= c <= 126)%N /\ c <> chr """" /\ c <> chr "\".
Definition plain_name (n : str) : Prop := n <> [] /\ Forall visible n.
Definition blank_name (n : str) : Prop := In 32%N n /\ Forall (fun c => visible c \/ c = 32%N) n.
Record change := Change { code : char * char; file : str }.
Definition letter (c : char) : Prop := (32 <= c <= 126)%N.
Definition change_ok (c : change) : Prop := letter (fst (code c)) /\ letter (snd (code c)).
Definition status_line (c : change) (shown : str) : str := fst (code c) :: snd (code c) :: 32%N :: shown.
Definition quoted (n : str) : str := chr """" :: n ++ [chr """"].
(** each line ended by a newline *)
Definition text (ls : list str) : str := flat_map (fun l => l ++ [10%N]) ls.

(** git branch --all *)
Inductive branch :=
| Local (current : bool) (name : str)
| Remote (remote name : str)
| Head (remote target_remote name : str).
Definition branch_line (b : branch) : str :=
  match b with
  | Local true n => lit "* " ++ n
  | Local false n => lit "  " ++ n
  | Remote r n => lit "  remotes/" ++ r ++ lit "/" ++ n
  | Head r t n => lit "  remotes/" ++ r ++ lit "/HEAD -> " ++ t ++ lit "/" ++ n
  end.
(** the branch to be checked out when its line is selected *)
Definition branch_name (b : branch) : str := match b with Local _ n | Remote _ n | Head _ _ n => n end.
(** names: no blanks and no star *)
Definition name_ok (n : str) : Prop := n <> [] /\ forall c, In c n -> is_whitespace c = false /\ c <> chr "*".
Definition branch_ok (b : branch) : Prop :=
  match b with
  | Local _ n => name_ok n /\ ~ (exists t, n = lit "remotes/" ++ t)
  | Remote r n => name_ok r /\ ~ In (chr "/") r /\ name_ok n
  | Head r t n => name_ok r /\ ~ In (chr "/") r /\ name_ok t /\ ~ In (chr "/") t /\ name_ok n
  end.

(** git worktree list --porcelain: the main worktree first; [bare] is a repository without one *)
Record tree := Tree { path : str; bare : bool; attributes : list str }.
Definition tree_lines (t : tree) : list str :=
  (lit "worktree " ++ path t) :: (if bare t then [lit "bare"] else []) ++ attributes t ++ [[]].
Definition one_line (s : str) : Prop := ~ In 10%N s /\ ~ exists t, s = t ++ [13%N].
Definition tree_ok (t : tree) : Prop :=
  one_line (path t) /\
  forall a, In a (attributes t) -> one_line a /\ a <> lit "bare" /\ ~ exists r, a = lit "worktree " ++ r.
Definition worktrees_text (ts : list tree) : str := text (flat_map tree_lines ts).

(** ** a menu: the answer is among what was offered *)
Definition among {A} (chosen offered : list A) : Prop := forall x, In x chosen -> In x offered.

(** ** git log: text in colour is plain text with codes, ESC [ ... letter, in between *)
Inductive piece := Plain (s : str) | Code (inner : str) (final : char).
Definition ascii_alpha (c : char) : Prop := (65 <= c <= 90 \/ 97 <= c <= 122)%N.
Definition piece_ok (p : piece) : Prop :=
  match p with
  | Plain s => ~ In 27%N s
  | Code inner f => Forall (fun c => ~ ascii_alpha c) inner /\ ascii_alpha f
  end.
Definition piece_text (p : piece) : str := match p with Plain s => s | Code inner f => 27%N :: 91%N :: inner ++ [f] end.
Definition piece_plain (p : piece) : str := match p with Plain s => s | Code _ _ => [] end.
Definition coloured (ps : list piece) : str := flat_map piece_text ps.
Definition plain (ps : list piece) : str := flat_map piece_plain ps.
Definition hex (c : char) : Prop := (48 <= c <= 57 \/ 65 <= c <= 70 \/ 97 <= c <= 102)%N.
(** what stands before the hash on a line: nothing, or a drawing without digits and letters a to f that
    ends in a blank *)
Definition drawing (g : str) : Prop := Forall (fun c => ~ hex c) g /\ (g = [] \/ exists h, g = h ++ [32%N]).
Definition ends_word (rest : str) : Prop := rest = [] \/ exists c r, rest = c :: r /\ is_whitespace c = true.

(** ** the options of gwt: what each argument switches on *)
Inductive switch := Rm | Prune_ | FromPr | Force | New | Edit | Stay.
Definition switches : list (str * list switch) :=
  [(lit "-r", [Rm]); (lit "-rf", [Rm; Force]); (lit "-fr", [Rm; Force]); (lit "-f", [Force]); (lit "--force", [Force]);
   (lit "-p", [Prune_]); (lit "-P", [FromPr]); (lit "--pr", [FromPr]);
   (lit "-b", [New]); (lit "-e", [Edit]); (lit "-n", [Stay]);
   (lit "-be", [New; Edit]); (lit "-eb", [New; Edit]); (lit "-bn", [New; Stay]); (lit "-nb", [New; Stay]); (lit "-en", [Edit; Stay]); (lit "-ne", [Edit; Stay]);
   (lit "-ben", [New; Edit; Stay]); (lit "-bne", [New; Edit; Stay]); (lit "-ebn", [New; Edit; Stay]); (lit "-enb", [New; Edit; Stay]); (lit "-nbe", [New; Edit; Stay]); (lit "-neb", [New; Edit; Stay])].
Definition dashed (a : str) : Prop := exists r, a = lit "-" ++ r.
(** [s] is on in the arguments [l] *)
Definition on (l : list str) (s : switch) : Prop := exists a ss, In a l /\ In (a, ss) switches /\ In s ss.
(** every argument with a dash is an option, and there are no two others; [b] is the other one *)
Definition proper (l : list str) (b : option str) : Prop :=
  (forall a, In a l -> dashed a -> exists ss, In (a, ss) switches) /\
  match b with
  | None => forall a, In a l -> dashed a
  | Some n => exists x y, l = x ++ n :: y /\ ~ dashed n /\ (forall a, In a (x ++ y) -> dashed a)
  end.
