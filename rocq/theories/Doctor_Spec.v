(** What doctor should say. *)
From Verif Require Import Base Doctor_Model.

(** the title of the section that a word asks for *)
Definition titles : list (str * str) := map (fun ab => (lit (fst ab), lit (snd ab)))
  [("config", "config"); ("ai", "ai"); ("mcp", "mcp"); ("project", "project"); ("runtime", "runtimes"); ("runtimes", "runtimes");
   ("performance", "performance"); ("perf", "performance"); ("skills", "skills"); ("dev", "dev"); ("validate", "dev")]%string.

(** a change as git prints it: two letters, the old name of what was renamed, the name; each name may be put in quotation marks *)
Record change := Change { code1 : char; code2 : char; old : option (bool * str); quoted : bool; name : str }.
Definition printed (q : bool) (p : str) : str := if q then [34%N] ++ p ++ [34%N] else p.
Definition line (c : change) : str :=
  [code1 c; code2 c; 32%N] ++ match old c with Some (q, p) => printed q p ++ lit " -> " | None => [] end ++ printed (quoted c) (name c).
(** names without blanks around them, line ends, quotation marks and arrows *)
Definition plain (p : str) : Prop :=
  p <> [] /\ trim p = p /\ ~ In 10%N p /\ ~ In 34%N p /\ contains (lit " -> ") p = false /\ starts_with (lit "-> ") p = false.
Definition proper (c : change) : Prop :=
  (code1 c < 128)%N /\ (code2 c < 128)%N /\ code1 c <> 10%N /\ code2 c <> 10%N /\ plain (name c) /\ match old c with Some (_, p) => plain p | None => True end.

(** the file at a path *)
Inductive Holds : node -> list str -> option str -> Prop :=
| Holds_file c : Holds (File c) [] c
| Holds_dir es k x p c : In (k, x) es -> Holds x p c -> Holds (Dir es) (k :: p) c.
(** a folder that can be listed with all in it *)
Inductive Listable : node -> Prop :=
| Listable_file c : Listable (File c)
| Listable_special : Listable Special
| Listable_dir es : (forall k x, In (k, x) es -> Listable x) -> Listable (Dir es).
(** no two entries of a folder have the same name *)
Inductive Tree : node -> Prop :=
| Tree_file c : Tree (File c)
| Tree_special : Tree Special
| Tree_locked : Tree Locked
| Tree_dir es : NoDup (map fst es) -> (forall k x, In (k, x) es -> Tree x) -> Tree (Dir es).
Definition folder (n : node) : Prop := exists es, n = Dir es.

(** the folders of the packages *)
Definition packages : list (str * str) := map (fun ab => (lit (fst ab), lit (snd ab)))
  [("dsh-builtin/", "dsh-builtin"); ("dsh-openai/", "dsh-openai"); ("dsh-types/", "dsh-types"); ("dsh-frecency/", "dsh-frecency"); ("dsh/", "doge-shell")]%string.
Definition in_package (p k : str) : Prop := exists d, In (d, k) packages /\ starts_with d (slashes p) = true.
(** the checks that changed files ask for *)
Inductive Suggested (paths : list str) : str -> Prop :=
| Sug_format p : In p paths -> ends_with (lit ".rs") (slashes p) = true -> Suggested paths (lit "cargo fmt --check")
| Sug_test p k : In p paths -> in_package p k -> Suggested paths (lit "cargo test -p " ++ k)
| Sug_manifest p : In p paths -> In (slashes p) [lit "Cargo.toml"; lit "Cargo.lock"] -> Suggested paths (lit "cargo check --workspace")
| Sug_many p q j k : In p paths -> In q paths -> in_package p j -> in_package q k -> j <> k -> Suggested paths (lit "cargo check --workspace")
| Sug_lint p : In p paths -> in_package p (lit "doge-shell") -> Suggested paths (lit "cargo clippy -p doge-shell -- -D warnings")
| Sug_guide p c : In p paths -> In (slashes p) [lit "AGENTS.md"; lit "scripts/install-runtime-skills.sh"] \/ starts_with (lit "docs/ai/") (slashes p) = true ->
    In c [lit "scripts/check-ai-guidance.sh"; lit "scripts/install-runtime-skills.sh --list"; lit "scripts/install-runtime-skills.sh --status --target codex --profile codex-core"] -> Suggested paths c.
