(** Vocabulary for what is said of a project. *)
From Verif Require Import Base Runtime_Model.
From Verif Require Task_Model Compgen_Model.

(** the file of the name nearest above the directory *)
Definition Nearest (d : disk) (cwd : path) (name : str) (p : path) : Prop :=
  exists a b, cwd = a ++ b /\ p = a ++ [name] /\ d p <> None /\ forall a' b', cwd = a' ++ b' -> length a < length a' -> d (a' ++ [name]) = None.
Definition nowhere (d : disk) (cwd : path) (name : str) : Prop := forall a b, cwd = a ++ b -> d (a ++ [name]) = None.

(** a blank line or a comment *)
Definition silent (l : str) : Prop := trim l = [] \/ exists r, trim l = chr "#" :: r.
(** the first line that says something *)
Definition First_line (s v : str) : Prop := exists a l b, lines s = a ++ l :: b /\ (forall x, In x a -> silent x) /\ ~ silent l /\ v = trim l.
(** a line about one of the tools, with the words after its name *)
Definition About (ns : list str) (l : str) (ws : list str) : Prop := ~ silent l /\ exists t, In t ns /\ Words (trim l) (t :: ws).
Definition Tool_version (ns : list str) (s v : str) : Prop :=
  exists a l b ws, lines s = a ++ l :: b /\ (forall x w, In x a -> ~ About ns x w) /\ About ns l (v :: ws).
(** a version as mise writes it, not in a list; and what has none *)
Definition Gives (x : tval) (v : str) : Prop := x = TStr v \/ exists l, x = TTab l /\ tget (lit "version") l = Some (TStr v).
Definition Mute (x : tval) : Prop := x = TOther \/ exists l, x = TTab l /\ forall v, tget (lit "version") l <> Some (TStr v).

(** a place that may name a version: how it is called, the file, what it says *)
Record src := Src { label : str; fname : str; says : node -> option str -> Prop }.
Definition Offers (d : disk) (cwd : path) (s : src) (v : option str) (p : path) : Prop :=
  Nearest d cwd (fname s) p /\ exists n, d p = Some n /\ says s n v.
(** the first of the places that says something, or else the last resort *)
Inductive Picks (d : disk) (cwd : path) (l : str) (last : option runtime) : list src -> option runtime -> Prop :=
| Picks_last : Picks d cwd l last [] last
| Picks_here s r v p : Offers d cwd s v p -> Picks d cwd l last (s :: r) (Some (Runtime l (label s) v p))
| Picks_next s r o : (forall v p, ~ Offers d cwd s v p) -> Picks d cwd l last r o -> Picks d cwd l last (s :: r) o.
Definition text_says (R : str -> str -> Prop) (n : node) (v : option str) : Prop := exists s x, n = Text (Some s) /\ v = Some x /\ R s x.
Definition a_file (name : str) : src := Src name name (text_says First_line).
Definition a_folder (name : str) : src := Src name name (fun n v => n = Folder /\ v = None).
Definition a_mise (toml : str -> option tval) (ns : list str) : src := Src (lit "mise") (lit "mise.toml") (text_says (fun s v => mise_version toml ns s = Some v)).
Definition a_tools (ns : list str) : src := Src (lit ".tool-versions") (lit ".tool-versions") (text_says (Tool_version ns)).
(** [toolchain] channel = v *)
Definition a_channel (toml : str -> option tval) : src :=
  Src (lit "rust-toolchain.toml") (lit "rust-toolchain.toml")
      (text_says (fun s v => exists top t, toml s = Some (TTab top) /\ tget (lit "toolchain") top = Some (TTab t) /\ tget (lit "channel") t = Some (TStr v))).
Definition file_in (d : disk) (root : path) (n : str) : Prop := d (root ++ [n]) <> None.
Definition above (d : disk) (cwd : path) (n : str) : Prop := ~ nowhere d cwd n.

(** ** tasks *)
Definition holds (d : disk) (root : path) (name : str) (s : str) : Prop := d (root ++ [name]) = Some (Text (Some s)).
Definition key_of (j : json) (k n : str) : Prop := exists m f, j = Compgen_Model.Obj m /\ Compgen_Model.get m k = Some (Compgen_Model.Obj f) /\ In n (map fst f).
Definition command_is (t : task) (source name command : str) : Prop := t = Task_Model.Task source name command.
(** the tasks of a project, with the command of each *)
Inductive Has toml json_of (make_says just_says : option str) (d : disk) (root : path) : task -> Prop :=
| Has_mise s top l n x t : holds d root (lit "mise.toml") s -> toml s = Some (TTab top) -> tget (lit "tasks") top = Some (TTab l) -> In (n, x) l -> x <> TOther ->
    command_is t (lit "mise") n (lit "mise run " ++ n) -> Has toml json_of make_says just_says d root t
| Has_taskfile f s n t : f = lit "Taskfile.yml" \/ f = lit "Taskfile.yaml" /\ ~ file_in d root (lit "Taskfile.yml") -> holds d root f s -> In n (Task_Model.taskfile_names s) ->
    command_is t (lit "taskfile") n (lit "task " ++ n) -> Has toml json_of make_says just_says d root t
| Has_turbo s j n t : holds d root (lit "turbo.json") s -> json_of s = Some j -> key_of j (lit "tasks") n ->
    command_is t (lit "turbo") n (lit "turbo run " ++ n) -> Has toml json_of make_says just_says d root t
| Has_nx s m p n t : holds d root (lit "project.json") s -> json_of s = Some (Compgen_Model.Obj m) -> key_of (Compgen_Model.Obj m) (lit "targets") n ->
    Compgen_Model.get m (lit "name") = Some (Compgen_Model.Str p) \/ (forall q, Compgen_Model.get m (lit "name") <> Some (Compgen_Model.Str q)) /\ (exists r, root = r ++ [p]) ->
    command_is t (lit "nx") n (lit "nx run " ++ p ++ lit ":" ++ n) -> Has toml json_of make_says just_says d root t
| Has_js s j n t : holds d root (lit "package.json") s -> json_of s = Some j -> key_of j (lit "scripts") n ->
    command_is t (manager d root) n (manager d root ++ lit " run " ++ n) -> Has toml json_of make_says just_says d root t
| Has_cargo n t : file_in d root (lit "Cargo.toml") -> In n cargo_words ->
    command_is t (lit "cargo") n (lit "cargo " ++ n) -> Has toml json_of make_says just_says d root t
| Has_make s l n t : file_in d root (lit "Makefile") \/ file_in d root (lit "makefile") -> make_says = Some s -> In l (lines s) -> make_target l = Some n ->
    command_is t (lit "make") n (lit "make " ++ n) -> Has toml json_of make_says just_says d root t
| Has_deno f s j n t : f = lit "deno.json" \/ f = lit "deno.jsonc" /\ ~ file_in d root (lit "deno.json") -> holds d root f s -> json_of (remove_comments s) = Some j -> key_of j (lit "tasks") n ->
    command_is t (lit "deno") n (lit "deno task " ++ n) -> Has toml json_of make_says just_says d root t
| Has_just f s n t : In f [lit "Justfile"; lit "justfile"; lit ".justfile"] -> file_in d root f -> just_says = Some s -> In n (split_whitespace s) ->
    command_is t (lit "just") n (lit "just " ++ n) -> Has toml json_of make_says just_says d root t.

(** a text with comments, outside of which there is no slash *)
Inductive piece := Code (s : str) | LineC (s : str) | BlockC (s : str).
Definition piece_text (p : piece) : str :=
  match p with Code s => s | LineC s => lit "//" ++ s ++ [10%N] | BlockC s => lit "/*" ++ s ++ lit "*/" end.
Definition kept (p : piece) : str := match p with Code s => s | LineC _ => [10%N] | BlockC _ => [] end.
Definition good_piece (p : piece) : Prop :=
  match p with
  | Code s => ~ In (chr "/") s
  | LineC s => ~ In 10%N s
  | BlockC s => forall a b, s ++ lit "*/" = a ++ lit "*/" ++ b -> b = []
  end.
