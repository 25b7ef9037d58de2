(** The command doctor: what it shows of the AI service, which files it takes as changed, which checks it suggests and when it
    takes two copies of a skill as the same: dsh-builtin/src/doctor.rs.

    Left out: the sections mcp, project, runtimes and performance, the counts of skills, and the programs that are started. *)
From Verif Require Import Base.
From Verif Require Frecency_Model Direnv_Model Keys_Model Client_Model.

(** ** l.13-64, l.99-124: the sections *)
Inductive outcome := Help | Unknown (s : str) | Shown (titles : list str).
Definition is_known_section (v : str) : bool :=
  mem_str v (map lit ["config"; "ai"; "mcp"; "project"; "runtime"; "runtimes"; "performance"; "perf"; "skills"; "dev"; "validate"]%string).
Definition show_section (selected : option str) (current : str) : bool :=
  match selected with
  | None => true
  | Some v =>
      if str_eqb v (lit "runtime") && str_eqb current (lit "runtimes") then true
      else if str_eqb v (lit "runtimes") && str_eqb current (lit "runtime") then true
      else if str_eqb v (lit "validate") && str_eqb current (lit "dev") then true
      else str_eqb v current
  end.
Definition command (section : option str) : outcome :=
  match section with
  | Some v =>
      if mem_str v [lit "-h"; lit "--help"; lit "help"] then Help
      else if negb (is_known_section v) then Unknown v else Shown
        ((if show_section section (lit "config") then [lit "config"] else []) ++
         (if show_section section (lit "ai") then [lit "ai"] else []) ++
         (if show_section section (lit "mcp") then [lit "mcp"] else []) ++
         (if show_section section (lit "project") then [lit "project"] else []) ++
         (if show_section section (lit "runtime") || show_section section (lit "runtimes") then [lit "runtimes"] else []) ++
         (if show_section section (lit "performance") || show_section section (lit "perf") then [lit "performance"] else []) ++
         (if show_section section (lit "skills") then [lit "skills"] else []) ++
         (if show_section section (lit "dev") || show_section section (lit "validate") then [lit "dev"] else []))
  | None => Shown (map lit ["config"; "ai"; "mcp"; "project"; "runtimes"; "performance"; "skills"; "dev"]%string)
  end.

(** ** l.795-804 mask_secret *)
Definition mask_secret (value : option str) : str :=
  match value with
  | Some (c :: s) => lit "***" ++ rev (firstn 4 (rev (c :: s)))
  | _ => lit "missing"
  end.
(** l.157-187 check_ai, the first four lines; [get] is proxy.get_var *)
Definition or_else {A} (a b : option A) : option A := match a with Some _ => a | None => b end.
Definition unwrap (a : option str) (d : str) : str := match a with Some x => x | None => d end.
Definition check_ai (get : str -> option str) : list str :=
  let api_key := or_else (get (lit "AI_CHAT_API_KEY")) (or_else (get (lit "OPENAI_API_KEY")) (get (lit "OPEN_AI_API_KEY"))) in
  let model := unwrap (or_else (get (lit "AI_CHAT_MODEL")) (get (lit "OPENAI_MODEL"))) (lit "gpt-5-mini") in
  let base_url := unwrap (or_else (get (lit "AI_CHAT_BASE_URL")) (get (lit "OPENAI_BASE_URL"))) (lit "https://api.openai.com/v1") in
  let lang := unwrap (get (lit "AI_MESSAGE_LANG")) (lit "default") in
  let state := match api_key with Some v => match trim v with [] => lit "warn" | _ => lit "ok" end | None => lit "warn" end in
  [state ++ lit " api-key " ++ mask_secret api_key; lit "ok model " ++ model; lit "ok base-url " ++ base_url; lit "ok message-lang " ++ lang].

(** ** l.642-657 parse_git_status_short *)
Fixpoint drop_quotes (s : str) : str := match s with c :: r => if (c =? 34)%N then drop_quotes r else s | [] => [] end.
Definition trim_quotes (s : str) : str := rev (drop_quotes (rev (drop_quotes s))).
Definition parse_line (line : str) : list str :=
  match split_byte line 3 with
  | None => []
  | Some (_, rest) =>
      match trim rest with
      | [] => []
      | p => [trim_quotes (match Keys_Model.rsplit (lit " -> ") p with Some (_, new) => new | None => p end)]
      end
  end.
Definition parse_status (output : str) : list str := flat_map parse_line (Direnv_Model.lines output).

(** ** l.659-730 validation_commands_for_paths *)
Definition slashes (p : str) : str := map (fun c => if (c =? 92)%N then 47%N else c) p.
Definition package (text : str) : option str :=
  if starts_with (lit "dsh-builtin/") text then Some (lit "dsh-builtin")
  else if starts_with (lit "dsh-openai/") text then Some (lit "dsh-openai")
  else if starts_with (lit "dsh-types/") text then Some (lit "dsh-types")
  else if starts_with (lit "dsh-frecency/") text then Some (lit "dsh-frecency")
  else if starts_with (lit "dsh/") text then Some (lit "doge-shell")
  else None.
Definition add_package (l : list str) (text : str) : list str :=
  match package text with Some p => if mem_str p l then l else l ++ [p] | None => l end.
Definition add_command (commands : list str) (c : str) : list str := if mem_str c commands then commands else commands ++ [c].
Definition validation (paths : list str) : list str :=
  let texts := map slashes paths in
  let packages := fold_left add_package texts [] in
  let has_rust := existsb (ends_with (lit ".rs")) texts in
  let workspace := existsb (fun t => str_eqb t (lit "Cargo.toml") || str_eqb t (lit "Cargo.lock")) texts in
  let guidance := existsb (fun t => str_eqb t (lit "AGENTS.md") || starts_with (lit "docs/ai/") t || str_eqb t (lit "scripts/install-runtime-skills.sh")) texts in
  fold_left add_command
    ((if has_rust then [lit "cargo fmt --check"] else []) ++
     map (fun p => lit "cargo test -p " ++ p) (filter (fun p => mem_str p packages) (map lit ["dsh-builtin"; "doge-shell"; "dsh-openai"; "dsh-types"; "dsh-frecency"]%string)) ++
     (if workspace || (1 <? length packages) then [lit "cargo check --workspace"] else []) ++
     (if mem_str (lit "doge-shell") packages then [lit "cargo clippy -p doge-shell -- -D warnings"] else []) ++
     (if guidance then [lit "scripts/check-ai-guidance.sh"; lit "scripts/install-runtime-skills.sh --list";
                        lit "scripts/install-runtime-skills.sh --status --target codex --profile codex-core"] else []))
    [].

(** ** l.752-793: copies of a skill.  A file holds a text or cannot be read; a folder may not be listed; the rest are sockets and
    links that lead nowhere.  Links that lead somewhere are what they lead to. *)
Inductive node := File (content : option str) | Dir (es : list (str * node)) | Locked | Special.
Fixpoint visit (pre : list str) (n : node) : option (list (list str)) :=
  match n with
  | File _ => Some [pre]
  | Dir es =>
      (fix go (es : list (str * node)) := match es with
       | [] => Some []
       | (k, x) :: r => match visit (pre ++ [k]) x with Some a => match go r with Some b => Some (a ++ b) | None => None end | None => None end
       end) es
  | Locked => None
  | Special => Some []
  end.
(** the order of paths: name by name *)
Fixpoint path_leb (a b : list str) : bool :=
  match a, b with
  | [], _ => true
  | _ :: _, [] => false
  | x :: a', y :: b' => match Frecency_Model.str_cmp x y with Lt => true | Gt => false | Eq => path_leb a' b' end
  end.
Definition relative_files (n : node) : option (list (list str)) :=
  match n with Dir _ => option_map (Frecency_Model.sort path_leb) (visit [] n) | _ => None end.
Fixpoint entry (k : str) (es : list (str * node)) : option node :=
  match es with [] => None | (j, x) :: r => if str_eqb k j then Some x else entry k r end.
(** fs::read *)
Fixpoint read (n : node) (p : list str) : option str :=
  match p with
  | [] => match n with File c => c | _ => None end
  | k :: r => match n with Dir es => match entry k es with Some x => read x r | None => None end | _ => None end
  end.
Definition path_eq_dec : forall a b : list str, {a = b} + {a <> b} := list_eq_dec str_eq_dec.
Definition skill_dirs_match (source dest : node) : bool :=
  match relative_files source, relative_files dest with
  | Some a, Some b =>
      if list_eq_dec path_eq_dec a b
      then forallb (fun p => match read source p, read dest p with Some x, Some y => str_eqb x y | _, _ => false end) a
      else false
  | _, _ => false
  end.
