(** Generating a completion with the AI service: dsh-builtin/src/comp_gen.rs, and reading the file back:
    the types of dsh/src/completion/command.rs l.1-135 as serde derives their decoding.

    Parsing a text as JSON, the programs that are run and the AI service are oracles.  The wording of error
    messages is left out. *)
From Verif Require Import Base Comp_Model Loader_Model.
From Verif Require Offer_Model.

(** serde_json::Value as it is written: the fields of an object in their order, the same name perhaps twice *)
Inductive json := Null | Bool (b : bool) | Num (text : str) | Str (s : str) | Arr (l : list json) | Obj (m : list (str * json)).
(** Map::get: of two fields with one name the last counts *)
Fixpoint get (m : list (str * json)) (k : str) : option json :=
  match m with
  | [] => None
  | (k', v) :: r => match get r k with Some x => Some x | None => if str_eqb k' k then Some v else None end
  end.
Definition opt_true {A} (f : A -> bool) (o : option A) : bool := match o with Some x => f x | None => true end.
Definition is_bool (j : json) : bool := match j with Bool _ => true | _ => false end.
Definition is_str (j : json) : bool := match j with Str _ => true | _ => false end.
Definition blank (s : str) : bool := match trim s with [] => true | _ => false end.

(** ** The check before saving: comp_gen.rs l.213-397 *)
(** l.246-254 require_non_empty_string *)
Definition require (o : option json) : option str :=
  match o with Some (Str s) => if blank s then None else Some s | _ => None end.
Definition required (o : option json) : bool := match require o with Some _ => true | None => false end.
(** l.256-275 optional_string: refused, none or a text *)
Definition optional (o : option json) : option (option str) :=
  match o with
  | None | Some Null => Some None
  | Some (Str s) => if blank s then None else Some (Some s)
  | Some _ => None
  end.
(** l.361-397 validate_argument_type *)
Definition check_type (j : json) : bool :=
  match j with
  | Obj m =>
      match require (get m (lit "type")) with
      | Some t =>
          negb (str_eqb t (lit "Script")) &&
          (if str_eqb t (lit "Choice") then match get m (lit "data") with Some (Arr l) => forallb is_str l | _ => false end else true) &&
          (if str_eqb t (lit "File") then
             opt_true (fun d => match d with
                                | Obj dm => opt_true (fun e => match e with Arr l => forallb is_str l | _ => false end) (get dm (lit "extensions"))
                                | _ => false
                                end) (get m (lit "data"))
           else true)
      | None => false
      end
  | _ => false
  end.
(** l.277-302 validate_options_array *)
Definition check_option (j : json) : bool :=
  match j with
  | Obj m =>
      match optional (get m (lit "short")), optional (get m (lit "long")) with
      | Some None, Some None => false
      | Some _, Some _ => opt_true is_bool (get m (lit "takes_value")) && opt_true check_type (get m (lit "value_type"))
      | _, _ => false
      end
  | _ => false
  end.
Definition check_options (j : json) : bool := match j with Arr l => forallb check_option l | _ => false end.
(** l.304-332 validate_arguments_array *)
Definition check_argument (j : json) : bool :=
  match j with
  | Obj m => required (get m (lit "name")) && opt_true check_type (get m (lit "type")) &&
             opt_true is_bool (get m (lit "required")) && opt_true is_bool (get m (lit "multiple"))
  | _ => false
  end.
Definition check_arguments (j : json) : bool := match j with Arr l => forallb check_argument l | _ => false end.
(** l.334-359 validate_subcommands_array; the inner recursion is [get] over the fields, with the check made on what it finds *)
Fixpoint check_sub (j : json) : bool :=
  match j with
  | Obj m =>
      required (get m (lit "name")) && opt_true check_options (get m (lit "options")) && opt_true check_arguments (get m (lit "arguments")) &&
      match (fix find (m : list (str * json)) : option bool :=
               match m with
               | [] => None
               | (k, v) :: r =>
                   match find r with
                   | Some b => Some b
                   | None => if str_eqb k (lit "subcommands")
                             then Some match v with
                                       | Arr l => (fix all (l : list json) : bool := match l with [] => true | x :: r => check_sub x && all r end) l
                                       | _ => false
                                       end
                             else None
                   end
               end) m with
      | Some b => b
      | None => true
      end
  | _ => false
  end.
Definition check_subs (j : json) : bool := match j with Arr l => forallb check_sub l | _ => false end.
(** l.213-244 validate_completion_json, of a text that is JSON *)
Definition check (j : json) (name : str) : bool :=
  match j with
  | Obj m =>
      match require (get m (lit "command")) with Some c => str_eqb c name | None => false end &&
      opt_true check_options (get m (lit "global_options")) && opt_true check_arguments (get m (lit "arguments")) && opt_true check_subs (get m (lit "subcommands"))
  | _ => false
  end.

(** ** Reading a definition: what serde makes of the types of command.rs.
    A field of the type that stands twice is an error, a field it does not have is passed over.
    A structure written as an array of its fields, which serde takes too, is left out. *)
Fixpoint count (m : list (str * json)) (k : str) : nat :=
  match m with [] => 0 | (k', _) :: r => (if str_eqb k' k then 1 else 0) + count r k end.
Definition once (m : list (str * json)) (ks : list str) : bool := forallb (fun k => count m k <=? 1) ks.
Fixpoint traverse {A B} (f : A -> option B) (l : list A) : option (list B) :=
  match l with
  | [] => Some []
  | x :: r => match f x, traverse f r with Some y, Some ys => Some (y :: ys) | _, _ => None end
  end.
Definition dec_str (j : json) : option str := match j with Str s => Some s | _ => None end.
Definition dec_bool (j : json) : option bool := match j with Bool b => Some b | _ => None end.
Definition dec_list {A} (f : json -> option A) (j : json) : option (list A) := match j with Arr l => traverse f l | _ => None end.
(** Option<T>: absent and null are none *)
Definition dec_opt {A} (f : json -> option A) (o : option json) : option (option A) :=
  match o with None | Some Null => Some None | Some j => match f j with Some x => Some (Some x) | None => None end end.
(** #[serde(default)] *)
Definition dec_default {A} (d : A) (f : json -> option A) (o : option json) : option A := match o with None => Some d | Some j => f j end.
(** String, required *)
Definition dec_field {A} (f : json -> option A) (o : option json) : option A := match o with None => None | Some j => f j end.

Definition unit_types : list str :=
  map lit ["Directory"; "String"; "Number"; "Command"; "Environment"; "Url"; "Regex"; "Process"; "User"; "Group"; "Signal"; "Interface"]%string.
Fixpoint index (k : str) (l : list str) : option nat :=
  match l with [] => None | x :: r => if str_eqb x k then Some 0 else option_map S (index k r) end.
(** l.96-135 ArgumentType, #[serde(tag = "type", content = "data")]; a variant that has contents must have them, one that has none may say null *)
Definition dec_type (j : json) : option arg_type :=
  match j with
  | Obj m =>
      if once m [lit "type"; lit "data"] then
        match get m (lit "type") with
        | Some (Str t) =>
            let data := get m (lit "data") in
            let unit_ (ty : arg_type) := match data with None | Some Null => Some ty | Some _ => None end in
            if str_eqb t (lit "File") then
              match data with
              | Some (Obj dm) => if once dm [lit "extensions"]
                                 then match dec_opt (dec_list dec_str) (get dm (lit "extensions")) with Some _ => Some (Other_type 0) | None => None end
                                 else None
              | _ => None
              end
            else if str_eqb t (lit "Choice") then option_map Choice (dec_field (dec_list dec_str) data)
            else if str_eqb t (lit "Script") then option_map Script (dec_field dec_str data)
            else if str_eqb t (lit "CommandWithArgs") then unit_ Command_with_args
            else match index t unit_types with Some n => unit_ (Other_type (S n)) | None => None end
        | _ => None
        end
      else None
  | _ => None
  end.
(** l.80-94 Argument, with its name *)
Definition dec_argument (j : json) : option (str * argument) :=
  match j with
  | Obj m =>
      if once m (map lit ["name"; "description"; "multiple"; "type"]%string) then
        match dec_field dec_str (get m (lit "name")), dec_opt dec_str (get m (lit "description")),
              dec_default false dec_bool (get m (lit "multiple")), dec_opt dec_type (get m (lit "type")) with
        | Some n, Some _, Some b, Some t => Some (n, Argument b t)
        | _, _, _, _ => None
        end
      else None
  | _ => None
  end.
(** l.43-61 CommandOption *)
Definition dec_option (j : json) : option coption :=
  match j with
  | Obj m =>
      if once m (map lit ["short"; "long"; "description"; "takes_value"; "value_type"; "argument"]%string) then
        match dec_opt dec_str (get m (lit "short")), dec_opt dec_str (get m (lit "long")), dec_opt dec_str (get m (lit "description")),
              dec_default false dec_bool (get m (lit "takes_value")), dec_opt dec_type (get m (lit "value_type")), dec_opt dec_argument (get m (lit "argument")) with
        | Some s, Some l, Some _, Some t, Some v, Some a => Some (Coption s l t v (option_map snd a))
        | _, _, _, _, _, _ => None
        end
      else None
  | _ => None
  end.
(** l.22-41 SubCommand; the inner recursion is [get] over the fields, with the decoding of what it finds *)
Fixpoint dec_sub (j : json) : option subcommand :=
  match j with
  | Obj m =>
      let subs :=
        (fix find (m : list (str * json)) : option (option (list subcommand)) :=
           match m with
           | [] => None
           | (k, v) :: r =>
               match find r with
               | Some b => Some b
               | None => if str_eqb k (lit "subcommands")
                         then Some match v with
                                   | Arr l => (fix all (l : list json) : option (list subcommand) :=
                                                 match l with
                                                 | [] => Some []
                                                 | x :: r => match dec_sub x, all r with Some y, Some ys => Some (y :: ys) | _, _ => None end
                                                 end) l
                                   | _ => None
                                   end
                         else None
               end
           end) m in
      if once m (map lit ["name"; "description"; "aliases"; "options"; "arguments"; "subcommands"]%string) then
        match dec_field dec_str (get m (lit "name")), dec_opt dec_str (get m (lit "description")),
              dec_default [] (dec_list dec_str) (get m (lit "aliases")), dec_default [] (dec_list dec_option) (get m (lit "options")),
              dec_default [] (dec_list dec_argument) (get m (lit "arguments")), match subs with Some r => r | None => Some [] end with
        | Some n, Some _, Some al, Some os, Some ags, Some ss => Some (Sub n al os (map snd ags) ss)
        | _, _, _, _, _, _ => None
        end
      else None
  | _ => None
  end.
(** l.4-20 CommandCompletion *)
Definition decode (j : json) : option file :=
  match j with
  | Obj m =>
      if once m (map lit ["command"; "description"; "subcommands"; "global_options"; "arguments"]%string) then
        match dec_field dec_str (get m (lit "command")), dec_opt dec_str (get m (lit "description")),
              dec_default [] (dec_list dec_sub) (get m (lit "subcommands")), dec_default [] (dec_list dec_option) (get m (lit "global_options")),
              dec_default [] (dec_list dec_argument) (get m (lit "arguments")) with
        | Some c, Some _, Some ss, Some os, Some ags => Some (File c (Definition_ ss os (map snd ags)) (map fst ags))
        | _, _, _, _, _ => None
        end
      else None
  | _ => None
  end.

(** ** The command: comp_gen.rs l.20-211 *)
(** what is done: a program is run, the service is asked, something is written to stdout or stderr, a file is written *)
Inductive event := Man (command : str) | Help (command : str) | Ask (command help : str) | Out (s : str) | Err | Save (path text : str).
Definition nl : str := [10%N].
Definition usage : str := join_with nl (map lit
  ["Usage: comp-gen [--stdout] [--check] <command>"; ""; "Options:"; "  --stdout   Print generated JSON to stdout instead of saving";
   "  --check    Validate generated JSON and exit (no save)"; "  -h, --help Show this help message"; ""; "Notes:"; "  --stdout and --check are mutually exclusive."; ""]%string).
(** l.86-112 parse_args: --stdout, --check, the command *)
Fixpoint parse_args (args : list str) (out check : bool) (name : option str) : option (bool * bool * str) :=
  match args with
  | [] => match name with Some n => if out && check then None else Some (out, check, n) | None => None end
  | a :: r =>
      if str_eqb a (lit "--stdout") then parse_args r true check name
      else if str_eqb a (lit "--check") then parse_args r out true name
      else if str_eqb a (lit "-h") || str_eqb a (lit "--help") then parse_args r out check name
      else if starts_with (lit "-") a then None
      else match name with Some _ => None | None => parse_args r out check (Some a) end
  end.

Section Generate.
Variable parse : str -> option json.
(** the output of a program that ends with success *)
Variable man help : str -> option str.
(** what the AI service answers, if it does *)
Variable service : str -> str -> option str.
(** the directory of the configuration, dsh's own, if there is one that can be written *)
Variable config : option str.

(** l.172-203 get_help_text *)
Definition help_text (c : str) : str * list event :=
  let asked := match help c with Some t => t | None => [] end in
  match man c with
  | Some t => if blank t then (asked, [Man c; Help c]) else (t, [Man c])
  | None => (asked, [Man c; Help c])
  end.
(** l.205-211 log: Context::write_stdout ends the line *)
Definition log (to_stderr : bool) (s : str) : event := if to_stderr then Err else Out (s ++ nl).
(** l.114-150 generate_completion *)
Definition generate (c : str) (quiet : bool) : option str * list event :=
  let (h, ran) := help_text c in
  let before := log quiet (lit "Fetching help text for '" ++ c ++ lit "'...") :: ran in
  if blank h then (None, before)
  else
    let before := before ++ [log quiet (lit "Generating completion JSON via AI (this may take a moment)..."); Ask c h] in
    match service c h with
    | Some answer =>
        let text := Offer_Model.sanitize_code_block answer in
        match parse text with
        | Some j => if check j c then (Some text, before) else (None, before)
        | None => (None, before)
        end
    | None => (None, before)
    end.
(** l.152-170 save_completion_json *)
Definition place (dir c : str) : str := dir ++ lit "/completions/" ++ c ++ lit ".json".
(** l.20-66 command *)
Definition command (argv : list str) : nat * list event :=
  if existsb (fun a => str_eqb a (lit "--help") || str_eqb a (lit "-h")) argv then (0, [Out (usage ++ nl)])
  else
    match parse_args (tl argv) false false None with
    | None => (1, [Err; Err])
    | Some (out, check_only, c) =>
        match generate c out with
        | (Some text, es) =>
            if check_only then (0, es ++ [Out (lit "OK" ++ nl ++ nl)])
            else if out then (0, es ++ [Out (text ++ nl ++ nl)])
            else match config with
                 | Some dir => (0, es ++ [Save (place dir c) text; Out (lit "Completion generated and saved to " ++ place dir c ++ nl)])
                 | None => (1, es ++ [Err])
                 end
        | (None, es) => (1, es ++ [Err])
        end
    end.
End Generate.
