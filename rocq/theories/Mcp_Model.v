(** The servers of external tools (MCP) and the names of their tools:
    dsh-builtin/src/chatgpt/mcp/mod.rs, dsh/src/environment/mcp.rs, dsh/src/shell/mod.rs l.261-299.

    A tool is its name: descriptions and schemas are left out.  What a server answers when its tools are
    listed is an oracle of each operation.  [build_from_servers] (l.562-706) with its cache serves
    the chat and is modelled in Chat_Model.  The worker threads are waited for, so an operation is one step. *)
From Verif Require Import Base Dmv_Model Frecency_Model.
From Verif Require Lread_Model.

(** ** Names *)
Definition underscore : char := 95%N.
(** u8::is_ascii_alphanumeric *)
Definition alnum (c : char) : bool := ((48 <=? c) && (c <=? 57) || (65 <=? c) && (c <=? 90) || (97 <=? c) && (c <=? 122))%N.
Definition word_char (c : char) : char := if alnum c then lower_char c else underscore.
(** l.1058-1060: while it contains two underscores, they are replaced by one.  The fuel is the length *)
Fixpoint collapse (fuel : nat) (s : str) : str :=
  match fuel with
  | 0 => s
  | S f => if contains (lit "__") s then collapse f (replace (lit "__") (lit "_") s) else s
  end.
(** str::trim_matches('_') *)
Fixpoint drop_underscores (s : str) : str :=
  match s with c :: r => if (c =? underscore)%N then drop_underscores r else s | [] => [] end.
Definition trim_underscores (s : str) : str := rev (drop_underscores (rev (drop_underscores s))).
(** l.1045-1068 sanitize_identifier *)
Definition sanitize_identifier (input : str) : str :=
  let r := map word_char input in
  let r := match r with [] => lit "x" | _ => r end in
  let r := collapse (length r) r in
  match trim_underscores r with [] => lit "mcp_tool" | t => t end.
(** l.1070-1084 unique_name; the counter is an i32 there.  The fuel is the number of names in use *)
Definition numbered (base : str) (n : N) : str := base ++ lit "_" ++ Lread_Model.show_nat n.
Fixpoint next_name (fuel : nat) (base : str) (used : list str) (counter : N) : str :=
  match fuel with
  | 0 => numbered base counter
  | S f => if mem_str (numbered base counter) used then next_name f base used (N.succ counter) else numbered base counter
  end.
Definition unique_name (base : str) (used : list str) : str :=
  if mem_str base used then next_name (length used) base used 2 else base.
(** l.671-675, l.853-857 *)
Definition base_name (label tool : str) : str := lit "mcp__" ++ sanitize_identifier label ++ lit "__" ++ sanitize_identifier tool.

Section Mcp.
(** dsh-types/src/mcp.rs McpTransport: how a server is reached, and its equality *)
Variable transport : Type.
Variable same : transport -> transport -> bool.
(** McpServerConfig; McpServer l.59-65; ToolBinding l.138-143, with its name as the key *)
Record config := Config { label : str; about : option str; reach : transport }.
Record server := Server { conf : config; tools : list str }.
Definition name_of (s : server) : str := label (conf s).
Record binding := Binding { b_server : str; b_tool : str }.
(** l.164-173 McpManager; the table of names in the order of insertion *)
Record manager := Manager {
  servers : list server; bindings : list (str * binding); connected : list str; errors : list (str * str) }.
(** l.175-185 *)
Definition empty : manager := Manager [] [] [] [].

(** HashMap of labels *)
Fixpoint get {A} (l : list (str * A)) (k : str) : option A :=
  match l with [] => None | (x, a) :: r => if str_eqb x k then Some a else get r k end.
Definition without {A} (l : list (str * A)) (k : str) : list (str * A) := filter (fun p => negb (str_eqb (fst p) k)) l.
Definition forget (l : list str) (k : str) : list str := filter (fun x => negb (str_eqb x k)) l.

(** l.849-867: the tools of a server get their names *)
Fixpoint bind_tools (lbl : str) (ts : list str) (bs : list (str * binding)) : list (str * binding) :=
  match ts with
  | [] => bs
  | t :: r => bind_tools lbl r (bs ++ [(unique_name (base_name lbl t) (map fst bs), Binding lbl t)])
  end.
Definition known (m : manager) (lbl : str) : bool := existsb (fun s => str_eqb (name_of s) lbl) (servers m).
(** l.838-871 register_server; [None] is an error *)
Definition register (s : server) (m : manager) : option manager :=
  if known m (name_of s) then None
  else Some (Manager (servers m ++ [s]) (bind_tools (name_of s) (tools s) (bindings m)) (connected m) (errors m)).
(** l.811-836 load_server_tools: what the server at this address lists *)
Definition listing := transport -> option (list str).
(** l.714-721 add_server_blocking *)
Definition add (l : listing) (c : config) (m : manager) : option manager :=
  match l (reach c) with Some ts => register (Server c ts) m | None => None end.
(** l.723-735 remove_server *)
Definition remove (lbl : str) (m : manager) : manager :=
  if known m lbl then
    Manager (filter (fun s => negb (str_eqb (name_of s) lbl)) (servers m)) (filter (fun p => negb (str_eqb (b_server (snd p)) lbl)) (bindings m))
      (forget (connected m) lbl) (without (errors m) lbl)
  else m.
(** l.737-746 replace_server_blocking *)
Definition replace_server (l : listing) (c : config) (m : manager) : option manager :=
  match l (reach c) with Some ts => register (Server c ts) (remove (label c) m) | None => None end.
(** McpServerConfig: PartialEq *)
Definition same_config (a b : config) : bool :=
  str_eqb (label a) (label b) && match about a, about b with Some x, Some y => str_eqb x y | None, None => true | _, _ => false end && same (reach a) (reach b).
(** l.761-777: those without a label are skipped, and all but the first of each label *)
Fixpoint desired (seen : list str) (cs : list config) : list config :=
  match cs with
  | [] => []
  | c :: r =>
      match trim (label c) with
      | [] => desired seen r
      | _ => if mem_str (label c) seen then desired seen r else c :: desired (label c :: seen) r
      end
  end.
Definition by_label (a b : config) : bool := match str_cmp (label a) (label b) with Gt => false | _ => true end.
Definition config_of (m : manager) (lbl : str) : option config :=
  match List.find (fun s => str_eqb (name_of s) lbl) (servers m) with Some s => Some (conf s) | None => None end.
(** l.793-809: one desired server; [before] is the manager at the beginning *)
Definition sync_one (l : listing) (before : manager) (m : manager) (c : config) : manager :=
  match config_of before (label c) with
  | Some d => if same_config d c then m else match replace_server l c m with Some m' => m' | None => m end
  | None => match add l c m with Some m' => m' | None => m end
  end.
Definition wanted_label (cs : list config) (lbl : str) : bool := existsb (fun c => str_eqb (label c) lbl) cs.
(** l.754-810 sync_servers_blocking; the counts are left out.  The labels to remove are gone through in
    their order there, which no result depends on *)
Definition sync (l : listing) (cs : list config) (m : manager) : manager :=
  let want := desired [] cs in
  let gone := filter (fun x => negb (wanted_label want x)) (map name_of (servers m)) in
  fold_left (sync_one l m) (sort by_label want) (fold_left (fun m x => remove x m) gone m).

(** l.342-375 connect: [answer] is what the server answers, [None] is a success.  The result is
    whether there is such a server *)
Definition connect (lbl : str) (answer : option str) (m : manager) : manager :=
  if known m lbl then
    match answer with
    | None => Manager (servers m) (bindings m) (lbl :: forget (connected m) lbl) (without (errors m) lbl)
    | Some e => Manager (servers m) (bindings m) (connected m) ((lbl, e) :: without (errors m) lbl)
    end
  else m.
(** l.377-391 *)
Definition disconnect (lbl : str) (m : manager) : manager := Manager (servers m) (bindings m) (forget (connected m) lbl) (errors m).
Definition disconnect_all (m : manager) : manager := Manager (servers m) (bindings m) [] (errors m).
(** l.268-303 get_status of one server *)
Inductive status := Disconnected | Connected | Failed (e : str).
Definition status_of (m : manager) (lbl : str) : status :=
  if mem_str lbl (connected m) then Connected else match get (errors m) lbl with Some e => Failed e | None => Disconnected end.

(** l.488-537 execute_tool: [parse] is serde_json: not JSON, null, an object or something else *)
Inductive json := Bad | Null | Object (o : str) | Other.
Inductive outcome := Unbound | Error | Call (where_ : transport) (tool : str) (arguments : option str).
Definition execute (parse : str -> json) (m : manager) (name arguments : str) : outcome :=
  match get (bindings m) name with
  | None => Unbound
  | Some b =>
      let args := match trim arguments with [] => Null | _ => parse arguments end in
      match args with
      | Bad | Other => Error
      | Null | Object _ =>
          match List.find (fun s => str_eqb (name_of s) (b_server b)) (servers m) with
          | Some s => Call (reach (conf s)) (b_tool b) (match args with Object o => Some o | _ => None end)
          | None => Error
          end
      end
  end.

(** ** The shell: environment/mcp.rs and shell/mod.rs l.261-299 *)
Record shell := Shell { wanted : list config; mgr : manager }.
Inductive event :=
| Configure (cs : list config)            (* config.lisp evaluated: lisp/mod.rs l.109-116 and add_mcp_server in startup mode *)
| Add (l : listing) (c : config)          (* add_mcp_server, environment/mcp.rs l.13-24 *)
| Clear                                   (* clear_mcp_servers, l.8-10 *)
| Reload (l : listing)                    (* reload_mcp_config, shell/mod.rs l.261-299 *)
| Connect (lbl : str) (answer : option str) | Disconnect (lbl : str) | Disconnect_all.
Fixpoint same_configs (a b : list config) : bool :=
  match a, b with [], [] => true | x :: a', y :: b' => same_config x y && same_configs a' b' | _, _ => false end.
Definition step (s : shell) (e : event) : shell :=
  match e with
  | Configure cs => Shell cs (mgr s)
  | Add l c => Shell (wanted s ++ [c]) (match add l c (mgr s) with Some m => m | None => mgr s end)
  | Clear => Shell [] (mgr s)
  | Reload l => if same_configs (map conf (servers (mgr s))) (wanted s) then s else Shell (wanted s) (sync l (wanted s) (mgr s))
  | Connect lbl a => Shell (wanted s) (connect lbl a (mgr s))
  | Disconnect lbl => Shell (wanted s) (disconnect lbl (mgr s))
  | Disconnect_all => Shell (wanted s) (disconnect_all (mgr s))
  end.
Definition after (es : list event) : shell := fold_left step es (Shell [] empty).
End Mcp.
