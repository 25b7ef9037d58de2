(** The chat with its tools: dsh-builtin/src/chatgpt.rs, the dispatch of tools in chatgpt/tool/mod.rs l.26-75 and
    the servers loaded for a chat, chatgpt/mcp/mod.rs l.240-250 and l.572-706.

    What the model, the servers, the tools of the shell's own and the user answer are oracles that see
    everything that happened before.  The spinner and the cancellation of a request (a failed request) are left out. *)
From Verif Require Import Base Cut_Model Frecency_Model Mcp_Model.
From Verif Require Lread_Model.

(** ** serde_json::Value.  Null, booleans and numbers have no parts *)
Inductive value := Str (s : str) | Arr (l : list value) | Obj (f : list (str * value)) | Scalar (repr : str).
Fixpoint lookup (k : str) (f : list (str * value)) : option value :=
  match f with [] => None | (x, v) :: r => if str_eqb x k then Some v else lookup k r end.
(** Value::get with a name *)
Definition field (k : string) (v : value) : option value := match v with Obj f => lookup (lit k) f | _ => None end.
Definition as_str (v : option value) : option str := match v with Some (Str s) => Some s | _ => None end.
Definition as_array (v : option value) : option (list value) := match v with Some (Arr l) => Some l | _ => None end.
Definition or_empty (o : option str) : str := match o with Some s => s | None => [] end.

(** l.753-776 collect_text_segments *)
Fixpoint segments (v : value) : list str :=
  match v with
  | Str [] => []
  | Str t => [t]
  | Arr l => flat_map segments l
  | Obj f =>
      let at_ := fun k => (fix go (g : list (str * value)) : list str :=
                             match g with [] => [] | (x, w) :: r => if str_eqb x k then segments w else go r end) f in
      at_ (lit "text") ++ at_ (lit "content") ++ at_ (lit "value")
  | Scalar _ => []
  end.
(** l.739-751 extract_message_content *)
Definition content_of (m : value) : option str :=
  match field "content" m with
  | None => None
  | Some c => let all := concat (segments c) in match trim all with [] => None | _ => Some all end
  end.
(** a response's first choice and its message: l.426-434, l.169-177 *)
Definition choice_of (r : value) : option value := match as_array (field "choices" r) with Some (c :: _) => Some c | _ => None end.
Definition message_of (r : value) : option value := match choice_of r with Some c => field "message" c | None => None end.
Definition says (role : string) (text : str) : value := Obj [(lit "role", Str (lit role)); (lit "content", Str text)].
(** l.462-466 *)
Definition tool_message (id text : str) : value := Obj [(lit "role", Str (lit "tool")); (lit "tool_call_id", Str id); (lit "content", Str text)].
Definition calls_of (m : value) : option (list value) := as_array (field "tool_calls" m).
Definition id_of (call : value) : str := or_empty (as_str (field "id" call)).

(** ** The servers of external tools: mcp/mod.rs l.572-706 build_from_servers *)
Section Load.
Variable transport : Type.
Notation config := (config transport).
Notation server := (server transport).
(** hash_server_config l.104-140, and the file of known tools l.68-101 *)
Variable hash : config -> N.
Record entry := Entry { of_hash : N; its_tools : list str }.
Definition cache := list (str * entry).
(** l.601-628: one server; the flag tells whether it was asked *)
Definition load_one (l : listing transport) (known_ : cache) (c : config) : option (server * bool) :=
  match (match get known_ (label _ c) with Some e => if (of_hash e =? hash c)%N then Some (its_tools e) else None | None => None end) with
  | Some ts => Some (Server _ c ts, false)
  | None => match l (reach _ c) with Some ts => Some (Server _ c ts, true) | None => None end
  end.
(** l.630-676: all servers are asked with the cache as it was read; then it is updated *)
Definition remember (k : cache) (s : server * bool) : cache :=
  if snd s then (label _ (conf _ (fst s)), Entry (hash (conf _ (fst s))) (tools _ (fst s))) :: without k (label _ (conf _ (fst s))) else k.
Definition loaded (l : listing transport) (k : cache) (cs : list config) : list (server * bool) :=
  flat_map (fun c => match load_one l k c with Some s => [s] | None => [] end) (desired _ [] cs).
Definition load_cache (l : listing transport) (k : cache) (cs : list config) : cache := fold_left remember (loaded l k cs) k.
(** l.678-704: the names *)
Definition bind_all (ss : list server) : list (str * binding) := fold_left (fun bs s => bind_tools (label _ (conf _ s)) (tools _ s) bs) ss [].
Definition load (l : listing transport) (k : cache) (cs : list config) : manager transport :=
  let ss := map fst (loaded l k cs) in Manager _ ss (bind_all ss) [] [].
End Load.

(** ** One tool call: tool/mod.rs l.26-75 *)
Inductive result := Ok (s : str) | Err (e : str).
Inductive event transport :=
| Asked (ms : list value)                                       (* a request to the model *)
| Summed (ms : list value)                                      (* a request for a summary *)
| Shown (line : str)                                            (* a line on the terminal *)
| Question (q : str)                                            (* the user is asked *)
| Called (w : transport) (tool : str) (args : option str)       (* a server's tool is called *)
| Own (tool args : str)                                         (* a tool of the shell's own is run *)
| Heard (m : value)                                             (* the model's message is taken down *)
| Told (id text : str).                                         (* a tool's result is taken down *)
Arguments Asked {transport}. Arguments Summed {transport}. Arguments Shown {transport}. Arguments Question {transport}.
Arguments Called {transport}. Arguments Own {transport}. Arguments Heard {transport}. Arguments Told {transport}.

Section Chat.
Variable transport : Type.
Notation trace := (list (event transport)).
Variable mcp : manager transport.
Variable parse : str -> json.
(** what is answered, given all that happened before and the question itself as the last event *)
Variable yes : trace -> option bool.              (* confirm_action; None is an error *)
Variable tool_answer : trace -> result.           (* by a server or a tool of the shell's own *)
Variable complaint : str -> str.                  (* the text of an error *)
Variable reply : trace -> option value.           (* by the model *)
Variable context : trace -> str.                  (* build_dynamic_context l.554-556 *)
Variable size : value -> N.                       (* message_serialized_len l.227-229 *)
Variable system user : str.                       (* the two pinned messages' texts *)

Definition own_tools : list str := map lit ["edit"; "execute"; "ls"; "read_file"; "search"]%string.
Definition shown_line (name args : str) : str :=
  27%N :: lit "[36m" ++ 128295%N :: lit " [Tool] " ++ name ++ lit " (" ++ truncate_args args ++ lit ")" ++ 27%N :: lit "[0m".
Definition question (name : str) : str := lit "AI wants to call MCP tool: `" ++ name ++ lit "`. " ++ [13; 10]%N ++ lit "Proceed?".
Definition tool_call (tr : trace) (call : value) : trace * result :=
  match field "function" call with
  | None => (tr, Err (lit "chat: tool call missing function"))
  | Some f =>
      match as_str (field "name" f) with
      | None => (tr, Err (lit "chat: tool call missing function name"))
      | Some name =>
          let args := or_empty (as_str (field "arguments" f)) in
          let tr := tr ++ [Shown (shown_line name args)] in
          if mem_str name (map fst (bindings _ mcp)) then
            let tr := tr ++ [Question (question name)] in
            match yes tr with
            | None => (tr, Err (complaint name))
            | Some false => (tr, Ok (lit "MCP tool execution cancelled by user."))
            | Some true =>
                match execute _ parse mcp name args with
                | Call _ w t a =>
                    let tr := tr ++ [Called w t a] in
                    match tool_answer tr with Ok s => (tr, Ok (truncate_output s)) | Err e => (tr, Err e) end
                | _ => (tr, Err (complaint name))
                end
            end
          else if mem_str name own_tools then
            let tr := tr ++ [Own name args] in
            match tool_answer tr with Ok s => (tr, Ok (truncate_output s)) | Err e => (tr, Err e) end
          else (tr, Err (lit "chat: unsupported tool `" ++ name ++ lit "`"))
      end
  end.
(** l.454-459 *)
Definition result_text (r : result) : str :=
  match r with Ok s => s | Err e => lit "Error: " ++ e ++ 10%N :: lit "Please analyze the error and retry with corrected arguments." end.

(** ** The conversation: l.45-216, l.227-233 *)
Record talk := Talk { summary : option str; buffer : list value; chars : N }.
Definition sum_sizes (l : list value) : N := fold_left (fun n m => (n + size m)%N) l 0%N.
(** l.64-67 *)
Definition note (m : value) (t : talk) : talk := Talk (summary t) (buffer t ++ [m]) (chars t + size m).
(** l.73-75, with MAX_BUFFER_CHARS l.20 *)
Definition too_long (t : talk) : bool := (96000 <? chars t)%N.
(** l.112-149: a message for the summary *)
Definition call_text (c : value) : list str :=
  match field "function" c with
  | Some f => match as_str (field "name" f) with
              | Some n => [n ++ lit "(" ++ match as_str (field "arguments" f) with Some a => a | None => lit "{}" end ++ lit ")"]
              | None => []
              end
  | None => []
  end.
Definition summary_line (m : value) : str :=
  match as_str (field "role" m) with Some r => r | None => lit "unknown" end ++ lit ": " ++ or_empty (content_of m) ++
  match calls_of m with
  | Some cs => match flat_map call_text cs with [] => [] | ns => lit " [Called: " ++ join_with (lit ", ") ns ++ lit "]" end
  | None => []
  end.
Variable summarizer : str.                        (* the instructions for the summary, l.94-107 *)
Definition summary_request (t : talk) : list value :=
  [says "system" summarizer;
   says "user" (lit "Current Summary:" ++ 10%N :: match summary t with Some s => s | None => lit "None" end ++ [10; 10]%N ++
                lit "Recent Messages to Integrate:" ++ 10%N :: join_with [10; 10]%N (map summary_line (buffer t)))].
(** l.77-190 perform_summary, with RETAIN_AFTER_SUMMARY = 6 *)
Definition summarise (tr : trace) (t : talk) : trace * option talk :=
  let tr := tr ++ [Summed (summary_request t)] in
  match reply tr with
  | None => (tr, None)
  | Some r =>
      match message_of r with
      | None => (tr, None)
      | Some m =>
          match content_of m with
          | None => (tr, None)
          | Some s => let kept := skipn (length (buffer t) - 6) (buffer t) in (tr, Some (Talk (Some s) kept (sum_sizes kept)))
          end
      end
  end.
(** l.389-396: while the buffer is too long; the flag is false when the fuel runs out *)
Fixpoint shrink (fuel : nat) (tr : trace) (t : talk) : bool * trace * talk :=
  if too_long t then
    match fuel with
    | 0 => (false, tr, t)
    | S f => let '(tr', r) := summarise tr t in match r with Some t' => shrink f tr' t' | None => (true, tr', t) end
    end
  else (true, tr, t).
(** l.192-215 build_messages_for_chat *)
Definition messages (t : talk) (ctx : str) : list value :=
  [says "system" system; says "user" ctx; says "user" user] ++
  match summary t with
  | Some s => [says "system" (lit "## Previous Conversation Summary" ++ 10%N :: lit "The following is a summary of the earlier conversation. Use this to maintain context." ++ [10; 10]%N ++ s)]
  | None => []
  end ++ buffer t.
(** l.447-467: the calls of one message *)
Fixpoint run_calls (calls : list value) (tr : trace) (t : talk) : trace * talk :=
  match calls with
  | [] => (tr, t)
  | c :: rest =>
      let '(tr, r) := tool_call tr c in
      run_calls rest (tr ++ [Told (id_of c) (result_text r)]) (note (tool_message (id_of c) (result_text r)) t)
  end.
Inductive outcome := Answer (s : str) | Failed | Too_many | Endless.
(** l.383-485: [n] rounds are left; [fuel] bounds the summaries of a round *)
Fixpoint rounds (n fuel : nat) (tr : trace) (t : talk) : outcome * trace :=
  match n with
  | 0 => (Too_many, tr)
  | S n' =>
      match shrink fuel tr t with
      | (false, tr, _) => (Endless, tr)
      | (true, tr, t) =>
          let tr := tr ++ [Asked (messages t (context tr))] in
          match reply tr with
          | None => (Failed, tr)
          | Some r =>
              match message_of r with
              | None => (Failed, tr)
              | Some m =>
                  let tr := tr ++ [Heard m] in
                  let t := note m t in
                  match calls_of m with
                  | Some calls => let '(tr, t) := run_calls calls tr t in rounds n' fuel tr t
                  | None =>
                      if match as_str (match choice_of r with Some c => field "finish_reason" c | None => None end) with Some f => str_eqb f (lit "tool_calls") | None => false end
                      then rounds n' fuel tr t
                      else match content_of m with Some s => (Answer s, tr) | None => (Failed, tr) end
                  end
              end
          end
      end
  end.
(** l.355-381, with MAX_TOOL_ITERATIONS = 100 (l.18) *)
Definition chat (fuel : nat) : outcome * trace := rounds 100 fuel [] (Talk None [] 0).
End Chat.

(** ** The snapshot of the surroundings: l.558-661 *)
(** l.592-611, with MAX_VISIBLE_ALIASES = 8 *)
Definition summarize_aliases (aliases : list (str * str)) : str :=
  match aliases with
  | [] => lit "none"
  | _ =>
      let sorted := sort (fun a b : str * str => match str_cmp (fst a) (fst b) with Gt => false | _ => true end) aliases in
      let total := length aliases in
      join_with (lit ", ") (map (fun p : str * str => fst p ++ lit "='" ++ snd p ++ lit "'") (firstn 8 sorted) ++
                            (if 8 <? total then [lit "(+" ++ Lread_Model.show_nat (N.of_nat (total - 8)) ++ lit " more)"] else []))
  end.
(** l.627-642: binary_search_by in a sorted list: the place of an equal name, or where it belongs; of several equal names
    (two names that are not text can read the same) the first is taken *)
Fixpoint place (name : str) (preview : list (str * bool)) : nat :=
  match preview with
  | [] => 0
  | (x, _) :: r => match str_cmp x name with Lt => S (place name r) | _ => 0 end
  end.
Definition insert_at {A} (i : nat) (x : A) (l : list A) : list A := firstn i l ++ x :: skipn i l.
Definition insert_visible (limit : nat) (preview : list (str * bool)) (entry : str * bool) : list (str * bool) :=
  let i := place (fst entry) preview in
  if length preview <? limit then insert_at i entry preview
  else if i <? limit then firstn limit (insert_at i entry preview)
  else preview.
(** l.613-625, with MAX_VISIBLE_FILES = 12 *)
Definition preview (entries : list (str * bool)) : list (str * bool) := fold_left (insert_visible 12) entries [].
(** l.644-661 *)
Definition summarize_entries (shown : list (str * bool)) (total : nat) : str :=
  match total with
  | 0 => []
  | _ => join_with (lit ", ") (map (fun p : str * bool => if snd p then fst p ++ lit "/" else fst p) shown ++
                               (if length shown <? total then [lit "(+" ++ Lread_Model.show_nat (N.of_nat (total - length shown)) ++ lit " more)"] else []))
  end.
(** l.558-590; [entries] is [None] if the directory cannot be read *)
Definition snapshot (family os arch cwd git : str) (entries : option (list (str * bool))) (aliases : list (str * str)) : str :=
  let files := match entries with
               | Some es => match summarize_entries (preview es) (length es) with [] => [] | s => 10%N :: lit "- Visible files: " ++ s end
               | None => []
               end in
  lit "- OS family: " ++ family ++ 10%N :: lit "- OS: " ++ os ++ 10%N :: lit "- Architecture: " ++ arch ++ 10%N :: lit "- Current directory: " ++ cwd ++
  10%N :: lit "- Git: " ++ git ++ files ++ lit "- Aliases: " ++ summarize_aliases aliases.
