(** The settings of the AI service and the requests sent to it: dsh-openai/src/config.rs and client.rs, with the
    commands chat_prompt and chat_model, dsh-builtin/src/chatgpt.rs l.235-353, and the instructions l.511-552.

    JSON values are those of Chat_Model.  The connection itself, its timeout and its cancellation are left out: a request is
    its address, its key and its body. *)
From Verif Require Import Base Env_Model Chat_Model.

(** ** config.rs *)
Definition slash : char := 47%N.
Fixpoint drop_slashes (r : str) : str := match r with c :: r' => if (c =? slash)%N then drop_slashes r' else r | [] => [] end.
(** str::trim_end_matches('/') *)
Definition trim_slashes (s : str) : str := rev (drop_slashes (rev s)).
(** l.2, l.5 without its slash, l.8, l.9 *)
Definition path : str := lit "chat/completions".
Definition default_base : str := lit "https://api.openai.com/v1".
Definition default_model : str := lit "gpt-5-mini".
Definition ALLOW_HTTP : str := lit "AI_CHAT_ALLOW_INSECURE_HTTP".

Record settings := Settings { key : option str; base : str; model : str }.
(** l.70-78: the variable is looked up in the environment of the process *)
Definition http_allowed (process : map_) : bool :=
  match assoc ALLOW_HTTP process with
  | Some v => mem_str (lower (trim v)) [lit "1"; lit "true"; lit "yes"; lit "on"]
  | None => false
  end.
(** l.69-98 sanitize_base_url *)
Definition sanitize (process : map_) (u : option str) : str :=
  let s := match u with Some v => match trim v with [] => default_base | t => trim_slashes t end | None => default_base end in
  if http_allowed process || starts_with (lit "https://") s then s else default_base.
(** l.18-35 OpenAiConfig::new *)
Definition configure (process : map_) (k u m : option str) : settings :=
  Settings k (sanitize process u) (match m with Some v => match trim v with [] => default_model | _ => v end | None => default_model end).
Definition or_else {A} (a b : option A) : option A := match a with Some _ => a | None => b end.
(** l.37-47 from_getter *)
Definition from_getter (process : map_) (get : str -> option str) : settings :=
  configure process
    (or_else (get (lit "AI_CHAT_API_KEY")) (or_else (get (lit "OPENAI_API_KEY")) (get (lit "OPEN_AI_API_KEY"))))
    (or_else (get (lit "AI_CHAT_BASE_URL")) (get (lit "OPENAI_BASE_URL")))
    (or_else (get (lit "AI_CHAT_MODEL")) (get (lit "OPENAI_MODEL"))).
(** l.100-107 build_chat_endpoint *)
Definition endpoint (s : settings) : str :=
  let t := trim_slashes (base s) in if ends_with path t then t else t ++ [slash] ++ path.

(** ** client.rs *)
Record request := Request { url : str; bearer : str; body : value }.
(** l.242-295 request_builder_from_messages, with try_from_config l.57-70; a temperature is its JSON text *)
Definition build (s : settings) (messages : list value) (temperature : option str) (m : option str) (tools : option (list value)) : option request :=
  match key s with
  | None => None
  | Some k =>
      let chosen := match m with Some x => x | None => model s end in
      let t := if str_eqb chosen (lit "gpt-5-mini") then Some (lit "1.0") else temperature in
      Some (Request (endpoint s) k
        (Obj ([(lit "model", Str chosen); (lit "messages", Arr messages)] ++
              match t with Some x => [(lit "temperature", Scalar x)] | None => [] end ++
              match tools with Some l => [(lit "tools", Arr l)] | None => [] end)))
  end.
(** l.297-307 build_messages *)
Definition build_messages (content : str) (prompt : option str) : list value :=
  match prompt with Some p => match trim p with [] => [] | t => [says "system" t] end | None => [] end ++ [says "user" content].
(** l.152-170 send_message_inner: the text of the answer *)
Definition text_of (data : value) : option str :=
  match message_of data with Some m => as_str (field "content" m) | None => None end.

(** ** chatgpt.rs *)
(** l.235-237 load_openai_config *)
Definition variable (e : env) (process : map_) (k : str) : option str := or_else (get_var e k) (assoc k process).
Definition load_config (e : env) (process : map_) : settings := from_getter process (variable e process).
Inductive told := Out (s : str) | Complaint (s : str).
(** proxy/mod.rs l.142-144 set_var *)
Definition set_var (k v : str) (e : env) : env := set_variables e (insert k v (variables e)).
(** l.303-316 chat_prompt; the status is that of the answer *)
Definition chat_prompt (args : list str) (e : env) : told * env :=
  match args with
  | [] => (Complaint (lit "Usage: chat_prompt <prompt_text>"), e)
  | p :: _ => (Out (lit "Chat prompt set to: " ++ p), set_var (lit "CHAT_PROMPT") p e)
  end.
(** l.329-353 chat_model *)
Definition chat_model (args : list str) (e : env) (process : map_) : told * env :=
  match args with
  | [] => (Out (lit "Current OpenAI model: " ++ model (load_config e process)), e)
  | [m] => (Out (lit "OpenAI model set to: " ++ m), set_var (lit "AI_CHAT_MODEL") m e)
  | _ => (Complaint (lit "Usage: chat_model [model_name]"), e)
  end.
(** l.511-552 build_system_prompt; [base] are the built-in instructions with the skills, [servers] what is said of the servers *)
Definition instructions (base : str) (servers prompt language : option str) : str :=
  base ++
  match servers with Some f => [10; 10]%N ++ lit "MCP access:" ++ 10%N :: f | None => [] end ++
  match prompt with Some p => match trim p with [] => [] | t => [10; 10]%N ++ lit "Additional operator instructions:" ++ 10%N :: t end | None => [] end ++
  match language with Some l => match trim l with [] => [] | t => [10; 10]%N ++ lit "IMPORTANT: You MUST respond in " ++ t ++ lit "." end | None => [] end.
(** l.240-285: what a chat begins with: a complaint, or its settings and the texts of its pinned messages *)
Definition begin (e : env) (process : map_) (base : str) (servers : option str) (message : str) : option (settings * str * str) :=
  match trim message with
  | [] => None
  | _ =>
      let s := load_config e process in
      match key s with
      | None => None
      | Some _ => Some (s, instructions base servers (get_var e (lit "CHAT_PROMPT")) (get_var e (lit "AI_MESSAGE_LANG")), message)
      end
  end.
