(** The grey text after the cursor: dsh/src/suggestion.rs (the engine and the AI backend with
    its worker), dsh/src/repl/repl_ai.rs (what the prompt asks them for).

    Time is in milliseconds.  The history is History_Model's; [None] stands for no history or
    for its lock being held.  The language model is whatever answers: an answer is a text, or
    [None] for a failed request or one without text.  Left out: the file list, the exit status
    and the cursor in a request, which are only printed into it, and shells without a key (no
    backend, and nothing is asked). *)
From Verif Require Import Base.
From Verif Require Token_Model History_Model Direnv_Model.

Definition is_nil {A} (l : list A) : bool := match l with [] => true | _ => false end.

Inductive source := FromHistory | FromAi | FromPath.
Record suggestion := Sugg { full : str; src : source }.
(** suggestion.rs l.78-83 *)
Record cached := Cached { c_input : str; c_state : suggestion; c_at : nat }.
(** l.64-68, l.88-97: a request; the history is the last commands *)
Record request := Request { r_input : str; r_cwd : option str; r_history : list str }.

(** ** What the model answers *)

(** str::trim_matches for a set of characters *)
Fixpoint drop_any (cs : str) (s : str) : str :=
  match s with c :: r => if mem_char c cs then drop_any cs r else s | [] => [] end.
Definition trim_any (cs s : str) : str := rev (drop_any cs (rev (drop_any cs s))).
(** what stands before the last occurrence of [p], as str::rfind finds it *)
Fixpoint before_last (p s : str) : option str :=
  match s with
  | [] => if is_nil p then Some [] else None
  | c :: r => match before_last p r with
              | Some b => Some (c :: b)
              | None => if starts_with p s then Some [] else None
              end
  end.
Fixpoint after_newline (s : str) : option str :=
  match s with c :: r => if (c =? 10)%N then Some r else after_newline r | [] => None end.
Definition fence : str := lit "```".
Definition quotes : str := [34%N; 39%N; 96%N].
(** l.776-799 sanitize_model_output *)
Definition unfence (t : str) : str :=
  if starts_with fence t then
    let stripped := skipn 3 t in
    match before_last fence stripped with
    | Some b => let inner := trim b in
                match after_newline inner with Some rest => trim rest | None => inner end
    | None => t
    end
  else t.
Definition sanitize_model_output (answer : str) : str :=
  match Direnv_Model.lines (trim_any quotes (unfence (trim answer))) with
  | l :: _ => trim l
  | [] => []
  end.
(** l.657-697 fetch_completion, given the text of the answer *)
Definition fetch_completion (r : request) (answer : option str) : option str :=
  match answer with
  | None => None
  | Some t =>
      if is_nil (r_input r) then Some t
      else let n := sanitize_model_output t in
           if is_nil n then None else if starts_with (r_input r) n then Some n else None
  end.

(** ** The backend: a mailbox for one request, and a worker *)

(** l.562-588: the worker looks into the mailbox, waits to be woken, or waits for the model *)
Inductive worker := Checking | Waiting | Fetching (r : request).
(** l.475-505; [permit] is the one wake-up tokio's Notify keeps *)
Record backend := Backend {
  answer : option (str * nat);
  context : option (list str * str * nat);
  inflight : bool;
  pending : option request;
  permit : bool;
  at_ : worker }.
Definition cache_ttl : nat := 8 * 1000.

Definition longer (input t : str) : bool := starts_with input t && (blen input <? blen t).
(** l.606-634 try_cached *)
Definition try_cached (now : nat) (b : backend) (r : request) : option str :=
  match match answer b with
        | Some (t, at_) => if (now - at_ <=? cache_ttl) && longer (r_input r) t then Some t else None
        | None => None
        end with
  | Some t => Some t
  | None =>
      match context b, r_cwd r with
      | Some (ts, dir, at_), Some cwd =>
          if str_eqb dir cwd && (now - at_ <=? cache_ttl) then find (longer (r_input r)) ts else None
      | _, _ => None
      end
  end.
(** l.636-648 enqueue *)
Definition enqueue (b : backend) (r : request) : backend :=
  if inflight b
  then Backend (answer b) (context b) true (Some r) (permit b) (at_ b)
  else Backend (answer b) (context b) true (Some r) true (at_ b).
(** l.718-729 predict *)
Definition backend_predict (now : nat) (b : backend) (r : request) : backend * option str :=
  match try_cached now b r with
  | Some t => (b, Some t)
  | None => (if is_nil (trim (r_input r)) then b else enqueue b r, None)
  end.
(** l.599-604 prefetch *)
Definition backend_prefetch (b : backend) (r : request) : backend :=
  if is_nil (r_input r) then enqueue b r else b.
(** l.731-735 is_pending *)
Definition is_pending (b : backend) : bool :=
  inflight b || match pending b with Some _ => true | None => false end.

(** l.570-588 next_request, one look into the mailbox under the lock *)
Definition worker_check (b : backend) : backend :=
  match pending b with
  | Some r => Backend (answer b) (context b) true None (permit b) (Fetching r)
  | None => Backend (answer b) (context b) false None (permit b) Waiting
  end.
(** l.586: woken up *)
Definition worker_wake (b : backend) : backend :=
  Backend (answer b) (context b) (inflight b) (pending b) false Checking.
(** l.650-686 handle_completion *)
Definition handle_completion (now : nat) (b : backend) (r : request) (c : option str) : backend :=
  let '(a, x) :=
    match c with
    | None => (answer b, context b)
    | Some t =>
        if is_nil (r_input r) then
          let ts := map trim (Direnv_Model.lines t) in
          (answer b, match ts with
                     | [] => context b
                     | _ => Some (ts, match r_cwd r with Some d => d | None => [] end, now)
                     end)
        else (Some (t, now), context b)
    end in
  match pending b with
  | Some _ => Backend a x true (pending b) true Checking
  | None => Backend a x false (pending b) (permit b) Checking
  end.

(** ** The engine *)
Record engine := Engine { ghost : bool; backfill : bool; history_cache : option cached; ai_cache : option cached }.
Definition history_ttl : nat := 350.
Definition ai_ttl : nat := 2000.
(** l.431-437 ttl_for *)
Definition ttl_for (s : source) : nat := match s with FromAi => ai_ttl | _ => history_ttl end.
(** l.417-429 use_cache *)
Definition use_cache (now : nat) (c : option cached) (input : str) : option suggestion :=
  match c with
  | Some k => if str_eqb (c_input k) input && longer input (full (c_state k)) && (now - c_at k <=? ttl_for (src (c_state k)))
              then Some (c_state k) else None
  | None => None
  end.
(** l.172-178 set_preferences *)
Definition set_preferences (e : engine) (g bf : bool) : engine :=
  if g then Engine g bf (history_cache e) (ai_cache e) else Engine g bf None None.
(** l.359-375 history_suggestion *)
Definition history_suggestion (h : option History_Model.history) (input : str) : option suggestion :=
  match h with
  | None => None
  | Some h => match History_Model.search_first h input with
              | Some t => if blen input <? blen t then Some (Sugg t FromHistory) else None
              | None => None
              end
  end.
(** l.439-462 collect_history_context, with command_history.rs l.587-594 *)
Definition history_context (h : option History_Model.history) : list str :=
  match h with None => [] | Some h => map History_Model.cmd (firstn 8 (rev (History_Model.hs h))) end.
Definition first_token (input : str) : option str :=
  match Token_Model.tokenize input Token_Model.Parser with t :: _ => Some (Token_Model.raw t) | [] => None end.
(** l.322-327 in_blocklist *)
Definition in_blocklist (input : str) : bool :=
  match first_token input with Some t => mem_str t [lit "gco"] | None => false end.

Section Engine.
(** completion of the last word as a path, given what names there are; [true] for cd *)
Variable path_prefix : str -> bool -> option str.
(** l.470-473 is_cd_path_context *)
Definition is_cd_path_context (input : str) (t : Token_Model.span) : bool :=
  match Token_Model.tokenize input Token_Model.Parser with
  | c :: _ => str_eqb (Token_Model.raw c) (lit "cd") && (Token_Model.byte_end c <? Token_Model.byte_start t)
  | [] => false
  end.
(** l.329-357 completion_suggestion.  The text before byte_start is the first char_start
    characters (C14). *)
Definition completion_suggestion (input : str) : option suggestion :=
  match Token_Model.token_at_char_cursor input (length input) Token_Model.CompletionRange with
  | None => None
  | Some t =>
      if is_nil (Token_Model.raw t) || negb (Token_Model.byte_end t =? blen input) then None
      else match path_prefix (Token_Model.raw t) (is_cd_path_context input t) with
           | Some c => let f := firstn (Token_Model.char_start t) input ++ c in
                       if str_eqb f input || negb (starts_with input f) then None else Some (Sugg f FromPath)
           | None => None
           end
  end.
(** l.388-415 ai_suggestion_with_context *)
Definition ai_suggestion (now : nat) (b : backend) (r : request) : backend * option suggestion :=
  let '(b', o) := backend_predict now b r in
  (b', match o with
       | Some t => if starts_with (r_input r) t then Some (Sugg t FromAi) else None
       | None => None
       end).
Definition same (a b : suggestion) : bool :=
  str_eqb (full a) (full b) && match src a, src b with FromHistory, FromHistory | FromAi, FromAi | FromPath, FromPath => true | _, _ => false end.
(** l.214-320 predict *)
Definition predict (now : nat) (e : engine) (b : backend) (input : str) (cursor : nat) (h : option History_Model.history)
    : engine * backend * list suggestion :=
  if negb (ghost e) || is_nil input then (Engine (ghost e) (backfill e) None None, b, [])
  else if length input <? cursor then (e, b, [])
  else
    let '(hc, found) :=
      match use_cache now (history_cache e) input with
      | Some s => (history_cache e, [s])
      | None => match history_suggestion h input with
                | Some s => (Some (Cached input s now), [s])
                | None => (None, [])
                end
      end in
    let found := match found with [] => match completion_suggestion input with Some s => [s] | None => [] end | _ => found end in
    match found with
    | _ :: _ => (Engine (ghost e) (backfill e) hc None, b, found)
    | [] =>
        if in_blocklist input || negb (backfill e) then (Engine (ghost e) (backfill e) hc None, b, [])
        else
          let old := match use_cache now (ai_cache e) input with Some s => [s] | None => [] end in
          let '(b', o) := ai_suggestion now b (Request input None (history_context h)) in
          match o with
          | Some s => (Engine (ghost e) (backfill e) hc (Some (Cached input s now)), b', if existsb (same s) old then old else old ++ [s])
          | None => (Engine (ghost e) (backfill e) hc (ai_cache e), b', old)
          end
    end.

(** repl_ai.rs l.70-128 refresh_inline_suggestion, without a completion of the history at the
    cursor and without what completion_suggestion of repl/completion.rs adds; mod.rs l.537-545
    sync_input_preferences.  [g], [bf] are the preferences as they are set now. *)
Definition refresh (now : nat) (e : engine) (b : backend) (g bf : bool) (input : str) (cursor : nat)
    (h : option History_Model.history) (cwd : str) : engine * backend * list suggestion :=
  let e := if Bool.eqb g (ghost e) && Bool.eqb bf (backfill e) then e else set_preferences e g bf in
  let '(e', b', found) := predict now e b input cursor h in
  match found with
  | [] => if bf then
            let '(b2, o) := ai_suggestion now b' (Request input (Some cwd) (history_context h)) in
            (e', b2, match o with Some s => [s] | None => [] end)
          else (e', b', [])
  | _ => (e', b', found)
  end.

(** ** Everything together, in any order *)
Record sys := Sys { eng : engine; back : backend; sent : list request }.
Inductive event :=
| Refresh (now : nat) (g bf : bool) (input : str) (cursor : nat) (h : option History_Model.history) (cwd : str)
| Force (now : nat) (input : str) (h : option History_Model.history) (cwd : str)  (* one round of the loop, repl_ai.rs l.170-192 *)
| Prefetch (cwd : str)                                                              (* mod.rs l.1054-1069, suggestion.rs l.184-205 *)
| WCheck | WWake | WAnswer (now : nat) (text : option str).

(** [None]: this cannot happen now.  A request is sent when the worker takes it out of the
    mailbox. *)
Definition step (s : sys) (ev : event) : option (sys * list suggestion) :=
  match ev with
  | Refresh now g bf input cursor h cwd =>
      let '(e, b, found) := refresh now (eng s) (back s) g bf input cursor h cwd in Some (Sys e b (sent s), found)
  | Force now input h cwd =>
      let '(b, o) := ai_suggestion now (back s) (Request input (Some cwd) (history_context h)) in
      Some (Sys (eng s) b (sent s), match o with Some x => [x] | None => [] end)
  | Prefetch cwd =>
      Some (Sys (eng s) (if backfill (eng s) then backend_prefetch (back s) (Request [] (Some cwd) []) else back s) (sent s), [])
  | WCheck => match at_ (back s) with
              | Checking => Some (Sys (eng s) (worker_check (back s)) (sent s ++ match pending (back s) with Some r => [r] | None => [] end), [])
              | _ => None
              end
  | WWake => match at_ (back s) with
             | Waiting => if permit (back s) then Some (Sys (eng s) (worker_wake (back s)) (sent s), []) else None
             | _ => None
             end
  | WAnswer now text => match at_ (back s) with
                        | Fetching r => Some (Sys (eng s) (handle_completion now (back s) r (fetch_completion r text)) (sent s), [])
                        | _ => None
                        end
  end.
(** what was shown after each event *)
Fixpoint run (s : sys) (evs : list event) : option (sys * list (list suggestion)) :=
  match evs with
  | [] => Some (s, [])
  | ev :: rest => match step s ev with
                  | Some (s', x) => match run s' rest with Some (s2, xs) => Some (s2, x :: xs) | None => None end
                  | None => None
                  end
  end.
(** the shell as it starts, with its preferences *)
Definition start (g bf : bool) : sys :=
  Sys (Engine g bf None None) (Backend None None false None false Checking) [].
End Engine.
