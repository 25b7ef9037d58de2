(** Work handed to other programs and services: the external editor
    (dsh/src/utils/editor.rs, dsh-builtin/src/eview.rs), ai-commit
    (dsh-builtin/src/commit_ai.rs), what a builtin writes (dsh-types/src/lib.rs)
    and gh-notify (dsh-builtin/src/gh_notify.rs). *)
From Verif Require Import Base Opts_Model.
From Verif Require Compgen_Model.

(** ** the editor *)

(** editor.rs l.9-24: the command line of the editor; [which] tells if a program is found *)
Definition editor_command (visual editor : option str) (which : str -> bool) : str :=
  match visual with
  | Some v => v
  | None =>
      match editor with
      | Some e => e
      | None =>
          if which (lit "emacsclient") then lit "emacsclient -nw"
          else if which (lit "vim") then lit "vim" else lit "nano"
      end
  end.
(** editor.rs l.27-36: program and arguments, the file last; [None] is "No editor found" *)
Definition editor_run (visual editor : option str) (which : str -> bool) (path : str) : option (list str) :=
  match split_whitespace (editor_command visual editor which) with
  | [] => None
  | p => Some (p ++ [path])
  end.
(** trim_end_matches('\n') *)
Fixpoint drop_nl (s : str) : str :=
  match s with
  | [] => []
  | c :: r => match drop_nl r with
              | [] => if (c =? 10)%N then [] else [c]
              | t => c :: t
              end
  end.
(** editor.rs l.55-83 open_editor; [edit] is what running the program leaves in the file,
    [None] if it cannot be run, fails or leaves no text *)
Definition open_editor (visual editor : option str) (which : str -> bool) (path : str)
    (edit : list str -> str -> option str) (content : str) : option str :=
  match editor_run visual editor which path with
  | None => None
  | Some argv => option_map drop_nl (edit argv content)
  end.
(** eview.rs l.23-62; the input as decoded text, the output and the status *)
Definition eview (open : str -> option str) (input : str) : nat * str :=
  match open input with
  | None => (1, [])
  | Some e => (0, if ends_with [10%N] e then e else e ++ [10%N])
  end.
(** repl/handler.rs l.91-112 (Ctrl-X Ctrl-E): the line afterwards *)
Definition edit_line (open : str -> option str) (line : str) : str :=
  match open line with Some c => c | None => line end.

(** ** ai-commit *)

(** an answer at the prompt, with what is staged when it is read; at the end of the input
    every further read gives an empty line *)
Inductive answer := Typed (s : str) | ReadError.
Inductive done :=
| Left (status : nat)                       (** left without committing *)
| Committed (message content : str)         (** git commit -m message; [content] is what was staged *)
| CommitFailed (message : str)
| Endless.                                  (** the prompt is repeated forever *)
Section Commit.
(** the editor, as the proxy's open_editor *)
Variable open : str -> option str.
(** whether git commit succeeds *)
Variable commits : str -> bool.
(** commit_ai.rs l.65-122, with the messages shown.  to_lowercase is that of ASCII: no
    other character has one of the letters of the answers as its lower case. *)
Fixpoint review (message : str) (answers : list (answer * str)) : list str * done :=
  match answers with
  | [] => ([message], Endless)
  | (ReadError, _) :: _ => ([message], Left 1)
  | (Typed s, staged) :: rest =>
      let a := lower (trim s) in
      if str_eqb a (lit "y") || str_eqb a (lit "yes") then
        ([message], if commits message then Committed message staged else CommitFailed message)
      else if str_eqb a (lit "n") || str_eqb a (lit "no") then ([message], Left 0)
      else if str_eqb a (lit "e") || str_eqb a (lit "edit") then
        let '(shown, d) := review (match open message with Some e => trim e | None => message end) rest in (message :: shown, d)
      else let '(shown, d) := review message rest in (message :: shown, d)
  end.
(** commit_ai.rs l.13-62.  [diff]: git diff --cached, [None] if git fails; [key], [client]:
    an API key is configured and the client can be made; [reply]: the service's message for
    a request (text sent, model), [None] for an error.  Reported: the requests, the messages
    shown, the end. *)
Definition ai_commit (diff : option str) (key client : bool) (reply : str -> option str -> option str)
    (args : list str) (answers : list (answer * str)) : list (str * option str) * list str * done :=
  match diff with
  | None => ([], [], Left 1)
  | Some d =>
      match trim d with
      | [] => ([], [], Left 1)
      | _ =>
          if negb key then ([], [], Left 1)
          else if negb client then ([], [], Left 1)
          else
            let model := hd_error args in
            match reply d model with
            | None => ([(d, model)], [], Left 1)
            | Some m => let '(shown, e) := review (trim m) answers in ([(d, model)], shown, e)
            end
      end
  end.
End Commit.

(** ** what a builtin writes *)

(** the open descriptors with the files they stand for, and the contents of the files *)
Record fds := Fds { table : list (nat * nat); data : nat -> str }.
Fixpoint file_of (t : list (nat * nat)) (fd : nat) : option nat :=
  match t with [] => None | (n, f) :: r => if n =? fd then Some f else file_of r fd end.
Definition close (fd : nat) (s : fds) : fds := Fds (filter (fun x => negb (fst x =? fd)) (table s)) (data s).
(** dsh-types/src/lib.rs l.193-205 write_stdout, write_stderr on the descriptor [fd].
    [ok]: the kernel takes the text.  On an error [?] leaves before mem::forget, so the File
    is dropped and closes the descriptor. *)
Definition write_line (ok : bool) (fd : nat) (msg : str) (s : fds) : bool * fds :=
  match file_of (table s) fd with
  | Some f =>
      if ok then (true, Fds (table s) (fun g => if g =? f then data s g ++ msg ++ [10%N] else data s g))
      else (false, close fd s)
  | None => (false, s)
  end.
(** open(2): the lowest free number *)
Fixpoint lowest (fuel n : nat) (t : list (nat * nat)) : nat :=
  match fuel with
  | 0 => n
  | S k => match file_of t n with None => n | Some _ => lowest k (S n) t end
  end.
Definition open_file (f : nat) (s : fds) : nat * fds :=
  let n := lowest (length (table s)) 0 (table s) in (n, Fds ((n, f) :: table s) (data s)).

(** ** gh-notify *)

(** gh_notify.rs l.18-46, the fields that are read *)
Record note := Note {
  note_id : str; title : str; subject_url : option str; full_name : str; html_url : str; reason : str; unread : bool
}.
Definition field (m : list (str * Compgen_Model.json)) (k : string) : option Compgen_Model.json := Compgen_Model.get m (lit k).
Definition text_field (m : list (str * Compgen_Model.json)) (k : string) : option str :=
  match field m k with Some (Compgen_Model.Str s) => Some s | _ => None end.
(** serde's derived Deserialize: fields are required unless Option or defaulted, unknown
    fields are ignored, _updated_at is not renamed.  Of a repeated field the last counts here
    (serde refuses it), and an array in place of an object is refused here. *)
Definition subject_of (j : Compgen_Model.json) : option (str * option str) :=
  match j with
  | Compgen_Model.Obj m =>
      match text_field m "title", text_field m "type", field m "url" with
      | Some t, Some _, None => Some (t, None)
      | Some t, Some _, Some Compgen_Model.Null => Some (t, None)
      | Some t, Some _, Some (Compgen_Model.Str u) => Some (t, Some u)
      | _, _, _ => None
      end
  | _ => None
  end.
Definition repository_of (j : Compgen_Model.json) : option (str * str) :=
  match j with
  | Compgen_Model.Obj m => match text_field m "full_name", text_field m "html_url" with Some a, Some b => Some (a, b) | _, _ => None end
  | _ => None
  end.
Definition unread_of (m : list (str * Compgen_Model.json)) : option bool :=
  match field m "unread" with None => Some false | Some (Compgen_Model.Bool b) => Some b | Some _ => None end.
Definition note_of (j : Compgen_Model.json) : option note :=
  match j with
  | Compgen_Model.Obj m =>
      match text_field m "id", field m "subject", field m "repository", text_field m "reason", text_field m "_updated_at", unread_of m with
      | Some i, Some sj, Some rp, Some rs, Some _, Some u =>
          match subject_of sj, repository_of rp with
          | Some (t, url), Some (n, h) => Some (Note i t url n h rs u)
          | _, _ => None
          end
      | _, _, _, _, _, _ => None
      end
  | _ => None
  end.
Fixpoint notes_of (l : list Compgen_Model.json) : option (list note) :=
  match l with
  | [] => Some []
  | j :: r => match note_of j, notes_of r with Some n, Some ns => Some (n :: ns) | _, _ => None end
  end.
(** gh_notify.rs l.265-287 fetch_notifications: the answer of the service is an error or a body *)
Definition fetched (answer : option Compgen_Model.json) : option (list note) :=
  match answer with
  | Some (Compgen_Model.Arr l) => option_map (filter unread) (notes_of l)
  | _ => None
  end.
(** gh_notify.rs l.289-308 filter_notifications; to_lowercase is that of ASCII *)
Definition filtered (patterns : list str) (ns : list note) : list note :=
  match patterns with
  | [] => ns
  | _ => filter (fun n => existsb (fun p => contains (lower p) (lower (full_name n))) patterns) ns
  end.
(** gh_notify.rs l.352-364 format_notification_display *)
Definition icon (r : str) : str :=
  if str_eqb r (lit "review_requested") then [128269%N]
  else if str_eqb r (lit "mention") || str_eqb r (lit "assign") then [128276%N]
  else if str_eqb r (lit "ci_activity") then [128678%N]
  else [128236%N].
Definition display (n : note) : str :=
  icon (reason n) ++ lit " [" ++ full_name n ++ lit "] " ++ title n ++ lit " (" ++ reason n ++ lit ")".
(** HashMap: a later entry replaces an earlier one with the same text *)
Definition entry_of (ns : list note) (text : str) : option note := List.find (fun n => str_eqb (display n) text) (rev ns).

(** gh_notify.rs l.62-77 *)
Definition notify_opts : list opt := [Opt (Some (chr "r")) (lit "repo") true true; optflag (chr "m") "mark-read"; optflag (chr "h") "help"].
Record notify_world := NotifyWorld {
  on_terminal : bool;
  shell_var : option str; lisp_var : option str; env_token : option str;
  service : option Compgen_Model.json;              (** the answer to the list request *)
  pick : list str -> option str;                    (** the line taken, if any *)
  ask : str -> option Compgen_Model.json;           (** the answer to a request for the subject's URL *)
  opener : bool;                                    (** xdg-open can be started *)
  marking : bool                                    (** the service marks the notification *)
}.
(** a request: method, URL and the token sent with it *)
Definition request : Type := (str * str * str)%type.
Definition list_url : str := lit "https://api.github.com/notifications?all=false".
Definition thread_url (id : str) : str := lit "https://api.github.com/notifications/threads/" ++ id.
Record effects := Effects { requests_made : list request; opened : list str; marked : list str }.
Definition nothing : effects := Effects [] [] [].

(** gh_notify.rs l.310-330 resolve_url *)
Definition resolve (w : notify_world) (u : option str) : option str :=
  match u with
  | None => None
  | Some url => match ask w url with
                | Some (Compgen_Model.Obj m) => text_field m "html_url"
                | _ => None
                end
  end.
(** gh_notify.rs l.60-263 command *)
Definition gh_notify (usage : str) (argv : list str) (w : notify_world) : nat * list line * effects :=
  match parse notify_opts argv with
  | inl f => (1, [ErrLine (lit "gh-notify: " ++ show_fail f)], nothing)
  | inr (g, _) =>
      if present g (lit "help") then (0, [OutLine usage], nothing)
      else if negb (on_terminal w) then (1, [ErrLine (lit "gh-notify: Standard output is not a terminal")], nothing)
      else
        match (match shell_var w with Some t => Some t | None => match lisp_var w with Some t => Some t | None => env_token w end end) with
        | None => (1, [ErrLine (lit "gh-notify: *github-pat* variable or GITHUB_TOKEN env not set")], nothing)
        | Some token =>
            let asked := [(lit "GET", list_url, token)] in
            match fetched (service w) with
            | None => (1, [ErrLine (lit "gh-notify: Failed to parse JSON or to get the list")], Effects asked [] [])
            | Some all =>
                let patterns := values g (lit "repo") in
                match filtered patterns all with
                | [] => (0, [OutLine (match patterns with [] => lit "No unread notifications." | _ => lit "No unread notifications matching the filter." end)], Effects asked [] [])
                | ns =>
                    match pick w (map display ns) with
                    | None => (0, [], Effects asked [] [])
                    | Some text =>
                        match entry_of ns text with
                        | None => (0, [], Effects asked [] [])
                        | Some n =>
                            let asked' := asked ++ match subject_url n with Some u => [(lit "GET", u, token)] | None => [] end in
                            let target := match resolve w (subject_url n) with Some u => u | None => html_url n end in
                            if negb (opener w) then (1, [ErrLine (lit "gh-notify: Failed to open browser")], Effects asked' [] [])
                            else if present g (lit "mark-read") then
                              (0, [OutLine (lit "Marked notification " ++ note_id n ++ lit " as read.")],
                               Effects (asked' ++ [(lit "PATCH", thread_url (note_id n), token)]) [target] (if marking w then [note_id n] else []))
                            else (0, [], Effects asked' [target] [])
                        end
                    end
                end
            end
        end
  end.
