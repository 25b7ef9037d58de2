(** The forms that add servers of tools (dsh/src/lisp/stdlib/mcp.rs, dsh/src/lisp/utils.rs,
    dsh/src/environment/mcp.rs), the list of variables of the palette
    (dsh/src/command_palette/actions/show_env.rs) and the buffer of the renderer
    (dsh/src/terminal/renderer.rs).

    The texts of the errors are left out, and so is the connection that is tried when a server is added after
    the start: it fails or not, and the server is kept (environment/mcp.rs l.13-23).  Mcp_Model holds the
    connections. *)
From Verif Require Import Base Lisp_Model Frecency_Model.

(** ** Arguments *)
(** utils.rs l.10-21, l.26-45 require_typed_arg::<&String> *)
Definition text_arg (args : list lv) (i : nat) : option str :=
  match nth_error args i with Some (LStr s) => Some s | _ => None end.
(** mcp.rs l.22: args.get(i).cloned().unwrap_or(Value::NIL) *)
Definition arg (args : list lv) (i : nat) : lv := match nth_error args i with Some v => v | None => nil_v end.
(** utils.rs l.120-136 list_of_strings *)
Fixpoint all_texts (l : list lv) : option (list str) :=
  match l with
  | [] => Some []
  | LStr s :: r => match all_texts r with Some x => Some (s :: x) | None => None end
  | _ => None
  end.
Definition list_of_strings (v : lv) : option (list str) :=
  match v with LList [] => Some [] | LList l => all_texts l | LFalse => Some [] | _ => None end.
(** HashMap::insert, HashMap::get *)
Fixpoint put (m : list (str * str)) (k v : str) : list (str * str) :=
  match m with
  | [] => [(k, v)]
  | (k', v') :: r => if str_eqb k' k then (k, v) :: r else (k', v') :: put r k v
  end.
Fixpoint look (m : list (str * str)) (k : str) : option str :=
  match m with [] => None | (k', v) :: r => if str_eqb k' k then Some v else look r k end.
(** utils.rs l.138-197 list_of_pairs *)
Fixpoint all_pairs (l : list lv) (m : list (str * str)) : option (list (str * str)) :=
  match l with
  | [] => Some m
  | LList (LStr k :: LStr v :: _) :: r => all_pairs r (put m k v)
  | _ => None
  end.
Definition list_of_pairs (v : lv) : option (list (str * str)) :=
  match v with LList [] => Some [] | LList l => all_pairs l [] | LFalse => Some [] | _ => None end.
(** utils.rs l.199-208 optional_string; the outer [None] is the error *)
Definition optional_string (v : lv) : option (option str) :=
  match v with LList [] => Some None | LFalse => Some None | LStr s => Some (Some s) | _ => None end.
(** utils.rs l.210-219 optional_bool *)
Definition optional_bool (v : lv) : option (option bool) :=
  match v with LList [] => Some None | LFalse => Some (Some false) | LTrue => Some (Some true) | _ => None end.

(** ** Servers: dsh-types/src/mcp.rs *)
Inductive transport :=
| Stdio (command : str) (words : list str) (vars : list (str * str)) (dir : option str)
| Sse (url : str)
| Http (url : str) (auth : option str) (stateless : option bool).
Record server := Server { s_label : str; s_about : option str; s_reach : transport }.

(** mcp.rs l.16-48 *)
Definition add_stdio (args : list lv) : option server :=
  match text_arg args 0, text_arg args 1, list_of_strings (arg args 2), list_of_pairs (arg args 3),
        optional_string (arg args 4), optional_string (arg args 5) with
  | Some l, Some c, Some ws, Some vs, Some d, Some a => Some (Server l a (Stdio c ws vs d))
  | _, _, _, _, _, _ => None
  end.
(** mcp.rs l.51-70 *)
Definition add_sse (args : list lv) : option server :=
  match text_arg args 0, text_arg args 1, optional_string (arg args 2) with
  | Some l, Some u, Some a => Some (Server l a (Sse u))
  | _, _, _ => None
  end.
(** mcp.rs l.73-101 *)
Definition add_http (args : list lv) : option server :=
  match text_arg args 0, text_arg args 1, optional_string (arg args 2), optional_bool (arg args 3), optional_string (arg args 4) with
  | Some l, Some u, Some h, Some b, Some a => Some (Server l a (Http u h b))
  | _, _, _, _, _ => None
  end.
Inductive form := FStdio (args : list lv) | FSse (args : list lv) | FHttp (args : list lv) | FClear.
(** One form of the configuration: the servers after it, and whether it is an error.
    mcp.rs l.8-14 mcp-clear, environment/mcp.rs l.8-23 *)
Definition add (s : option server) (ss : list server) : list server * bool :=
  match s with Some x => (ss ++ [x], true) | None => (ss, false) end.
Definition run_form (f : form) (ss : list server) : list server * bool :=
  match f with
  | FStdio a => add (add_stdio a) ss
  | FSse a => add (add_sse a) ss
  | FHttp a => add (add_http a) ss
  | FClear => ([], true)
  end.
Definition run_forms (fs : list form) (ss : list server) : list server := fold_left (fun s f => fst (run_form f s)) fs ss.

(** ** The list of variables: show_env.rs l.23-46 *)
Definition entry (kv : str * str) : str := fst kv ++ lit "=" ++ snd kv.
(** l.35-40; std::env::vars stops the program at a variable that is not UTF-8, here [None] *)
Fixpoint with_system (sys : list (option (str * str))) (shown : list str) : option (list str) :=
  match sys with
  | [] => Some shown
  | None :: _ => None
  | Some kv :: r =>
      with_system r (if mem_str (entry kv) shown then shown else shown ++ [entry kv])
  end.
(** [None]: a panic *)
Definition env_list (vars : list (str * str)) (sys : list (option (str * str))) : option (list str) :=
  match with_system sys (map entry vars) with
  | Some l => Some (sort (fun a b => match str_cmp a b with Gt => false | _ => true end) l)
  | None => None
  end.

(** ** The renderer: renderer.rs l.30-41 flush, l.44-54 Write.
    A flush ends well, or with an error after the terminal took some of the bytes. *)
Inductive op := Put (bytes : list N) | Flush (failed_after : option nat).
Record screen := Screen { held : list N; sent : list N }.
Definition step (s : screen) (o : op) : screen :=
  match o with
  | Put b => Screen (held s ++ b) (sent s)
  | Flush None => Screen [] (sent s ++ held s)
  | Flush (Some n) => match held s with [] => s | _ => Screen (held s) (sent s ++ firstn n (held s)) end
  end.
Definition run (os : list op) : screen := fold_left step os (Screen [] []).
