(** The command palette: dsh/src/command_palette/mod.rs and the actions of
    dsh/src/command_palette/actions that let the user choose and then run something,
    with handle_open_command_palette of dsh/src/repl/key_handlers/auxiliary.rs.
    Programs, the chooser and what is typed are arbitrary inputs; what is printed is left out.
    The actions that ask the AI service, the dashboard and the clearing of the screen are left out. *)
From Verif Require Import Base Frecency_Model Direnv_Model.
From Verif Require Main_Model.

(** ** The registry: mod.rs *)
Section Registry.
  Variable B : Type.
  Record action := Action { aname : str; category : str; body : B }.
  (** l.36-49 register: a HashMap by name; its order is that of the list *)
  Definition register (a : action) (r : list action) : list action :=
    a :: filter (fun x => negb (str_eqb (aname x) (aname a))) r.
  (** l.51-63 get_all *)
  Definition before (a b : action) : bool :=
    match str_cmp (category a) (category b) with
    | Eq => match str_cmp (aname a) (aname b) with Gt => false | _ => true end
    | Lt => true
    | Gt => false
    end.
  Definition get_all (r : list action) : list action := sort before r.
  (** l.123-175 run: what is done when the action of this name is chosen *)
  Inductive did := Nothing | SearchHistory | Executed (b : B).
  Definition choose (r : list action) (chosen : option str) : did :=
    match chosen with
    | None => Nothing
    | Some n =>
        if str_eqb n (lit "Search History") then SearchHistory
        else match List.find (fun a => str_eqb (aname a) n) r with Some a => Executed (body a) | None => Nothing end
    end.
End Registry.
Arguments Action {B}. Arguments aname {B}. Arguments category {B}. Arguments body {B}.
Arguments register {B}. Arguments before {B}. Arguments get_all {B}. Arguments choose {B}.
Arguments Nothing {B}. Arguments SearchHistory {B}. Arguments Executed {B}.

(** actions/search_history.rs l.24-62 select_history_command: the commands offered, the
    latest first, of the entries from the oldest to the latest; the line becomes the first selected *)
Definition history_offered (entries : list str) : list str := firstn 1000 (rev entries).
(** auxiliary.rs l.17-25: the line after the palette *)
Definition line_after (line : str) (selected : list str) : str :=
  match selected with c :: _ => c | [] => line end.

(** ** The actions *)
Inductive ending := Fine | Error.
Inductive event := Listed (argv : list str) | Ran (argv : list str).

Section Actions.
  (** Command::output: [None] if the program cannot be started; whether it succeeded and what it wrote *)
  Variable capture : list str -> option (bool * str).
  (** Command::status: can it be started? *)
  Variable starts : list str -> bool.
  (** utils/skim.rs run_skim_with: what is selected of the first and of the second list shown *)
  Variable pick pick2 : list str -> list str.
  (** the line read from standard input *)
  Variable typed : str.

  (** Command::status with ? *)
  Definition run (argv : list str) : list event * ending := if starts argv then ([Ran argv], Fine) else ([], Error).
  (** Command::output with ?, then what follows on success or [bad] *)
  Definition listing (argv : list str) (bad : ending) (k : str -> list event * ending) : list event * ending :=
    match capture argv with
    | None => ([], Error)
    | Some (false, _) => ([Listed argv], bad)
    | Some (true, out) => let (tr, e) := k out in (Listed argv :: tr, e)
    end.

  (** kill_process.rs l.23-75 *)
  Definition kill_process : list event * ending :=
    listing [lit "ps"; lit "aux"] Error (fun out =>
      match tl (lines out) with
      | [] => ([], Fine)
      | l =>
          match pick l with
          | line :: _ =>
              match nth_error (split_whitespace line) 1 with
              | Some pid => run [lit "kill"; pid]
              | None => ([], Fine)
              end
          | [] => ([], Fine)
          end
      end).

  (** git_checkout.rs l.22-65 *)
  Definition git_checkout : list event * ending :=
    listing [lit "git"; lit "branch"; lit "-a"; lit "--format=%(refname:short)"] Error (fun out =>
      match lines out with
      | [] => ([], Error)
      | l => match pick l with b :: _ => run [lit "git"; lit "checkout"; b] | [] => ([], Fine) end
      end).

  Definition colon : char := 58%N.
  Definition tab : char := 9%N.
  (** split(c).next() *)
  Definition upto (c : char) (s : str) : str := hd [] (Base.split_on c s).
  Definition stash_actions : list str := [lit "apply"; lit "pop"; lit "drop"; lit "show"].
  (** git_stash.rs l.22-101 *)
  Definition git_stash : list event * ending :=
    listing [lit "git"; lit "stash"; lit "list"] Error (fun out =>
      match lines out with
      | [] => ([], Fine)
      | l =>
          match pick l with
          | [] => ([], Fine)
          | entry :: _ =>
              match pick2 stash_actions with
              | a :: _ => run [lit "git"; lit "stash"; a; upto colon entry]
              | [] => ([], Fine)
              end
          end
      end).

  Definition docker_actions : list str :=
    [lit "start"; lit "stop"; lit "restart"; lit "logs"; lit "logs -f"; lit "exec -it bash"; lit "exec -it sh"; lit "rm"].
  (** docker_containers.rs l.22-123: failing to list is not an error *)
  Definition docker_containers : list event * ending :=
    let argv := [lit "docker"; lit "ps"; lit "-a"; lit "--format"; lit "{{.Names}}" ++ tab :: lit "{{.Status}}" ++ tab :: lit "{{.Image}}"] in
    match capture argv with
    | Some (true, out) =>
        let (tr, e) :=
          match lines out with
          | [] => ([], Fine)
          | l =>
              match pick l with
              | [] => ([], Fine)
              | line :: _ =>
                  match upto tab line with
                  | [] => ([], Fine)
                  | name =>
                      match pick2 docker_actions with
                      | a :: _ => run (lit "docker" :: split_whitespace a ++ [name])
                      | [] => ([], Fine)
                      end
                  end
              end
          end in
        (Listed argv :: tr, e)
    | Some (false, _) => ([Listed argv], Fine)
    | None => ([], Fine)
    end.

  (** find_file.rs l.22-81; [editor], [visual] are the variables of the process *)
  Variable editor visual : option str.
  Definition editor_of : str := match editor with Some e => e | None => match visual with Some v => v | None => lit "vim" end end.
  Definition edit_chosen (out : str) : list event * ending :=
    match lines out with
    | [] => ([], Fine)
    | l => match pick l with f :: _ => run [editor_of; f] | [] => ([], Fine) end
    end.
  Definition find_file : list event * ending :=
    let fd := [lit "fd"; lit "--type"; lit "f"; lit "--hidden"; lit "--exclude"; lit ".git"] in
    match capture fd with
    | Some _ => listing fd Error edit_chosen
    | None => listing [lit "find"; lit "."; lit "-type"; lit "f"; lit "-not"; lit "-path"; lit "*/.git/*"] Error edit_chosen
    end.

  Fixpoint add_new (l new : list str) : list str :=
    match new with [] => l | f :: r => add_new (if mem_str f l then l else l ++ [f]) r end.
  (** git_diff.rs l.25-90 *)
  Definition git_diff : list event * ending :=
    listing [lit "git"; lit "diff"; lit "--name-only"] Error (fun out =>
      let cached := [lit "git"; lit "diff"; lit "--cached"; lit "--name-only"] in
      match capture cached with
      | None => ([], Error)
      | Some (ok, out2) =>
          let files := if ok then add_new (lines out) (lines out2) else lines out in
          let (tr, e) :=
            match files with
            | [] => ([], Fine)
            | _ => match pick files with f :: _ => run [lit "git"; lit "diff"; lit "--color=always"; lit "--"; f] | [] => ([], Fine) end
            end in
          (Listed cached :: tr, e)
      end).

  (** git_commit.rs l.25-74; [succeeds] is the success of git commit *)
  Variable succeeds : list str -> bool.
  Definition git_commit : list event * ending :=
    listing [lit "git"; lit "diff"; lit "--cached"; lit "--name-only"] Error (fun out =>
      match trim out with
      | [] => ([], Fine)
      | _ =>
          match trim typed with
          | [] => ([], Fine)
          | m =>
              let argv := [lit "git"; lit "commit"; lit "-m"; m] in
              let (tr, e) := run argv in
              (tr, match e with Fine => if succeeds argv then Fine else Error | Error => Error end)
          end
      end).

  (** git_push_pull.rs l.26-86; git's success is not looked at when the branch is asked for *)
  Definition push_choices (b : str) : list str :=
    [lit "push (git push origin " ++ b ++ lit ")"; lit "pull (git pull origin " ++ b ++ lit ")"; lit "push --force-with-lease"; lit "fetch --all"].
  Definition push_args (b a : str) : list str :=
    if starts_with (lit "push (") a then [lit "push"; lit "origin"; b]
    else if starts_with (lit "pull (") a then [lit "pull"; lit "origin"; b]
    else if starts_with (lit "push --force") a then [lit "push"; lit "--force-with-lease"; lit "origin"; b]
    else [lit "fetch"; lit "--all"].
  Definition git_push_pull : list event * ending :=
    let argv := [lit "git"; lit "branch"; lit "--show-current"] in
    match capture argv with
    | None => ([], Error)
    | Some (_, out) =>
        let (tr, e) :=
          match trim out with
          | [] => ([], Error)
          | b => match pick (push_choices b) with a :: _ => run (lit "git" :: push_args b a) | [] => ([], Fine) end
          end in
        (Listed argv :: tr, e)
    end.

  (** port_check.rs l.26-94; to_lowercase of the answer: only y and Y become y *)
  Definition offer_ports (out : str) : list event * ending :=
    match tl (lines out) with
    | [] => ([], Fine)
    | l =>
        match pick l with
        | line :: _ =>
            match split_whitespace line with
            | _ :: pid :: _ => if str_eqb (lower (trim typed)) (lit "y") then run [lit "kill"; pid] else ([], Fine)
            | _ => ([], Fine)
            end
        | [] => ([], Fine)
        end
    end.
  Definition port_check : list event * ending :=
    let lsof := [lit "lsof"; lit "-i"; lit "-P"; lit "-n"] in
    match capture lsof with
    | Some _ => listing lsof Fine offer_ports
    | None => listing [lit "ss"; lit "-tulpn"] Fine offer_ports
    end.

  (** ssh_connect.rs l.66-88 parse_ssh_config; to_lowercase: no other character becomes h, o, s, t or a space *)
  Definition wild (s : str) : bool := mem_char 42%N s || mem_char 63%N s.
  Definition hosts_of_line (l : str) : list str :=
    let l := trim l in
    if starts_with (lit "host ") (lower l) then
      let part := trim (skipn 5 l) in
      if wild part then [] else filter (fun h => negb (wild h)) (split_whitespace part)
    else [].
  Definition parse_ssh_config (content : str) : list str := flat_map hosts_of_line (lines content).
  (** l.23-63; [config] is the text of ~/.ssh/config, empty if it cannot be read *)
  Definition ssh_connect (config : str) : list event * ending :=
    match parse_ssh_config config with
    | [] => ([], Fine)
    | hosts => match pick hosts with h :: _ => run [lit "ssh"; h] | [] => ([], Fine) end
    end.

  (** jump_directory.rs l.23-71: the directories of the history (take(100)), and the session of Direnv_Model;
      [enter] says where set_current_dir leads *)
  Definition jump_directory (enter : str -> option (list str)) (dirs : list str) (w : world) : ending * world :=
    match firstn 100 dirs with
    | [] => (Fine, w)
    | l =>
        match pick l with
        | d :: _ => match enter d with Some p => (Fine, World p (wenv w) (roots w)) | None => (Error, w) end
        | [] => (Fine, w)
        end
    end.
End Actions.

(** ** The loop of the prompt: mod.rs of repl l.974-986 and auxiliary.rs l.17-34: an error of the action ends the loop *)
Definition palette_turn (e : ending) (jobs : list nat) : Main_Model.turn :=
  Main_Model.Turn (match e with Fine => Main_Model.Other | Error => Main_Model.Broken end) false jobs.
