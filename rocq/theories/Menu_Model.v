(** The list of candidates Tab shows: dsh/src/completion/integrated.rs
    (deduplicate_and_sort, history_boost_scores, complete), and the caches in front of it:
    dsh/src/completion/cache.rs, dsh/src/completion/path.rs and
    dsh/src/completion/generators/filesystem.rs. *)
From Verif Require Import Base.
From Verif Require Frecency_Model.

(** ** Candidates: integrated.rs l.985-1055 *)
Inductive kind := SubCommand | LongOption | ShortOption | Argument | Directory | File | Process | Generic.
(** priorities are u32; the description is not read by any of this *)
Record cand := Cand { text : str; what : kind; score : N }.
(** l.1057-1069 CandidateType::sort_order *)
Definition sort_order (k : kind) : nat :=
  match k with
  | SubCommand => 1 | LongOption => 2 | ShortOption => 3 | Argument => 4
  | Directory => 5 | File => 6 | Process => 7 | Generic => 8
  end.
Definition u32_max : N := 4294967295.
(** u32::saturating_add *)
Definition saturating_add (a b : N) : N := N.min (a + b) u32_max.

(** ** history_boost_scores: l.770-845 *)
Definition scan_limit : nat := 2000.
Definition score_cap : nat := 5000.
Definition boosted (c : cand) : bool := match what c with File | Directory => false | _ => true end.
(** l.806-815 *)
Definition context_bonus (command : option str) (entry : str) : nat :=
  match command with
  | Some c => if str_eqb entry c || starts_with (c ++ lit " ") entry then 500 else 0
  | None => 0
  end.
(** l.823-838: the candidates of one token; [capped] of an index says that its score is above the cap *)
Definition add_token (bonus : nat) (t : str) (cs : list (cand * nat)) : list (cand * nat) :=
  map (fun '(c, s) => if boosted c && str_eqb (text c) t && (s <=? score_cap) then (c, s + (10 + bonus)) else (c, s)) cs.
(** l.817-839 *)
Fixpoint add_tokens (bonus : nat) (seen ts : list str) (cs : list (cand * nat)) : list (cand * nat) :=
  match ts with
  | [] => cs
  | t :: r => if mem_str t seen then add_tokens bonus seen r cs else add_tokens bonus (t :: seen) r (add_token bonus t cs)
  end.
Definition all_capped (cs : list (cand * nat)) : bool := forallb (fun '(c, s) => negb (boosted c) || (score_cap <? s)) cs.
(** l.803-843 *)
Fixpoint scan (command : option str) (entries : list str) (cs : list (cand * nat)) : list (cand * nat) :=
  match entries with
  | [] => cs
  | e :: r =>
      let cs' := add_tokens (context_bonus command e) [] (split_whitespace e) cs in
      if all_capped cs' then cs' else scan command r cs'
  end.
(** the history is given oldest first *)
Definition boosts (command : option str) (history : list str) (cs : list cand) : list (cand * nat) :=
  scan command (firstn scan_limit (rev history)) (map (fun c => (c, 0)) cs).

(** ** deduplicate_and_sort: l.715-768 *)
(** l.722-732; no history, or one that is locked at the moment, is [None] *)
Definition raise (cs : list (cand * nat)) : list cand :=
  map (fun '(c, s) => Cand (text c) (what c) (saturating_add (score c) (N.of_nat s))) cs.
Definition with_history (command : option str) (history : option (list str)) (cs : list cand) : list cand :=
  match history with Some h => raise (boosts command h cs) | None => cs end.
(** l.735-739 *)
Definition before_text (a b : cand) : bool :=
  match (score b ?= score a)%N with
  | Lt => true | Gt => false
  | Eq => match Frecency_Model.str_cmp (text a) (text b) with Gt => false | _ => true end
  end.
(** l.741-749 *)
Fixpoint retain (seen : list str) (cs : list cand) : list cand :=
  match cs with
  | [] => []
  | c :: r => if mem_str (text c) seen then retain seen r else c :: retain (text c :: seen) r
  end.
(** l.752-761 *)
Definition before_kind (a b : cand) : bool :=
  match (score b ?= score a)%N with
  | Lt => true | Gt => false
  | Eq =>
      match (sort_order (what a) ?= sort_order (what b))%nat with
      | Lt => true | Gt => false
      | Eq => match Frecency_Model.str_cmp (text a) (text b) with Gt => false | _ => true end
      end
  end.
Definition menu (command : option str) (history : option (list str)) (max : nat) (cs : list cand) : list cand :=
  firstn max (Frecency_Model.sort before_kind (retain [] (Frecency_Model.sort before_text (with_history command history cs)))).

(** ** The cache: cache.rs *)
Section Cache.
Context {A : Type} (text_of : A -> str) (ttl : nat).
(** l.33-37; instants are numbers of milliseconds *)
Record entry := Entry { kept : list A; expires : nat }.
Definition cache := list (str * entry).
Definition get (c : cache) (k : str) : option entry := option_map snd (find (fun p => str_eqb (fst p) k) c).
(** l.47-49 is_expired, negated *)
Definition live (now : nat) (e : entry) : bool := now <? expires e.
(** l.172-175 *)
Definition purge (now : nat) (c : cache) : cache := filter (fun p => live now (snd p)) c.
(** l.80-85; every call reads the clock once *)
Definition set (now : nat) (k : str) (l : list A) (c : cache) : cache :=
  (k, Entry l (now + ttl)) :: filter (fun p => negb (str_eqb (fst p) k)) (purge now c).
(** l.99-108 *)
Definition extend (now : nat) (k : str) (c : cache) : cache :=
  map (fun p => if str_eqb (fst p) k then (fst p, Entry (kept (snd p)) (now + ttl)) else p) (purge now c).
(** l.187-196: [n] characters, then fewer *)
Fixpoint shorter (now : nat) (input : str) (c : cache) (n : nat) : option str :=
  let here := firstn n input in
  match get c here with
  | Some e => if live now e then Some here else match n with 0 => None | S m => shorter now input c m end
  | None => match n with 0 => None | S m => shorter now input c m end
  end.
(** l.178-199 *)
Definition longest_live (now : nat) (input : str) (c : cache) : option (str * bool) :=
  let rest := match input with [] => None | _ => option_map (fun k => (k, false)) (shorter now input c (length input - 1)) end in
  match get c input with
  | Some e => if live now e then Some (input, true) else rest
  | None => rest
  end.
(** input.rsplit(char::is_whitespace).next() *)
Fixpoint last_token (s : str) : str :=
  match s with
  | [] => []
  | c :: r => if existsb is_whitespace s then (if existsb is_whitespace r then last_token r else r) else s
  end.
(** l.123-170 *)
Definition lookup (now : nat) (input : str) (c : cache) : option (str * list A * bool) :=
  match longest_live now input c with
  | Some (k, exact) =>
      match get c k with
      | Some e =>
          let l :=
            if exact then kept e
            else filter (fun x => starts_with input (text_of x) ||
                                  (negb (str_eqb (last_token input) []) && starts_with (last_token input) (text_of x)))
                        (kept e) in
          Some (k, l, exact)
      | None => None
      end
  | None => None
  end.

(** ** complete: integrated.rs l.272-366.  [fresh] is what collecting the candidates now gives
    (and [menu] makes of them), for the cursor and the directory of this call. *)
Definition is_nil {B} (l : list B) : bool := match l with [] => true | _ => false end.
Definition complete (now : nat) (input : str) (dynamic : bool) (fresh : list A) (c : cache) : list A * cache :=
  let miss := (fresh, if dynamic || is_nil input || is_nil fresh then c else set now input fresh c) in
  if dynamic || is_nil input then miss
  else
    match lookup now input c with
    | Some (k, l, exact) => if exact || negb (is_nil l) then (l, extend now k c) else miss
    | None => miss
    end.

(** ** path_completion_path_sync: path.rs l.282-295.  [scan] is [None] when the directory cannot be read *)
Definition listing (now : nat) (dir : str) (scan : option (list A)) (c : cache) : option (list A) * cache :=
  match lookup now dir c with
  | Some (_, l, _) => (Some l, c)
  | None => match scan with Some l => (Some l, set now dir l c) | None => (None, c) end
  end.
End Cache.
Arguments entry : clear implicits.
Arguments cache : clear implicits.

(** integrated.rs l.913-918 is_dynamic_completion_command *)
Definition is_dynamic (command : str) : bool :=
  mem_str command (map lit ["task"; "pm"; "pj"; "mcp"; "git"; "docker"; "kubectl"]%string).
(** integrated.rs l.25, l.206 *)
Definition menu_ttl : nat := 3000.
(** path.rs l.13-14 *)
Definition path_ttl : nat := 2000.

(** ** File names: generators/filesystem.rs and path.rs *)
Definition sep : char := chr "/".
Definition backslash : char := chr "\".
Definition ends_sep (s : str) : bool := ends_with [sep] s || ends_with [backslash] s.
(** Path::join of a relative name *)
Definition path_join (dir name : str) : str :=
  match dir with [] => name | _ => if ends_with [sep] dir then dir ++ name else dir ++ sep :: name end.
(** path.rs l.343-385: at most MAX_RESULT entries in the order the system gives them; a
    directory is shown with a slash behind it.  The names of a directory below the home
    directory given with a tilde are joined in the same way. *)
Definition max_result : nat := 500.
(** the derived order of Candidate::Path is that of the texts *)
Definition text_le (a b : str) : bool := match Frecency_Model.str_cmp a b with Gt => false | _ => true end.
Definition scan_dir (dir : str) (entries : list (str * bool)) : list str :=
  Frecency_Model.sort text_le
    (map (fun '(name, is_dir) => path_join dir name ++ (if is_dir : bool then [sep] else [])) (firstn max_result entries)).
(** the text in front of the last slash and the text behind it *)
Fixpoint rsplit_sep (s : str) : option (str * str) :=
  match s with
  | [] => None
  | c :: r =>
      match rsplit_sep r with
      | Some (a, b) => Some (c :: a, b)
      | None => if (c =? sep)%N then Some ([], r) else None
      end
  end.
(** Path::file_name for texts that do not end with a slash: the last component, unless it is
    [.] or [..].  (For a final [.] behind other components Rust gives the component before it.) *)
Definition normal (s : str) : option str :=
  if str_eqb s [] || str_eqb s (lit ".") || str_eqb s (lit "..") then None else Some s.
Definition file_name (s : str) : option str :=
  match rsplit_sep s with Some (_, b) => normal b | None => normal s end.
Fixpoint trim_seps (s : str) : str :=
  match s with
  | [] => []
  | c :: r => if forallb (fun x => (x =? sep) || (x =? backslash))%N s then [] else c :: trim_seps r
  end.
(** Path::parent for texts that do not end with a slash; one slash between the components *)
Definition parent (s : str) : str :=
  match rsplit_sep s with
  | Some ([], _) => [sep]
  | Some (a, _) => a
  | None => []
  end.
(** filesystem.rs l.112-136 split_dir_and_prefix, l.145-151 normalize_dir_path *)
Definition split_dir (token : str) : str * str :=
  match token with
  | [] => (lit ".", [])
  | _ =>
      if ends_sep token then (token, [])
      else (match parent token with [] => lit "." | d => d end,
            match file_name token with Some f => f | None => [] end)
  end.
(** l.153-162 build_candidate_path *)
Definition build_path (dir name : str) : str :=
  if str_eqb dir (lit ".") || is_nil dir then name else path_join dir name.
(** l.11-72 generate_file_candidates (without extensions): the names offered for a token, given
    the listing of its directory.  [fuzzy] says whether the matcher finds the prefix in a name.
    The priorities, which only order the names, are left out. *)
Section Names.
Variable fuzzy : str -> str -> bool.
Definition offer_name (only_dirs : bool) (dir prefix shown : str) : list (str * bool) :=
  let is_dir := ends_with [sep] shown || ends_with [backslash] shown in
  if only_dirs && negb is_dir then []
  else
    match file_name (trim_seps shown) with
    | None => []
    | Some name =>
        if is_nil prefix || starts_with prefix name || fuzzy name prefix then [(build_path dir name, is_dir)] else []
    end.
(** l.11-72, and l.75-110 with [only_dirs]; a directory that cannot be read lists nothing *)
Definition file_candidates (now : nat) (only_dirs : bool) (token : str) (entries : str -> option (list (str * bool)))
    (c : cache str) : list (str * bool) * cache str :=
  let '(dir, prefix) := split_dir token in
  let '(l, c') := listing (fun s => s) path_ttl now dir (option_map (scan_dir dir) (entries dir)) c in
  (flat_map (offer_name only_dirs dir prefix) (match l with Some l => l | None => [] end), c').
End Names.
