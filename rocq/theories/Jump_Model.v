(** The z builtin: dsh/src/proxy/builtin/z.rs, the directory aliases of dsh/src/proxy/mod.rs l.679-752,
    sort_by_match and prune of dsh/src/history/frecency_history.rs, and the change of directory.

    Not modelled: what is printed, z_exclude (every directory is recorded), failures of the database.
    The fuzzy matcher, the scores of the visited directories at the time of the command, the menu and the
    file system are oracles; scores are integers (an order without NaN). *)
From Verif Require Import Base Frecency_Model.
From Coq Require Import ZArith.

Record world := World { aliases : list (str * str); visited : list str; cwd : str; oldpwd : option str }.
Inductive answer := Done | Failed.
(** what a command finds: the score the matcher gives a path for a query, the scores of the paths by
    frecency and by recency, and which entry of the menu is chosen *)
Record moment := Moment { score : str -> str -> option Z; frecency : str -> Z; recency : str -> Z; menu : list str -> option str }.

Section Jump.
(** chdir from a directory, to the directory it ends in *)
Variable chdir : str -> str -> option str.
Variable exists_ : str -> bool.

(** mod.rs l.684-688 INSERT OR REPLACE, l.701-706 DELETE, l.742-748 SELECT, l.720 ORDER BY name *)
Fixpoint alias_of (n : str) (l : list (str * str)) : option str :=
  match l with [] => None | (k, p) :: r => if str_eqb k n then Some p else alias_of n r end.
Definition drop_alias (n : str) (l : list (str * str)) : list (str * str) := filter (fun e => negb (str_eqb (fst e) n)) l.
Definition add_alias (n p : str) (l : list (str * str)) : list (str * str) := drop_alias n l ++ [(n, p)].
Definition list_aliases (l : list (str * str)) : list (str * str) :=
  Frecency_Model.sort (fun a b => match str_cmp (fst a) (fst b) with Gt => false | _ => true end) l.

(** z.rs l.12-32 parse_z_args *)
Definition is_opt (short long : str) (a : str) : bool := str_eqb a short || str_eqb a long.
Definition interactive_opt : str -> bool := is_opt (lit "-i") (lit "--interactive").
Definition list_opt : str -> bool := is_opt (lit "-l") (lit "--list").
Definition clean_opt : str -> bool := is_opt (lit "-c") (lit "--clean").
Record options := Options { o_interactive : bool; o_list : bool; o_clean : bool; o_parts : list str }.
Definition parse_step (o : options) (a : str) : options :=
  if interactive_opt a then Options true (o_list o) (o_clean o) (o_parts o)
  else if list_opt a then Options (o_interactive o) true (o_clean o) (o_parts o)
  else if clean_opt a then Options (o_interactive o) (o_list o) true (o_parts o)
  else Options (o_interactive o) (o_list o) (o_clean o) (o_parts o ++ [a]).
Definition parse_z_args (argv : list str) : options := fold_left parse_step (tl argv) (Options false false false []).

(** proxy/mod.rs changepwd and save_path_history: OLDPWD is set before the change is tried *)
Definition record_visit (p : str) (l : list str) : list str := if mem_str p l then l else l ++ [p].
Definition go (p : str) (w : world) : answer * world :=
  match chdir (cwd w) p with
  | Some d => (Done, World (aliases w) (record_visit d (visited w)) d (Some (cwd w)))
  | None => (Failed, World (aliases w) (visited w) (cwd w) (Some (cwd w)))
  end.

(** frecency_history.rs l.395-420: those with a score over 25, the best first; equal ones by frecency *)
Definition scored (m : moment) (q : str) (l : list str) : list (str * Z) :=
  flat_map (fun p => match score m p q with Some s => if (25 <? s)%Z then [(p, s)] else [] | None => [] end) l.
Definition at_least (m : moment) (a b : str * Z) : bool :=
  match Z.compare (snd a) (snd b) with Gt => true | Lt => false | Eq => (frecency m (fst b) <=? frecency m (fst a))%Z end.
Definition sort_by_match (m : moment) (q : str) (l : list str) : list str := map fst (Frecency_Model.sort (at_least m) (scored m q l)).
(** dsh-frecency store.rs l.108-113, by recency *)
Definition by_recency (m : moment) (l : list str) : list str := Frecency_Model.sort (fun a b => (recency m b <=? recency m a)%Z) l.

(** z.rs l.37-199 execute, from the parsed options on (l.93-196) *)
Definition jump (m : moment) (o : options) (w : world) : answer * world :=
  let q := join_with [32%N] (o_parts o) in
  let w := if o_clean o then World (aliases w) (filter exists_ (visited w)) (cwd w) (oldpwd w) else w in
  let empty := match q with [] => true | _ => false end in
  if o_clean o && empty && negb (o_interactive o) && negb (o_list o) then (Done, w)
  else match (if empty then None else alias_of q (aliases w)) with
  | Some p => go p w
  | None =>
      if str_eqb q (lit "-") then match oldpwd w with Some p => go p w | None => (Failed, w) end
      else
        let results := if empty then by_recency m (visited w) else sort_by_match m q (visited w) in
        if o_list o then (Done, w)
        else if o_interactive o || empty then
          match results with
          | [] => (Done, w)
          | _ => match menu m results with Some p => go p w | None => (Done, w) end
          end
        else match results with p :: _ => go p w | [] => (Failed, w) end
  end.
(** l.39-91: the subcommands come first *)
Definition execute (m : moment) (argv : list str) (w : world) : answer * world :=
  let sub := nth 1 argv [] in
  if str_eqb sub (lit "add") then
    match nth_error argv 2 with
    | None => (Failed, w)
    | Some n => (Done, World (add_alias n (match nth_error argv 3 with Some p => p | None => cwd w end) (aliases w)) (visited w) (cwd w) (oldpwd w))
    end
  else if str_eqb sub (lit "remove") || str_eqb sub (lit "rm") then
    match nth_error argv 2 with
    | None => (Failed, w)
    | Some n => (Done, World (drop_alias n (aliases w)) (visited w) (cwd w) (oldpwd w))
    end
  else if str_eqb sub (lit "aliases") || str_eqb sub (lit "alias") then (Done, w)
  else jump m (parse_z_args argv) w.
Definition run (cmds : list (moment * list str)) (w : world) : world := fold_left (fun w c => snd (execute (fst c) (snd c) w)) cmds w.
End Jump.
