(** Vocabulary for the views of the system. *)
From Verif Require Import Base Outside_Model Outside_Spec Views_Model.
From Verif Require Frecency_Model Lread_Model Numerals.
From Coq Require Import Sorting.Permutation Sorting.Sorted.

(** a process passes the filter typed *)
Definition passes (low : str -> str) (f : str) (p : proc) : Prop := f = [] \/ contains (low f) (low (pname p)) = true.
(** the list is that of the report: those that pass, busiest first *)
Definition lists (low : str -> str) (f : str) (snap l : list proc) : Prop := exists sorted,
  Permutation snap sorted /\ StronglySorted (fun p q => (cpu q <= cpu p)%N) sorted /\ Keeps (passes low f) sorted l.
(** the line with the cursor, if there is a line *)
Definition cursor_ok (a : screen) : Prop := match sel a with None => listed a = [] | Some i => i < length (listed a) end.
(** keys *)
Definition typed (c : char) (k : key) : Prop := what k = Char c.

(** the fields of a line, between colons *)
Definition Fields (line : str) (l : list str) : Prop := l <> [] /\ Forall (fun f => ~ In (chr ":") f) l /\ line = join_with (lit ":") l.
Definition comment (line : str) : Prop := exists t, line = chr "#" :: t.
(** a decimal number of 32 bits *)
Definition Number (s : str) (n : N) : Prop := (n < 4294967296)%N /\ (Numerals.Dec s n \/ exists t, s = chr "+" :: t /\ Numerals.Dec t n).
(** a user named in a line of the file *)
Definition names_user (system : bool) (line : str) (c : cand) : Prop := line <> [] /\ ~ comment line /\ exists pw u gid gecos rest n,
  Fields line (text c :: pw :: u :: gid :: gecos :: rest) /\ Number u n /\ (system = true \/ (1000 <= n)%N \/ text c = lit "root") /\
  ((gecos = [] /\ about c = None) \/ (gecos <> [] /\ about c = Some gecos)).
(** in the order of the names *)
Definition in_order (l : list cand) : Prop := StronglySorted (fun a b => Frecency_Model.str_cmp (text a) (text b) <> Gt) l.
Definition wanted (low : str -> str) (token : str) (c : cand) : Prop := token = [] \/ exists t, low (text c) = low token ++ t.
(** a directory below another *)
Definition below (r cwd rel : list str) : Prop := cwd = r ++ rel.
Definition plain_names (p : list str) : Prop := Forall (fun n => n <> [] /\ ~ In (chr "/") n) p.
(** the prompt is of the branch that does not know a repository *)
Definition no_repository (root : option (list str)) (cwd : list str) : Prop := forall r rel, root = Some r -> ~ below r cwd rel.
(** the marks of the prompt and what they count, without ahead and behind *)
Definition mark_of (c : counts) (m : char) (n : N) : Prop := In (m, n)
  [(chr "=", conflicted c); (chr "+", staged c); (187%N, renamed c); (10008%N, deleted c); (chr "!", modified c); (chr "?", untracked c)].
Definition clean (c : counts) : Prop := conflicted c = 0%N /\ ahead c = 0%N /\ behind c = 0%N /\ staged c = 0%N /\ renamed c = 0%N /\ deleted c = 0%N /\ modified c = 0%N /\ untracked c = 0%N.
(** the mark is there once, with just this number behind it *)
Definition shows (m : char) (n : N) (s : str) : Prop := exists a b, s = a ++ m :: Lread_Model.show_nat n ++ b /\ ~ In m a /\ ~ In m b /\ (forall d r, b = d :: r -> ~ (48 <= d <= 57)%N).
(** a group named in a line of the file *)
Definition names_group (line : str) (c : cand) : Prop := line <> [] /\ ~ comment line /\ exists rest, Fields line (text c :: rest) /\
  ((exists pw gid more n, rest = pw :: gid :: more /\ Number gid n /\ about c = Some (lit "GID: " ++ Lread_Model.show_nat n)) \/
   ((forall pw gid more n, rest = pw :: gid :: more -> ~ Number gid n) /\ about c = None)).
(** the kinds of network devices, by the beginning of the name *)
Definition begun (l : list str) (s : str) : Prop := exists p t, In p l /\ s = p ++ t.
Definition wired : str -> Prop := begun [lit "eth"; lit "enp"; lit "eno"].
Definition wireless : str -> Prop := begun [lit "wlan"; lit "wlp"].
Definition virtual : str -> Prop := begun [lit "docker"; lit "br-"; lit "veth"].
Definition loopback (s : str) : Prop := s = lit "lo".
Inductive Rank (s : str) : nat -> Prop :=
| R_wired : wired s -> Rank s 0
| R_wireless : wireless s -> Rank s 1
| R_other : ~ wired s -> ~ wireless s -> ~ virtual s -> ~ loopback s -> Rank s 2
| R_virtual : virtual s -> Rank s 3
| R_loopback : loopback s -> Rank s 4.
(** an address of the kernel's naming scheme for wired devices by slot *)
Definition slot_name (s : str) : Prop := exists t, s = lit "ens" ++ t.

(** the request the words of mcp name *)
Inductive Asks : list str -> str -> Prop :=
| A_status a r : In a [lit "status"; lit "s"] -> Asks (a :: r) (lit "(mcp-status)")
| A_connect a l r : In a [lit "connect"; lit "c"] -> Asks (a :: l :: r) (quoted (lit "mcp-connect") l)
| A_disconnect a l r : In a [lit "disconnect"; lit "d"] -> Asks (a :: l :: r) (quoted (lit "mcp-disconnect") l)
| A_disconnect_all a : In a [lit "disconnect"; lit "d"] -> Asks [a] (lit "(mcp-disconnect-all)")
| A_list a r : In a [lit "list"; lit "l"] -> Asks (a :: r) (lit "(mcp-list)")
| A_tools a r : In a [lit "tools"; lit "t"] -> Asks (a :: r) (lit "(mcp-list-tools)").
