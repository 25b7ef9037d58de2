(** Vocabulary for the command-history properties. *)
From Verif Require Import Base History_Model.

(** the distinct commands of a sequence, ordered by their last use *)
Fixpoint by_last_use (cs : list str) : list str :=
  match cs with
  | [] => []
  | c :: r => if in_dec str_eq_dec c r then by_last_use r else c :: by_last_use r
  end.

(** what was recorded: command, time and context, in order *)
Definition recorded (batches : list (option str * list (str * Z))) : list (str * (Z * option str)) :=
  flat_map (fun b => map (fun r => (fst r, (snd r, fst b))) (snd b)) batches.
Definition times_recorded (c : str) (rs : list (str * (Z * option str))) : nat :=
  count_occ str_eq_dec (map fst rs) c.
Definition last_record (c : str) (rs : list (str * (Z * option str))) : option (Z * option str) :=
  match filter (fun r => str_eqb (fst r) c) (rev rs) with [] => None | r :: _ => Some (snd r) end.

(** how an entry known before is found *)
Definition known (c : str) (es : list entry) : option entry := find (fun e => str_eqb (cmd e) c) es.

(** the most recent command with a prefix *)
Definition most_recent (w : str) (cs : list str) (r : option str) : Prop :=
  match r with
  | Some c => exists older newer, cs = older ++ c :: newer /\ (exists t, c = w ++ t) /\
                forall d, In d newer -> forall t, d <> w ++ t
  | None => forall d, In d cs -> forall t, d <> w ++ t
  end.

(** command number [j] matches the search word *)
Definition matches (h : history) (w : str) (j : nat) : Prop :=
  exists e, nth_error (hs h) j = Some e /\ exists t, cmd e = w ++ t.
Definition command_at (h : history) (j : nat) : option str := option_map cmd (nth_error (hs h) j).

(** which entries a query wants *)
Definition wanted (lower : str -> str) (q : query) (e : entry) : Prop :=
  (forall t, text q = Some t -> exists a b, lower (cmd e) = a ++ lower t ++ b) /\
  (qstatus q = Success -> exit_code (outcome e) = Some 0%Z) /\
  (qstatus q = Failure -> exists c, exit_code (outcome e) = Some c /\ c <> 0%Z) /\
  (forall d, min_duration q = Some d -> (d <= match duration (outcome e) with Some x => x | None => 0 end)%N) /\
  (qscope q = InSession -> History_Model.session (outcome e) = current_session q) /\
  (qscope q = InCwd -> cwd (outcome e) = current_cwd q) /\
  (qscope q = InProject -> context e = current_project q).

(** what memory and table must agree on *)
Definition view (c : str) (es : list entry) : option (Z * Z * option str) :=
  match known c es with Some e => Some (when e, count e, context e) | None => None end.
