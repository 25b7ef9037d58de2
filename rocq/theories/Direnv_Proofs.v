(** Lemmas for Direnv_Props.v. *)
From Coq Require Import Lia.
From Verif Require Import Base Output_Model Env_Model Env_Props Fs_Model Direnv_Model Direnv_Spec.

(** ** Reading files *)
Lemma lines_aux_nl l s cur : ~ In 10%N l -> lines_aux cur (l ++ 10%N :: s) = strip_cr (rev cur ++ l) :: lines_aux [] s.
Proof.
  revert cur. induction l as [|c l IH]; intros cur H; cbn [app lines_aux].
  - now rewrite N.eqb_refl, app_nil_r.
  - destruct (N.eqb_spec c 10) as [->|Hc]; [exfalso; apply H; now left|].
    rewrite IH by (intros Hin; apply H; now right). cbn [rev]. now rewrite <- app_assoc.
Qed.
Lemma lines_nl l s : ~ In 10%N l -> lines (l ++ 10%N :: s) = strip_cr l :: lines s.
Proof. intros H. unfold lines. now rewrite lines_aux_nl. Qed.

Lemma splitn2_at c a b : ~ In c a -> splitn2 c (a ++ c :: b) = (a, Some b).
Proof.
  induction a as [|x a IH]; intros H; cbn [app splitn2].
  - now rewrite N.eqb_refl.
  - destruct (N.eqb_spec x c) as [->|Hx]; [exfalso; apply H; now left|].
    rewrite IH by (intros Hin; apply H; now right). reflexivity.
Qed.
Lemma splitn2_none c s : ~ In c s -> splitn2 c s = (s, None).
Proof.
  induction s as [|x a IH]; intros H; cbn [splitn2]; [reflexivity|].
  destruct (N.eqb_spec x c) as [->|Hx]; [exfalso; apply H; now left|].
  rewrite IH by (intros Hin; apply H; now right). reflexivity.
Qed.

Lemma trim_start_id (v : str) : match v with c :: _ => is_whitespace c = false | [] => True end -> trim_start v = v.
Proof. destruct v as [|c v]; intros H; cbn; [reflexivity|]. now rewrite H. Qed.
Lemma trim_id v : trimmed v -> trim v = v.
Proof.
  intros [H1 H2]. unfold trim, trim_end. rewrite (trim_start_id v H1), (trim_start_id (rev v) H2). apply rev_involutive.
Qed.
Lemma capital_trimmed k : capital k -> trimmed k.
Proof.
  intros [_ H]. split.
  - destruct k as [|c k]; [exact I|]. apply H. now left.
  - destruct (rev k) as [|c r] eqn:E; [exact I|]. apply H. apply in_rev. rewrite E. now left.
Qed.
Lemma upper_capital up k : capital k -> to_uppercase up k = k.
Proof.
  intros [_ H]. unfold to_uppercase. induction k as [|c k IH]; [reflexivity|]. cbn [flat_map].
  rewrite IH by (intros x Hx; apply H; now right).
  destruct (H c (or_introl eq_refl)) as (A & _ & _ & B). unfold up_char.
  apply N.ltb_lt in A as ->.
  destruct ((97 <=? c)%N && (c <=? 122)%N) eqn:E; [|reflexivity].
  apply andb_true_iff in E as [E1 E2]. apply N.leb_le in E1, E2. lia.
Qed.
Lemma capital_no c k : capital k -> c = chr "=" \/ is_whitespace c = true -> ~ In c k.
Proof. intros [_ H] [->|Hw] Hin; apply H in Hin as (_ & A & B & _); congruence. Qed.

Lemma strip_cr_id (l : str) : match rev l with c :: _ => c <> 13%N | [] => True end -> strip_cr l = l.
Proof. unfold strip_cr. destruct (rev l) as [|c r]; [reflexivity|]. intros H. now apply N.eqb_neq in H as ->. Qed.
Lemma last_not_cr (a v : str) : a <> [] -> match rev a with c :: _ => c <> 13%N | [] => True end ->
  match rev v with c :: _ => is_whitespace c = false | [] => True end ->
  match rev (a ++ v) with c :: _ => c <> 13%N | [] => True end.
Proof.
  intros Ha Hl Hv. rewrite rev_app_distr. destruct (rev v) as [|c r]; cbn [app]; [exact Hl|].
  intros ->. discriminate Hv.
Qed.

Lemma env_lines_ok up l :
  Forall (fun a : str * str => capital (fst a) /\ one_line (snd a) /\ trimmed (snd a)) l ->
  read_env_lines up (lines (flat_map env_line l)) = Done (map (fun a => EnvEntry (fst a) (snd a)) l).
Proof.
  induction 1 as [|[k v] l (C & O & T) _ IH]; [reflexivity|]. cbn [flat_map]. unfold env_line at 1. cbn [fst snd] in *.
  replace ((k ++ lit "=" ++ v ++ [10%N]) ++ flat_map env_line l)
    with ((k ++ lit "=" ++ v) ++ 10%N :: flat_map env_line l) by (rewrite <- !app_assoc; reflexivity).
  rewrite lines_nl.
  2:{ rewrite !in_app_iff. intros [H|[H|H]].
      - revert H. apply capital_no; [exact C|right; reflexivity].
      - cbn in H. destruct H as [H|[]]. discriminate H.
      - contradiction. }
  rewrite strip_cr_id.
  2:{ rewrite app_assoc. apply last_not_cr; [destruct k; discriminate| |apply T].
      rewrite rev_app_distr. cbn. discriminate. }
  cbn [read_env_lines]. change (k ++ lit "=" ++ v) with (k ++ chr "=" :: v). rewrite (splitn2_at (chr "=") k v) by (apply capital_no; auto).
  rewrite IH. cbn [map fst snd]. rewrite (trim_id k), (trim_id v), upper_capital by (exact T || exact C || now apply capital_trimmed).
  reflexivity.
Qed.

Lemma strip_quotes_bare v : unquoted v -> strip_quotes v = v.
Proof.
  unfold unquoted, strip_quotes. destruct v as [|c v]; [reflexivity|]. intros [A B].
  apply N.eqb_neq in A, B. rewrite A, B. reflexivity.
Qed.
Lemma strip_quotes_q q v : q = chr """" \/ q = chr "'" -> strip_quotes (q :: v ++ [q]) = v.
Proof.
  intros H. unfold strip_quotes.
  assert ((q =? chr """")%N || (q =? chr "'")%N = true) as ->.
  { destruct H as [->| ->]; reflexivity. }
  rewrite rev_app_distr. cbn [rev app]. rewrite N.eqb_refl. apply rev_involutive.
Qed.

Lemma envrc_lines_ok up l :
  Forall (fun a : style * (str * str) => capital (fst (snd a)) /\ one_line (snd (snd a)) /\
            match fst a with Bare => trimmed (snd (snd a)) /\ unquoted (snd (snd a)) | _ => True end) l ->
  read_envrc_lines up (lines (flat_map envrc_line l)) = Done (map (fun a => EnvEntry (fst a) (snd a)) (map snd l)).
Proof.
  induction 1 as [|[s [k v]] l (C & O & T) _ IH]; [reflexivity|]. cbn [flat_map]. unfold envrc_line at 1. cbn [fst snd] in *.
  set (q := quoted s v).
  assert (trimmed q /\ one_line q /\ strip_quotes q = v) as (Tq & Oq & Sq).
  { unfold q. destruct s; cbn [quoted].
    - destruct T as [T U]. split; [exact T|]. split; [exact O|]. now apply strip_quotes_bare.
    - split; [split; [reflexivity|]|split].
      + change (lit """" ++ v ++ lit """") with (chr """" :: v ++ [chr """"]). cbn [rev].
        rewrite rev_app_distr. reflexivity.
      + unfold one_line. rewrite !in_app_iff. cbn. intros [[H|[]]|[H|[H|[]]]]; try discriminate H. contradiction.
      + apply strip_quotes_q. now left.
    - split; [split; [reflexivity|]|split].
      + change (lit "'" ++ v ++ lit "'") with (chr "'" :: v ++ [chr "'"]). cbn [rev].
        rewrite rev_app_distr. reflexivity.
      + unfold one_line. rewrite !in_app_iff. cbn. intros [[H|[]]|[H|[H|[]]]]; try discriminate H. contradiction.
      + apply strip_quotes_q. now right. }
  clearbody q. clear T O.
  replace ((lit "export " ++ k ++ lit "=" ++ q ++ [10%N]) ++ flat_map envrc_line l)
    with ((lit "export " ++ k ++ lit "=" ++ q) ++ 10%N :: flat_map envrc_line l) by (rewrite <- !app_assoc; reflexivity).
  rewrite lines_nl.
  2:{ rewrite !in_app_iff. intros [H|[H|[H|H]]].
      - cbn in H. repeat (destruct H as [H|H]; [discriminate H|]). destruct H.
      - revert H. apply capital_no; [exact C|right; reflexivity].
      - cbn in H. destruct H as [H|[]]. discriminate H.
      - contradiction. }
  rewrite strip_cr_id.
  2:{ replace (lit "export " ++ k ++ lit "=" ++ q) with ((lit "export " ++ k ++ lit "=") ++ q) by (rewrite <- !app_assoc; reflexivity).
      apply last_not_cr; [discriminate| |apply Tq].
      rewrite app_assoc, rev_app_distr. cbn. discriminate. }
  cbn [read_envrc_lines].
  change (lit "export " ++ k ++ lit "=" ++ q) with (lit "export" ++ chr " " :: k ++ lit "=" ++ q).
  rewrite splitn2_at by (cbn; intros H; repeat (destruct H as [H|H]; [discriminate H|]); destruct H).
  assert (to_uppercase up (trim (lit "export")) = lit "EXPORT") as -> by reflexivity.
  assert (str_eqb (lit "EXPORT") (lit "PATH_ADD") = false) as -> by reflexivity.
  assert (str_eqb (lit "EXPORT") (lit "EXPORT") = true) as -> by reflexivity.
  rewrite (trim_id (k ++ lit "=" ++ q)).
  2:{ split.
      - destruct (capital_trimmed k C) as [H _]. destruct C as [Hk _]. destruct k; [contradiction|exact H].
      - rewrite app_assoc, rev_app_distr. destruct Tq as [_ H]. destruct (rev q); [|exact H].
        cbn [app]. rewrite rev_app_distr. reflexivity. }
  change (k ++ lit "=" ++ q) with (k ++ chr "=" :: q).
  rewrite (splitn2_at (chr "=") k q) by (apply capital_no; auto).
  rewrite IH. cbn [map fst snd]. rewrite (trim_id k), (trim_id q), upper_capital by (exact Tq || exact C || now apply capital_trimmed).
  now rewrite Sq.
Qed.

Definition as_entries (l : list (str * str)) : list entry := map (fun a => EnvEntry (fst a) (snd a)) l.

Lemma read_written up w : good w -> read_env_file up (written w) = Done (as_entries (assignments w)).
Proof.
  destruct w as [|l|l]; intros G; unfold read_env_file; cbn [written dotenv envrc assignments].
  - reflexivity.
  - now apply env_lines_ok.
  - now apply envrc_lines_ok.
Qed.

(** ** Setting and removing *)
Lemma set_env_var_system k v e : system (set_env_var k v e) = insert k v (system e).
Proof. unfold set_env_var. now destruct (str_eqb k PATH). Qed.
Lemma unset_env_var_system k e : system (unset_env_var k e) = remove k (system e).
Proof. unfold unset_env_var. now destruct (str_eqb k PATH). Qed.

Lemma set_entries_ok l : forall p e k,
  fst (set_entries (as_entries l) p e) = p /\
  assoc k (system (snd (set_entries (as_entries l) p e))) =
    match last_value k l with Some v => Some v | None => assoc k (system e) end.
Proof.
  induction l as [|[k' v] l IH]; intros p e k; cbn [as_entries map set_entries last_value fst snd]; [split; reflexivity|].
  destruct (IH p (set_env_var k' v e) k) as [A B]. fold (as_entries l). split; [exact A|]. rewrite B.
  destruct (last_value k l); [reflexivity|]. rewrite set_env_var_system, assoc_insert.
  destruct (str_eq_dec k k') as [->|Hk].
  - now rewrite str_eqb_refl.
  - destruct (str_eqb_spec k k'); [contradiction|reflexivity].
Qed.

Lemma last_value_none k l : last_value k l = None <-> ~ In k (map fst l).
Proof.
  induction l as [|[k' v] l IH]; cbn; [tauto|].
  destruct (last_value k l) eqn:E.
  - split; [discriminate|]. intros H. exfalso. apply H. right.
    destruct (in_dec str_eq_dec k (map fst l)) as [i|i]; [exact i|]. apply IH in i. discriminate i.
  - destruct (str_eqb_spec k k') as [->|Hk].
    + split; [discriminate|]. intros H. exfalso. apply H. now left.
    + split; [|reflexivity]. intros _ [H|H]; [congruence|]. now apply IH in H.
Qed.

Lemma set_env_ok l e k pv : assoc PATH (system e) = Some pv -> ~ In PATH (map fst l) ->
  assoc k (system (set_env (as_entries l) e)) =
    match last_value k l with Some v => Some v | None => assoc k (system e) end.
Proof.
  intros HP HN. unfold set_env. rewrite HP.
  destruct (set_entries (as_entries l) pv e) as [p' e'] eqn:E.
  destruct (set_entries_ok l pv e k) as [A B]. rewrite E in A, B. cbn [fst snd] in A, B. subst p'.
  rewrite set_env_var_system, assoc_insert. destruct (str_eq_dec k PATH) as [->|Hk]; [|exact B].
  apply last_value_none in HN. now rewrite HN.
Qed.

Lemma fold_unset l : forall e k,
  assoc k (system (fold_left (fun e x => match x with EnvEntry k _ => unset_env_var k e | PathAdd _ => e end) (as_entries l) e)) =
  if in_dec str_eq_dec k (map fst l) then None else assoc k (system e).
Proof.
  induction l as [|[k' v] l IH]; intros e k; cbn [as_entries map fold_left fst]; [reflexivity|].
  fold (as_entries l). rewrite IH, unset_env_var_system, assoc_remove.
  destruct (in_dec str_eq_dec k (map fst l)) as [i|i].
  - destruct (in_dec str_eq_dec k (k' :: map fst l)) as [j|j]; [reflexivity|]. exfalso. apply j. now right.
  - destruct (str_eq_dec k k') as [->|Hk].
    + destruct (in_dec str_eq_dec k' (k' :: map fst l)) as [j|j]; [reflexivity|]. exfalso. apply j. now left.
    + destruct (in_dec str_eq_dec k (k' :: map fst l)) as [[j|j]|j]; [congruence|contradiction|reflexivity].
Qed.
Lemma no_path_add l : existsb is_path_add (as_entries l) = false.
Proof. induction l as [|a l IH]; [reflexivity|exact IH]. Qed.
Lemma remove_env_ok d l e k : entries d = as_entries l ->
  assoc k (system (remove_env d e)) = if in_dec str_eq_dec k (map fst l) then None else assoc k (system e).
Proof. intros E. unfold remove_env. rewrite E, no_path_add. apply fold_unset. Qed.

(** ** The values in force *)
Fixpoint value (acts : list (option wanted)) (base : str -> option str) (k : str) : option str :=
  match acts with
  | [] => base k
  | None :: r => value r base k
  | Some w :: r => match last_value k (assignments w) with Some v => Some v | None => value r base k end
  end.
Definition absent (k : str) (a : option wanted) : Prop := match a with Some w => ~ In k (names w) | None => True end.
Lemma value_absent acts base k : Forall (absent k) acts -> value acts base k = base k.
Proof.
  induction 1 as [|[w|] r H _ IH]; cbn [value]; [reflexivity| |exact IH].
  apply last_value_none in H. now rewrite H.
Qed.
Lemma value_here a w b base k v : Forall (absent k) a -> last_value k (assignments w) = Some v ->
  value (a ++ Some w :: b) base k = Some v.
Proof.
  intros H E. induction H as [|[x|] r H _ IH]; cbn [app value]; [now rewrite E| |exact IH].
  apply last_value_none in H. now rewrite H.
Qed.
Lemma value_skip a w b base k : absent k w -> value (a ++ w :: b) base k = value (a ++ None :: b) base k.
Proof.
  intros H. induction a as [|[x|] a IH]; cbn [app value]; [|rewrite IH; reflexivity|exact IH].
  destruct w as [w|]; [|reflexivity]. apply last_value_none in H. now rewrite H.
Qed.

(** ** A session *)
Section Session.
Variable up : char -> str.
Variables (start : list str) (e0 : env) (allowed : list (list str)) (p pv : str) (steps : list step).
Hypothesis Sep : separate allowed e0 steps.
Hypothesis Good : forall s d, In s steps -> In d allowed -> good (fst s d).
Hypothesis HasPath : assoc PATH (system e0) = Some pv.

Definition own (r : list str) (x : wanted) : Prop := exists s, In s steps /\ x = fst s r.
Definition ent_of (r : list str) (a : option wanted) : dirent :=
  match a with
  | Some x => Dirent r (as_entries (assignments x)) p true
  | None => Dirent r [] p false
  end.

Lemma in_force_own r hist x : incl hist steps -> in_force r hist = Some x -> own r x.
Proof.
  revert x. induction hist as [|[w [d|]] hist IH]; intros x HI E; cbn [in_force] in E; [discriminate E| |].
  - destruct (path_starts_with r d); [|discriminate E].
    destruct (in_force r hist) as [y|] eqn:F.
    + injection E as <-. apply IH; [|reflexivity]. intros s Hs. apply HI. now right.
    + injection E as <-. exists (w, Some d). split; [apply HI; now left|reflexivity].
  - apply IH; [|exact E]. intros s Hs. apply HI. now right.
Qed.

Lemma own_absent r r' x k hist : incl hist steps -> In r allowed -> In r' allowed -> r <> r' ->
  own r x -> In k (names x) -> absent k (in_force r' hist).
Proof.
  intros HI Hr Hr' Hne (s & Hs & ->) Hk. unfold absent. destruct (in_force r' hist) as [y|] eqn:E; [|exact I].
  destruct (in_force_own _ _ _ HI E) as (s' & Hs' & ->). intros Hk'. apply Hne.
  destruct Sep as (_ & _ & D). exact (D s s' r r' k Hs Hs' Hr Hr' Hk Hk').
Qed.
Lemma path_absent r hist : incl hist steps -> In r allowed -> absent PATH (in_force r hist).
Proof.
  intros HI Hr. unfold absent. destruct (in_force r hist) as [y|] eqn:E; [|exact I].
  destruct (in_force_own _ _ _ HI E) as (s' & Hs' & ->). intros Hk.
  destruct Sep as (_ & D & _). destruct (D _ _ _ Hs' Hr Hk) as [H _]. congruence.
Qed.

Lemma own_of_hist r hist x k : incl hist steps -> In r allowed -> in_force r hist = Some x -> In k (names x) ->
  k <> PATH /\ k <> PWD /\ assoc k (system e0) = None.
Proof.
  intros HI Hr E Hk. destruct (in_force_own _ _ _ HI E) as (s & Hs & ->).
  destruct Sep as (_ & D & _). exact (D _ _ _ Hs Hr Hk).
Qed.

Lemma check_roots_ok wf d hist base :
  incl ((wf, Some d) :: hist) steps ->
  base PATH = Some pv ->
  (forall r x k, In r allowed -> own r x -> In k (names x) -> base k = None) ->
  forall rs pre e,
    NoDup (pre ++ rs) -> incl (pre ++ rs) allowed ->
    (forall k, assoc k (system e) =
       value (map (fun r => in_force r ((wf, Some d) :: hist)) pre ++ map (fun r => in_force r hist) rs) base k) ->
    exists e', check_roots up (fun q => written (wf q)) d (map (fun r => ent_of r (in_force r hist)) rs) e =
                 (Done tt, map (fun r => ent_of r (in_force r ((wf, Some d) :: hist))) rs, e') /\
               forall k, assoc k (system e') = value (map (fun r => in_force r ((wf, Some d) :: hist)) (pre ++ rs)) base k.
Proof.
  intros HI BP BN. set (new := fun r => in_force r ((wf, Some d) :: hist)). set (old := fun r => in_force r hist).
  assert (incl hist steps) as HI' by (intros s Hs; apply HI; now right).
  induction rs as [|r rs IH]; intros pre e ND HA HV.
  { exists e. split; [reflexivity|]. intros k. rewrite HV, app_nil_r. cbn [map]. now rewrite app_nil_r. }
  assert (In r allowed) as Hr by (apply HA, in_elt).
  assert (forall q, In q pre \/ In q rs -> In q allowed /\ r <> q) as Others.
  { intros q Hq. split; [apply HA, in_app_iff; cbn; tauto|].
    intros ->. apply NoDup_remove_2 in ND. apply ND, in_app_iff. tauto. }
  assert (forall x k, own r x -> In k (names x) -> Forall (absent k) (map new pre) /\ Forall (absent k) (map old rs)) as Abs.
  { intros x k Ho Hk. split; apply Forall_forall; intros a Ha; apply in_map_iff in Ha as (q & <- & Hq);
      destruct (Others q) as [Hq1 Hq2]; auto; [apply (own_absent r q x k); auto|apply (own_absent r q x k); auto]. }
  assert (forall e1, (forall k, assoc k (system e1) = value (map new pre ++ new r :: map old rs) base k) ->
    exists e', check_roots up (fun q => written (wf q)) d (map (fun r => ent_of r (in_force r hist)) rs) e1 =
                 (Done tt, map (fun r => ent_of r (in_force r ((wf, Some d) :: hist))) rs, e') /\
               forall k, assoc k (system e') = value (map new (pre ++ r :: rs)) base k) as Go.
  { intros e1 H1. destruct (IH (pre ++ [r]) e1) as (e' & A & B).
    - now rewrite <- app_assoc.
    - now rewrite <- app_assoc.
    - intros k. rewrite map_app, <- app_assoc. apply H1.
    - exists e'. split; [exact A|]. intros k. rewrite B, <- app_assoc. reflexivity. }
  cbn [map check_roots]. fold (old r). fold (new r).
  assert (dpath (ent_of r (old r)) = r) as -> by (now destruct (old r)).
  assert (loaded (ent_of r (old r)) = match old r with Some _ => true | None => false end) as -> by (now destruct (old r)).
  assert (new r = if path_starts_with r d then match old r with Some x => Some x | None => Some (wf r) end else None) as En by reflexivity.
  cbn [map] in HV.
  destruct (path_starts_with r d), (old r) as [x|] eqn:Eo; cbn [negb andb].
  - destruct (Go e) as (e' & A & B).
    { intros k. rewrite HV, En. reflexivity. }
    exists e'. rewrite A, En. split; [reflexivity|exact B].
  - assert (own r (wf r)) as Ho by (exists (wf, Some d); split; [apply HI; now left|reflexivity]).
    rewrite read_written by (apply (Good (wf, Some d)); [apply HI; now left|exact Hr]).
    cbn [ent_of entries dpath env_path app].
    destruct (Go (set_env (as_entries (assignments (wf r))) e)) as (e' & A & B).
    { intros k. rewrite (set_env_ok _ _ _ pv).
      - rewrite En, HV. destruct (last_value k (assignments (wf r))) as [v|] eqn:Ev.
        + symmetry. apply value_here; [|exact Ev].
          destruct (Abs (wf r) k Ho) as [F _]; [|exact F].
          destruct (in_dec str_eq_dec k (names (wf r))) as [i|i]; [exact i|].
          apply last_value_none in i. congruence.
        + symmetry. apply value_skip. now apply last_value_none.
      - rewrite HV. rewrite value_absent; [exact BP|]. apply Forall_app. split; [|constructor; [exact I|]];
          apply Forall_forall; intros a Ha; apply in_map_iff in Ha as (q & <- & Hq);
          (apply path_absent; [assumption|apply Others; tauto]).
      - intros Hk. pose proof (path_absent r ((wf, Some d) :: hist) HI Hr) as P. fold (new r) in P. rewrite En in P.
        exact (P Hk). }
    exists e'. rewrite A, En. split; [reflexivity|exact B].
  - pose proof (in_force_own r hist x HI' Eo) as Ho.
    destruct (Go (remove_env (ent_of r (Some x)) e)) as (e' & A & B).
    { intros k. rewrite (remove_env_ok _ (assignments x)) by reflexivity. rewrite En, HV.
      destruct (in_dec str_eq_dec k (map fst (assignments x))) as [i|i].
      - destruct (Abs x k Ho i) as [F1 F2]. rewrite value_absent; [symmetry; now apply (BN r x)|].
        apply Forall_app. split; [exact F1|constructor; [exact I|exact F2]].
      - now rewrite value_skip. }
    exists e'. rewrite A, En. split; [reflexivity|exact B].
  - destruct (Go e) as (e' & A & B).
    { intros k. rewrite HV, En. reflexivity. }
    exists e'. rewrite A, En. split; [reflexivity|exact B].
Qed.

Fixpoint last_target (hist : list step) : option (list str) :=
  match hist with [] => None | (_, Some d) :: _ => Some d | (_, None) :: h => last_target h end.
Definition base (hist : list step) (k : str) : option str :=
  if str_eq_dec k PWD then match last_target hist with Some d => Some (show_path d) | None => assoc PWD (system e0) end
  else assoc k (system e0).

Record Inv (hist : list step) (w : world) : Prop := {
  inv_cwd : cwd w = place start hist;
  inv_roots : roots w = map (fun r => ent_of r (in_force r hist)) allowed;
  inv_env : forall k, assoc k (system (wenv w)) = value (map (fun r => in_force r hist) allowed) (base hist) k;
}.

Lemma value_base acts b b' k : b k = b' k -> value acts b k = value acts b' k.
Proof. intros H. induction acts as [|[x|] a IH]; cbn [value]; [exact H|now rewrite IH|exact IH]. Qed.

Lemma step_ok hist s w : incl (s :: hist) steps -> Inv hist w ->
  exists o w', changepwd up (fst (files s)) (snd (files s)) w = (o, w') /\ o <> Panicked /\ Inv (s :: hist) w'.
Proof.
  intros HI [C R E]. destruct s as [wf [d|]]; cbn [files fst snd].
  - unfold changepwd, check_path.
    set (e1 := set_env_var PWD (show_path d) (set_var OLDPWD (show_path (cwd w)) (wenv w))).
    destruct (check_roots_ok wf d hist (base ((wf, Some d) :: hist)) HI) with (rs := allowed) (pre := @nil (list str)) (e := e1) as (e' & A & B).
    + exact HasPath.
    + intros r x k Hr (s & Hs & ->) Hk. destruct Sep as (_ & D & _). destruct (D _ _ _ Hs Hr Hk) as (_ & H1 & H2).
      unfold base. destruct (str_eq_dec k PWD); [contradiction|exact H2].
    + apply Sep.
    + apply incl_refl.
    + intros k. unfold e1. rewrite set_env_var_system. cbn [app map]. rewrite assoc_insert.
      destruct (str_eq_dec k PWD) as [->|Hk].
      * rewrite value_absent; [reflexivity|]. apply Forall_forall. intros a Ha. apply in_map_iff in Ha as (q & <- & Hq).
        unfold absent. destruct (in_force q hist) as [y|] eqn:F; [|exact I]. intros Hy.
        destruct (own_of_hist q hist y PWD) as (_ & H & _); auto. intros t Ht. apply HI. now right.
      * cbn [system set_var set_variables]. rewrite E. apply value_base. unfold base. now destruct (str_eq_dec k PWD).
    + rewrite R, A. eexists. eexists. split; [reflexivity|]. split; [discriminate|]. split.
      * reflexivity.
      * reflexivity.
      * exact B.
  - unfold changepwd. eexists. eexists. split; [reflexivity|]. split; [discriminate|]. split; cbn [cwd roots wenv].
    + exact C.
    + exact R.
    + exact E.
Qed.

Lemma changes_ok : forall todo hist w, incl (rev todo ++ hist) steps -> Inv hist w ->
  exists w', changes up (map files todo) w = (Done tt, w') /\ Inv (rev todo ++ hist) w'.
Proof.
  induction todo as [|s todo IH]; intros hist w HI I.
  { exists w. split; [reflexivity|exact I]. }
  cbn [rev] in HI |- *. rewrite <- app_assoc in HI |- *. cbn [app] in HI |- *.
  destruct (step_ok hist s w) as (o & w1 & A & N & I1).
  { intros x Hx. apply HI, in_app_iff. now right. }
  { exact I. }
  destruct (IH (s :: hist) w1 HI I1) as (w' & A' & I').
  exists w'. split; [|exact I']. cbn [map changes]. rewrite (surjective_pairing (files s)). rewrite A.
  destruct o; [exact A'|exact A'|contradiction].
Qed.

Lemma fresh_inv : Inv [] (fresh start e0 allowed p).
Proof.
  split; cbn [cwd roots wenv fresh place in_force].
  - reflexivity.
  - reflexivity.
  - intros k. rewrite value_absent.
    + unfold base. cbn [last_target]. now destruct (str_eq_dec k PWD) as [->|].
    + apply Forall_forall. intros a Ha. apply in_map_iff in Ha as (q & <- & _). exact I.
Qed.
End Session.
