(** The project manager: C141 and C142. *)
From Coq Require Import Permutation Sorted.
From Verif Require Import Base Output_Model Env_Model Env_Spec Env_Props Fs_Model Fs_Proofs Direnv_Model Project_Model Project_Spec.

(** ** small facts *)
Lemma path_eqb_iff a b : path_eqb a b = true <-> a = b.
Proof.
  revert b. induction a as [|x a IH]; intros [|y b]; cbn [path_eqb]; try (split; [discriminate|intros E; discriminate E]); [tauto|].
  rewrite andb_true_iff, str_eqb_eq, IH. split; [intros [-> ->]; reflexivity|intros E; injection E as -> ->; auto].
Qed.
Lemma named_iff n p : named n p = true <-> pname p = n.
Proof. apply str_eqb_eq. Qed.
Lemma at_path_iff d p : at_path d p = true <-> ppath p = d.
Proof. apply path_eqb_iff. Qed.

(** the name that pm add registers a directory under *)
Definition name_for (given : option str) (d : list str) (n : str) : Prop :=
  given = Some n \/ (given = None /\ exists up, d = up ++ [n]).
Lemma last_app_one {A} (l : list A) x d : last (l ++ [x]) d = x.
Proof. induction l as [|a l IH]; [reflexivity|]. cbn. destruct (l ++ [x]) eqn:E; [destruct l; discriminate E|exact IH]. Qed.
Lemma file_name_iff d n : file_name d = Some n <-> exists up, d = up ++ [n].
Proof.
  unfold file_name. split.
  - destruct d as [|x d] using rev_ind; [discriminate|]. rewrite map_app. cbn [map]. rewrite last_app_one. intros E. injection E as <-. exists d. reflexivity.
  - intros (up & ->). rewrite map_app. cbn [map]. apply last_app_one.
Qed.
Lemma name_for_fun given d n m : name_for given d n -> name_for given d m -> n = m.
Proof.
  intros [E|(E & u & U)] [F|(F & v & V)]; try congruence. rewrite U in V. apply app_inj_tail in V as [_ V]. exact V.
Qed.
Lemma name_for_iff given d n : name_for given d n <-> (match given with Some m => Some m | None => file_name d end) = Some n.
Proof.
  unfold name_for. destruct given as [m|]; [split; [intros [E|[E _]]; congruence|intros E; left; exact E]|].
  rewrite file_name_iff. split; [intros [E|[_ E]]; [discriminate E|exact E]|intros E; right; auto].
Qed.

(** ** C141: what is registered *)
Definition names (ps : list project) := map pname ps.
Definition places (ps : list project) := map ppath ps.
Lemma any_named n ps : existsb (named n) ps = true <-> In n (names ps).
Proof.
  rewrite existsb_exists. unfold names. rewrite in_map_iff. split; intros (p & A & B); exists p.
  - split; [apply named_iff, B|exact A].
  - split; [exact B|apply named_iff, A].
Qed.
Lemma any_at d ps : existsb (at_path d) ps = true <-> In d (places ps).
Proof.
  rewrite existsb_exists. unfold places. rewrite in_map_iff. split; intros (p & A & B); exists p.
  - split; [apply at_path_iff, B|exact A].
  - split; [exact B|apply at_path_iff, A].
Qed.

(** pm add registers the directory under the name, keeping the others, exactly when neither is taken *)
Theorem C141_add : forall dir given now ps,
  match add dir given now ps with
  | Some ps' => exists d n, dir = Some d /\ name_for given d n /\ ~ In n (names ps) /\ ~ In d (places ps) /\
                  ps' = ps ++ [Project n d now now]
  | None => dir = None \/ exists d, dir = Some d /\ ((forall n, ~ name_for given d n) \/ (exists n, name_for given d n /\ In n (names ps)) \/ In d (places ps))
  end.
Proof.
  intros [d|] given now ps; cbn [add]; [|left; reflexivity].
  destruct (match given with Some n => Some n | None => file_name d end) as [n|] eqn:E.
  - pose proof (proj2 (name_for_iff given d n) E) as F. destruct (existsb (named n) ps) eqn:A.
    { right. exists d. split; [reflexivity|]. right. left. exists n. split; [exact F|apply any_named, A]. }
    destruct (existsb (at_path d) ps) eqn:B.
    { right. exists d. split; [reflexivity|]. right. right. apply any_at, B. }
    exists d, n. split; [reflexivity|]. split; [exact F|]. split; [intros X; apply any_named in X; congruence|].
    split; [intros X; apply any_at in X; congruence|reflexivity].
  - right. exists d. split; [reflexivity|]. left. intros n F. apply name_for_iff in F. congruence.
Qed.
Print Assumptions C141_add.

(** pm remove drops exactly the projects of that name, and fails when there is none *)
Theorem C141_remove : forall n ps,
  match remove_project n ps with
  | Some ps' => In n (names ps) /\ (forall p, In p ps' <-> In p ps /\ pname p <> n) /\ exists f, ps' = filter f ps
  | None => ~ In n (names ps)
  end.
Proof.
  intros n ps. unfold remove_project. set (f := fun p => negb (named n p)).
  assert (K : forall p, In p (filter f ps) <-> In p ps /\ pname p <> n).
  { intros p. rewrite filter_In. unfold f. rewrite negb_true_iff. split; intros [A B]; split; auto.
    - intros E. apply named_iff in E. congruence.
    - destruct (named n p) eqn:E; [apply named_iff in E; congruence|reflexivity]. }
  assert (L : length (filter f ps) <= length ps /\ (length (filter f ps) = length ps <-> ~ In n (names ps))).
  { clear K. induction ps as [|p ps [IH1 IH2]]; [split; [cbn; lia|split; [intros _ []|reflexivity]]|]. cbn [filter names map length].
    replace (f p) with (negb (named n p)) by reflexivity. destruct (named n p) eqn:E; cbn [negb length].
    - apply named_iff in E. split; [lia|]. split; [lia|]. intros X. exfalso. apply X. left. exact E.
    - split; [lia|]. split.
      + intros X [Y|Y]; [apply named_iff in Y; congruence|]. assert (length (filter f ps) = length ps) as Z by lia. apply IH2 in Z. contradiction.
      + intros X. f_equal. apply IH2. intros Y. apply X. right. exact Y. }
  destruct (Nat.eqb_spec (length (filter f ps)) (length ps)) as [E|E].
  - apply L, E.
  - split; [|split; [exact K|exists f; reflexivity]].
    destruct (in_dec str_eq_dec n (names ps)) as [H|H]; [exact H|]. apply L in H. contradiction.
Qed.
Print Assumptions C141_remove.

Lemma touch_spec n now ps :
  match touch n now ps with
  | Some (p', ps') => exists a p b, ps = a ++ p :: b /\ pname p = n /\ ~ In n (names a) /\
                        p' = Project n (ppath p) now (created p) /\ ps' = a ++ p' :: b
  | None => ~ In n (names ps)
  end.
Proof.
  induction ps as [|p ps IH]; [intros []|]. cbn [touch]. destruct (named n p) eqn:E.
  - apply named_iff in E. exists [], p, ps. subst n. split; [reflexivity|]. split; [reflexivity|]. split; [intros []|]. split; reflexivity.
  - assert (pname p <> n) as D by (intros X; apply named_iff in X; congruence).
    destruct (touch n now ps) as [[q r]|].
    + destruct IH as (a & x & b & -> & X & NA & -> & ->). exists (p :: a), x, b. split; [reflexivity|]. split; [exact X|].
      split; [intros [Y|Y]; [contradiction|exact (NA Y)]|]. split; reflexivity.
    + intros [Y|Y]; [contradiction|exact (IH Y)].
Qed.
Lemma touch_names n now ps p ps' : touch n now ps = Some (p, ps') -> map (fun q => (pname q, ppath q)) ps' = map (fun q => (pname q, ppath q)) ps.
Proof.
  intros E. pose proof (touch_spec n now ps) as T. rewrite E in T. destruct T as (a & x & b & -> & X & _ & -> & ->).
  rewrite !map_app. cbn [map pname ppath]. rewrite X. reflexivity.
Qed.
Lemma go_projects up fs enters d s : projects (snd (go up fs enters d s)) = projects s.
Proof. unfold go. destruct (changepwd up fs _ (world_ s)) as [[u| |] w]; reflexivity. Qed.

Definition keys (s : desk) := map (fun q => (pname q, ppath q)) (projects s).
Lemma keys_iff s n d : In (n, d) (keys s) <-> exists p, In p (projects s) /\ pname p = n /\ ppath p = d.
Proof.
  unfold keys. rewrite in_map_iff. split; intros (p & A & B); exists p.
  - injection A as <- <-. auto.
  - destruct B as [<- <-]. auto.
Qed.
Lemma work_keys up fs enters n now s : keys (snd (work up fs enters n now s)) = keys s.
Proof.
  unfold work, keys. destruct (touch n now (projects s)) as [[p ps]|] eqn:E; [|reflexivity]. rewrite go_projects. exact (touch_names _ _ _ _ _ E).
Qed.

(** the command registers [d] as [n] *)
Definition registers (c : pm) (n : str) (d : list str) : Prop := exists given now, c = PmAdd (Some d) given now /\ name_for given d n.

Lemma step_keys up fs enters c s n d :
  In (n, d) (keys (snd (step up fs enters c s))) <->
  (In (n, d) (keys s) /\ ~ (c = PmRemove (Some n) /\ fst (step up fs enters c s) = Done tt)) \/
  (registers c n d /\ fst (step up fs enters c s) = Done tt).
Proof.
  assert (Same : forall o s', step up fs enters c s = (o, s') -> keys s' = keys s ->
    (forall m, c <> PmRemove (Some m)) -> (forall x g t, c <> PmAdd x g t) ->
    (In (n, d) (keys (snd (step up fs enters c s))) <->
     (In (n, d) (keys s) /\ ~ (c = PmRemove (Some n) /\ fst (step up fs enters c s) = Done tt)) \/
     (registers c n d /\ fst (step up fs enters c s) = Done tt))).
  { intros o s' E K R A. rewrite E. cbn [fst snd]. rewrite K. split.
    - intros H. left. split; [exact H|]. intros [X _]. exact (R _ X).
    - intros [[H _]|[(g & t & X & _) _]]; [exact H|destruct (A _ _ _ X)]. }
  destruct c as [dir given now|[m|]|[m|] now| |[m|] choice now|dir].
  - cbn [step]. pose proof (C141_add dir given now (projects s)) as A. destruct (add dir given now (projects s)) as [ps|].
    + destruct A as (x & m & -> & F & _ & _ & ->). unfold keys. cbn [fst snd projects]. rewrite map_app, in_app_iff. cbn [map In pname ppath]. split.
      * intros [H|[H|[]]]; [left; split; [exact H|intros [X _]; discriminate X]|]. injection H as <- <-. right. split; [|reflexivity]. exists given, now. auto.
      * intros [[H _]|[(g & t & X & Y) _]]; [left; exact H|]. injection X as -> <- <-. right. left. rewrite (name_for_fun _ _ _ _ F Y). reflexivity.
    + cbn [fst snd]. split; [intros H; left; split; [exact H|intros [X _]; discriminate X]|]. intros [[H _]|[_ X]]; [exact H|discriminate X].
  - cbn [step]. pose proof (C141_remove m (projects s)) as R. destruct (remove_project m (projects s)) as [ps|].
    + destruct R as (_ & R & _). cbn [fst snd]. rewrite !keys_iff. cbn [projects]. split.
      * intros (p & P & <- & <-). apply R in P as [P Q]. left. split; [exists p; auto|]. intros [X _]. injection X as ->. congruence.
      * intros [[(p & P & X & Y) Z]|[(g & t & X & _) _]]; [|discriminate X]. exists p. split; [apply R; split; [exact P|]|auto].
        intros W. apply Z. split; [congruence|reflexivity].
    + cbn [fst snd]. split; [intros H; left; split; [exact H|intros [_ X]; discriminate X]|]. intros [[H _]|[_ X]]; [exact H|discriminate X].
  - cbn [step fst snd]. split; [intros H; left; split; [exact H|intros [_ X]; discriminate X]|]. intros [[H _]|[_ X]]; [exact H|discriminate X].
  - eapply Same; try discriminate; [apply surjective_pairing|]. apply work_keys.
  - apply (Same Failed s); try discriminate; reflexivity.
  - apply (Same (Done tt) s); try discriminate; reflexivity.
  - eapply Same; try discriminate; [apply surjective_pairing|]. apply work_keys.
  - eapply Same; try discriminate; [apply surjective_pairing|].
    cbn [step]. destruct (projects s) eqn:P; [reflexivity|]. rewrite <- P.
    destruct (choice (map pname (sorted (projects s)))) as [m|]; [apply work_keys|reflexivity].
  - eapply Same; try discriminate; [apply surjective_pairing|]. unfold keys. cbn [step]. rewrite go_projects. reflexivity.
Qed.

(** some pm add registered it, and no later pm remove took the name out *)
Definition registered (h : list (pm * outcome unit)) (n : str) (d : list str) : Prop :=
  exists before c after, h = before ++ (c, Done tt) :: after /\ registers c n d /\ ~ In (PmRemove (Some n), Done tt) after.

Lemma session_keys up fs enters n d cs : forall s,
  In (n, d) (keys (snd (session up fs enters cs s))) <->
  (In (n, d) (keys s) /\ ~ In (PmRemove (Some n), Done tt) (fst (session up fs enters cs s))) \/
  registered (fst (session up fs enters cs s)) n d.
Proof.
  induction cs as [|c cs IH]; intros s.
  { cbn [session fst snd]. split; [intros H; left; split; [exact H|intros []]|]. intros [[H _]|(b & x & a & E & _)]; [exact H|destruct b; discriminate E]. }
  pose proof (step_keys up fs enters c s n d) as K. cbn [session]. destruct (step up fs enters c s) as [o s'] eqn:E. cbn [fst snd] in K.
  assert (One : forall h fin, (In (n, d) (keys fin) <-> (In (n, d) (keys s') /\ ~ In (PmRemove (Some n), Done tt) h) \/ registered h n d) ->
    (In (n, d) (keys fin) <-> (In (n, d) (keys s) /\ ~ In (PmRemove (Some n), Done tt) ((c, o) :: h)) \/ registered ((c, o) :: h) n d)).
  { intros h fin X. rewrite X, K. clear X K. split.
    - intros [[[[A B]|[A B]] C]|(b & x & a & -> & R & N)].
      + left. split; [exact A|]. intros [D|D]; [injection D as -> ->; apply B; auto|exact (C D)].
      + right. exists [], c, h. rewrite B. split; [reflexivity|]. split; [exact A|exact C].
      + right. exists ((c, o) :: b), x, a. split; [reflexivity|]. split; [exact R|exact N].
    - intros [[A B]|(b & x & a & X & R & N)].
      + left. split; [left; split; [exact A|]|intros D; apply B; right; exact D]. intros [-> ->]. apply B. left. reflexivity.
      + destruct b as [|y b]; cbn [app] in X.
        * injection X as -> -> ->. left. split; [right; split; [exact R|reflexivity]|exact N].
        * injection X as _ ->. right. exists b, x, a. split; [reflexivity|]. split; [exact R|exact N]. }
  destruct o as [u| |].
  - specialize (IH s'). destruct (session up fs enters cs s') as [h fin]. cbn [fst snd] in IH |- *. apply One, IH.
  - specialize (IH s'). destruct (session up fs enters cs s') as [h fin]. cbn [fst snd] in IH |- *. apply One, IH.
  - cbn [fst snd]. apply One. cbn [In]. unfold registered. split; [intros H; left; tauto|]. intros [[H _]|(b & x & a & X & _)]; [exact H|destruct b; discriminate X].
Qed.

(** C141: after any sequence of commands, the projects listed are the ones some pm add
    registered and no later pm remove took out *)
Theorem C141_registered : forall up fs enters cs s n d, projects s = [] ->
  (exists p, In p (list_projects (projects (snd (session up fs enters cs s)))) /\ pname p = n /\ ppath p = d) <->
  registered (fst (session up fs enters cs s)) n d.
Proof.
  intros up fs enters cs s n d E. pose proof (session_keys up fs enters n d cs s) as K.
  assert (Z : keys s = []) by (unfold keys; rewrite E; reflexivity). rewrite Z in K. rewrite keys_iff in K.
  assert (S : forall p ps, In p (list_projects ps) <-> In p ps).
  { intros p ps. unfold list_projects. assert (I : forall q l, In p (ins q l) <-> q = p \/ In p l).
    { intros q l. induction l as [|x l IH]; [cbn; tauto|]. cbn [ins]. destruct (accessed x <=? accessed q)%N; cbn [In]; [tauto|]. rewrite IH. tauto. }
    induction ps as [|q ps IH]; [tauto|]. cbn [sorted fold_right In]. fold (sorted ps). rewrite I, IH. tauto. }
  split.
  - intros (p & P & A & B). apply (proj1 (S p _)) in P. destruct (proj1 K (ex_intro _ p (conj P (conj A B)))) as [[[] _]|R]; exact R.
  - intros R. destruct (proj2 K (or_intror R)) as (p & P & A). exists p. split; [apply S, P|exact A].
Qed.
Print Assumptions C141_registered.

(** no two projects ever have one name or one directory *)
Lemma unique_step up fs enters c s : NoDup (names (projects s)) /\ NoDup (places (projects s)) ->
  NoDup (names (projects (snd (step up fs enters c s)))) /\ NoDup (places (projects (snd (step up fs enters c s)))).
Proof.
  intros [U V].
  assert (Keep : forall s', keys s' = keys s -> NoDup (names (projects s')) /\ NoDup (places (projects s'))).
  { intros s' K. assert (A : forall t, names (projects t) = map fst (keys t)) by (intros t; unfold names, keys; rewrite map_map; reflexivity).
    assert (B : forall t, places (projects t) = map snd (keys t)) by (intros t; unfold places, keys; rewrite map_map; reflexivity).
    rewrite A, B, K, <- A, <- B. auto. }
  assert (W : forall m t, NoDup (names (projects (snd (work up fs enters m t s)))) /\ NoDup (places (projects (snd (work up fs enters m t s))))).
  { intros m t. apply Keep, work_keys. }
  destruct c as [dir given now|[m|]|[m|] now| |[m|] choice now|dir]; cbn [step]; auto.
  - pose proof (C141_add dir given now (projects s)) as A. destruct (add dir given now (projects s)) as [ps|]; [|auto].
    destruct A as (d & n & _ & _ & A & B & ->). cbn [snd projects]. unfold names, places in *. rewrite !map_app. cbn [map pname ppath].
    split; apply NoDup_Add with (a := n) (l := map pname (projects s)) || apply NoDup_Add with (a := d) (l := map ppath (projects s)); auto.
    all: try (pose proof (Add_app n (map pname (projects s)) []) as X; rewrite app_nil_r in X; exact X);
         try (pose proof (Add_app d (map ppath (projects s)) []) as X; rewrite app_nil_r in X; exact X).
  - unfold remove_project. set (f := fun p => negb (named m p)). destruct (length (filter f (projects s)) =? length (projects s)); [auto|]. cbn [snd projects].
    unfold names, places in *. generalize (projects s) U V. clear. intros ps. induction ps as [|p ps IH]; intros U V; [auto|]. cbn [map] in U, V.
    inversion U as [|? ? U1 U2]; inversion V as [|? ? V1 V2]; subst. destruct (IH U2 V2) as [A B]. cbn [filter]. destruct (f p); [|auto]. cbn [map].
    split; constructor; auto; intros X; apply in_map_iff in X as (q & X & Y); apply filter_In in Y as [Y _];
      [apply U1|apply V1]; apply in_map_iff; exists q; auto.
  - destruct (projects s) eqn:P; [cbn [snd]; rewrite P; auto|]. rewrite <- P in *. destruct (choice (map pname (sorted (projects s)))) as [m|]; [apply W|auto].
  - cbn [step]. rewrite go_projects. auto.
Qed.
Theorem C141_unique : forall up fs enters cs s, NoDup (names (projects s)) -> NoDup (places (projects s)) ->
  NoDup (names (projects (snd (session up fs enters cs s)))) /\ NoDup (places (projects (snd (session up fs enters cs s)))).
Proof.
  intros up fs enters cs. induction cs as [|c cs IH]; intros s U V; [auto|]. cbn [session].
  pose proof (unique_step up fs enters c s (conj U V)) as [A B]. destruct (step up fs enters c s) as [[u| |] s']; cbn [snd] in *; [| |auto];
    specialize (IH s' A B); destruct (session up fs enters cs s') as [h fin]; exact IH.
Qed.
Print Assumptions C141_unique.

(** the list: every project once, the most recently used first, equal times in the order they were
    registered *)
Definition newer (p q : project) : Prop := (accessed q <= accessed p)%N.
Theorem C141_list : forall ps,
  Permutation (list_projects ps) ps /\ StronglySorted newer (list_projects ps) /\
  forall t, filter (fun p => (accessed p =? t)%N) (list_projects ps) = filter (fun p => (accessed p =? t)%N) ps.
Proof.
  unfold list_projects.
  assert (P : forall q l, Permutation (ins q l) (q :: l)).
  { intros q l. induction l as [|x l IH]; [apply Permutation_refl|]. cbn [ins]. destruct (accessed x <=? accessed q)%N; [apply Permutation_refl|].
    eapply perm_trans; [apply perm_skip, IH|apply perm_swap]. }
  assert (O : forall q l, StronglySorted newer l -> StronglySorted newer (ins q l)).
  { intros q l H. induction H as [|x l H IH F]; [constructor; constructor|]. cbn [ins]. destruct (N.leb_spec (accessed x) (accessed q)) as [L|L].
    - constructor; [constructor; assumption|]. constructor; [exact L|]. eapply Forall_impl; [|exact F]. intros y Y. unfold newer in *. lia.
    - constructor; [exact IH|]. eapply (Permutation_Forall (Permutation_sym (P q l))). constructor; [unfold newer; lia|exact F]. }
  assert (E : forall t q l, StronglySorted newer l ->
    filter (fun p => (accessed p =? t)%N) (ins q l) = (if (accessed q =? t)%N then [q] else []) ++ filter (fun p => (accessed p =? t)%N) l).
  { intros t q l H. induction H as [|x l H IH F]; [cbn; destruct (accessed q =? t)%N; reflexivity|]. cbn [ins].
    destruct (N.leb_spec (accessed x) (accessed q)) as [L|L]; [cbn [filter]; destruct (accessed q =? t)%N; reflexivity|].
    cbn [filter]. rewrite IH. destruct (N.eqb_spec (accessed q) t) as [<-|]; [|reflexivity]. destruct (N.eqb_spec (accessed x) (accessed q)); [lia|reflexivity]. }
  intros ps. induction ps as [|p ps (A & B & C)]; [split; [apply Permutation_refl|split; [constructor|reflexivity]]|]. cbn [sorted fold_right]. fold (sorted ps).
  split; [eapply perm_trans; [apply P|apply perm_skip, A]|]. split; [apply O, B|]. intros t. rewrite E by exact B. rewrite C. cbn [filter]. destruct (accessed p =? t)%N; reflexivity.
Qed.
Print Assumptions C141_list.

(** ** C142: the project of a directory *)
Lemma prefix_length a b : above a b -> above b a -> a = b.
Proof.
  intros (r & ->) (t & E). rewrite <- app_assoc in E. destruct r as [|x r]; [rewrite app_nil_r; reflexivity|]. exfalso.
  apply (f_equal (@length str)) in E. rewrite !app_length in E. cbn in E. lia.
Qed.
Lemma above_comparable a b c : above a c -> above b c -> length a <= length b -> above a b.
Proof.
  intros (r & ->). revert b. induction a as [|x a IH]; intros b (t & E) L; [exists b; reflexivity|]. destruct b as [|y b]; [cbn in L; lia|].
  cbn [app] in E. injection E as -> E. cbn [length] in L. destruct (IH b (ex_intro _ t E) ltac:(lia)) as (u & ->). exists u. reflexivity.
Qed.

Lemma best_spec dir ps : forall cur, (forall c, cur = Some c -> above (ppath c) dir) ->
  match best cur dir ps with
  | Some p => (Some p = cur \/ In p ps) /\ above (ppath p) dir /\
      (forall c, cur = Some c -> length (ppath c) <= length (ppath p)) /\
      (forall q, In q ps -> above (ppath q) dir -> length (ppath q) <= length (ppath p))
  | None => cur = None /\ forall q, In q ps -> ~ above (ppath q) dir
  end.
Proof.
  induction ps as [|p ps IH]; intros cur H; cbn [best].
  { destruct cur as [c|]; [|split; [reflexivity|intros ? []]]. split; [left; reflexivity|]. split; [apply H; reflexivity|].
    split; [intros c' E; injection E as ->; lia|intros ? []]. }
  destruct (path_starts_with (ppath p) dir) eqn:S.
  - apply path_starts_with_iff in S. destruct cur as [c|].
    + specialize (IH (if length (ppath c) <? length (ppath p) then Some p else Some c)).
      assert (Z : forall c0, (if length (ppath c) <? length (ppath p) then Some p else Some c) = Some c0 -> above (ppath c0) dir).
      { intros c0. destruct (length (ppath c) <? length (ppath p)); intros E; injection E as <-; [exact S|apply H; reflexivity]. }
      specialize (IH Z). destruct (best _ dir ps) as [b|].
      * destruct IH as (A & B & C & D). destruct (Nat.ltb_spec (length (ppath c)) (length (ppath p))) as [L|L].
        -- split; [right; destruct A as [A|A]; [injection A as ->; left; reflexivity|right; exact A]|]. split; [exact B|].
           specialize (C p eq_refl). split; [intros c0 E; injection E as <-; lia|]. intros q [<-|Q] X; [exact C|exact (D q Q X)].
        -- split; [destruct A as [A|A]; [left; exact A|right; right; exact A]|]. split; [exact B|].
           specialize (C c eq_refl). split; [intros c0 E; injection E as <-; exact C|]. intros q [<-|Q] X; [lia|exact (D q Q X)].
      * destruct IH as [E _]. destruct (length (ppath c) <? length (ppath p)); discriminate E.
    + specialize (IH (Some p)). assert (Z : forall c, Some p = Some c -> above (ppath c) dir) by (intros c E; injection E as <-; exact S).
      specialize (IH Z). destruct (best (Some p) dir ps) as [b|]; [|destruct IH as [E _]; discriminate E].
      destruct IH as (A & B & C & D). split; [right; destruct A as [A|A]; [injection A as ->; left; reflexivity|right; exact A]|]. split; [exact B|].
      specialize (C p eq_refl). split; [intros c E; discriminate E|]. intros q [<-|Q] X; [exact C|exact (D q Q X)].
  - assert (NS : ~ above (ppath p) dir) by (intros X; apply path_starts_with_iff in X; congruence).
    specialize (IH cur H). destruct (best cur dir ps) as [b|].
    + destruct IH as (A & B & C & D). split; [destruct A as [A|A]; [left; exact A|right; right; exact A]|]. split; [exact B|]. split; [exact C|]. intros q [<-|Q] X; [contradiction|exact (D q Q X)].
    + destruct IH as [-> D]. split; [reflexivity|]. intros q [<-|Q]; [exact NS|exact (D q Q)].
Qed.

(** C142: the project of a directory is the registered one nearest above it *)
Theorem C142_nearest : forall dir ps,
  match find_project_by_path dir ps with
  | Some p => In p ps /\ nearest (places ps) dir (ppath p)
  | None => forall p, In p ps -> ~ above (ppath p) dir
  end.
Proof.
  intros dir ps. unfold find_project_by_path. pose proof (best_spec dir ps None) as B. assert (Z : forall c, None = Some c -> above (ppath c) dir) by discriminate.
  specialize (B Z). destruct (best None dir ps) as [p|]; [|apply B]. destruct B as ([A|A] & B & _ & D); [discriminate A|].
  split; [exact A|]. split; [apply in_map, A|]. split; [exact B|]. intros x X Y. apply in_map_iff in X as (q & <- & Q).
  apply (above_comparable _ _ dir Y B), (D q Q Y).
Qed.
Print Assumptions C142_nearest.
Lemma nearest_one l dir a b : nearest l dir a -> nearest l dir b -> a = b.
Proof. intros (A & B & C) (D & E & F). apply prefix_length; [apply F|apply C]; assumption. Qed.
Lemma same_place ps p q : NoDup (places ps) -> In p ps -> In q ps -> ppath p = ppath q -> p = q.
Proof.
  unfold places. induction ps as [|x ps IH]; intros H P Q E; [destruct P|]. cbn [map] in H. inversion H as [|? ? A B]; subst.
  destruct P as [->|P], Q as [->|Q]; auto.
  - exfalso. apply A. rewrite E. apply in_map, Q.
  - exfalso. apply A. rewrite <- E. apply in_map, P.
Qed.

Lemma get_project e : get_var e DSH_PROJECT = match assoc DSH_PROJECT (variables e) with Some v => Some v | None => assoc DSH_PROJECT (system e) end.
Proof. reflexivity. Qed.
Lemma opt_eqb_iff a b : opt_eqb a b = true <-> a = b.
Proof.
  destruct a as [x|], b as [y|]; cbn [opt_eqb]; try (split; [discriminate|intros E; discriminate E]); [|tauto].
  rewrite str_eqb_eq. split; [intros ->; reflexivity|intros E; injection E as ->; reflexivity].
Qed.
Lemma go_done up fs enters dir s u s' : go up fs enters dir s = (Done u, s') ->
  enters dir = true /\ cwd (world_ s') = dir /\ projects s' = projects s /\
  exists e, wenv (world_ s') = switch_project dir (projects s) e /\ exported e = exported (wenv (world_ s')) /\ system e = system (wenv (world_ s')).
Proof.
  unfold go, changepwd. destruct (enters dir) eqn:En; [|discriminate].
  destruct (check_path up fs dir (roots (world_ s)) (set_env_var PWD (show_path dir) (set_var OLDPWD (show_path (cwd (world_ s))) (wenv (world_ s))))) as [[o l] e].
  destruct o as [v| |]; intros E; try discriminate E. injection E as <- <-. cbn [world_ cwd wenv projects]. split; [reflexivity|]. split; [reflexivity|]. split; [reflexivity|].
  exists e. split; [reflexivity|]. unfold switch_project. destruct (opt_eqb _ _); [auto|]. destruct (option_map pname (find_project_by_path dir (projects s))); auto.
Qed.

(** C142: after a change of directory DSH_PROJECT is the name of the project the directory is in *)
Theorem C142_entering : forall up fs enters dir s u s' p,
  go up fs enters dir s = (Done u, s') -> NoDup (places (projects s)) ->
  In p (projects s) -> nearest (places (projects s)) dir (ppath p) ->
  cwd (world_ s') = dir /\ get_var (wenv (world_ s')) DSH_PROJECT = Some (pname p).
Proof.
  intros up fs enters dir s u s' p G U P N. apply go_done in G as (_ & C & _ & e & E & _). split; [exact C|]. rewrite E. unfold switch_project.
  pose proof (C142_nearest dir (projects s)) as F. destruct (find_project_by_path dir (projects s)) as [q|].
  - destruct F as [Q M]. assert (q = p) as -> by (apply (same_place (projects s)); [exact U|exact Q|exact P|exact (nearest_one _ _ _ _ M N)]).
    cbn [option_map]. destruct (opt_eqb (Some (pname p)) (get_var e DSH_PROJECT)) eqn:O.
    + apply opt_eqb_iff in O. congruence.
    + rewrite get_project. cbn [variables set_variables]. rewrite assoc_insert. destruct (str_eq_dec DSH_PROJECT DSH_PROJECT); [reflexivity|congruence].
  - exfalso. apply (F p P). apply N.
Qed.
Print Assumptions C142_entering.

(** ... and nothing outside of projects, if the shell did not inherit a variable of that name *)
Theorem C142_leaving_partial : forall up fs enters dir s u s',
  go up fs enters dir s = (Done u, s') -> (forall p, In p (projects s) -> ~ above (ppath p) dir) ->
  assoc DSH_PROJECT (system (wenv (world_ s'))) = None ->
  get_var (wenv (world_ s')) DSH_PROJECT = None.
Proof.
  intros up fs enters dir s u s' G F I. apply go_done in G as (_ & C & _ & e & E & _ & Y). rewrite <- Y in I. rewrite E. unfold switch_project.
  pose proof (C142_nearest dir (projects s)) as X. destruct (find_project_by_path dir (projects s)) as [q|]; [exfalso; destruct X as [Q X]; exact (F q Q (proj1 (proj2 X)))|].
  cbn [option_map]. destruct (opt_eqb None (get_var e DSH_PROJECT)) eqn:O; [apply opt_eqb_iff in O; congruence|].
  rewrite get_project. cbn [variables set_variables system]. rewrite assoc_remove. destruct (str_eq_dec DSH_PROJECT DSH_PROJECT); [exact I|congruence].
Qed.
Print Assumptions C142_leaving_partial.
(** what is missing: an inherited value shows through in every directory outside of projects *)
Theorem C142_leaving_refuted : forall up fs enters dir s u s' x,
  go up fs enters dir s = (Done u, s') -> (forall p, In p (projects s) -> ~ above (ppath p) dir) ->
  assoc DSH_PROJECT (system (wenv (world_ s'))) = Some x ->
  get_var (wenv (world_ s')) DSH_PROJECT = Some x.
Proof.
  intros up fs enters dir s u s' x G F I. apply go_done in G as (_ & C & _ & e & E & _ & Y). rewrite <- Y in I. rewrite E. unfold switch_project.
  pose proof (C142_nearest dir (projects s)) as X. destruct (find_project_by_path dir (projects s)) as [q|]; [exfalso; destruct X as [Q X]; exact (F q Q (proj1 (proj2 X)))|].
  cbn [option_map]. destruct (opt_eqb None (get_var e DSH_PROJECT)) eqn:O.
  { apply opt_eqb_iff in O. rewrite get_project, I in O. destruct (assoc DSH_PROJECT (variables e)); discriminate O. }
  rewrite get_project. cbn [variables set_variables system]. rewrite assoc_remove. destruct (str_eq_dec DSH_PROJECT DSH_PROJECT); [exact I|congruence].
Qed.
Print Assumptions C142_leaving_refuted.

(** registering the current directory leaves DSH_PROJECT as it was *)
Theorem C142_add_here_refuted : forall up fs enters s given now s', step up fs enters (PmAdd (Some (cwd (world_ s))) given now) s = (Done tt, s') ->
  exists p, In p (projects s') /\ ppath p = cwd (world_ s') /\ nearest (places (projects s')) (cwd (world_ s')) (ppath p) /\
    get_var (wenv (world_ s')) DSH_PROJECT = get_var (wenv (world_ s)) DSH_PROJECT.
Proof.
  intros up fs enters s given now s' H. cbn [step] in H. pose proof (C141_add (Some (cwd (world_ s))) given now (projects s)) as A.
  destruct (add (Some (cwd (world_ s))) given now (projects s)) as [ps|]; [|discriminate H]. injection H as <-.
  destruct A as (d & n & E & _ & _ & _ & ->). injection E as <-. cbn [projects world_]. exists (Project n (cwd (world_ s)) now now). cbn [ppath].
  split; [apply in_or_app; right; left; reflexivity|]. split; [reflexivity|]. split; [|reflexivity]. split; [unfold places; rewrite map_app; apply in_or_app; right; left; reflexivity|].
  split; [exists []; symmetry; apply app_nil_r|]. intros x _ X. exact X.
Qed.
Print Assumptions C142_add_here_refuted.

(** "sets DSH_PROJECT environment variable": programs that are started do not see it *)
Theorem C142_environment_refuted : forall up fs enters dir s u s' p,
  go up fs enters dir s = (Done u, s') -> NoDup (places (projects s)) ->
  In p (projects s) -> nearest (places (projects s)) dir (ppath p) ->
  ~ In DSH_PROJECT (exported (wenv (world_ s'))) -> assoc DSH_PROJECT (system (wenv (world_ s'))) = None ->
  get_var (wenv (world_ s')) DSH_PROJECT = Some (pname p) /\
  assoc DSH_PROJECT (child_process_env (wenv (world_ s'))) = None /\
  (forall v, ~ In (DSH_PROJECT, v) (prepared_env (wenv (world_ s')))).
Proof.
  intros up fs enters dir s u s' p G U P N X I. split; [exact (proj2 (C142_entering _ _ _ _ _ _ _ _ G U P N))|].
  set (e := wenv (world_ s')) in *. clearbody e. assert (D : DSH_PROJECT <> TERM) by discriminate. split.
  - rewrite C34_helper_environment_exact. unfold child_sees, effective. destruct (in_dec str_eq_dec DSH_PROJECT (exported e)); [contradiction|]. rewrite I. destruct (str_eq_dec DSH_PROJECT (lit "TERM")); [discriminate|reflexivity].
  - intros v H. unfold prepared_env in H. rewrite !in_app_iff in H. destruct H as [H|[H|H]].
    + apply filter_In in H as [H _]. revert H I. generalize (system e). intros m. induction m as [|[k x] m IH]; [intros []|]. cbn [assoc].
      destruct (str_eqb_spec DSH_PROJECT k) as [E|E]; [intros _ F; discriminate F|]. intros [H|H] F; [injection H as -> _; congruence|exact (IH H F)].
    + apply in_flat_map in H as (k & K & H). destruct (assoc k (variables e)) as [w|]; [|destruct H].
      destruct (str_eqb k TERM && negb (non_empty w)); [destruct H|]. destruct (c_string_ok (k, w)); [|destruct H]. destruct H as [H|[]]. injection H as -> _. contradiction.
    + match type of H with In _ (if ?b then _ else _) => destruct b end; [destruct H|]. destruct H as [H|[]]. injection H as H _. discriminate H.
Qed.
Print Assumptions C142_environment_refuted.

(** ** C141: pm work *)
Theorem C141_work : forall up fs enters n now s a p b,
  projects s = a ++ p :: b -> pname p = n -> NoDup (names (projects s)) ->
  let (o, s') := work up fs enters n now s in
  projects s' = a ++ Project n (ppath p) now (created p) :: b /\
  (enters (ppath p) = true -> cwd (world_ s') = ppath p) /\
  (o = Done tt -> NoDup (places (projects s)) -> get_var (wenv (world_ s')) DSH_PROJECT = Some n).
Proof.
  intros up fs enters n now s a p b E N U. unfold work. pose proof (touch_spec n now (projects s)) as T.
  destruct (touch n now (projects s)) as [[q ps]|].
  2:{ exfalso. apply T. rewrite E. unfold names. rewrite map_app. apply in_or_app. right. left. exact N. }
  destruct T as (a' & p' & b' & F & N' & M & -> & ->).
  assert (a' = a /\ p' = p /\ b' = b) as (-> & -> & ->).
  { assert (NA : ~ In n (names a)).
    { rewrite E in U. unfold names in *. rewrite map_app in U. cbn [map] in U. apply NoDup_remove_2 in U. rewrite N in U. intros X. apply U, in_or_app. left. exact X. }
    rewrite E in F. clear - F N N' NA M. revert a' F M. induction a as [|x a IH]; intros [|y a'] F M; cbn [app] in F.
    - injection F as -> ->. auto.
    - injection F as -> _. exfalso. apply M. left. exact N.
    - injection F as -> _. exfalso. apply NA. left. exact N'.
    - injection F as -> F. destruct (IH (fun X => NA (or_intror X)) a' F (fun X => M (or_intror X))) as (-> & -> & ->). auto. }
  cbn [ppath]. set (s1 := Desk (a ++ Project n (ppath p) now (created p) :: b) (world_ s)).
  destruct (go up fs enters (ppath p) s1) as [o s'] eqn:G.
  assert (PS : projects s' = projects s1) by (pose proof (go_projects up fs enters (ppath p) s1) as Z; rewrite G in Z; exact Z).
  split; [rewrite PS; reflexivity|]. split.
  - intros En. revert G. unfold go, changepwd. rewrite En.
    match goal with |- context [check_path up fs ?d ?r ?e] => destruct (check_path up fs d r e) as [[[v| |] l] e'] end; intros G; injection G as _ <-; reflexivity.
  - intros -> V. assert (W : places (projects s1) = places (projects s)).
    { rewrite E. unfold s1, places. cbn [projects]. rewrite !map_app. reflexivity. }
    apply (C142_entering up fs enters (ppath p) s1 tt s' (Project n (ppath p) now (created p)) G).
    + rewrite W. exact V.
    + apply in_or_app. right. left. reflexivity.
    + cbn [ppath]. split; [rewrite W, E; unfold places; rewrite map_app; apply in_or_app; right; left; reflexivity|]. split; [exists []; symmetry; apply app_nil_r|]. intros x _ X. exact X.
Qed.
Print Assumptions C141_work.

(** an attempt to go to a directory that is gone fails, and still makes the project the most
    recently used one *)
Theorem C141_failed_work_refuted : forall up fs enters n now s a p b,
  projects s = a ++ p :: b -> pname p = n -> NoDup (names (projects s)) -> enters (ppath p) = false ->
  (forall q, In q (projects s) -> (accessed q < now)%N) ->
  let (o, s') := work up fs enters n now s in
  o = Failed /\ cwd (world_ s') = cwd (world_ s) /\
  exists rest, list_projects (projects s') = Project n (ppath p) now (created p) :: rest.
Proof.
  intros up fs enters n now s a p b E N U En L. pose proof (C141_work up fs enters n now s a p b E N U) as W.
  destruct (work up fs enters n now s) as [o s'] eqn:K. destruct W as (P & _ & _).
  assert (o = Failed /\ cwd (world_ s') = cwd (world_ s)) as [-> C].
  { revert K. unfold work. pose proof (touch_spec n now (projects s)) as T. destruct (touch n now (projects s)) as [[q ps]|].
    2:{ exfalso. apply T. rewrite E. unfold names. rewrite map_app. apply in_or_app. right. left. exact N. }
    assert (Q : ppath q = ppath p).
    { destruct T as (a' & p' & b' & F & N' & M & -> & Z). assert (projects s' = projects s'). reflexivity. cbn [ppath].
      assert (In p (projects s) /\ In p' (projects s)) as [I1 I2] by (split; [rewrite E|rewrite F]; apply in_or_app; right; left; reflexivity).
      enough (p' = p) as -> by reflexivity. clear - U N N' I1 I2. unfold names in U. induction (projects s) as [|x l IH]; [destruct I1|].
      cbn [map] in U. inversion U as [|? ? A B]; subst. destruct I1 as [->|I1], I2 as [->|I2]; auto.
      - exfalso. apply A. rewrite <- N'. apply in_map, I2.
      - exfalso. apply A. rewrite N'. apply in_map, I1. }
    unfold go, changepwd. rewrite Q, En. intros G. injection G as <- <-. auto. }
  split; [reflexivity|]. split; [exact C|]. rewrite P.
  destruct (C141_list (a ++ Project n (ppath p) now (created p) :: b)) as (M & S & _).
  set (x := Project n (ppath p) now (created p)) in *. destruct (list_projects (a ++ x :: b)) as [|y l] eqn:Y.
  { apply Permutation_nil in M. destruct a; discriminate M. }
  exists l. f_equal. inversion S as [|? ? _ F]; subst.
  assert (In x (y :: l)) as [->|X] by (apply (Permutation_in x (Permutation_sym M)), in_or_app; right; left; reflexivity); [reflexivity|].
  exfalso. rewrite Forall_forall in F. specialize (F x X). unfold newer in F. cbn [accessed x] in F.
  assert (In y (a ++ x :: b)) as H by (apply (Permutation_in y M); left; reflexivity).
  assert (NX : y <> x -> False).
  { intros D. apply in_app_or in H. assert (In y (projects s)) as I by (rewrite E; apply in_or_app; destruct H as [H|[H|H]]; [left; exact H|congruence|right; right; exact H]).
    specialize (L y I). unfold x in F. cbn [accessed] in F. lia. }
  apply NX. intros ->. apply Permutation_sym in M. 
  assert (ND : NoDup (names (a ++ x :: b))).
  { rewrite E in U. unfold names in *. rewrite map_app in *. cbn [map] in *. unfold x. cbn [pname]. exact U. }
  apply (Permutation_map pname) in M. apply (Permutation_NoDup M) in ND. cbn [map] in ND. inversion ND as [|? ? Z _]. apply Z; change (pname p) with (pname x); apply in_map, X.
Qed.
Print Assumptions C141_failed_work_refuted.

(** ** cases *)
Definition at_home : desk := Desk [] (World [lit "home"] (env_new [] (with_capacity 1 1 1) (fun _ => None)) []).
Definition no_files (d : list str) : dirfiles := Files NoFile NoFile.
Definition everywhere (d : list str) : bool := true.
Definition upper (c : char) : str := [c].
Definition morning : list pm :=
  [PmAdd (Some [lit "src"; lit "api"]) None 10; PmAdd (Some [lit "src"]) (Some (lit "all")) 20; PmAdd (Some [lit "src"]) (Some (lit "again")) 30;
   PmAdd (Some [lit "old"]) None 40; PmRemove (Some (lit "old")); PmWork (Some (lit "api")) 50; Cd [lit "src"; lit "api"; lit "doc"]; Cd [lit "src"; lit "apis"]].
Example C141_case : let (h, s) := session upper no_files everywhere morning at_home in
  map snd h = [Done tt; Done tt; Failed; Done tt; Done tt; Done tt; Done tt; Done tt] /\
  map pname (list_projects (projects s)) = [lit "api"; lit "all"] /\
  cwd (world_ s) = [lit "src"; lit "apis"] /\ get_var (wenv (world_ s)) DSH_PROJECT = Some (lit "all").
Proof. repeat apply conj; vm_compute; reflexivity. Qed.
Example C142_case : let s := snd (session upper no_files everywhere (firstn 7 morning) at_home) in
  get_var (wenv (world_ s)) DSH_PROJECT = Some (lit "api") /\
  exists p, In p (projects s) /\ nearest (places (projects s)) [lit "src"; lit "api"; lit "doc"] (ppath p).
Proof.
  split; [vm_compute; reflexivity|]. exists (Project (lit "api") [lit "src"; lit "api"] 50 10). split; [left; vm_compute; reflexivity|].
  split; [left; reflexivity|]. split; [exists [lit "doc"]; reflexivity|].
  intros x [<-|[<-|[]]] _; [exists []|exists [lit "api"]]; reflexivity.
Qed.
Example C142_leaving_case :
  let s := Desk [] (World [lit "home"] (env_new [(DSH_PROJECT, lit "outer")] (with_capacity 1 1 1) (fun _ => None)) []) in
  exists s', go upper no_files everywhere [lit "tmp"] s = (Done tt, s') /\ get_var (wenv (world_ s')) DSH_PROJECT = Some (lit "outer").
Proof. eexists. split; [vm_compute; reflexivity|vm_compute; reflexivity]. Qed.
Example C142_add_here_case : exists s', step upper no_files everywhere (PmAdd (Some [lit "home"]) None 5) at_home = (Done tt, s') /\
  get_var (wenv (world_ s')) DSH_PROJECT = None /\ map pname (projects s') = [lit "home"].
Proof. eexists. split; [vm_compute; reflexivity|split; vm_compute; reflexivity]. Qed.
Example C141_failed_work_case : let s := snd (session upper no_files everywhere (firstn 2 morning) at_home) in
  let (o, s') := work upper no_files (fun _ => false) (lit "api") 90 s in
  o = Failed /\ map pname (list_projects (projects s)) = [lit "all"; lit "api"] /\ map pname (list_projects (projects s')) = [lit "api"; lit "all"].
Proof. vm_compute. auto. Qed.
