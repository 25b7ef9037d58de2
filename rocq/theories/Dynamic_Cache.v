(** C221: what is kept is what the files say.  C222: what is refreshed in the background.  C223: whose branches. *)
From Verif Require Import Base Dynamic_Model Dynamic_Spec.
From Verif Require Direnv_Model Project_Model Runtime_Model Runtime_Spec Runtime_Props Task_Model Compgen_Model.

Lemma path_eqb_iff a : forall b, path_eqb a b = true <-> a = b.
Proof.
  induction a as [|x a IH]; intros [|y b]; cbn [path_eqb]; try (split; congruence). rewrite andb_true_iff, IH, str_eqb_eq. split; [intros [-> ->]; reflexivity|]. intros E. injection E as -> ->. split; reflexivity.
Qed.
Lemma sig_eqb_iff a b : sig_eqb a b = true <-> a = b.
Proof.
  destruct a as [[x y]|], b as [[x' y']|]; cbn [sig_eqb]; try (split; congruence). rewrite andb_true_iff, !Nat.eqb_eq. split; [intros [-> ->]; reflexivity|]. intros E. injection E as -> ->. split; reflexivity.
Qed.
Lemma sigs_eqb_iff a : forall b, sigs_eqb a b = true <-> a = b.
Proof.
  induction a as [|x a IH]; intros [|y b]; cbn [sigs_eqb]; try (split; congruence). rewrite andb_true_iff, IH, sig_eqb_iff. split; [intros [-> ->]; reflexivity|]. intros E. injection E as -> ->. split; reflexivity.
Qed.
Lemma ancestor_again ex up r : Project_Model.ancestor_with ex up = Some r -> Project_Model.ancestor_with ex (rev r) = Some r.
Proof.
  induction up as [|x up IH]; intros H; pose proof H as H0; cbn [Project_Model.ancestor_with] in H; destruct (existsb _ _) eqn:E; try discriminate.
  - injection H as <-. exact H0.
  - injection H as <-. exact (eq_trans (f_equal (Project_Model.ancestor_with ex) (rev_involutive (x :: up))) H0).
  - exact (IH H).
Qed.
Lemma root_again d cwd : Runtime_Model.root_of d (Runtime_Model.root_of d cwd) = Runtime_Model.root_of d cwd.
Proof.
  unfold Runtime_Model.root_of, Project_Model.find_project_root. destruct (Project_Model.ancestor_with (Runtime_Model.there d) (rev cwd)) as [r|] eqn:E.
  - rewrite (ancestor_again _ _ _ E). reflexivity.
  - rewrite E. reflexivity.
Qed.
Section Files.
Variable toml : str -> option Runtime_Model.tval.
Variable json_of : str -> option Runtime_Model.json.
Notation listing := (listing toml json_of).
Notation asks := (asks toml json_of).
Notation project_tasks := (project_tasks toml json_of).
Lemma listing_root w cwd : Runtime_Model.tasks toml json_of (make_ w) (just_ w) (files w) cwd = listing w (Runtime_Model.root_of (files w) cwd).
Proof. unfold Dynamic_Model.listing, Runtime_Model.tasks. rewrite root_again. reflexivity. Qed.
Lemma there_same (d d' : disk) p : (d p = None <-> d' p = None) -> Runtime_Model.there d p = Runtime_Model.there d' p.
Proof. unfold Runtime_Model.there. destruct (d p), (d' p); intros H; try reflexivity; exfalso; [assert (X : Some n = None) by (apply H; reflexivity)|assert (X : Some n = None) by (apply H; reflexivity)]; discriminate. Qed.
Lemma get_same (d d' : disk) p : d p = d' p -> Runtime_Model.get d p = Runtime_Model.get d' p.
Proof. intros E. unfold Runtime_Model.get. rewrite E. reflexivity. Qed.
Lemma listing_same w w' root : Runtime_Model.root_of (files w) root = root -> Runtime_Model.root_of (files w') root = root ->
  make_ w = make_ w' -> just_ w = just_ w' ->
  (forall n, In n watched -> files w (root ++ [n]) = files w' (root ++ [n])) ->
  (forall n, In n unwatched -> files w (root ++ [n]) = None <-> files w' (root ++ [n]) = None) ->
  listing w root = listing w' root.
Proof.
  intros R R' M J W U. unfold Dynamic_Model.listing, Runtime_Model.tasks. rewrite R, R'. rewrite M, J.
  assert (G : forall n, In n watched -> Runtime_Model.get (files w) (root ++ [n]) = Runtime_Model.get (files w') (root ++ [n])) by (intros n I; apply get_same, W, I).
  assert (T : forall n, In n watched -> Runtime_Model.there (files w) (root ++ [n]) = Runtime_Model.there (files w') (root ++ [n])) by (intros n I; apply there_same; rewrite (W n I); reflexivity).
  assert (TU : forall n, In n unwatched -> Runtime_Model.there (files w) (root ++ [n]) = Runtime_Model.there (files w') (root ++ [n])) by (intros n I; apply there_same, U, I).
  unfold watched in G, T. unfold unwatched in TU. cbn [map] in G, T, TU.
  unfold Runtime_Model.project_tasks, Runtime_Model.mise_tasks, Runtime_Model.taskfile_tasks, Runtime_Model.turbo_tasks, Runtime_Model.nx_tasks, Runtime_Model.js_tasks, Runtime_Model.cargo_tasks, Runtime_Model.make_tasks, Runtime_Model.deno_tasks, Runtime_Model.just_tasks, Runtime_Model.manager.
  rewrite (G (lit "mise.toml")), (G (lit "Taskfile.yml")), (G (lit "Taskfile.yaml")), (G (lit "turbo.json")), (G (lit "project.json")), (G (lit "package.json")), (G (lit "deno.json")), (G (lit "deno.jsonc")) by (cbn; tauto).
  rewrite (T (lit "Cargo.toml")), (T (lit "Makefile")), (T (lit "makefile")) by (cbn; tauto).
  rewrite (TU (lit "bun.lockb")), (TU (lit "pnpm-lock.yaml")), (TU (lit "yarn.lock")) by (cbn; tauto). cbn [existsb].
  rewrite (TU (lit "Justfile")), (TU (lit "justfile")), (TU (lit ".justfile")) by (cbn; tauto). reflexivity.
Qed.
Definition kept_from (all : list world) (c : task_cache) : Prop :=
  forall root s l, entry path_eqb root c = Some (s, l) -> exists w, In w all /\ Runtime_Model.root_of (files w) root = root /\ s = task_signature w root /\ listing w root = Some l.
Lemma signatures_tell all w w' root : telling all -> In w all -> In w' all -> task_signature w root = task_signature w' root ->
  forall n, In n watched -> files w (root ++ [n]) = files w' (root ++ [n]).
Proof.
  intros T I I' E n N. apply (T w w' _ I I'). unfold task_signature in E. revert N E. generalize watched as l. induction l as [|x l IH]; [intros []|]. cbn [map]. intros [<-|N] E; injection E as E1 E2; [exact E1|exact (IH N E2)].
Qed.
Lemma asks_fresh all h : telling all -> rest_same all -> forall c, (forall x, In x h -> In (fst x) all) -> kept_from all c ->
  asks h c = map (fun x => Runtime_Model.tasks toml json_of (make_ (fst x)) (just_ (fst x)) (files (fst x)) (snd x)) h.
Proof.
  intros T R. induction h as [|[w cwd] h IH]; intros c A K; [reflexivity|]. cbn [Dynamic_Model.asks map fst snd]. rewrite listing_root. unfold Dynamic_Model.project_tasks. cbv zeta.
  set (root := Runtime_Model.root_of (files w) cwd). assert (Rr : Runtime_Model.root_of (files w) root = root) by apply root_again.
  assert (Iw : In w all) by (apply (A (w, cwd)); left; reflexivity). assert (Ah : forall x, In x h -> In (fst x) all) by (intros x I; apply A; right; exact I).
  assert (Put : forall l, listing w root = Some l -> kept_from all ((root, (task_signature w root, l)) :: c)).
  { intros l L k s l' E. cbn [entry] in E. destruct (path_eqb k root) eqn:P; [|exact (K k s l' E)]. apply path_eqb_iff in P. subst k. injection E as <- <-. exists w. split; [exact Iw|]. split; [exact Rr|]. split; [reflexivity|exact L]. }
  unfold lookup. destruct (entry path_eqb root c) as [[s l]|] eqn:E.
  - destruct (sigs_eqb s (task_signature w root)) eqn:Q.
    + apply sigs_eqb_iff in Q. destruct (K root s l E) as (w0 & I0 & R0 & S0 & L0). f_equal; [|exact (IH c Ah K)]. rewrite <- L0.
      destruct (R w0 w I0 Iw) as (M & J & U). apply listing_same; [exact R0|exact Rr|exact M|exact J| |exact (U root)]. apply (signatures_tell all); [exact T|exact I0|exact Iw|congruence].
    + destruct (listing w root) as [v|] eqn:L; f_equal; apply IH; try assumption. apply Put. reflexivity.
  - destruct (listing w root) as [v|] eqn:L; f_equal; apply IH; try assumption. apply Put. reflexivity.
Qed.
(** the tasks offered are those the files give at that moment, as long as time stamps and sizes tell
    the watched files apart and the lock files, the justfiles and what make and just say stay the same *)
Theorem C221_tasks_partial : forall h, telling (map fst h) -> rest_same (map fst h) ->
  asks h [] = map (fun x => Runtime_Model.tasks toml json_of (make_ (fst x)) (just_ (fst x)) (files (fst x)) (snd x)) h.
Proof. intros h T R. apply (asks_fresh (map fst h)); [exact T|exact R| |]. - intros x I. apply in_map. exact I. - intros k s l E. discriminate. Qed.
(** whatever else changes, the old tasks are offered *)
Theorem C221_tasks_refuted : forall w w' cwd l, Runtime_Model.root_of (files w') cwd = Runtime_Model.root_of (files w) cwd ->
  (forall n, In n watched -> signature w' (Runtime_Model.root_of (files w) cwd ++ [n]) = signature w (Runtime_Model.root_of (files w) cwd ++ [n])) ->
  Runtime_Model.tasks toml json_of (make_ w) (just_ w) (files w) cwd = Some l ->
  asks [(w, cwd); (w', cwd)] [] = [Some l; Some l].
Proof.
  intros w w' cwd l E Sg L. rewrite listing_root in L. cbn [Dynamic_Model.asks]. unfold Dynamic_Model.project_tasks. cbv zeta. rewrite E, L. unfold lookup. cbn [entry].
  assert (P : path_eqb (Runtime_Model.root_of (files w) cwd) (Runtime_Model.root_of (files w) cwd) = true) by (apply path_eqb_iff; reflexivity). rewrite P.
  assert (Q : sigs_eqb (task_signature w (Runtime_Model.root_of (files w) cwd)) (task_signature w' (Runtime_Model.root_of (files w) cwd)) = true).
  { apply sigs_eqb_iff. unfold task_signature. apply map_ext_in. intros n I. symmetry. exact (Sg n I). }
  rewrite Q. reflexivity.
Qed.
End Files.
(** a justfile is made in a project of cargo: its tasks are there and not offered *)
Definition cargo_only (just : bool) : world :=
  World (fun p => if path_eqb p [lit "p"; lit "Cargo.toml"] then Some (Runtime_Model.Text (Some [])) else if just && path_eqb p [lit "p"; lit "justfile"] then Some (Runtime_Model.Text (Some [])) else None)
    (fun _ => 0) (fun _ => 0) None (Some (lit "deploy")).
Theorem C221_justfile_refuted : exists l l', asks (fun _ => None) (fun _ => None) [(cargo_only false, [lit "p"]); (cargo_only true, [lit "p"])] [] = [Some l; Some l]
  /\ Runtime_Model.tasks (fun _ => None) (fun _ => None) None (Some (lit "deploy")) (files (cargo_only true)) [lit "p"] = Some l'
  /\ In (Task_Model.Task (lit "just") (lit "deploy") (lit "just deploy")) l' /\ ~ In (Task_Model.Task (lit "just") (lit "deploy") (lit "just deploy")) l.
Proof.
  eexists. eexists. split; [vm_compute; reflexivity|]. split; [vm_compute; reflexivity|]. split; [vm_compute; tauto|]. vm_compute. intuition discriminate.
Qed.
Definition said (w : world) (cwd : path) : option (list str) :=
  match compose_file (files w) cwd with None => Some [] | Some p => option_map service_names (Runtime_Model.read (files w) p) end.
Lemma compose_fresh all h : telling all -> forall c, (forall x, In x h -> In (fst x) all) ->
  (forall p s l, entry path_eqb p c = Some (s, l) -> exists w, In w all /\ s = signature w p /\ option_map service_names (Runtime_Model.read (files w) p) = Some l) ->
  compose_asks h c = map (fun x => said (fst x) (snd x)) h.
Proof.
  intros T. induction h as [|[w cwd] h IH]; intros c A K; [reflexivity|]. cbn [compose_asks map fst snd]. unfold compose_services, said.
  assert (Iw : In w all) by (apply (A (w, cwd)); left; reflexivity). assert (Ah : forall x, In x h -> In (fst x) all) by (intros x I; apply A; right; exact I).
  destruct (compose_file (files w) cwd) as [p|]; [|f_equal; exact (IH c Ah K)].
  set (now := option_map service_names (Runtime_Model.read (files w) p)) in *.
  assert (Put : forall l, now = Some l -> forall q s l', entry path_eqb q ((p, (signature w p, l)) :: c) = Some (s, l') -> exists w0, In w0 all /\ s = signature w0 q /\ option_map service_names (Runtime_Model.read (files w0) q) = Some l').
  { intros l L q s l' E. cbn [entry] in E. destruct (path_eqb q p) eqn:P; [|exact (K q s l' E)]. apply path_eqb_iff in P. subst q. injection E as <- <-. exists w. split; [exact Iw|]. split; [reflexivity|exact L]. }
  unfold lookup. destruct (entry path_eqb p c) as [[s l]|] eqn:E.
  - destruct (sig_eqb s (signature w p)) eqn:Q.
    + apply sig_eqb_iff in Q. destruct (K p s l E) as (w0 & I0 & S0 & L0). f_equal; [|exact (IH c Ah K)]. rewrite <- L0. unfold now, Runtime_Model.read. rewrite (T w0 w p I0 Iw); [reflexivity|congruence].
    + destruct now as [v|] eqn:L; f_equal; apply IH; try assumption. apply Put. reflexivity.
  - destruct now as [v|] eqn:L; f_equal; apply IH; try assumption. apply Put. reflexivity.
Qed.
(** the services offered are those of the nearest compose file as it is at that moment, as long as time
    stamps and sizes tell *)
Theorem C221_services_partial : forall h, telling (map fst h) -> compose_asks h [] = map (fun x => said (fst x) (snd x)) h.
Proof. intros h T. apply (compose_fresh (map fst h)); [exact T| |]. - intros x I. apply in_map. exact I. - intros p s l E. discriminate. Qed.
(** a compose file written again at the same time and with the same size keeps its old services *)
Theorem C221_services_refuted : forall w w' cwd p l, compose_file (files w) cwd = Some p -> compose_file (files w') cwd = Some p -> signature w p = signature w' p ->
  said w cwd = Some l -> compose_asks [(w, cwd); (w', cwd)] [] = [Some l; Some l].
Proof.
  intros w w' cwd p l F F' G L. unfold said in L. rewrite F in L. cbn [compose_asks]. unfold compose_services. rewrite F, F', L. unfold lookup. cbn [entry].
  assert (P : path_eqb p p = true) by (apply path_eqb_iff; reflexivity). assert (Q : sig_eqb (signature w p) (signature w' p) = true) by (apply sig_eqb_iff; exact G). rewrite P, Q. reflexivity.
Qed.
Definition grown (n : nat) : world :=
  World (fun p => if path_eqb p [lit "p"; lit "Cargo.toml"] then (if n <? 1 then None else Some (Runtime_Model.Text (Some []))) else if path_eqb p [lit "p"; lit "Makefile"] then Some (Runtime_Model.Text (Some [])) else None)
    (fun _ => 0) (fun _ => 0) (Some (lit "all:")) None.
Example C221_example : telling (map fst [(grown 0, [lit "p"]); (grown 1, [lit "p"])]) /\ rest_same (map fst [(grown 0, [lit "p"]); (grown 1, [lit "p"])])
  /\ Runtime_Model.tasks (fun _ => None) (fun _ => None) (Some (lit "all:")) None (files (grown 0)) [lit "p"] <> Runtime_Model.tasks (fun _ => None) (fun _ => None) (Some (lit "all:")) None (files (grown 1)) [lit "p"].
Proof.
  split; [|split].
  - intros w w' p [<-|[<-|[]]] [<-|[<-|[]]]; unfold signature, grown; cbn; try reflexivity; destruct (path_eqb p [lit "p"; lit "Cargo.toml"]); try reflexivity; discriminate.
  - intros w w' [<-|[<-|[]]] [<-|[<-|[]]]; (split; [reflexivity|]; split; [reflexivity|]; intros root n I; cbn; try tauto).
    all: assert (C : path_eqb (root ++ [n]) [lit "p"; lit "Cargo.toml"] = false) by (destruct (path_eqb _ _) eqn:E; [|reflexivity]; apply path_eqb_iff in E; change [lit "p"; lit "Cargo.toml"] with ([lit "p"] ++ [lit "Cargo.toml"]) in E; apply app_inj_tail in E; destruct E as [_ ->]; vm_compute in I; intuition discriminate).
    all: cbn in C |- *; rewrite C; reflexivity.
  - vm_compute. discriminate.
Qed.

(** ** C222 *)
Section C222.
Context {K V : Type} (keq : K -> K -> bool) (keq_iff : forall a b, keq a b = true <-> a = b).
Notation run := (run (V := V) keq).
Notation consult := (consult (V := V) keq).
Lemma keq_refl k : keq k k = true. Proof. apply keq_iff. reflexivity. Qed.
Lemma held_start k k' (s : store K V) : held keq k (entries (start keq k' s)) = held keq k (entries s).
Proof. unfold start, insert. destruct (existsb _ _); reflexivity. Qed.
Lemma held_consult k now k' (s : store K V) : held keq k (entries (snd (consult now k' s))) = held keq k (entries s).
Proof. unfold Dynamic_Model.consult. destruct (held keq k' (entries s)) as [[v t]|]; [destruct (ttl <=? _)|]; cbn [snd]; try apply held_start; reflexivity. Qed.
Lemma run_snoc h e : run (h ++ [e]) = step keq (run h) e.
Proof. unfold Dynamic_Model.run. rewrite fold_left_app. reflexivity. Qed.
Lemma held_latest h k v t : held keq k (entries (run h)) = Some (v, t) <-> Latest h k v t.
Proof.
  induction h as [|e h IH] using rev_ind.
  - split; [discriminate|]. intros (h1 & h2 & E & _). destruct h1; discriminate.
  - rewrite run_snoc.
    assert (Skip : (forall t' r, e = End t' k r -> r = None) -> Latest (h ++ [e]) k v t <-> Latest h k v t).
    { intros N. split.
      - intros (h1 & h2 & E & A). destruct (rev h2) as [|y z] eqn:B; apply (f_equal (@rev _)) in B; rewrite rev_involutive in B; cbn in B; subst h2.
        + change (End t k (Some v) :: []) with ([] ++ [End t k (Some v)]) in E. apply app_inj_tail in E. destruct E as [_ E]. specialize (N _ _ E). discriminate.
        + rewrite app_comm_cons, app_assoc in E. apply app_inj_tail in E. destruct E as [-> _]. exists h1, (rev z). split; [reflexivity|]. intros t' r I. apply (A t'). rewrite in_app_iff. left. exact I.
      - intros (h1 & h2 & -> & A). exists h1, (h2 ++ [e]). split; [rewrite <- app_assoc; reflexivity|]. intros t' r I. apply in_app_iff in I. destruct I as [I|[->|[]]]; [exact (A t' r I)|exact (N t' r eq_refl)]. }
    destruct e as [now k'|now k' r]; cbn [step].
    + rewrite held_consult, IH. symmetry. apply Skip. discriminate.
    + unfold finish. destruct r as [w|]; cbn [entries].
      * cbn [held]. destruct (keq k k') eqn:Q.
        -- apply keq_iff in Q. subst k'. split.
           ++ intros E. injection E as -> ->. exists h, []. split; [reflexivity|]. intros t' r [].
           ++ intros (h1 & h2 & E & A). destruct (rev h2) as [|y z] eqn:B; apply (f_equal (@rev _)) in B; rewrite rev_involutive in B; cbn in B; subst h2.
              ** change (End t k (Some v) :: []) with ([] ++ [End t k (Some v)]) in E. apply app_inj_tail in E. destruct E as [_ E]. injection E as -> ->. reflexivity.
              ** rewrite app_comm_cons, app_assoc in E. apply app_inj_tail in E. destruct E as [_ E]. subst y. assert (X : Some w = None) by (apply (A now); rewrite in_app_iff; right; left; reflexivity). discriminate.
        -- rewrite IH. symmetry. apply Skip. intros t' r E. injection E as _ -> _. rewrite keq_refl in Q. discriminate.
      * rewrite IH. symmetry. apply Skip. intros t' r E. injection E as _ _ ->. reflexivity.
Qed.
(** what is offered is what the last refresh that succeeded brought, or nothing when there was none *)
Theorem C222_latest : forall h now k v, fst (consult now k (run h)) = Some v <-> exists t, Latest h k v t.
Proof.
  intros h now k v. unfold Dynamic_Model.consult. destruct (held keq k (entries (run h))) as [[u t]|] eqn:H; cbn [fst].
  - split.
    + intros E. injection E as ->. exists t. apply held_latest. exact H.
    + intros [t' L]. apply held_latest in L. congruence.
  - split; [discriminate|]. intros [t' L]. apply held_latest in L. congruence.
Qed.
(** the age of what is kept does not matter to what is offered *)
Theorem C222_any_age_refuted : forall h now now' k, fst (consult now k (run h)) = fst (consult now' k (run h)).
Proof. intros h now now' k. unfold Dynamic_Model.consult. destruct (held keq k (entries (run h))) as [[u t]|]; reflexivity. Qed.

Lemma without_in k x l : In x (without keq k l) <-> In x l /\ x <> k.
Proof.
  unfold without. rewrite filter_In, negb_true_iff. split; intros [I N]; (split; [exact I|]).
  - intros ->. rewrite keq_refl in N. discriminate.
  - destruct (keq k x) eqn:Q; [|reflexivity]. apply keq_iff in Q. congruence.
Qed.
Lemma drop_one_in k x l : NoDup l -> In x (drop_one keq k l) <-> In x l /\ x <> k.
Proof.
  induction l as [|y l IH]; intros D; cbn [drop_one]; [cbn; tauto|]. inversion D as [|? ? N D']; subst. destruct (keq k y) eqn:Q.
  - apply keq_iff in Q. subst y. cbn [In]. split; [intros I; split; [right; exact I|intros ->; contradiction]|]. intros [[->|I] X]; [congruence|exact I].
  - cbn [In]. rewrite (IH D'). assert (y <> k) by (intros ->; rewrite keq_refl in Q; discriminate). split; [intros [->|[I X]]; [split; [left; reflexivity|assumption]|split; [right; exact I|exact X]]|]. intros [[->|I] X]; [left; reflexivity|right; split; assumption].
Qed.
Lemma drop_one_nodup k l : NoDup l -> NoDup (drop_one keq k l).
Proof.
  induction l as [|y l IH]; intros D; cbn [drop_one]; [constructor|]. inversion D as [|? ? N D']; subst. destruct (keq k y); [exact D'|]. constructor; [|exact (IH D')]. rewrite (drop_one_in k y l D'). tauto.
Qed.
Definition sound (s : store K V) : Prop := NoDup (running s) /\ forall k, In k (running s) <-> In k (pending s).
Lemma exists_in k l : existsb (keq k) l = true <-> In k l.
Proof. rewrite existsb_exists. split; [intros (x & I & Q); apply keq_iff in Q; subst x; exact I|]. intros I. exists k. split; [exact I|apply keq_refl]. Qed.
Lemma start_sound k s : sound s -> sound (start keq k s).
Proof.
  intros [D P]. unfold start, insert. destruct (existsb (keq k) (pending s)) eqn:E; [split; assumption|]. split; cbn [running pending].
  - constructor; [|exact D]. rewrite P. intros I. apply exists_in in I. congruence.
  - intros x. cbn [In]. rewrite P. reflexivity.
Qed.
Lemma start_runs k s : sound s -> In k (running (start keq k s)).
Proof.
  intros [D P]. unfold start, insert. destruct (existsb (keq k) (pending s)) eqn:E; cbn [running]; [apply P, exists_in; exact E|left; reflexivity].
Qed.
Lemma step_sound s e : sound s -> sound (step keq s e).
Proof.
  intros S. destruct e as [now k|now k r]; cbn [step].
  - unfold Dynamic_Model.consult. destruct (held keq k (entries s)) as [[v t]|]; [destruct (ttl <=? _)|]; cbn [snd]; try apply start_sound; exact S.
  - destruct S as [D P]. unfold finish. destruct r; (split; cbn [running pending]; [apply drop_one_nodup; exact D|]; intros x; rewrite (drop_one_in k x _ D), without_in, P; reflexivity).
Qed.
Lemma run_sound h : sound (run h).
Proof. induction h as [|e h IH] using rev_ind; [split; [constructor|cbn; tauto]|]. rewrite run_snoc. apply step_sound. exact IH. Qed.
(** of each kind of value at most one refresh runs at any time *)
Theorem C222_one_at_a_time : forall h, NoDup (running (run h)).
Proof. intros h. apply run_sound. Qed.
(** asking for values that are not there, or are a second old, leaves a refresh of them running; asking
    for younger ones starts none *)
Theorem C222_refreshed : forall h now k, (forall v t, Latest h k v t -> t + 1000 <= now) -> In k (running (run (h ++ [Ask now k]))).
Proof.
  intros h now k O. rewrite run_snoc. cbn [step]. unfold Dynamic_Model.consult. destruct (held keq k (entries (run h))) as [[v t]|] eqn:H.
  - apply held_latest in H. specialize (O v t H). unfold ttl. destruct (Nat.leb_spec 1000 (now - t)); [|lia]. cbn [snd]. apply start_runs, run_sound.
  - apply start_runs, run_sound.
Qed.
Theorem C222_not_refreshed : forall h now k v t, Latest h k v t -> now < t + 1000 -> run (h ++ [Ask now k]) = run h.
Proof.
  intros h now k v t L Lt. rewrite run_snoc. cbn [step]. unfold Dynamic_Model.consult. apply held_latest in L. rewrite L. unfold ttl. destruct (Nat.leb_spec 1000 (now - t)); [lia|reflexivity].
Qed.
(** a refresh runs from being asked for until it ends *)
Theorem C222_until_it_ends : forall h e k, In k (running (run h)) -> In k (running (run (h ++ [e]))) \/ exists t r, e = End t k r.
Proof.
  intros h e k I. rewrite run_snoc. destruct e as [now k'|now k' r]; cbn [step].
  - left. unfold Dynamic_Model.consult. assert (A : In k (running (start keq k' (run h)))) by (unfold start; destruct (insert keq k' (pending (run h))) as [[] p]; cbn [running]; [right; exact I|exact I]).
    destruct (held keq k' (entries (run h))) as [[v t]|]; [destruct (ttl <=? _)|]; cbn [snd]; assumption.
  - destruct (keq k k') eqn:Q; [apply keq_iff in Q; subst k'; right; exists now, r; reflexivity|]. left. assert (N : k <> k') by (intros ->; rewrite keq_refl in Q; discriminate).
    unfold finish. destruct r; cbn [running]; apply (drop_one_in k' k); try (split; [exact I|exact N]); apply run_sound.
Qed.
End C222.
(** the first time, nothing is offered *)
Theorem C222_first_time_refuted : forall now (k : nat), fst (command_values Nat.eqb now k (run Nat.eqb [])) = [].
Proof. reflexivity. Qed.
Example C222_example : let h := [Ask 0 7; Ask 5 7; End 60 7 (Some [lit "main"]); Ask 70 7; Ask 2000 7; End 2010 7 None] in
  running (run Nat.eqb h) = [] /\ fst (command_values Nat.eqb 3000 7 (run Nat.eqb h)) = [lit "main"].
Proof.
  cbv zeta. split; vm_compute; reflexivity.
Qed.

(** ** C223 *)
Lemma repository_root d up r : Project_Model.ancestor_with (Runtime_Model.there d) up = Some r -> Runtime_Model.upwards d up (lit ".git") = Runtime_Model.upwards d (rev r) (lit ".git").
Proof.
  induction up as [|x up IH]; intros H; cbn [Project_Model.ancestor_with] in H; destruct (existsb _ _) eqn:E; try discriminate.
  - injection H as <-. reflexivity.
  - injection H as <-. exact (f_equal (fun u => Runtime_Model.upwards d u (lit ".git")) (eq_sym (rev_involutive (x :: up)))).
  - rewrite <- (IH H). cbn [Runtime_Model.upwards]. destruct (Runtime_Model.there d (rev (x :: up) ++ [lit ".git"])) eqn:T; [|reflexivity].
    exfalso. assert (X : existsb (fun m => Runtime_Model.there d (rev (x :: up) ++ [m])) Project_Model.PROJECT_MARKERS = true).
    { apply existsb_exists. exists (lit ".git"). split; [unfold Project_Model.PROJECT_MARKERS; cbn; tauto|exact T]. }
    exact (eq_true_false_abs _ X E).
Qed.
(** two folders that share what is kept of git are in the same repository, so the branches of one
    repository are never offered in another *)
Theorem C223_same_repository : forall d a b p, scope d a = scope d b -> Runtime_Spec.Nearest d a (lit ".git") p <-> Runtime_Spec.Nearest d b (lit ".git") p.
Proof.
  intros d a b p E. rewrite <- !Runtime_Props.C211_nearest. assert (R : forall c, Runtime_Model.find_up d c (lit ".git") = Runtime_Model.find_up d (scope d c) (lit ".git")).
  { intros c. unfold Runtime_Model.find_up, scope, Runtime_Model.root_of, Project_Model.find_project_root. destruct (Project_Model.ancestor_with _ (rev c)) as [r|] eqn:A; [|reflexivity]. apply repository_root. exact A. }
  rewrite (R a), (R b), E. reflexivity.
Qed.
(** but one repository may be kept several times: each project in it has its own *)
Theorem C223_each_project : forall d a b, scope d a <> scope d b -> forall now v, fst (consult path_eqb now (scope d b) (Store [(scope d a, (v, now))] [] [])) = (None : option (list str)).
Proof.
  intros d a b N now v. unfold consult. cbn [entries held]. destruct (path_eqb (scope d b) (scope d a)) eqn:Q; [apply path_eqb_iff in Q; congruence|reflexivity].
Qed.
Example C223_example : let d := fun p => if path_eqb p [lit "r"; lit ".git"] then Some Runtime_Model.Folder else None in
  scope d [lit "r"; lit "src"] = scope d [lit "r"; lit "doc"; lit "en"] /\ Runtime_Spec.Nearest d [lit "r"; lit "src"] (lit ".git") [lit "r"; lit ".git"].
Proof. cbv zeta. split; [vm_compute; reflexivity|]. apply Runtime_Props.C211_nearest. vm_compute. reflexivity. Qed.
