(** C241-C243: signals, processes and commands of the system. *)
From Coq Require Import Permutation Sorting.Sorted.
From Verif Require Import Base Sources_Model Sources_Spec.
From Verif Require Frecency_Model Frecency_Proofs Lread_Model Menu_Model Views_Props Commands_Model Commands_Spec Commands_Props.

(** ** C241: signals *)

(** The numbers are 1 to 31 and all names differ. *)
Theorem C241_table : map snd signals = map N.of_nat (seq 1 31) /\ NoDup (map fst signals).
Proof.
  split; [reflexivity|]. repeat (constructor; [intros X; apply mem_str_iff in X; vm_compute in X; discriminate X|]). constructor.
Qed.
(** Offered are, in the order of the numbers, the signals whose name, with or without SIG and in any case, or whose number
    begins with what was typed. *)
Theorem C241_offered : forall upper token n, In n (signal_names upper token) <->
  exists k, In (n, k) signals /\ Names_signal upper token n k (Lread_Model.show_nat k).
Proof.
  intros upper token n. unfold signal_names, Names_signal. rewrite in_map_iff.
  assert (SG : forall m k, In (m, k) signals -> starts_with (lit "SIG") m = true).
  { assert (F : forallb (fun s => starts_with (lit "SIG") (fst s)) signals = true) by reflexivity. rewrite forallb_forall in F.
    intros m k I. exact (F _ I). }
  assert (SH : forall m k, In (m, k) signals -> m = lit "SIG" ++ short m).
  { intros m k I. pose proof (SG _ _ I) as E. unfold short. rewrite E. apply starts_with_iff in E as (r & ->). reflexivity. }
  split.
  - intros ((m, k) & <- & I). apply filter_In in I as (I & T). cbn [fst snd] in *. exists k. split; [exact I|].
    rewrite !orb_true_iff in T. destruct T as [[[T|T]|T]|T].
    + left. apply str_eqb_eq. exact T.
    + right. left. apply starts_with_iff. exact T.
    + right. right. left. apply starts_with_iff in T as (r & T). exists r. rewrite (SH _ _ I) at 1. rewrite T. reflexivity.
    + right. right. right. apply starts_with_iff. exact T.
  - intros (k & I & T). exists (n, k). split; [reflexivity|]. apply filter_In. split; [exact I|]. cbn [fst snd]. rewrite !orb_true_iff.
    destruct T as [->|[T|[(r & T)|T]]].
    + left. left. left. reflexivity.
    + left. left. right. apply starts_with_iff. exact T.
    + left. right. apply starts_with_iff. exists r. pose proof (SH _ _ I) as E. rewrite T in E at 1. apply app_inv_head in E. symmetry. exact E.
    + right. apply starts_with_iff. exact T.
Qed.
Theorem C241_once : forall upper token, NoDup (signal_names upper token).
Proof.
  intros upper token. unfold signal_names. generalize (proj2 C241_table). generalize signals.
  induction l as [|x l IH]; intros ND; [constructor|]. cbn [filter map] in *. inversion ND; subst.
  destruct (_ || _); [|apply IH; assumption]. cbn [map]. constructor; [|apply IH; assumption].
  intros I. apply H1. apply in_map_iff in I as (y & <- & I). apply filter_In in I as (I & _). apply in_map. exact I.
Qed.

(** ** C242: processes *)

Section Processes.
Variable low : str -> str.
Notation process_candidates := (process_candidates low).
Definition Fits (token : str) (t : str) (d : option str) : Prop :=
  token = [] \/ (exists r, t = token ++ r) \/ exists n, d = Some n /\ exists a b, low n = a ++ low token ++ b.
Lemma wanted_iff token c : wanted low token c = true <-> Fits token (fst c) (snd c).
Proof.
  unfold wanted, Fits. rewrite !orb_true_iff, str_eqb_eq, starts_with_iff. split.
  - intros [[X|X]|X]; auto. right. right. destruct (snd c) as [d|]; [|discriminate]. exists d. split; [reflexivity|]. apply contains_iff. exact X.
  - intros [X|[X|(n & -> & X)]]; auto. right. apply contains_iff. exact X.
Qed.
(** [out] is what the list of the processes [procs] gives for a token, by number *)
Definition List_of (procs : list process) (token : str) (out : list (str * option str)) : Prop :=
  exists ps, Permutation procs ps /\ StronglySorted (fun a b => (pid a <= pid b)%N) ps /\
    out = filter (wanted low token) (map (fun p => (Lread_Model.show_nat (pid p), option_map trim (comm p))) ps).
Lemma sorted_list procs token : List_of procs token (filter (wanted low token) (map offer (Frecency_Model.sort by_pid procs))).
Proof.
  exists (Frecency_Model.sort by_pid procs). split; [apply Frecency_Proofs.sort_perm|]. split; [|reflexivity].
  apply (Views_Props.ordered_sorted by_pid); [intros x y H; apply N.leb_le; exact H|]. apply Frecency_Proofs.sort_ordered; unfold by_pid.
  - intros x y H. apply N.leb_gt in H. apply N.leb_le. lia.
  - intros x y z H K. apply N.leb_le in H, K. apply N.leb_le. lia.
Qed.
(** Offered are the processes whose number begins with what was typed or whose name holds it, when nothing
    is kept from before. *)
Theorem C242_offered : forall now token procs kept, (forall l e, kept = Some (l, e) -> e <= now) ->
  List_of procs token (fst (process_candidates now token procs kept)) /\
  forall t d, In (t, d) (fst (process_candidates now token procs kept)) <->
    exists p, In p procs /\ t = Lread_Model.show_nat (pid p) /\ d = option_map trim (comm p) /\ Fits token t d.
Proof.
  intros now token procs kept K.
  assert (E : fst (process_candidates now token procs kept) = filter (wanted low token) (map offer (Frecency_Model.sort by_pid procs))).
  { unfold Sources_Model.process_candidates. destruct kept as [[l e]|]; [|reflexivity]. specialize (K l e eq_refl).
    destruct (Nat.ltb_spec now e); [lia|reflexivity]. }
  rewrite E. split; [apply sorted_list|]. intros t d. rewrite filter_In, wanted_iff, in_map_iff. cbn [fst snd]. split.
  - intros ((p & [= <- <-] & I) & F). exists p. split; [|auto]. apply (Permutation_in _ (Permutation_sym (Frecency_Proofs.sort_perm by_pid procs))). exact I.
  - intros (p & I & -> & -> & F). split; [|exact F]. exists p. split; [reflexivity|]. apply (Permutation_in _ (Frecency_Proofs.sort_perm by_pid procs)). exact I.
Qed.
(** The same in any history: the list is that of an earlier moment, less than a second ago. *)
Fixpoint asks (es : list (nat * str * list process)) (kept : kept_list) : list (list (str * option str)) :=
  match es with
  | [] => []
  | (now, token, procs) :: r =>
      fst (process_candidates now token procs kept) :: asks r (snd (process_candidates now token procs kept))
  end.
Fixpoint in_time (t : nat) (es : list (nat * str * list process)) : Prop :=
  match es with [] => True | (now, _, _) :: r => t <= now /\ in_time now r end.
Theorem C242_age : forall es i now token procs out, in_time 0 es -> nth_error es i = Some (now, token, procs) -> nth_error (asks es None) i = Some out ->
  exists j now' token' procs', j <= i /\ nth_error es j = Some (now', token', procs') /\ now' <= now /\ now < now' + 1000 /\ List_of procs' token out.
Proof.
  intros es. assert (G : forall es t done kept i now token procs out, in_time t es ->
    (forall l e, kept = Some (l, e) -> exists j now' token' procs', j < length done /\ nth_error done j = Some (now', token', procs') /\
        e = now' + 1000 /\ now' <= t /\ l = map offer (Frecency_Model.sort by_pid procs')) ->
    nth_error es i = Some (now, token, procs) -> nth_error (asks es kept) i = Some out ->
    exists j now' token' procs', j <= length done + i /\ nth_error (done ++ es) j = Some (now', token', procs') /\ now' <= now /\ now < now' + 1000 /\ List_of procs' token out).
  { clear es. induction es as [|((now0, token0), procs0) es IH]; intros t done kept i now token procs out T K X Y; [destruct i; discriminate|].
    destruct T as (T1 & T2). cbn [asks] in Y.
    set (fresh := map offer (Frecency_Model.sort by_pid procs0)) in *.
    assert (C : (exists l e, kept = Some (l, e) /\ now0 < e /\ process_candidates now0 token0 procs0 kept = (filter (wanted low token0) l, kept)) \/
                process_candidates now0 token0 procs0 kept = (filter (wanted low token0) fresh, Some (fresh, now0 + 1000))).
    { unfold Sources_Model.process_candidates. destruct kept as [[l e]|]; [|right; reflexivity].
      destruct (Nat.ltb_spec now0 e); [left|right; reflexivity]. exists l, e. auto. }
    destruct i as [|i]; cbn [nth_error] in X, Y.
    - injection X as -> -> ->. injection Y as <-. destruct C as [(l & e & -> & L & ->)| ->]; cbn [fst].
      + destruct (K l e eq_refl) as (j & now' & token' & procs' & J1 & J2 & J3 & J4 & J5). exists j, now', token', procs'. split; [lia|].
        split; [rewrite nth_error_app1 by exact J1; exact J2|]. split; [lia|]. split; [lia|]. subst l. apply sorted_list.
      + exists (length done), now, token, procs. split; [lia|]. split; [rewrite nth_error_app2, Nat.sub_diag by lia; reflexivity|].
        split; [lia|]. split; [lia|]. apply sorted_list.
    - assert (AP : (done ++ [(now0, token0, procs0)]) ++ es = done ++ (now0, token0, procs0) :: es) by (rewrite <- app_assoc; reflexivity).
      specialize (IH now0 (done ++ [(now0, token0, procs0)]) (snd (process_candidates now0 token0 procs0 kept)) i now token procs out T2).
      rewrite AP, app_length in IH. cbn [length] in IH. destruct IH as (j & now' & token' & procs' & J1 & J); [|exact X|exact Y|].
      + intros l e E. destruct C as [(l' & e' & -> & L & C)|C]; rewrite C in E; cbn [snd] in E.
        * destruct (K l e E) as (j & now' & token' & procs' & J1 & J2 & J3 & J4 & J5). exists j, now', token', procs'.
          split; [lia|]. split; [rewrite nth_error_app1 by exact J1; exact J2|]. split; [exact J3|]. split; [lia|exact J5].
        * injection E as <- <-. exists (length done), now0, token0, procs0. split; [lia|]. split; [rewrite nth_error_app2, Nat.sub_diag by lia; reflexivity|]. auto.
      + exists j, now', token', procs'. split; [lia|exact J]. }
  intros i now token procs out T X Y. destruct (G es 0 [] None i now token procs out T) as (j & now' & token' & procs' & J1 & J2 & J3); auto; [discriminate|].
  exists j, now', token', procs'. cbn in J1, J2. auto.
Qed.
(** Within that second a process that is gone is still offered, and a new one is not. *)
Theorem C242_gone_refuted : forall now now' token token' procs procs', now' < now + 1000 ->
  fst (process_candidates now' token' procs' (snd (process_candidates now token procs None))) = filter (wanted low token') (map offer (Frecency_Model.sort by_pid procs)).
Proof.
  intros now now' token token' procs procs' L. unfold Sources_Model.process_candidates. cbn [snd]. apply Nat.ltb_lt in L. rewrite L. reflexivity.
Qed.
End Processes.

(** ** C243: the commands of the system *)

Section System.
Variable fuzzy : str -> str -> bool.
Variable own : list str.
Notation ask := (ask fuzzy own).
Notation run := (run fuzzy own).
Notation Was_there := (Was_there fuzzy own).
Notation Offers := (Commands_Spec.Offers fuzzy).

Lemma scan_iff w t : In t (scan fuzzy own w) <-> exists d, In d own /\ Offers w [] d t.
Proof.
  unfold scan. destruct (Commands_Model.push _ []) as [l s] eqn:E. destruct (Commands_Props.push_spec fuzzy _ _ _ _ E) as (A & _ & _). cbn [fst].
  rewrite in_map_iff. split.
  - intros ((m, k) & <- & I). apply A in I as (_ & I & _). cbn [fst] in *.
    apply (Permutation_in _ (Permutation_sym (Frecency_Proofs.sort_perm _ _))) in I. apply in_flat_map in I as (d & D & I). exists d. split; [exact D|].
    unfold Commands_Spec.Offers. destruct (Commands_Model.read_dir w d) as [es|]; [|destruct I]. apply in_map_iff in I as (e & <- & I). apply filter_In in I as (I & T).
    apply Commands_Props.taken_iff in T. exists es, e. tauto.
  - intros (d & D & es & e & R & I & <- & T). exists (Commands_Model.name e, Commands_Model.Command). split; [reflexivity|]. apply A. cbn [fst snd]. split; [reflexivity|]. split; [|intros []].
    apply (Permutation_in _ (Frecency_Proofs.sort_perm _ _)). apply in_flat_map. exists d. split; [exact D|]. rewrite R. apply in_map. apply filter_In. split; [exact I|].
    apply Commands_Props.taken_iff. exact T.
Qed.
Lemma scan_sorted w : StronglySorted Commands_Spec.Before (scan fuzzy own w).
Proof.
  unfold scan. destruct (Commands_Model.push _ []) as [l s] eqn:E. destruct (Commands_Props.push_spec fuzzy _ _ _ _ E) as (_ & _ & C). cbn [fst]. apply C.
  apply (Views_Props.ordered_sorted Commands_Model.text_leb); [auto|]. apply Frecency_Proofs.sort_ordered; [exact Commands_Props.leb_total|exact Commands_Props.leb_trans].
Qed.
Lemma lookup_kept {A} (f : A -> str) now q c k l b : Menu_Model.lookup f now q c = Some (k, l, b) ->
  exists e, Menu_Model.get c k = Some e /\ (forall x, In x l -> In x (Menu_Model.kept e)) /\ length l <= length (Menu_Model.kept e).
Proof.
  unfold Menu_Model.lookup. destruct (Menu_Model.longest_live now q c) as [[k' ex]|]; [|discriminate].
  destruct (Menu_Model.get c k') as [e|] eqn:G; [|discriminate]. intros [= <- <- <-]. exists e. split; [exact G|]. destruct ex; [auto|].
  split; [intros x I; apply filter_In in I; tauto|]. generalize (Menu_Model.kept e). intros m. induction m as [|x m IH]; [apply le_n|]. cbn [filter].
  destruct (_ || _); cbn [length]; lia.
Qed.
Lemma get_in {A} (c : Menu_Model.cache A) k e : Menu_Model.get c k = Some e -> In (k, e) c.
Proof.
  unfold Menu_Model.get. destruct (find _ c) as [[k' e']|] eqn:F; [|discriminate]. intros [= <-]. apply find_some in F as (I & E). cbn in E.
  apply str_eqb_eq in E. subst. exact I.
Qed.
Lemma offers_any w q d t : Offers w q d t -> Offers w [] d t.
Proof. intros (es & e & A & B & C & _ & D). exists es, e. tauto. Qed.
Lemma fresh_there es now token w t : (forall l at_, names (run es) = Some (l, at_) -> forall x, In x l -> Was_there es x) ->
  In t (fresh_answer fuzzy own token w (run es)) -> Was_there (es ++ [Ask now token w]) t.
Proof.
  intros H I. assert (MON : Was_there es t -> Was_there (es ++ [Ask now token w]) t).
  { intros (e & E & X). exists e. split; [apply in_app_iff; left; exact E|exact X]. }
  unfold fresh_answer in I. apply in_app_iff in I as [I|I].
  - destruct ((starts_with (lit "/") token || starts_with (lit "./") token) && Commands_Model.is_file w token) eqn:F; [|destruct I]. destruct I as [<-|[]].
    apply andb_true_iff in F as (_ & F). exists (Ask now token w). split; [apply in_app_iff; right; left; reflexivity|]. left. auto.
  - match type of I with In _ (firstn ?n ?l) => assert (J : In t l) by (rewrite <- (firstn_skipn n l); apply in_app_iff; left; exact I) end. clear I.
    destruct (names (run es)) as [[l at_]|].
    + apply filter_In in J as (J & _). apply MON. apply (H l at_ eq_refl). exact J.
    + apply Commands_Props.from_iff in J as (_ & d & D & O). exists (Ask now token w). split; [apply in_app_iff; right; left; reflexivity|]. right. exists d.
      split; [exact D|]. apply (offers_any _ _ _ _ O).
Qed.
Lemma run_snoc es e : run (es ++ [e]) = step fuzzy own (run es) e.
Proof. unfold Sources_Model.run. rewrite fold_left_app. reflexivity. Qed.
Lemma in_set {A} ttl now q (l : list A) c k e : In (k, e) (Menu_Model.set ttl now q l c) -> Menu_Model.kept e = l \/ In (k, e) c.
Proof.
  unfold Menu_Model.set. intros [[= <- <-]|I]; [left; reflexivity|right]. apply filter_In in I as (I & _). unfold Menu_Model.purge in I. apply filter_In in I. tauto.
Qed.
Lemma history es :
  (forall l at_, names (run es) = Some (l, at_) -> forall x, In x l -> Was_there es x) /\
  (forall k e, In (k, e) (recent (run es)) -> (forall x, In x (Menu_Model.kept e) -> Was_there es x) /\ length (Menu_Model.kept e) <= 500).
Proof.
  induction es as [|ev es (IH1 & IH2)] using rev_ind; [split; [discriminate|intros k e []]|].
  assert (MON : forall x, Was_there es x -> Was_there (es ++ [ev]) x).
  { intros x (e & E & X). exists e. split; [apply in_app_iff; left; exact E|exact X]. }
  assert (LAST : In ev (es ++ [ev])) by (apply in_app_iff; right; left; reflexivity).
  rewrite run_snoc. destruct ev as [now token w|now w|now l|]; cbn [step].
  - unfold Sources_Model.ask.
    assert (MISS : let s := State (names (run es)) (scanning (run es) || too_old now (run es))
       (match token with [] => recent (run es) | _ => Menu_Model.set 2000 now token (fresh_answer fuzzy own token w (run es)) (recent (run es)) end) in
       (forall l at_, names s = Some (l, at_) -> forall x, In x l -> Was_there (es ++ [Ask now token w]) x) /\
       (forall k e, In (k, e) (recent s) -> (forall x, In x (Menu_Model.kept e) -> Was_there (es ++ [Ask now token w]) x) /\ length (Menu_Model.kept e) <= 500)).
    { cbn [names recent]. split; [intros l at_ E x I; apply MON; eapply IH1; eassumption|]. intros k e I.
      assert (OLD : In (k, e) (recent (run es)) -> (forall x, In x (Menu_Model.kept e) -> Was_there (es ++ [Ask now token w]) x) /\ length (Menu_Model.kept e) <= 500).
      { intros J. destruct (IH2 k e J) as (A & B). split; [intros x X; apply MON, A, X|exact B]. }
      destruct token as [|c token]; [apply OLD; exact I|]. apply in_set in I as [E|I]; [|apply OLD; exact I]. rewrite E. split.
      - intros x X. apply fresh_there; assumption.
      - unfold fresh_answer. rewrite app_length, firstn_length. unfold max_result. destruct (_ && _); cbn [length]; lia. }
    destruct token as [|c token]; [exact MISS|]. destruct (Menu_Model.lookup _ now (c :: token) (recent (run es))) as [[[k l] b]|]; [|exact MISS].
    cbn [snd]. split; [intros l' at_ E x I; apply MON; eapply IH1; eassumption|]. intros k' e I. destruct (IH2 k' e I) as (A & B). split; [intros x X; apply MON, A, X|exact B].
  - cbn [names recent]. split.
    + intros l at_ [= <- <-] x I. exists (Scanned now w). split; [exact LAST|]. apply scan_iff. exact I.
    + intros k e I. destruct (IH2 k e I) as (A & B). split; [intros x X; apply MON, A, X|exact B].
  - cbn [names recent]. split.
    + intros l' at_ [= <- <-] x I. exists (Given now l). split; [exact LAST|exact I].
    + intros k e I. destruct (IH2 k e I) as (A & B). split; [intros x X; apply MON, A, X|exact B].
  - cbn [names recent]. split; [discriminate|]. intros k e I. destruct (IH2 k e I) as (A & B). split; [intros x X; apply MON, A, X|exact B].
Qed.
(** In every history, what is offered was there at some time, and no more than five hundred are offered. *)
Theorem C243_was_there : forall es now token w,
  length (fst (ask now token w (run es))) <= 500 /\
  forall t, In t (fst (ask now token w (run es))) -> Was_there (es ++ [Ask now token w]) t.
Proof.
  intros es now token w. destruct (history es) as (H1 & H2).
  assert (MISS : length (fresh_answer fuzzy own token w (run es)) <= 500 /\ forall t, In t (fresh_answer fuzzy own token w (run es)) -> Was_there (es ++ [Ask now token w]) t).
  { split; [|intros t I; apply fresh_there; assumption]. unfold fresh_answer. rewrite app_length, firstn_length. unfold max_result. destruct (_ && _); cbn [length]; lia. }
  unfold Sources_Model.ask. destruct token as [|c token]; [exact MISS|].
  destruct (Menu_Model.lookup _ now (c :: token) (recent (run es))) as [[[k l] b]|] eqn:L; [|exact MISS]. cbn [fst].
  destruct (lookup_kept _ _ _ _ _ _ _ L) as (e & G & A & B). apply get_in in G. destruct (H2 _ _ G) as (C & D). split; [lia|].
  intros t I. destruct (C t (A t I)) as (ev & E & X). exists ev. split; [apply in_app_iff; left; exact E|exact X].
Qed.
(** When nothing recent is kept, all the known names that match are offered, up to five hundred, in the order of the names. *)
Theorem C243_known_partial : forall es now token w l at_,
  names (run es) = Some (l, at_) -> StronglySorted Commands_Spec.Before l -> ~ Commands_Props.Named token ->
  Menu_Model.lookup (fun x => x) now token (recent (run es)) = None -> length l <= 500 ->
  StronglySorted Commands_Spec.Before (fst (ask now token w (run es))) /\
  forall t, In t (fst (ask now token w (run es))) <-> In t l /\ (token = [] \/ fuzzy t token = true).
Proof.
  intros es now token w l at_ E S' N' L LE.
  assert (F : fst (ask now token w (run es)) = filter (fun c => Commands_Model.matches fuzzy token c) l).
  { assert (X : fst (ask now token w (run es)) = fresh_answer fuzzy own token w (run es)) by (unfold Sources_Model.ask; destruct token; [reflexivity|rewrite L; reflexivity]).
    rewrite X. unfold fresh_answer. rewrite E. unfold Commands_Props.Named in N'. destruct (starts_with (lit "/") token); [tauto|]. destruct (starts_with (lit "./") token); [tauto|].
    cbn [orb andb app length]. rewrite Nat.sub_0_r. rewrite firstn_all2.
    - apply filter_ext. intros c. cbn. apply andb_true_r.
    - unfold max_result. etransitivity; [|exact LE]. clear. induction l as [|x l IH]; [apply le_n|]. cbn [filter]. destruct (_ && _); cbn [length]; lia. }
  rewrite F. split.
  - clear -S'. induction S' as [|x l S1 IH F]; [constructor|]. cbn [filter]. destruct (Commands_Model.matches fuzzy token x); [|exact IH]. constructor; [exact IH|].
    rewrite Forall_forall in *. intros y I. apply F. apply filter_In in I. tauto.
  - intros t. rewrite filter_In, Commands_Props.matches_iff. reflexivity.
Qed.
(** Before any names are known the disk is read: all that match are offered, if they are fewer than five hundred. *)
Theorem C243_first_partial : forall es now token w,
  names (run es) = None -> ~ Commands_Props.Named token -> Menu_Model.lookup (fun x => x) now token (recent (run es)) = None ->
  length (fst (ask now token w (run es))) < 500 ->
  forall t, In t (fst (ask now token w (run es))) <-> exists d, In d own /\ Offers w token d t.
Proof.
  intros es now token w E N' L.
  assert (X : fst (ask now token w (run es)) = firstn 500 (map fst (Commands_Model.from_paths fuzzy w token own []))).
  { transitivity (fresh_answer fuzzy own token w (run es)); [unfold Sources_Model.ask; destruct token; [reflexivity|rewrite L; reflexivity]|].
    unfold fresh_answer. rewrite E. unfold Commands_Props.Named in N'. destruct (starts_with (lit "/") token); [tauto|]. destruct (starts_with (lit "./") token); [tauto|].
    cbn [orb andb app length]. rewrite Nat.sub_0_r. reflexivity. }
  rewrite X. rewrite firstn_length. intros LT t. rewrite firstn_all2 by lia. rewrite Commands_Props.from_iff. split; [tauto|]. intros H. split; [intros []|exact H].
Qed.
(** A file named by its path is offered, before the others. *)
Theorem C243_named : forall es now token w, Commands_Props.Named token -> Commands_Model.is_file w token = true ->
  Menu_Model.lookup (fun x => x) now token (recent (run es)) = None -> hd_error (fst (ask now token w (run es))) = Some token.
Proof.
  intros es now token w N' F L.
  transitivity (hd_error (fresh_answer fuzzy own token w (run es))); [unfold Sources_Model.ask; destruct token; [reflexivity|rewrite L; reflexivity]|].
  unfold fresh_answer. rewrite F. unfold Commands_Props.Named in N'. apply orb_true_iff in N'. rewrite N'. reflexivity.
Qed.
Lemma recent_from es : forall k e, In (k, e) (recent (run es)) -> exists a now w b, es = a ++ Ask now k w :: b /\ k <> [] /\
  Menu_Model.expires e = now + 2000 /\ Menu_Model.kept e = fresh_answer fuzzy own k w (run a).
Proof.
  induction es as [|ev es IH] using rev_ind; [intros k e []|].
  assert (OLD : forall k e, In (k, e) (recent (run es)) -> exists a now w b, es ++ [ev] = a ++ Ask now k w :: b /\ k <> [] /\
    Menu_Model.expires e = now + 2000 /\ Menu_Model.kept e = fresh_answer fuzzy own k w (run a)).
  { intros k e I. destruct (IH k e I) as (a & n & w & b & -> & X). exists a, n, w, (b ++ [ev]). rewrite <- app_assoc. auto. }
  intros k e. rewrite run_snoc. destruct ev as [now token w|now w|now l|]; cbn [step recent]; try apply OLD.
  unfold Sources_Model.ask. destruct token as [|c token]; [apply OLD|]. destruct (Menu_Model.lookup _ _ _ _) as [[[k' l] b]|]; [apply OLD|]. cbn [snd recent].
  unfold Menu_Model.set. intros [[= <- <-]|I].
  - exists es, now, w, []. repeat split. discriminate.
  - apply OLD. apply filter_In in I as (I & _). unfold Menu_Model.purge in I. apply filter_In in I. tauto.
Qed.
Lemma longest_prefix {A} now q (c : Menu_Model.cache A) k b : Menu_Model.longest_live now q c = Some (k, b) ->
  (exists r, q = k ++ r) /\ exists e, Menu_Model.get c k = Some e /\ Menu_Model.live now e = true.
Proof.
  assert (S' : forall n, Menu_Model.shorter now q c n = Some k -> (exists r, q = k ++ r) /\ exists e, Menu_Model.get c k = Some e /\ Menu_Model.live now e = true).
  { induction n as [|n IH]; cbn [Menu_Model.shorter].
    - destruct (Menu_Model.get c (firstn 0 q)) as [e|] eqn:G; [|discriminate]. destruct (Menu_Model.live now e) eqn:L; [|discriminate].
      intros [= <-]. split; [exists q; reflexivity|eauto].
    - destruct (Menu_Model.get c (firstn (S n) q)) as [e|] eqn:G; [|exact IH]. destruct (Menu_Model.live now e) eqn:L; [|exact IH].
      intros [= <-]. split; [exists (skipn (S n) q); exact (eq_sym (firstn_skipn (S n) q))|eauto]. }
  unfold Menu_Model.longest_live. intros H.
  assert (R : match q with [] => None | _ => option_map (fun k => (k, false)) (Menu_Model.shorter now q c (length q - 1)) end = Some (k, b) ->
    (exists r, q = k ++ r) /\ exists e, Menu_Model.get c k = Some e /\ Menu_Model.live now e = true).
  { destruct q as [|x q']; [discriminate|]. destruct (Menu_Model.shorter now (x :: q') c (length (x :: q') - 1)) as [k'|] eqn:SH; [|discriminate].
    cbn [option_map]. intros [= <- <-]. apply (S' _ SH). }
  destruct (Menu_Model.get c q) as [e|] eqn:G; [|apply R; exact H]. destruct (Menu_Model.live now e) eqn:L; [|apply R; exact H].
  injection H as <- <-. split; [exists []; symmetry; apply app_nil_r|eauto].
Qed.
(** In every history each candidate is one of the fresh answer, or of the fresh answer to a beginning of the word
    less than two seconds ago. *)
Theorem C243_recent : forall es now token w t, In t (fst (ask now token w (run es))) ->
  In t (fresh_answer fuzzy own token w (run es)) \/
  exists a now' k w' b r, es = a ++ Ask now' k w' :: b /\ now < now' + 2000 /\ token = k ++ r /\ k <> [] /\ In t (fresh_answer fuzzy own k w' (run a)).
Proof.
  intros es now token w t. unfold Sources_Model.ask. destruct token as [|c token]; [auto|].
  destruct (Menu_Model.lookup _ now (c :: token) (recent (run es))) as [[[k l] b]|] eqn:L; [|auto]. cbn [fst]. intros I. right.
  unfold Menu_Model.lookup in L. destruct (Menu_Model.longest_live now (c :: token) (recent (run es))) as [[k' ex]|] eqn:LL; [|discriminate].
  destruct (longest_prefix _ _ _ _ _ LL) as ((r & P) & e & G & LV). rewrite G in L. injection L as <- L _.
  assert (K : In t (Menu_Model.kept e)) by (subst l; destruct ex; [exact I|apply filter_In in I; tauto]).
  apply get_in in G. destruct (recent_from _ _ _ G) as (a & now' & w' & b' & E & NE & X & Y). exists a, now', k', w', b', r.
  split; [exact E|]. unfold Menu_Model.live in LV. apply Nat.ltb_lt in LV. rewrite X in LV. rewrite <- Y. auto.
Qed.
(** Within two seconds the answer for a word is the same, whatever has happened on the disk or to the known names. *)
Theorem C243_kept_refuted : forall es mid now now' token w w', token <> [] -> Menu_Model.lookup (fun x => x) now token (recent (run es)) = None -> now' < now + 2000 ->
  Forall (fun e => match e with Ask _ _ _ => False | _ => True end) mid ->
  fst (ask now' token w' (run (es ++ Ask now token w :: mid))) = fst (ask now token w (run es)).
Proof.
  intros es mid now now' token w w' NE E L F.
  assert (R : recent (run (es ++ Ask now token w :: mid)) = recent (run (es ++ [Ask now token w]))).
  { clear -F. change (Ask now token w :: mid) with ([Ask now token w] ++ mid). rewrite app_assoc. revert F. generalize (es ++ [Ask now token w]). clear.
    induction mid as [|e mid IH] using rev_ind; intros es F; [rewrite app_nil_r; reflexivity|]. rewrite app_assoc, run_snoc. apply Forall_app in F as (F1 & F2). inversion F2; subst.
    destruct e; [contradiction| | |]; cbn [step recent]; apply IH; exact F1. }
  assert (K : Menu_Model.lookup (fun x => x) now' token (recent (run (es ++ [Ask now token w]))) = Some (token, fresh_answer fuzzy own token w (run es), true)).
  { rewrite run_snoc. cbn [step]. unfold Sources_Model.ask. destruct token as [|c token]; [congruence|]. rewrite E. cbn [snd recent].
    set (l := fresh_answer fuzzy own (c :: token) w (run es)). set (q := c :: token).
    unfold Menu_Model.lookup, Menu_Model.longest_live. unfold Menu_Model.get, Menu_Model.set. cbn [find fst option_map snd].
    rewrite str_eqb_refl. cbn [option_map snd]. unfold Menu_Model.live. cbn [Menu_Model.expires].
    apply Nat.ltb_lt in L. rewrite L. cbn [find fst]. rewrite str_eqb_refl. reflexivity. }
  unfold Sources_Model.ask at 1. rewrite R, K. destruct token as [|c token]; [congruence|]. unfold Sources_Model.ask. rewrite E. reflexivity.
Qed.
(** A scan is under way after an answer that was not kept exactly if one was before, or the names are not known,
    or were learnt more than thirty seconds ago. *)
Theorem C243_scan_begins : forall es now token w, Menu_Model.lookup (fun x => x) now token (recent (run es)) = None ->
  (scanning (run (es ++ [Ask now token w])) = true <->
   scanning (run es) = true \/ forall l at_, names (run es) = Some (l, at_) -> at_ + 30 * 1000 < now).
Proof.
  intros es now token w L. rewrite run_snoc. cbn [step].
  assert (X : scanning (snd (ask now token w (run es))) = scanning (run es) || too_old now (run es)) by (unfold Sources_Model.ask; destruct token; [reflexivity|rewrite L; reflexivity]).
  rewrite X, orb_true_iff. unfold too_old. destruct (names (run es)) as [[l at_]|].
  - rewrite Nat.ltb_lt. split; (intros [H|H]; [auto|right]).
    + intros l' a [= <- <-]. lia.
    + specialize (H _ _ eq_refl). lia.
  - split; [|auto]. intros _. right. discriminate.
Qed.
(** A scan finds exactly the executables of the PATH the shell was started with. *)
Theorem C243_scan : forall es now w, exists l, names (run (es ++ [Scanned now w])) = Some (l, now) /\ scanning (run (es ++ [Scanned now w])) = false /\
  StronglySorted Commands_Spec.Before l /\ forall t, In t l <-> exists d, In d own /\ Offers w [] d t.
Proof.
  intros es now w. rewrite run_snoc. cbn [step names]. exists (scan fuzzy own w). split; [reflexivity|]. split; [reflexivity|]. split; [apply scan_sorted|]. intros t. apply scan_iff.
Qed.
(** However long ago the names were learnt, the next answer is taken from them: it does not depend on the disk. *)
Theorem C243_old_refuted : forall es now w w' token l at_, names (run es) = Some (l, at_) -> ~ Commands_Props.Named token ->
  fst (ask now token w (run es)) = fst (ask now token w' (run es)).
Proof.
  intros es now w w' token l at_ E N'.
  assert (X : fresh_answer fuzzy own token w (run es) = fresh_answer fuzzy own token w' (run es)).
  { unfold fresh_answer. rewrite E. unfold Commands_Props.Named in N'. destruct (starts_with (lit "/") token); [tauto|]. destruct (starts_with (lit "./") token); [tauto|]. reflexivity. }
  unfold Sources_Model.ask. rewrite X. destruct token; [reflexivity|]. destruct (Menu_Model.lookup _ _ _ _) as [[[k m] b]|]; reflexivity.
Qed.
(** A directory that is put on PATH in the shell is not looked at: a command that only it has is not offered
    in any history in which the shell does not give names itself. *)
Theorem C243_path_refuted : forall es now token w t,
  (forall n l, ~ In (Given n l) es) ->
  (forall e w', In e (es ++ [Ask now token w]) -> (exists n tok, e = Ask n tok w') \/ (exists n, e = Scanned n w') ->
     (forall d, In d own -> ~ Offers w' [] d t) /\ Commands_Model.is_file w' t = false) ->
  ~ In t (fst (ask now token w (run es))).
Proof.
  intros es now token w t F H I. apply C243_was_there in I as (e & E & X). destruct e as [n tok w'|n w'|n l|].
  - destruct (H _ w' E) as (A & B); [left; eauto|]. destruct X as [(_ & X)|(d & D & X)]; [congruence|]. exact (A d D X).
  - destruct (H _ w' E) as (A & B); [right; eauto|]. destruct X as (d & D & X). exact (A d D X).
  - apply in_app_iff in E as [E|[E|[]]]; [|discriminate]. exact (F _ _ E).
  - exact X.
Qed.
End System.

(** A scan begun before PATH was set still stores what it found. *)
Theorem C243_race_refuted : forall fuzzy own es now w, exists l, names (run fuzzy own (es ++ [Path_set; Scanned now w])) = Some (l, now).
Proof.
  intros fuzzy own es now w. exists (scan fuzzy own w). change (es ++ [Path_set; Scanned now w]) with (es ++ [Path_set] ++ [Scanned now w]).
  rewrite app_assoc. rewrite run_snoc. reflexivity.
Qed.

Print Assumptions C241_table. Print Assumptions C241_offered. Print Assumptions C241_once. Print Assumptions C242_offered. Print Assumptions C242_age.
Print Assumptions C242_gone_refuted. Print Assumptions C243_was_there. Print Assumptions C243_known_partial. Print Assumptions C243_scan. Print Assumptions C243_first_partial. Print Assumptions C243_named. Print Assumptions C243_recent.
Print Assumptions C243_kept_refuted. Print Assumptions C243_scan_begins.
Print Assumptions C243_old_refuted. Print Assumptions C243_path_refuted. Print Assumptions C243_race_refuted.

Example C241_case : signal_names (fun _ => lit "K") (lit "k") = [lit "SIGKILL"] /\ signal_names (fun s => s) (lit "9") = [lit "SIGKILL"].
Proof. split; reflexivity. Qed.
Example C242_case :
  fst (process_candidates (fun s => s) 10 (lit "sh") [Process 30 (Some (lit "dsh")); Process 7 (Some (lit "sh")); Process 8 None] None) =
    [(lit "7", Some (lit "sh")); (lit "30", Some (lit "dsh"))] /\
  in_time 0 [(10, lit "sh", [Process 30 None]); (500, lit "3", [])].
Proof. split; [reflexivity|]. cbn. lia. Qed.
Example C243_case :
  let w := Commands_Props.some_world in let r := run Commands_Props.holds [lit "/usr/bin"; lit "/bin"] [Scanned 1 w] in
  names r = Some ([lit "gone"; lit "make"; lit "test"], 1) /\
  fst (ask Commands_Props.holds [lit "/usr/bin"; lit "/bin"] 5 (lit "e") w r) = [lit "gone"; lit "make"; lit "test"].
Proof. split; reflexivity. Qed.
