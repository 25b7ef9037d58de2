(** C115: the file names offered are the entries of the directory that fit. *)
From Verif Require Import Base Menu_Model Menu_Spec Cache_Props Files_Spec.
From Verif Require Frecency_Model Frecency_Proofs.
From Coq Require Import Permutation.

(** ** Paths *)
Lemma ends_slash_iff s : ends_with [sep] s = true <-> exists e, s = e ++ [slash].
Proof. rewrite ends_with_iff. reflexivity. Qed.
Lemma rsplit_none s : ~ In slash s -> rsplit_sep s = None.
Proof.
  induction s as [|c s IH]; intros H; cbn; [reflexivity|]. rewrite IH by (intros K; apply H; now right).
  destruct (N.eqb_spec c sep) as [->|]; [|reflexivity]. exfalso. apply H. now left.
Qed.
Lemma rsplit_app a b : ~ In slash b -> rsplit_sep (a ++ slash :: b) = Some (a, b).
Proof.
  intros H. induction a as [|c a IH]; cbn [app rsplit_sep].
  - rewrite rsplit_none by exact H. reflexivity.
  - now rewrite IH.
Qed.
Lemma normal_name n : entry_name n -> normal n = Some n.
Proof.
  intros (H1 & _ & H3 & H4). unfold normal. destruct (str_eqb_spec n []); [contradiction|].
  destruct (str_eqb_spec n (lit ".")); [contradiction|]. destruct (str_eqb_spec n (lit "..")); [contradiction|]. reflexivity.
Qed.
Definition closing (c : char) : bool := ((c =? sep) || (c =? backslash))%N.
Lemma trim_seps_app s c t : closing c = false -> forallb closing t = true -> trim_seps (s ++ c :: t) = s ++ [c].
Proof.
  intros Hc Ht. induction s as [|x s IH].
  - cbn [app trim_seps forallb]. fold (closing c). rewrite Hc. cbn [andb]. f_equal. destruct t as [|y t]; [reflexivity|]. cbn [trim_seps].
    exact (f_equal (fun b : bool => if b then [] else y :: trim_seps t) Ht).
  - cbn [app trim_seps]. rewrite IH. assert (E : forallb closing (x :: s ++ c :: t) = false).
    { cbn. rewrite forallb_app. cbn. rewrite Hc. cbn. now rewrite andb_false_r, andb_false_r. }
    exact (f_equal (fun b : bool => if b then [] else x :: s ++ [c]) E).
Qed.
(** names that do not end with a backslash *)
Definition plain_end (n : str) : Prop := ~ exists e, n = e ++ [backslash].
Lemma name_last n : entry_name n -> plain_end n -> exists m c, n = m ++ [c] /\ closing c = false.
Proof.
  intros (H1 & H2 & _) H3. destruct n as [|x n] using rev_ind; [contradiction|]. exists n, x. split; [reflexivity|].
  unfold closing. destruct (N.eqb_spec x sep) as [->|]; [exfalso; apply H2; apply in_or_app; right; now left|].
  destruct (N.eqb_spec x backslash) as [->|]; [exfalso; apply H3; now exists n|]. reflexivity.
Qed.
Lemma join_split d n : d <> [] -> exists a, path_join d n = a ++ n /\ (a = d /\ (exists e, d = e ++ [slash]) \/ a = d ++ [slash] /\ ~ (exists e, d = e ++ [slash])).
Proof.
  intros H. unfold path_join. destruct d as [|x d]; [contradiction|]. destruct (ends_with [sep] (x :: d)) eqn:E.
  - apply ends_slash_iff in E. exists (x :: d). split; [reflexivity|]. left. auto.
  - exists ((x :: d) ++ [slash]). split; [now rewrite <- app_assoc|]. right. split; [reflexivity|].
    intros K. apply ends_slash_iff in K. congruence.
Qed.
Lemma joined_ends d n : d <> [] -> exists a, path_join d n = (a ++ [slash]) ++ n.
Proof.
  intros H. destruct (join_split d n H) as (a & E & [(-> & e & ->)|(-> & _)]); [exists e|exists d]; exact E.
Qed.
Lemma shown_name d n tail : d <> [] -> entry_name n -> plain_end n -> forallb closing tail = true ->
  file_name (trim_seps (path_join d n ++ tail)) = Some n.
Proof.
  intros Hd Hn Hp Ht. destruct (joined_ends d n Hd) as (a & E). destruct (name_last n Hn Hp) as (m & c & -> & Hc).
  rewrite E, <- !app_assoc. rewrite app_assoc with (l := [slash]), app_assoc. cbn [app].
  rewrite trim_seps_app by assumption. unfold file_name. rewrite <- !app_assoc. cbn [app]. rewrite rsplit_app.
  - now apply normal_name.
  - apply Hn.
Qed.
Lemma inside_build d n : d <> [] -> inside d n (build_path d n).
Proof.
  intros H. unfold build_path, inside. destruct (str_eqb_spec d (lit ".")) as [->|Hn]; cbn [orb]; [left; split; reflexivity|].
  right. split; [exact Hn|]. replace (is_nil d) with false by (destruct d; [contradiction|reflexivity]).
  destruct (join_split d n H) as (a & -> & [(-> & K)|(-> & K)]); [left; auto|right]. split; [exact K|]. now rewrite <- app_assoc.
Qed.
Lemma inside_fun d n s t : inside d n s -> inside d n t -> s = t.
Proof. unfold inside. intros [(A & B)|(A & [(B & C)|(B & C)])] [(D & E)|(D & [(E & F)|(E & F)])]; try contradiction; congruence. Qed.
Lemma split_dir_ok token d p : in_directory token d p -> plain_end token -> split_dir token = (d, p) /\ d <> [].
Proof.
  intros H Hp. assert (NB : ends_with [backslash] token = false).
  { destruct (ends_with [backslash] token) eqn:E; [|reflexivity]. apply ends_with_iff in E. contradiction. }
  assert (NS : forall a p, entry_name p -> ends_with [sep] (a ++ p) = false).
  { intros a q (Hn & Hs & _). destruct (ends_with [sep] (a ++ q)) eqn:E; [|reflexivity]. apply ends_slash_iff in E as (e & E).
    exfalso. destruct q as [|x q] using rev_ind; [contradiction|]. rewrite app_assoc in E. apply app_inj_tail in E as (_ & ->).
    apply Hs. apply in_or_app. right. now left. }
  destruct H as [|d|p H|p H|d p Hd H].
  - split; [reflexivity|discriminate].
  - split; [|destruct d; discriminate]. unfold split_dir, ends_sep.
    assert (E : ends_with [sep] (d ++ [slash]) = true) by (apply ends_slash_iff; eauto). rewrite E. cbn [orb]. destruct (d ++ [slash]); [discriminate E|reflexivity].
  - split; [|discriminate]. unfold split_dir, ends_sep, parent, file_name. rewrite (NS [] p H : ends_with [sep] p = false), NB. cbn [orb].
    rewrite rsplit_none by apply H. rewrite (normal_name p H). destruct p; [destruct H; contradiction|reflexivity].
  - split; [|discriminate]. unfold split_dir, ends_sep, parent, file_name. rewrite (NS [slash] p H : ends_with [sep] (slash :: p) = false), NB. cbn [orb].
    rewrite (rsplit_app [] p : _ -> rsplit_sep (slash :: p) = _) by apply H. rewrite (normal_name p H). reflexivity.
  - split; [|exact Hd]. unfold split_dir, ends_sep, parent, file_name.
    assert (E := NS (d ++ [slash]) p H). rewrite <- app_assoc in E. cbn [app] in E. rewrite E, NB. cbn [orb].
    rewrite (rsplit_app d p) by apply H. rewrite (normal_name p H). destruct d as [|x d]; [contradiction|]. reflexivity.
Qed.

(** ** The listing *)
Lemma lookup_cold (c : cache str) now d : (forall k e, In (k, e) c -> begins_with k d -> expires e <= now) -> lookup (fun s => s) now d c = None.
Proof.
  intros H. destruct (lookup (fun s => s) now d c) as [((k & l) & ex)|] eqn:E; [|reflexivity].
  destruct (lookup_ok _ _ _ _ _ _ _ E) as (e & rest & Hin & T & I & _). exfalso. specialize (H k e Hin (ex_intro _ rest I)). lia.
Qed.
Lemma scan_in d es s : In s (scan_dir d es) <-> exists n b, In (n, b) (firstn 500 es) /\ s = path_join d n ++ (if b : bool then [slash] else []).
Proof.
  unfold scan_dir. split.
  - intros H. apply (Permutation_in _ (Permutation_sym (Frecency_Proofs.sort_perm _ _))) in H.
    apply in_map_iff in H as ((n & b) & E & H). eauto.
  - intros (n & b & H & ->). apply (Permutation_in _ (Frecency_Proofs.sort_perm _ _)). apply in_map_iff. exists (n, b). auto.
Qed.
Section World.
Variable fuzzy : str -> str -> bool.
Lemma offer_shown only_dirs d p n b : d <> [] -> entry_name n -> plain_end n -> forall x,
  In x (offer_name fuzzy only_dirs d p (path_join d n ++ (if b : bool then [slash] else []))) <->
  x = (build_path d n, b) /\ (p = [] \/ begins_with p n \/ fuzzy n p = true) /\ (only_dirs = true -> b = true).
Proof.
  intros Hd Hn Hp x. unfold offer_name.
  assert (E : ends_with [sep] (path_join d n ++ (if b then [slash] else [])) || ends_with [backslash] (path_join d n ++ (if b then [slash] else [])) = b).
  { destruct b.
    - apply orb_true_iff. left. apply ends_slash_iff. eauto.
    - rewrite app_nil_r. destruct (joined_ends d n Hd) as (a & ->). destruct (name_last n Hn Hp) as (m & c & -> & Hc). rewrite app_assoc.
      apply not_true_is_false. intros K. apply orb_true_iff in K as [K|K]; apply ends_with_iff in K as (e & K); apply app_inj_tail in K as (_ & ->); discriminate Hc. }
  rewrite E, shown_name by (auto; destruct b; reflexivity).
  assert (M : is_nil p || starts_with p n || fuzzy n p = true <-> p = [] \/ begins_with p n \/ fuzzy n p = true).
  { rewrite !orb_true_iff, is_nil_iff, starts_with_iff. unfold begins_with. tauto. }
  rewrite <- M. destruct only_dirs, b; cbn [andb negb]; destruct (is_nil p || starts_with p n || fuzzy n p); cbn [In];
    (split; [intros H; (destruct H as [<-|[]]; auto) || contradiction|intros (-> & H & K); try discriminate; try (left; reflexivity)]).
  all: discriminate (K eq_refl).
Qed.

(** ** C115 *)
(** If no listing of this directory or of one whose path it begins with is kept, exactly the
    entries among the first five hundred are offered whose names begin with what was typed or
    which the matcher accepts. *)
Theorem C115_names_partial : forall now only_dirs token d p entries es c,
  in_directory token d p -> plain_end token ->
  entries d = Some es -> (forall n b, In (n, b) es -> entry_name n /\ plain_end n) ->
  (forall k e, In (k, e) c -> begins_with k d -> expires e <= now) ->
  let offered := fst (file_candidates fuzzy now only_dirs token entries c) in
  forall s b, In (s, b) offered <->
    exists n, In (n, b) (firstn 500 es) /\ inside d n s /\ (p = [] \/ begins_with p n \/ fuzzy n p = true) /\ (only_dirs = true -> b = true).
Proof.
  intros now only_dirs token d p entries es c Ht Hp He Hn Hc offered s b. unfold offered, file_candidates.
  destruct (split_dir_ok token d p Ht Hp) as (E & Hd). rewrite E. unfold listing. rewrite (lookup_cold c now d Hc), He. cbn [option_map fst].
  rewrite in_flat_map. split.
  - intros (x & Hx & K). apply scan_in in Hx as (n & b' & Hx & ->). destruct (Hn n b' (Permutation_in _ (Permutation_refl _) (eq_ind _ (In (n, b')) (in_or_app _ _ _ (or_introl Hx)) _ (firstn_skipn 500 es)))) as (N1 & N2).
    apply offer_shown in K as ([= -> ->] & M & O); auto. exists n. split; [exact Hx|split; [now apply inside_build|auto]].
  - intros (n & Hx & I & M & O). exists (path_join d n ++ (if b then [slash] else [])). split; [apply scan_in; eauto|].
    destruct (Hn n b (eq_ind _ (In (n, b)) (in_or_app _ _ _ (or_introl Hx)) _ (firstn_skipn 500 es))) as (N1 & N2).
    apply offer_shown; auto. split; [|auto]. f_equal. eapply inside_fun; [exact I|now apply inside_build].
Qed.

(** What a directory was read as is used for two seconds, whatever becomes of it: also for another
    directory with the same relative path, after a change of directory. *)
Theorem C115_old_listing_refuted : forall now later only_dirs token d p entries es other c,
  in_directory token d p -> plain_end token -> entries d = Some es ->
  (forall k e, In (k, e) c -> begins_with k d -> expires e <= now) ->
  now <= later < now + 2000 ->
  let '(first, c') := file_candidates fuzzy now only_dirs token entries c in
  fst (file_candidates fuzzy later only_dirs token other c') = first.
Proof.
  intros now later only_dirs token d p entries es other c Ht Hp He Hc T. unfold file_candidates.
  destruct (split_dir_ok token d p Ht Hp) as (E & Hd). rewrite E. unfold listing at 1. rewrite (lookup_cold c now d Hc), He. cbn [option_map].
  unfold listing, lookup, longest_live, set. rewrite get_head. unfold live at 1. cbn [expires].
  replace (later <? now + path_ttl) with true by (symmetry; apply Nat.ltb_lt; unfold path_ttl; lia). rewrite get_head. reflexivity.
Qed.

(** A directory below one that was read within the last two seconds is not read: if it is an
    entry of that one, it is offered as an entry of itself, and nothing else is. *)
Theorem C115_subdirectory_refuted : forall now later d0 x es entries,
  d0 <> [] -> entry_name x -> plain_end x -> Forall (fun c => is_whitespace c = false) (d0 ++ x) ->
  In (x, true) (firstn 500 es) -> (forall n b, In (n, b) es -> entry_name n /\ plain_end n) ->
  now <= later < now + 2000 ->
  let c := snd (listing (fun s => s) path_ttl now d0 (Some (scan_dir d0 es)) []) in
  let sub := path_join d0 x ++ [slash] in
  forall s b, In (s, b) (fst (file_candidates fuzzy later false sub entries c)) <-> s = sub ++ x /\ b = true.
Proof.
  intros now later d0 x es entries Hd Hx Hp W Hin Hn T c sub.
  assert (Ec : c = [(d0, Entry (scan_dir d0 es) (now + 2000))]).
  { unfold c, listing. rewrite lookup_cold by (intros ? ? []). reflexivity. }
  assert (Esub : exists rest, rest <> [] /\ sub = d0 ++ rest).
  { unfold sub. destruct (join_split d0 x Hd) as (a & -> & [(-> & _)|(-> & _)]).
    - exists (x ++ [slash]). split; [destruct x; discriminate|now rewrite app_assoc].
    - exists ([slash] ++ x ++ [slash]). split; [discriminate|now rewrite <- !app_assoc]. }
  destruct Esub as (rest & Nr & Esub).
  assert (Wsub : last_token sub = sub).
  { apply (last_word_fun sub); [apply last_token_ok|]. split; [|now left]. unfold sub. apply Forall_app in W as (W1 & W2).
    destruct (join_split d0 x Hd) as (a & -> & [(-> & _)|(-> & _)]); rewrite !Forall_app; repeat split; auto. }
  assert (Lk : lookup (fun s => s) later sub c = Some (d0, filter (fun s => starts_with sub s || (negb (str_eqb (last_token sub) []) && starts_with (last_token sub) s)) (scan_dir d0 es), false)).
  { assert (V : live later (Entry (scan_dir d0 es) (now + 2000)) = true) by (apply Nat.ltb_lt; cbn; lia).
    assert (G : forall k, get c k = if str_eqb d0 k then Some (Entry (scan_dir d0 es) (now + 2000)) else None).
    { intros k. rewrite Ec. unfold get. cbn [find fst]. destruct (str_eqb d0 k); reflexivity. }
    assert (Ls : length sub = length d0 + length rest) by (rewrite Esub; apply app_length).
    assert (Lr : 0 < length rest) by (destruct rest; [contradiction|cbn; lia]).
    assert (Sh : forall m, length d0 + m <= length sub -> shorter later sub c (length d0 + m) = Some d0).
    { induction m as [|m IH]; intros Hm.
      - rewrite Nat.add_0_r. assert (F : firstn (length d0) sub = d0) by (rewrite Esub, firstn_app, Nat.sub_diag, firstn_all; cbn; apply app_nil_r).
        destruct (length d0) as [|m] eqn:Lq; [destruct d0; [contradiction|discriminate]|]. cbn [shorter].
        rewrite F, G, str_eqb_refl, V. reflexivity.
      - replace (length d0 + S m) with (S (length d0 + m)) by lia. cbn [shorter]. rewrite G.
        destruct (str_eqb_spec d0 (firstn (S (length d0 + m)) sub)) as [Z|Z]; [|apply IH; lia].
        apply (f_equal (@length _)) in Z. rewrite firstn_length_le in Z by lia. lia. }
    unfold lookup, longest_live. rewrite G. destruct (str_eqb_spec d0 sub) as [Z|Z].
    { apply (f_equal (@length _)) in Z. lia. }
    assert (S1 := Sh (length rest - 1)). replace (length sub - 1) with (length d0 + (length rest - 1)) by lia. rewrite S1 by lia.
    cbn [option_map]. destruct sub as [|y l] eqn:Y; [destruct d0; [contradiction|discriminate]|]. rewrite G, str_eqb_refl. reflexivity. }
  assert (Hs : split_dir sub = (sub, [])).
  { apply split_dir_ok; [unfold sub; constructor|]. intros (e & K). unfold sub in K. apply app_inj_tail in K as (_ & K). discriminate. }
  intros s b. unfold file_candidates. rewrite Hs. unfold listing. rewrite Lk. cbn [fst]. rewrite Wsub.
  assert (Only : forall n b', entry_name n -> begins_with sub (path_join d0 n ++ (if b' : bool then [slash] else [])) -> n = x /\ b' = true).
  { intros n b' (N1 & N2 & _) (r & Er). unfold sub in Er. unfold path_join in Er. destruct d0 as [|z d0]; [contradiction|].
    assert (E2 : n ++ (if b' then [slash] else []) = x ++ slash :: r).
    { destruct (ends_with [sep] (z :: d0)).
      - rewrite <- !app_assoc in Er. apply app_inv_head in Er. exact Er.
      - rewrite <- !app_assoc in Er. apply app_inv_head in Er. cbn [app] in Er. injection Er as Er. exact Er. }
    destruct Hx as (_ & X2 & _). clear - E2 N2 X2. revert n N2 E2. induction x as [|y x IH]; intros n N2 E2.
    - destruct n as [|m n]; cbn in E2.
      + destruct b'; [split; reflexivity|discriminate].
      + exfalso. injection E2 as -> _. apply N2. now left.
    - destruct n as [|m n]; cbn in E2.
      + exfalso. destruct b'; [|discriminate]. injection E2 as <- _. apply X2. now left.
      + injection E2 as -> E2. destruct (IH (fun K => X2 (or_intror K)) n (fun K => N2 (or_intror K)) E2) as (-> & ->). auto. }
  assert (Self : offer_name fuzzy false sub [] sub = [(sub ++ x, true)]).
  { assert (Fs : file_name (trim_seps sub) = Some x) by (unfold sub; apply shown_name; auto).
    unfold offer_name. cbn [andb]. rewrite Fs. cbn [is_nil orb].
    assert (E1 : ends_with [sep] sub = true) by (apply ends_slash_iff; unfold sub; eauto). rewrite E1. cbn [orb].
    f_equal. f_equal. unfold build_path. destruct (str_eqb_spec sub (lit ".")) as [Z|Z].
    { exfalso. rewrite Z in E1. discriminate E1. }
    destruct sub as [|y l] eqn:Y; [discriminate E1|]. cbn [is_nil orb]. unfold path_join. now rewrite E1. }
  rewrite in_flat_map. split.
  - intros (t & Ht & K). apply filter_In in Ht as (Ht & Hf). assert (B : begins_with sub t).
    { apply orb_true_iff in Hf as [Hf|Hf]; [|apply andb_true_iff in Hf as (_ & Hf)]; now apply starts_with_iff in Hf. }
    apply scan_in in Ht as (n & b' & Ht & ->).
    destruct (Hn n b' (eq_ind _ (In (n, b')) (in_or_app _ _ _ (or_introl Ht)) _ (firstn_skipn 500 es))) as (N1 & _).
    destruct (Only n b' N1 B) as (-> & ->). fold sub in K. rewrite Self in K. destruct K as [[= <- <-]|[]]. auto.
  - intros (-> & ->). exists sub. split; [|rewrite Self; now left]. apply filter_In. split.
    + apply scan_in. exists x, true. auto.
    + apply orb_true_iff. left. apply starts_with_iff. exists []. now rewrite app_nil_r.
Qed.

(** Within two seconds of completing in the current directory nothing is offered in its parent. *)
Theorem C115_parent_refuted : forall now later es entries, now <= later < now + 2000 ->
  let c := snd (listing (fun s => s) path_ttl now (lit ".") (Some (scan_dir (lit ".") es)) []) in
  fst (file_candidates fuzzy later false (lit "../") entries c) = [].
Proof.
  intros now later es entries T c. unfold c, listing. rewrite lookup_cold by (intros ? ? []). cbn [snd]. unfold set, path_ttl. cbn [purge filter].
  unfold file_candidates. change (split_dir (lit "../")) with (lit "../", @nil char). unfold listing.
  assert (V : live later (Entry (scan_dir (lit ".") es) (now + 2000)) = true) by (apply Nat.ltb_lt; cbn; lia).
  assert (Lk : lookup (fun s => s) later (lit "../") [(lit ".", Entry (scan_dir (lit ".") es) (now + 2000))] =
    Some (lit ".", filter (fun s => starts_with (lit "../") s || (negb (str_eqb (last_token (lit "../")) []) && starts_with (last_token (lit "../")) s)) (scan_dir (lit ".") es), false)).
  { unfold lookup, longest_live, get. cbn [find fst snd]. change (str_eqb (lit ".") (lit "../")) with false. cbn [option_map].
    change (length (lit "../") - 1) with 2. cbn [shorter]. unfold get. cbn [find fst snd].
    change (str_eqb (lit ".") (firstn 2 (lit "../"))) with false. cbn [option_map].
    change (str_eqb (lit ".") (firstn 1 (lit "../"))) with true. cbn [option_map snd]. rewrite V. cbn [option_map].
    change (str_eqb (lit ".") (firstn 1 (lit "../"))) with true. reflexivity. }
  rewrite Lk. cbn [fst].
  assert (Z : filter (fun s => starts_with (lit "../") s || (negb (str_eqb (last_token (lit "../")) []) && starts_with (last_token (lit "../")) s)) (scan_dir (lit ".") es) = []).
  { destruct (filter _ _) as [|s l] eqn:Ef; [reflexivity|]. exfalso. assert (Hs : In s (s :: l)) by now left. rewrite <- Ef in Hs.
    apply filter_In in Hs as (Hs & Hf). change (last_token (lit "../")) with (lit "../") in Hf.
    assert (B : begins_with (lit "../") s).
    { apply orb_true_iff in Hf as [Hf|Hf]; [|apply andb_true_iff in Hf as (_ & Hf)]; now apply starts_with_iff in Hf. }
    apply scan_in in Hs as (n & b & _ & ->). destruct B as (r & B).
    assert (J : path_join (lit ".") n = chr "." :: slash :: n) by reflexivity. rewrite J in B.
    apply (f_equal (fun l => nth_error l 1)) in B. discriminate B. }
  rewrite Z. reflexivity.
Qed.

(** Completing [..] offers the entries of the current directory. *)
Theorem C115_dots_refuted : forall now only_dirs entries c,
  file_candidates fuzzy now only_dirs (lit "..") entries c = file_candidates fuzzy now only_dirs [] entries c.
Proof. reflexivity. Qed.

(** Of a directory with more than five hundred entries the rest is never offered. *)
Theorem C115_many_entries_refuted : forall now token d p entries es c n,
  in_directory token d p -> plain_end token ->
  entries d = Some es -> (forall n b, In (n, b) es -> entry_name n /\ plain_end n) ->
  (forall k e, In (k, e) c -> begins_with k d -> expires e <= now) ->
  In n (map fst (skipn 500 es)) -> NoDup (map fst es) ->
  forall s b, inside d n s -> ~ In (s, b) (fst (file_candidates fuzzy now false token entries c)).
Proof.
  intros now token d p entries es c n Ht Hp He Hn Hc Hin Hnd s b I K.
  apply (C115_names_partial now false token d p entries es c Ht Hp He Hn Hc) in K as (m & Hm & J & _).
  assert (m = n).
  { clear - I J. unfold inside in *. destruct I as [(A & B)|(A & [(B & C)|(B & C)])], J as [(D & E)|(D & [(E & F)|(E & F)])]; try contradiction.
    - congruence.
    - rewrite C in F. now apply app_inv_head in F.
    - rewrite C in F. apply app_inv_head in F. now injection F. }
  subst m. rewrite <- (firstn_skipn 500 es), map_app in Hnd. apply (in_map fst) in Hm. cbn [fst] in Hm. clear - Hm Hin Hnd.
  induction (map fst (firstn 500 es)) as [|y l IH]; [contradiction|]. inversion Hnd as [|? ? N1 N2]; subst.
  destruct Hm as [->|Hm]; [|now apply IH]. apply N1. apply in_or_app. now right.
Qed.
End World.
Print Assumptions C115_names_partial.
Print Assumptions C115_old_listing_refuted.
Print Assumptions C115_subdirectory_refuted.
Print Assumptions C115_parent_refuted.
Print Assumptions C115_dots_refuted.
Print Assumptions C115_many_entries_refuted.

(** ** Cases *)
Definition tree (d : str) : option (list (str * bool)) :=
  if str_eqb d (lit "src/") then Some [(lit "main.rs", false); (lit "mod", true)]
  else if str_eqb d (lit "src/mod/") then Some [(lit "a.rs", false)] else None.
Example C115_example : fst (file_candidates (fun _ _ => false) 0 false (lit "src/") tree []) = [(lit "src/main.rs", false); (lit "src/mod", true)].
Proof. vm_compute. reflexivity. Qed.
Example C115_subdirectory_example :
  let c := snd (file_candidates (fun _ _ => false) 0 false (lit "src/") tree []) in
  fst (file_candidates (fun _ _ => false) 1500 false (lit "src/mod/") tree c) = [(lit "src/mod/mod", true)] /\
  fst (file_candidates (fun _ _ => false) 2500 false (lit "src/mod/") tree c) = [(lit "src/mod/a.rs", false)].
Proof. vm_compute. split; reflexivity. Qed.
(** a file whose name ends with a backslash is offered under another name *)
Example C115_backslash_example :
  fst (file_candidates (fun _ _ => false) 0 false [] (fun _ => Some [(lit "a\", false)]) []) = [(lit "a", true)].
Proof. vm_compute. reflexivity. Qed.
