(** Properties of the file server (C31, C32, C57). *)
From Verif Require Import Base Fs_Model Fs_Proofs Serve_Model Serve_Spec.

(** ** C31: only files below the root *)
Lemma is_file_content f q x c : serve_file f (canonical q) = Content x c -> real f q -> x = q.
Proof.
  unfold serve_file, read_file, canonicalize, canonical. cbn [comps must_dir andb]. intros H R.
  rewrite (resolve_canonical f max_links q R) in H.
  destruct (is_dir_at f q); [discriminate|]. destruct (f q) as [[y| |]|]; try discriminate. congruence.
Qed.

(** Without the index option, whatever is requested, the file whose bytes are sent lies
    below the served directory after resolving links. *)
Theorem served_files_lie_below_root_partial : forall f serve_dir uri_path file body root,
  canonicalize f serve_dir = Some root ->
  serve_file_handler f serve_dir false uri_path = Content file body ->
  below root file /\ f file = Some (KFile body).
Proof.
  intros f sd u file body root Hr H. unfold serve_file_handler in H.
  destruct (canonicalize f (join sd _)) as [cp|] eqn:E; [|discriminate]. rewrite Hr in H.
  destruct (path_starts_with root cp) eqn:Es; [|discriminate]. cbn [negb andb] in H.
  destruct (is_file f (canonical cp)); [|destruct (is_dir f (canonical cp)); discriminate].
  pose proof (is_file_content f cp file body H (canonicalize_real _ _ _ E)) as ->.
  split; [apply path_starts_with_iff, Es|].
  unfold serve_file, read_file in H. destruct (canonicalize f (canonical cp)) as [q|]; [|discriminate].
  destruct (is_dir_at f q); [discriminate|]. destruct (f q) as [[y| |]|] eqn:Eq; try discriminate. congruence.
Qed.
(** Listings too are only of directories below the root, with or without that option. *)
Theorem listings_lie_below_root : forall f serve_dir serve_index uri_path dir root,
  canonicalize f serve_dir = Some root ->
  serve_file_handler f serve_dir serve_index uri_path = Listing dir -> below root dir.
Proof.
  intros f sd si u dir root Hr H. unfold serve_file_handler in H.
  destruct (canonicalize f (join sd _)) as [cp|] eqn:E; [|discriminate]. rewrite Hr in H.
  destruct (path_starts_with root cp) eqn:Es; [|discriminate]. cbn [negb] in H.
  destruct (is_file f (canonical cp)).
  - unfold serve_file in H. destruct (read_file f (canonical cp)) as [[]|]; discriminate.
  - destruct (is_dir f (canonical cp)); [|discriminate]. destruct (si && _).
    + unfold serve_file in H. destruct (read_file f _) as [[]|]; discriminate.
    + injection H as ->. apply path_starts_with_iff, Es.
Qed.
(** With it, the index file is opened after the check and its link is followed out. *)
Definition evil_index : fs := fun p =>
  if path_eqb p [lit "srv"] then Some KDir
  else if path_eqb p [lit "srv"; lit "index.html"] then Some (KLink true [lit "etc"; lit "passwd"])
  else if path_eqb p [lit "etc"] then Some KDir
  else if path_eqb p [lit "etc"; lit "passwd"] then Some (KFile (lit "root:x:0"))
  else None.
Theorem served_files_lie_below_root_refuted :
  ~ forall f serve_dir serve_index uri_path file body root,
      canonicalize f serve_dir = Some root ->
      serve_file_handler f serve_dir serve_index uri_path = Content file body -> below root file.
Proof.
  intros H. specialize (H evil_index (parse_path (lit "/srv")) true (lit "/") [lit "etc"; lit "passwd"] (lit "root:x:0") [lit "srv"]).
  destruct H as [r Hr]; [vm_compute; reflexivity|vm_compute; reflexivity|].
  vm_compute in Hr. discriminate.
Qed.
(** A path accepted by the path check exists and is below the base directory. *)
Theorem resolved_url_is_below_base : forall f base url p root,
  canonicalize f base = Some root -> resolve_file_path f base url = Some p ->
  exists q, canonicalize f p = Some q /\ below root q.
Proof.
  intros f base url p root Hr H. unfold resolve_file_path, is_safe_path in H.
  destruct (contains dotdot _ || contains _ _); [discriminate|]. rewrite Hr in H.
  destruct (canonicalize f (join base _)) as [q|] eqn:E; [|discriminate].
  destruct (path_starts_with root q) eqn:Es; [|discriminate]. cbn [negb] in H.
  destruct (exists_path f _); [|discriminate]. injection H as <-. exists q. split; [exact E|].
  apply path_starts_with_iff, Es.
Qed.
Example serve_case : serve_file_handler evil_index (parse_path (lit "/etc")) false (lit "/passwd") = Content [lit "etc"; lit "passwd"] (lit "root:x:0")
  /\ serve_file_handler evil_index (parse_path (lit "/srv")) false (lit "/../etc/passwd") = Status 403
  /\ serve_file_handler evil_index (parse_path (lit "/srv")) false (lit "//etc/passwd") = Status 403
  /\ serve_file_handler evil_index (parse_path (lit "/srv")) false (lit "/index.html") = Status 403.
Proof. vm_compute. auto. Qed.

(** ** C32: names in HTML *)
Definition esc1 (c : char) : str :=
  if (c =? 38)%N then lit "&amp;" else if (c =? 60)%N then lit "&lt;" else if (c =? 62)%N then lit "&gt;"
  else if (c =? 34)%N then lit "&quot;" else if (c =? 39)%N then lit "&#x27;" else [c].
Lemma replace_flat_map c b (g : char -> str) (s : str) : replace c b (flat_map g s) = flat_map (fun x => replace c b (g x)) s.
Proof.
  unfold replace. induction s as [|x s IH]; [reflexivity|]. cbn [flat_map]. rewrite flat_map_app. f_equal. exact IH.
Qed.
Lemma html_escape_flat s : html_escape s = flat_map esc1 s.
Proof.
  unfold html_escape. unfold replace at 5. rewrite !replace_flat_map. apply flat_map_ext. intros c.
  unfold esc1, replace, quot, apos.
  destruct (N.eqb_spec c 38); [subst; reflexivity|].
  destruct (N.eqb_spec c 60); [subst; reflexivity|].
  destruct (N.eqb_spec c 62); [subst; reflexivity|].
  destruct (N.eqb_spec c 34); [subst; reflexivity|].
  destruct (N.eqb_spec c 39); [subst; reflexivity|].
  cbn [flat_map app]. repeat (match goal with |- context [(c =? ?k)%N] => rewrite (proj2 (N.eqb_neq c k)) by assumption end; cbn [flat_map app]).
  reflexivity.
Qed.
Lemma read_html_ordinary c r : c <> 38%N -> read_html (c :: r) = c :: read_html r.
Proof.
  intros H. destruct c as [|p]; [reflexivity|]. 
  do 7 (destruct p as [p|p|]; try reflexivity; try congruence).
Qed.

(** Escaped text has no character with a meaning in HTML, and reads back as the name. *)
Theorem escaped_text_is_inert : forall s, inert (html_escape s).
Proof.
  intros s c. rewrite html_escape_flat, in_flat_map. intros (x & _ & Hc). unfold esc1 in Hc.
  destruct (N.eqb_spec x 38); [|destruct (N.eqb_spec x 60); [|destruct (N.eqb_spec x 62); [|destruct (N.eqb_spec x 34); [|destruct (N.eqb_spec x 39)]]]].
  1-5: cbv in Hc; repeat (destruct Hc as [<- | Hc]; [reflexivity|]); destruct Hc.
  destruct Hc as [<- | []]. unfold markup.
  rewrite !(proj2 (N.eqb_neq x _)) by assumption. reflexivity.
Qed.
Theorem escaped_text_reads_back : forall s, read_html (html_escape s) = s.
Proof.
  intros s. rewrite html_escape_flat. induction s as [|c s IH]; [reflexivity|]. cbn [flat_map].
  revert IH. generalize (flat_map esc1 s) as r. intros r IH. unfold esc1.
  destruct (N.eqb_spec c 38); [|destruct (N.eqb_spec c 60); [|destruct (N.eqb_spec c 62); [|destruct (N.eqb_spec c 34); [|destruct (N.eqb_spec c 39)]]]].
  1-5: subst c; match goal with |- _ = ?k :: _ => transitivity (k :: read_html r); [reflexivity|rewrite IH; reflexivity] end.
  cbn [app]. rewrite read_html_ordinary by assumption. rewrite IH. reflexivity.
Qed.

Lemma count_app c a b : count c (a ++ b) = count c a + count c b.
Proof. unfold count. rewrite filter_app, app_length. reflexivity. Qed.
Lemma inert_count c s : inert s -> markup c = true -> count c s = 0.
Proof.
  unfold count, inert. intros H M. induction s as [|x s IH]; simpl; [reflexivity|].
  destruct (N.eqb_spec x c) as [-> | N].
  - rewrite (H c) in M; [discriminate|left; reflexivity].
  - apply IH. intros y Hy. apply H. right. exact Hy.
Qed.

(** A cell of the styled listing has the markup of its template and no more, for every
    name: two tags, two quoted attributes. *)
Theorem name_cell_markup_is_the_templates : forall request_path name is_directory,
  let cell := name_cell request_path name is_directory in
  count 60%N cell = 2 /\ count 62%N cell = 2 /\ count 34%N cell = 4 /\ count 39%N cell = 0.
Proof.
  intros rp n d. unfold name_cell. cbv zeta. rewrite !count_app.
  rewrite !(inert_count _ (html_escape _)) by (apply escaped_text_is_inert || reflexivity). cbv. auto.
Qed.
(** The page the server actually sends puts names into it unescaped. *)
Theorem listing_markup_is_the_templates_refuted :
  ~ forall is_directory name, count 60%N (li_item is_directory name) = 4.
Proof. intros H. specialize (H false (lit "<script>x()</script>")). vm_compute in H. discriminate. Qed.
Theorem listing_markup_is_the_templates_partial : forall is_directory name,
  inert name -> count 60%N (li_item is_directory name) = 4 /\ count 62%N (li_item is_directory name) = 4 /\ count 34%N (li_item is_directory name) = 4.
Proof.
  intros d n H. unfold li_item. destruct d; rewrite !count_app; rewrite !(inert_count _ n) by (assumption || reflexivity); cbv; auto.
Qed.

(** ** C57: links of a listing *)
Definition plain_name (n : str) : Prop :=
  n <> [] /\ n <> dot /\ n <> dotdot /\ forall c, In c n -> (c =? slash)%N = false /\ (c =? 63)%N = false /\ (c =? 35)%N = false /\ (c =? 32)%N = false.

Lemma split_on_nonempty s x : split_on x s <> [].
Proof. destruct s as [|c s]; simpl; [discriminate|]. destruct (c =? x)%N; [discriminate|]. destruct (split_on x s); discriminate. Qed.
Lemma split_on_app x a b : split_on x (a ++ x :: b) = split_on x a ++ split_on x b.
Proof.
  induction a as [|c a IH]; simpl; [rewrite N.eqb_refl; reflexivity|].
  destruct (c =? x)%N; [rewrite IH; reflexivity|]. rewrite IH.
  pose proof (split_on_nonempty a x). destruct (split_on x a) as [|w ws]; [contradiction|reflexivity].
Qed.
Lemma split_on_none x n : (forall c, In c n -> (c =? x)%N = false) -> split_on x n = [n].
Proof.
  induction n as [|c n IH]; simpl; [reflexivity|]. intros H. rewrite (H c) by auto.
  rewrite IH by auto. reflexivity.
Qed.
Lemma looked_up_slash u : looked_up (u ++ [slash]) = looked_up u.
Proof.
  unfold looked_up, parse_path. cbn [comps]. destruct u as [|c u]; [reflexivity|]. cbn [app strip_slash].
  assert (E : forall s, filter (fun w => negb (str_eqb w []) && negb (str_eqb w dot)) (split_on slash (s ++ [slash]))
     = filter (fun w => negb (str_eqb w []) && negb (str_eqb w dot)) (split_on slash s)).
  { intros s. change [slash] with (slash :: []). rewrite split_on_app, filter_app. simpl. apply app_nil_r. }
  destruct (c =? slash)%N; [apply E|]. change (c :: u ++ [slash]) with ((c :: u) ++ [slash]). apply E.
Qed.
Lemma looked_up_join d n : plain_name n -> looked_up (slash :: d ++ slash :: n) = looked_up (slash :: d ++ [slash]) ++ [n].
Proof.
  intros (N1 & N2 & N3 & N4). unfold looked_up, parse_path. cbn [comps strip_slash].
  change (slash =? slash)%N with true. cbv iota. rewrite (split_on_app slash d n), (split_on_app slash d []).
  rewrite !filter_app. rewrite (split_on_none slash n) by (intros c Hc; apply N4, Hc).
  cbn [filter split_on str_eqb negb andb]. rewrite (proj2 (str_eqb_neq n [])) by exact N1.
  rewrite (proj2 (str_eqb_neq n dot)) by exact N2. simpl. rewrite app_nil_r. reflexivity.
Qed.
Lemma url_path_plain s : (forall c, In c s -> (c =? 63)%N = false /\ (c =? 35)%N = false /\ (c =? 32)%N = false) -> url_path s = s.
Proof.
  induction s as [|c s IH]; simpl; [reflexivity|]. intros H. destruct (H c) as (H1 & H2 & H3); auto.
  rewrite H1, H2, H3. simpl. rewrite IH; auto.
Qed.
Definition sent_path (p : str) : Prop :=
  (exists q, p = slash :: q) /\ forall c, In c p -> (c =? 63)%N = false /\ (c =? 35)%N = false /\ (c =? 32)%N = false.

Lemma ends_with_slash_iff s : ends_with_slash s = true <-> exists d, s = d ++ [slash].
Proof.
  unfold ends_with_slash. split.
  - destruct s as [|c s _] using rev_ind; [discriminate|]. rewrite rev_app_distr. simpl. intros H. apply N.eqb_eq in H. subst. eauto.
  - intros (d & ->). rewrite rev_app_distr. reflexivity.
Qed.

(** In the styled listing every link leads to the entry it names, at any request path. *)
Theorem entry_url_leads_to_entry : forall request_path name is_directory,
  sent_path request_path -> plain_name name ->
  looked_up (follow request_path (build_entry_url request_path name is_directory)) = looked_up request_path ++ [name].
Proof.
  intros rp n d ((q & ->) & S) N. pose proof N as (N1 & N2 & N3 & N4).
  set (rp := slash :: q) in *.
  set (base := entry_base rp).
  assert (B : exists b, base = slash :: b /\ (b = [] \/ exists b', b = b' ++ [slash]) /\ looked_up base = looked_up rp /\
    forall c, In c base -> (c =? 63)%N = false /\ (c =? 35)%N = false /\ (c =? 32)%N = false).
  { unfold base, entry_base. destruct (ends_with_slash rp) eqn:E.
    - exists q. split; [reflexivity|]. split; [|split; [reflexivity|exact S]].
      apply ends_with_slash_iff in E as (e & E). destruct e as [|x e]; [left; unfold rp in E; cbn [app] in E; congruence|right].
      exists e. unfold rp in E. cbn [app] in E. congruence.
    - exists (q ++ [slash]). split; [reflexivity|]. split; [right; eauto|]. split; [apply looked_up_slash|].
      intros c Hc. apply in_app_iff in Hc as [Hc|[<- | []]]; auto. }
  destruct B as (b & Eb & Hb & Lb & Sb).
  assert (U : forall tl_ : str, (forall c : char, In c tl_ -> (c =? 63)%N = false /\ (c =? 35)%N = false /\ (c =? 32)%N = false) ->
     follow rp (base ++ tl_) = base ++ tl_).
  { intros t Ht. unfold follow, resolve_ref. rewrite Eb. cbn [app]. change (slash =? slash)%N with true. cbv iota.
    apply url_path_plain. intros c Hc. change (slash :: b ++ t) with ((slash :: b) ++ t) in Hc. rewrite <- Eb in Hc. apply in_app_iff in Hc as [Hc|Hc]; auto. }
  assert (L : looked_up (base ++ n) = looked_up rp ++ [n]).
  { rewrite <- Lb, Eb. destruct Hb as [-> | (b' & ->)].
    - cbn [app]. unfold looked_up, parse_path. cbn [comps strip_slash]. change (slash =? slash)%N with true. cbv iota.
      rewrite (split_on_none slash n) by (intros c Hc; apply N4, Hc). cbn [filter split_on].
      rewrite (proj2 (str_eqb_neq n [])) by exact N1. rewrite (proj2 (str_eqb_neq n dot)) by exact N2. reflexivity.
    - cbn [app]. rewrite <- app_assoc. cbn [app]. apply looked_up_join, N. }
  unfold build_entry_url. cbv zeta. fold base. destruct (d && negb (ends_with_slash (base ++ n))).
  - rewrite <- app_assoc. rewrite U.
    + rewrite app_assoc, looked_up_slash. exact L.
    + intros c Hc. apply in_app_iff in Hc as [Hc|[<- | []]]; [|auto]. apply N4 in Hc. tauto.
  - rewrite U; [exact L|]. intros c Hc. apply N4 in Hc. tauto.
Qed.

(** In the page the server sends, only when the page's own path ends in a slash: *)
Theorem listing_link_leads_to_entry_partial : forall request_path name,
  sent_path request_path -> ends_with_slash request_path = true -> plain_name name ->
  looked_up (follow request_path (li_href name)) = looked_up request_path ++ [name].
Proof.
  intros rp n S E N. rewrite <- (entry_url_leads_to_entry rp n false S N). f_equal.
  unfold build_entry_url, entry_base, follow. rewrite E. cbn [andb]. f_equal. unfold li_href, resolve_ref.
  destruct S as ((q & Eq) & _). destruct N as (N1 & _ & _ & N4).
  destruct n as [|c n]; [contradiction|]. destruct (N4 c) as (Hc & _); [left; reflexivity|]. rewrite Hc.
  assert (U : up_to_slash rp = Some rp).
  { apply ends_with_slash_iff in E as (d & E). rewrite E. unfold up_to_slash. rewrite rev_app_distr. cbn [rev app].
    change (slash =? slash)%N with true. cbv iota. f_equal.
    cbn [rev]; rewrite rev_involutive. reflexivity. }
  rewrite U. subst rp. cbn [app]. change (slash =? slash)%N with true. reflexivity.
Qed.
(** The server's own links to directories do not end in one: two clicks from the root
    lead to the wrong place. *)
Theorem listing_link_leads_to_entry_refuted :
  ~ forall dir name, plain_name dir -> plain_name name ->
      let page := follow [slash] (li_href dir) in
      looked_up (follow page (li_href name)) = [dir; name].
Proof.
  intros H. specialize (H (lit "sub") (lit "a.txt")).
  assert (P : forall n, forallb (fun c => negb ((c =? slash) || (c =? 63) || (c =? 35) || (c =? 32)))%N n = true -> n <> [] -> n <> dot -> n <> dotdot -> plain_name n).
  { intros n F A B C. repeat split; auto; rewrite forallb_forall in F; specialize (F c H0);
    apply negb_true_iff in F; apply orb_false_iff in F as (F & ?); apply orb_false_iff in F as (F & ?); apply orb_false_iff in F as (F & ?); assumption. }
  assert (E : looked_up (follow (follow [slash] (li_href (lit "sub"))) (li_href (lit "a.txt"))) = [lit "sub"; lit "a.txt"]).
  { apply H; apply P; try reflexivity; discriminate. }
  vm_compute in E. discriminate.
Qed.
(** A name with a space is looked up as sent, percent-encoded. *)
Theorem listing_link_with_space_refuted :
  looked_up (follow [slash] (li_href (lit "my file"))) = [lit "my%20file"].
Proof. vm_compute. reflexivity. Qed.

Print Assumptions served_files_lie_below_root_partial.
Print Assumptions listings_lie_below_root.
Print Assumptions served_files_lie_below_root_refuted.
Print Assumptions resolved_url_is_below_base.
Print Assumptions escaped_text_is_inert.
Print Assumptions escaped_text_reads_back.
Print Assumptions name_cell_markup_is_the_templates.
Print Assumptions listing_markup_is_the_templates_refuted.
Print Assumptions listing_markup_is_the_templates_partial.
Print Assumptions entry_url_leads_to_entry.
Print Assumptions listing_link_leads_to_entry_partial.
Print Assumptions listing_link_leads_to_entry_refuted.
Print Assumptions listing_link_with_space_refuted.
