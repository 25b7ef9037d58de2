(** Subcommands on lines of plain words. *)
From Verif Require Import Base Token_Model Comp_Model Comp_Spec Comp_Proofs Comp_Words.

Lemma walk_app l ws names subs r : follows l ws names subs ->
  walk l (ws ++ r) = let '(v, s, b) := walk subs r in (names ++ v, s, b).
Proof.
  induction 1 as [l|l w s ws names subs F N _ IH]; cbn [app walk].
  - destruct (walk l r) as [[v s] b]. reflexivity.
  - rewrite F, IH. destruct (walk subs r) as [[v s'] b]. reflexivity.
Qed.
Lemma walk_follows l ws names subs : follows l ws names subs -> walk l ws = (names, subs, []).
Proof. intros F. rewrite <- (app_nil_r ws), (walk_app _ _ _ _ [] F). cbn. rewrite app_nil_r. reflexivity. Qed.
Lemma follows_names l ws names subs : follows l ws names subs -> follows l names names subs.
Proof. induction 1 as [l|l w s ws names subs F N _ IH]; econstructor; eassumption. Qed.
Lemma follows_app l ws1 : forall ws2 names subs, follows l (ws1 ++ ws2) names subs ->
  exists n1 n2 mid, names = n1 ++ n2 /\ follows l ws1 n1 mid /\ follows mid ws2 n2 subs.
Proof.
  revert l. induction ws1 as [|w ws1 IH]; intros l ws2 names subs F.
  - exists [], names, l. split; [reflexivity|]. split; [constructor|exact F].
  - cbn [app] in F. inversion F as [|? ? s ? names' ? F1 F2 F3]; subst. destruct (IH _ _ _ _ F3) as (n1 & n2 & mid & -> & A & B).
    exists (s_name s :: n1), n2, mid. split; [reflexivity|]. split; [econstructor; eassumption|exact B].
Qed.
Lemma current_follows l ws names subs : follows l ws names subs -> names <> [] -> exists s, current_sub l names = Some s /\ s_subs s = subs.
Proof.
  induction 1 as [l|l w s ws names subs F N T IH]; intros H; [congruence|]. cbn [current_sub]. destruct names as [|n names].
  - inversion T; subst. exists s. split; [exact N|reflexivity].
  - rewrite N. apply IH. discriminate.
Qed.
Lemma more_follows cur l ws names subs r : follows l ws names subs -> Forall (fun w => w <> cur) ws ->
  more_subs cur l (ws ++ r) =
  match more_subs cur subs r with inl v => inl (names ++ v) | inr (v, s, n) => inr (names ++ v, s, length names + n) end.
Proof.
  induction 1 as [l|l w s ws names subs F N _ IH]; intros D; cbn [app more_subs length Nat.add].
  - destruct (more_subs cur l r) as [|[[? ?] ?]]; reflexivity.
  - inversion D as [|? ? D1 D2]; subst. rewrite F. assert (str_eqb w cur = false) as -> by (apply str_eqb_neq; exact D1). rewrite (IH D2).
    destruct (more_subs cur subs r) as [|[[? ?] ?]]; reflexivity.
Qed.

Lemma not_long t : is_option t = false -> is_long t = false.
Proof. unfold is_option, is_long. destruct t as [|c t]; [reflexivity|]. change (lit "-") with [45%N]. change (lit "--") with [45%N; 45%N]. cbn [starts_with]. destruct (45 =? c)%N; [discriminate|reflexivity]. Qed.
Lemma not_inline t : is_option t = false -> split_inline t = None.
Proof. intros H. unfold split_inline. rewrite (not_long t H). reflexivity. Qed.
Lemma find_nothing {A} (f : A -> bool) l : (forall x, In x l -> f x = false) -> find f l = None.
Proof. induction l as [|x l IH]; intros H; [reflexivity|]. cbn [find]. rewrite (H x (or_introl eq_refl)). apply IH. intros y I. apply H. right. exact I. Qed.
Lemma value_none d p : dashed d -> Forall (fun t => is_option t = false) (raw_args p) -> is_option (current p) = false -> value_of_option d p = None.
Proof.
  intros D R C. unfold value_of_option. rewrite Forall_forall in R.
  assert (T : forall t, raw_token p = Some t -> is_option t = false).
  { intros t H. apply R. unfold raw_token in H. destruct (raw_index p); [|discriminate]. apply nth_error_In in H. exact H. }
  assert (P : forall t, raw_previous p = Some t -> is_option t = false).
  { intros t H. apply R. unfold raw_previous in H. destruct (raw_index p) as [[|i]|]; try discriminate. apply nth_error_In in H. exact H. }
  assert (X : match raw_previous p with
              | Some prev => match find (fun o => matches_name o prev && expects_value o) (available d (path p)) with
                             | Some o => Some (Parsed (command p) (path p) (raw_args p) (current p) (current_arg p) (In_value prev (o_type o)) (opts p) (without_value (current p) (sargs p)))
                             | None => None end
              | None => None end = None).
  { destruct (raw_previous p) as [t|]; [|reflexivity]. rewrite find_nothing; [reflexivity|]. intros o I. destruct (matches_name o t) eqn:M; [|reflexivity].
    specialize (D _ _ _ I M). rewrite (P t eq_refl) in D. discriminate D. }
  destruct (raw_token p) as [t|]; [|rewrite C; exact X]. rewrite (not_inline t (T t eq_refl)). unfold attached_value. rewrite (T t eq_refl). cbn [andb option_map].
  rewrite C. exact X.
Qed.

Section Subs.
Variable alphabetic alphanumeric : char -> bool.
Notation leading := (leading alphabetic alphanumeric).

Lemma leading_cases ts : exists a b, ts = a ++ b /\ leading ts = (a, b) /\ match b with [] => True | t :: _ => looks_like_sub alphabetic alphanumeric t = false end.
Proof.
  induction ts as [|t ts (a & b & E & L & H)]; [exists [], []; repeat split|]. cbn [Comp_Model.leading]. destruct (looks_like_sub _ _ t) eqn:S.
  - rewrite L. exists (t :: a), b. subst. repeat split; assumption.
  - exists [], (t :: ts). repeat split. exact S.
Qed.
Lemma leading_words ws pre : exists ws1 ws2, ws = ws1 ++ ws2 /\ (leading (ws ++ [pre]) = (ws1, ws2 ++ [pre]) \/ (ws2 = [] /\ leading (ws ++ [pre]) = (ws ++ [pre], []))).
Proof.
  destruct (leading_cases (ws ++ [pre])) as (a & b & E & L & _). destruct b as [|x b] using rev_ind.
  - rewrite app_nil_r in E. subst a. exists ws, []. rewrite app_nil_r. split; [reflexivity|right]. split; [reflexivity|exact L].
  - rewrite app_assoc in E. apply app_inj_tail in E as [E ->]. exists a, b. split; [exact E|left; exact L].
Qed.

(** one correction of a line of subcommands *)
Lemma correct_subs d p ws1 ws2 names subs : dashed d ->
  let pre := current p in
  follows (d_subs d) (ws1 ++ ws2) names subs -> is_option pre = false -> Forall (fun w => is_option w = false) ws2 ->
  find_sub subs pre = None -> existsb (sub_starts pre) subs = true ->
  Forall (fun w => w <> pre) ws2 ->
  (ctx p = In_sub \/ exists i, ctx p = In_argument i None) ->
  (path p = ws1 /\ raw_args p = ws2 ++ [pre]) \/ (ws2 = [] /\ path p = ws1 ++ [pre] /\ raw_args p = []) ->
  correct1 d p = with_context In_sub (with_path names p).
Proof.
  intros D pre F O Ow N St Ne Cx [(Pp & Pr) | (-> & Pp & Pr)]; unfold correct1; rewrite Pp.
  - destruct (follows_app _ _ _ _ _ F) as (n1 & n2 & mid & -> & F1 & F2). rewrite (walk_follows _ _ _ _ F1).
    assert (RO : Forall (fun t => is_option t = false) (raw_args p)) by (rewrite Pr; apply Forall_app; split; [exact Ow|constructor; [exact O|constructor]]).
    rewrite (value_none d p D RO O).
    assert (Mid : mid <> []).
    { inversion F2; subst; [intros ->; discriminate St|]. intros ->. discriminate. }
    assert (Com : combined d p = None).
    { unfold combined. set (i := match current p with [] => _ | _ => _ end). destruct (match i with Some j => nth_error (raw_args p) j | None => None end) as [t|] eqn:E; [|reflexivity].
      destruct i as [j|]; [|discriminate]. apply nth_error_In in E. rewrite Forall_forall in RO. rewrite (RO t E). reflexivity. }
    rewrite Pr. fold pre. rewrite (more_follows pre _ _ _ _ [pre] F2 Ne). cbn [more_subs]. rewrite N. rewrite str_eqb_refl, St. cbn [andb].
    destruct Cx as [Cx | (i & Cx)]; rewrite Cx, ?Com.
    + destruct mid; [congruence|]. rewrite app_nil_r. unfold with_context, with_path. cbn. rewrite Pr. reflexivity.
    + rewrite app_nil_r. destruct (existsb (sub_starts pre) mid); unfold with_context, with_path; cbn; rewrite Pr; reflexivity.
  - rewrite app_nil_r in F. rewrite (walk_app _ _ _ _ [pre] F). cbn [walk]. rewrite N, app_nil_r. fold pre. rewrite str_eqb_refl, St, O. reflexivity.
Qed.
(** a second correction changes nothing *)
Lemma correct_subs_again d p ws2 names subs : dashed d ->
  let pre := current p in
  follows (d_subs d) names names subs -> is_option pre = false -> Forall (fun w => is_option w = false) ws2 ->
  find_sub subs pre = None -> existsb (sub_starts pre) subs = true ->
  Forall (fun w => w <> pre /\ find_sub subs w = None) ws2 ->
  ctx p = In_sub -> path p = names -> raw_args p = ws2 ++ [pre] \/ (ws2 = [] /\ raw_args p = []) ->
  correct1 d p = p.
Proof.
  intros D pre F O Ow N St Ne Cx Pp Pr. unfold correct1. rewrite Pp, (walk_follows _ _ _ _ F).
  assert (RO : Forall (fun t => is_option t = false) (raw_args p)).
  { destruct Pr as [-> | (_ & ->)]; [apply Forall_app; split; [exact Ow|constructor; [exact O|constructor]]|constructor]. }
  rewrite (value_none d p D RO O), Cx. destruct subs as [|s0 subs0] eqn:Es; [discriminate St|]. rewrite <- Es in *.
  assert (Pe : with_context In_sub (with_path names p) = p).
  { unfold with_context, with_path. cbn. destruct p; cbn in *. subst. reflexivity. }
  destruct Pr as [Pr | (-> & Pr)]; rewrite Pr.
  - destruct ws2 as [|w ws2]; cbn [app more_subs]; fold pre.
    + rewrite N, str_eqb_refl, St. cbn [andb]. rewrite app_nil_r. exact Pe.
    + inversion Ne as [|? ? (Ne1 & Ne2) _]; subst. rewrite Ne2. assert (str_eqb w pre = false) as -> by (apply str_eqb_neq; exact Ne1). cbn [andb Nat.eqb].
      rewrite (value_none d p D RO O). reflexivity.
  - cbn [more_subs Nat.eqb]. rewrite (value_none d p D RO O). reflexivity.
Qed.
End Subs.

(** what is found among the names *)
Lemma sub_candidates_names pre subs :
  (forall s, In s subs -> sub_starts pre s = true -> exists c, In c (sub_candidates pre subs) /\ what c = K_sub /\ names_sub pre s (text c)) /\
  (forall s, In s subs -> starts_with pre (s_name s) = true -> exists c, In c (sub_candidates pre subs) /\ what c = K_sub /\ text c = s_name s) /\
  (forall c, In c (sub_candidates pre subs) -> what c = K_sub /\ exists s, In s subs /\ names_sub pre s (text c)).
Proof.
  split; [|split].
  - intros s I H. unfold sub_starts in H. destruct (matched_text pre s) as [t|] eqn:M.
    + exists (Candidate t K_sub 100). split; [apply in_flat_map; exists s; split; [exact I|]; rewrite M; left; reflexivity|]. split; [reflexivity|]. cbn [text].
      unfold matched_text in M. destruct (starts_with pre (s_name s)) eqn:E; [injection M as <-; split; [left; reflexivity|exact E]|]. apply find_some in M as [M1 M2]. split; [right; exact M1|exact M2].
    + exfalso. unfold matched_text in M. destruct (starts_with pre (s_name s)); [discriminate|]. cbn [orb] in H. apply existsb_exists in H as (t & I1 & I2). pose proof (find_none _ _ M t I1) as X. cbn in X. congruence.
  - intros s I H. exists (Candidate (s_name s) K_sub 100). split; [|split; reflexivity]. apply in_flat_map. exists s. split; [exact I|]. unfold matched_text. rewrite H. left. reflexivity.
  - intros c I. apply in_flat_map in I as (s & I & H). destruct (matched_text pre s) as [t|] eqn:M; [|destruct H]. destruct H as [<- | []]. split; [reflexivity|]. exists s. split; [exact I|]. cbn [text].
    unfold matched_text in M. destruct (starts_with pre (s_name s)) eqn:E; [injection M as <-; split; [left; reflexivity|exact E]|]. apply find_some in M as [M1 M2]. split; [right; exact M1|exact M2].
Qed.
