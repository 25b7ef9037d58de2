(** C153 jumping with z, C154 directory aliases. *)
From Verif Require Import Base Frecency_Model Frecency_Proofs Jump_Model Jump_Spec.
From Coq Require Import ZArith Lia Permutation.

Lemma opt_iff s l a : is_opt s l a = true <-> a = s \/ a = l.
Proof. unfold is_opt. rewrite orb_true_iff, !str_eqb_eq. reflexivity. Qed.
Lemma word_step o a : word a -> parse_step o a = Options (o_interactive o) (o_list o) (o_clean o) (o_parts o ++ [a]).
Proof.
  intros (L & A & C). unfold parse_step.
  destruct (interactive_opt a) eqn:E1; [destruct A; apply opt_iff, E1|]. destruct (list_opt a) eqn:E2; [destruct L; apply opt_iff, E2|].
  destruct (clean_opt a) eqn:E3; [destruct C; apply opt_iff, E3|]. reflexivity.
Qed.
Lemma parse_words l : forall ws o, Words_of l ws ->
  let r := fold_left parse_step l o in
  o_parts r = o_parts o ++ ws /\
  (o_list r = true <-> o_list o = true \/ Exists lists l) /\ (o_interactive r = true <-> o_interactive o = true \/ Exists asks l) /\
  (o_clean r = true <-> o_clean o = true \/ Exists cleans l).
Proof.
  induction l as [|a l IH]; intros ws o H; cbn [fold_left].
  - inversion H. rewrite app_nil_r. rewrite !Exists_nil. tauto.
  - rewrite !Exists_cons. inversion H as [|? ? ws' W H'|? ? ws' W H']; subst.
    + destruct (IH ws' (parse_step o a) H') as (P & Q1 & Q2 & Q3). rewrite word_step in * by exact W. cbn [o_parts o_list o_interactive o_clean] in *.
      rewrite <- app_assoc in P. destruct W as (W1 & W2 & W3). tauto.
    + destruct (IH ws (parse_step o a) H') as (P & Q1 & Q2 & Q3).
      assert (D : lists a \/ asks a \/ cleans a).
      { unfold parse_step in *. destruct (list_opt a) eqn:E2; [left; apply opt_iff, E2|]. destruct (interactive_opt a) eqn:E1; [right; left; apply opt_iff, E1|].
        destruct (clean_opt a) eqn:E3; [right; right; apply opt_iff, E3|]. destruct W. split; [|split]; intros [X|X]; subst a; discriminate. }
      unfold parse_step in *. destruct D as [[X|X]|[[X|X]|[X|X]]]; subst a; cbn in P, Q1, Q2, Q3 |- *;
        repeat split; try tauto; try congruence; intros; unfold lists, asks, cleans in *;
        try (apply Q1); try (apply Q2); try (apply Q3); try tauto;
        repeat match goal with X : _ \/ _ |- _ => destruct X | X : _ = _ |- _ => discriminate X end; auto; try tauto.
Qed.
Lemma at_least_total m x y : at_least m x y = false -> at_least m y x = true.
Proof.
  unfold at_least. rewrite (Z.compare_antisym (snd x) (snd y)). destruct (Z.compare (snd x) (snd y)) eqn:E; cbn [CompOpp]; intros H; try discriminate; [|reflexivity].
  apply Z.leb_gt in H. apply Z.leb_le. lia.
Qed.
Lemma at_least_le m x y : at_least m x y = true <-> (snd y < snd x)%Z \/ (snd y = snd x /\ (frecency m (fst y) <= frecency m (fst x))%Z).
Proof.
  unfold at_least. destruct (Z.compare_spec (snd x) (snd y)) as [E|E|E].
  - rewrite Z.leb_le. split; [intros H; right; split; [congruence|exact H]|intros [H|[_ H]]; [lia|exact H]].
  - split; [discriminate|intros [H|[H _]]; lia].
  - split; [intros _; left; exact E|reflexivity].
Qed.
Lemma at_least_trans m x y z : at_least m x y = true -> at_least m y z = true -> at_least m x z = true.
Proof. rewrite !at_least_le. lia. Qed.
Lemma scored_in m q l p s : In (p, s) (scored m q l) <-> In p l /\ fit m q p s.
Proof.
  unfold scored, fit. rewrite in_flat_map. split.
  - intros (x & X & H). destruct (score m x q) as [s'|] eqn:E; [|destruct H]. destruct (Z.ltb_spec 25 s') as [L|L]; [|destruct H]. destruct H as [H|[]]. inversion H; subst. split; [exact X|split; assumption].
  - intros (X & E & L). exists p. split; [exact X|]. rewrite E. destruct (Z.ltb_spec 25 s); [left; reflexivity|lia].
Qed.
Lemma first_best m q l p r : sort_by_match m q l = p :: r -> best m q l p.
Proof.
  unfold sort_by_match. intros H. pose proof (sort_ordered (at_least m) (at_least_total m) (at_least_trans m) (scored m q l)) as O.
  pose proof (sort_perm (at_least m) (scored m q l)) as P. destruct (Frecency_Model.sort (at_least m) (scored m q l)) as [|[p' s] t]; [discriminate|].
  cbn [map fst] in H. injection H as -> _. destruct O as [O _].
  assert (I : In (p, s) (scored m q l)) by (apply (Permutation_in _ (Permutation_sym P)); left; reflexivity). apply scored_in in I as [I F].
  split; [exact I|]. exists s. split; [exact F|]. intros p2 s2 I2 F2. assert (K : In (p2, s2) (scored m q l)) by (apply scored_in; split; assumption).
  apply (Permutation_in _ P) in K as [K|K]; [inversion K; subst; right; split; [reflexivity|lia]|]. apply O, at_least_le in K. exact K.
Qed.
Lemma no_match m q l : sort_by_match m q l = [] <-> forall p s, In p l -> ~ fit m q p s.
Proof.
  unfold sort_by_match. pose proof (sort_perm (at_least m) (scored m q l)) as P. split.
  - intros H p s I F. assert (K : In (p, s) (scored m q l)) by (apply scored_in; split; assumption). apply (Permutation_in _ P) in K.
    destruct (Frecency_Model.sort (at_least m) (scored m q l)); [destruct K|discriminate].
  - intros H. destruct (scored m q l) as [|[p s] r] eqn:E; [reflexivity|]. exfalso. assert (I : In (p, s) (scored m q l)) by (rewrite E; left; reflexivity). apply scored_in in I as [I F]. exact (H p s I F).
Qed.

Section Jump.
Variable chdir : str -> str -> option str.
Variable exists_ : str -> bool.
Notation go := (go chdir).
Notation execute := (execute chdir exists_).

(** what the command line means, when the first word is no subcommand *)
Lemma meaning m a l ws w : Words_of (a :: l) ws -> ~ subcommand a ->
  execute m (lit "z" :: a :: l) w = jump chdir exists_ m (parse_z_args (lit "z" :: a :: l)) w /\
  o_parts (parse_z_args (lit "z" :: a :: l)) = ws.
Proof.
  intros H N. split.
  - unfold Jump_Model.execute. cbn [nth]. destruct (str_eqb a (lit "add")) eqn:E1; [destruct N; apply str_eqb_eq in E1; subst; cbn; tauto|].
    destruct (str_eqb a (lit "remove")) eqn:E2; [destruct N; apply str_eqb_eq in E2; subst; cbn; tauto|]. destruct (str_eqb a (lit "rm")) eqn:E3; [destruct N; apply str_eqb_eq in E3; subst; cbn; tauto|].
    destruct (str_eqb a (lit "aliases")) eqn:E4; [destruct N; apply str_eqb_eq in E4; subst; cbn; tauto|]. destruct (str_eqb a (lit "alias")) eqn:E5; [destruct N; apply str_eqb_eq in E5; subst; cbn; tauto|]. reflexivity.
  - unfold parse_z_args. cbn [tl]. exact (proj1 (parse_words (a :: l) ws (Options false false false []) H)).
Qed.
Lemma all_words l : Forall word l -> Words_of l l.
Proof. induction 1; constructor; assumption. Qed.
Lemma no_options o l : Forall word l -> o_list o = false -> o_interactive o = false -> o_clean o = false ->
  let r := fold_left parse_step l o in o_list r = false /\ o_interactive r = false /\ o_clean r = false.
Proof.
  intros F A B C. revert o A B C. induction F as [|a l Wa _ IH]; intros o A B C; [repeat split; assumption|]. cbn [fold_left]. apply IH; rewrite word_step by exact Wa; assumption.
Qed.

(** ** C153 *)
Definition query (ws : list str) : str := join_with (lit " ") ws.
(** With words only, z goes to the best of the visited directories, and nothing else changes; with no
    match it fails and changes nothing. *)
Theorem C153_best_partial m a l w : Forall word (a :: l) -> ~ subcommand a -> query (a :: l) <> [] -> query (a :: l) <> lit "-" -> alias_of (query (a :: l)) (aliases w) = None ->
  (exists p, best m (query (a :: l)) (visited w) p /\
     (forall d, chdir (cwd w) p = Some d ->
        execute m (lit "z" :: a :: l) w = (Done, World (aliases w) (record_visit d (visited w)) d (Some (cwd w))))) \/
  ((forall p s, In p (visited w) -> ~ fit m (query (a :: l)) p s) /\ execute m (lit "z" :: a :: l) w = (Failed, w)).
Proof.
  intros F N Q D A. destruct (meaning m a l (a :: l) w (all_words _ F) N) as [-> P].
  destruct (no_options (Options false false false []) (a :: l) F eq_refl eq_refl eq_refl) as (E1 & E2 & E3).
  unfold jump. change (fold_left parse_step (a :: l) (Options false false false [])) with (parse_z_args (lit "z" :: a :: l)) in E1, E2, E3. rewrite P, E1, E2, E3. change (join_with [32%N] (a :: l)) with (query (a :: l)).
  cbn [andb orb]. destruct (query (a :: l)) as [|c q] eqn:Eq; [contradiction|]. cbn iota. rewrite A. rewrite (proj2 (str_eqb_neq _ _) D).
  destruct (sort_by_match m (c :: q) (visited w)) as [|p r] eqn:S.
  - right. split; [apply no_match, S|reflexivity].
  - left. exists p. split; [apply (first_best _ _ _ _ r S)|]. intros d Hd. unfold Jump_Model.go. rewrite Hd. reflexivity.
Qed.
(** If the best one is gone, z fails, whatever else matches, and the way back is lost: z - stays here. *)
Theorem C153_gone_refuted m a l w p r : Forall word (a :: l) -> ~ subcommand a -> query (a :: l) <> [] -> query (a :: l) <> lit "-" -> alias_of (query (a :: l)) (aliases w) = None ->
  sort_by_match m (query (a :: l)) (visited w) = p :: r -> chdir (cwd w) p = None ->
  execute m (lit "z" :: a :: l) w = (Failed, World (aliases w) (visited w) (cwd w) (Some (cwd w))).
Proof.
  intros F N Q D A S G. destruct (meaning m a l (a :: l) w (all_words _ F) N) as [-> P].
  destruct (no_options (Options false false false []) (a :: l) F eq_refl eq_refl eq_refl) as (E1 & E2 & E3).
  unfold jump. change (fold_left parse_step (a :: l) (Options false false false [])) with (parse_z_args (lit "z" :: a :: l)) in E1, E2, E3. rewrite P, E1, E2, E3. change (join_with [32%N] (a :: l)) with (query (a :: l)).
  cbn [andb orb]. destruct (query (a :: l)) as [|c q] eqn:Eq; [contradiction|]. cbn iota. rewrite A. rewrite (proj2 (str_eqb_neq _ _) D), S. unfold Jump_Model.go. rewrite G. reflexivity.
Qed.
(** z - goes back, and once more forth, between directories that still exist. *)
Theorem C153_back m m' w p : alias_of (lit "-") (aliases w) = None -> oldpwd w = Some p -> absolute chdir p -> absolute chdir (cwd w) ->
  exists w', execute m [lit "z"; lit "-"] w = (Done, w') /\ cwd w' = p /\
  exists w'', execute m' [lit "z"; lit "-"] w' = (Done, w'') /\ cwd w'' = cwd w.
Proof.
  assert (E : forall m w p, alias_of (lit "-") (aliases w) = None -> oldpwd w = Some p -> absolute chdir p ->
    execute m [lit "z"; lit "-"] w = (Done, World (aliases w) (record_visit p (visited w)) p (Some (cwd w)))).
  { clear. intros m w p A O P. assert (E : execute m [lit "z"; lit "-"] w = jump chdir exists_ m (Options false false false [lit "-"]) w) by reflexivity. rewrite E.
    unfold jump. cbn [o_parts o_clean o_interactive o_list join_with andb orb]. change (match lit "-" with [] => true | _ :: _ => false end) with false. cbn iota. rewrite A, str_eqb_refl, O. unfold Jump_Model.go. rewrite P. reflexivity. }
  intros A O P C. eexists. split; [apply E; eassumption|]. split; [reflexivity|]. eexists. split; [apply E; [exact A|reflexivity|exact C]|reflexivity].
Qed.
(** Asking for a list goes nowhere, if the words are no alias (and not -). *)
Theorem C153_list_partial m a l ws w : Words_of (a :: l) ws -> ~ subcommand a -> Exists lists (a :: l) -> alias_of (query ws) (aliases w) = None -> query ws <> lit "-" ->
  fst (execute m (lit "z" :: a :: l) w) = Done /\ cwd (snd (execute m (lit "z" :: a :: l) w)) = cwd w /\ oldpwd (snd (execute m (lit "z" :: a :: l) w)) = oldpwd w /\ aliases (snd (execute m (lit "z" :: a :: l) w)) = aliases w.
Proof.
  intros H N L A D. destruct (meaning m a l ws w H N) as [-> P]. destruct (parse_words (a :: l) ws (Options false false false []) H) as (_ & Q & _).
  unfold jump. change (fold_left parse_step (a :: l) (Options false false false [])) with (parse_z_args (lit "z" :: a :: l)) in Q. rewrite (proj2 Q (or_intror L)), P. change (join_with [32%N] ws) with (query ws).
  rewrite (proj2 (str_eqb_neq _ _) D).
  rewrite andb_false_r. destruct (o_clean _); destruct (query ws) eqn:Eq; cbn iota; cbn [aliases]; rewrite ?A; repeat split; reflexivity.
Qed.
(** With an alias of that name z goes there, whatever the options ask for. *)
Theorem C153_option_alias_refuted m a l ws w p d : Words_of (a :: l) ws -> ~ subcommand a -> query ws <> [] -> alias_of (query ws) (aliases w) = Some p -> chdir (cwd w) p = Some d ->
  cwd (snd (execute m (lit "z" :: a :: l) w)) = d.
Proof.
  intros H N Q A C. destruct (meaning m a l ws w H N) as [-> P]. unfold jump. rewrite P. change (join_with [32%N] ws) with (query ws).
  destruct (query ws) as [|c q] eqn:Eq; [contradiction|]. rewrite andb_false_r. cbn [andb]. destruct (o_clean _); cbn [aliases]; rewrite A; unfold Jump_Model.go; cbn [cwd]; rewrite C; reflexivity.
Qed.
(** Cleaning forgets the directories that do not exist, and only those. *)
Theorem C153_clean m w p : In p (visited (snd (execute m [lit "z"; lit "-c"] w))) <-> In p (visited w) /\ exists_ p = true.
Proof. change (snd (execute m [lit "z"; lit "-c"] w)) with (World (aliases w) (filter exists_ (visited w)) (cwd w) (oldpwd w)). cbn [visited]. apply filter_In. Qed.
(** A directory is visited only by going there. *)
Theorem C153_visited m argv w p : In p (visited (snd (execute m argv w))) -> In p (visited w) \/ p = cwd (snd (execute m argv w)).
Proof.
  assert (G : forall q w, In p (visited (snd (go q w))) -> In p (visited w) \/ p = cwd (snd (go q w))).
  { intros q w0. unfold Jump_Model.go. destruct (chdir (cwd w0) q) as [d|]; cbn [snd visited cwd]; [|tauto]. unfold record_visit. destruct (mem_str d (visited w0)); [tauto|]. rewrite in_app_iff. cbn [In]. intuition congruence. }
  unfold Jump_Model.execute. destruct (str_eqb _ _); [destruct (nth_error argv 2); cbn [snd visited]; tauto|]. destruct (_ || _); [destruct (nth_error argv 2); cbn [snd visited]; tauto|]. destruct (_ || _); [cbn; tauto|].
  unfold jump. set (o := parse_z_args argv). set (w' := if o_clean o then _ else w).
  assert (V : forall x, In x (visited w') -> In x (visited w)) by (intros x; unfold w'; destruct (o_clean o); [cbn [visited]; rewrite filter_In; tauto|tauto]).
  assert (G' : forall q, In p (visited (snd (go q w'))) -> In p (visited w) \/ p = cwd (snd (go q w'))) by (intros q Hq; apply G in Hq as [Hq|Hq]; [left; apply V, Hq|right; exact Hq]).
  repeat match goal with
  | |- context [if ?b then _ else _] => destruct b
  | |- context [match ?b with Some _ => _ | None => _ end] => destruct b
  | |- context [match ?b with [] => _ | _ => _ end] => destruct b
  end; try (apply G'); try (cbn [snd]; intros X; left; apply V, X).
Qed.

(** ** C154 *)
Lemma alias_drop n k l : alias_of k (drop_alias n l) = if str_eqb n k then None else alias_of k l.
Proof.
  induction l as [|[x p] l IH]; [cbn; destruct (str_eqb n k); reflexivity|]. cbn [drop_alias filter fst]. destruct (str_eqb_spec x n) as [->|Nx]; cbn [negb].
  - change (filter _ l) with (drop_alias n l). rewrite IH. cbn [alias_of]. destruct (str_eqb n k); reflexivity.
  - cbn [alias_of]. change (filter _ l) with (drop_alias n l). rewrite IH. destruct (str_eqb_spec x k) as [->|Nk]; [|reflexivity].
    destruct (str_eqb_spec n k); [congruence|reflexivity].
Qed.
Lemma alias_add n p k l : alias_of k (add_alias n p l) = if str_eqb n k then Some p else alias_of k l.
Proof.
  unfold add_alias. assert (E : forall a b, alias_of k (a ++ b) = match alias_of k a with Some x => Some x | None => alias_of k b end).
  { induction a as [|[x y] a IH]; intros b; [reflexivity|]. cbn [app alias_of]. destruct (str_eqb x k); [reflexivity|apply IH]. }
  rewrite E, alias_drop. cbn [alias_of]. destruct (str_eqb n k); [reflexivity|]. destruct (alias_of k l); reflexivity.
Qed.
(** A command that names an alias changes that one and no other, and nothing else. *)
Theorem C154_names m argv n p w : Names (cwd w) argv n p ->
  exists w', execute m argv w = (Done, w') /\ cwd w' = cwd w /\ visited w' = visited w /\ oldpwd w' = oldpwd w /\
  alias_of n (aliases w') = p /\ forall k, k <> n -> alias_of k (aliases w') = alias_of k (aliases w).
Proof.
  intros H. destruct H as [n|n p r|rm n r R]; eexists.
  - split; [reflexivity|]. repeat (split; [reflexivity|]). cbn [aliases nth_error]. split; [rewrite alias_add, str_eqb_refl; reflexivity|]. intros k K. rewrite alias_add. destruct (str_eqb_spec n k); [congruence|reflexivity].
  - split; [reflexivity|]. repeat (split; [reflexivity|]). cbn [aliases nth_error]. split; [rewrite alias_add, str_eqb_refl; reflexivity|]. intros k K. rewrite alias_add. destruct (str_eqb_spec n k); [congruence|reflexivity].
  - split; [destruct R as [-> | ->]; reflexivity|]. repeat (split; [reflexivity|]). cbn [aliases]. split; [rewrite alias_drop, str_eqb_refl; reflexivity|]. intros k K. rewrite alias_drop. destruct (str_eqb_spec n k); [congruence|reflexivity].
Qed.
(** Every other command leaves the aliases alone. *)
Theorem C154_others m l w : (forall n p, ~ Names (cwd w) (lit "z" :: l) n p) -> aliases (snd (execute m (lit "z" :: l) w)) = aliases w.
Proof.
  intros H. assert (G : forall q w, aliases (snd (go q w)) = aliases w) by (intros q w0; unfold Jump_Model.go; destruct (chdir (cwd w0) q); reflexivity).
  unfold Jump_Model.execute. destruct l as [|a [|n r]]; cbn [nth nth_error].
  - change (str_eqb [] (lit "add")) with false. change (str_eqb [] (lit "remove") || str_eqb [] (lit "rm")) with false. change (str_eqb [] (lit "aliases") || str_eqb [] (lit "alias")) with false. cbn iota.
    unfold jump. cbn [parse_z_args tl fold_left o_parts o_clean o_list o_interactive join_with andb orb]. destruct (str_eqb [] (lit "-")) eqn:E; [discriminate E|]. destruct (by_recency m (visited w)); [reflexivity|]. destruct (menu m _); [apply G|reflexivity].
  - destruct (str_eqb a (lit "add")); [reflexivity|]. destruct (_ || _); [reflexivity|]. destruct (_ || _); [reflexivity|].
    unfold jump. set (o := parse_z_args _). set (w' := if o_clean o then _ else w). assert (V : aliases w' = aliases w) by (unfold w'; destruct (o_clean o); reflexivity).
    repeat match goal with
    | |- context [if ?b then _ else _] => destruct b
    | |- context [match ?b with Some _ => _ | None => _ end] => destruct b
    | |- context [match ?b with [] => _ | _ => _ end] => destruct b
    end; rewrite ?G; cbn [snd]; exact V.
  - destruct (str_eqb_spec a (lit "add")) as [->|N1]; [exfalso; destruct r as [|p r]; [apply (H n (Some (cwd w))); constructor|apply (H n (Some p)); constructor]|].
    destruct (str_eqb a (lit "remove") || str_eqb a (lit "rm")) eqn:R; [exfalso; apply (H n None); constructor; rewrite orb_true_iff, !str_eqb_eq in R; exact R|]. destruct (str_eqb a (lit "aliases") || str_eqb a (lit "alias")); [reflexivity|].
    unfold jump. set (o := parse_z_args _). set (w' := if o_clean o then _ else w). assert (V : aliases w' = aliases w) by (unfold w'; destruct (o_clean o); reflexivity).
    repeat match goal with
    | |- context [if ?b then _ else _] => destruct b
    | |- context [match ?b with Some _ => _ | None => _ end] => destruct b
    | |- context [match ?b with [] => _ | _ => _ end] => destruct b
    end; rewrite ?G; cbn [snd]; exact V.
Qed.
(** An alias takes z to the path it was given, if its words are neither options nor a subcommand. *)
Theorem C154_jump_partial m a l w p d : Forall word (a :: l) -> ~ subcommand a -> query (a :: l) <> [] -> alias_of (query (a :: l)) (aliases w) = Some p -> chdir (cwd w) p = Some d ->
  execute m (lit "z" :: a :: l) w = (Done, World (aliases w) (record_visit d (visited w)) d (Some (cwd w))).
Proof.
  intros F N Q A C. destruct (meaning m a l (a :: l) w (all_words _ F) N) as [-> P].
  destruct (no_options (Options false false false []) (a :: l) F eq_refl eq_refl eq_refl) as (E1 & E2 & E3).
  unfold jump. change (fold_left parse_step (a :: l) (Options false false false [])) with (parse_z_args (lit "z" :: a :: l)) in E1, E2, E3. rewrite P, E1, E2, E3. change (join_with [32%N] (a :: l)) with (query (a :: l)).
  cbn [andb orb]. destruct (query (a :: l)) as [|c q] eqn:Eq; [contradiction|]. rewrite A. unfold Jump_Model.go. rewrite C. reflexivity.
Qed.
(** An alias with the name of a subcommand is never gone to: none of its uses changes the directory. *)
Theorem C154_subcommand_refuted m a l w : subcommand a -> cwd (snd (execute m (lit "z" :: a :: l) w)) = cwd w.
Proof.
  intros H. unfold Jump_Model.execute. cbn [nth nth_error]. destruct H as [<-|[<-|[<-|[<-|[<-|[]]]]]]; cbn [str_eqb]; try reflexivity; destruct l; reflexivity.
Qed.
(** The list shown has every alias once, by name. *)
Theorem C154_listed l : Permutation l (list_aliases l) /\ ordered (fun a b => match str_cmp (fst a) (fst b) with Gt => false | _ => true end) (list_aliases l).
Proof.
  split; [apply sort_perm|]. apply sort_ordered.
  - intros x y. rewrite (str_cmp_sym (fst x) (fst y)). destruct (str_cmp (fst x) (fst y)); cbn; congruence.
  - intros x y z. destruct (str_cmp (fst x) (fst y)) eqn:E; [|..]; intros H1 H2; try discriminate.
    + apply str_cmp_eq in E. rewrite E. exact H2.
    + destruct (str_cmp (fst y) (fst z)) eqn:E2; try discriminate; [apply str_cmp_eq in E2; rewrite <- E2, E; reflexivity|]. rewrite (str_lt_trans _ _ _ E E2). reflexivity.
Qed.
Theorem C154_once cmds w : NoDup (map fst (aliases w)) -> NoDup (map fst (aliases (run chdir exists_ cmds w))).
Proof.
  assert (D : forall n l, NoDup (map fst l) -> NoDup (map fst (drop_alias n l)) /\ ~ In n (map fst (drop_alias n l))).
  { intros n l H. split.
    - induction l as [|[k p] l IH]; [exact H|]. cbn [drop_alias filter fst]. inversion H as [|? ? H1 H2]; subst. specialize (IH H2). destruct (negb (str_eqb k n)); [|exact IH].
      cbn [map fst]. constructor; [|exact IH]. intros X. apply H1. apply in_map_iff in X as (e & E & X). apply filter_In in X as [X _]. apply in_map_iff. exists e. split; assumption.
    - intros X. apply in_map_iff in X as (e & E & X). apply filter_In in X as [_ X]. rewrite E, str_eqb_refl in X. discriminate. }
  assert (S : forall m argv w, NoDup (map fst (aliases w)) -> NoDup (map fst (aliases (snd (execute m argv w))))).
  { intros m argv w0 H. assert (G : forall q w, aliases (snd (go q w)) = aliases w) by (intros q w1; unfold Jump_Model.go; destruct (chdir (cwd w1) q); reflexivity).
    unfold Jump_Model.execute. destruct (str_eqb _ _).
    - destruct (nth_error argv 2) as [n|]; [|exact H]. cbn [snd aliases]. unfold add_alias. rewrite map_app. cbn [map fst]. destruct (D n _ H) as [D1 D2].
      apply (Permutation_NoDup (Permutation_app_comm [n] _)). constructor; assumption.
    - destruct (_ || _); [destruct (nth_error argv 2) as [n|]; [apply D, H|exact H]|]. destruct (_ || _); [exact H|].
      unfold jump. set (o := parse_z_args _). set (w' := if o_clean o then _ else w0). assert (V : aliases w' = aliases w0) by (unfold w'; destruct (o_clean o); reflexivity).
      repeat match goal with
      | |- context [if ?b then _ else _] => destruct b
      | |- context [match ?b with Some _ => _ | None => _ end] => destruct b
      | |- context [match ?b with [] => _ | _ => _ end] => destruct b
      end; rewrite ?G; cbn [snd]; rewrite V; exact H. }
  revert w. unfold run. induction cmds as [|c cmds IH]; intros w H; [exact H|]. cbn [fold_left]. apply IH, S, H.
Qed.
End Jump.

(** ** examples: a file system where a path that begins with a slash is absolute, any other below *)
Definition fs (c p : str) : option str := if starts_with (lit "/") p then (if mem_str p [lit "/a"; lit "/a/x"; lit "/b"; lit "/b/x"] then Some p else None) else let q := c ++ lit "/" ++ p in if mem_str q [lit "/a"; lit "/a/x"; lit "/b"; lit "/b/x"] then Some q else None.
Definition now : moment := Moment (fun p q => if contains q p then Some (Z.of_nat (30 + length p)) else None) (fun p => Z.of_nat (length p)) (fun _ => 0%Z) (fun l => hd_error l).
(** a relative path is kept as it was given: the alias leads elsewhere from elsewhere *)
Theorem C154_relative_refuted :
  let w := snd (execute fs (fun _ => true) now [lit "z"; lit "add"; lit "n"; lit "x"] (World [] [] (lit "/a") None)) in
  cwd (snd (execute fs (fun _ => true) now [lit "z"; lit "n"] w)) = lit "/a/x" /\
  cwd (snd (execute fs (fun _ => true) now [lit "z"; lit "n"] (World (aliases w) [] (lit "/b") None))) = lit "/b/x".
Proof. vm_compute. split; reflexivity. Qed.
Example C153_case :
  let w := World [(lit "n", lit "/b")] [lit "/a"; lit "/a/x"; lit "/b/x"; lit "/gone/x"] (lit "/b") None in
  cwd (snd (execute fs (fun _ => true) now [lit "z"; lit "a"] w)) = lit "/a/x" /\
  execute fs (fun _ => true) now [lit "z"; lit "x"] w = (Failed, World (aliases w) (visited w) (lit "/b") (Some (lit "/b"))) /\
  (exists r, sort_by_match now (lit "x") (visited w) = lit "/gone/x" :: r) /\ word (lit "x") /\ ~ subcommand (lit "x") /\
  Words_of [lit "-l"; lit "n"] [lit "n"] /\ cwd (snd (execute fs (fun _ => true) now [lit "z"; lit "-l"; lit "n"] (World (aliases w) [] (lit "/a") None))) = lit "/b".
Proof.
  cbv zeta. split; [vm_compute; reflexivity|]. split; [vm_compute; reflexivity|]. split; [eexists; vm_compute; reflexivity|].
  split; [split; [|split]; intros [X|X]; discriminate|]. split; [intros X; cbn in X; decompose [or] X; try discriminate; assumption|].
  split; [|vm_compute; reflexivity]. apply Words_option; [intros (X & _); apply X; left; reflexivity|]. apply Words_word; [split; [|split]; intros [X|X]; discriminate|constructor].
Qed.

Print Assumptions C153_best_partial.
Print Assumptions C153_gone_refuted.
Print Assumptions C153_back.
Print Assumptions C153_list_partial.
Print Assumptions C153_option_alias_refuted.
Print Assumptions C153_clean.
Print Assumptions C153_visited.
Print Assumptions C154_names.
Print Assumptions C154_others.
Print Assumptions C154_jump_partial.
Print Assumptions C154_subcommand_refuted.
Print Assumptions C154_listed.
Print Assumptions C154_once.
Print Assumptions C154_relative_refuted.
