(** Bulk renaming loses no file (C40). *)
From Verif Require Import Base Dmv_Model Dmv_Spec.

(** ** Globs *)
Fixpoint each (m : str -> option bool) (t : str) : option bool :=
  match m t with
  | None => None
  | Some true => Some true
  | Some false => match t with [] => Some false | c :: t' => if utf8_len c =? 1 then each m t' else None end
  end.
Lemma glob_star r rest text : glob_match (chr "*" :: r :: rest) text = each (glob_match (r :: rest)) text.
Proof.
  change (glob_match (chr "*" :: r :: rest) text) with
    ((fix each (t : str) : option bool :=
               match glob_match (r :: rest) t with
               | None => None
               | Some true => Some true
               | Some false => match t with [] => Some false | c :: t' => if utf8_len c =? 1 then each t' else None end
               end) text).
  generalize (glob_match (r :: rest)). intros m. induction text as [|c t IH]; [reflexivity|]. cbn [each]. rewrite <- IH. reflexivity.
Qed.
Lemma glob_other p rest text : p <> chr "*" -> glob_match (p :: rest) text =
  match text with [] => Some false | c :: t => if (p =? chr "?")%N then glob_match rest t else if (c =? p)%N then glob_match rest t else Some false end.
Proof. intros H. cbn [glob_match]. destruct (N.eqb_spec p (chr "*")); [contradiction|reflexivity]. Qed.
Lemma each_exact m (Q : str -> Prop) t b : (forall u c, m u = Some c -> (c = true <-> Q u)) -> each m t = Some b ->
  (b = true <-> exists x u, t = x ++ u /\ Q u).
Proof.
  intros M. induction t as [|c t IH]; cbn [each]; intros H.
  - destruct (m []) as [[|]|] eqn:E; try discriminate; injection H as <-; apply M in E.
    + split; [|reflexivity]. intros _. exists [], []. split; [reflexivity|apply E; reflexivity].
    + split; [discriminate|]. intros (x & u & A & B). symmetry in A. apply app_eq_nil in A. destruct A as [-> ->]. apply E, B.
  - destruct (m (c :: t)) as [[|]|] eqn:E; try discriminate; apply M in E.
    + injection H as <-. split; [|reflexivity]. intros _. exists [], (c :: t). split; [reflexivity|apply E; reflexivity].
    + destruct (utf8_len c =? 1); [|discriminate]. rewrite (IH H). split.
      * intros (x & u & -> & B). exists (c :: x), u. split; [reflexivity|exact B].
      * intros (x & u & A & B). destruct x as [|d x]; cbn in A; [subst u; apply E in B; discriminate|]. exists x, u. split; [congruence|exact B].
Qed.
Lemma each_none m t : (forall x u, t = x ++ u -> m u <> None) -> Forall (fun c => (c < 128)%N) t -> each m t <> None.
Proof.
  induction t as [|c t IH]; intros M F; cbn [each].
  - destruct (m []) as [[|]|] eqn:E; try discriminate. exfalso. exact (M [] [] eq_refl E).
  - inversion F; subst. destruct (m (c :: t)) as [[|]|] eqn:E; [discriminate| |exfalso; exact (M [] (c :: t) eq_refl E)].
    replace (utf8_len c =? 1) with true; [apply IH; [|assumption]|].
    + intros x u ->. apply (M (c :: x)). reflexivity.
    + unfold utf8_len. destruct (N.ltb_spec c 128); [reflexivity|lia].
Qed.
Lemma gm_star_inv p s : glob_matches (chr "*" :: p) s <-> exists x u, s = x ++ u /\ glob_matches p u.
Proof.
  split.
  - intros H. inversion H; subst; [exists x, s0; split; [reflexivity|assumption]|congruence].
  - intros (x & u & -> & H). constructor. exact H.
Qed.
(** Whenever the search comes to an answer, it is the answer of the glob. *)
Theorem C40_glob_exact : forall pat text b, glob_match pat text = Some b -> (b = true <-> glob_matches pat text).
Proof.
  induction pat as [|p pat IH]; intros text b H.
  - cbn in H. injection H as <-. destruct text; split; try discriminate; try reflexivity; [constructor|intros X; inversion X].
  - destruct (N.eqb_spec p (chr "*")) as [->|N].
    + rewrite gm_star_inv. destruct pat as [|r pat].
      * cbn in H. injection H as <-. split; [|reflexivity]. intros _. exists text, []. rewrite app_nil_r. split; [reflexivity|constructor].
      * rewrite glob_star in H. exact (each_exact _ _ _ _ IH H).
    + rewrite glob_other in H by exact N. destruct text as [|c t].
      * injection H as <-. split; [discriminate|]. intros X. inversion X; congruence.
      * destruct (N.eqb_spec p (chr "?")) as [->|Q].
        -- apply IH in H. rewrite H. split; [constructor; assumption|]. intros X. inversion X; [assumption|congruence].
        -- destruct (N.eqb_spec c p) as [->|D].
           ++ apply IH in H. rewrite H. split; [constructor; assumption|]. intros X. inversion X; congruence.
           ++ injection H as <-. split; [discriminate|]. intros X. inversion X; congruence.
Qed.
(** Among names of ASCII characters the search always comes to an answer. *)
Theorem C40_glob_ascii : forall pat text, Forall (fun c => (c < 128)%N) text -> glob_match pat text <> None.
Proof.
  induction pat as [|p pat IH]; intros text F; [discriminate|]. destruct (N.eqb_spec p (chr "*")) as [->|N].
  - destruct pat as [|r pat]; [discriminate|]. rewrite glob_star. apply each_none; [|exact F]. intros x u ->. apply IH. apply Forall_app in F. apply F.
  - rewrite glob_other by exact N. destruct text as [|c t]; [discriminate|]. inversion F; subst. destruct (p =? chr "?")%N; [apply IH; assumption|]. destruct (c =? p)%N; [apply IH; assumption|discriminate].
Qed.
(** One file whose name starts with a longer character stops the command in any directory. *)
Theorem C40_other_names_crash_refuted : forall class allowed (rest glob : str) ps r dry force (d : dir) below (name : str) c t,
  parse_pattern class (chr "*" :: rest) = Some (chr "*" :: glob, ps) -> glob <> [] -> starts_with recursive (chr "*" :: glob) = false ->
  In name (map fst d) -> name = c :: t -> (128 <= c)%N -> ~ glob_matches glob name ->
  dmv allowed class (chr "*" :: rest) r dry force d below = Crash.
Proof.
  intros class allowed rest glob ps r dry force d below name c t P NG R IN E C NM. unfold dmv. rewrite P. unfold find. rewrite R.
  replace (find_in (chr "*" :: glob) (map fst d)) with (@None (list str)); [reflexivity|]. symmetry.
  assert (G : glob_match (chr "*" :: glob) name = None).
  { destruct glob as [|g glob]; [congruence|]. rewrite glob_star, E. cbn [each]. rewrite <- E.
    destruct (glob_match (g :: glob) name) as [[|]|] eqn:X; [exfalso; apply NM, (C40_glob_exact _ _ _ X); reflexivity| |reflexivity].
    replace (utf8_len c =? 1) with false; [reflexivity|]. unfold utf8_len. destruct (N.ltb_spec c 128); [lia|]. destruct (c <? 2048)%N; [reflexivity|]. destruct (c <? 65536)%N; reflexivity. }
  clear - G IN. induction (map fst d) as [|n l IH]; [destruct IN|]. cbn [find_in]. destruct IN as [->|IN]; [rewrite G; reflexivity|]. rewrite (IH IN). destruct (glob_match _ n); reflexivity.
Qed.

(** ** Captures *)
Lemma runs_exact p (s x u : str) : In (x, u) (runs p s) <-> s = x ++ u /\ Forall (fun c => p c = true) x.
Proof.
  revert x u. induction s as [|c s IH]; intros x u; cbn [runs].
  - split.
    + intros [[= <- <-]|[]]. split; [reflexivity|constructor].
    + intros [A _]. symmetry in A. apply app_eq_nil in A. destruct A as [-> ->]. left. reflexivity.
  - destruct (p c) eqn:E.
    + rewrite in_app_iff, in_map_iff. split.
      * intros [((y & v) & A & B)|[A|[]]].
        -- cbn in A. apply IH in B. destruct B as [-> F]. assert (x = c :: y /\ u = v) as [-> ->] by (split; congruence). split; [reflexivity|constructor; assumption].
        -- assert (x = [] /\ u = c :: s) as [-> ->] by (split; congruence). split; [reflexivity|constructor].
      * intros [A F]. destruct x as [|d x]; cbn in A; [right; left; rewrite A; reflexivity|]. left. exists (x, u). inversion F; subst. split; [cbn; injection A as -> _; reflexivity|]. apply IH. split; [injection A as _ A; exact A|assumption].
    + split.
      * intros [A|[]]. assert (x = [] /\ u = c :: s) as [-> ->] by (split; congruence). split; [reflexivity|constructor].
      * intros [A F]. destruct x as [|d x]; cbn in A; [left; rewrite A; reflexivity|]. inversion F; subst. congruence.
Qed.
Lemma items_exact l : forall (s x u : str), In (x, u) (items_match l s) <-> s = x ++ u /\ takes l x.
Proof.
  induction l as [|[p|p] l IH]; intros s x u; cbn [items_match].
  - split.
    + intros [A|[]]. assert (x = [] /\ u = s) as [-> ->] by (split; congruence). split; [reflexivity|constructor].
    + intros [A T]. inversion T; subst. left. reflexivity.
  - destruct s as [|c t].
    + split; [intros []|]. intros [A T]. inversion T; subst; discriminate.
    + destruct (p c) eqn:E.
      * rewrite in_map_iff. split.
        -- intros ((y & v) & A & B). cbn in A. apply IH in B. destruct B as [-> T]. assert (x = c :: y /\ u = v) as [-> ->] by (split; congruence). split; [reflexivity|constructor; assumption].
        -- intros [A T]. inversion T; subst. exists (s, u). cbn in A. injection A as -> ->. split; [reflexivity|]. apply IH. split; [reflexivity|assumption].
      * split; [intros []|]. intros [A T]. inversion T; subst. cbn in A. congruence.
  - rewrite in_flat_map. split.
    + intros ((y & v) & A & B). apply runs_exact in A. destruct A as [-> F]. apply in_map_iff in B. destruct B as ((z & w) & B & D). cbn in B, D. apply IH in D. destruct D as [-> T].
      assert (x = y ++ z /\ u = w) as [-> ->] by (split; congruence). split; [apply app_assoc|constructor; assumption].
    + intros [A T]. inversion T; subst. exists (x0, s0 ++ u). split; [apply runs_exact; split; [symmetry; apply app_assoc|assumption]|]. apply in_map_iff. exists (s0, u). split; [reflexivity|]. apply IH. split; [reflexivity|assumption].
Qed.
Lemma parts_exact l : forall (s : str) (caps : list str), In caps (parts_match l s) <-> divides l s caps.
Proof.
  induction l as [|[i|g] l IH]; intros s caps; cbn [parts_match].
  - split.
    + destruct s; [|intros []]. intros [<-|[]]. constructor.
    + intros D. inversion D; subst. left. reflexivity.
  - rewrite in_flat_map. split.
    + intros ((x & u) & A & B). apply items_exact in A. destruct A as [-> T]. constructor; [exact T|apply IH, B].
    + intros D. inversion D; subst. exists (x, s0). split; [apply items_exact; split; [reflexivity|assumption]|apply IH; assumption].
  - rewrite in_flat_map. split.
    + intros ((x & u) & A & B). apply items_exact in A. destruct A as [-> T]. apply in_map_iff in B. destruct B as (cs & <- & B). constructor; [exact T|apply IH, B].
    + intros D. inversion D; subst. exists (x, s0). split; [apply items_exact; split; [reflexivity|assumption]|]. apply in_map_iff. exists caps0. split; [reflexivity|apply IH; assumption].
Qed.
(** The captured texts are a division of the whole name over the pattern, and there is an
    answer whenever there is a division. *)
Theorem C40_captures_exact : forall ps name,
  match captures ps name with Some caps => divides ps name caps | None => forall caps, ~ divides ps name caps end.
Proof.
  intros ps name. unfold captures. pose proof (parts_exact ps name) as P. destruct (parts_match ps name) as [|caps l]; cbn [hd_error].
  - intros caps D. apply P in D. exact D.
  - apply P. left. reflexivity.
Qed.

(** ** Replacements *)
Lemma replace_skip from to a s : replace_from from to (length a) (a ++ s) = replace_from from to 0 s.
Proof. induction a as [|c a IH]; [reflexivity|]. cbn [length app replace_from]. exact IH. Qed.
Lemma replace_pass from to d r a s : from = d :: r -> ~ In d a -> replace from to (a ++ s) = a ++ replace from to s.
Proof.
  intros -> N. unfold replace. induction a as [|c a IH]; [reflexivity|]. cbn [app replace_from starts_with].
  destruct (N.eqb_spec d c) as [->|D]; [exfalso; apply N; left; reflexivity|]. cbn [andb]. rewrite IH; [reflexivity|]. intros I. apply N. right. exact I.
Qed.
Lemma replace_hit from to s : from <> [] -> replace from to (from ++ s) = to ++ replace from to s.
Proof.
  intros N. destruct from as [|d r]; [congruence|]. unfold replace. cbn [app replace_from].
  replace (starts_with (d :: r) (d :: r ++ s)) with true by (symmetry; apply starts_with_iff; exists s; reflexivity). f_equal. cbn [length]. replace (S (length r) - 1) with (length r) by lia. apply replace_skip.
Qed.
Lemma replace_nil from to : replace from to [] = []. Proof. reflexivity. Qed.
Lemma replace_absent from to d r s : from = d :: r -> ~ In d s -> replace from to s = s.
Proof. intros E N. rewrite <- (app_nil_r s) at 1. rewrite (replace_pass from to d r s [] E N), replace_nil. apply app_nil_r. Qed.
Lemma show_digit i : i < 10 -> show i = [N.of_nat (48 + i)].
Proof. intros H. unfold show. cbn [show_fuel]. destruct (Nat.ltb_spec i 10); [reflexivity|lia]. Qed.
(** what the text looks like when the references below [i] are replaced *)
Definition partly (i : nat) (name : str) (caps : list str) (p : piece) : str :=
  match p with Text s => s | Ref j => if j <? i then nth j (name :: caps) [] else written p end.
Lemma replace_piece i name caps (x : str) l : i < 10 -> nth i (name :: caps) [] = x -> Forall (fun c => no_dollar c) (name :: caps) ->
  Forall (fun p => match p with Text s => no_dollar s | Ref j => j < 10 end) l ->
  replace (placeholder i) x (flat_map (partly i name caps) l) = flat_map (partly (S i) name caps) l.
Proof.
  intros I X D F. unfold placeholder. rewrite show_digit by exact I. induction F as [|p l P F IH]; [reflexivity|]. cbn [flat_map].
  assert (ND : forall j, no_dollar (nth j (name :: caps) [])).
  { intros j. destruct (nth_in_or_default j (name :: caps) []) as [H|H]; [rewrite Forall_forall in D; apply D, H|rewrite H; intros []]. }
  destruct p as [s|j].
  - cbn [partly]. rewrite (replace_pass _ _ (chr "$") [N.of_nat (48 + i)] s _ eq_refl P), IH. reflexivity.
  - unfold partly at 1 3. destruct (Nat.ltb_spec j i) as [L|L].
    + destruct (Nat.ltb_spec j (S i)); [|lia]. rewrite (replace_pass _ _ (chr "$") [N.of_nat (48 + i)] _ _ eq_refl (ND j)), IH. reflexivity.
    + destruct (Nat.eq_dec j i) as [->|N].
      * destruct (Nat.ltb_spec i (S i)); [|lia]. cbn [written]. change (chr "$" :: [N.of_nat (48 + i)]) with ([chr "$"; N.of_nat (48 + i)] : str). rewrite replace_hit by discriminate. rewrite IH. rewrite <- X. reflexivity.
      * destruct (Nat.ltb_spec j (S i)); [lia|]. cbn [written].
        assert (E : forall t, replace [chr "$"; N.of_nat (48 + i)] x ((chr "$" :: [N.of_nat (48 + j)]) ++ t) = (chr "$" :: [N.of_nat (48 + j)]) ++ replace [chr "$"; N.of_nat (48 + i)] x t).
        { intros t. unfold replace. cbn [app replace_from starts_with]. rewrite N.eqb_refl. destruct (N.eqb_spec (N.of_nat (48 + i)) (N.of_nat (48 + j))); [lia|]. cbn [andb].
          destruct (N.eqb_spec (chr "$") (N.of_nat (48 + j))) as [E|_]; [|reflexivity]. unfold chr in E. cbn in E. lia. }
        rewrite E, IH. reflexivity.
Qed.
Lemma flat_map_ext_in2 {A B} (f g : A -> list B) l : (forall x, In x l -> f x = g x) -> flat_map f l = flat_map g l.
Proof. intros H. induction l as [|a l IH]; [reflexivity|]. cbn. rewrite H by (left; reflexivity). rewrite IH; [reflexivity|]. intros x I. apply H. right. exact I. Qed.
(** With fewer than ten groups, and no dollar sign in the name, the replacement means what the
    help says: every reference stands for its group. *)
Theorem C40_replacement_partial : forall name caps tmpl, length caps < 10 -> no_dollar name -> Forall no_dollar caps -> Forall (proper (length caps)) tmpl ->
  new_name (flat_map written tmpl) name caps = flat_map (means name caps) tmpl.
Proof.
  intros name caps tmpl L DN DC FT.
  assert (F10 : Forall (fun p => match p with Text s => no_dollar s | Ref j => j < 10 end) tmpl) by (eapply Forall_impl; [|exact FT]; intros [s|i] H; [exact H|cbn in H; lia]).
  assert (DD : Forall (fun c => no_dollar c) (name :: caps)) by (constructor; assumption).
  assert (S0 : replace (lit "$0") name (flat_map written tmpl) = flat_map (partly 1 name caps) tmpl).
  { change (lit "$0") with (placeholder 0). rewrite <- (replace_piece 0 name caps name tmpl); [|lia|reflexivity|exact DD|exact F10]. f_equal. apply flat_map_ext_in2. intros [s|j] _; reflexivity. }
  unfold new_name. rewrite S0.
  assert (G : forall rest done, caps = done ++ rest -> substitute (S (length done)) rest (flat_map (partly (S (length done)) name caps) tmpl) = flat_map (partly (S (length caps)) name caps) tmpl).
  { induction rest as [|c rest IH]; intros done E.
    - cbn [substitute]. rewrite app_nil_r in E. rewrite E. reflexivity.
    - cbn [substitute]. rewrite (replace_piece (S (length done)) name caps c tmpl).
      + specialize (IH (done ++ [c])). rewrite app_length, Nat.add_1_r in IH. apply IH. rewrite E, <- app_assoc. reflexivity.
      + rewrite E, app_length in L. cbn in L. lia.
      + rewrite E. cbn [nth]. rewrite app_nth2 by lia. rewrite Nat.sub_diag. reflexivity.
      + exact DD.
      + exact F10. }
  etransitivity; [exact (G caps [] eq_refl)|]. apply flat_map_ext_in2. intros [s|j] I; [reflexivity|]. rewrite Forall_forall in FT. specialize (FT _ I). cbn in FT. cbn [partly means]. destruct (Nat.ltb_spec j (S (length caps))); [reflexivity|lia].
Qed.
Lemma substitute_absent i caps s : no_dollar s -> substitute i caps s = s.
Proof. intros N. revert i. induction caps as [|c r IH]; intros i; [reflexivity|]. cbn [substitute]. rewrite (replace_absent _ _ (chr "$") (show i) s eq_refl N). apply IH. Qed.
(** The tenth group cannot be referred to. *)
Theorem C40_tenth_group_refuted : forall name c1 caps, no_dollar c1 -> new_name (lit "$10") name (c1 :: caps) = c1 ++ lit "0".
Proof.
  intros name c1 caps D. unfold new_name. change (replace (lit "$0") name (lit "$10")) with (lit "$10"). cbn [substitute].
  replace (replace (placeholder 1) c1 (lit "$10")) with (c1 ++ lit "0"); [|change (lit "$10") with (placeholder 1 ++ lit "0"); rewrite replace_hit by discriminate; reflexivity].
  apply substitute_absent. intros I. apply in_app_iff in I. destruct I as [I|[I|[]]]; [exact (D I)|discriminate].
Qed.
(** Text captured from a name is taken for a reference. *)
Theorem C40_dollar_in_name_refuted : forall name (x y c2 : str), no_dollar x -> no_dollar y -> no_dollar c2 ->
  new_name (lit "$1") name [x ++ lit "$2" ++ y; c2] = x ++ c2 ++ y.
Proof.
  intros name x y c2 X Y C. unfold new_name. change (replace (lit "$0") name (lit "$1")) with (lit "$1"). cbn [substitute].
  assert (E : replace (placeholder 1) (x ++ lit "$2" ++ y) (lit "$1") = x ++ lit "$2" ++ y).
  { change (lit "$1") with (placeholder 1 ++ []). rewrite replace_hit by discriminate. rewrite replace_nil. exact (app_nil_r _). }
  rewrite E. rewrite (replace_pass (placeholder 2) c2 (chr "$") (show 2) x _ eq_refl X). f_equal. change (lit "$2") with (placeholder 2). rewrite replace_hit by discriminate. f_equal. apply (replace_absent _ _ (chr "$") (show 2) y eq_refl Y).
Qed.
(** A replacement without references is the new name as it stands: a star in it stays a star. *)
Theorem C40_star_kept_refuted : forall ps r name, no_dollar r -> generate ps r name = None \/ generate ps r name = Some r.
Proof.
  intros ps r name D. unfold generate. destruct (captures ps name) as [caps|]; [right|left; reflexivity]. f_equal. unfold new_name. change (lit "$0") with (chr "$" :: lit "0").
  rewrite (replace_absent _ _ (chr "$") (lit "0") r eq_refl D). apply substitute_absent, D.
Qed.

(** ** Renaming *)
Lemma lookup_none d n : lookup d n = None <-> ~ In n (map fst d).
Proof.
  induction d as [|[m e] d IH]; cbn [lookup map fst In]; [tauto|]. destruct (str_eqb_spec m n) as [->|N].
  - split; [discriminate|]. intros H. exfalso. apply H. left. reflexivity.
  - rewrite IH. tauto.
Qed.
Lemma move_absent d a b : a <> b -> ~ In b (map fst d) -> move d a b = map (fun ne => if str_eqb (fst ne) a then (b, snd ne) else ne) d.
Proof.
  intros N NI. unfold move. destruct (str_eqb_spec a b); [contradiction|]. f_equal. induction d as [|[m e] d IH]; [reflexivity|]. cbn [filter fst].
  destruct (str_eqb_spec m b) as [->|M]; [exfalso; apply NI; left; reflexivity|]. cbn [negb]. f_equal. apply IH. intros I. apply NI. right. exact I.
Qed.
Definition swap_name (a b n : str) : str := if str_eqb n a then b else n.
Lemma move_names d a b : a <> b -> ~ In b (map fst d) -> map fst (move d a b) = map (swap_name a b) (map fst d).
Proof. intros N NI. rewrite move_absent by assumption. rewrite !map_map. apply map_ext. intros [m e]. unfold swap_name. cbn [fst]. destruct (str_eqb m a); reflexivity. Qed.
Lemma move_entries d a b : a <> b -> ~ In b (map fst d) -> map snd (move d a b) = map snd d.
Proof. intros N NI. rewrite move_absent by assumption. rewrite map_map. apply map_ext. intros [m e]. cbn [fst snd]. destruct (str_eqb m a); reflexivity. Qed.
Lemma move_lookup d a b n : a <> b -> ~ In b (map fst d) -> sound d ->
  lookup (move d a b) n = if str_eqb n b then lookup d a else if str_eqb n a then None else lookup d n.
Proof.
  intros N NI SD. rewrite move_absent by assumption. clear - N NI SD. induction d as [|[m e] d IH]; cbn [map fst snd lookup].
  - destruct (str_eqb n b); [reflexivity|]. destruct (str_eqb n a); reflexivity.
  - inversion SD as [|? ? M ND]; subst. assert (NB : ~ In b (map fst d)) by (intros I; apply NI; right; exact I). specialize (IH NB ND).
    destruct (str_eqb_spec m a) as [->|MA]; cbn [lookup].
    + destruct (str_eqb_spec n b) as [->|NB'].
      * rewrite str_eqb_refl. reflexivity.
      * destruct (str_eqb_spec b n); [congruence|]. rewrite IH. destruct (str_eqb_spec n a) as [->|NA]; [reflexivity|]. destruct (str_eqb_spec a n); [congruence|reflexivity].
    + destruct (str_eqb_spec m n) as [->|MN].
      * destruct (str_eqb_spec n b) as [->|NB']; [exfalso; apply NI; left; reflexivity|]. destruct (str_eqb_spec n a); [congruence|reflexivity].
      * rewrite IH. reflexivity.
Qed.
Lemma move_sound d a b : a <> b -> ~ In b (map fst d) -> sound d -> sound (move d a b).
Proof.
  intros N NI SD. unfold sound. rewrite move_names by assumption. unfold sound in SD. induction (map fst d) as [|m l IH]; [constructor|]. inversion SD; subst. cbn [map]. constructor.
  - intros I. apply in_map_iff in I. destruct I as (k & E & I). unfold swap_name in E. destruct (str_eqb_spec k a), (str_eqb_spec m a); subst; try congruence.
    + apply NI. left. reflexivity.
    + apply NI. right. exact I.
  - apply IH; [|assumption]. intros I. apply NI. right. exact I.
Qed.
Lemma renamed_nil d : renamed [] d d.
Proof. split; [intros a b []|]. split; reflexivity. Qed.
Section Perform.
Variable allowed : dir -> str -> str -> bool.
Lemma perform_renames ops : forall d k, sound d -> NoDup (map fst ops) -> NoDup (map snd ops) ->
  (forall a, In a (map fst ops) -> In a (map fst d)) -> (forall b, In b (map snd ops) -> ~ In b (map fst d)) ->
  exists done rest d', ops = done ++ rest /\ renamed done d d' /\
    ((rest = [] /\ perform allowed false d k ops = Renamed d' (k + length ops)) \/ (rest <> [] /\ perform allowed false d k ops = Stopped d')).
Proof.
  induction ops as [|[a b] ops IH]; intros d k SD NA NB IA IB.
  - exists [], [], d. split; [reflexivity|]. split; [apply renamed_nil|]. left. split; [reflexivity|]. cbn. rewrite Nat.add_0_r. reflexivity.
  - cbn [map fst snd] in *. inversion NA as [|? ? A1 A2]; subst. inversion NB as [|? ? B1 B2]; subst.
    assert (AD : In a (map fst d)) by (apply IA; left; reflexivity). assert (BD : ~ In b (map fst d)) by (apply IB; left; reflexivity).
    assert (AB : a <> b) by (intros ->; contradiction).
    cbn [perform]. destruct (lookup d a) as [e|] eqn:EL; [|apply lookup_none in EL; contradiction].
    destruct (allowed d a b).
    + destruct (IH (move d a b) (S k)) as (done & rest & d' & E & (R1 & R2 & R3) & O).
      * apply move_sound; assumption.
      * exact A2.
      * exact B2.
      * intros x I. rewrite move_names by assumption. apply in_map_iff. exists x. split; [|apply IA; right; exact I]. unfold swap_name. destruct (str_eqb_spec x a) as [->|]; [contradiction|reflexivity].
      * intros x I J. rewrite move_names in J by assumption. apply in_map_iff in J. destruct J as (y & E & J). unfold swap_name in E. destruct (str_eqb_spec y a); [subst x; contradiction|]. subst y. apply (IB x); [right; exact I|exact J].
      * exists ((a, b) :: done), rest, d'. split; [rewrite E; reflexivity|]. split.
        -- assert (DA : ~ In a (map fst done) /\ ~ In a (map snd done) /\ ~ In b (map fst done) /\ ~ In b (map snd done)).
           { assert (S1 : forall x, In x (map fst done) -> In x (map fst ops)) by (intros x I; rewrite E, map_app; apply in_app_iff; left; exact I).
             assert (S2 : forall x, In x (map snd done) -> In x (map snd ops)) by (intros x I; rewrite E, map_app; apply in_app_iff; left; exact I).
             split; [intros J; apply A1, S1, J|]. split; [intros J; apply (IB a); [right; apply S2, J|exact AD]|]. split; [intros J; apply BD, IA; right; apply S1, J|intros J; apply B1, S2, J]. }
           destruct DA as (DA1 & DA2 & DB1 & DB2). split; [|split].
           ++ intros x y [[= <- <-]|I].
              ** rewrite (R2 b DB1 DB2), (R2 a DA1 DA2), !move_lookup by assumption. rewrite str_eqb_refl. destruct (str_eqb_spec a b); [contradiction|]. rewrite str_eqb_refl. split; reflexivity.
              ** destruct (R1 x y I) as [P Q]. split; [|exact Q]. rewrite P, move_lookup by assumption.
                 destruct (str_eqb_spec x b) as [->|]; [exfalso; apply DB1; exact (in_map fst _ _ I)|]. destruct (str_eqb_spec x a) as [->|]; [exfalso; apply DA1; exact (in_map fst _ _ I)|reflexivity].
           ++ intros n N1 N2. cbn [map fst snd] in N1, N2. rewrite (R2 n (fun I => N1 (or_intror I)) (fun I => N2 (or_intror I))). rewrite move_lookup by assumption.
              destruct (str_eqb_spec n b) as [->|]; [exfalso; apply N2; left; reflexivity|]. destruct (str_eqb_spec n a) as [->|]; [exfalso; apply N1; left; reflexivity|reflexivity].
           ++ rewrite R3. apply move_entries; assumption.
        -- destruct O as [[O1 O2]|[O1 O2]]; [left|right]; (split; [exact O1|]); rewrite O2; [|reflexivity]. cbn [length]. f_equal. lia.
    + exists [], ((a, b) :: ops), d. split; [reflexivity|]. split; [apply renamed_nil|]. right. split; [discriminate|reflexivity].
Qed.
Lemma perform_dry ops : forall d k, perform allowed true d k ops = Renamed d (k + length ops).
Proof. induction ops as [|[a b] ops IH]; intros d k; cbn [perform length]; [rewrite Nat.add_0_r; reflexivity|]. rewrite IH. f_equal. lia. Qed.
End Perform.
Lemma no_conflict_targets d ops : forall seen, no_conflict d false seen ops = true ->
  NoDup (map snd ops) /\ (forall b, In b (map snd ops) -> ~ In b seen /\ exists_at d b = false).
Proof.
  induction ops as [|[a b] ops IH]; intros seen H; cbn [no_conflict map snd] in *; [split; [constructor|intros b []]|].
  rewrite !andb_true_iff, !negb_true_iff in H. destruct H as [[E S] R]. cbn in E. rewrite andb_true_r in E. apply mem_str_false in S. destruct (IH _ R) as [N X]. split.
  - constructor; [|exact N]. intros I. destruct (X _ I) as [Q _]. apply Q. left. reflexivity.
  - intros c [<-|I]; [split; assumption|]. destruct (X c I) as [Q P]. split; [|exact P]. intros J. apply Q. right. exact J.
Qed.
Lemma find_in_sub glob names l : find_in glob names = Some l -> l = filter (fun n => match glob_match glob n with Some b => b | None => false end) names.
Proof.
  revert l. induction names as [|n r IH]; intros l H; cbn [find_in] in H; [injection H as <-; reflexivity|]. cbn [filter]. destruct (glob_match glob n) as [b|]; [|discriminate]. destruct (find_in glob r) as [l'|]; [|discriminate]. injection H as <-. rewrite (IH l' eq_refl). destruct b; reflexivity.
Qed.
Lemma plan_sources ps r l : map fst (plan ps r l) = filter (fun n => match generate ps r n with Some _ => true | None => false end) l.
Proof. induction l as [|n l IH]; [reflexivity|]. unfold plan in *. cbn [flat_map filter]. destruct (generate ps r n); cbn [app map fst]; rewrite IH; reflexivity. Qed.
(** which files are to get which names *)
Definition wanted (class : str -> option (char -> bool)) (pattern replacement : str) (d : dir) (a b : str) : Prop :=
  exists glob ps caps, parse_pattern class pattern = Some (glob, ps) /\ In a (map fst d) /\ glob_matches glob a /\ captures ps a = Some caps /\ b = new_name replacement a caps.
Lemma wanted_plan class pattern r d glob ps l a b : parse_pattern class pattern = Some (glob, ps) -> find_in glob (map fst d) = Some l ->
  (In (a, b) (plan ps r l) <-> wanted class pattern r d a b).
Proof.
  intros P F. pose proof (find_in_sub _ _ _ F) as L. unfold plan. rewrite in_flat_map. unfold generate, wanted.
  assert (NC : forall n, In n (map fst d) -> exists c, glob_match glob n = Some c).
  { clear - F. revert l F. induction (map fst d) as [|m r IH]; intros l F n I; [destruct I|]. cbn [find_in] in F. destruct (glob_match glob m) as [c|] eqn:E; [|discriminate]. destruct (find_in glob r) as [l'|]; [|discriminate]. destruct I as [<-|I]; [exists c; exact E|exact (IH l' eq_refl n I)]. }
  split.
  - intros (n & I & J). rewrite L in I. apply filter_In in I. destruct I as [I G]. destruct (captures ps n) as [caps|] eqn:C; [|destruct J]. destruct J as [J|[]]. assert (a = n /\ b = new_name r n caps) as [-> ->] by (split; congruence).
    exists glob, ps, caps. split; [exact P|]. split; [exact I|]. split; [|split; [exact C|reflexivity]]. destruct (glob_match glob n) as [[|]|] eqn:E; try discriminate. apply (C40_glob_exact _ _ _ E). reflexivity.
  - intros (g & q & caps & P' & I & G & C & ->). rewrite P in P'. assert (g = glob /\ q = ps) as [-> ->] by (split; congruence). exists a. split.
    + rewrite L. apply filter_In. split; [exact I|]. destruct (NC a I) as [c E]. rewrite E. apply (C40_glob_exact _ _ _ E), G.
    + rewrite C. left. reflexivity.
Qed.
(** Without force, and unless a new name is taken by a link to nothing: whatever happens, the
    files of the directory are those it had.  When all went well every matching file is under
    its new name; when a rename fails, this holds of the files before it and the rest is as it
    was. *)
Theorem C40_no_file_lost_partial : forall allowed class pattern r (d : dir) below out,
  sound d -> dmv allowed class pattern r false false d below = out ->
  (forall glob ps, parse_pattern class pattern = Some (glob, ps) -> starts_with recursive glob = false) ->
  (forall a b e, wanted class pattern r d a b -> lookup d b = Some e -> dangling e = false) ->
  match out with
  | Renamed d' n => exists ops, (forall a b, In (a, b) ops <-> wanted class pattern r d a b) /\ NoDup (map fst ops) /\ NoDup (map snd ops) /\ renamed ops d d' /\ n = length ops
  | Stopped d' => exists done, (forall a b, In (a, b) done -> wanted class pattern r d a b) /\ renamed done d d'
  | Refused | Crash | Elsewhere => True
  end.
Proof.
  intros allowed class pattern r d below out SD H NR ND. unfold dmv in H. destruct (parse_pattern class pattern) as [[glob ps]|] eqn:P; [|subst out; exact I].
  unfold find in H. rewrite (NR _ _ eq_refl) in H. destruct (find_in glob (map fst d)) as [l|] eqn:F; [|subst out; exact I]. cbv zeta in H.
  destruct (forallb _ _); [|subst out; exact I]. destruct (no_conflict d false [] (plan ps r l)) eqn:NC; [|subst out; exact I].
  assert (W : forall a b, In (a, b) (plan ps r l) <-> wanted class pattern r d a b) by (intros a b; apply (wanted_plan class pattern r d glob ps l a b P F)).
  destruct (no_conflict_targets _ _ _ NC) as [NB TX].
  assert (NA : NoDup (map fst (plan ps r l))). { rewrite plan_sources. apply NoDup_filter. rewrite (find_in_sub _ _ _ F). apply NoDup_filter. exact SD. }
  destruct (perform_renames allowed (plan ps r l) d 0 SD NA NB) as (done & rest & d' & E & R & O).
  - intros a I. apply in_map_iff in I. destruct I as ([a' b] & E & I). cbn in E. subst a'. apply W in I. destruct I as (? & ? & ? & _ & I & _). exact I.
  - intros b I J. destruct (TX b I) as [_ X]. apply in_map_iff in I. destruct I as ([a b'] & E & I). cbn in E. subst b'. apply W in I. unfold exists_at in X. destruct (lookup d b) as [e|] eqn:EL; [|apply lookup_none in EL; contradiction].
    rewrite (ND a b e I EL) in X. discriminate.
  - destruct O as [[-> O]|[NE O]]; rewrite O in H; subst out.
    + exists (plan ps r l). rewrite app_nil_r in E. rewrite <- E in R. split; [exact W|]. split; [exact NA|]. split; [exact NB|]. split; [exact R|reflexivity].
    + exists done. split; [|exact R]. intros a b I. apply W. rewrite E. apply in_app_iff. left. exact I.
Qed.
(** A dry run changes nothing and counts the files a real run would rename. *)
Theorem C40_dry_run : forall allowed class pattern r force (d : dir) below d' n, dmv allowed class pattern r true force d below = Renamed d' n -> d' = d /\
  (forall d2 m, dmv (fun _ _ _ => true) class pattern r false false d below = Renamed d2 m -> m = n).
Proof.
  intros allowed class pattern r force d below d' n H. unfold dmv in *. destruct (parse_pattern class pattern) as [[glob ps]|]; [|discriminate]. destruct (find glob (map fst d) below) as [l|]; [|discriminate]. cbv zeta in *.
  destruct (forallb _ _); [|discriminate]. destruct (no_conflict d force [] (plan ps r l)); [|discriminate]. rewrite perform_dry in H. injection H as <- <-. split; [reflexivity|]. intros d2 m H. destruct (no_conflict d false [] (plan ps r l)); [|discriminate].
  assert (G : forall ops d k d2 m, perform (fun _ _ _ => true) false d k ops = Renamed d2 m -> m = k + length ops).
  { clear. induction ops as [|[a b] ops IH]; intros d k d2 m H; cbn [perform length] in *; [injection H as _ <-; lia|]. destruct (lookup d a); [|discriminate]. apply IH in H. lia. }
  exact (G _ _ _ _ _ H).
Qed.
(** Two files for one name, or a file in the way: nothing is renamed. *)
Theorem C40_conflict_refused : forall allowed class pattern r dry (d : dir) below a1 a2 b,
  (forall glob ps, parse_pattern class pattern = Some (glob, ps) -> starts_with recursive glob = false) ->
  (wanted class pattern r d a1 b /\ wanted class pattern r d a2 b /\ a1 <> a2) \/ (wanted class pattern r d a1 b /\ exists e, lookup d b = Some e /\ dangling e = false) ->
  let out := dmv allowed class pattern r dry false d below in out = Refused \/ out = Crash \/ out = Elsewhere.
Proof.
  intros allowed class pattern r dry d below a1 a2 b NR H out. unfold out, dmv. destruct (parse_pattern class pattern) as [[glob ps]|] eqn:P; [|left; reflexivity].
  unfold find. rewrite (NR _ _ eq_refl). destruct (find_in glob (map fst d)) as [l|] eqn:F; [|right; left; reflexivity]. cbv zeta. destruct (forallb _ _); [|right; right; reflexivity].
  destruct (no_conflict d false [] (plan ps r l)) eqn:NC; [exfalso|left; reflexivity]. destruct (no_conflict_targets _ _ _ NC) as [NB TX].
  assert (W : forall a b, wanted class pattern r d a b -> In (a, b) (plan ps r l)) by (intros x y; apply (wanted_plan class pattern r d glob ps l x y P F)).
  destruct H as [(W1 & W2 & N)|(W1 & e & EL & DE)].
  - apply W in W1, W2. clear - W1 W2 N NB. induction (plan ps r l) as [|[x y] ops IH]; [destruct W1|]. cbn [map snd] in NB. inversion NB as [|? ? B1 B2]; subst. destruct W1 as [W1|W1], W2 as [W2|W2].
    + congruence.
    + injection W1 as -> ->. apply B1. exact (in_map snd _ _ W2).
    + injection W2 as -> ->. apply B1. exact (in_map snd _ _ W1).
    + exact (IH W1 W2 B2).
  - apply W in W1. destruct (TX b (in_map snd _ _ W1)) as [_ X]. unfold exists_at in X. rewrite EL, DE in X. discriminate.
Qed.

(** ** Patterns *)
Lemma plan_none ps r l : (forall n caps, In n l -> ~ divides ps n caps) -> plan ps r l = [].
Proof.
  intros H. unfold plan. induction l as [|n l IH]; [reflexivity|]. cbn [flat_map]. unfold generate at 1. pose proof (C40_captures_exact ps n) as C. destruct (captures ps n) as [caps|].
  - exfalso. apply (H n caps); [left; reflexivity|exact C].
  - cbn [app]. apply IH. intros m caps I. apply H. right. exact I.
Qed.
Lemma find_in_incl glob names l n : find_in glob names = Some l -> In n l -> In n names /\ glob_matches glob n.
Proof.
  intros F I. rewrite (find_in_sub _ _ _ F) in I. apply filter_In in I. destruct I as [I G]. split; [exact I|]. destruct (glob_match glob n) as [[|]|] eqn:E; try discriminate. apply (C40_glob_exact _ _ _ E). reflexivity.
Qed.
(** The help lists [**] for any directory below: a pattern that starts so renames nothing. *)
Theorem C40_directories_below_refuted : forall allowed class rest r dry force (d : dir) below,
  (forall n, In n (map fst d ++ below) -> ~ In (chr "/") n) ->
  let out := dmv allowed class (lit "**/" ++ rest) r dry force d below in out = Renamed d 0 \/ out = Refused \/ out = Crash.
Proof.
  intros allowed class rest r dry force d below NS out. unfold out, dmv, parse_pattern.
  change (parse class MTop (lit "**/" ++ rest)) with (add (lit "**") (Some (Out (Many not_newline))) (add [chr "/"] (Some (Out (One (is_c (chr "/"))))) (parse class MTop rest))).
  destruct (parse class MTop rest) as [[gl ps]|]; [|right; left; reflexivity]. cbn [add]. destruct (find _ _ _) as [l|] eqn:F; [|right; right; reflexivity]. left.
  assert (P : plan (Out (Many not_newline) :: Out (One (is_c (chr "/"))) :: ps) r l = []).
  { apply plan_none. intros n caps I D.
    assert (IN : In n (map fst d ++ below)).
    { unfold find in F. destruct (starts_with _ _) in F; [exact (proj1 (find_in_incl _ _ _ _ F I))|]. apply in_app_iff. left. exact (proj1 (find_in_incl _ _ _ _ F I)). }
    apply (NS n IN). inversion D as [|? ? x s ? T D2|]; subst. inversion D2 as [|? ? y t ? T2 D3|]; subst. inversion T2 as [|? c ? ? E T3|]; subst. apply in_app_iff. right. cbn. left. unfold is_c in E. apply N.eqb_eq in E. exact E. }
  rewrite P. reflexivity.
Qed.
Lemma parse_class class body s : forall acc, ~ In (chr "]") body ->
  parse class (MClass acc) (body ++ chr "]" :: s) = add (lit "[" ++ rev acc ++ body ++ lit "]") (match class (rev acc ++ body) with Some p => Some (Out (One p)) | None => None end) (parse class MTop s).
Proof.
  induction body as [|c body IH]; intros acc N; cbn [app].
  - change (parse class (MClass acc) (chr "]" :: s)) with (add (lit "[" ++ rev acc ++ lit "]") (match class (rev acc) with Some p => Some (Out (One p)) | None => None end) (parse class MTop s)). rewrite app_nil_r. reflexivity.
  - cbn [parse]. destruct (N.eqb_spec c (chr "]")) as [->|D]; [exfalso; apply N; left; reflexivity|]. rewrite IH by (intros I; apply N; right; exact I). cbn [rev]. rewrite <- !app_assoc. reflexivity.
Qed.
(** The help lists sets of characters in brackets: a pattern that starts with one renames
    nothing, unless the set contains the opening bracket. *)
Theorem C40_character_set_refuted : forall allowed class body p rest r dry force (d : dir) below,
  ~ In (chr "]") body -> class body = Some p -> p (chr "[") = false ->
  let out := dmv allowed class (lit "[" ++ body ++ lit "]" ++ rest) r dry force d below in out = Renamed d 0 \/ out = Refused \/ out = Crash.
Proof.
  intros allowed class body p rest r dry force d below NB CB PB out. unfold out, dmv, parse_pattern.
  replace (parse class MTop (lit "[" ++ body ++ lit "]" ++ rest)) with (add (lit "[" ++ body ++ lit "]") (Some (Out (One p))) (parse class MTop rest)); [|symmetry; etransitivity; [exact (parse_class class body rest [] NB)|]; cbn [rev app]; rewrite CB; reflexivity].
  destruct (parse class MTop rest) as [[gl ps]|]; [|right; left; reflexivity]. cbn [add]. destruct (find _ _ _) as [l|] eqn:F; [|right; right; reflexivity]. left.
  assert (P : plan (Out (One p) :: ps) r l = []).
  { apply plan_none. intros n caps I D. unfold find in F. change (starts_with recursive (_ ++ gl)) with false in F. destruct (find_in_incl _ _ _ _ F I) as [_ G].
    change ((lit "[" ++ body ++ lit "]") ++ gl) with (chr "[" :: (body ++ lit "]") ++ gl) in G. inversion G as [|? ? ? ? E|? ? ? ? E|? ? ? ? ? ? E]; subst; try discriminate.
    inversion D as [|? ? x t ? T D2 E1 E2|]; subst. inversion T as [|? c ? ? PC T2|]; subst. cbn in E2. assert (c = chr "[") by congruence. congruence. }
  rewrite P. reflexivity.
Qed.
Lemma ordinary_parse class s t : ordinary s -> parse class MTop (s ++ t) =
  match parse class MTop t with Some (g, ps) => Some (s ++ g, map (fun c => Out (One (is_c c))) s ++ ps) | None => None end.
Proof.
  intros F. induction F as [|c s H F IH]; [cbn [app map]; destruct (parse class MTop t) as [[g ps]|]; reflexivity|].
  assert (N : c <> chr "(" /\ c <> chr ")" /\ c <> chr "*" /\ c <> chr "?" /\ c <> chr "[").
  { repeat split; intros ->; apply H; vm_compute; tauto. }
  destruct N as (N1 & N2 & N3 & N4 & N5). cbn [app parse]. rewrite IH. destruct (N.eqb_spec c (chr "(")); [contradiction|]. destruct (N.eqb_spec c (chr "*")); [contradiction|]. destruct (N.eqb_spec c (chr "?")); [contradiction|]. destruct (N.eqb_spec c (chr "[")); [contradiction|]. destruct (N.eqb_spec c (chr ")")); [contradiction|].
  destruct (parse class MTop t) as [[g ps]|]; reflexivity.
Qed.
Lemma divides_text s ps n caps : divides (map (fun c => Out (One (is_c c))) s ++ ps) n caps <-> exists m, n = s ++ m /\ divides ps m caps.
Proof.
  revert n. induction s as [|c s IH]; intros n; cbn [map app].
  - split; [intros D; exists n; split; [reflexivity|exact D]|intros (m & -> & D); exact D].
  - split.
    + intros D. inversion D as [|? ? x t ? T D2|]; subst. apply IH in D2. destruct D2 as (m & -> & D2). exists m. split; [|exact D2]. inversion T as [|? e ? ? E T2|]; subst. inversion T2; subst. unfold is_c in E. apply N.eqb_eq in E. subst e. reflexivity.
    + intros (m & -> & D). change (c :: s ++ m) with ([c] ++ s ++ m). constructor; [constructor; [unfold is_c; apply N.eqb_refl|constructor]|]. apply IH. exists m. split; [reflexivity|exact D].
Qed.
Lemma glob_text s g n : ordinary s -> (glob_matches (s ++ g) n <-> exists m, n = s ++ m /\ glob_matches g m).
Proof.
  intros F. revert n. induction F as [|c s H F IH]; intros n; cbn [app].
  - split; [intros D; exists n; split; [reflexivity|exact D]|intros (m & -> & D); exact D].
  - assert (N3 : c <> chr "*") by (intros ->; apply H; vm_compute; tauto). assert (N4 : c <> chr "?") by (intros ->; apply H; vm_compute; tauto). split.
    + intros D. inversion D; subst; try contradiction. apply IH in H5. destruct H5 as (m & -> & G). exists m. split; [reflexivity|exact G].
    + intros (m & -> & G). constructor; [exact N3|exact N4|]. apply IH. exists m. split; [reflexivity|exact G].
Qed.
(** A star in parentheses between fixed texts: exactly the names with these texts at their ends
    are renamed, and the reference stands for what is between. *)
Theorem C40_rename_middle : forall class pre suf tmpl (d : dir) a b, ordinary pre -> ordinary suf -> Forall (proper 1) tmpl -> no_dollar a -> ~ In (chr "/") a ->
  (wanted class (pre ++ lit "(*)" ++ suf) (flat_map written tmpl) d a b <-> In a (map fst d) /\ exists x, a = pre ++ x ++ suf /\ b = flat_map (means a [x]) tmpl).
Proof.
  intros class pre suf tmpl d a b OP OS FT DA SA.
  assert (P : parse_pattern class (pre ++ lit "(*)" ++ suf) = Some (pre ++ lit "*" ++ suf, map (fun c => Out (One (is_c c))) pre ++ Group [Many not_slash] :: map (fun c => Out (One (is_c c))) suf ++ [])).
  { unfold parse_pattern. rewrite (ordinary_parse class pre _ OP). change (parse class MTop (lit "(*)" ++ suf)) with (add (lit "*") (Some (Group [Many not_slash])) (parse class MTop suf)).
    rewrite <- (app_nil_r suf) at 1. rewrite (ordinary_parse class suf [] OS). cbn [parse add app]. rewrite app_nil_r. reflexivity. }
  assert (DV : forall caps, divides (map (fun c => Out (One (is_c c))) pre ++ Group [Many not_slash] :: map (fun c => Out (One (is_c c))) suf ++ []) a caps <-> exists x, a = pre ++ x ++ suf /\ caps = [x]).
  { intros caps. rewrite divides_text. split.
    - intros (m & E & D). inversion D as [| |? ? x s cs T D2]; subst m caps. apply divides_text in D2. destruct D2 as (m & -> & D2). inversion D2; subst. exists x. split; [|reflexivity]. rewrite app_nil_r. reflexivity.
    - intros (x & E & ->). exists (x ++ suf). split; [exact E|]. constructor.
      + rewrite <- (app_nil_r x). constructor; [|constructor]. apply Forall_forall. intros c I. unfold not_slash. apply negb_true_iff, N.eqb_neq. intros ->. apply SA. rewrite E. apply in_app_iff. right. apply in_app_iff. left. exact I.
      + apply divides_text. exists []. split; [symmetry; apply app_nil_r|constructor]. }
  unfold wanted. split.
  - intros (glob & ps & caps & P' & I & G & C & ->). rewrite P in P'. split; [exact I|]. assert (ps = map (fun c => Out (One (is_c c))) pre ++ Group [Many not_slash] :: map (fun c => Out (One (is_c c))) suf ++ []) by congruence. subst ps.
    pose proof (C40_captures_exact (map (fun c => Out (One (is_c c))) pre ++ Group [Many not_slash] :: map (fun c => Out (One (is_c c))) suf ++ []) a) as X. rewrite C in X. apply DV in X. destruct X as (x & E & ->). exists x. split; [exact E|].
    apply C40_replacement_partial; [cbn; lia|exact DA| |exact FT]. constructor; [|constructor]. intros J. apply DA. rewrite E. apply in_app_iff. right. apply in_app_iff. left. exact J.
  - intros (I & x & E & ->). do 2 eexists. exists [x]. split; [exact P|]. split; [exact I|]. split; [|split].
    + apply glob_text; [exact OP|]. exists (x ++ suf). split; [exact E|]. change (lit "*" ++ suf) with (chr "*" :: suf). constructor. rewrite <- (app_nil_r suf) at 1. apply glob_text; [exact OS|]. exists []. split; [symmetry; apply app_nil_r|constructor].
    + pose proof (C40_captures_exact (map (fun c => Out (One (is_c c))) pre ++ Group [Many not_slash] :: map (fun c => Out (One (is_c c))) suf ++ []) a) as X.
      destruct (captures _ a) as [caps|]; [|exfalso; apply (X [x]), DV; exists x; split; [exact E|reflexivity]]. apply DV in X. destruct X as (y & E2 & ->). rewrite E in E2. apply app_inv_head in E2. apply app_inv_tail in E2. rewrite E2. reflexivity.
    + symmetry. apply C40_replacement_partial; [cbn; lia|exact DA| |exact FT]. constructor; [|constructor]. intros J. apply DA. rewrite E. apply in_app_iff. right. apply in_app_iff. left. exact J.
Qed.
(** The first example of the help, which is said to give all [.txt] files the ending [.bak]: it
    fails with two such files, and with one makes a file named with a star. *)
Theorem C40_help_example_refuted : forall allowed class (d : dir) below x, let run := dmv allowed class (lit "*.txt") (lit "*.bak") false false d below in
  In (x ++ lit ".txt") (map fst d) -> ~ In (chr "/") x ->
  wanted class (lit "*.txt") (lit "*.bak") d (x ++ lit ".txt") (lit "*.bak") /\
  (forall y, In (y ++ lit ".txt") (map fst d) -> ~ In (chr "/") y -> x <> y -> run = Refused \/ run = Crash \/ run = Elsewhere).
Proof.
  intros allowed class d below x run IN SX.
  assert (W : forall y, In (y ++ lit ".txt") (map fst d) -> ~ In (chr "/") y -> wanted class (lit "*.txt") (lit "*.bak") d (y ++ lit ".txt") (lit "*.bak")).
  { intros y I S. assert (P : parse_pattern class (lit "*.txt") = Some (lit "*.txt", Out (Many not_slash) :: map (fun c => Out (One (is_c c))) (lit ".txt") ++ [])) by reflexivity.
    set (ps := Out (Many not_slash) :: map (fun c => Out (One (is_c c))) (lit ".txt") ++ []) in P.
    assert (D : divides ps (y ++ lit ".txt") []).
    { unfold ps. constructor; [|apply divides_text; exists []; split; [reflexivity|constructor]]. rewrite <- (app_nil_r y). constructor; [|constructor]. apply Forall_forall. intros c J. unfold not_slash. apply negb_true_iff, N.eqb_neq. intros ->. exact (S J). }
    pose proof (C40_captures_exact ps (y ++ lit ".txt")) as X. destruct (captures ps (y ++ lit ".txt")) as [caps|] eqn:C; [|exfalso; exact (X [] D)].
    exists (lit "*.txt"), ps, caps. split; [exact P|]. split; [exact I|]. split; [|split; [exact C|]].
    - change (lit "*.txt") with (chr "*" :: lit ".txt"). constructor. change (lit ".txt") with ([46; 116; 120; 116]%N). repeat (constructor; [discriminate|discriminate|]). constructor.
    - destruct (C40_star_kept_refuted ps (lit "*.bak") (y ++ lit ".txt")) as [G|G]; [intros H; vm_compute in H; repeat (destruct H as [H|H]; [discriminate|]); exact H| |]; unfold generate in G; rewrite C in G; [discriminate|]. injection G as G. symmetry. exact G. }
  split; [exact (W x IN SX)|]. intros y IY SY N. unfold run. apply (C40_conflict_refused allowed class (lit "*.txt") (lit "*.bak") false d below (x ++ lit ".txt") (y ++ lit ".txt") (lit "*.bak")).
  - intros glob ps E. assert (P : parse_pattern class (lit "*.txt") = Some (lit "*.txt", Out (Many not_slash) :: map (fun c => Out (One (is_c c))) (lit ".txt") ++ [])) by reflexivity. rewrite P in E. assert (glob = lit "*.txt") as -> by congruence. reflexivity.
  - left. split; [exact (W x IN SX)|]. split; [exact (W y IY SY)|]. intros E. apply N. apply app_inv_tail in E. exact E.
Qed.
(** A link to nothing under the new name is overwritten without force. *)
Theorem C40_dangling_link_refuted : forall class a b e i, ordinary a -> a <> b -> no_dollar b -> plain_name b = true ->
  dmv (fun _ _ _ => true) class a b false false [(a, e); (b, Entry i true)] [] = Renamed [(b, e)] 1.
Proof.
  intros class a b e i OA AB DB PB. unfold dmv, parse_pattern.
  replace (parse class MTop a) with (Some (a, map (fun c => Out (One (is_c c))) a ++ [])); [|pose proof (ordinary_parse class a [] OA) as OP; cbn [parse] in OP; rewrite (app_nil_r a) in OP; symmetry; exact OP].
  assert (G : forall t, glob_match a t = Some (str_eqb t a)).
  { clear - OA. induction OA as [|c s H F IH]; intros t; [destruct t; reflexivity|]. rewrite glob_other by (intros ->; apply H; vm_compute; tauto). destruct t as [|x t]; [reflexivity|]. destruct (N.eqb_spec c (chr "?")) as [->|]; [exfalso; apply H; vm_compute; tauto|]. cbn [str_eqb]. destruct (x =? c)%N; [apply IH|reflexivity]. }
  assert (R : starts_with recursive a = false).
  { destruct (starts_with recursive a) eqn:E; [|reflexivity]. apply starts_with_iff in E. destruct E as [t ->]. inversion OA as [|? ? H _]; subst. exfalso. apply H. vm_compute. tauto. }
  unfold find. rewrite R. cbn [map fst find_in]. rewrite !G, str_eqb_refl. replace (str_eqb b a) with false by (symmetry; apply str_eqb_neq; congruence). cbv zeta.
  assert (PL : plan (map (fun c => Out (One (is_c c))) a ++ []) b [a] = [(a, b)]).
  { unfold plan. cbn [flat_map]. destruct (C40_star_kept_refuted (map (fun c => Out (One (is_c c))) a ++ []) b a DB) as [H|H]; [|rewrite H; reflexivity]. exfalso. unfold generate in H.
    pose proof (C40_captures_exact (map (fun c => Out (One (is_c c))) a ++ []) a) as C. destruct (captures _ a); [discriminate|]. apply (C []). apply divides_text. exists []. split; [symmetry; apply app_nil_r|constructor]. }
  rewrite PL. cbn [forallb snd]. rewrite PB. cbn [andb no_conflict]. unfold exists_at. cbn [lookup]. destruct (str_eqb_spec a b); [contradiction|]. rewrite str_eqb_refl. cbn [dangling negb andb mem_str].
  cbn [perform lookup]. rewrite str_eqb_refl. unfold move. destruct (str_eqb_spec a b); [contradiction|]. cbn [filter fst]. destruct (str_eqb_spec a b); [contradiction|]. rewrite str_eqb_refl. cbn [negb filter map fst snd]. rewrite str_eqb_refl. reflexivity.
Qed.
(** With force, exchanging two names loses one of the files: its entry is gone although both
    names were to be kept. *)
Theorem C40_force_exchange_refuted : forall class (x y : char) e1 e2, x <> y -> ~ In x (lit "/$.") -> ~ In y (lit "/$.") -> (0 < x < 128)%N -> (0 < y < 128)%N ->
  dmv (fun _ _ _ => true) class (lit "(?)(?)") (lit "$2$1") false true [([x; y], e1); ([y; x], e2)] [] = Renamed [([x; y], e1)] 2.
Proof.
  intros class x y e1 e2 N X Y LX LY.
  assert (XS : x <> chr "/" /\ x <> chr "$" /\ x <> chr ".") by (repeat split; intros ->; apply X; vm_compute; tauto).
  assert (YS : y <> chr "/" /\ y <> chr "$" /\ y <> chr ".") by (repeat split; intros ->; apply Y; vm_compute; tauto).
  assert (P : parse_pattern class (lit "(?)(?)") = Some (lit "**", [Group [One not_slash]; Group [One not_slash]])) by reflexivity.
  assert (G : forall u v, u <> chr "/" /\ u <> chr "$" /\ u <> chr "." -> v <> chr "/" /\ v <> chr "$" /\ v <> chr "." -> generate [Group [One not_slash]; Group [One not_slash]] (lit "$2$1") [u; v] = Some [v; u]).
  { intros u v (U1 & U2 & U3) (V1 & V2 & V3). unfold generate.
    assert (C : captures [Group [One not_slash]; Group [One not_slash]] [u; v] = Some [[u]; [v]]).
    { unfold captures. cbn [parts_match items_match flat_map map fst snd]. unfold not_slash. destruct (N.eqb_spec u (chr "/")); [contradiction|]. destruct (N.eqb_spec v (chr "/")); [contradiction|]. cbn [negb map flat_map fst snd app items_match]. destruct (N.eqb_spec v (chr "/")); [contradiction|]. reflexivity. }
    rewrite C. f_equal. change (lit "$2$1") with (flat_map written [Ref 2; Ref 1]). rewrite C40_replacement_partial; [reflexivity|cbn; lia| | |].
    - intros [H|[H|[]]]; congruence.
    - repeat constructor; intros [H|[]]; congruence.
    - repeat constructor. }
  unfold dmv. rewrite P. match goal with |- context [find ?a ?b ?c] => change (find a b c) with (Some ([[x; y]; [y; x]] : list str)) end. cbv zeta. unfold plan. cbn [flat_map]. rewrite !G by assumption. cbn [app].
  assert (PN : forall u v, u <> chr "/" /\ u <> chr "$" /\ u <> chr "." -> v <> chr "/" /\ v <> chr "$" /\ v <> chr "." -> (0 < u)%N -> (0 < v)%N -> plain_name [u; v] = true).
  { intros u v (U1 & U2 & U3) (V1 & V2 & V3) LU LV. unfold plain_name. rewrite !andb_true_iff, !negb_true_iff. split; [split; [split; [split|]|]|].
    - destruct (mem_char (chr "/") [u; v]) eqn:E; [|reflexivity]. apply mem_char_iff in E. destruct E as [E|[E|[]]]; congruence.
    - destruct (mem_char 0%N [u; v]) eqn:E; [|reflexivity]. apply mem_char_iff in E. destruct E as [E|[E|[]]]; lia.
    - reflexivity.
    - apply str_eqb_neq. discriminate.
    - apply str_eqb_neq. intros E. change (lit "..") with [chr "."; chr "."] in E. congruence. }
  cbn [forallb snd]. rewrite !PN by (assumption || lia). cbn [andb no_conflict]. rewrite !andb_false_r. cbn [negb andb mem_str].
  assert (NE : str_eqb [y; x] [x; y] = false) by (apply str_eqb_neq; congruence). assert (NE2 : str_eqb [x; y] [y; x] = false) by (apply str_eqb_neq; congruence).
  cbn [existsb orb]. unfold mem_str. cbn [existsb]. rewrite ?NE, ?NE2. cbn [orb negb].
  cbn [perform lookup]. rewrite str_eqb_refl. unfold move at 1. rewrite NE2. cbn [filter fst negb]. rewrite NE2, str_eqb_refl. cbn [negb map fst snd]. rewrite str_eqb_refl. cbn [perform lookup].
  rewrite ?str_eqb_refl. unfold move. do 6 (rewrite ?NE, ?NE2, ?str_eqb_refl; cbn [negb andb orb filter map fst snd perform lookup]). reflexivity.
Qed.

(** ** The language of patterns *)
Definition item_of (class : str -> option (char -> bool)) (e : elem) : item :=
  match e with
  | Self c => One (is_c c) | AnyOne => One not_slash | AnyRun => Many not_slash | AnyDeep => Many not_newline
  | Set_ b => One (match class b with Some p => p | None => fun _ => false end)
  end.
Lemma group_class class body s : forall acc, ~ In (chr "]") body -> group_items class (Some acc) (body ++ chr "]" :: s) =
  match class (rev acc ++ body), group_items class None s with Some p, Some l => Some (One p :: l) | _, _ => None end.
Proof.
  induction body as [|c body IH]; intros acc N; cbn [app].
  - rewrite app_nil_r. reflexivity.
  - cbn [group_items]. destruct (N.eqb_spec c (chr "]")) as [->|D]; [exfalso; apply N; left; reflexivity|]. rewrite IH by (intros I; apply N; right; exact I). cbn [rev]. rewrite <- app_assoc. reflexivity.
Qed.
Lemma unamb_tail e l : unambiguous (e :: l) -> unambiguous l.
Proof. intros [_ H]. exact H. Qed.
Lemma unamb_star l : unambiguous (AnyRun :: l) -> match l with e :: _ => starry e = false | [] => True end.
Proof. intros [H _]. exact (H eq_refl). Qed.
Lemma group_star class d r : d <> chr "*" -> group_items class None (chr "*" :: d :: r) = match group_items class None (d :: r) with Some l => Some (Many not_slash :: l) | None => None end.
Proof. intros N. cbn [group_items]. destruct (N.eqb_spec d (chr "*")); [contradiction|]. reflexivity. Qed.
Lemma elem_head class special e : writable class (chr "*" :: special) e -> starry e = false -> exists d r, text e = d :: r /\ d <> chr "*".
Proof.
  destruct e; cbn; intros W S; try discriminate.
  - exists c, []. split; [reflexivity|]. intros ->. apply W. left. reflexivity.
  - exists (chr "?"), []. split; [reflexivity|discriminate].
  - exists (chr "["), (body ++ [chr "]"]). split; [reflexivity|discriminate].
Qed.
Lemma group_text class l : Forall (writable class (lit "*?[")) l -> unambiguous l -> group_items class None (flat_map text l) = Some (map (item_of class) l).
Proof.
  induction l as [|e l IH]; intros F U; [reflexivity|]. inversion F as [|? ? W F2]; subst. specialize (IH F2 (unamb_tail _ _ U)). cbn [flat_map map].
  destruct e as [c| | | |b]; cbn [text].
  - assert (N : c <> chr "*" /\ c <> chr "?" /\ c <> chr "[") by (repeat split; intros ->; apply W; vm_compute; tauto). destruct N as (N1 & N2 & N3). cbn [app group_items].
    destruct (N.eqb_spec c (chr "*")); [contradiction|]. destruct (N.eqb_spec c (chr "?")); [contradiction|]. destruct (N.eqb_spec c (chr "[")); [contradiction|]. rewrite IH. reflexivity.
  - change (group_items class None (lit "?" ++ flat_map text l)) with (match group_items class None (flat_map text l) with Some l => Some (One not_slash :: l) | None => None end). rewrite IH. reflexivity.
  - pose proof (unamb_star _ U) as S. destruct l as [|e l]; [reflexivity|]. inversion F2 as [|? ? W2 F3]; subst. destruct (elem_head class _ e W2 S) as (d & r & E & D).
    change (lit "*" ++ flat_map text (e :: l)) with (chr "*" :: flat_map text (e :: l)). cbn [flat_map] in *. rewrite E in *. cbn [app] in *. rewrite group_star by exact D. rewrite IH. reflexivity.
  - change (group_items class None (lit "**" ++ flat_map text l)) with (match group_items class None (flat_map text l) with Some l => Some (Many not_newline :: l) | None => None end). rewrite IH. reflexivity.
  - destruct W as [NB NC]. change ((chr "[" :: b ++ [chr "]"]) ++ flat_map text l) with (chr "[" :: (b ++ [chr "]"]) ++ flat_map text l). rewrite <- app_assoc. cbn [app].
    change (group_items class None (chr "[" :: b ++ chr "]" :: flat_map text l)) with (group_items class (Some []) (b ++ chr "]" :: flat_map text l)). rewrite group_class by exact NB. cbn [rev app]. rewrite IH. cbn [item_of]. destruct (class b); [reflexivity|congruence].
Qed.
Lemma parse_balanced class s : balanced s -> forall d acc t, parse class (MGroup (S d) acc) (s ++ t) = parse class (MGroup (S d) (rev s ++ acc)) t.
Proof.
  intros B. induction B as [|c s N1 N2 B IH|a b Ba IHa Bb IHb]; intros d acc t; [reflexivity| |].
  - cbn [app parse]. destruct (N.eqb_spec c (chr "(")); [contradiction|]. destruct (N.eqb_spec c (chr ")")); [contradiction|]. rewrite IH. cbn [rev]. rewrite <- app_assoc. reflexivity.
  - cbn [app]. rewrite <- app_assoc. cbn [app].
    change (parse class (MGroup (S d) acc) (chr "(" :: a ++ chr ")" :: b ++ t)) with (parse class (MGroup (S (S d)) (chr "(" :: acc)) (a ++ chr ")" :: b ++ t)). rewrite IHa.
    change (parse class (MGroup (S (S d)) (rev a ++ chr "(" :: acc)) (chr ")" :: b ++ t)) with (parse class (MGroup (S d) (chr ")" :: rev a ++ chr "(" :: acc)) (b ++ t)). rewrite IHb. f_equal. f_equal.
    cbn [rev]. rewrite rev_app_distr. cbn [rev]. rewrite <- !app_assoc. reflexivity.
Qed.
Definition part_of (class : str -> option (char -> bool)) (p : pelem) : part := match p with Bare e => Out (item_of class e) | Paren l => Group (map (item_of class) l) end.
Lemma punamb_tail e l : punambiguous (e :: l) -> punambiguous l.
Proof. intros [_ H]. exact H. Qed.
Lemma parse_star class d r : d <> chr "*" -> parse class MTop (chr "*" :: d :: r) = add (lit "*") (Some (Out (Many not_slash))) (parse class MTop (d :: r)).
Proof. intros N. cbn [parse]. destruct (N.eqb_spec d (chr "*")); [contradiction|]. reflexivity. Qed.
Lemma pattern_text class l : Forall (pwritable class) l -> punambiguous l -> parse_pattern class (flat_map ptext l) = Some (flat_map glob_of l, map (part_of class) l).
Proof.
  unfold parse_pattern. induction l as [|e l IH]; intros F U; [reflexivity|]. inversion F as [|? ? W F2]; subst. specialize (IH F2 (punamb_tail _ _ U)). cbn [flat_map map].
  destruct e as [[c| | | |b]|g]; cbn [ptext text].
  - cbn in W. rewrite (ordinary_parse class [c]) by (constructor; [exact W|constructor]). rewrite IH. reflexivity.
  - change (parse class MTop (lit "?" ++ flat_map ptext l)) with (add (lit "?") (Some (Out (One not_slash))) (parse class MTop (flat_map ptext l))). rewrite IH. reflexivity.
  - destruct l as [|e l]; [reflexivity|]. inversion F2 as [|? ? W2 F3]; subst.
    assert (H : exists d r, ptext e = d :: r /\ d <> chr "*").
    { destruct e as [e|g]; [|do 2 eexists; split; [reflexivity|discriminate]]. destruct U as [S _]. specialize (S eq_refl). cbn [pwritable] in W2. apply (elem_head class (lit "()?[") e); [|exact S]. destruct e; try exact W2. intros I. apply W2. cbn in I. vm_compute. vm_compute in I. tauto. }
    destruct H as (d & r & E & D). change (lit "*" ++ flat_map ptext (e :: l)) with (chr "*" :: flat_map ptext (e :: l)). cbn [flat_map] in *. rewrite E in *. cbn [app] in *. rewrite parse_star by exact D. rewrite IH. reflexivity.
  - change (parse class MTop (lit "**" ++ flat_map ptext l)) with (add (lit "**") (Some (Out (Many not_newline))) (parse class MTop (flat_map ptext l))). rewrite IH. reflexivity.
  - destruct W as [NB NC]. change ((chr "[" :: b ++ [chr "]"]) ++ flat_map ptext l) with (chr "[" :: (b ++ [chr "]"]) ++ flat_map ptext l). rewrite <- app_assoc. cbn [app].
    change (parse class MTop (chr "[" :: b ++ chr "]" :: flat_map ptext l)) with (parse class (MClass []) (b ++ chr "]" :: flat_map ptext l)). rewrite parse_class by exact NB. cbn [rev app]. rewrite IH. cbn [part_of item_of]. destruct (class b); [reflexivity|congruence].
  - destruct W as (W & UG & BG). change ((chr "(" :: flat_map text g ++ [chr ")"]) ++ flat_map ptext l) with (chr "(" :: (flat_map text g ++ [chr ")"]) ++ flat_map ptext l). rewrite <- app_assoc. cbn [app].
    change (parse class MTop (chr "(" :: flat_map text g ++ chr ")" :: flat_map ptext l)) with (parse class (MGroup 1 []) (flat_map text g ++ chr ")" :: flat_map ptext l)). rewrite parse_balanced by exact BG. rewrite app_nil_r.
    change (parse class (MGroup 1 (rev (flat_map text g))) (chr ")" :: flat_map ptext l)) with (add (lit "*") (group_part class (rev (flat_map text g))) (parse class MTop (flat_map ptext l))).
    unfold group_part. rewrite rev_involutive, group_text by assumption. rewrite IH. reflexivity.
Qed.
Lemma forall_not (c : char) (s : str) : Forall (fun d => negb (d =? c)%N = true) s <-> ~ In c s.
Proof.
  rewrite Forall_forall. split.
  - intros H I. specialize (H c I). rewrite N.eqb_refl in H. discriminate.
  - intros H d I. apply negb_true_iff, N.eqb_neq. intros ->. exact (H I).
Qed.
Lemma item_fits class special e s : writable class special e -> (takes [item_of class e] s <-> fits class e s).
Proof.
  intros W. destruct e as [c| | | |b]; cbn [item_of fits].
  - split.
    + intros T. inversion T as [|? d ? ? P T2|]; subst. inversion T2; subst. unfold is_c in P. apply N.eqb_eq in P. subst. reflexivity.
    + intros ->. constructor; [apply N.eqb_refl|constructor].
  - split.
    + intros T. inversion T as [|? d ? ? P T2|]; subst. inversion T2; subst. exists d. split; [reflexivity|]. unfold not_slash in P. apply negb_true_iff, N.eqb_neq in P. exact P.
    + intros (d & -> & N). constructor; [unfold not_slash; apply negb_true_iff, N.eqb_neq, N|constructor].
  - split.
    + intros T. inversion T as [| |? x ? ? P T2]; subst. inversion T2; subst. rewrite app_nil_r. apply forall_not. exact P.
    + intros N. rewrite <- (app_nil_r s). constructor; [apply forall_not, N|constructor].
  - split.
    + intros T. inversion T as [| |? x ? ? P T2]; subst. inversion T2; subst. rewrite app_nil_r. apply forall_not. exact P.
    + intros N. rewrite <- (app_nil_r s). constructor; [apply forall_not, N|constructor].
  - split.
    + intros T. inversion T as [|? d ? ? P T2|]; subst. inversion T2; subst. destruct (class b) as [p|] eqn:C; [|discriminate]. exists d, p. split; [reflexivity|]. split; [reflexivity|exact P].
    + intros (d & p & -> & C & P). rewrite C. constructor; [exact P|constructor].
Qed.
Lemma takes_cons i l s : takes (i :: l) s <-> exists x t, s = x ++ t /\ takes [i] x /\ takes l t.
Proof.
  split.
  - intros T. inversion T as [|? c ? t P T2|? x ? t P T2]; subst.
    + exists [c], t. split; [reflexivity|]. split; [constructor; [exact P|constructor]|exact T2].
    + exists x, t. split; [reflexivity|]. split; [rewrite <- (app_nil_r x); constructor; [exact P|constructor]|exact T2].
  - intros (x & t & -> & T1 & T2). inversion T1 as [|? c ? u P T3|? y ? u P T3]; subst; inversion T3; subst.
    + cbn [app]. constructor; assumption.
    + rewrite app_nil_r. constructor; assumption.
Qed.
Lemma items_fit class special l : Forall (writable class special) l -> forall s, takes (map (item_of class) l) s <-> fits_list class l s.
Proof.
  intros F. induction F as [|e l W F IH]; intros s; cbn [map].
  - split; intros T; inversion T; constructor.
  - rewrite takes_cons. split.
    + intros (x & t & -> & T1 & T2). constructor; [apply (item_fits class special e x W), T1|apply IH, T2].
    + intros T. inversion T as [|? ? x t T1 T2]; subst. exists x, t. split; [reflexivity|]. split; [apply (item_fits class special e x W), T1|apply IH, T2].
Qed.
(** A pattern built of the documented elements is understood as documented: the files looked at
    are those of the glob, and of these the ones the pattern fits are renamed, with the groups
    it says. *)
Theorem C40_pattern_meaning : forall class l, Forall (pwritable class) l -> punambiguous l ->
  exists ps, parse_pattern class (flat_map ptext l) = Some (flat_map glob_of l, ps) /\
    forall name, match captures ps name with Some caps => fits_pattern class l name caps | None => forall caps, ~ fits_pattern class l name caps end.
Proof.
  intros class l F U. exists (map (part_of class) l). split; [apply pattern_text; assumption|]. intros name.
  assert (D : forall n caps, divides (map (part_of class) l) n caps <-> fits_pattern class l n caps).
  { clear name U. induction F as [|e l W F IH]; intros n caps; cbn [map].
    - split; intros D; inversion D; constructor.
    - destruct e as [e|g]; cbn [part_of].
      + cbn in W. split; intros D; inversion D; subst; (constructor; [apply (item_fits class _ e _ W); assumption|apply IH; assumption]).
      + destruct W as (W & _). split; intros D; inversion D; subst; (constructor; [apply (items_fit class _ g W); assumption|apply IH; assumption]). }
  pose proof (C40_captures_exact (map (part_of class) l) name) as C. destruct (captures _ name) as [caps|]; [apply D, C|]. intros caps H. apply (C caps), D, H.
Qed.

(** ** Concrete cases *)
Definition no_class (s : str) : option (char -> bool) := Some (fun c => mem_char c s).
Definition some_dir : dir := [(lit "IMG_1.jpg", Entry 1 false); (lit "a.txt", Entry 2 false); (lit "IMG_2.jpg", Entry 3 false)].
Example C40_met : dmv (fun _ _ _ => true) no_class (lit "IMG_(*).jpg") (lit "photo_$1.jpg") false false some_dir [] =
    Renamed [(lit "photo_1.jpg", Entry 1 false); (lit "a.txt", Entry 2 false); (lit "photo_2.jpg", Entry 3 false)] 2 /\
  dmv (fun _ _ _ => true) no_class (lit "IMG_(*).jpg") (lit "a.txt") false false some_dir [] = Refused /\
  dmv (fun _ _ _ => true) no_class (lit "IMG_(*).jpg") (lit "b") false false some_dir [] = Refused /\
  dmv (fun _ b _ => str_eqb b (lit "IMG_1.jpg")) no_class (lit "IMG_(*).jpg") (lit "photo_$1.jpg") false false some_dir [] =
    Stopped [(lit "photo_1.jpg", Entry 1 false); (lit "a.txt", Entry 2 false); (lit "IMG_2.jpg", Entry 3 false)] /\
  dmv (fun _ _ _ => true) no_class (lit "[ab](*).txt") (lit "x$1") false false some_dir [] = Renamed some_dir 0 /\
  dmv (fun _ _ _ => true) no_class (lit "*.txt") (lit "b") false false ((128512%N :: lit ".jpg", Entry 4 false) :: some_dir) [] = Crash /\ sound some_dir.
Proof.
  split; [vm_compute; reflexivity|]. split; [vm_compute; reflexivity|]. split; [vm_compute; reflexivity|]. split; [vm_compute; reflexivity|]. split; [vm_compute; reflexivity|]. split; [vm_compute; reflexivity|].
  unfold sound. vm_compute. constructor; [intros [H|[H|[]]]; discriminate|]. constructor; [intros [H|[]]; discriminate|]. constructor; [intros []|constructor].
Qed.

Example C40_pattern_met : let l := [Bare (Self 97%N); Paren [AnyRun; Self 40%N; AnyOne; Self 41%N]; Bare (Set_ (lit "xy")); Bare AnyDeep] in
  flat_map ptext l = lit "a(*(?))[xy]**" /\ Forall (pwritable no_class) l /\ punambiguous l.
Proof.
  split; [reflexivity|]. split.
  - constructor; [intros H; vm_compute in H; repeat (destruct H as [H|H]; [discriminate|]); exact H|]. constructor.
    + split; [|split].
      * constructor; [exact I|]. constructor; [intros H; vm_compute in H; repeat (destruct H as [H|H]; [discriminate|]); exact H|]. constructor; [exact I|]. constructor; [intros H; vm_compute in H; repeat (destruct H as [H|H]; [discriminate|]); exact H|constructor].
      * cbn. repeat split; intros; try discriminate; reflexivity.
      * change (flat_map text [AnyRun; Self 40%N; AnyOne; Self 41%N]) with (chr "*" :: chr "(" :: [chr "?"] ++ chr ")" :: []). constructor; [discriminate|discriminate|]. constructor; [constructor; [discriminate|discriminate|constructor]|constructor].
    + constructor; [split; [intros H; vm_compute in H; repeat (destruct H as [H|H]; [discriminate|]); exact H|discriminate]|]. constructor; [exact I|constructor].
  - cbn. repeat split; intros; try discriminate; reflexivity.
Qed.

Print Assumptions C40_glob_exact.
Print Assumptions C40_glob_ascii.
Print Assumptions C40_other_names_crash_refuted.
Print Assumptions C40_captures_exact.
Print Assumptions C40_replacement_partial.
Print Assumptions C40_tenth_group_refuted.
Print Assumptions C40_dollar_in_name_refuted.
Print Assumptions C40_star_kept_refuted.
Print Assumptions C40_no_file_lost_partial.
Print Assumptions C40_dry_run.
Print Assumptions C40_conflict_refused.
Print Assumptions C40_directories_below_refuted.
Print Assumptions C40_character_set_refuted.
Print Assumptions C40_rename_middle.
Print Assumptions C40_help_example_refuted.
Print Assumptions C40_dangling_link_refuted.
Print Assumptions C40_force_exchange_refuted.
Print Assumptions C40_pattern_meaning.
