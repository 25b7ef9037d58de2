(** Facts about the regular expressions of Secrets_Model. *)
From Verif Require Import Base Secrets_Model Secrets_Spec.

Fixpoint span (p : char -> bool) (s : str) : str * str :=
  match s with
  | c :: t => if p c then (c :: fst (span p t), snd (span p t)) else ([], s)
  | [] => ([], [])
  end.
(** the matches of a repeated class, longest first *)
Fixpoint desc (p : char -> bool) (s : str) : list (str * str) :=
  match s with
  | c :: t => if p c then map (fun xu => (c :: fst xu, snd xu)) (desc p t) ++ [([], s)] else [([], s)]
  | [] => [([], [])]
  end.
Lemma span_app p s : fst (span p s) ++ snd (span p s) = s.
Proof. induction s as [|c t IH]; [reflexivity|]. cbn. destruct (p c); cbn; [rewrite IH; reflexivity|reflexivity]. Qed.
Lemma span_all p s : Forall (fun c => p c = true) (fst (span p s)).
Proof. induction s as [|c t IH]; cbn; [constructor|]. destruct (p c) eqn:E; cbn; [constructor; assumption|constructor]. Qed.
Definition stops (p : char -> bool) (s : str) : Prop := match s with [] => True | c :: _ => p c = false end.
Lemma span_stops p s : stops p (snd (span p s)).
Proof. induction s as [|c t IH]; cbn; [exact I|]. destruct (p c) eqn:E; cbn; [exact IH|exact E]. Qed.
Lemma span_exact p a b : Forall (fun c => p c = true) a -> stops p b -> span p (a ++ b) = (a, b).
Proof.
  induction 1 as [|c a H _ IH]; intros S.
  - cbn. destruct b as [|c b]; [reflexivity|]. cbn in S. cbn. rewrite S. reflexivity.
  - cbn. rewrite H, (IH S). reflexivity.
Qed.
Lemma span_app_stops p a b : stops p b -> span p (a ++ b) = (fst (span p a), snd (span p a) ++ b).
Proof.
  intros S. induction a as [|c a IH]; cbn.
  - destruct b as [|c b]; [reflexivity|]. cbn in *. rewrite S. reflexivity.
  - destruct (p c); [rewrite IH; reflexivity|reflexivity].
Qed.
Lemma desc_head p s : exists l, desc p s = span p s :: l.
Proof.
  induction s as [|c t (l & IH)]; cbn; [eexists; reflexivity|]. destruct (p c); [|eexists; reflexivity].
  rewrite IH. eexists. cbn. reflexivity.
Qed.
Lemma flat_map_map {A B C} (f : A -> B) (g : B -> list C) l : flat_map g (map f l) = flat_map (fun x => g (f x)) l.
Proof. induction l as [|x l IH]; [reflexivity|]. cbn. rewrite IH. reflexivity. Qed.
Lemma map_flat_map {A B C} (f : B -> C) (g : A -> list B) l : map f (flat_map g l) = flat_map (fun x => map f (g x)) l.
Proof. induction l as [|x l IH]; [reflexivity|]. cbn. rewrite map_app, IH. reflexivity. Qed.
Lemma map_id2 (l : list (str * str)) : map (fun yu => ([] ++ fst yu, snd yu)) l = l.
Proof. induction l as [|[x y] l IH]; [reflexivity|]. cbn. f_equal. exact IH. Qed.
Lemma flat_map_nil {A B} (f : A -> list B) l : (forall x, In x l -> f x = []) -> flat_map f l = [].
Proof. induction l as [|x l IH]; intros H; [reflexivity|]. cbn. rewrite (H x) by (left; reflexivity). apply IH. intros y I. apply H. right. exact I. Qed.
(** only the longest repetition can be followed by something that does not start with the class *)
Lemma desc_longest {B} p s (k : str * str -> list B) :
  (forall x d u, p d = true -> k (x, d :: u) = []) -> flat_map k (desc p s) = k (span p s).
Proof.
  revert k. induction s as [|c t IH]; intros k H; cbn.
  - apply app_nil_r.
  - destruct (p c) eqn:E; [|cbn; apply app_nil_r].
    rewrite flat_map_app, flat_map_map, IH by (intros; apply H; assumption).
    cbn [flat_map fst snd]. rewrite H by exact E. rewrite !app_nil_r. reflexivity.
Qed.

Section W.
Variable uword : char -> bool.
Notation match_re := (match_re uword).
Notation match_pat := (match_pat uword).
Notation scan := (scan uword).
Notation is_word := (is_word uword).
Notation wordb := (wordb uword).

Lemma mr_seq a b prev s : match_re (Seq a b) prev s =
  flat_map (fun xt => map (fun yu => (fst xt ++ fst yu, snd yu)) (match_re b (last_of prev (fst xt)) (snd xt))) (match_re a prev s).
Proof. reflexivity. Qed.
Lemma mr_cls p prev s : match_re (Cls p) prev s = match s with c :: t => if p c then [([c], t)] else [] | [] => [] end.
Proof. reflexivity. Qed.
Lemma mr_alt a b prev s : match_re (Alt a b) prev s = match_re a prev s ++ match_re b prev s.
Proof. reflexivity. Qed.
Lemma mr_eps prev s : match_re Eps prev s = [([], s)].
Proof. reflexivity. Qed.
Lemma mr_word prev s : match_re WordB prev s = if xorb (wordb prev) (wordb (hd_error s)) then [([], s)] else [].
Proof. reflexivity. Qed.
Lemma star_cls p f prev s : length s <= f -> star (match_re (Cls p)) f prev s = desc p s.
Proof.
  revert prev s. induction f as [|f IH]; intros prev s L.
  - destruct s; [reflexivity|cbn in L; lia].
  - cbn [star]. destruct s as [|c t]; [reflexivity|]. cbn [match_re Secrets_Model.match_re desc]. destruct (p c); [|reflexivity].
    cbn [flat_map fst snd]. rewrite app_nil_r, IH by (cbn in L; lia). reflexivity.
Qed.
Lemma match_star_cls p prev s : match_re (Star (Cls p)) prev s = desc p s.
Proof. apply star_cls. lia. Qed.
Lemma match_plus_cls p prev s : match_re (Plus (Cls p)) prev s = match s with c :: t => if p c then map (fun xu => (c :: fst xu, snd xu)) (desc p t) else [] | [] => [] end.
Proof.
  unfold Plus. rewrite mr_seq, mr_cls. destruct s as [|c t]; [reflexivity|]. destruct (p c); [|reflexivity].
  cbn [flat_map fst snd]. rewrite app_nil_r, match_star_cls. reflexivity.
Qed.
(** the first match of a nonempty repetition *)
Lemma plus_head p prev s : hd_error (match_re (Plus (Cls p)) prev s) = match span p s with ([], _) => None | v => Some v end.
Proof.
  rewrite match_plus_cls. destruct s as [|c t]; [reflexivity|]. cbn [span]. destruct (p c); [|reflexivity].
  destruct (desc_head p t) as [l ->]. cbn. reflexivity.
Qed.

(** ** Assignments *)
Lemma name_start_word c : name_start c = true -> is_word c = true.
Proof. unfold name_start, Secrets_Model.is_word. destruct (letter_ci c); [reflexivity|]. cbn. intros ->. destruct (digit c); reflexivity. Qed.
Lemma name_char_word c : name_char c = true -> is_word c = true.
Proof. unfold name_char, Secrets_Model.is_word. intros H. apply orb_true_iff. left. exact H. Qed.
Lemma name_start_char c : name_start c = true -> name_char c = true.
Proof. unfold name_start, name_char. destruct (letter_ci c); [reflexivity|]. cbn. intros ->. apply orb_true_r. Qed.
Definition assign_at (prev : option char) (s : str) : option hit :=
  match s with
  | c :: t =>
      if negb (wordb prev) && name_start c then
        match snd (span name_char t) with
        | d :: r => if (61 =? d)%N then match fst (span nonblank r) with [] => None | v => Some (Hit (c :: fst (span name_char t)) [61%N] v) end else None
        | [] => None
        end
      else None
  | [] => None
  end.
Lemma match_assignment prev s : match_pat assignment prev s = assign_at prev s.
Proof.
  unfold Secrets_Model.match_pat, assignment. cbn [g1 mid g2]. rewrite mr_seq, mr_word. destruct s as [|c t].
  { destruct (xorb _ _); reflexivity. }
  cbn [hd_error Secrets_Model.wordb]. unfold assign_at.
  destruct (name_start c) eqn:NS.
  2:{ rewrite andb_false_r. destruct (xorb _ _); cbn [flat_map]; [|reflexivity]. cbn [fst snd]. rewrite mr_seq, mr_cls, NS. reflexivity. }
  rewrite (name_start_word c NS). rewrite andb_true_r. destruct (wordb prev); [reflexivity|]. cbn [negb xorb flat_map fst snd]. rewrite mr_seq, mr_cls, NS. cbn [flat_map fst snd].
  rewrite !app_nil_r, map_id2, match_star_cls, flat_map_map.
  rewrite (desc_longest name_char t).
  2:{ intros x d u H. cbn [fst snd]. unfold is. rewrite mr_cls. destruct (N.eqb_spec 61 d) as [<-|_]; [discriminate|reflexivity]. }
  destruct (span name_char t) as [n r]. cbn [fst snd]. unfold is. rewrite mr_cls. destruct r as [|d r]; [reflexivity|].
  destruct (61 =? d)%N eqn:D; [|reflexivity]. apply N.eqb_eq in D. subst d.
  cbn [flat_map fst snd]. rewrite !app_nil_r.
  match goal with |- context [match_re (Plus (Cls nonblank)) ?q r] => pose proof (plus_head nonblank q r) as P; destruct (match_re (Plus (Cls nonblank)) q r) as [|[v u] l'] end; cbn [hd_error] in P.
  - destruct (span nonblank r) as [[|]]; [reflexivity|discriminate].
  - cbn [map]. destruct (span nonblank r) as [[|w v'] u']; [discriminate|]. injection P as -> ->. reflexivity.
Qed.

(** ** Scanning *)
Lemma last_of_cons prev c x : last_of prev (c :: x) = last_of (Some c) x.
Proof. unfold last_of. cbn [rev]. destruct (rev x); reflexivity. Qed.
Lemma last_of_app prev x y : last_of prev (x ++ y) = last_of (last_of prev x) y.
Proof. unfold last_of. rewrite rev_app_distr. destruct (rev y); [|reflexivity]. reflexivity. Qed.
Lemma scan_skip p x t prev : scan p (length x) prev (x ++ t) = scan p 0 (last_of prev x) t.
Proof.
  revert prev. induction x as [|c x IH]; intros prev; [reflexivity|]. cbn [length app Secrets_Model.scan]. rewrite IH, last_of_cons. reflexivity.
Qed.
Lemma scan_hit p prev h t : hit_text h <> [] -> match_pat p prev (hit_text h ++ t) = Some h ->
  scan p 0 prev (hit_text h ++ t) = Found h :: scan p 0 (last_of prev (hit_text h)) t.
Proof.
  intros N H. destruct (hit_text h) as [|c x] eqn:E; [congruence|]. cbn [app Secrets_Model.scan]. cbn [app] in H. rewrite H, E. cbn [length].
  replace (S (length x) - 1) with (length x) by lia. rewrite scan_skip, last_of_cons. reflexivity.
Qed.
Lemma scan_miss p prev c t : match_pat p prev (c :: t) = None -> scan p 0 prev (c :: t) = Plain c :: scan p 0 (Some c) t.
Proof. intros H. cbn [Secrets_Model.scan]. rewrite H. reflexivity. Qed.
(** text in which the pattern is never found *)
Lemma scan_through p a b prev : (forall x c y q, a = x ++ c :: y -> match_pat p q (c :: y ++ b) = None) ->
  scan p 0 prev (a ++ b) = map Plain a ++ scan p 0 (last_of prev a) b.
Proof.
  revert prev. induction a as [|c a IH]; intros prev H; [reflexivity|]. cbn [app map]. rewrite scan_miss by (apply (H [] c a); reflexivity).
  rewrite IH, last_of_cons; [reflexivity|]. intros x d y q E. apply (H (c :: x) d y q). rewrite E. reflexivity.
Qed.
Lemma scan_none p a prev : (forall x c y q, a = x ++ c :: y -> match_pat p q (c :: y) = None) -> scan p 0 prev a = map Plain a.
Proof.
  intros H. pose proof (scan_through p a [] prev) as S. rewrite !app_nil_r in S. apply S. intros x c y q E. rewrite app_nil_r. eapply H, E.
Qed.

(** *** Assignments *)
Lemma blank_not_name c : is_whitespace c = true -> name_char c = false /\ name_start c = false /\ c <> 61%N /\ c <> 34%N /\ c <> 39%N /\ c <> 45%N /\ is_word c = is_word c.
Proof.
  intros W. assert (R : (c = 32 \/ 9 <= c <= 13 \/ c = 133 \/ c = 160 \/ c = 5760 \/ 8192 <= c <= 8202 \/ c = 8232 \/ c = 8233 \/ c = 8239 \/ c = 8287 \/ c = 12288)%N).
  { unfold is_whitespace in W. repeat (rewrite ?orb_true_iff, ?andb_true_iff, ?N.leb_le, ?N.eqb_eq in W). lia. }
  assert (NC : name_char c = false).
  { unfold name_char, letter_ci, upper_letter, lower_letter, digit. repeat (apply orb_false_iff; split); try (apply N.eqb_neq; lia); apply andb_false_iff; rewrite !N.leb_gt; lia. }
  split; [exact NC|]. split; [|repeat split; lia]. destruct (name_start c) eqn:E; [|reflexivity]. apply name_start_char in E. congruence.
Qed.
Lemma stops_nonblank b : stops nonblank b <-> starts_blank b.
Proof.
  unfold stops, starts_blank, nonblank, blank. destruct b as [|c b]; [tauto|]. rewrite negb_false_iff. split; [intros H; right; exists c, b; split; [reflexivity|exact H]|].
  intros [H|(d & t & [= <- <-] & H)]; [discriminate|exact H].
Qed.
Lemma stops_name b : stops nonblank b -> stops name_char b.
Proof. destruct b as [|c b]; [trivial|]. cbn. unfold nonblank, blank. rewrite negb_false_iff. intros H. apply blank_not_name, H. Qed.
Lemma assign_local prev c t b : stops nonblank b -> assign_at prev ((c :: t) ++ b) = assign_at prev (c :: t).
Proof.
  intros S. cbn [app assign_at]. destruct (_ && _); [|reflexivity]. rewrite span_app_stops by (apply stops_name, S). cbn [fst snd].
  destruct (snd (span name_char t)) as [|d r]; cbn [app].
  - destruct b as [|d b]; [reflexivity|]. cbn in S. unfold nonblank, blank in S. rewrite negb_false_iff in S.
    destruct (N.eqb_spec 61 d) as [<-|]; [discriminate|reflexivity].
  - destruct (61 =? d)%N; [|reflexivity]. rewrite span_app_stops by exact S. reflexivity.
Qed.
Lemma assign_prefix prev s h : assign_at prev s = Some h -> hit_text h <> [] /\ exists r, s = hit_text h ++ r /\ stops nonblank r.
Proof.
  destruct s as [|c t]; [discriminate|]. cbn [assign_at]. destruct (_ && _); [|discriminate].
  pose proof (span_app name_char t) as E. destruct (snd (span name_char t)) as [|d r]; [discriminate|].
  destruct (N.eqb_spec 61 d) as [<-|]; [|discriminate]. pose proof (span_app nonblank r) as E2. pose proof (span_stops nonblank r) as ST. destruct (fst (span nonblank r)) as [|v0 v] eqn:V; [discriminate|].
  intros [= <-]. unfold hit_text. cbn [h1 hmid h2]. split; [discriminate|]. exists (snd (span nonblank r)). split; [|exact ST].
  cbn [app]. f_equal. rewrite <- app_assoc. cbn [app]. rewrite <- E at 1. f_equal. f_equal. cbn [app] in E2. congruence.
Qed.
Lemma scan_split a b k prev : k <= length a -> stops nonblank b -> scan assignment k prev (a ++ b) = scan assignment k prev a ++ scan assignment 0 (last_of prev a) b.
Proof.
  intros L S. revert k prev L. induction a as [|c a IH]; intros k prev L.
  - cbn in L. replace k with 0 by lia. reflexivity.
  - rewrite last_of_cons. destruct k as [|k].
    + cbn [app Secrets_Model.scan]. rewrite !match_assignment. rewrite (assign_local prev c a b S : assign_at prev (c :: a ++ b) = _).
      destruct (assign_at prev (c :: a)) as [h|] eqn:E.
      * cbn [app]. f_equal. apply IH. apply assign_prefix in E. destruct E as (_ & r & E & _). apply (f_equal (@length char)) in E. rewrite app_length in E. cbn [length] in E. lia.
      * cbn [app]. f_equal. apply IH. lia.
    + cbn [app Secrets_Model.scan]. apply IH. cbn in L. lia.
Qed.
Lemma scan_blank_prev b p1 p2 : stops nonblank b -> scan assignment 0 p1 b = scan assignment 0 p2 b.
Proof.
  destruct b as [|c b]; [reflexivity|]. cbn. intros H. rewrite !match_assignment. unfold nonblank, blank in H. rewrite negb_false_iff in H.
  cbn [assign_at]. rewrite (proj1 (proj2 (blank_not_name c H))), !andb_false_r. reflexivity.
Qed.
Lemma span_inside p a X : snd (span p a) <> [] -> span p (a ++ X) = (fst (span p a), snd (span p a) ++ X).
Proof.
  induction a as [|c a IH]; intros N; cbn in *; [congruence|]. destruct (p c); cbn in *; [|reflexivity]. rewrite IH by exact N. reflexivity.
Qed.
Lemma identifier_chars n : identifier n -> exists c t, n = c :: t /\ name_start c = true /\ Forall (fun d => name_char d = true) t.
Proof.
  intros [c t H F]. exists c, t. split; [reflexivity|]. unfold ascii_letter, ascii_digit in *.
  assert (U : forall d, ascii_letter d -> letter_ci d = true).
  { intros d [D|D]; unfold letter_ci, upper_letter, lower_letter; rewrite !orb_true_iff, !andb_true_iff, !N.leb_le; tauto. }
  split.
  - unfold name_start. destruct H as [H| ->]; [rewrite (U c H); reflexivity|reflexivity].
  - eapply Forall_impl; [|exact F]. intros d [D|[D| ->]]; unfold name_char; [rewrite (U d D); reflexivity| |reflexivity].
    unfold digit. rewrite !orb_true_iff, !andb_true_iff, !N.leb_le. tauto.
Qed.
Lemma assign_word prev pre n v : wordb prev = false \/ pre <> [] -> before_name uword pre -> identifier n -> v <> [] -> no_blank v ->
  scan assignment 0 prev (pre ++ n ++ 61%N :: v) = map Plain pre ++ [Found (Hit n [61%N] v)].
Proof.
  intros W (NB & NE & LW) IN NV BV. destruct (identifier_chars n IN) as (c0 & n0 & -> & NS & NC).
  assert (SN : span name_char (n0 ++ 61%N :: v) = (n0, 61%N :: v)) by (apply span_exact; [exact NC|reflexivity]).
  revert prev W. induction pre as [|c pre IH]; intros prev W.
  - destruct W as [W|W]; [|congruence]. cbn [app map].
    assert (M : match_pat assignment prev (hit_text (Hit (c0 :: n0) [61%N] v) ++ []) = Some (Hit (c0 :: n0) [61%N] v)).
    { rewrite match_assignment, app_nil_r. unfold hit_text. cbn [h1 hmid h2 app assign_at]. rewrite W, NS. cbn [negb andb]. change ([61%N] ++ v) with (61%N :: v). unfold str, char in *. rewrite SN. cbn [fst snd].
      rewrite N.eqb_refl. assert (SV : span nonblank (v ++ []) = (v, [])) by (apply span_exact; [eapply Forall_impl; [|exact BV]; intros d D; unfold nonblank, blank; rewrite D; reflexivity|exact I]).
      rewrite app_nil_r in SV. rewrite SV. cbn [fst]. destruct v; [congruence|reflexivity]. }
    apply scan_hit in M; [|discriminate]. rewrite app_nil_r in M. exact M.
  - cbn [app map]. rewrite scan_miss.
    + rewrite IH; [reflexivity| | | |].
      * inversion NB; assumption.
      * intros I. apply NE. right. exact I.
      * destruct LW as [LW|(d & t & E & D)]; [discriminate|]. destruct t as [|e t]; [injection E as _ ->; left; reflexivity|]. injection E as _ ->. right. exists d, t. split; [reflexivity|exact D].
      * destruct pre; [left|right; discriminate]. destruct LW as [LW|(d & t & E & D)]; [discriminate|]. destruct t; [injection E as ->; exact D|destruct t; discriminate].
    + rewrite match_assignment. cbn [assign_at]. destruct (_ && name_start c) eqn:G; [|reflexivity]. apply andb_true_iff in G. destruct G as [_ G].
      destruct (snd (span name_char pre)) as [|d r] eqn:SP.
      * exfalso. pose proof (span_app name_char pre) as E. rewrite SP, app_nil_r in E. pose proof (span_all name_char pre) as F. rewrite E in F.
        destruct LW as [LW|(d & t & E2 & D)]; [discriminate|]. assert (IW : In d (c :: pre)) by (rewrite E2; apply in_app_iff; right; left; reflexivity).
        destruct IW as [<-|IW]; [rewrite (name_start_word c G) in D; discriminate|]. rewrite Forall_forall in F. rewrite (name_char_word d (F d IW)) in D. discriminate.
      * rewrite span_inside by (rewrite SP; discriminate). cbn [snd]. rewrite SP. cbn [app].
        destruct (N.eqb_spec 61 d) as [<-|]; [|reflexivity]. exfalso. apply NE. right. rewrite <- (span_app name_char pre), SP. apply in_app_iff. right. left. reflexivity.
Qed.
(** no equals sign: nothing to find *)
Lemma assign_no_eq a prev : ~ In 61%N a -> scan assignment 0 prev a = map Plain a.
Proof.
  intros N. apply scan_none. intros x c y q ->. rewrite match_assignment. cbn [assign_at]. destruct (_ && _); [|reflexivity].
  destruct (snd (span name_char y)) as [|d r] eqn:S; [reflexivity|]. destruct (N.eqb_spec 61 d) as [<-|]; [|reflexivity].
  exfalso. apply N. apply in_app_iff. right. right. rewrite <- (span_app name_char y), S. apply in_app_iff. right. left. reflexivity.
Qed.
End W.

Section O.
Variable uword : char -> bool.
Notation match_re := (match_re uword).
Notation match_pat := (match_pat uword).
Notation scan := (scan uword).

(** ** Matches are prefixes; sequences associate; only the word boundary looks back *)
Lemma match_sound r prev s x u : In (x, u) (match_re r prev s) -> s = x ++ u.
Proof.
  revert prev s x u. induction r as [|p|a IHa b IHb|a IHa b IHb|a IHa|]; intros prev s x u H.
  - rewrite mr_eps in H. destruct H as [[= <- <-]|[]]. reflexivity.
  - rewrite mr_cls in H. destruct s as [|c t]; [destruct H|]. destruct (p c); [destruct H as [[= <- <-]|[]]|destruct H]. reflexivity.
  - rewrite mr_seq in H. apply in_flat_map in H. destruct H as ([y v] & H1 & H2). apply in_map_iff in H2. destruct H2 as ([z w] & [= <- <-] & H2). cbn [fst snd] in *.
    apply IHa in H1. apply IHb in H2. subst. rewrite app_assoc. reflexivity.
  - rewrite mr_alt in H. apply in_app_iff in H. destruct H as [H|H]; [exact (IHa _ _ _ _ H)|exact (IHb _ _ _ _ H)].
  - cbn [Secrets_Model.match_re] in H. revert H. generalize (length s) at 1. intros f. revert prev s x u. induction f as [|f IHf]; intros prev s x u H; cbn [star] in H.
    + destruct H as [[= <- <-]|[]]. reflexivity.
    + apply in_app_iff in H. destruct H as [H|[[= <- <-]|[]]]; [|reflexivity]. apply in_flat_map in H. destruct H as ([y v] & H1 & H2). cbn [fst snd] in H2.
      destruct y as [|y0 y]; [destruct H2|]. apply in_map_iff in H2. destruct H2 as ([z w] & E & H2). cbn [fst snd] in E. apply IHa in H1. apply IHf in H2. assert (E1 : x = (y0 :: y) ++ z) by congruence. assert (E2 : u = w) by congruence. rewrite H1, H2, E1, E2. apply app_assoc.
  - rewrite mr_word in H. destruct (xorb _ _); [destruct H as [[= <- <-]|[]]|destruct H]. reflexivity.
Qed.
Lemma seq_assoc a b c prev s : match_re (Seq a (Seq b c)) prev s = match_re (Seq (Seq a b) c) prev s.
Proof.
  rewrite (mr_seq uword a (Seq b c)), (mr_seq uword (Seq a b) c), (mr_seq uword a b).
  induction (match_re a prev s) as [|[x t] l IH]; [reflexivity|]. cbn [flat_map]. rewrite flat_map_app, IH. f_equal. clear. cbn [fst snd].
  rewrite mr_seq, flat_map_map, map_flat_map. apply flat_map_ext. intros [y v]. cbn [fst snd]. rewrite map_map, last_of_app. apply map_ext. intros [z w]. cbn [fst snd]. rewrite app_assoc. reflexivity.
Qed.
Fixpoint no_look (r : re) : bool := match r with WordB => false | Seq a b | Alt a b => no_look a && no_look b | Star a => no_look a | _ => true end.
Lemma match_no_look r : no_look r = true -> forall p q s, match_re r p s = match_re r q s.
Proof.
  induction r as [|f|a IHa b IHb|a IHa b IHb|a IHa|]; cbn [no_look]; intros H p q s; try reflexivity; try discriminate.
  - apply andb_true_iff in H. destruct H as [A B]. rewrite !mr_seq, (IHa A p q s). apply flat_map_ext. intros [x t]. cbn [fst snd]. rewrite (IHb B _ (last_of q x) t). reflexivity.
  - apply andb_true_iff in H. destruct H as [A B]. rewrite !mr_alt, (IHa A p q s), (IHb B p q s). reflexivity.
  - cbn [Secrets_Model.match_re]. generalize (length s). intros f. revert p q s. induction f as [|f IHf]; intros p q s; [reflexivity|]. cbn [star]. rewrite (IHa H p q s). f_equal.
    apply flat_map_ext. intros [[|x0 x] t]; [reflexivity|]. cbn [fst snd]. rewrite (IHf _ (last_of q (x0 :: x)) t). reflexivity.
Qed.
Definition pat_no_look (p : pat) : bool := no_look (g1 p) && no_look (mid p) && no_look (g2 p).
Lemma match_pat_no_look p : pat_no_look p = true -> forall a b s, match_pat p a s = match_pat p b s.
Proof.
  unfold pat_no_look. rewrite !andb_true_iff. intros [[A B] C] a b s. unfold Secrets_Model.match_pat. rewrite (match_no_look _ A a b s).
  match goal with |- match ?l with _ => _ end = match ?l' with _ => _ end => replace l with l'; [reflexivity|] end. apply flat_map_ext. intros x.
  rewrite (match_no_look _ B (last_of b (fst x)) (last_of a (fst x))). apply flat_map_ext. intros y. erewrite (match_no_look _ C). reflexivity.
Qed.
Lemma scan_no_look p : pat_no_look p = true -> forall s k a b, scan p k a s = scan p k b s.
Proof.
  intros H s. destruct s as [|c t]; intros k a b; [reflexivity|]. cbn [Secrets_Model.scan]. rewrite (match_pat_no_look p H a b). reflexivity.
Qed.
(** ** Options *)
Lemma match_is a prev c t : match_re (is a) prev (c :: t) = if (a =? c)%N then [([c], t)] else [].
Proof. reflexivity. Qed.
Lemma match_pat_no_head p prev s : match_re (g1 p) prev s = [] -> match_pat p prev s = None.
Proof. intros H. unfold Secrets_Model.match_pat. rewrite H. reflexivity. Qed.
Lemma option_not_dash prev c t : c <> 45%N -> match_pat option_secret prev (c :: t) = None.
Proof.
  intros N. unfold Secrets_Model.match_pat, option_secret, option_head. cbn [g1 mid g2]. rewrite mr_alt, !mr_seq, !match_is.
  destruct (N.eqb_spec 45 c); [congruence|reflexivity].
Qed.
Lemma ci_false a c : lower_char c <> a -> (a = 115%N -> c <> 383%N) -> (a = 107%N -> c <> 8490%N) -> ci a c = false.
Proof.
  intros A B C. unfold ci. destruct (N.eqb_spec (lower_char c) a); [congruence|]. cbn [orb].
  destruct (N.eqb_spec a 115); cbn [andb orb]; [destruct (N.eqb_spec c 383); [exfalso; apply B; assumption|]|]; cbn [orb];
  (destruct (N.eqb_spec a 107); cbn [andb]; [destruct (N.eqb_spec c 8490); [exfalso; apply C; assumption|reflexivity]|reflexivity]).
Qed.
Lemma lower_char_cases c : (lower_char c = c /\ ~ (65 <= c <= 90)%N) \/ (lower_char c = (c + 32)%N /\ (65 <= c <= 90)%N).
Proof. unfold lower_char. destruct (N.leb_spec 65 c), (N.leb_spec c 90); cbn [andb]; [right|left|left|left]; split; try reflexivity; lia. Qed.
Lemma harmless_ci d : harmless d -> ci 112%N d = false /\ ci 116%N d = false /\ ci 115%N d = false /\ ci 97%N d = false.
Proof.
  intros H. unfold harmless in H. cbn [In] in H. pose proof (lower_char_cases d) as L.
  repeat split; apply ci_false; intros; try lia.
Qed.
Lemma option_word_harmless prev d t : harmless d -> match_re option_word prev (d :: t) = [].
Proof.
  intros H. destruct (harmless_ci d H) as (A & B & C & D). unfold option_word. cbn [one_of]. rewrite !mr_alt.
  cbn [lit]. repeat match goal with |- context [word_ci (lit ?w)] => let x := eval vm_compute in (lit w) in change (lit w) with x end. cbn [word_ci]. rewrite !mr_seq, !mr_cls, A, B, C, D. reflexivity.
Qed.
Lemma option_word_end prev : match_re option_word prev [] = [].
Proof. reflexivity. Qed.
Lemma no_option_miss pre b prev c t : no_option pre -> pre = c :: t -> match_pat option_secret prev (c :: t ++ b) = None.
Proof.
  intros N ->. destruct (N.eq_dec c 45) as [->|NE]; [|apply option_not_dash, NE]. cbn [no_option] in N. destruct N as [H N]. specialize (H eq_refl).
  destruct t as [|d t]; [destruct H|]. cbn [app].
  assert (E : match_re option_head prev (45%N :: d :: t ++ b) = []).
  { unfold option_head. rewrite mr_alt. rewrite !mr_seq, !match_is. cbn [N.eqb Pos.eqb flat_map fst snd]. rewrite !app_nil_r, mr_seq. unfold Opt. rewrite mr_alt, mr_eps, match_is.
    rewrite mr_seq. change (word_ci (lit "p")) with (Cls (ci 112%N)). rewrite mr_cls. destruct (harmless_ci d H) as (A & _). rewrite A.
    destruct (N.eqb_spec 45 d) as [<-|ND].
    - destruct N as [N1 N]. specialize (N1 eq_refl). destruct t as [|e t]; [destruct N1|].
      cbn [app flat_map fst snd]. rewrite !mr_seq. cbn [app] in *.
      rewrite option_word_harmless by exact N1. rewrite option_word_harmless by exact H. reflexivity.
    - cbn [app flat_map fst snd]. rewrite mr_seq. rewrite option_word_harmless by exact H. reflexivity. }
  apply match_pat_no_head. exact E.
Qed.
Lemma option_through pre b prev : no_option pre -> scan option_secret 0 prev (pre ++ b) = map Plain pre ++ scan option_secret 0 (last_of prev pre) b.
Proof.
  intros N. apply scan_through. intros x c y q E. eapply no_option_miss; [|reflexivity]. revert x E. induction pre as [|e pre IH]; intros x E; [destruct x; discriminate|].
  destruct x as [|f x]; [injection E as -> ->; exact N|]. injection E as _ E. destruct N as [_ N]. exact (IH N x E).
Qed.
Lemma option_value_head prev v post : plain_value v -> stops unquoted post -> hd_error (match_re option_value prev (v ++ post)) = Some (v, post).
Proof.
  intros [NV F] S. unfold option_value. cbn [one_of]. rewrite mr_alt.
  assert (SP : span unquoted (v ++ post) = (v, post)).
  { apply span_exact; [|exact S]. eapply Forall_impl; [|exact F]. intros c (A & B & C). unfold unquoted, nonblank, blank. rewrite A. destruct (N.eqb_spec c 34); [congruence|]. destruct (N.eqb_spec c 39); [congruence|]. reflexivity. }
  pose proof (plus_head uword unquoted prev (v ++ post)) as P. rewrite SP in P. destruct (match_re (Plus (Cls unquoted)) prev (v ++ post)); cbn [app hd_error] in *; [destruct v; [congruence|discriminate]|].
  rewrite P. destruct v; [congruence|reflexivity].
Qed.
Lemma option_value_blank prev c t : is_whitespace c = true -> match_re option_value prev (c :: t) = [].
Proof.
  intros W. destruct (blank_not_name uword c W) as (_ & _ & _ & Q1 & Q2 & _). unfold option_value. cbn [one_of]. rewrite !mr_alt, match_plus_cls. unfold unquoted, nonblank, blank. rewrite W. cbn [negb andb app].
  rewrite !mr_seq, !match_is. destruct (N.eqb_spec 34 c); [congruence|]. destruct (N.eqb_spec 39 c); [congruence|]. reflexivity.
Qed.
(** what the head of an option is followed by *)
Definition option_sep : re := Alt (Plus (Cls blank)) (is 61%N).
Lemma option_head_word opt prev X : In opt secret_options ->
  match_re option_head prev (opt ++ X) = map (fun yu => (opt ++ fst yu, snd yu)) (match_re option_sep (last_of prev opt) X).
Proof.
  intros I. unfold option_head. rewrite mr_alt.
  assert (A : match_re (Seq (is 45%N) (Seq (Opt (is 45%N)) option_word)) prev (opt ++ X) = [(opt, X)] /\ match_re (Seq (is 45%N) (Seq (word_ci (lit "p")) (Plus (Cls blank)))) prev (opt ++ X) = []).
  { unfold secret_options in I. cbn [map In] in I. repeat (destruct I as [<-|I]; [split; reflexivity|]). destruct I. }
  destruct A as [A1 A2]. rewrite A2, app_nil_r.
  change (Alt (Plus (Cls blank)) (is 61%N)) with option_sep. rewrite seq_assoc, seq_assoc, mr_seq.
  replace (match_re (Seq (Seq (is 45%N) (Opt (is 45%N))) option_word) prev (opt ++ X)) with [(opt, X)] by (rewrite <- seq_assoc; symmetry; exact A1).
  cbn [flat_map fst snd]. apply app_nil_r.
Qed.
Lemma blank_ci c a : is_whitespace c = true -> (97 <= a <= 122)%N -> ci a c = false.
Proof.
  intros W A. destruct (blank_not_name uword c W) as (NC & _). pose proof (lower_char_cases c) as L. unfold name_char, letter_ci, upper_letter, lower_letter, digit in NC.
  rewrite !orb_false_iff, !andb_false_iff, !N.leb_gt, !N.eqb_neq in NC. apply ci_false; intros; lia.
Qed.
Lemma p_head prev c X : is_whitespace c = true ->
  match_re option_head prev (lit "-p" ++ c :: X) = map (fun yu => (lit "-p" ++ fst yu, snd yu)) (match_re (Plus (Cls blank)) (last_of prev (lit "-p")) (c :: X)).
Proof.
  intros W. assert (C : ci 97%N c = false) by (apply blank_ci; [exact W|lia]). unfold option_head. rewrite mr_alt.
  assert (A : forall q l, l = 112%N :: c :: X -> match_re option_word q l = []).
  { intros q l ->. unfold option_word. cbn [one_of]. rewrite !mr_alt. repeat match goal with |- context [word_ci (lit ?w)] => let x := eval vm_compute in (lit w) in change (lit w) with x end.
    cbn [word_ci]. rewrite !mr_seq, !mr_cls. change (ci 112%N 112%N) with true. change (ci 116%N 112%N) with false. change (ci 115%N 112%N) with false. change (ci 97%N 112%N) with false.
    cbn [flat_map fst snd app]. rewrite !mr_seq, !mr_cls, C. reflexivity. }
  change (lit "-p" ++ c :: X) with (45%N :: 112%N :: c :: X).
  replace (match_re (Seq (is 45%N) (Seq (Opt (is 45%N)) (Seq option_word (Alt (Plus (Cls blank)) (is 61%N))))) prev (45%N :: 112%N :: c :: X)) with (@nil (str * str)).
  - cbn [app]. rewrite mr_seq, match_is. cbn [N.eqb Pos.eqb flat_map fst snd]. rewrite app_nil_r, mr_seq. change (word_ci (lit "p")) with (Cls (ci 112%N)). rewrite mr_cls.
    change (ci 112%N 112%N) with true. cbn [flat_map fst snd]. rewrite app_nil_r, map_map. reflexivity.
  - symmetry. rewrite mr_seq, match_is. cbn [N.eqb Pos.eqb flat_map fst snd]. rewrite app_nil_r, mr_seq. unfold Opt. rewrite mr_alt, mr_eps, match_is. cbn [N.eqb Pos.eqb app flat_map fst snd].
    rewrite mr_seq, A by reflexivity. reflexivity.
Qed.
(** blanks and then a value *)
Lemma option_blanks opt sep v post prev q : sep <> [] -> blanks sep -> plain_value v -> stops unquoted post ->
  match flat_map (fun a => flat_map (fun b => map (fun c => Hit (fst a) (fst b) (fst c)) (match_re option_value (last_of (last_of prev (fst a)) (fst b)) (snd b))) (match_re Eps (last_of prev (fst a)) (snd a)))
     (map (fun yu => (opt ++ fst yu, snd yu)) (match_re (Plus (Cls blank)) q (sep ++ v ++ post)))
  with h :: _ => Some h | [] => None end = Some (Hit (opt ++ sep) [] v).
Proof.
  intros NS BS V P. destruct sep as [|c sep]; [congruence|]. inversion BS as [|? ? W BS']; subst. cbn [app]. rewrite match_plus_cls. unfold blank at 1. rewrite W.
  rewrite !flat_map_map. rewrite (desc_longest blank (sep ++ v ++ post)).
  2:{ intros x d u D. cbn [fst snd]. rewrite mr_eps. cbn [flat_map fst snd]. rewrite (option_value_blank _ d u D). reflexivity. }
  assert (SP : span blank (sep ++ v ++ post) = (sep, v ++ post)).
  { apply span_exact; [exact BS'|]. destruct V as [NV F]. destruct v as [|v0 v]; [congruence|]. inversion F as [|? ? (A & _) _]; subst. exact A. }
  rewrite SP. cbn [fst snd]. rewrite mr_eps. cbn [flat_map fst snd]. rewrite !app_nil_r.
  match goal with |- context [match_re option_value ?q ?x] => pose proof (option_value_head q v post V P) as H; destruct (match_re option_value q x) as [|y l]; cbn [hd_error] in H end; [discriminate|]. injection H as ->. reflexivity.
Qed.
Lemma option_at opt sep v post prev : carries_secret opt sep -> plain_value v -> stops unquoted post ->
  match_pat option_secret prev (opt ++ sep ++ v ++ post) = Some (Hit (opt ++ sep) [] v).
Proof.
  intros [[I S]|(-> & NS & BS)] V P; unfold Secrets_Model.match_pat, option_secret; cbn [g1 mid g2].
  - rewrite (option_head_word opt prev _ I). unfold option_sep. rewrite mr_alt. destruct S as [->|[NS BS]].
    + rewrite match_plus_cls. cbn [app]. rewrite match_is. change (blank 61%N) with false. cbn [N.eqb Pos.eqb app map flat_map fst snd]. rewrite mr_eps. cbn [flat_map fst snd]. rewrite !app_nil_r.
      match goal with |- context [match_re option_value ?q ?x] => pose proof (option_value_head q v post V P) as H; destruct (match_re option_value q x) as [|y l]; cbn [hd_error] in H end; [discriminate|]. injection H as ->. reflexivity.
    + replace (match_re (is 61%N) (last_of prev opt) (sep ++ v ++ post)) with (@nil (str * str)).
      * rewrite app_nil_r. apply option_blanks; assumption.
      * destruct sep as [|c sep]; [congruence|]. inversion BS as [|? ? W BS']; subst. cbn [app]. rewrite match_is. destruct (N.eqb_spec 61 c) as [<-|_]; [discriminate|reflexivity].
  - destruct sep as [|c sep]; [congruence|]. inversion BS as [|? ? W BS']; subst. cbn [app]. rewrite (p_head prev c (sep ++ v ++ post) W). apply (option_blanks (lit "-p") (c :: sep) v post); assumption.
Qed.
End O.

Section B.
Variable uword : char -> bool.
Notation match_re := (match_re uword).
Notation match_pat := (match_pat uword).
Lemma seq_det a b w X prev : match_re a prev (w ++ X) = [(w, X)] -> match_re (Seq a b) prev (w ++ X) = map (fun yu => (w ++ fst yu, snd yu)) (match_re b (last_of prev w) X).
Proof. intros H. rewrite mr_seq, H. cbn [flat_map fst snd]. apply app_nil_r. Qed.
Lemma star_det b w X prev : (forall q d u, is_whitespace d = true -> match_re b q (d :: u) = []) -> blanks w -> stops blank X ->
  match_re (Seq (Star (Cls blank)) b) prev (w ++ X) = map (fun yu => (w ++ fst yu, snd yu)) (match_re b (last_of prev w) X).
Proof.
  intros H B S. rewrite mr_seq, match_star_cls, (desc_longest blank (w ++ X)).
  - rewrite (span_exact blank w X B S). reflexivity.
  - intros x d u D. cbn [fst snd]. rewrite H by exact D. reflexivity.
Qed.
Lemma bearer_at hdr v post prev : bearer_header hdr -> v <> [] -> Forall (fun c => bearer_char c = true) v -> stops bearer_char post ->
  match_pat auth_bearer prev (hdr ++ v ++ post) = Some (Hit hdr [] v).
Proof.
  intros [a w1 w2 b w3 IA B1 B2 IB N3 B3] NV FV SP. unfold Secrets_Model.match_pat, auth_bearer. cbn [g1 mid g2]. rewrite <- !app_assoc. cbn [app]. rewrite <- !app_assoc.
  assert (DA : forall q X, match_re (word_ci (lit "authorization")) q (a ++ X) = [(a, X)]) by (intros q X; cbn [map In] in IA; destruct IA as [<-|[<-|[]]]; reflexivity).
  assert (DB : forall q X, match_re (word_ci (lit "bearer")) q (b ++ X) = [(b, X)]) by (intros q X; cbn [map In] in IB; destruct IB as [<-|[<-|[]]]; reflexivity).
  assert (SB : forall X, stops blank (b ++ X)) by (intros X; cbn [map In] in IB; destruct IB as [<-|[<-|[]]]; reflexivity).
  assert (BW : forall r q d u, is_whitespace d = true -> match_re (Seq (word_ci (lit "bearer")) r) q (d :: u) = []).
  { intros r q d u D. rewrite mr_seq. change (word_ci (lit "bearer")) with (Seq (Cls (ci 98%N)) (word_ci (lit "earer"))). rewrite mr_seq, mr_cls, (blank_ci uword d 98%N D) by lia. reflexivity. }
  rewrite (seq_det _ _ a _ prev (DA _ _)). rewrite star_det; [|intros q d u D; rewrite mr_seq, match_is; destruct (N.eqb_spec 58 d) as [<-|_]; [discriminate|reflexivity]|exact B1|reflexivity].
  rewrite (seq_det (is 58%N) _ [58%N] (w2 ++ b ++ w3 ++ v ++ post)) by reflexivity. rewrite star_det; [|apply BW|exact B2|apply SB].
  rewrite (seq_det _ _ b _ _ (DB _ _)). rewrite !map_map. rewrite flat_map_map.
  destruct w3 as [|c w3]; [congruence|]. inversion B3 as [|? ? W B3']; subst. cbn [app]. rewrite match_plus_cls. unfold blank at 1. rewrite W. rewrite flat_map_map.
  rewrite (desc_longest blank (w3 ++ v ++ post)).
  - assert (VB : stops blank (v ++ post)).
    { destruct v as [|v0 v]; [congruence|]. inversion FV as [|? ? V0 _]; subst. cbn. unfold blank. destruct (is_whitespace v0) eqn:E; [|reflexivity].
      destruct (blank_not_name uword v0 E) as (NC & _). unfold bearer_char in V0. unfold name_char in NC. rewrite !orb_false_iff in NC. destruct NC as [[NC1 NC2] _]. rewrite NC1, NC2 in V0. cbn [orb] in V0. apply mem_char_iff in V0. vm_compute in V0.
      repeat (destruct V0 as [<-|V0]; [discriminate|]). destruct V0. }
    rewrite (span_exact blank w3 (v ++ post) B3' VB). cbn [fst snd]. rewrite mr_eps. cbn [flat_map fst snd]. rewrite !app_nil_r.
    match goal with |- context [match_re (Plus (Cls bearer_char)) ?q ?x] => pose proof (plus_head uword bearer_char q x) as H; destruct (match_re (Plus (Cls bearer_char)) q x) as [|y l]; cbn [hd_error] in H end;
      rewrite (span_exact bearer_char v post FV SP) in H; destruct v as [|v0 v]; try congruence. injection H as ->. cbn [map fst]. cbn [app]. reflexivity.
  - intros x d u D. cbn [fst snd]. rewrite mr_eps. cbn [flat_map fst snd]. rewrite match_plus_cls. replace (bearer_char d) with false; [reflexivity|]. symmetry.
    destruct (blank_not_name uword d D) as (NC & _). unfold bearer_char. unfold name_char in NC. rewrite !orb_false_iff in NC. destruct NC as [[NC1 NC2] _]. rewrite NC1, NC2. cbn [orb].
    destruct (mem_char d (lit "._~+/=-")) eqn:E; [|reflexivity]. apply mem_char_iff in E. vm_compute in E. repeat (destruct E as [<-|E]; [discriminate|]). destruct E.
Qed.
Lemma bearer_not_a prev c t : c <> 97%N -> c <> 65%N -> match_pat auth_bearer prev (c :: t) = None.
Proof.
  intros A B. apply match_pat_no_head. cbn [g1 auth_bearer]. rewrite mr_seq. change (word_ci (lit "authorization")) with (Seq (Cls (ci 97%N)) (word_ci (lit "uthorization"))). rewrite mr_seq, mr_cls.
  replace (ci 97%N c) with false; [reflexivity|]. symmetry. pose proof (lower_char_cases c). apply ci_false; intros; lia.
Qed.
Lemma in_seq r1 r2 prev s x u : In (x, u) (match_re (Seq r1 r2) prev s) -> exists y z v q, x = y ++ z /\ In (y, v) (match_re r1 prev s) /\ In (z, u) (match_re r2 q v).
Proof.
  rewrite mr_seq. intros H. apply in_flat_map in H. destruct H as ([y v] & H1 & H2). apply in_map_iff in H2. destruct H2 as ([z w] & E & H2). cbn [fst snd] in *. injection E as <- <-. eauto 8.
Qed.
Lemma bearer_needs_colon prev s : ~ In 58%N s -> match_pat auth_bearer prev s = None.
Proof.
  intros N. apply match_pat_no_head. destruct (match_re (g1 auth_bearer) prev s) as [|[x u] l] eqn:E; [reflexivity|]. exfalso.
  assert (I : In (x, u) (match_re (g1 auth_bearer) prev s)) by (rewrite E; left; reflexivity). pose proof (match_sound _ _ _ _ _ _ I) as S. cbn [g1 auth_bearer] in I.
  apply in_seq in I. destruct I as (y1 & z1 & v1 & q1 & -> & _ & I). apply in_seq in I. destruct I as (y2 & z2 & v2 & q2 & -> & _ & I). apply in_seq in I. destruct I as (y3 & z3 & v3 & q3 & -> & I & _).
  destruct v2 as [|c v2]; [destruct I|]. rewrite match_is in I. destruct (N.eqb_spec 58 c) as [<-|]; [|destruct I]. destruct I as [[= <- _]|[]].
  apply N. rewrite S. rewrite !in_app_iff. left. right. right. left. left. reflexivity.
Qed.
Lemma query_not_mark prev c t : c <> 63%N -> c <> 38%N -> match_pat query_secret prev (c :: t) = None.
Proof.
  intros A B. apply match_pat_no_head. cbn [g1 query_secret]. rewrite mr_seq, mr_cls. destruct (N.eqb_spec c 63); [congruence|]. destruct (N.eqb_spec c 38); [congruence|]. reflexivity.
Qed.
Lemma query_at m n v post prev : m = 63%N \/ m = 38%N -> In n secret_parameters -> v <> [] -> Forall (fun c => query_char c = true) v -> stops query_char post ->
  match_pat query_secret prev ((m :: n ++ [61%N]) ++ v ++ post) = Some (Hit (m :: n ++ [61%N]) [] v).
Proof.
  intros M IN NV FV SP. unfold Secrets_Model.match_pat, query_secret. cbn [g1 mid g2].
  assert (E : forall X, match_re (Seq (Cls (fun c => (c =? 63)%N || (c =? 38)%N)) (Seq (one_of [word_ci (lit "token"); word_ci (lit "access_token"); word_ci (lit "api_key"); word_ci (lit "apikey"); word_ci (lit "auth"); word_ci (lit "password")]) (is 61%N))) prev ((m :: n ++ [61%N]) ++ X) = [(m :: n ++ [61%N], X)]).
  { intros X. unfold secret_parameters in IN. cbn [map In] in IN. destruct M as [-> | ->]; repeat (destruct IN as [<-|IN]; [reflexivity|]); destruct IN. }
  rewrite E. cbn [flat_map fst snd]. rewrite mr_eps. cbn [flat_map fst snd]. rewrite !app_nil_r.
  match goal with |- context [match_re (Plus (Cls query_char)) ?q ?x] => pose proof (plus_head uword query_char q x) as H; destruct (match_re (Plus (Cls query_char)) q x) as [|y l]; cbn [hd_error] in H end;
    rewrite (span_exact query_char v post FV SP) in H; destruct v as [|v0 v]; try congruence. injection H as ->. reflexivity.
Qed.
End B.
