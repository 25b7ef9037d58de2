(** C272, C273: the skills offered to the assistant. *)
From Coq Require Import Permutation.
From Verif Require Import Base Frecency_Model Frecency_Proofs.
From Verif Require Offer_Spec Offer_Props.
From Verif Require Import Direnv_Model Direnv_Proofs.
From Verif Require Import Skills_Model Skills_Spec.

(** ** The summary *)
Lemma join_chars ws c : In c (join_with (lit " ") ws) -> c = 32%N \/ exists w, In w ws /\ In c w.
Proof.
  induction ws as [|w ws IH]; [intros []|]. destruct ws as [|w' ws].
  - cbn. intros H. right. exists w. auto.
  - cbn [join_with]. intros H. apply in_app_or in H as [H|H]; [right; exists w; split; [left; reflexivity|exact H]|].
    apply in_app_or in H as [[<-|[]]|H]; [left; reflexivity|]. destruct (IH H) as [X|(q & Q & X)]; [auto|]. right. exists q. split; [right; exact Q|exact X].
Qed.
Lemma words_solid s ws : Words s ws -> forall w c, In w ws -> In c w -> is_whitespace c = false.
Proof. induction 1 as [s H|gap w rest ws G N W R _ IH]; [intros w c []|]. intros q c [<-|Q] I; [auto|exact (IH q c Q I)]. Qed.
Lemma collapse_chars s c : In c (collapse s) -> is_whitespace c = true -> c = 32%N.
Proof.
  intros H B. apply join_chars in H as [H|(w & W & I)]; [exact H|].
  assert (X : Words s (split_whitespace s)) by (apply Words_iff; reflexivity). rewrite (words_solid _ _ X w c W I) in B. discriminate B.
Qed.
Lemma truncate_chars s : length (truncate s) <= 143 /\ forall c, In c (truncate s) -> In c s \/ c = 46%N.
Proof.
  unfold truncate. destruct (length s <=? most) eqn:E.
  - apply Nat.leb_le in E. unfold most in E. split; [lia|auto].
  - split.
    + rewrite app_length, firstn_length. unfold most. cbn [length lit]. change (length (lit "...")) with 3. lia.
    + intros c H. apply in_app_or in H as [H|H].
      * left. rewrite <- (firstn_skipn most s). apply in_or_app. auto.
      * right. cbn in H. destruct H as [<-|[<-|[<-|[]]]]; reflexivity.
Qed.
(** C272: a summary is one line of at most 143 characters, whatever the skill holds. *)
Theorem C272_line content : length (summary content) <= 143 /\ forall c, In c (summary content) -> is_whitespace c = true -> c = 32%N.
Proof.
  assert (K : forall s, length (truncate (collapse s)) <= 143 /\ forall c, In c (truncate (collapse s)) -> is_whitespace c = true -> c = 32%N).
  { intros s. destruct (truncate_chars (collapse s)) as [A B]. split; [exact A|]. intros c I W. destruct (B c I) as [X| ->]; [exact (collapse_chars s c X W)|discriminate W]. }
  unfold summary. destruct (split_frontmatter content) as [fm b]. destruct (match fm with Some f => _ | None => None end); apply K.
Qed.

Lemma trim_end_blank l c : is_whitespace c = true -> trim (l ++ [c]) = trim l.
Proof.
  intros W. apply Offer_Props.trim_iff. destruct (Offer_Props.trim_trimmed l) as (a & b & E & A & B & X & Y).
  exists a, (b ++ [c]). split; [rewrite E at 1; rewrite <- !app_assoc; reflexivity|]. split; [exact A|]. split; [|auto].
  intros x I. apply in_app_or in I as [I|[<-|[]]]; [apply B, I|exact W].
Qed.
Lemma trim_cr l : trim (strip_cr l) = trim l.
Proof.
  unfold strip_cr. destruct (rev l) as [|c r] eqn:E; [reflexivity|]. destruct (N.eqb_spec c 13) as [->|_]; [|reflexivity].
  rewrite <- (rev_involutive l), E. cbn [rev]. rewrite trim_end_blank by reflexivity. reflexivity.
Qed.
Lemma trim_id v : (forall c r, v = c :: r -> is_whitespace c = false) -> (forall c r, v = r ++ [c] -> is_whitespace c = false) -> trim v = v.
Proof.
  intros A B. apply Offer_Props.trim_iff. exists [], []. split; [rewrite app_nil_r; reflexivity|]. split; [intros x []|]. split; [intros x []|]. auto.
Qed.
Lemma trim_edges v : trim v = v -> (forall c r, v = c :: r -> is_whitespace c = false) /\ (forall c r, v = r ++ [c] -> is_whitespace c = false).
Proof. intros E. apply Offer_Props.trim_iff in E. destruct E as (a & b & _ & _ & _ & X & Y). auto. Qed.
Lemma inclusive_aux_nl l s cur : a_line l -> inclusive_aux cur (l ++ nl :: s) = (rev cur ++ l ++ [nl]) :: inclusive_aux [] s.
Proof.
  revert cur. induction l as [|c l IH]; intros cur H.
  - cbn. reflexivity.
  - cbn [app inclusive_aux]. destruct (N.eqb_spec c nl) as [->|_]; [destruct H; left; reflexivity|].
    rewrite IH by (intros I; apply H; right; exact I). cbn [rev]. rewrite <- app_assoc. reflexivity.
Qed.
Lemma inclusive_nl l s : a_line l -> inclusive (with_end l ++ s) = with_end l :: inclusive s.
Proof. intros H. unfold with_end. rewrite <- app_assoc. cbn [app]. unfold inclusive. rewrite inclusive_aux_nl by exact H. reflexivity. Qed.
Lemma inclusive_many ls s : (forall l, In l ls -> a_line l) -> inclusive (concat (map with_end ls) ++ s) = map with_end ls ++ inclusive s.
Proof.
  induction ls as [|l ls IH]; intros H; [reflexivity|]. cbn [map concat]. rewrite <- app_assoc, inclusive_nl by (apply H; left; reflexivity).
  cbn [app]. rewrite IH by (intros x I; apply H; right; exact I). reflexivity.
Qed.
Lemma inclusive_concat_aux s cur : concat (inclusive_aux cur s) = rev cur ++ s.
Proof.
  revert cur. induction s as [|c s IH]; intros cur; cbn [inclusive_aux].
  - destruct cur; [reflexivity|]. cbn [concat]. reflexivity.
  - destruct (c =? nl)%N; cbn [concat]; rewrite IH; cbn [rev]; [cbn [app]|]; rewrite <- app_assoc; reflexivity.
Qed.
Lemma inclusive_concat s : concat (inclusive s) = s.
Proof. apply (inclusive_concat_aux s []). Qed.
Lemma until_spec ls acc r : (forall l, In l ls -> trim l <> dashes) ->
  until_dashes acc (map with_end ls ++ with_end dashes :: r) = Some (concat (rev acc) ++ concat (map with_end ls), concat r).
Proof.
  revert acc. induction ls as [|l ls IH]; intros acc H.
  - cbn. rewrite app_nil_r. reflexivity.
  - cbn [map app until_dashes]. unfold with_end at 1. rewrite trim_end_blank by reflexivity.
    destruct (str_eqb_spec (trim l) dashes) as [E|_]; [destruct (H l); [left; reflexivity|exact E]|].
    rewrite IH by (intros x I; apply H; right; exact I). cbn [rev concat]. rewrite concat_app. cbn [concat]. rewrite app_nil_r, <- app_assoc. reflexivity.
Qed.
Lemma lines_many ls : (forall l, In l ls -> a_line l) -> forall s, lines (concat (map with_end ls) ++ s) = map strip_cr ls ++ lines s.
Proof.
  induction ls as [|l ls IH]; intros H s; [reflexivity|]. cbn [map concat]. unfold with_end at 1. rewrite <- !app_assoc. cbn [app].
  rewrite lines_nl by (apply H; left; reflexivity). rewrite IH by (intros x I; apply H; right; exact I). reflexivity.
Qed.
Lemma splitn2_parts c t f v : splitn2 c t = (f, Some v) -> t = f ++ c :: v.
Proof.
  revert f v. induction t as [|x t IH]; intros f v H; [discriminate H|]. cbn [splitn2] in H. destruct (N.eqb_spec x c) as [->|_].
  - injection H as <- <-. reflexivity.
  - destruct (splitn2 c t) as [a b]. injection H as <- ->. cbn. rewrite <- (IH a v eq_refl). reflexivity.
Qed.
Lemma field_skip l r : starts_with (lit "description") (trim l) = false -> field (lit "description") (l :: r) = field (lit "description") r.
Proof.
  intros H. cbn [field]. destruct (comment (trim l)); [reflexivity|]. destruct (splitn2 58%N (trim l)) as [f [v|]] eqn:E; [|reflexivity].
  apply splitn2_parts in E. destruct (str_eqb_spec (trim f) (lit "description")) as [D|_]; [exfalso|reflexivity].
  destruct (Offer_Props.trim_trimmed f) as (a & b & F & A & _ & _ & _). rewrite D in F.
  destruct (Offer_Props.trim_trimmed l) as (_ & _ & _ & _ & _ & X & _).
  destruct a as [|c a].
  - cbn [app] in F. assert (S : starts_with (lit "description") (trim l) = true).
    { apply starts_with_iff. rewrite E, F. exists (b ++ 58%N :: v). rewrite <- app_assoc. reflexivity. }
    rewrite S in H. discriminate H.
  - assert (W : is_whitespace c = true) by (apply A; left; reflexivity).
    rewrite (X c (a ++ lit "description" ++ b ++ 58%N :: v)) in W; [discriminate W|].
    rewrite E, F. cbn [app]. rewrite <- !app_assoc. reflexivity.
Qed.
Lemma field_skips ls r : (forall l, In l ls -> starts_with (lit "description") (trim l) = false) ->
  field (lit "description") (map strip_cr ls ++ r) = field (lit "description") r.
Proof.
  induction ls as [|l ls IH]; intros H; [reflexivity|]. cbn [map app]. rewrite field_skip by (rewrite trim_cr; apply H; left; reflexivity).
  apply IH. intros x I. apply H. right. exact I.
Qed.
Lemma field_here v r : plain v -> field (lit "description") (strip_cr (lit "description: " ++ v) :: r) = Some v.
Proof.
  intros (N & T & _ & Q1 & Q2). destruct (trim_edges v T) as [T1 T2]. cbn [field]. rewrite trim_cr.
  assert (E : trim (lit "description: " ++ v) = lit "description: " ++ v).
  { apply trim_id.
    - intros c q X. injection X as <- _. reflexivity.
    - intros c q X. destruct (exists_last N) as (v' & c' & V). rewrite V, app_assoc in X. apply app_inj_tail in X as [_ <-]. apply (T2 c' v' V). }
  rewrite E. change (comment (lit "description: " ++ v)) with false. cbn iota.
  change (lit "description: " ++ v) with (lit "description" ++ 58%N :: 32%N :: v). rewrite splitn2_at.
  2:{ cbn. intros H. repeat (destruct H as [H|H]; [discriminate H|]). destruct H. }
  change (str_eqb (trim (lit "description")) (lit "description")) with true. cbn iota.
  assert (B : trim (32%N :: v) = v).
  { apply Offer_Props.trim_iff. exists [32%N], []. split; [rewrite app_nil_r; reflexivity|]. split; [intros x [<-|[]]; reflexivity|]. split; [intros x []|]. auto. }
  rewrite B. destruct v as [|c v]; [congruence|]. f_equal. unfold strip_quotes. destruct (rev v) as [|d m]; [reflexivity|].
  destruct (N.eqb_spec c 34) as [->|_]; [destruct (Q1 v); reflexivity|]. destruct (N.eqb_spec c 39) as [->|_]; [destruct (Q2 v); reflexivity|]. reflexivity.
Qed.
(** C272: the summary is the description in the head of the skill, its blanks as single spaces, wherever in the head it is. *)
Theorem C272_described before v after_ rest ws : (forall l, In l before -> other l) -> (forall l, In l after_ -> a_line l /\ trim l <> lit "---") ->
  plain v -> Words v ws -> length (join_with (lit " ") ws) <= 140 ->
  summary (concat (map with_end (lit "---" :: before ++ (lit "description: " ++ v) :: after_ ++ [lit "---"])) ++ rest) = join_with (lit " ") ws.
Proof.
  intros B A P W L. set (ls := before ++ (lit "description: " ++ v) :: after_).
  assert (PL : a_line (lit "description: " ++ v)).
  { intros I. apply in_app_or in I as [I|I]; [|destruct P as (_ & _ & X & _); exact (X I)]. cbn in I. repeat (destruct I as [I|I]; [discriminate I|]). destruct I. }
  assert (AL : forall l, In l ls -> a_line l).
  { intros l I. apply in_app_or in I as [I|[<-|I]]; [apply B, I|exact PL|apply A, I]. }
  assert (DL : forall l, In l ls -> trim l <> dashes).
  { intros l I. apply in_app_or in I as [I|[<-|I]]; [apply B, I| |apply A, I].
    destruct P as (N & T & _). destruct (trim_edges v T) as [T1 T2]. rewrite trim_id.
    - intros X. discriminate X.
    - intros c q X. injection X as <- _. reflexivity.
    - intros c q X. destruct (exists_last N) as (v' & c' & V). rewrite V, app_assoc in X. apply app_inj_tail in X as [_ <-]. apply (T2 c' v' V). }
  assert (E : concat (map with_end (lit "---" :: before ++ (lit "description: " ++ v) :: after_ ++ [lit "---"])) ++ rest
    = with_end dashes ++ concat (map with_end ls) ++ with_end dashes ++ rest).
  { unfold ls. cbn [map concat]. change (before ++ (lit "description: " ++ v) :: after_ ++ [lit "---"]) with (before ++ ((lit "description: " ++ v) :: after_) ++ [dashes]).
    rewrite (app_assoc before), map_app, concat_app. cbn [map concat]. rewrite app_nil_r, <- !app_assoc. reflexivity. }
  rewrite E. unfold summary, split_frontmatter.
  assert (DA : a_line dashes) by (cbn; intros I; repeat (destruct I as [I|I]; [discriminate I|]); destruct I).
  rewrite inclusive_nl by exact DA. change (str_eqb (trim (with_end dashes)) dashes) with true. cbn iota.
  rewrite inclusive_many by exact AL. rewrite inclusive_nl by exact DA. rewrite until_spec by exact DL. cbn [rev concat app].
  assert (F : field (lit "description") (lines (concat (map with_end ls))) = Some v).
  { rewrite <- (app_nil_r (concat (map with_end ls))), lines_many by exact AL. unfold ls. rewrite map_app, <- app_assoc.
    rewrite field_skips by (intros l I; apply B, I). cbn [map app]. apply field_here, P. }
  rewrite F. unfold collapse. apply Words_iff in W. rewrite W. unfold truncate, most. apply Nat.leb_le in L. rewrite L. reflexivity.
Qed.
Lemma body_first before l rest ws : (forall x, In x before -> a_line x /\ (trim x = [] \/ exists r, trim x = 35%N :: r)) ->
  a_line l -> trim l <> [] -> (forall r, trim l <> 35%N :: r) -> Words l ws -> length (join_with (lit " ") ws) <= 140 ->
  truncate (collapse (first_line (lines (concat (map with_end (before ++ [l])) ++ rest)))) = join_with (lit " ") ws.
Proof.
  intros B AL N H W L.
  assert (A : forall x, In x (before ++ [l]) -> a_line x) by (intros x I; apply in_app_or in I as [I|[<-|[]]]; [apply B, I|exact AL]).
  rewrite lines_many by exact A.
  assert (F : first_line (map strip_cr (before ++ [l]) ++ lines rest) = trim l).
  { unfold first_line. clear -B N H. induction before as [|b before IH].
    - cbn [app map find]. rewrite trim_cr. destruct (trim l) as [|c t]; [congruence|]. cbn [comment]. destruct (N.eqb_spec c 35) as [->|_]; [destruct (H t); reflexivity|reflexivity].
    - cbn [app map find]. rewrite trim_cr. replace (comment (trim b)) with true; [cbn [negb]; apply IH; intros x I; apply B; right; exact I|].
      destruct (B b (or_introl eq_refl)) as [_ [X|[r X]]]; rewrite X; reflexivity. }
  rewrite F. unfold collapse. assert (T : split_whitespace (trim l) = ws).
  { apply Words_iff. destruct (Offer_Props.trim_trimmed l) as (a & b & E & Ba & Bb & X & Y). revert W. generalize (trim l) as t, E, N, X, Y. clear -Ba Bb.
    intros t E N X Y W. apply Words_iff. apply Words_iff in W. subst l. rewrite <- W. unfold split_whitespace. symmetry.
    assert (G : forall cur s, split_ws_aux cur (s ++ b) = split_ws_aux cur s).
    { intros cur s. revert cur. induction s as [|c s IHs]; intros cur.
      - cbn [app]. clear -Bb. revert cur. induction b as [|c b IHb]; intros cur; [reflexivity|]. cbn [split_ws_aux]. rewrite (Bb c) by (left; reflexivity).
        destruct cur; rewrite IHb by (intros x I; apply Bb; right; exact I); reflexivity.
      - cbn [app split_ws_aux]. destruct (is_whitespace c); [destruct cur|]; rewrite ?IHs; reflexivity. }
    clear -Ba G. induction a as [|c a IHa]; [cbn [app]; apply G|]. cbn [app split_ws_aux]. rewrite (Ba c) by (left; reflexivity).
    apply IHa. intros x I. apply Ba. right. exact I. }
  rewrite T. unfold truncate, most. apply Nat.leb_le in L. rewrite L. reflexivity.
Qed.

(** C272: without a head it is the first line that is neither blank nor a heading. *)
Theorem C272_first before l rest ws : (forall x, In x before -> a_line x /\ (trim x = [] \/ exists r, trim x = 35%N :: r)) ->
  a_line l -> trim l <> lit "---" -> trim l <> [] -> (forall r, trim l <> 35%N :: r) -> Words l ws -> length (join_with (lit " ") ws) <= 140 ->
  summary (concat (map with_end (before ++ [l])) ++ rest) = join_with (lit " ") ws.
Proof.
  intros B AL D N H W L.
  assert (A : forall x, In x (before ++ [l]) -> a_line x) by (intros x I; apply in_app_or in I as [I|[<-|[]]]; [apply B, I|exact AL]).
  assert (S : split_frontmatter (concat (map with_end (before ++ [l])) ++ rest) = (None, concat (map with_end (before ++ [l])) ++ rest)).
  { unfold split_frontmatter. rewrite inclusive_many by exact A. destruct before as [|b before]; cbn [app map].
    - unfold with_end at 1. rewrite trim_end_blank by reflexivity. destruct (str_eqb_spec (trim l) dashes) as [E|_]; [destruct (D E)|reflexivity].
    - unfold with_end at 1. rewrite trim_end_blank by reflexivity. destruct (str_eqb_spec (trim b) dashes) as [E|_]; [exfalso|reflexivity].
      destruct (B b (or_introl eq_refl)) as [_ [X|[r X]]]; rewrite E in X; discriminate X. }
  unfold summary. rewrite S. apply body_first; assumption.
Qed.
(** C272: so it is after a head that gives no description. *)
Theorem C272_after head before l rest ws : (forall x, In x head -> other x) ->
  (forall x, In x before -> a_line x /\ (trim x = [] \/ exists r, trim x = 35%N :: r)) ->
  a_line l -> trim l <> [] -> (forall r, trim l <> 35%N :: r) -> Words l ws -> length (join_with (lit " ") ws) <= 140 ->
  summary (concat (map with_end (lit "---" :: head ++ [lit "---"])) ++ concat (map with_end (before ++ [l])) ++ rest) = join_with (lit " ") ws.
Proof.
  intros HD B AL N H W L. cbn [map concat]. rewrite map_app, concat_app. cbn [map concat]. rewrite app_nil_r, <- !app_assoc.
  change (lit "---") with dashes. unfold summary, split_frontmatter.
  assert (DA : a_line dashes) by (cbn; intros I; repeat (destruct I as [I|I]; [discriminate I|]); destruct I).
  rewrite inclusive_nl by exact DA. change (str_eqb (trim (with_end dashes)) dashes) with true. cbn iota.
  rewrite inclusive_many by (intros x I; apply HD, I). rewrite inclusive_nl by exact DA. rewrite until_spec by (intros x I; apply HD, I). cbn [rev concat app].
  assert (F : field (lit "description") (lines (concat (map with_end head))) = None).
  { rewrite <- (app_nil_r (concat (map with_end head))), lines_many by (intros x I; apply HD, I). rewrite field_skips by (intros x I; apply HD, I). reflexivity. }
  rewrite F, inclusive_concat. apply body_first; assumption.
Qed.

(** ** The list *)
Lemma skills_in es n s : In (n, s) (skills es) <-> exists e, In e es /\ skill_of e = Some (n, s).
Proof.
  induction es as [|e es IH]; cbn [skills].
  - split; [intros []|intros (e & [] & _)].
  - destruct (skill_of e) as [x|] eqn:E.
    + cbn [In]. rewrite IH. split.
      * intros [->|(y & I & S)]; [exists e; split; [left; reflexivity|exact E]|exists y; split; [right; exact I|exact S]].
      * intros (q & [X|I] & S); [subst q; left; congruence|right; exists q; split; assumption].
    + rewrite IH. split.
      * intros (y & I & S). exists y. split; [right; exact I|exact S].
      * intros (q & [X|I] & S); [subst q; congruence|exists q; split; assumption].
Qed.
(** C272: the skills are the folders with a SKILL.md and the files NAME.md, sorted by name. *)
Theorem C272_listed es : (forall n s, In (n, s) (load es) <->
    (exists t c, In (Entry n (Folder (Some (t, Some c)))) es /\ s = summary c)
    \/ (exists t c, In (Entry (n ++ lit ".md") (File t (Some c))) es /\ n <> [] /\ s = summary c))
  /\ ordered by_name (load es).
Proof.
  split.
  - intros n s. unfold load. assert (P : In (n, s) (sort by_name (skills es)) <-> In (n, s) (skills es)).
    { split; apply Permutation_in; [apply Permutation_sym|]; apply sort_perm. }
    rewrite P, skills_in. split.
    + intros ([en b] & I & S). unfold skill_of in S. cbn [e_body e_name] in S. destruct b as [[[t [c|]]|]|t [c|]]; try discriminate S.
      * injection S as -> <-. left. exists t, c. auto.
      * destruct (ends_with (lit ".md") en && (4 <=? length en)) eqn:E; [|discriminate S]. injection S as <- <-.
        apply andb_true_iff in E as [E1 E2]. apply ends_with_iff in E1 as [p E1]. apply Nat.leb_le in E2. right. exists t, c.
        assert (F : firstn (length en - 3) en = p).
        { rewrite E1, app_length. change (length (lit ".md")) with 3. replace (length p + 3 - 3) with (length p) by lia.
          rewrite firstn_app, firstn_all, Nat.sub_diag, firstn_O, app_nil_r. reflexivity. }
        rewrite F, <- E1. split; [exact I|]. split; [|reflexivity]. intros ->. apply (f_equal (@length _)) in E1. change (length ([] ++ lit ".md")) with 3 in E1. lia.
    + intros [(t & c & I & ->)|(t & c & I & N & ->)].
      * exists (Entry n (Folder (Some (t, Some c)))). auto.
      * exists (Entry (n ++ lit ".md") (File t (Some c))). split; [exact I|]. unfold skill_of. cbn [e_body e_name].
        assert (E1 : ends_with (lit ".md") (n ++ lit ".md") = true) by (apply ends_with_iff; exists n; reflexivity). rewrite E1.
        rewrite app_length. change (length (lit ".md")) with 3. destruct n as [|x n]; [congruence|].
        replace (4 <=? length (x :: n) + 3) with true by (symmetry; apply Nat.leb_le; cbn; lia). cbn [andb].
        replace (length (x :: n) + 3 - 3) with (length (x :: n)) by lia. rewrite firstn_app, firstn_all, Nat.sub_diag, firstn_O, app_nil_r. reflexivity.
  - unfold load. apply sort_ordered; unfold by_name.
    + intros x y H. destruct (str_cmp (fst x) (fst y)) eqn:E; try discriminate H. apply str_cmp_gt in E. rewrite E. reflexivity.
    + intros x y z A B. destruct (str_cmp (fst x) (fst y)) eqn:E1; [| |discriminate A].
      * apply str_cmp_eq in E1. rewrite E1. exact B.
      * destruct (str_cmp (fst y) (fst z)) eqn:E2; [| |discriminate B].
        -- apply str_cmp_eq in E2. rewrite <- E2, E1. reflexivity.
        -- rewrite (str_lt_trans _ _ _ E1 E2). reflexivity.
Qed.
(** C272: the text has one row for each skill, *)
Theorem C272_text es : fragment es = match load es with [] => [] | l => head_text ++ concat (map (fun s => lit "- `" ++ fst s ++ lit "`: " ++ snd s ++ [10%N]) l) ++ foot_text end.
Proof. reflexivity. Qed.
(** but a name may hold line ends, and then the rows say whatever the name says. *)
Theorem C272_name_refuted x y t c : exists a b, fragment [Entry (x ++ 10%N :: y) (Folder (Some (t, Some c)))] = a ++ 10%N :: y ++ b.
Proof.
  exists (head_text ++ lit "- `" ++ x), (lit "`: " ++ summary c ++ [10%N] ++ foot_text).
  unfold fragment, load. cbn [skills skill_of e_body e_name]. cbn [sort fold_right insert_sorted map concat]. unfold row. cbn [fst snd]. rewrite <- !app_assoc. cbn [app]. reflexivity.
Qed.

(** ** The copy kept *)
Fixpoint sub (a b : list entry) : Prop :=
  match b with
  | [] => a = []
  | x :: b' => sub a b' \/ exists a', a = x :: a' /\ sub a' b'
  end.
Lemma sub_nil b : sub [] b.
Proof. induction b; cbn; auto. Qed.
Lemma sub_refl a : sub a a.
Proof. induction a as [|x a IH]; cbn; [reflexivity|]. right. exists a. auto. Qed.
Lemma sub_length a b : sub a b -> length a <= length b /\ (length a = length b -> a = b).
Proof.
  revert a. induction b as [|x b IH]; cbn; intros a H.
  - subst a. auto.
  - destruct H as [H|(a' & -> & H)]; destruct (IH _ H) as [L E]; cbn; split; [lia|lia|lia|].
    intros X. f_equal. apply E. lia.
Qed.
Lemma sub_drop a x b c : sub (a ++ x :: b) c -> sub (a ++ b) c.
Proof.
  revert a. induction c as [|y c IH]; cbn; intros a H.
  - destruct a; discriminate H.
  - destruct H as [H|(a' & E & H)]; [left; apply IH, H|]. destruct a as [|z a].
    + cbn in E. injection E as <- <-. left. exact H.
    + cbn in E. injection E as <- <-. right. exists (a ++ b). split; [reflexivity|]. apply IH, H.
Qed.
Definition old (t : N) (d : dir) : dir := filter (fun e => (changed_at e <=? t)%N) d.
Lemma old_app t a b : old t (a ++ b) = old t a ++ old t b.
Proof. apply filter_app. Qed.
Lemma change_sub t0 d0 t d t' d' : (t0 <= t)%N -> change t d t' d' -> sub (old t0 d) d0 -> (t0 <= t')%N /\ sub (old t0 d') d0.
Proof.
  intros T C S. destruct C as [t a e b t' e' L N E|t a b t' e L E|t a e b|t d t' L].
  - split; [lia|]. rewrite old_app in *. cbn [old filter] in *. replace (changed_at e' <=? t0)%N with false by (symmetry; apply N.leb_gt; lia).
    destruct (changed_at e <=? t0)%N; [apply sub_drop in S|]; exact S.
  - split; [lia|]. rewrite old_app in *. cbn [old filter]. replace (changed_at e <=? t0)%N with false by (symmetry; apply N.leb_gt; lia). exact S.
  - split; [exact T|]. rewrite old_app in *. cbn [old filter] in S. destruct (changed_at e <=? t0)%N; [apply sub_drop in S|]; exact S.
  - split; [lia|exact S].
Qed.
Lemma changes_sub t0 d0 t d t' d' : changes t d t' d' -> (t0 <= t)%N -> sub (old t0 d) d0 -> sub (old t0 d') d0.
Proof.
  induction 1 as [t d|t d t1 d1 t2 d2 C _ IH]; intros T S; [exact S|]. destruct (change_sub t0 d0 _ _ _ _ T C S) as [T1 S1]. apply IH; assumption.
Qed.
Lemma change_past t d t' d' : change t d t' d' -> past t d -> past t' d'.
Proof.
  unfold past. intros [t0 a e b t1 e' L N E|t0 a b t1 e L E|t0 a e b|t0 d0 t1 L] P x I.
  - apply in_app_or in I as [I|[<-|I]]; [|lia|].
    + specialize (P x (in_or_app _ _ _ (or_introl I))). lia.
    + assert (J : In x (a ++ e :: b)) by (apply in_or_app; right; right; exact I). specialize (P x J). lia.
  - apply in_app_or in I as [I|[<-|I]]; [|lia|].
    + specialize (P x (in_or_app _ _ _ (or_introl I))). lia.
    + specialize (P x (in_or_app _ _ _ (or_intror I))). lia.
  - apply P. apply in_app_or in I as [I|I]; apply in_or_app; [left|right; right]; exact I.
  - specialize (P x I). lia.
Qed.
Lemma changes_past t d t' d' : changes t d t' d' -> past t d -> past t' d'.
Proof. induction 1 as [t d|t d t1 d1 t2 d2 C _ IH]; intros P; [exact P|]. apply IH, (change_past _ _ _ _ C P). Qed.
Lemma newest_from es m : (m <= fold_left (fun m e => N.max m (changed_at e)) es m)%N
  /\ (forall e, In e es -> (changed_at e <= fold_left (fun m e => N.max m (changed_at e)) es m)%N)
  /\ (forall t, (m <= t)%N -> past t es -> (fold_left (fun m e => N.max m (changed_at e)) es m <= t)%N).
Proof.
  revert m. induction es as [|e es IH]; intros m; cbn [fold_left].
  - split; [lia|]. split; [intros e []|]. intros t H _. exact H.
  - destruct (IH (N.max m (changed_at e))) as (A & B & C). split; [lia|]. split.
    + intros x [<-|I]; [lia|apply B, I].
    + intros t H P. apply C; [|intros x I; apply P; right; exact I]. specialize (P e (or_introl eq_refl)). lia.
Qed.
Lemma same_iff a b : same_signature a b = true <-> a = b.
Proof.
  destruct a as [[n t]|], b as [[m u]|]; cbn; split; try discriminate; auto.
  - intros H. apply andb_true_iff in H as [A B]. apply Nat.eqb_eq in A as ->. apply N.eqb_eq in B as ->. reflexivity.
  - intros [= -> ->]. rewrite Nat.eqb_refl, N.eqb_refl. reflexivity.
Qed.
Lemma same_dir t d t' d' : past t d -> changes t d t' d' -> signature_of (Some d) = signature_of (Some d') -> d' = d.
Proof.
  intros P C E. injection E as L M.
  assert (O : old t d = d).
  { clear -P. unfold old. induction d as [|e d IH]; [reflexivity|]. cbn [filter]. replace (changed_at e <=? t)%N with true by (symmetry; apply N.leb_le, P; left; reflexivity).
    f_equal. apply IH. intros x I. apply P. right. exact I. }
  pose proof (changes_sub t d t d t' d' C (N.le_refl t)) as S. rewrite O in S. specialize (S (sub_refl d)).
  assert (Q : past t d').
  { intros e I. destruct (newest_from d' 0%N) as (_ & B & _). specialize (B e I). destruct (newest_from d 0%N) as (_ & _ & X). specialize (X t (N.le_0_l t) P).
    unfold newest in M. lia. }
  assert (O' : old t d' = d').
  { clear -Q. unfold old. induction d' as [|e d' IH]; [reflexivity|]. cbn [filter]. replace (changed_at e <=? t)%N with true by (symmetry; apply N.leb_le, Q; left; reflexivity).
    f_equal. apply IH. intros x I. apply Q. right. exact I. }
  rewrite O' in S. apply sub_length in S as [_ S]. apply S. symmetry. exact L.
Qed.
(** C273: when files are only written, added and removed, and each time by a later clock, every answer is that of the folder as it is. *)
Theorem C273_fresh_partial t d r : past t d -> history t d r -> answers (d :: r) None = map (fun x => text_of (Some x)) (d :: r).
Proof.
  intros P H. cbn [answers ask map]. f_equal. revert P. induction H as [t d|t d t' d' r C H IH]; intros P; [reflexivity|].
  cbn [answers]. unfold ask at 1. destruct (same_signature (signature_of (Some d)) (signature_of (Some d'))) eqn:E.
  - apply same_iff in E. pose proof (same_dir t d t' d' P C E) as D. cbn [map]. f_equal; [rewrite D; reflexivity|].
    rewrite <- D. apply IH, (changes_past _ _ _ _ C P).
  - cbn [map]. f_equal. apply IH, (changes_past _ _ _ _ C P).
Qed.
(** C273 does not hold for other changes: folders with as many entries and the same newest change are taken as the same.  So after a skill is
    renamed, or another file than the newest is put back to an older text, the answers stay as they were. *)
Theorem C273_same_refuted d d' : length d = length d' -> newest d = newest d' -> answers [d; d'] None = [text_of (Some d); text_of (Some d)].
Proof.
  intros L N. cbn [answers]. unfold ask. cbn [signature_of]. rewrite L, N.
  assert (E : same_signature (Some (length d', newest d')) (Some (length d', newest d')) = true) by (apply same_iff; reflexivity). rewrite E. reflexivity.
Qed.
Theorem C273_rename_refuted a n n' b c : answers [a ++ Entry n b :: c; a ++ Entry n' b :: c] None
  = [text_of (Some (a ++ Entry n b :: c)); text_of (Some (a ++ Entry n b :: c))].
Proof.
  apply C273_same_refuted; [rewrite !app_length; reflexivity|]. unfold newest. rewrite !fold_left_app. reflexivity.
Qed.
(** A skill whose SKILL.md is deleted, its folder left, is still offered when another one is as new. *)
Theorem C273_deleted_refuted n m t u x b : (t <= u)%N ->
  answers [[Entry n (Folder (Some (t, x))); Entry m (File u b)]; [Entry n (Folder None); Entry m (File u b)]] None
  = [text_of (Some [Entry n (Folder (Some (t, x))); Entry m (File u b)]); text_of (Some [Entry n (Folder (Some (t, x))); Entry m (File u b)])].
Proof. intros H. apply C273_same_refuted; [reflexivity|]. unfold newest. cbn [fold_left changed_at e_body]. lia. Qed.
Definition one (n : str) : dir := [Entry n (Folder (Some (5%N, Some (lit "Say hello."))))].
Example C273_fresh_ex : answers [one (lit "a"); one (lit "a") ++ one (lit "b")] None = [text_of (Some (one (lit "a"))); text_of (Some (one (lit "a") ++ one (lit "b")))]
  /\ past 5 (one (lit "a")) /\ history 5 (one (lit "a")) [[Entry (lit "a") (File 6 None)]; []].
Proof.
  split; [vm_compute; reflexivity|]. split; [intros e [<-|[]]; cbn; lia|].
  eapply h_more; [eapply cs_one; [|apply cs_none]|].
  - apply (ch_write 5%N [] (Entry (lit "a") (Folder (Some (5%N, Some (lit "Say hello."))))) [] 6%N (Entry (lit "a") (File 6 None))); [lia|reflexivity|reflexivity].
  - eapply h_more; [eapply cs_one; [|apply cs_none]|apply h_end]. apply (ch_remove 6%N [] (Entry (lit "a") (File 6 None)) []).
Qed.
Example C273_rename_ex : text_of (Some (one (lit "a"))) <> text_of (Some (one (lit "b"))).
Proof. vm_compute. discriminate. Qed.
Example C272_ex : summary (lit "---" ++ [10%N] ++ lit "name: x" ++ [10%N] ++ lit "description: Short  text" ++ [10%N] ++ lit "---" ++ [10%N]) = lit "Short text"
  /\ summary (lit "# Title" ++ [10%N; 10%N] ++ lit "Use this." ++ [10%N]) = lit "Use this.".
Proof. split; vm_compute; reflexivity. Qed.

Print Assumptions C272_line. Print Assumptions C272_described. Print Assumptions C272_first. Print Assumptions C272_after. Print Assumptions C272_listed. Print Assumptions C272_text.
Print Assumptions C272_name_refuted. Print Assumptions C273_fresh_partial. Print Assumptions C273_same_refuted. Print Assumptions C273_rename_refuted. Print Assumptions C273_deleted_refuted.
