(** C136, C137: "did you mean". *)
From Verif Require Import Base Frecency_Model Frecency_Proofs Table_Model Table_Props Typo_Model Typo_Spec.
From Coq Require Import Sorting.Sorted Sorting.Permutation.

(** ** the least number of edits *)
Definition cost (x y : char) : nat := if (x =? y)%N then 0 else 1.
(** alignments *)
Inductive ali : nat -> str -> str -> Prop :=
| a_nil : ali 0 [] []
| a_both n x y a b : ali n a b -> ali (n + cost x y) (x :: a) (y :: b)
| a_del n x a b : ali n a b -> ali (S n) (x :: a) b
| a_ins n y a b : ali n a b -> ali (S n) a (y :: b).
Lemma cost_le x y : cost x y <= 1.
Proof. unfold cost. destruct (x =? y)%N; lia. Qed.
Lemma cost_same x : cost x x = 0.
Proof. unfold cost. rewrite N.eqb_refl. reflexivity. Qed.

Lemma ali_refl a : ali 0 a a.
Proof. induction a as [|x a IH]; [constructor|]. rewrite <- (cost_same x) at 1. change (cost x x) with (0 + cost x x). constructor. exact IH. Qed.
Lemma ali_app n a b m c d : ali n a b -> ali m c d -> ali (n + m) (a ++ c) (b ++ d).
Proof.
  intros H K. induction H as [|n x y a b H IH|n x a b H IH|n y a b H IH]; [exact K| | |]; cbn [app plus].
  - replace (n + cost x y + m) with (n + m + cost x y) by lia. constructor. exact IH.
  - constructor. exact IH.
  - constructor. exact IH.
Qed.
Lemma ali_rev n a b : ali n a b -> ali n (rev a) (rev b).
Proof.
  intros H. induction H as [|n x y a b H IH|n x a b H IH|n y a b H IH]; cbn [rev]; [constructor| | |].
  - apply ali_app; [exact IH|]. change (cost x y) with (0 + cost x y). repeat constructor.
  - replace (S n) with (n + 1) by lia. rewrite <- (app_nil_r (rev b)). apply ali_app; [exact IH|]. repeat constructor.
  - replace (S n) with (n + 1) by lia. rewrite <- (app_nil_r (rev a)). apply ali_app; [exact IH|]. repeat constructor.
Qed.

Lemma edit_cons x a b : edit a b -> edit (x :: a) (x :: b).
Proof. intros [u c v|u c v|u c d v]; [apply (put_in (x :: u))|apply (take_out (x :: u))|apply (exchange (x :: u))]. Qed.
Lemma edits_cons n x a b : edits n a b -> edits n (x :: a) (x :: b).
Proof. intros H. induction H as [|n a b c E H IH]; [constructor|]. econstructor; [apply edit_cons, E|exact IH]. Qed.
Lemma ali_edits n a b : ali n a b -> edits n a b.
Proof.
  intros H. induction H as [|n x y a b H IH|n x a b H IH|n y a b H IH].
  - constructor.
  - unfold cost. destruct (N.eqb_spec x y) as [->|]; [rewrite Nat.add_0_r; apply edits_cons, IH|]. rewrite Nat.add_1_r. econstructor; [apply (exchange [] x y a)|]. apply edits_cons, IH.
  - econstructor; [apply (take_out [] x a)|exact IH].
  - econstructor; [apply (put_in [] y a)|]. apply edits_cons, IH.
Qed.
Lemma edit_split a b : edit a b -> (exists x, b = x :: a) \/ (exists x, a = x :: b) \/ (exists x y r, a = x :: r /\ b = y :: r) \/ (exists x a' b', a = x :: a' /\ b = x :: b' /\ edit a' b').
Proof.
  intros [u c v|u c v|u c d v]; destruct u as [|x u]; cbn.
  - left. eauto.
  - right. right. right. exists x, (u ++ v), (u ++ c :: v). split; [reflexivity|]. split; [reflexivity|constructor].
  - right. left. eauto.
  - right. right. right. exists x, (u ++ c :: v), (u ++ v). split; [reflexivity|]. split; [reflexivity|constructor].
  - right. right. left. eauto.
  - right. right. right. exists x, (u ++ c :: v), (u ++ d :: v). split; [reflexivity|]. split; [reflexivity|constructor].
Qed.
Lemma ali_edit n b c : ali n b c -> forall a, edit a b -> exists m, m <= S n /\ ali m a c.
Proof.
  intros H. induction H as [|n x y b c H IH|n x b c H IH|n y b c H IH]; intros a E; apply edit_split in E.
  - destruct E as [[z E]|[[z ->]|[(z & w & r & _ & E)|(z & a' & b' & _ & E & _)]]]; try discriminate E. exists 1. split; [lia|]. repeat constructor.
  - destruct E as [[z E]|[[z ->]|[(z & w & r & -> & E)|(z & a' & b' & -> & E & K)]]].
    + injection E as _ <-. exists (S n). split; [lia|]. constructor. exact H.
    + exists (S (n + cost x y)). split; [lia|]. constructor. constructor. exact H.
    + injection E as _ <-. exists (n + cost z y). split; [pose proof (cost_le z y); lia|]. constructor. exact H.
    + injection E as <- <-. destruct (IH a' K) as (m & L & A). exists (m + cost x y). split; [lia|]. constructor. exact A.
  - destruct E as [[z E]|[[z ->]|[(z & w & r & -> & E)|(z & a' & b' & -> & E & K)]]].
    + injection E as _ <-. exists n. split; [lia|exact H].
    + exists (S (S n)). split; [lia|]. constructor. constructor. exact H.
    + injection E as _ <-. exists (S n). split; [lia|]. constructor. exact H.
    + injection E as <- <-. destruct (IH a' K) as (m & L & A). exists (S m). split; [lia|]. constructor. exact A.
  - destruct (IH a) as (m & L & A).
    + destruct E as [[z ->]|[[z ->]|[(z & w & r & -> & ->)|(z & a' & b' & -> & -> & K)]]]; [apply (put_in [])|apply (take_out [])|apply (exchange [])|apply edit_cons, K].
    + exists (S m). split; [lia|]. constructor. exact A.
Qed.
Lemma edits_ali n a b : edits n a b -> exists m, m <= n /\ ali m a b.
Proof.
  intros H. induction H as [a|n a b c E H (m & L & A)]; [exists 0; split; [lia|apply ali_refl]|].
  destruct (ali_edit m b c A a E) as (k & Lk & Ak). exists k. split; [lia|exact Ak].
Qed.

(** the recursion of which the rows hold the values *)
Fixpoint dist (a b : str) {struct a} : nat :=
  match a with
  | [] => length b
  | x :: a' => (fix go (b : str) : nat := match b with
                                          | [] => S (length a')
                                          | y :: b' => Nat.min (Nat.min (dist a' b + 1) (go b' + 1)) (dist a' b' + cost x y)
                                          end) b
  end.
Lemma dist_nil a : dist a [] = length a.
Proof. destruct a; reflexivity. Qed.
Lemma dist_cons x a y b : dist (x :: a) (y :: b) = Nat.min (Nat.min (dist a (y :: b) + 1) (dist (x :: a) b + 1)) (dist a b + cost x y).
Proof. reflexivity. Qed.
Lemma ali_some_del a : ali (length a) a [].
Proof. induction a; cbn; constructor; assumption. Qed.
Lemma ali_some_ins b : ali (length b) [] b.
Proof. induction b; cbn; constructor; assumption. Qed.
Lemma dist_ali a : forall b, ali (dist a b) a b.
Proof.
  induction a as [|x a IHa]; intros b; [apply ali_some_ins|]. induction b as [|y b IHb]; [rewrite dist_nil; apply ali_some_del|].
  rewrite dist_cons. destruct (Nat.min_dec (Nat.min (dist a (y :: b) + 1) (dist (x :: a) b + 1)) (dist a b + cost x y)) as [E|E]; rewrite E.
  - destruct (Nat.min_dec (dist a (y :: b) + 1) (dist (x :: a) b + 1)) as [E'|E']; rewrite E', Nat.add_1_r; constructor; [apply IHa|exact IHb].
  - constructor. apply IHa.
Qed.
Lemma dist_least n a b : ali n a b -> dist a b <= n.
Proof.
  intros H. induction H as [|n x y a b H IH|n x a b H IH|n y a b H IH]; [reflexivity| | |].
  - rewrite dist_cons. lia.
  - destruct b as [|y b]; [rewrite dist_nil in *; cbn; lia|]. rewrite dist_cons. lia.
  - destruct a as [|x a]; [cbn in *; lia|]. rewrite dist_cons. lia.
Qed.
Lemma dist_rev a b : dist (rev a) (rev b) = dist a b.
Proof.
  apply Nat.le_antisymm; apply dist_least.
  - apply ali_rev, dist_ali.
  - rewrite <- (rev_involutive a) at 2. rewrite <- (rev_involutive b) at 2. apply ali_rev, dist_ali.
Qed.

(** what a row holds: for the part [rev ra] of one word and all parts of the other that go on from
    [rev rb] *)
Fixpoint row_of (ra rb b : str) : list nat := dist ra rb :: match b with [] => [] | y :: b' => row_of ra (y :: rb) b' end.
Lemma next_row_ok x ra b : forall rb, dist (x :: ra) rb :: next_row x b (row_of ra rb b) (dist (x :: ra) rb) = row_of (x :: ra) rb b.
Proof.
  induction b as [|y b IH]; intros rb; [reflexivity|]. cbn [row_of]. f_equal. destruct b as [|y' b].
  - cbn [row_of next_row]. rewrite dist_cons. reflexivity.
  - specialize (IH (y :: rb)). cbn [row_of] in *. cbn [next_row]. fold (cost x y). rewrite dist_cons in IH. rewrite dist_cons. exact IH.
Qed.
Lemma rows_over_ok b a : forall ra, rows_over a b (length ra) (row_of ra [] b) = row_of (rev a ++ ra) [] b.
Proof.
  induction a as [|x a IH]; intros ra; [reflexivity|]. cbn [rows_over rev]. rewrite <- app_assoc. cbn [app]. rewrite <- (IH (x :: ra)).
  replace (length ra + 1) with (length (x :: ra)) by (cbn; lia). f_equal. rewrite <- next_row_ok. reflexivity.
Qed.
Lemma first_row b : forall rb, row_of [] rb b = seq (length rb) (S (length b)).
Proof. induction b as [|y b IH]; intros rb; [reflexivity|]. cbn [row_of]. rewrite IH. reflexivity. Qed.
Lemma last_of_row ra b : forall rb, nth (length b) (row_of ra rb b) 0 = dist ra (rev b ++ rb).
Proof. induction b as [|y b IH]; intros rb; [reflexivity|]. cbn [row_of length nth]. rewrite IH. cbn [rev]. rewrite <- app_assoc. reflexivity. Qed.
Lemma levenshtein_dist a b : levenshtein_distance a b = dist a b.
Proof.
  unfold levenshtein_distance. destruct a as [|x a]; [reflexivity|]. destruct b as [|y b]; [rewrite dist_nil; reflexivity|].
  pose proof (first_row (y :: b) []) as R. change (length (@nil char)) with 0 in R. rewrite <- R. clear R.
  pose proof (rows_over_ok (y :: b) (x :: a) []) as R. change (length (@nil char)) with 0 in R. rewrite R, last_of_row, !app_nil_r. apply dist_rev.
Qed.

(** The distance computed is the least number of characters to put in, take out or exchange. *)
Theorem C136_distance_is_least : forall a b n, levenshtein_distance a b = n <-> apart n a b.
Proof.
  intros a b n. rewrite levenshtein_dist. split.
  - intros <-. split; [apply ali_edits, dist_ali|]. intros m E. apply edits_ali in E as (k & L & A). apply dist_least in A. lia.
  - intros [E L]. apply Nat.le_antisymm; [apply edits_ali in E as (k & Lk & A); apply dist_least in A; lia|]. apply L. apply ali_edits, dist_ali.
Qed.
Print Assumptions C136_distance_is_least.
Example C136_case : levenshtein_distance (lit "gti") (lit "git") = 2 /\ levenshtein_distance (lit "kitten") (lit "sitting") = 3 /\ edits 2 (lit "gti") (lit "git").
Proof. split; [reflexivity|]. split; [reflexivity|]. apply C136_distance_is_least. reflexivity. Qed.

(** ** the suggestions *)
Definition pair_of (s : suggestion) : str * nat := (command s, distance s).
Lemma near_iff typo x n : near typo n x <->
  levenshtein_distance typo x = n /\ ((2 <=? blen typo) && (blen typo <=? 30))%bool = true /\ ((n <=? Nat.max 2 (blen typo * 30 / 100)) && (0 <? n))%bool = true.
Proof.
  unfold near. rewrite <- C136_distance_is_least, !andb_true_iff, !Nat.leb_le, Nat.ltb_lt.
  assert (D : n <= blen typo * 30 / 100 <-> n * 100 <= blen typo * 30).
  { split; intros H.
    - pose proof (Nat.mul_div_le (blen typo * 30) 100). lia.
    - apply Nat.div_le_lower_bound; lia. }
  split.
  - intros (H1 & H2 & H3 & H4). split; [exact H1|]. split; [exact H2|]. split; [|lia]. destruct H4 as [H4|H4]; [lia|]. apply D in H4. lia.
  - intros (H1 & H2 & H3 & H4). split; [exact H1|]. split; [exact H2|]. split; [lia|]. destruct (Nat.le_gt_cases n 2); [left; assumption|right]. apply D. lia.
Qed.
(** the accumulated suggestions are those of the words so far *)
Definition holds_for (typo : str) (word : str -> Prop) (s : acc) : Prop :=
  fst s = map command (snd s) /\ NoDup (map command (snd s)) /\ forall x n, In (x, n) (map pair_of (snd s)) <-> word x /\ near typo n x.
Lemma fst_pair (l : list suggestion) : map fst (map pair_of l) = map command l.
Proof. rewrite map_map. reflexivity. Qed.
Lemma push_ok typo word x s : holds_for typo word s -> holds_for typo (fun y => word y \/ y = x) (push_candidate typo x s).
Proof.
  destruct s as [seen found]. intros (E & N & H). cbn [fst snd] in *. unfold push_candidate.
  assert (Keep : (forall n, near typo n x -> In (x, n) (map pair_of found)) -> holds_for typo (fun y => word y \/ y = x) (seen, found)).
  { intros K. split; [exact E|]. split; [exact N|]. intros y n. cbn [snd]. rewrite H. split; [tauto|]. intros [[W| ->] Ny]; [tauto|]. apply H, K, Ny. }
  destruct (mem_str x seen) eqn:M.
  - rewrite orb_true_r. apply Keep. intros n Nx. apply mem_str_iff in M. rewrite E, <- fst_pair in M. apply in_map_iff in M as ([y m] & Ey & Iy). cbn in Ey. subst y.
    assert (n = m) as ->; [|exact Iy]. apply H in Iy as [_ Ny]. apply near_iff in Nx as [<- _]. apply near_iff in Ny as [<- _]. reflexivity.
  - rewrite orb_false_r. destruct ((2 <=? blen typo) && (blen typo <=? 30))%bool eqn:B; cbn [negb].
    + destruct ((levenshtein_distance typo x <=? Nat.max 2 (blen typo * 30 / 100)) && (0 <? levenshtein_distance typo x))%bool eqn:D.
      * split; [|split]; cbn [fst snd].
        -- rewrite map_app, E. reflexivity.
        -- rewrite map_app. cbn. apply NoDup_Add with (a := x) (l := map command found).
           ++ pose proof (Add_app x (map command found) []) as A. rewrite app_nil_r in A. exact A.
           ++ split; [exact N|]. rewrite <- E. apply mem_str_false. exact M.
        -- intros y n. rewrite map_app, in_app_iff, H. cbn. split.
           ++ intros [[W Ny]|[Ey|[]]]; [tauto|]. injection Ey as <- <-. split; [right; reflexivity|]. apply near_iff. auto.
           ++ intros [[W| ->] Ny]; [tauto|]. right. left. unfold pair_of. cbn. f_equal. apply near_iff in Ny as [Ny _]. exact Ny.
      * apply Keep. intros n Nx. apply near_iff in Nx as (<- & _ & Nx). congruence.
    + apply Keep. intros n Nx. apply near_iff in Nx as (_ & Nx & _). congruence.
Qed.
Lemma holds_ext typo w w' s : (forall x, w x <-> w' x) -> holds_for typo w s -> holds_for typo w' s.
Proof. intros W (E & N & H). split; [exact E|]. split; [exact N|]. intros x n. rewrite H, W. reflexivity. Qed.
Lemma push_all typo l : forall word s, holds_for typo word s -> holds_for typo (fun y => word y \/ In y l) (fold_left (fun s b => push_candidate typo b s) l s).
Proof.
  induction l as [|x l IH]; intros word s H; cbn [fold_left]; [revert H; apply holds_ext; cbn; tauto|].
  eapply holds_ext; [|apply IH, push_ok, H]. intros y. cbn. split; [intros [[W|W]|W]; auto|intros [W|[W|W]]; auto].
Qed.
(** the names of programs: files and links in the directories, without the hidden ones *)
Definition program (read_dir : str -> option (list entry)) (paths : list str) (x : str) : Prop :=
  exists p es e, In p paths /\ read_dir p = Some es /\ In e es /\ entry_name e = Some x /\ (forall r, x <> chr "." :: r) /\ entry_kind e <> Some KOther.
Definition entry_ok (e : entry) (x : str) : Prop := entry_name e = Some x /\ (forall r, x <> chr "." :: r) /\ entry_kind e <> Some KOther.
Lemma dot_iff (x : str) : starts_with (lit ".") x = true <-> exists r, x = chr "." :: r.
Proof. rewrite starts_with_iff. split; intros (r & ->); exists r; reflexivity. Qed.
Lemma entry_push typo word e s : holds_for typo word s -> holds_for typo (fun y => word y \/ entry_ok e y) (push_entry typo s e).
Proof.
  intros H. unfold push_entry. destruct (entry_name e) as [x|] eqn:Ne.
  - assert (P : holds_for typo (fun y => word y \/ y = x) (push_candidate typo x s)) by (apply push_ok, H).
    assert (Skip : (forall y, ~ entry_ok e y) -> holds_for typo (fun y => word y \/ entry_ok e y) s).
    { intros K. revert H. apply holds_ext. intros y. split; [tauto|]. intros [W|W]; [exact W|]. exfalso. exact (K y W). }
    destruct (mem_str x (fst s)) eqn:M.
    { destruct s as [seen found]. destruct H as (E & N & H). cbn [fst snd] in *. split; [exact E|]. split; [exact N|]. intros y n. cbn [snd]. rewrite H. split; [tauto|]. intros [[W|(Ey & _)] Ny]; [tauto|].
      rewrite Ne in Ey. injection Ey as <-. apply mem_str_iff in M. rewrite E, <- fst_pair in M. apply in_map_iff in M as ([y m] & Ey & Iy). cbn in Ey. subst y.
      apply H in Iy as [W _]. tauto. }
    destruct (starts_with (lit ".") x) eqn:D.
    { apply Skip. intros y (Ey & K & _). rewrite Ne in Ey. injection Ey as <-. apply dot_iff in D as [r ->]. exact (K r eq_refl). }
    assert (Nd : forall r, x <> chr "." :: r) by (intros r ->; assert (T : starts_with (lit ".") (chr "." :: r) = true) by (apply dot_iff; eauto); congruence).
    destruct (entry_kind e) as [[| |]|] eqn:Ke.
    + revert P. apply holds_ext. intros y. unfold entry_ok. rewrite Ne, Ke. split; intros [W|W]; auto; [subst; right; split; [reflexivity|]; split; [exact Nd|discriminate]|right; destruct W as [W _]; congruence].
    + revert P. apply holds_ext. intros y. unfold entry_ok. rewrite Ne, Ke. split; intros [W|W]; auto; [subst; right; split; [reflexivity|]; split; [exact Nd|discriminate]|right; destruct W as [W _]; congruence].
    + apply Skip. intros y (_ & _ & K). congruence.
    + revert P. apply holds_ext. intros y. unfold entry_ok. rewrite Ne, Ke. split; intros [W|W]; auto; [subst; right; split; [reflexivity|]; split; [exact Nd|discriminate]|right; destruct W as [W _]; congruence].
  - revert H. apply holds_ext. intros y. unfold entry_ok. rewrite Ne. split; [tauto|]. intros [W|[W _]]; [exact W|discriminate W].
Qed.
Lemma entries_push typo es : forall word s, holds_for typo word s -> holds_for typo (fun y => word y \/ exists e, In e es /\ entry_ok e y) (fold_left (push_entry typo) es s).
Proof.
  induction es as [|e es IH]; intros word s H; cbn [fold_left].
  - revert H. apply holds_ext. intros y. split; [tauto|]. intros [W|(e & [] & _)]. exact W.
  - eapply holds_ext; [|apply IH, entry_push, H]. intros y. split.
    + intros [[W|W]|(e' & I & W)]; [auto|right; exists e; split; [left; reflexivity|exact W]|right; exists e'; split; [right; exact I|exact W]].
    + intros [W|(e' & [<-|I] & W)]; [auto|auto|right; exists e'; auto].
Qed.
Lemma paths_push typo read_dir paths : forall word s, holds_for typo word s ->
  holds_for typo (fun y => word y \/ program read_dir paths y) (fold_left (fun s p => match read_dir p with Some es => fold_left (push_entry typo) es s | None => s end) paths s).
Proof.
  induction paths as [|p paths IH]; intros word s H; cbn [fold_left].
  - revert H. apply holds_ext. intros y. split; [tauto|]. intros [W|(q & es & e & [] & _)]. exact W.
  - destruct (read_dir p) as [es|] eqn:R.
    + eapply holds_ext; [|apply IH, entries_push, H]. intros y. split.
      * intros [[W|(e & I & W)]|(q & fs & e & I & W)]; [auto|right; exists p, es, e; split; [left; reflexivity|]; split; [exact R|]; split; [exact I|exact W]|right; exists q, fs, e; split; [right; exact I|exact W]].
      * intros [W|(q & fs & e & [<-|I] & Rq & W)]; [auto| |right; exists q, fs, e; auto]. rewrite R in Rq. injection Rq as <-. left. right. exists e. exact W.
    + eapply holds_ext; [|apply IH, H]. intros y. split.
      * intros [W|(q & fs & e & I & W)]; [auto|right; exists q, fs, e; split; [right; exact I|exact W]].
      * intros [W|(q & fs & e & [<-|I] & Rq & W)]; [auto|congruence|right; exists q, fs, e; auto].
Qed.
Lemma empty_holds typo : holds_for typo (fun _ => False) ([], []).
Proof. split; [reflexivity|]. split; [constructor|]. intros x n. cbn. tauto. Qed.

Lemma nearer_anti a b : nearer b a = CompOpp (nearer a b).
Proof. unfold nearer. rewrite (Nat.compare_antisym (distance a)). destruct (Nat.compare (distance a) (distance b)) eqn:E; cbn; try reflexivity. apply str_cmp_sym. Qed.
Lemma nearer_le a b : nearer a b <> Gt <-> distance a < distance b \/ (distance a = distance b /\ str_cmp (command a) (command b) <> Gt).
Proof.
  unfold nearer. destruct (Nat.compare_spec (distance a) (distance b)) as [E|E|E]; rewrite ?E.
  - split; [intros H; right; auto|]. intros [H|[_ H]]; [lia|exact H].
  - split; [auto|discriminate].
  - split; [congruence|]. intros [H|[H _]]; lia.
Qed.
Lemma nearer_trans a b c : nearer a b <> Gt -> nearer b c <> Gt -> nearer a c <> Gt.
Proof.
  rewrite !nearer_le. intros [H|[H1 H2]] [K|[K1 K2]]; [left; lia|left; lia|left; lia|right]. split; [lia|]. eapply str_le_trans; eassumption.
Qed.
Lemma nearest typo word s : holds_for typo word s -> three_nearest typo word (map pair_of (firstn 3 (sort_by nearer (snd s)))).
Proof.
  intros (_ & N & H). destruct (sort_all nearer (fun _ => True)) with (l := snd s) as (P & S & _).
  - intros x y _ _. apply nearer_anti.
  - intros x y z _ _ _. apply nearer_trans.
  - apply Forall_forall. auto.
  - assert (N' : NoDup (map command (sort_by nearer (snd s)))) by (eapply Permutation_NoDup; [apply Permutation_map, P|exact N]).
    assert (H' : forall x n, In (x, n) (map pair_of (sort_by nearer (snd s))) <-> word x /\ near typo n x).
    { intros x n. rewrite <- H. split; apply Permutation_in; [apply Permutation_map; symmetry; exact P|apply Permutation_map, P]. }
    clear P N H. revert S N' H'. generalize (sort_by nearer (snd s)). intros l S N H.
    assert (B : StronglySorted before (map pair_of l)).
    { clear H. induction S as [|a l S IH F]; [constructor|]. cbn [map] in *. inversion N as [|? ? Na Nl]; subst. constructor; [apply IH, Nl|]. apply Forall_forall. intros y Hy. apply in_map_iff in Hy as (b & <- & Ib).
      rewrite Forall_forall in F. specialize (F b Ib). apply nearer_le in F as [F|[F1 F2]]; [left; exact F|right; split; [exact F1|]]. unfold pair_of. cbn [fst].
      destruct (str_cmp (command a) (command b)) eqn:E; [|reflexivity|congruence]. apply str_cmp_eq in E. exfalso. apply Na. rewrite E. apply in_map, Ib. }
    split; [rewrite map_length, firstn_length; lia|]. rewrite <- (firstn_skipn 3 l) in B, H. rewrite map_app in B, H.
    assert (App : forall l1 l2 : list (str * nat), StronglySorted before (l1 ++ l2) -> StronglySorted before l1 /\ forall x y, In x l1 -> In y l2 -> before x y).
    { clear. induction l1 as [|a l1 IH]; intros l2 S; [split; [constructor|intros x y []]|]. cbn in S. inversion S as [|? ? S1 F1]; subst. destruct (IH l2 S1) as [I1 I2]. rewrite Forall_forall in F1. split.
      - constructor; [exact I1|]. apply Forall_forall. intros y Hy. apply F1, in_or_app. left. exact Hy.
      - intros x y [<-|Hx] Hy; [apply F1, in_or_app; right; exact Hy|apply I2; assumption]. }
    apply App in B as [B1 B2]. split; [exact B1|]. split.
    + intros x n I. apply H, in_or_app. left. exact I.
    + intros x n W Nx. 
      destruct (in_app_or _ _ _ (proj2 (H x n) (conj W Nx))) as [I|I]; [left; exact I|right]. split.
      * rewrite map_length, firstn_length. assert (length (skipn 3 l) <> 0) by (destruct (skipn 3 l); [destruct I|discriminate]). rewrite skipn_length in *. lia.
      * intros y Hy. apply B2; assumption.
Qed.

(** The suggestions are the three nearest of the builtins and of the names of the files in the
    directories of PATH. *)
Theorem C137_three_nearest_partial : forall read_dir typo paths builtins,
  three_nearest typo (fun x => In x builtins \/ program read_dir paths x) (map pair_of (find_similar_commands read_dir typo paths builtins)).
Proof.
  intros read_dir typo paths builtins. unfold find_similar_commands. apply nearest. apply paths_push. eapply holds_ext; [|apply push_all, empty_holds]. intros x. cbn. tauto.
Qed.
Print Assumptions C137_three_nearest_partial.
Theorem C137_three_nearest_tasks : forall typo tasks, three_nearest typo (fun x => In x tasks) (map pair_of (find_similar_candidates typo tasks)).
Proof.
  intros typo tasks. unfold find_similar_candidates. apply nearest. eapply holds_ext; [|apply push_all, empty_holds]. intros x. cbn. tauto.
Qed.
Print Assumptions C137_three_nearest_tasks.
(** the message names them all, in this order, or says only that the command is unknown *)
Theorem C137_message : forall read_dir paths builtins tasks cmd,
  let l := map command (find_similar_commands read_dir cmd paths builtins) in let t := map command (find_similar_candidates cmd tasks) in
  exists m, unknown_command read_dir paths builtins tasks cmd = lit "unknown command: " ++ cmd ++ m /\ (m = [] <-> l = [] /\ t = []) /\
  (l <> [] -> contains (join_with (lit ", ") l) m = true) /\ (t <> [] -> contains (join_with (lit ", ") (map (fun x => lit "task " ++ x) t)) m = true).
Proof.
  intros read_dir paths builtins tasks cmd. cbn zeta. unfold unknown_command, format_suggestions.
  destruct (find_similar_commands read_dir cmd paths builtins) as [|s l], (find_similar_candidates cmd tasks) as [|s' t].
  - exists []. split; [rewrite app_nil_r; reflexivity|]. split; [tauto|]. split; intros H; exfalso; apply H; reflexivity.
  - eexists. split; [reflexivity|]. split; [split; [discriminate|intros [_ H]; discriminate H]|]. split; [intros H; exfalso; apply H; reflexivity|]. intros _. apply contains_iff.
    exists ([10%N] ++ [13%N] ++ lit "Project tasks: "), crlf. rewrite map_map. rewrite <- !app_assoc. reflexivity.
  - eexists. split; [reflexivity|]. split; [split; [discriminate|intros [H _]; discriminate H]|]. split; [|intros H; exfalso; apply H; reflexivity]. intros _. apply contains_iff.
    exists ([10%N] ++ [13%N] ++ lit "Did you mean: "), (lit " ?" ++ crlf). rewrite app_nil_r. rewrite <- !app_assoc. reflexivity.
  - eexists. split; [reflexivity|]. split; [split; [discriminate|intros [H _]; discriminate H]|]. split; intros _; apply contains_iff.
    + exists ([10%N] ++ [13%N] ++ lit "Did you mean: "), (lit " ?" ++ crlf ++ [13%N] ++ lit "Project tasks: " ++ join_with (lit ", ") (map (fun s => lit "task " ++ command s) (s' :: t)) ++ crlf). rewrite <- !app_assoc. reflexivity.
    + exists ([10%N] ++ ([13%N] ++ lit "Did you mean: " ++ join_with (lit ", ") (map command (s :: l)) ++ lit " ?" ++ crlf) ++ [13%N] ++ lit "Project tasks: "), crlf. rewrite map_map. rewrite <- !app_assoc. reflexivity.
Qed.
Print Assumptions C137_message.

(** A file that cannot be executed is suggested like any other. *)
Theorem C137_not_executable_refuted : forall typo name n p k, near typo n name -> (forall r, name <> chr "." :: r) -> k <> KOther ->
  map command (find_similar_commands (fun q => if str_eqb q p then Some [Entry (Some name) (Some k) false] else None) typo [p] []) = [name].
Proof.
  intros typo name n p k Nn Nd Nk. pose proof (C137_three_nearest_partial (fun q => if str_eqb q p then Some [Entry (Some name) (Some k) false] else None) typo [p] []) as (_ & _ & A & B).
  set (l := find_similar_commands _ _ _ _) in *.
  assert (Pn : In name [] \/ program (fun q => if str_eqb q p then Some [Entry (Some name) (Some k) false] else None) [p] name).
  { right. exists p, [Entry (Some name) (Some k) false], (Entry (Some name) (Some k) false). split; [left; reflexivity|]. split; [rewrite str_eqb_refl; reflexivity|]. split; [left; reflexivity|].
    split; [reflexivity|]. split; [exact Nd|]. cbn. congruence. }
  assert (Only : forall x m, In (x, m) (map pair_of l) -> x = name /\ m = n).
  { intros x m I. apply A in I as [[[]|(q & es & e & [<-|[]] & R & I & Ne & _)] Nx]. rewrite str_eqb_refl in R. injection R as <-. destruct I as [<-|[]]. injection Ne as <-. split; [reflexivity|].
    destruct Nx as [Nx _]. destruct Nn as [Nn _]. apply C136_distance_is_least in Nx, Nn. congruence. }
  assert (I : In (name, n) (map pair_of l)).
  { destruct (B name n Pn Nn) as [I|[L K]]; [exact I|]. exfalso. destruct (map pair_of l) as [|[x m] r]; [discriminate L|]. destruct (Only x m (or_introl eq_refl)) as [-> ->].
    destruct (K _ (or_introl eq_refl)) as [K'|[_ K']]; cbn in K'; [lia|exact (str_lt_irrefl _ K')]. }
  rewrite <- fst_pair. pose proof (C137_three_nearest_partial (fun q => if str_eqb q p then Some [Entry (Some name) (Some k) false] else None) typo [p] []) as (_ & S & _ & _). fold l in S.
  destruct (map pair_of l) as [|[x m] r]; [destruct I|]. destruct (Only x m (or_introl eq_refl)) as [-> ->]. cbn [map fst]. f_equal. destruct r as [|[x m] r]; [reflexivity|]. exfalso.
  destruct (Only x m (or_intror (or_introl eq_refl))) as [-> ->]. inversion S as [|? ? _ F]; subst. inversion F as [|? ? F1 _]; subst. destruct F1 as [F1|[_ F1]]; cbn in F1; [lia|exact (str_lt_irrefl _ F1)].
Qed.
Print Assumptions C137_not_executable_refuted.

Example C137_case : near (lit "gti") 2 (lit "git") /\
  find_similar_commands (fun p => Some [Entry (Some (lit "git")) (Some KFile) true; Entry (Some (lit ".gti")) (Some KFile) true; Entry (Some (lit "gtk")) (Some KOther) true; Entry (Some (lit "gtl")) (Some KLink) true]) (lit "gti") [lit "/bin"] [lit "cd"; lit "gt"; lit "ti"]
  = [Suggestion (lit "gt") 1; Suggestion (lit "gtl") 1; Suggestion (lit "ti") 1].
Proof. split; [apply near_iff; split; [reflexivity|]; split; reflexivity|vm_compute; reflexivity]. Qed.
