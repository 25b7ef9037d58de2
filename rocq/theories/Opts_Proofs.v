(** The option reader accepts exactly the proper uses. *)
From Verif Require Import Base Numerals Opts_Model Opts_Spec.

Section Names.
Variable os : list opt.
Hypothesis W : well_named os.

Lemma find_short c o : find_opt os (Short c) = Some o <-> In o os /\ short o = Some c.
Proof.
  unfold find_opt. split.
  - intros H. apply List.find_some in H. destruct H as [I H]. split; [exact I|]. cbn in H. destruct (short o) as [d|]; [|discriminate]. apply N.eqb_eq in H. congruence.
  - intros [I S]. destruct (List.find (has (Short c)) os) as [o'|] eqn:E.
    + apply List.find_some in E. destruct E as [I' H]. cbn in H. destruct (short o') as [d|] eqn:S'; [|discriminate]. apply N.eqb_eq in H. subst d. f_equal. exact (shorts _ W o' o c I' I S' S).
    + apply (List.find_none _ _ E) in I. cbn in I. rewrite S, N.eqb_refl in I. discriminate.
Qed.
Lemma find_long s o : find_opt os (Long s) = Some o <-> In o os /\ long o = s.
Proof.
  unfold find_opt. split.
  - intros H. apply List.find_some in H. destruct H as [I H]. split; [exact I|]. cbn in H. apply str_eqb_eq in H. congruence.
  - intros [I S]. destruct (List.find (has (Long s)) os) as [o'|] eqn:E.
    + apply List.find_some in E. destruct E as [I' H]. cbn in H. apply str_eqb_eq in H. f_equal. apply (longs _ W); congruence.
    + apply (List.find_none _ _ E) in I. cbn in I. rewrite S, str_eqb_refl in I. discriminate.
Qed.
Lemma ascii_len c : (c < 128)%N -> utf8_len c = 1.
Proof. intros H. unfold utf8_len. replace (c <? 128)%N with true by (symmetry; apply N.ltb_lt; exact H). reflexivity. Qed.
Lemma find_name s o : find_opt os (name_of s) = Some o <-> In o os /\ called o s.
Proof.
  unfold name_of, called. destruct s as [|c [|d r]].
  - rewrite find_long. split; [intros [I E]; apply (long_names _ W) in I; rewrite E in I; cbn in I; lia|]. intros [I [E|(c & _ & E)]]; [split; congruence|discriminate].
  - destruct (utf8_len c =? 1) eqn:E.
    + rewrite find_short. split; [intros [I S]; split; [exact I|right; exists c; auto]|]. intros [I [L|(d & S & [= ->])]]; [|auto]. apply (long_names _ W) in I. rewrite <- L in I. cbn in I. lia.
    + rewrite find_long. split; [intros [I L]; apply (long_names _ W) in I; rewrite L in I; cbn in I; lia|]. intros [I [L|(d & S & [= ->])]]; [split; congruence|].
      destruct (letters_ascii _ W _ _ I S) as (A & _). apply ascii_len in A. rewrite A in E. discriminate.
  - rewrite find_long. split; [intros [I L]; split; [exact I|left; congruence]|]. intros [I [L|(e & _ & E)]]; [split; congruence|discriminate].
Qed.

Lemma cut_none s : ~ In (chr "=") s -> cut_at_equals s = (s, None).
Proof.
  induction s as [|c s IH]; intros H; [reflexivity|]. cbn [cut_at_equals]. destruct (N.eqb_spec c (chr "=")) as [->|N]; [destruct H; left; reflexivity|]. rewrite IH; [reflexivity|]. intros I. apply H. right. exact I.
Qed.
Lemma cut_some a b : ~ In (chr "=") a -> cut_at_equals (a ++ chr "=" :: b) = (a, Some b).
Proof.
  induction a as [|c a IH]; intros H; [reflexivity|]. cbn [app cut_at_equals]. destruct (N.eqb_spec c (chr "=")) as [->|N]; [destruct H; left; reflexivity|]. rewrite IH; [reflexivity|]. intros I. apply H. right. exact I.
Qed.
Lemma cut_inv s a i : cut_at_equals s = (a, i) -> match i with None => s = a | Some b => s = a ++ chr "=" :: b end /\ ~ In (chr "=") a.
Proof.
  revert a i. induction s as [|c s IH]; intros a i H; cbn [cut_at_equals] in H; [injection H as <- <-; split; [reflexivity|intros []]|].
  destruct (N.eqb_spec c (chr "=")) as [->|N]; [injection H as <- <-; split; [reflexivity|intros []]|].
  destruct (cut_at_equals s) as [a' i'] eqn:E. injection H as <- <-. destruct (IH _ _ eq_refl) as [P Q]. split.
  - destruct i'; rewrite P; reflexivity.
  - intros [X|X]; [exact (N X)|exact (Q X)].
Qed.
Lemma called_plain o s : In o os -> called o s -> ~ In (chr "=") s /\ s <> [].
Proof.
  intros I [->|(c & S & ->)].
  - destruct (long_names _ W _ I) as [L E]. split; [exact E|]. intros Z. rewrite Z in L. cbn in L. lia.
  - destruct (letters_ascii _ W _ _ I S) as (_ & _ & E). split; [|discriminate]. intros [X|[]]. exact (E X).
Qed.

(** the letters of one word *)
Lemma cluster_flags fl s : spells os fl s -> cluster os s = Read (flags fl) None.
Proof.
  induction 1 as [|o c fl s (I & T & S) F IH]; [reflexivity|]. cbn [cluster]. rewrite (proj2 (find_short c o) (conj I S)), T, IH. reflexivity.
Qed.
Lemma cluster_last fl s o c v : spells os fl s -> In o os -> takes o = true -> short o = Some c ->
  cluster os (s ++ c :: v) = Read (flags fl) (Some (c, o, match v with [] => None | _ => Some v end)).
Proof.
  intros F I T S. induction F as [|o' c' fl s (I' & T' & S') F IH]; cbn [app cluster].
  - rewrite (proj2 (find_short c o) (conj I S)), T. reflexivity.
  - rewrite (proj2 (find_short c' o') (conj I' S')), T', IH. reflexivity.
Qed.
Lemma cluster_inv s g last : cluster os s = Read g last -> match last with
  | None => exists fl, spells os fl s /\ g = flags fl
  | Some (c, o, i) => exists fl t, spells os fl t /\ g = flags fl /\ In o os /\ takes o = true /\ short o = Some c /\
      match i with None => s = t ++ [c] | Some v => s = t ++ c :: v /\ v <> [] end
  end.
Proof.
  revert g last. induction s as [|c s IH]; intros g last H; cbn [cluster] in H.
  - injection H as <- <-. exists []. split; [constructor|reflexivity].
  - destruct (find_opt os (Short c)) as [o|] eqn:E; [|discriminate]. apply find_short in E. destruct E as [I S]. destruct (takes o) eqn:T.
    + injection H as <- <-. exists [], []. split; [constructor|]. split; [reflexivity|]. split; [exact I|]. split; [exact T|]. split; [exact S|]. destruct s; [reflexivity|]. split; [reflexivity|discriminate].
    + destruct (cluster os s) as [d|fl l] eqn:C; [discriminate|]. injection H as <- <-. specialize (IH _ _ eq_refl). destruct l as [[[c' o'] i]|].
      * destruct IH as (fl' & t & F & -> & I' & T' & S' & X). exists (o :: fl'), (c :: t). split; [constructor; auto|]. split; [reflexivity|]. split; [exact I'|]. split; [exact T'|]. split; [exact S'|].
        destruct i; [destruct X as [-> X]; auto|rewrite X; reflexivity].
      * destruct IH as (fl' & F & ->). exists (o :: fl'). split; [constructor; auto|reflexivity].
Qed.

Lemma is_arg_iff w : is_arg w = false <-> operand w.
Proof.
  unfold is_arg, operand. change (lit "-") with [chr "-"]. destruct w as [|c r].
  - split; [intros _; right; discriminate|reflexivity].
  - cbn [starts_with]. destruct (N.eqb_spec (chr "-") c) as [<-|N].
    + cbn [andb]. rewrite Nat.ltb_ge. cbn [blen]. change (utf8_len (chr "-")) with 1. split.
      * intros L. left. destruct r as [|d r]; [reflexivity|]. cbn [blen] in L. pose proof (utf8_len_pos d). lia.
      * intros [[= ->]|X]; [cbn; lia|]. destruct (X r eq_refl).
    + cbn [andb]. split; [|reflexivity]. intros _. right. intros t [= -> _]. apply N. reflexivity.
Qed.
Lemma is_arg_dash t : t <> [] -> is_arg (chr "-" :: t) = true.
Proof.
  intros H. destruct (is_arg (chr "-" :: t)) eqn:E; [reflexivity|]. apply is_arg_iff in E. destruct E as [E|E]; [injection E; congruence|destruct (E t eq_refl)].
Qed.
Lemma more_inr g f r x y : more g f r = inr (x, y) <-> exists g' f', r = inr (g', f') /\ x = g ++ g' /\ y = f ++ f'.
Proof.
  destruct r as [e|[g' f']]; cbn.
  - split; [discriminate|]. intros (? & ? & H & _). discriminate.
  - split; [intros [= <- <-]; eauto|]. intros (? & ? & [= <- <-] & -> & ->). reflexivity.
Qed.

(** words = Reads *)
Lemma words_dashes s r : s <> [] -> words os ((lit "--" ++ s) :: r) =
  let '(a, i) := cut_at_equals s in
  match find_opt os (name_of a) with
  | None => inl (Unrecognized (name_of a))
  | Some o => if takes o then match i with
       | Some v => more [(long o, Some v)] [] (words os r)
       | None => match r with [] => inl (Missing (name_of a)) | v :: r' => more [(long o, Some v)] [] (words os r') end
       end
     else match i with Some _ => inl (Unexpected (name_of a)) | None => more [(long o, None)] [] (words os r) end
  end.
Proof.
  intros N. cbn [words]. change (lit "--" ++ s) with (chr "-" :: chr "-" :: s). rewrite is_arg_dash by discriminate. cbn [negb].
  replace (str_eqb (chr "-" :: chr "-" :: s) (lit "--")) with false.
  2:{ symmetry. apply str_eqb_neq. intros E. injection E. exact N. }
  replace (starts_with (lit "--") (chr "-" :: chr "-" :: s)) with true by (symmetry; apply starts_with_iff; exists s; reflexivity).
  cbn [skipn app]. reflexivity.
Qed.
Lemma words_letters s r : (forall t, s <> chr "-" :: t) -> s <> [] -> words os ((lit "-" ++ s) :: r) =
  match cluster os s with
  | Bad c => inl (Unrecognized (Short c))
  | Read fl None => more fl [] (words os r)
  | Read fl (Some (c, o, i)) => if takes o then match i with
       | Some v => more (fl ++ [(long o, Some v)]) [] (words os r)
       | None => match r with [] => inl (Missing (Short c)) | v :: r' => more (fl ++ [(long o, Some v)]) [] (words os r') end
       end
     else match i with Some _ => inl (Unexpected (Short c)) | None => more (fl ++ [(long o, None)]) [] (words os r) end
  end.
Proof.
  intros D N. cbn [words]. change (lit "-" ++ s) with (chr "-" :: s). rewrite is_arg_dash by exact N. cbn [negb].
  replace (str_eqb (chr "-" :: s) (lit "--")) with false by (symmetry; apply str_eqb_neq; intros E; injection E; apply D).
  replace (starts_with (lit "--") (chr "-" :: s)) with false.
  2:{ symmetry. destruct (starts_with (lit "--") (chr "-" :: s)) eqn:E; [|reflexivity]. apply starts_with_iff in E. destruct E as [t E]. injection E. intros ->. destruct (D t eq_refl). }
  cbn [skipn]. reflexivity.
Qed.
Lemma spelled_no_dash fl s c v : spells os fl s -> (exists o, In o os /\ short o = Some c) -> forall t, s ++ c :: v <> chr "-" :: t.
Proof.
  intros F (o & I & S) t E. destruct F as [|o' c' fl s (I' & _ & S') F]; cbn in E; injection E; intros _ ->.
  - destruct (letters_ascii _ W _ _ I S) as (_ & N & _). apply N. reflexivity.
  - destruct (letters_ascii _ W _ _ I' S') as (_ & N & _). apply N. reflexivity.
Qed.
Lemma spells_no_dash fl s : spells os fl s -> forall t, s <> chr "-" :: t.
Proof.
  intros F t E. destruct F as [|o' c' fl s (I' & _ & S') F]; [discriminate|]. injection E; intros _ ->. destruct (letters_ascii _ W _ _ I' S') as (_ & N & _). apply N. reflexivity.
Qed.
Lemma spells_nil fl s : spells os fl s -> (fl = [] <-> s = []).
Proof. intros F. destruct F; split; congruence. Qed.

Lemma reads_words args g f : Reads os args g f -> words os args = inr (g, f).
Proof.
  induction 1 as [|w r g f O R IH|r|o s r g f I T C R IH|o s v r g f I T C R IH|o s v r g f I T C R IH|fl s r g f N F R IH|fl s o c v r g f F I T S N R IH|fl s o c v r g f F I T S R IH].
  - reflexivity.
  - cbn [words]. apply is_arg_iff in O. rewrite O. cbn [negb]. rewrite IH. reflexivity.
  - reflexivity.
  - destruct (called_plain _ _ I C) as [P Q]. rewrite words_dashes by exact Q. rewrite (cut_none _ P). rewrite (proj2 (find_name s o) (conj I C)), T, IH. reflexivity.
  - destruct (called_plain _ _ I C) as [P Q]. change (lit "=" ++ v) with (chr "=" :: v). rewrite words_dashes by (destruct s; discriminate).
    rewrite (cut_some _ v P). rewrite (proj2 (find_name s o) (conj I C)), T, IH. reflexivity.
  - destruct (called_plain _ _ I C) as [P Q]. rewrite words_dashes by exact Q. rewrite (cut_none _ P). rewrite (proj2 (find_name s o) (conj I C)), T, IH. reflexivity.
  - rewrite words_letters; [|apply (spells_no_dash _ _ F)|intros E; apply N; apply (spells_nil _ _ F); exact E]. rewrite (cluster_flags _ _ F), IH. reflexivity.
  - rewrite words_letters; [|apply (spelled_no_dash _ _ _ _ F); eauto|destruct s; discriminate]. rewrite (cluster_last _ _ _ _ _ F I T S), T. destruct v; [congruence|]. rewrite IH. cbn [more]. rewrite <- app_assoc. reflexivity.
  - rewrite words_letters; [|apply (spelled_no_dash _ _ _ _ F); eauto|destruct s; discriminate]. rewrite (cluster_last _ _ _ _ _ F I T S), T. rewrite IH. cbn [more]. rewrite <- app_assoc. reflexivity.
Qed.
Lemma words_reads n : forall args g f, length args <= n -> words os args = inr (g, f) -> Reads os args g f.
Proof.
  induction n as [|n IH]; intros args g f L H.
  { destruct args; [|cbn in L; lia]. cbn in H. injection H as <- <-. constructor. }
  destruct args as [|w r]; [cbn in H; injection H as <- <-; constructor|]. cbn [length] in L.
  destruct (is_arg w) eqn:A.
  2:{ cbn [words] in H. rewrite A in H. cbn [negb] in H. apply more_inr in H. destruct H as (g' & f' & H & -> & ->). constructor; [apply is_arg_iff; exact A|]. apply IH; [lia|exact H]. }
  destruct (starts_with (lit "--") w) eqn:D.
  - apply starts_with_iff in D. destruct D as [s D]. destruct s as [|c s].
    + rewrite D in *. cbn in H. injection H as <- <-. constructor.
    + remember (c :: s) as t eqn:Et. assert (N : t <> []) by (subst t; discriminate). clear Et c s. rewrite D in *. clear D A. rewrite words_dashes in H by exact N.
      destruct (cut_at_equals t) as [a i] eqn:E. apply cut_inv in E. destruct E as [E P]. destruct (find_opt os (name_of a)) as [o|] eqn:O; [|discriminate]. apply find_name in O. destruct O as [I C].
      destruct (takes o) eqn:T; destruct i as [v|]; rewrite E; try discriminate.
      * apply more_inr in H. destruct H as (g' & f' & H & -> & ->). apply IH in H; [|lia]. apply (R_value os o a v r g' f' I T C H).
      * destruct r as [|v r]; [discriminate|]. apply more_inr in H. destruct H as (g' & f' & H & -> & ->). apply IH in H; [|cbn in L; lia]. apply (R_value_next os o a v r g' f' I T C H).
      * apply more_inr in H. destruct H as (g' & f' & H & -> & ->). apply IH in H; [|lia]. apply (R_flag os o a r g' f' I T C H).
  - assert (X : exists s, w = lit "-" ++ s /\ s <> [] /\ forall t, s <> chr "-" :: t).
    { assert (A' := A). unfold is_arg in A'. apply andb_true_iff in A'. destruct A' as [A1 A2]. apply starts_with_iff in A1. destruct A1 as [s E]. exists s. split; [exact E|]. subst w. split.
      - intros ->. cbn in A2. discriminate.
      - intros t ->. cbn in D. discriminate. }
    destruct X as (s & -> & N & Q). rewrite words_letters in H by assumption. destruct (cluster os s) as [c|fl last] eqn:C; [discriminate|]. apply cluster_inv in C. destruct last as [[[c o] i]|].
    + destruct C as (fl' & t & F & -> & I & T & S & X). rewrite T in H. destruct i as [v|].
      * destruct X as [-> NV]. apply more_inr in H. destruct H as (g' & f' & H & -> & ->). apply IH in H; [|lia]. rewrite <- app_assoc. apply R_letters_value; assumption.
      * subst s. destruct r as [|v r]; [discriminate|]. apply more_inr in H. destruct H as (g' & f' & H & -> & ->). apply IH in H; [|cbn in L; lia]. rewrite <- app_assoc. apply R_letters_next; assumption.
    + destruct C as (fl' & F & ->). apply more_inr in H. destruct H as (g' & f' & H & -> & ->). apply IH in H; [|lia]. apply R_letters; [|exact F|exact H]. intros E. apply N. apply (spells_nil _ _ F). exact E.
Qed.
Lemma words_iff args g f : words os args = inr (g, f) <-> Reads os args g f.
Proof. split; [apply (words_reads (length args)); lia|apply reads_words]. Qed.

Lemma times_once o g : times g o <= 1 <-> forall i j v w, nth_error g i = Some (long o, v) -> nth_error g j = Some (long o, w) -> i = j.
Proof.
  unfold times. induction g as [|[l v] g IH]; cbn [filter].
  - split; [|cbn; lia]. intros _ i j v w H. destruct i; discriminate.
  - cbn [fst]. destruct (str_eqb l (long o)) eqn:E.
    + apply str_eqb_eq in E. subst l. cbn [length]. assert (Z : length (filter (fun x : given => str_eqb (fst x) (long o)) g) = 0 <-> forall j w, nth_error g j <> Some (long o, w)).
      { split.
        - intros Z j w H. apply nth_error_In in H. assert (I : In (long o, w) (filter (fun x : given => str_eqb (fst x) (long o)) g)) by (apply filter_In; split; [exact H|apply str_eqb_refl]).
          destruct (filter (fun x : given => str_eqb (fst x) (long o)) g); [destruct I|discriminate].
        - intros H. destruct (filter (fun x : given => str_eqb (fst x) (long o)) g) as [|[l w] r] eqn:F; [reflexivity|]. assert (I : In (l, w) (filter (fun x : given => str_eqb (fst x) (long o)) g)) by (rewrite F; left; reflexivity).
          apply filter_In in I. destruct I as [I E]. cbn in E. apply str_eqb_eq in E. subst l. apply In_nth_error in I. destruct I as [j I]. destruct (H j w I). }
      split.
      * intros L. assert (Z' := proj1 Z (proj1 (Nat.le_0_r _) (le_S_n _ _ L))). intros [|i] [|j] a b Hi Hj; cbn in Hi, Hj; try reflexivity.
        -- destruct (Z' _ _ Hj).
        -- destruct (Z' _ _ Hi).
        -- destruct (Z' _ _ Hi).
      * intros H. apply le_n_S, Nat.le_0_r. apply Z. intros j w Hj. specialize (H 0 (Datatypes.S j) v w eq_refl Hj). discriminate.
    + rewrite IH. split.
      * intros H [|i] [|j] a b Hi Hj; cbn in Hi, Hj; try reflexivity.
        -- injection Hi as -> _. rewrite str_eqb_refl in E. discriminate.
        -- injection Hj as -> _. rewrite str_eqb_refl in E. discriminate.
        -- f_equal. exact (H _ _ _ _ Hi Hj).
      * intros H i j a b Hi Hj. specialize (H (Datatypes.S i) (Datatypes.S j) a b Hi Hj). injection H. auto.
Qed.
Theorem parse_iff args g f : parse os args = inr (g, f) <-> proper os args g f.
Proof.
  unfold parse, proper. destruct (words os args) as [e|[g' f']] eqn:E.
  - split; [discriminate|]. intros [R _]. apply words_iff in R. congruence.
  - assert (O : List.find (fun o => negb (multi o) && (1 <? times g' o)) os = None <-> once os g').
    { split.
      - intros H o I M. apply times_once. apply (List.find_none _ _ H) in I. rewrite M in I. cbn [negb andb] in I. apply Nat.ltb_ge in I. exact I.
      - intros H. destruct (List.find _ os) as [o|] eqn:F; [|reflexivity]. apply List.find_some in F. destruct F as [I F]. apply andb_true_iff in F. destruct F as [M T]. apply negb_true_iff in M. apply Nat.ltb_lt in T.
        specialize (H o I M). apply times_once in H. lia. }
    split.
    + intros H. destruct (List.find _ os) eqn:F; [discriminate|]. injection H as <- <-. split; [apply words_iff; exact E|apply O; reflexivity].
    + intros [R H]. apply words_iff in R. rewrite E in R. injection R as -> ->. rewrite (proj2 O H). reflexivity.
Qed.
End Names.

(** reading what was given *)
Lemma present_iff g l : present g (lit l) = true <-> gave g l.
Proof.
  unfold present, gave. rewrite existsb_exists. split.
  - intros ([l' v] & I & E). cbn in E. apply str_eqb_eq in E. subst l'. eauto.
  - intros [v I]. exists (lit l, v). split; [exact I|]. apply str_eqb_refl.
Qed.
