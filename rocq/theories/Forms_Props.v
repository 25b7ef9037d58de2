(** C266-C268: forms that add servers, the list of variables, the renderer. *)
From Coq Require Import Permutation.
From Verif Require Import Base Lisp_Model Frecency_Model Frecency_Proofs Forms_Model Forms_Spec.

(** ** Arguments *)
Lemma text_iff args i s : text_arg args i = Some s <-> nth_error args i = Some (LStr s).
Proof.
  unfold text_arg. destruct (nth_error args i) as [v|]; [destruct v|]; split; intros H; try discriminate H; injection H as ->; reflexivity.
Qed.
Lemma maybe_text args i o : optional_string (arg args i) = Some o <-> MaybeText args i o.
Proof.
  unfold arg. split.
  - destruct (nth_error args i) as [v|] eqn:E.
    + destruct v as [| |z|s|s|l|t|n|c a b|c a b|f a]; cbn; try discriminate.
      * intros [= <-]. apply mt_false, E.
      * intros [= <-]. apply mt_some, E.
      * destruct l as [|x l]; [intros [= <-]|discriminate]. apply mt_none. right. exact E.
    + cbn. intros [= <-]. apply mt_none. left. exact E.
  - intros [[H|H]|H|t H]; rewrite H; reflexivity.
Qed.
Lemma maybe_flag args i o : optional_bool (arg args i) = Some o <-> MaybeFlag args i o.
Proof.
  unfold arg. split.
  - destruct (nth_error args i) as [v|] eqn:E.
    + destruct v as [| |z|s|s|l|t|n|c a b|c a b|f a]; cbn; try discriminate.
      * intros [= <-]. apply mf_true, E.
      * intros [= <-]. apply mf_false, E.
      * destruct l as [|x l]; [intros [= <-]|discriminate]. apply mf_none. right. exact E.
    + cbn. intros [= <-]. apply mf_none. left. exact E.
  - intros [[H|H]|H|H]; rewrite H; reflexivity.
Qed.
Lemma all_texts_iff l ws : all_texts l = Some ws <-> l = map LStr ws.
Proof.
  revert ws. induction l as [|v l IH]; intros ws.
  - cbn. split; [intros [= <-]; reflexivity|]. destruct ws; [reflexivity|discriminate].
  - destruct v as [| |z|s|s|q|t|n|c a b|c a b|f a]; cbn; try (split; [discriminate|destruct ws; discriminate]).
    destruct (all_texts l) as [x|]; split.
    + intros [= <-]. cbn. f_equal. apply (IH x). reflexivity.
    + destruct ws as [|w ws]; [discriminate|]. cbn. intros [= -> H]. apply IH in H. injection H as ->. reflexivity.
    + discriminate.
    + destruct ws as [|w ws]; [discriminate|]. cbn. intros [= -> H]. apply IH in H. discriminate H.
Qed.
Lemma list_of_texts args i ws : list_of_strings (arg args i) = Some ws <-> ListOfTexts args i ws.
Proof.
  unfold arg. split.
  - destruct (nth_error args i) as [v|] eqn:E.
    + destruct v as [| |z|s|s|l|t|n|c a b|c a b|f a]; try discriminate.
      * cbn. intros [= <-]. apply lt_false, E.
      * intros H. apply lt_some. rewrite E. do 2 f_equal. apply all_texts_iff. destruct l; exact H.
    + cbn. intros [= <-]. apply lt_none. left. exact E.
  - intros [[H|H]|H|l H]; rewrite H; try reflexivity.
    destruct l as [|x l]; [reflexivity|]. cbn [map list_of_strings]. apply all_texts_iff. reflexivity.
Qed.

(** ** Entries *)
Lemma put_keys m k v : NoDup (map fst m) -> NoDup (map fst (put m k v)) /\ (forall x, In x (map fst (put m k v)) <-> x = k \/ In x (map fst m)).
Proof.
  induction m as [|[k' v'] m IH]; cbn [put]; intros H.
  - cbn. split; [constructor; [intros []|constructor]|]. intros x. split; intros [X|X]; auto.
  - cbn [map fst] in H. apply NoDup_cons_iff in H as [H1 H2]. destruct (IH H2) as [I1 I2].
    destruct (str_eqb_spec k' k) as [->|N].
    + cbn [map fst]. split; [constructor; assumption|]. intros x. cbn. split; [intros [X|X]|intros [X|[X|X]]]; auto.
    + cbn [map fst]. split.
      * constructor; [|exact I1]. intros X. apply I2 in X as [X|X]; auto.
      * intros x. cbn. rewrite I2. split; [intros [X|[X|X]]|intros [X|[X|X]]]; auto.
Qed.
Lemma put_in m k v : NoDup (map fst m) -> forall a b, In (a, b) (put m k v) <-> (a = k /\ b = v) \/ (a <> k /\ In (a, b) m).
Proof.
  induction m as [|[k' v'] m IH]; cbn [put]; intros H a b.
  - cbn. split; [intros [[= <- <-]|[]]; auto|]. intros [[-> ->]|[_ []]]. auto.
  - cbn [map fst] in H. apply NoDup_cons_iff in H as [H1 H2].
    destruct (str_eqb_spec k' k) as [->|N].
    + cbn [In]. split.
      * intros [[= <- <-]|X]; [auto|]. right. split; [|auto]. intros ->. apply H1. apply (in_map fst) in X. exact X.
      * intros [[-> ->]|[X [[= Y _]|Y]]]; auto. congruence.
    + cbn [In]. rewrite (IH H2). split.
      * intros [[= <- <-]|[X|[X Y]]]; auto.
      * intros [X|[X [[= <- <-]|Y]]]; auto.
Qed.
Lemma last_snoc l e k v : LastEntry (l ++ [e]) k v <-> (fst (fst e) = k /\ snd (fst e) = v) \/ (fst (fst e) <> k /\ LastEntry l k v).
Proof.
  split.
  - intros (a & x & b & E & B). destruct b as [|y b _] using rev_ind.
    + apply app_inj_tail in E as [_ E]. subst e. left. auto.
    + rewrite app_comm_cons, app_assoc in E. apply app_inj_tail in E as [-> ->]. right. split.
      * apply B. apply in_or_app. right. left. reflexivity.
      * exists a, x, b. split; [reflexivity|]. intros e I. apply B. apply in_or_app. left. exact I.
  - intros [[A B]|[A (a & x & b & E & B)]].
    + destruct e as [[k0 v0] x]. cbn in A, B. subst. exists l, x, []. split; [reflexivity|intros e []].
    + exists a, x, (b ++ [e]). subst l. rewrite <- app_assoc. split; [reflexivity|].
      intros y I. apply in_app_or in I as [I|[<-|[]]]; auto.
Qed.
Definition Holds (m : list (str * str)) (es : list (str * str * list lv)) : Prop :=
  NoDup (map fst m) /\ forall k v, In (k, v) m <-> LastEntry es k v.
Lemma holds_put m es e : Holds m es -> Holds (put m (fst (fst e)) (snd (fst e))) (es ++ [e]).
Proof.
  intros [H1 H2]. split; [apply put_keys, H1|]. intros k v. rewrite put_in by exact H1. rewrite last_snoc, H2.
  split; (intros [[A B]|[A B]]; [left|right]; auto).
Qed.
Lemma pairs_run es m before : Holds m before -> exists m', all_pairs (map written_entry es) m = Some m' /\ Holds m' (before ++ es).
Proof.
  revert m before. induction es as [|[[k v] x] es IH]; intros m before H.
  - exists m. rewrite app_nil_r. auto.
  - cbn [map all_pairs written_entry fst snd].
    destruct (IH (put m k v) (before ++ [(k, v, x)])) as (m' & E & H').
    + apply (holds_put m before (k, v, x)), H.
    + exists m'. split; [exact E|]. rewrite <- app_assoc in H'. exact H'.
Qed.
Lemma pairs_form l m m' : all_pairs l m = Some m' -> exists es, l = map written_entry es.
Proof.
  revert m. induction l as [|v l IH]; intros m H; [exists []; reflexivity|].
  destruct v as [| |z|s|s|q|t|n|c a b|c a b|f a]; try discriminate H.
  destruct q as [|v1 q]; [discriminate H|]. destruct v1 as [| |z|k|s|q1|t|n|c a b|c a b|f a]; try discriminate H.
  destruct q as [|v2 q]; [discriminate H|]. destruct v2 as [| |z|v|s|q1|t|n|c a b|c a b|f a]; try discriminate H.
  cbn [all_pairs] in H. apply IH in H as [es ->]. exists ((k, v, q) :: es). reflexivity.
Qed.
Lemma holds_nil : Holds [] [].
Proof.
  split; [constructor|]. intros k v. split; [intros []|]. intros (a & x & b & E & _). destruct a; discriminate E.
Qed.
Lemma entries_some args i m : list_of_pairs (arg args i) = Some m -> exists es, ListOfEntries args i es /\ Holds m es.
Proof.
  unfold arg. destruct (nth_error args i) as [v|] eqn:E.
  - destruct v as [| |z|s|s|l|t|n|c a b|c a b|f a]; try discriminate.
    + cbn. intros [= <-]. exists []. split; [apply le_false, E|apply holds_nil].
    + intros H. assert (P : all_pairs l [] = Some m) by (destruct l; exact H).
      destruct (pairs_form _ _ _ P) as [es ->]. exists es. split; [apply le_some, E|].
      destruct (pairs_run es [] [] holds_nil) as (m' & P' & H'). rewrite P in P'. injection P' as <-. exact H'.
  - cbn. intros [= <-]. exists []. split; [apply le_none; left; exact E|apply holds_nil].
Qed.
Lemma entries_all args i es : ListOfEntries args i es -> exists m, list_of_pairs (arg args i) = Some m /\ Holds m es.
Proof.
  unfold arg. intros [[H|H]|H|l H]; rewrite H; try (exists []; split; [reflexivity|apply holds_nil]).
  destruct (pairs_run l [] [] holds_nil) as (m' & P' & H'). exists m'. split; [|exact H'].
  destruct l; exact P'.
Qed.

(** ** Forms *)
(** C266: a form that succeeds adds, at the end, the server that its arguments describe. *)
Theorem C266_added f ss ss' : f <> FClear -> run_form f ss = (ss', true) -> exists s, ss' = ss ++ [s] /\ Describes f s.
Proof.
  intros NC. destruct f as [args|args|args|]; cbn [run_form]; [| | |congruence].
  - unfold add_stdio. destruct (text_arg args 0) as [l|] eqn:E0; [|discriminate]. destruct (text_arg args 1) as [c|] eqn:E1; [|discriminate].
    destruct (list_of_strings (arg args 2)) as [ws|] eqn:E2; [|discriminate]. destruct (list_of_pairs (arg args 3)) as [vs|] eqn:E3; [|discriminate].
    destruct (optional_string (arg args 4)) as [d|] eqn:E4; [|discriminate]. destruct (optional_string (arg args 5)) as [a|] eqn:E5; [|discriminate].
    cbn [add]. intros [= <-]. eexists. split; [reflexivity|]. destruct (entries_some _ _ _ E3) as (es & L & H1 & H2).
    apply d_stdio with (es := es); auto; first [apply text_iff|apply list_of_texts|apply maybe_text]; assumption.
  - unfold add_sse. destruct (text_arg args 0) as [l|] eqn:E0; [|discriminate]. destruct (text_arg args 1) as [c|] eqn:E1; [|discriminate].
    destruct (optional_string (arg args 2)) as [a|] eqn:E2; [|discriminate].
    cbn [add]. intros [= <-]. eexists. split; [reflexivity|]. apply d_sse; first [apply text_iff|apply maybe_text]; assumption.
  - unfold add_http. destruct (text_arg args 0) as [l|] eqn:E0; [|discriminate]. destruct (text_arg args 1) as [c|] eqn:E1; [|discriminate].
    destruct (optional_string (arg args 2)) as [h|] eqn:E2; [|discriminate]. destruct (optional_bool (arg args 3)) as [b|] eqn:E3; [|discriminate].
    destruct (optional_string (arg args 4)) as [a|] eqn:E4; [|discriminate].
    cbn [add]. intros [= <-]. eexists. split; [reflexivity|]. apply d_http; first [apply text_iff|apply maybe_text|apply maybe_flag]; assumption.
Qed.
(** C266: a form whose arguments describe a server succeeds and adds that server. *)
Theorem C266_all f s ss : Describes f s -> exists s', run_form f ss = (ss ++ [s'], true) /\ Alike s s'.
Proof.
  intros D. destruct D as [args l c ws vs es d a H0 H1 H2 H3 H4 H5 H6 H7|args l u a H0 H1 H2|args l u h b a H0 H1 H2 H3 H4];
    cbn [run_form]; apply text_iff in H0; apply text_iff in H1.
  - unfold add_stdio. apply list_of_texts in H2. apply maybe_text in H4. apply maybe_text in H5.
    destruct (entries_all _ _ _ H3) as (m & E & M1 & M2). rewrite H0, H1, H2, E, H4, H5. cbn [add]. eexists. split; [reflexivity|].
    apply al_vars. intros [k v]. rewrite H6, M2. reflexivity.
  - unfold add_sse. apply maybe_text in H2. rewrite H0, H1, H2. cbn [add]. eexists. split; [reflexivity|apply al_same].
  - unfold add_http. apply maybe_text in H2. apply maybe_flag in H3. apply maybe_text in H4. rewrite H0, H1, H2, H3, H4. cbn [add].
    eexists. split; [reflexivity|apply al_same].
Qed.
(** C266: any other form is an error and changes nothing. *)
Theorem C266_error f ss : f <> FClear -> (forall s, ~ Describes f s) <-> run_form f ss = (ss, false).
Proof.
  intros NC. split.
  - intros H. destruct (run_form f ss) as [ss' [|]] eqn:E.
    + destruct (C266_added f ss ss' NC E) as (s & _ & D). destruct (H s D).
    + destruct f as [args|args|args|]; cbn [run_form] in E; [| | |congruence];
        [destruct (add_stdio args)|destruct (add_sse args)|destruct (add_http args)]; cbn [add] in E; injection E as <-; try discriminate; reflexivity.
  - intros E s D. destruct (C266_all f s ss D) as (s' & E' & _). rewrite E in E'. discriminate E'.
Qed.
(** C266: so after any forms the servers are those described since the last mcp-clear, in order. *)
Theorem C266_history fs : Leaves fs (run_forms fs []).
Proof.
  unfold run_forms. induction fs as [|f fs IH] using rev_ind; [apply lv_nil|].
  rewrite fold_left_app. cbn [fold_left]. set (ss := fold_left _ fs []) in *.
  assert (NC : f = FClear \/ f <> FClear) by (destruct f; auto; right; discriminate). destruct NC as [->|NC].
  - apply (lv_clear fs ss), IH.
  - destruct (run_form f ss) as [ss' [|]] eqn:E.
    + destruct (C266_added f ss ss' NC E) as (s & -> & D). apply lv_some; assumption.
    + assert (ss' = ss) as -> by (destruct f as [args|args|args|]; cbn [run_form] in E; [| | |congruence];
        [destruct (add_stdio args)|destruct (add_sse args)|destruct (add_http args)]; cbn [add] in E; injection E as <-; try discriminate; reflexivity).
      apply lv_error; [exact IH|exact NC|]. apply (C266_error f ss NC), E.
Qed.
(** C266 does not hold in the form "what is written is used or refused": arguments after the last one and elements of an
    entry after the value are dropped without an error, and so is an earlier entry for the same key. *)
Lemma arg_more args more i : i < length args -> arg (args ++ more) i = arg args i.
Proof. intros H. unfold arg. rewrite nth_error_app1 by exact H. reflexivity. Qed.
Theorem C266_more_refuted args more : 6 <= length args -> add_stdio (args ++ more) = add_stdio args.
Proof.
  intros H. unfold add_stdio, text_arg. rewrite !nth_error_app1 by lia. rewrite !arg_more by lia. reflexivity.
Qed.
Theorem C266_entry_refuted l c k v w x :
  add_stdio [LStr l; LStr c; LFalse; LList [LList [LStr k; LStr v]; LList (LStr k :: LStr w :: x)]]
  = Some (Server l None (Stdio c [] [(k, w)] None)).
Proof. unfold add_stdio. cbn. rewrite str_eqb_refl. reflexivity. Qed.
Example C266_ex : run_forms [FStdio [LStr (lit "fs"); LStr (lit "npx"); LList [LStr (lit "-y")]; LList [LList [LStr (lit "A"); LStr (lit "1")]]];
    FSse [LStr (lit "x")]; FHttp [LStr (lit "web"); LStr (lit "https://h"); LFalse; LFalse]] []
  = [Server (lit "fs") None (Stdio (lit "npx") [lit "-y"] [(lit "A", lit "1")] None); Server (lit "web") None (Http (lit "https://h") None (Some false))].
Proof. reflexivity. Qed.

(** ** The list of variables *)
Lemma with_spec sys : forall shown, (forall kv, In kv sys -> kv <> None) ->
  exists l, with_system sys shown = Some l /\ (forall x, In x l <-> In x shown \/ exists kv, In (Some kv) sys /\ entry kv = x)
    /\ (NoDup shown -> NoDup l).
Proof.
  induction sys as [|o sys IH]; intros shown H.
  - exists shown. split; [reflexivity|]. split; [|auto]. intros x. split; [auto|]. intros [X|(kv & [] & _)]. exact X.
  - destruct o as [kv|]; [|destruct (H None); [left; reflexivity|reflexivity]]. cbn [with_system].
    destruct (IH (if mem_str (entry kv) shown then shown else shown ++ [entry kv])) as (l & E & L1 & L2).
    + intros x I. apply H. right. exact I.
    + exists l. split; [exact E|]. split.
      * intros x. rewrite L1. destruct (mem_str (entry kv) shown) eqn:M.
        -- apply mem_str_iff in M. split; [intros [X|(y & I & X)]|intros [X|(y & [[= <-]|I] & X)]]; auto.
           ++ right. exists y. split; [right; exact I|exact X].
           ++ left. subst x. exact M.
           ++ right. exists y. auto.
        -- split; [intros [X|(y & I & X)]|intros [X|(y & [[= <-]|I] & X)]].
           ++ apply in_app_or in X as [X|[<-|[]]]; [auto|]. right. exists kv. split; [left; reflexivity|reflexivity].
           ++ right. exists y. split; [right; exact I|exact X].
           ++ left. apply in_or_app. auto.
           ++ left. apply in_or_app. right. left. exact X.
           ++ right. exists y. auto.
      * intros N. apply L2. destruct (mem_str (entry kv) shown) eqn:M; [exact N|]. apply mem_str_false in M.
        apply (Permutation_NoDup (l := entry kv :: shown)); [apply Permutation_cons_append|constructor; assumption].
Qed.
Definition leb (a b : str) : bool := match str_cmp a b with Gt => false | _ => true end.
Lemma leb_ordered l : ordered leb (sort leb l).
Proof.
  apply sort_ordered; unfold leb.
  - intros x y H. destruct (str_cmp x y) eqn:E; try discriminate H. apply str_cmp_gt in E. rewrite E. reflexivity.
  - intros x y z A B. destruct (str_cmp x y) eqn:E1; [| |discriminate A].
    + apply str_cmp_eq in E1 as ->. exact B.
    + destruct (str_cmp y z) eqn:E2; [| |discriminate B].
      * apply str_cmp_eq in E2 as ->. rewrite E1. reflexivity.
      * rewrite (str_lt_trans _ _ _ E1 E2). reflexivity.
Qed.
Lemma entry_inj a b : ~ In 61%N (fst a) -> ~ In 61%N (fst b) -> entry a = entry b -> a = b.
Proof.
  destruct a as [k v], b as [q w]. unfold entry. cbn [fst snd]. intros A B E.
  revert q B E. induction k as [|x k IH]; intros [|y q] B E.
  - injection E as ->. reflexivity.
  - injection E as <- _. destruct B. left. reflexivity.
  - injection E as -> _. destruct A. left. reflexivity.
  - injection E as -> E. assert (X : (k, v) = (q, w)).
    { apply IH; [intros I; apply A; right; exact I|intros I; apply B; right; exact I|exact E]. }
    injection X as -> ->. reflexivity.
Qed.
(** C267: each variable of the shell and of the process is in the list, and nothing else; the list is sorted. *)
Theorem C267_shown vars sys : (forall kv, In kv sys -> kv <> None) ->
  exists l, env_list vars sys = Some l
    /\ (forall line, In line l <-> exists k v, (In (k, v) vars \/ In (Some (k, v)) sys) /\ Line k v line)
    /\ (forall i j a b, i < j -> nth_error l i = Some a -> nth_error l j = Some b -> str_cmp a b <> Gt).
Proof.
  intros H. unfold env_list. destruct (with_spec sys (map entry vars) H) as (l & -> & L & _).
  exists (sort leb l). split; [reflexivity|]. split.
  - intros line. assert (P : In line (sort leb l) <-> In line l).
    { split; apply Permutation_in; [apply Permutation_sym|]; apply sort_perm. }
    rewrite P, L. unfold Line. split.
    + intros [X|([k v] & I & X)].
      * apply in_map_iff in X as ([k v] & X & I). exists k, v. split; [auto|symmetry; exact X].
      * exists k, v. split; [auto|symmetry; exact X].
    + intros (k & v & [I|I] & ->); [left|right].
      * apply (in_map entry) in I. exact I.
      * exists (k, v). split; [exact I|reflexivity].
  - generalize (leb_ordered l). generalize (sort leb l). clear. intros l. induction l as [|x l IH]; intros O i j a b Lt A B.
    + destruct i; discriminate A.
    + destruct O as [O1 O2]. destruct j as [|j]; [lia|]. cbn in B. destruct i as [|i].
      * cbn in A. injection A as ->. apply nth_error_In in B. apply O1 in B. unfold leb in B. intros G. rewrite G in B. discriminate B.
      * cbn in A. apply (IH O2 i j); auto. lia.
Qed.
(** C267: no line is there twice. *)
Theorem C267_once vars sys l : NoDup vars -> (forall k v, In (k, v) vars -> ~ In 61%N k) ->
  env_list vars sys = Some l -> NoDup l.
Proof.
  intros N K. unfold env_list. destruct (with_system sys (map entry vars)) as [r|] eqn:E; [|discriminate]. intros [= <-].
  apply (Permutation_NoDup (l := r)); [apply sort_perm|].
  assert (T : forall s shown q, with_system s shown = Some q -> forall kv, In kv s -> kv <> None).
  { clear. intros s. induction s as [|o s IH]; intros shown q H kv I; [destruct I|]. destruct o as [x|]; [|discriminate H].
    destruct I as [<-|I]; [discriminate|]. exact (IH _ _ H kv I). }
  destruct (with_spec sys (map entry vars) (T _ _ _ E)) as (r' & E' & _ & D). rewrite E in E'. injection E' as <-. apply D.
  clear E D T. induction vars as [|[k v] vars IH]; [constructor|]. apply NoDup_cons_iff in N as [N1 N2]. cbn [map]. constructor.
  - intros X. apply in_map_iff in X as ([q w] & X & I). apply entry_inj in X.
    + injection X as -> ->. exact (N1 I).
    + apply (K q w). right. exact I.
    + apply (K k v). left. reflexivity.
  - apply IH; [exact N2|]. intros a b I. apply (K a b). right. exact I.
Qed.
(** C267 does not hold in the form "each variable has one line, its value in the shell": with another value in the process
    both lines are there. *)
Theorem C267_two_refuted vars sys l k v w : In (k, v) vars -> In (Some (k, w)) sys -> v <> w -> env_list vars sys = Some l ->
  exists x y, Line k v x /\ Line k w y /\ x <> y /\ In x l /\ In y l.
Proof.
  intros A B D E.
  assert (T : forall s shown q, with_system s shown = Some q -> forall kv, In kv s -> kv <> None).
  { clear. intros s. induction s as [|o s IH]; intros shown q H kv I; [destruct I|]. destruct o as [x|]; [|discriminate H].
    destruct I as [<-|I]; [discriminate|]. exact (IH _ _ H kv I). }
  assert (H : forall kv, In kv sys -> kv <> None).
  { unfold env_list in E. destruct (with_system sys (map entry vars)) as [r|] eqn:R; [|discriminate E]. exact (T _ _ _ R). }
  destruct (C267_shown vars sys H) as (l' & E' & L & _). rewrite E in E'. injection E' as <-.
  exists (k ++ lit "=" ++ v), (k ++ lit "=" ++ w). unfold Line. split; [reflexivity|]. split; [reflexivity|]. split.
  - intros X. apply app_inv_head in X. apply app_inv_head in X. exact (D X).
  - split; apply L; exists k; [exists v|exists w]; unfold Line; auto.
Qed.
(** C267: a variable of the process that is not UTF-8 ends the shell. *)
Theorem C267_panic_refuted vars sys : In None sys -> env_list vars sys = None.
Proof.
  intros H. unfold env_list. enough (E : with_system sys (map entry vars) = None) by (rewrite E; reflexivity).
  generalize (map entry vars). induction sys as [|o sys IH]; [destruct H|]. intros shown. destruct o as [kv|]; [|reflexivity].
  destruct H as [H|H]; [discriminate H|]. cbn [with_system]. apply IH, H.
Qed.
Example C267_ex : env_list [(lit "B", lit "2"); (lit "A", lit "1")] [Some (lit "A", lit "0"); Some (lit "B", lit "2")]
  = Some [lit "A=0"; lit "A=1"; lit "B=2"].
Proof. reflexivity. Qed.

(** ** The renderer *)
Lemma run_snoc os o : run (os ++ [o]) = step (run os) o.
Proof. unfold run. rewrite fold_left_app. reflexivity. Qed.
Lemma written_app a b : written (a ++ b) = written a ++ written b.
Proof. induction a as [|[x|x] a IH]; cbn; [reflexivity| |exact IH]. rewrite IH, app_assoc. reflexivity. Qed.
(** C268: when no flush fails, the terminal has got all bytes written before the last flush, once and in order,
    and the rest is held. *)
Theorem C268_order os : (forall o, In o os -> ~ fails o) -> sent (run os) ++ held (run os) = written os.
Proof.
  induction os as [|o os IH] using rev_ind; intros H; [reflexivity|].
  rewrite run_snoc, written_app. rewrite <- IH by (intros x I; apply H; apply in_or_app; auto).
  destruct o as [b|[n|]]; cbn [step held sent written].
  - rewrite app_nil_r, app_assoc. reflexivity.
  - destruct (H (Flush (Some n))); [apply in_or_app; right; left; reflexivity|]. exists n. reflexivity.
  - reflexivity.
Qed.
Theorem C268_flushed os : (forall o, In o os -> ~ fails o) -> sent (run (os ++ [Flush None])) = written os.
Proof. intros H. rewrite run_snoc. cbn [step sent]. apply C268_order, H. Qed.
(** C268: nothing reaches the terminal without a flush. *)
Theorem C268_quiet os more : (forall o, In o more -> exists b, o = Put b) -> sent (run (os ++ more)) = sent (run os).
Proof.
  induction more as [|o more IH] using rev_ind; intros H; [rewrite app_nil_r; reflexivity|].
  rewrite app_assoc, run_snoc. destruct (H o) as [b ->]; [apply in_or_app; right; left; reflexivity|].
  cbn [step sent]. apply IH. intros x I. apply H. apply in_or_app. auto.
Qed.
Lemma within_refl {A} (a : list A) : Within a a.
Proof. induction a; constructor; assumption. Qed.
Lemma within_app {A} (a b c d : list A) : Within a b -> Within c d -> Within (a ++ c) (b ++ d).
Proof. intros H K. induction H; cbn; [exact K|apply wi_keep|apply wi_skip]; assumption. Qed.
Lemma within_middle {A} (w a m b : list A) : Within w (a ++ b) -> Within w (a ++ m ++ b).
Proof.
  revert w. induction a as [|x a IH]; intros w H; cbn in *.
  - induction m as [|y m IHm]; [exact H|]. cbn. apply wi_skip, IHm.
  - inversion H; subst; [apply wi_keep|apply wi_skip]; apply IH; assumption.
Qed.
(** C268: with failures nothing is lost and the order stays, *)
Theorem C268_kept os : Within (written os) (sent (run (os ++ [Flush None]))).
Proof.
  rewrite run_snoc. cbn [step sent]. induction os as [|o os IH] using rev_ind; [constructor|].
  rewrite run_snoc, written_app. destruct o as [b|[n|]]; cbn [step held sent written].
  - rewrite app_nil_r, app_assoc. apply within_app; [exact IH|apply within_refl].
  - rewrite app_nil_r. destruct (held (run os)) as [|x h] eqn:E; [rewrite E; exact IH|]. cbn [held sent].
    rewrite <- app_assoc. apply within_middle, IH.
  - rewrite !app_nil_r. exact IH.
Qed.
(** but what the terminal took before the failure is sent again. *)
Theorem C268_again_refuted b n : b <> [] ->
  sent (run [Put b; Flush (Some n); Flush None]) = firstn n b ++ b.
Proof. destruct b; [congruence|]. intros _. cbn. reflexivity. Qed.
Example C268_ex : run [Put [1%N; 2%N]; Flush None; Put [3%N]] = Screen [3%N] [1%N; 2%N].
Proof. reflexivity. Qed.

Print Assumptions C266_added. Print Assumptions C266_all. Print Assumptions C266_error. Print Assumptions C266_history.
Print Assumptions C266_more_refuted. Print Assumptions C266_entry_refuted.
Print Assumptions C267_shown. Print Assumptions C267_once. Print Assumptions C267_two_refuted. Print Assumptions C267_panic_refuted.
Print Assumptions C268_order. Print Assumptions C268_flushed. Print Assumptions C268_quiet. Print Assumptions C268_kept. Print Assumptions C268_again_refuted.
