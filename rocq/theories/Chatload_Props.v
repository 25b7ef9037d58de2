(** C165 and C169: the external tools of a chat, and what a chat tells of the surroundings. *)
From Coq Require Import Permutation Sorted.
From Verif Require Import Base Frecency_Model Mcp_Model Mcp_Spec Chat_Model Chat_Spec.
From Verif Require Mcp_Props Frecency_Proofs Lread_Props Title_Props.

(** ** The servers of a chat *)
Section Load.
Variable transport : Type.
Variable hash : config transport -> N.
Notation config := (config transport).
Notation label := (label transport).
Notation conf := (conf transport).
Notation tools := (tools transport).
Notation reach := (reach transport).
Notation servers := (servers transport).
Notation bindings := (bindings transport).
Notation load := (load transport hash).
Notation loaded := (loaded transport hash).
Notation load_cache := (load_cache transport hash).
Notation load_one := (load_one transport hash).

Lemma loaded_in l k cs s b : In (s, b) (loaded l k cs) <-> counts transport cs (conf s) /\ load_one l k (conf s) = Some (s, b).
Proof.
  unfold Chat_Model.loaded. rewrite in_flat_map. assert (Cf : forall c x, load_one l k c = Some x -> conf (fst x) = c).
  { intros c x. unfold Chat_Model.load_one. destruct (match get k (label c) with Some e => _ | None => _ end); [intros [= <-]; reflexivity|]. destruct (l (reach c)); [intros [= <-]; reflexivity|discriminate]. }
  split.
  - intros (c & I & H). apply Mcp_Props.desired_iff in I as [I _]. destruct (load_one l k c) as [x|] eqn:E; [|destruct H]. destruct H as [-> |[]]. pose proof (Cf c _ E) as X. cbn [fst] in X. subst c. auto.
  - intros [C E]. exists (conf s). split; [apply Mcp_Props.desired_iff; split; [exact C|intros []]|]. rewrite E. left. reflexivity.
Qed.
(** The servers of a chat are the configured ones, each with the tools that are remembered for this very configuration, or
    otherwise with those it lists now. *)
Theorem C165_loaded l k cs s : In s (servers (load l k cs)) <->
  counts transport cs (conf s) /\
  ((exists e, get k (label (conf s)) = Some e /\ of_hash e = hash (conf s) /\ its_tools e = tools s) \/
   ((forall e, get k (label (conf s)) = Some e -> of_hash e <> hash (conf s)) /\ l (reach (conf s)) = Some (tools s))).
Proof.
  assert (O : (exists b, load_one l k (conf s) = Some (s, b)) <-> (exists e, get k (label (conf s)) = Some e /\ of_hash e = hash (conf s) /\ its_tools e = tools s) \/
   ((forall e, get k (label (conf s)) = Some e -> of_hash e <> hash (conf s)) /\ l (reach (conf s)) = Some (tools s))).
  { unfold Chat_Model.load_one. destruct s as [c ts]. cbn [Mcp_Model.conf Mcp_Model.tools]. destruct (get k (label c)) as [e|].
    - destruct (N.eqb_spec (of_hash e) (hash c)) as [E|E].
      + split; [intros (b & [= H _]); left; exists e; auto|]. intros [(e' & [= <-] & _ & <-)|[H _]]; [eexists; reflexivity|]. exfalso. exact (H e eq_refl E).
      + split.
        * intros (b & H). right. split; [intros e' [= <-]; exact E|]. destruct (l (reach c)); [injection H as -> _; reflexivity|discriminate].
        * intros [(e' & [= <-] & X & _)|[_ ->]]; [contradiction|eexists; reflexivity].
    - split.
      + intros (b & H). right. split; [discriminate|]. destruct (l (reach c)); [injection H as -> _; reflexivity|discriminate].
      + intros [(e' & X & _)|[_ ->]]; [discriminate|eexists; reflexivity]. }
  rewrite <- O. unfold Chat_Model.load. cbn [Mcp_Model.servers]. rewrite in_map_iff. split.
  - intros ([s' b] & E & I). cbn [fst] in E. subst s'. apply loaded_in in I as [C E]. split; [exact C|exists b; exact E].
  - intros [C [b E]]. exists (s, b). split; [reflexivity|]. apply loaded_in. auto.
Qed.
Lemma bind_all_spec ss : NoDup (map fst (bind_all transport ss)) /\ map snd (bind_all transport ss) = offered transport ss.
Proof.
  unfold bind_all. assert (G : forall ss bs, NoDup (map fst bs) -> NoDup (map fst (fold_left (fun bs s => bind_tools (label (conf s)) (tools s) bs) ss bs)) /\ map snd (fold_left (fun bs s => bind_tools (label (conf s)) (tools s) bs) ss bs) = map snd bs ++ offered transport ss).
  { clear ss. induction ss as [|s ss IH]; intros bs N; cbn [fold_left]; [split; [exact N|]; cbn; rewrite app_nil_r; reflexivity|].
    destruct (Mcp_Props.bind_extends (label (conf s)) (tools s) bs) as (new & E & S & N' & _). rewrite E. destruct (IH (bs ++ new) (N' N)) as [G1 G2]. split; [exact G1|]. rewrite G2, map_app, S, <- app_assoc. reflexivity. }
  apply (G ss []). constructor.
Qed.
(** Each tool of each of them has exactly one name, and each name one tool. *)
Theorem C165_names l k cs : let m := load l k cs in
  NoDup (map fst (bindings m)) /\ map snd (bindings m) = offered transport (servers m) /\ NoDup (map (fun s => label (conf s)) (servers m)).
Proof.
  cbv zeta. unfold Chat_Model.load. cbn [Mcp_Model.servers Mcp_Model.bindings]. destruct (bind_all_spec (map fst (loaded l k cs))) as [A B]. split; [exact A|]. split; [exact B|].
  unfold Chat_Model.loaded. pose proof (Mcp_Props.desired_nodup transport cs []) as N. revert N. generalize (desired transport [] cs) as d. induction d as [|c d IH]; intros N; [constructor|]. cbn [map] in N. inversion N as [|? ? X Y]; subst. cbn [flat_map]. rewrite !map_app.
  assert (Cf : forall c x, load_one l k c = Some x -> conf (fst x) = c).
  { clear. intros c x. unfold Chat_Model.load_one. destruct (match get k (label c) with Some e => _ | None => _ end); [intros [= <-]; reflexivity|]. destruct (l (reach c)); [intros [= <-]; reflexivity|discriminate]. }
  destruct (load_one l k c) as [x|] eqn:E; [|exact (IH Y)]. cbn [map app]. constructor; [|exact (IH Y)]. rewrite (Cf c x E). intros I. apply X. apply in_map_iff in I as (s & Es & I). apply in_map_iff in I as (y & <- & I). apply in_flat_map in I as (c2 & I2 & H). destruct (load_one l k c2) as [z|] eqn:E2; [|destruct H]. destruct H as [-> |[]].
  rewrite (Cf c2 y E2) in Es. rewrite <- Es. apply in_map. exact I2.
Qed.
(** ** A list of tools once remembered is used for good: whatever the server lists from then on. *)
Lemma get_remember k x c : get (remember transport hash k x) c =
  if snd x then (if str_eqb (label (conf (fst x))) c then Some (Entry (hash (conf (fst x))) (tools (fst x))) else get k c) else get k c.
Proof.
  unfold remember. destruct (snd x); [|reflexivity]. cbn [get]. destruct (str_eqb_spec (label (conf (fst x))) c) as [E|E]; [reflexivity|].
  unfold without. induction k as [|[y e] k IH]; [reflexivity|]. cbn [filter fst get]. destruct (str_eqb_spec y (label (conf (fst x)))) as [Ey|Ey]; cbn [negb].
  - rewrite IH. destruct (str_eqb_spec y c); [congruence|reflexivity].
  - cbn [get]. rewrite IH. reflexivity.
Qed.
Lemma get_all xs : forall k c, ~ In c (map (fun x => label (conf (fst x))) xs) -> get (fold_left (remember transport hash) xs k) c = get k c.
Proof.
  induction xs as [|x xs IH]; intros k c N; [reflexivity|]. cbn [fold_left map In] in *. rewrite IH by tauto. rewrite get_remember. destruct (snd x); [|reflexivity]. destruct (str_eqb_spec (label (conf (fst x))) c); [tauto|reflexivity].
Qed.
Lemma get_mem xs s b : forall k, NoDup (map (fun x => label (conf (fst x))) xs) -> In (s, b) xs ->
  get (fold_left (remember transport hash) xs k) (label (conf s)) = if b then Some (Entry (hash (conf s)) (tools s)) else get k (label (conf s)).
Proof.
  induction xs as [|x xs IH]; intros k N I; [destruct I|]. cbn [map] in N. inversion N as [|? ? X Y]; subst. cbn [fold_left]. destruct I as [-> |I].
  - cbn [fst] in X. rewrite get_all by exact X. rewrite get_remember. cbn [fst snd]. rewrite str_eqb_refl. reflexivity.
  - rewrite (IH _ Y I). destruct b; [reflexivity|]. rewrite get_remember. destruct (snd x); [|reflexivity]. destruct (str_eqb_spec (label (conf (fst x))) (label (conf s))) as [E|_]; [|reflexivity].
    exfalso. apply X. rewrite E. apply in_map_iff. exists (s, false). auto.
Qed.
Theorem C165_stale_refuted l l' k cs cs' s : In s (servers (load l k cs)) -> counts transport cs' (conf s) -> In s (servers (load l' (load_cache l k cs) cs')).
Proof.
  intros I C'. pose proof (C165_names l k cs) as (_ & _ & N). apply C165_loaded. split; [exact C'|]. left.
  unfold Chat_Model.load in I, N. cbn [Mcp_Model.servers] in I, N. apply in_map_iff in I as ([s' b] & E & I). cbn [fst] in E. subst s'. rewrite map_map in N.
  unfold Chat_Model.load_cache. rewrite (get_mem _ s b k N I). apply loaded_in in I as [_ I]. destruct b; [eexists; split; [reflexivity|]; auto|].
  unfold Chat_Model.load_one in I. destruct (get k (label (conf s))) as [e|]; [|destruct (l (reach (conf s))); discriminate]. destruct (N.eqb_spec (of_hash e) (hash (conf s))) as [H|H]; [|destruct (l (reach (conf s))); discriminate].
  exists e. split; [reflexivity|]. split; [exact H|]. injection I as <-. reflexivity.
Qed.
End Load.
Print Assumptions C165_loaded.
Print Assumptions C165_names.
Print Assumptions C165_stale_refuted.

(** ** C169 *)
Lemma name_le_trans {A} (a b c : str * A) : by_name a b -> by_name b c -> by_name a c.
Proof.
  unfold by_name. intros H1 H2 H3. apply Frecency_Proofs.str_cmp_gt in H3. destruct (str_cmp (fst a) (fst b)) eqn:E1; [|destruct (str_cmp (fst b) (fst c)) eqn:E2; [| |contradiction]|contradiction].
  - apply Frecency_Proofs.str_cmp_eq in E1. apply H2. rewrite <- E1. apply Frecency_Proofs.str_cmp_gt. exact H3.
  - apply Frecency_Proofs.str_cmp_eq in E2. rewrite <- E2 in H3. assert (str_cmp (fst a) (fst a) = Lt) by (eapply Frecency_Proofs.str_lt_trans; eassumption). rewrite Frecency_Proofs.str_cmp_refl in H. discriminate.
  - assert (L : str_cmp (fst a) (fst c) = Lt) by (eapply Frecency_Proofs.str_lt_trans; eassumption). assert (str_cmp (fst a) (fst a) = Lt) by (eapply Frecency_Proofs.str_lt_trans; eassumption). rewrite Frecency_Proofs.str_cmp_refl in H. discriminate.
Qed.
(** insertion without a limit *)
Fixpoint ins (x : str * bool) (l : list (str * bool)) : list (str * bool) :=
  match l with [] => [x] | y :: r => match str_cmp (fst y) (fst x) with Lt => y :: ins x r | _ => x :: l end end.
Lemma ins_at x l : insert_at (place (fst x) l) x l = ins x l.
Proof. unfold insert_at. induction l as [|[y b] l IH]; [reflexivity|]. cbn [place ins fst]. destruct (str_cmp y (fst x)); try reflexivity. cbn [firstn skipn app]. rewrite IH. reflexivity. Qed.
Lemma ins_perm x l : Permutation (x :: l) (ins x l).
Proof. induction l as [|y l IH]; [reflexivity|]. cbn [ins]. destruct (str_cmp (fst y) (fst x)); try reflexivity. rewrite perm_swap. constructor. exact IH. Qed.
Lemma ins_sorted x l : StronglySorted by_name l -> StronglySorted by_name (ins x l).
Proof.
  induction 1 as [|y l S IH F]; [repeat constructor|]. cbn [ins]. assert (Below : by_name x y -> StronglySorted by_name (x :: y :: l)).
  { intros B. constructor; [constructor; assumption|]. constructor; [exact B|]. rewrite Forall_forall in *. intros z I. eapply name_le_trans; [exact B|exact (F z I)]. }
  destruct (str_cmp (fst y) (fst x)) eqn:E.
  - apply Below. unfold by_name. apply Frecency_Proofs.str_cmp_eq in E. rewrite E, Frecency_Proofs.str_cmp_refl. discriminate.
  - constructor; [exact IH|]. rewrite Forall_forall in *. intros z I. apply (Permutation_in z (Permutation_sym (ins_perm x l))) in I. destruct I as [<- |I]; [unfold by_name; rewrite E; discriminate|exact (F z I)].
  - apply Below. unfold by_name. apply Frecency_Proofs.str_cmp_gt in E. rewrite E. discriminate.
Qed.
Lemma place_le name l : place name l <= length l.
Proof. induction l as [|[y b] l IH]; cbn [place length]; [lia|]. destruct (str_cmp y name); lia. Qed.
Lemma place_firstn name l : forall n, place name (firstn n l) = Nat.min n (place name l).
Proof. induction l as [|[y b] l IH]; intros [|n]; try reflexivity. cbn [firstn place]. destruct (str_cmp y name); try reflexivity. rewrite IH. reflexivity. Qed.
Lemma ins_firstn x l : forall n, firstn n (ins x (firstn n l)) = firstn n (ins x l).
Proof.
  assert (P : forall y (l : list (str * bool)) n, firstn n (y :: firstn n l) = firstn n (y :: l)).
  { intros y l' [|n]; [reflexivity|]. rewrite (firstn_cons n y (firstn (Datatypes.S n) l')), (firstn_cons n y l'), firstn_firstn. do 2 f_equal. lia. }
  induction l as [|y l IH]; intros [|n]; try reflexivity. cbn [firstn ins]. destruct (str_cmp (fst y) (fst x)); cbn [firstn]; f_equal; [exact (P y l n)|exact (IH n)|exact (P y l n)].
Qed.
Lemma insert_visible_spec n l x : length l <= n -> insert_visible n l x = firstn n (ins x l).
Proof.
  intros L. unfold insert_visible. rewrite ins_at. destruct (Nat.ltb_spec (length l) n) as [H|H].
  - symmetry. apply firstn_all2. rewrite <- (Permutation_length (ins_perm x l)). cbn [length]. lia.
  - destruct (Nat.ltb_spec (place (fst x) l) n) as [P|P]; [reflexivity|]. assert (E : length l = n) by lia. pose proof (place_le (fst x) l) as P'. assert (Q : place (fst x) l = length l) by lia. rewrite <- ins_at. unfold insert_at. rewrite Q, firstn_all, <- E, firstn_app, firstn_all, Nat.sub_diag. cbn [firstn]. rewrite app_nil_r. reflexivity.
Qed.
Definition sorted_entries (es : list (str * bool)) : list (str * bool) := fold_left (fun l x => ins x l) es [].
Lemma sorted_entries_spec es : Permutation es (sorted_entries es) /\ StronglySorted by_name (sorted_entries es).
Proof.
  unfold sorted_entries. assert (G : forall l, StronglySorted by_name l -> Permutation (es ++ l) (fold_left (fun l x => ins x l) es l) /\ StronglySorted by_name (fold_left (fun l x => ins x l) es l)).
  { induction es as [|x es IH]; intros l S; [split; [reflexivity|exact S]|]. cbn [fold_left app]. destruct (IH (ins x l) (ins_sorted x l S)) as [P Q]. split; [|exact Q]. rewrite <- P, <- (ins_perm x l). apply Permutation_middle. }
  specialize (G [] (SSorted_nil _)). rewrite app_nil_r in G. exact G.
Qed.
Lemma preview_firstn es : preview es = firstn 12 (sorted_entries es).
Proof.
  unfold preview, sorted_entries. assert (G : forall n l, fold_left (insert_visible n) es (firstn n l) = firstn n (fold_left (fun l x => ins x l) es l)).
  { intros n. induction es as [|x es IH]; intros l; [reflexivity|]. cbn [fold_left]. rewrite insert_visible_spec by (rewrite firstn_length; lia). rewrite ins_firstn. apply IH. }
  exact (G 12 []).
Qed.

(** What is told of a directory: its first twelve entries in the order of their names, and how many more there are. *)
Theorem C169_entries es : exists all, Permutation es all /\ StronglySorted by_name all /\
  summarize_entries (preview es) (length es) =
  join_with (lit ", ") (map (fun e : str * bool => if snd e then fst e ++ lit "/" else fst e) (firstn 12 all) ++
                        (if length es <=? 12 then [] else [lit "(+" ++ Lread_Model.show_nat (N.of_nat (length es - 12)) ++ lit " more)"])).
Proof.
  exists (sorted_entries es). destruct (sorted_entries_spec es) as [P S]. split; [exact P|]. split; [exact S|]. rewrite preview_firstn. unfold summarize_entries.
  pose proof (Permutation_length P) as L. destruct es as [|e es]; [reflexivity|]. change (length (e :: es)) with (Datatypes.S (length es)) at 1. cbn iota. rewrite firstn_length, <- L.
  destruct (Nat.leb_spec (length (e :: es)) 12) as [H|H].
  - rewrite Nat.min_r by exact H. rewrite Nat.ltb_irrefl. reflexivity.
  - rewrite Nat.min_l by lia. destruct (Nat.ltb_spec 12 (length (e :: es))) as [_|X]; [reflexivity|lia].
Qed.
(** What is told of the aliases: the first eight in the order of their names, each with its command, and how many more there are. *)
Lemma ordered_strongly l : Frecency_Proofs.ordered (fun a b : str * str => match str_cmp (fst a) (fst b) with Gt => false | _ => true end) l -> StronglySorted by_name l.
Proof.
  induction l as [|x l IH]; intros H; [constructor|]. destruct H as [H1 H2]. constructor; [exact (IH H2)|]. apply Forall_forall. intros y I. specialize (H1 y I). unfold by_name. destruct (str_cmp (fst x) (fst y)); discriminate.
Qed.
Theorem C169_aliases als : als <> [] -> exists all, Permutation als all /\ StronglySorted by_name all /\
  summarize_aliases als = join_with (lit ", ") (map (fun e : str * str => fst e ++ lit "='" ++ snd e ++ lit "'") (firstn 8 all) ++
                        (if length als <=? 8 then [] else [lit "(+" ++ Lread_Model.show_nat (N.of_nat (length als - 8)) ++ lit " more)"])).
Proof.
  intros H. set (leb := fun a b : str * str => match str_cmp (fst a) (fst b) with Gt => false | _ => true end). exists (sort leb als). split; [apply Frecency_Proofs.sort_perm|]. split.
  - apply ordered_strongly. apply Frecency_Proofs.sort_ordered.
    + intros x y E. destruct (str_cmp (fst x) (fst y)) eqn:C; try discriminate. apply Frecency_Proofs.str_cmp_gt in C. rewrite C. reflexivity.
    + intros x y z A B. assert (X : by_name x z). { apply (name_le_trans x y z); unfold by_name; [destruct (str_cmp (fst x) (fst y))|destruct (str_cmp (fst y) (fst z))]; discriminate. } unfold by_name in X. destruct (str_cmp (fst x) (fst z)); [reflexivity|reflexivity|contradiction].
  - unfold summarize_aliases. destruct als as [|e als]; [contradiction|]. fold leb. cbv zeta. destruct (Nat.leb_spec (length (e :: als)) 8) as [L|L], (Nat.ltb_spec 8 (length (e :: als))) as [M|M]; try lia; reflexivity.
Qed.
(** The list of the aliases has no line of its own: however harmless the texts of the snapshot, no line of it begins
    with "- Aliases:"; they are glued to the line above. *)
Ltac nolf H := exfalso; apply mem_char_iff in H; vm_compute in H; discriminate.
Lemma in_join c sep l : In c (join_with sep l) -> In c sep \/ exists p, In p l /\ In c p.
Proof.
  induction l as [|p l IH]; [intros []|]. destruct l as [|q l]; [intros I; right; exists p; split; [left; reflexivity|exact I]|]. change (join_with sep (p :: q :: l)) with (p ++ sep ++ join_with sep (q :: l)). rewrite !in_app_iff. intros [H|[H|H]].
  - right. exists p. split; [left; reflexivity|exact H].
  - left. exact H.
  - destruct (IH H) as [X|(p' & X & Y)]; [left; exact X|]. right. exists p'. split; [right; exact X|exact Y].
Qed.
Lemma no_lf_more k : ~ In 10%N (lit "(+" ++ Lread_Model.show_nat k ++ lit " more)").
Proof.
  rewrite !in_app_iff. intros [H|[H|H]]; [nolf H| |nolf H].
  pose proof (Lread_Props.show_nat_Dec k) as D. revert H. induction D as [d L|s n d D IH L]; cbn [In]; [intros [H|[]]; lia|]. rewrite in_app_iff. intros [H|[H|[]]]; [exact (IH H)|lia].
Qed.
Theorem C169_lines_refuted (family os arch cwd git : str) (entries : option (list (str * bool))) (aliases : list (str * str)) :
  ~ In 10%N (family ++ os ++ arch ++ cwd ++ git) -> (forall es e, entries = Some es -> In e es -> ~ In 10%N (fst e)) -> (forall a, In a aliases -> ~ In 10%N (fst a ++ snd a)) ->
  forall line, In line (Base.split_on 10%N (snapshot family os arch cwd git entries aliases)) -> starts_with (lit "- Aliases:") line = false.
Proof.
  intros Plain Es Al. rewrite !in_app_iff in Plain.
  assert (A : ~ In 10%N (lit "- Aliases: " ++ summarize_aliases aliases)).
  { rewrite in_app_iff. intros [H|H]; [nolf H|]. destruct aliases as [|a al]; [nolf H|].
    destruct (C169_aliases (a :: al)) as (all & P & _ & E); [discriminate|]. rewrite E in H. clear E. apply in_join in H as [H|(p & I & H)]; [nolf H|]. apply in_app_iff in I as [I|I].
    - apply in_map_iff in I as (x & <- & I). apply Title_Props.firstn_in in I. apply (Permutation_in x (Permutation_sym P)) in I. apply (Al x I). rewrite !in_app_iff in *. destruct H as [H|[H|[H|H]]]; auto; nolf H.
    - destruct (_ <=? _); [destruct I|]. destruct I as [<- |[]]. exact (no_lf_more _ H). }
  unfold snapshot. cbv zeta. set (files := match entries with Some es => match summarize_entries (preview es) (length es) with [] => [] | s => 10%N :: lit "- Visible files: " ++ s end | None => [] end).
  assert (F : files = [] \/ exists t, files = 10%N :: lit "- Visible files: " ++ t /\ ~ In 10%N t).
  { unfold files. destruct entries as [es|]; [|left; reflexivity]. assert (X : ~ In 10%N (summarize_entries (preview es) (length es))).
    { destruct (C169_entries es) as (all & P & _ & E). rewrite E. clear E. intros H. apply in_join in H as [H|(p & I & H)]; [nolf H|]. apply in_app_iff in I as [I|I].
      - apply in_map_iff in I as (x & <- & I). apply Title_Props.firstn_in in I. apply (Permutation_in x (Permutation_sym P)) in I. apply (Es es x eq_refl I). destruct (snd x); [|exact H]. apply in_app_iff in H as [H|H]; [exact H|]. nolf H.
      - destruct (_ <=? _); [destruct I|]. destruct I as [<- |[]]. exact (no_lf_more _ H). }
    destruct (summarize_entries (preview es) (length es)) as [|c t]; [left; reflexivity|]. right. exists (c :: t). auto. }
  clearbody files.
  assert (L : forall pre s, ~ In 10%N (lit pre) -> ~ In 10%N s -> forall rest, Base.split_on 10%N (lit pre ++ s ++ 10%N :: rest) = (lit pre ++ s) :: Base.split_on 10%N rest).
  { intros pre s N1 N2 rest. rewrite app_assoc, split_on_app, split_on_none; [reflexivity|]. rewrite in_app_iff. tauto. }
  assert (G : forall pre s t, ~ In 10%N (lit pre) -> ~ In 10%N s -> ~ In 10%N t -> Base.split_on 10%N (lit pre ++ s ++ t) = [lit pre ++ s ++ t]).
  { intros pre s t N1 N2 N3. apply split_on_none. rewrite !in_app_iff. tauto. }
  intros line. rewrite !L by (try tauto; let H := fresh in intro H; nolf H).
  destruct F as [-> |(t & -> & T)].
  - cbn [app]. rewrite G by (try tauto; let H := fresh in intro H; nolf H). intros [<- |[<- |[<- |[<- |[<- |[]]]]]]; reflexivity.
  - cbn [app]. rewrite L by (try tauto; let H := fresh in intro H; nolf H). rewrite <- app_assoc, G by (try tauto; let H := fresh in intro H; nolf H). intros [<- |[<- |[<- |[<- |[<- |[<- |[]]]]]]]; reflexivity.
Qed.
Print Assumptions C169_entries.
Print Assumptions C169_aliases.
Print Assumptions C169_lines_refuted.
Example C169_example :
  let text := snapshot (lit "unix") (lit "linux") (lit "x86_64") (lit "/home/u") (lit "branch main (clean)") (Some [(lit "src", true); (lit "README", false)]) [(lit "ll", lit "ls -l"); (lit "g", lit "git")] in
  In (lit "- Visible files: README, src/- Aliases: g='git', ll='ls -l'") (Base.split_on 10%N text).
Proof. vm_compute. tauto. Qed.
Example C169_more : summarize_entries (preview (map (fun n => ([n], false)) (rev (map N.of_nat (seq 97 14))))) 14 = lit "a, b, c, d, e, f, g, h, i, j, k, l, (+2 more)".
Proof. vm_compute. reflexivity. Qed.
