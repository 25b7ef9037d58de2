(** C162 and C163: the names of external tools, and the servers that are registered. *)
From Coq Require Import Permutation.
From Verif Require Import Base Numerals Dmv_Model Frecency_Model Mcp_Model Mcp_Spec.
From Verif Require Dmv_Props Lread_Model Lread_Props Frecency_Proofs.

(** ** Names *)
Lemma replace_in from to c (s : str) : forall k, In c (replace_from from to k s) -> In c s \/ In c to.
Proof.
  induction s as [|x s IH]; intros k I; [destruct I|]. cbn [replace_from] in I. destruct k as [|k].
  - destruct (starts_with from (x :: s)).
    + apply in_app_iff in I as [I|I]; [right; exact I|]. destruct (IH _ I); [left; right; assumption|right; assumption].
    + destruct I as [-> |I]; [left; left; reflexivity|]. destruct (IH _ I); [left; right; assumption|right; assumption].
  - destruct (IH _ I); [left; right; assumption|right; assumption].
Qed.
Lemma collapse_in c f : forall s, In c (collapse f s) -> In c s \/ c = underscore.
Proof.
  induction f as [|f IH]; intros s I; [left; exact I|]. cbn [collapse] in I. destruct (contains (lit "__") s); [|left; exact I].
  destruct (IH _ I) as [J| ->]; [|right; reflexivity]. apply replace_in in J as [J|[J|[]]]; [left; exact J|right; symmetry; exact J].
Qed.
Lemma replace_le (s : str) : forall k, length (replace_from (lit "__") (lit "_") k s) <= length s.
Proof.
  induction s as [|x s IH]; intros k; [reflexivity|]. cbn [replace_from]. destruct k as [|k]; [|specialize (IH k); cbn [length]; lia].
  destruct (starts_with (lit "__") (x :: s)); cbn [app length]; [rewrite app_length|]; match goal with |- context [replace_from _ _ ?j s] => specialize (IH j) end; cbn [length] in *; change (length (lit "_")) with 1; lia.
Qed.
Lemma replace_lt (s : str) : contains (lit "__") s = true -> length (replace (lit "__") (lit "_") s) < length s.
Proof.
  intros C. apply contains_iff in C as (a & b & ->). unfold replace. induction a as [|x a IH].
  - cbn [app]. assert (E : replace_from (lit "__") (lit "_") 0 (lit "__" ++ b) = lit "_" ++ replace_from (lit "__") (lit "_") 0 b) by (apply (Dmv_Props.replace_hit (lit "__") (lit "_") b); discriminate).
    rewrite E, !app_length. change (length (lit "_")) with 1. change (length (lit "__")) with 2. pose proof (replace_le b 0). lia.
  - cbn [app replace_from]. destruct (starts_with (lit "__") (x :: a ++ lit "__" ++ b)).
    + rewrite app_length. change (length (lit "_")) with 1. change (length (lit "__") - 1) with 1. destruct a as [|y a].
      * cbn [app]. destruct (lit "__" ++ b) as [|z t] eqn:E; [discriminate|]. cbn [replace_from length]. pose proof (replace_le t 0). lia.
      * cbn [app replace_from length]. pose proof (replace_le (a ++ lit "__" ++ b) 0). lia.
    + cbn [length]. lia.
Qed.
Lemma collapse_single f : forall s, length s <= f -> forall a b, collapse f s <> a ++ [95; 95]%N ++ b.
Proof.
  induction f as [|f IH]; intros s L a b E.
  - destruct s; [|cbn in L; lia]. cbn [collapse] in E. destruct a; discriminate.
  - cbn [collapse] in E. destruct (contains (lit "__") s) eqn:C.
    + apply (IH (replace (lit "__") (lit "_") s)) in E; [exact E|]. pose proof (replace_lt s C). lia.
    + assert (contains (lit "__") s = true); [|congruence]. apply contains_iff. exists a, b. exact E.
Qed.
Lemma drop_suffix (s : str) : exists a, s = a ++ drop_underscores s.
Proof. induction s as [|c s (a & E)]; [exists []; reflexivity|]. cbn [drop_underscores]. destruct (c =? underscore)%N; [exists (c :: a); cbn; congruence|exists []; reflexivity]. Qed.
Lemma drop_front (s r : str) : drop_underscores s <> 95%N :: r.
Proof. induction s as [|c s IH]; [discriminate|]. cbn [drop_underscores]. destruct (N.eqb_spec c underscore) as [_|N]; [exact IH|]. intros [= E _]. apply N. exact E. Qed.
Lemma trim_underscores_spec (s : str) : exists a b, s = a ++ trim_underscores s ++ b /\ (forall r, trim_underscores s <> 95%N :: r) /\ (forall r, trim_underscores s <> r ++ [95%N]).
Proof.
  unfold trim_underscores. set (d := drop_underscores s). destruct (drop_suffix s) as (a & Ea). fold d in Ea. destruct (drop_suffix (rev d)) as (b & Eb). set (e := drop_underscores (rev d)) in *.
  assert (Ed : d = rev e ++ rev b) by (apply (f_equal (@rev char)) in Eb; rewrite rev_involutive, rev_app_distr in Eb; exact Eb).
  exists a, (rev b). split; [rewrite <- Ed; exact Ea|]. split.
  - intros r E. apply (drop_front s (r ++ rev b)). fold d. rewrite Ed, E. reflexivity.
  - intros r E. apply (drop_front (rev d) (rev r)). fold e. apply (f_equal (@rev char)) in E. rewrite rev_involutive, rev_app_distr in E. exact E.
Qed.
Lemma word_name c : name_char (word_char c).
Proof.
  unfold word_char, alnum, name_char. destruct ((48 <=? c) && (c <=? 57) || (65 <=? c) && (c <=? 90) || (97 <=? c) && (c <=? 122))%N eqn:E; [|right; right; reflexivity].
  unfold lower_char. rewrite !orb_true_iff, !andb_true_iff, !N.leb_le in E. destruct ((65 <=? c)%N && (c <=? 90)%N) eqn:U.
  - rewrite andb_true_iff, !N.leb_le in U. left. lia.
  - rewrite andb_false_iff, !N.leb_gt in U. lia.
Qed.
Theorem C162_parts_are_names input : part (sanitize_identifier input).
Proof.
  unfold sanitize_identifier. set (r := match map word_char input with [] => lit "x" | _ => map word_char input end).
  assert (Fr : Forall name_char r).
  { unfold r. destruct (map word_char input) as [|y l] eqn:E; [constructor; [left; cbn; lia|constructor]|]. rewrite <- E. apply Forall_forall. intros c I. apply in_map_iff in I as (x & <- & _). apply word_name. }
  set (k := collapse (length r) r). assert (Fk : Forall name_char k).
  { apply Forall_forall. intros c I. apply collapse_in in I as [I| ->]; [|right; right; reflexivity]. rewrite Forall_forall in Fr. exact (Fr c I). }
  pose proof (collapse_single (length r) r (le_n _)) as Sk. fold k in Sk. destruct (trim_underscores_spec k) as (a & b & E & F & B). destruct (trim_underscores k) as [|c t].
  - constructor.
    + repeat (constructor; [first [left; cbn; lia|right; right; reflexivity]|]). constructor.
    + discriminate.
    + intros x H. discriminate H.
    + intros x H. apply (f_equal (@rev char)) in H. rewrite rev_app_distr in H. discriminate H.
    + intros x y H. assert (contains (lit "__") (lit "mcp_tool") = true) by (apply contains_iff; exists x, y; exact H). discriminate.
  - constructor.
    + rewrite E in Fk. apply Forall_app in Fk as [_ Fk]. apply Forall_app in Fk as [Fk _]. exact Fk.
    + discriminate.
    + exact F.
    + exact B.
    + intros x y H. apply (Sk (a ++ x) (y ++ b)). rewrite E, H, <- !app_assoc. reflexivity.
Qed.
(** The server's part and the tool's part of a name can be told apart. *)
Theorem C162_parts_apart a t b u : base_name a t = base_name b u -> sanitize_identifier a = sanitize_identifier b /\ sanitize_identifier t = sanitize_identifier u.
Proof.
  unfold base_name. intros E. apply app_inv_head in E. pose proof (C162_parts_are_names a) as Pa. pose proof (C162_parts_are_names b) as Pb.
  assert (K : forall x y m n : str, part x -> part y -> (exists l, x = y ++ l /\ lit "__" ++ m = l ++ lit "__" ++ n) -> x = y /\ m = n).
  { intros x y m n Px Py (l & El & Em). destruct l as [|c [|d l]].
    - rewrite app_nil_r in El. split; [exact El|]. exact (app_inv_head (lit "__") _ _ Em).
    - exfalso. injection Em as <- _. exact (part_back _ Px y El).
    - exfalso. injection Em as <- <- _. apply (part_single _ Px y l). exact El. }
  pose proof (app_eq_app _ _ _ _ E) as (l & [[E1 E2]|[E1 E2]]).
  - destruct (K _ _ (sanitize_identifier u) (sanitize_identifier t) Pa Pb (ex_intro _ l (conj E1 E2))). auto.
  - destruct (K _ _ (sanitize_identifier t) (sanitize_identifier u) Pb Pa (ex_intro _ l (conj E1 E2))). auto.
Qed.
Lemma show_nat_inj m n : Lread_Model.show_nat m = Lread_Model.show_nat n -> m = n.
Proof.
  intros E. pose proof (Lread_Props.show_nat_Dec m) as A. pose proof (Lread_Props.show_nat_Dec n) as B. rewrite E in A.
  apply Dec_iff in A as (_ & _ & A). apply Dec_iff in B as (_ & _ & B). congruence.
Qed.
Lemma numbered_inj base m n : numbered base m = numbered base n -> m = n.
Proof. unfold numbered. intros E. apply app_inv_head in E. injection E as E. apply show_nat_inj. exact E. Qed.
Lemma next_name_spec base used f : forall k, exists j, j <= f /\ next_name f base used k = numbered base (k + N.of_nat j) /\
  (forall i, i < j -> In (numbered base (k + N.of_nat i)) used) /\ (j < f -> ~ In (numbered base (k + N.of_nat j)) used).
Proof.
  induction f as [|f IH]; intros k; cbn [next_name].
  - exists 0. rewrite N.add_0_r. repeat split; lia.
  - destruct (mem_str (numbered base k) used) eqn:M.
    + destruct (IH (N.succ k)) as (j & L & E & A & B). exists (S j). replace (k + N.of_nat (S j))%N with (N.succ k + N.of_nat j)%N by lia. split; [lia|]. split; [exact E|]. split.
      * intros [|i] Li; [rewrite N.add_0_r; apply mem_str_iff; exact M|]. replace (k + N.of_nat (S i))%N with (N.succ k + N.of_nat i)%N by lia. apply A. lia.
      * intros Lj. apply B. lia.
    + exists 0. rewrite N.add_0_r. split; [lia|]. split; [reflexivity|]. split; [intros i Li; lia|]. intros _ I. apply mem_str_iff in I. congruence.
Qed.
Lemma unique_fresh base used : ~ In (unique_name base used) used.
Proof.
  unfold unique_name. destruct (mem_str base used) eqn:M; [|intros I; apply mem_str_iff in I; congruence].
  destruct (next_name_spec base used (length used) 2) as (j & L & E & A & B). rewrite E. destruct (Nat.lt_ge_cases j (length used)) as [Lj|Lj]; [exact (B Lj)|].
  assert (j = length used) as -> by lia. intros I.
  assert (N : NoDup (map (fun i => numbered base (2 + N.of_nat i)) (seq 0 (S (length used))))).
  { apply FinFun.Injective_map_NoDup; [|apply seq_NoDup]. intros x y H. apply numbered_inj in H. lia. }
  apply NoDup_incl_length with (l' := used) in N; [rewrite map_length, seq_length in N; lia|].
  intros x Ix. apply in_map_iff in Ix as (i & <- & Ii). apply in_seq in Ii. destruct (Nat.eq_dec i (length used)) as [-> |Ni]; [exact I|apply A; lia].
Qed.
(** a name is the base, or the base with a number *)
Lemma unique_shape base used : unique_name base used = base \/ exists n, unique_name base used = numbered base n.
Proof. unfold unique_name. destruct (mem_str base used); [right|left; reflexivity]. destruct (next_name_spec base used (length used) 2) as (j & _ & E & _). eexists. exact E. Qed.
Lemma unique_free base used : ~ In base used -> unique_name base used = base.
Proof. intros N. unfold unique_name. destruct (mem_str base used) eqn:M; [|reflexivity]. apply mem_str_iff in M. contradiction. Qed.

(** ** Tables *)
Lemma get_in {A} (l : list (str * A)) k a : get l k = Some a -> In (k, a) l.
Proof. induction l as [|[x b] l IH]; [discriminate|]. cbn [get]. destruct (str_eqb_spec x k) as [-> |_]; [intros [= ->]; left; reflexivity|]. intros G. right. exact (IH G). Qed.
Lemma in_get {A} (l : list (str * A)) k a : NoDup (map fst l) -> In (k, a) l -> get l k = Some a.
Proof.
  induction l as [|[x b] l IH]; intros N I; [destruct I|]. cbn [map fst] in N. inversion N as [|? ? Nx Nl]; subst. cbn [get]. destruct I as [[= -> ->]|I]; [rewrite str_eqb_refl; reflexivity|].
  destruct (str_eqb_spec x k) as [-> |_]; [|exact (IH Nl I)]. exfalso. apply Nx. apply (in_map fst) in I. exact I.
Qed.
Lemma get_none {A} (l : list (str * A)) k : get l k = None <-> ~ In k (map fst l).
Proof.
  induction l as [|[x b] l IH]; cbn [get map fst]; [tauto|]. destruct (str_eqb_spec x k) as [-> |N]; [split; [discriminate|intros H; exfalso; apply H; left; reflexivity]|].
  rewrite IH. split; [intros H [E|I]; [exact (N E)|exact (H I)]|intros H I; apply H; right; exact I].
Qed.
Lemma get_app {A} (l r : list (str * A)) k : get (l ++ r) k = match get l k with Some a => Some a | None => get r k end.
Proof. induction l as [|[x b] l IH]; [reflexivity|]. cbn [app get]. destruct (str_eqb x k); [reflexivity|exact IH]. Qed.
Lemma get_filter {A} p (l : list (str * A)) k a : get l k = Some a -> p (k, a) = true -> get (filter p l) k = Some a.
Proof.
  induction l as [|[x b] l IH]; [discriminate|]. cbn [get filter]. destruct (str_eqb_spec x k) as [-> |N].
  - intros [= ->] P. rewrite P. cbn [get]. rewrite str_eqb_refl. reflexivity.
  - intros G P. destruct (p (x, b)); [|exact (IH G P)]. cbn [get]. destruct (str_eqb_spec x k); [contradiction|exact (IH G P)].
Qed.
Lemma nodup_filter {A} (p : str * A -> bool) l : NoDup (map fst l) -> NoDup (map fst (filter p l)).
Proof.
  induction l as [|[x b] l IH]; intros N; [constructor|]. cbn [map fst] in N. inversion N as [|? ? Nx Nl]; subst. cbn [filter]. destruct (p (x, b)); [|exact (IH Nl)].
  cbn [map fst]. constructor; [|exact (IH Nl)]. intros I. apply Nx. apply in_map_iff in I as ([y c] & E & I). apply filter_In in I as [I _]. apply in_map_iff. exists (y, c). auto.
Qed.
Lemma bind_extends lbl ts : forall bs, exists new, bind_tools lbl ts bs = bs ++ new /\ map snd new = map (Binding lbl) ts /\
  (NoDup (map fst bs) -> NoDup (map fst (bs ++ new))) /\
  Forall2 (fun t p => fst p = base_name lbl t \/ exists n, fst p = numbered (base_name lbl t) n) ts new.
Proof.
  induction ts as [|t ts IH]; intros bs; cbn [bind_tools].
  - exists []. rewrite app_nil_r. repeat split; [tauto|constructor].
  - set (u := unique_name (base_name lbl t) (map fst bs)). destruct (IH (bs ++ [(u, Binding lbl t)])) as (new & E & S & N & F). exists ((u, Binding lbl t) :: new).
    rewrite E, <- app_assoc. cbn [app map snd]. split; [reflexivity|]. split; [rewrite S; reflexivity|]. split.
    + intros Nb. rewrite <- app_assoc in N. apply N. rewrite map_app. cbn [map fst]. apply Permutation_NoDup with (l := u :: map fst bs); [apply Permutation_cons_append|].
      constructor; [apply unique_fresh|exact Nb].
    + constructor; [apply unique_shape|exact F].
Qed.
Lemma existsb_filter_none {A} (p q : A -> bool) l : existsb p (filter q l) = true -> existsb p l = true.
Proof. rewrite !existsb_exists. intros (x & I & H). apply filter_In in I as [I _]. eauto. Qed.

Section Mcp.
Variable transport : Type.
Variable same : transport -> transport -> bool.
Hypothesis same_iff : forall a b, same a b = true <-> a = b.
Notation config := (config transport).
Notation server := (server transport).
Notation manager := (manager transport).
Notation label := (label transport).
Notation reach := (reach transport).
Notation conf := (conf transport).
Notation tools := (tools transport).
Notation servers := (servers transport).
Notation bindings := (bindings transport).
Notation name_of := (name_of transport).
Notation execute := (execute transport).
Notation sync := (sync transport same).
Notation config_of := (config_of transport).
Notation offered := (offered transport).

Record sound (m : manager) : Prop := {
  s_names : NoDup (map fst (bindings m));
  s_labels : NoDup (map name_of (servers m));
  s_offered : Permutation (map snd (bindings m)) (offered (servers m));
  s_shape : Forall (fun p => fst p = base_name (b_server (snd p)) (b_tool (snd p)) \/ exists n, fst p = numbered (base_name (b_server (snd p)) (b_tool (snd p))) n) (bindings m) }.
Lemma known_iff m lbl : known transport m lbl = true <-> In lbl (map name_of (servers m)).
Proof.
  unfold known. rewrite existsb_exists, in_map_iff. split; intros (s & A & B); exists s; [apply str_eqb_eq in B; auto|subst lbl; split; [exact B|apply str_eqb_refl]].
Qed.
Lemma register_sound s m m' : sound m -> register transport s m = Some m' -> sound m'.
Proof.
  intros [N L O F] R. unfold register in R. destruct (known transport m (name_of s)) eqn:K; [discriminate|]. injection R as <-.
  destruct (bind_extends (name_of s) (tools s) (bindings m)) as (new & E & Sn & Nn & Fn). constructor; cbn [Mcp_Model.bindings Mcp_Model.servers]; rewrite ?E.
  - apply Nn. exact N.
  - rewrite map_app. cbn [map]. apply Permutation_NoDup with (l := name_of s :: map name_of (servers m)); [apply Permutation_cons_append|]. constructor; [|exact L]. rewrite <- known_iff, K. discriminate.
  - unfold Mcp_Spec.offered. rewrite map_app, flat_map_app. cbn [flat_map]. rewrite app_nil_r, Sn. apply Permutation_app; [exact O|reflexivity].
  - apply Forall_app. split; [exact F|]. clear - Fn Sn. revert Sn. induction Fn as [|t p ts ps H _ IH]; [constructor|]. cbn [map]. intros [= E Sn]. constructor; [|exact (IH Sn)]. rewrite E. exact H.
Qed.
Lemma remove_sound lbl m : sound m -> sound (remove transport lbl m).
Proof.
  intros [N L O F]. unfold remove. destruct (known transport m lbl); [|constructor; assumption]. constructor; cbn [Mcp_Model.bindings Mcp_Model.servers].
  - apply nodup_filter. exact N.
  - clear - L. induction (servers m) as [|s l IH]; [constructor|]. cbn [map] in L. inversion L as [|? ? A B]; subst. cbn [filter]. destruct (negb (str_eqb (name_of s) lbl)); [|exact (IH B)]. cbn [map]. constructor; [|exact (IH B)].
    intros I. apply A. apply in_map_iff in I as (x & E & I). apply filter_In in I as [I _]. apply in_map_iff. eauto.
  - set (p := fun b => negb (str_eqb (b_server b) lbl)).
    assert (E1 : map snd (filter (fun q => negb (str_eqb (b_server (snd q)) lbl)) (bindings m)) = filter p (map snd (bindings m))).
    { generalize (bindings m) as l. induction l as [|[x b] l IH]; [reflexivity|]. cbn [filter map snd]. unfold p at 1. destruct (negb (str_eqb (b_server b) lbl)); cbn [map snd]; rewrite IH; reflexivity. }
    assert (E2 : offered (filter (fun s => negb (str_eqb (name_of s) lbl)) (servers m)) = filter p (offered (servers m))).
    { unfold Mcp_Spec.offered. generalize (servers m) as l. induction l as [|s l IH]; [reflexivity|]. cbn [filter flat_map]. rewrite filter_app, <- IH.
      assert (E : filter p (map (Binding (label (conf s))) (tools s)) = if negb (str_eqb (name_of s) lbl) then map (Binding (label (conf s))) (tools s) else []).
      { unfold Mcp_Model.name_of. generalize (tools s) as ts. induction ts as [|t ts IHt]; [destruct (negb (str_eqb (label (conf s)) lbl)); reflexivity|]. cbn [map filter]. unfold p at 1. cbn [b_server]. rewrite IHt. destruct (negb (str_eqb (label (conf s)) lbl)); reflexivity. }
      rewrite E. destruct (negb (str_eqb (name_of s) lbl)); reflexivity. }
    rewrite E1, E2. clear - O. induction O as [|x l l' _ IH|x y l|l l' l'' _ IH1 _ IH2]; cbn [filter]; [constructor| | |eapply Permutation_trans; eassumption].
    + destruct (p x); [constructor|]; exact IH.
    + destruct (p x), (p y); try apply perm_swap; apply Permutation_refl.
  - apply Forall_forall. intros q I. apply filter_In in I as [I _]. rewrite Forall_forall in F. exact (F q I).
Qed.
Lemma sync_one_sound l b m c : sound m -> sound (sync_one transport same l b m c).
Proof.
  intros S. unfold sync_one, replace_server, add. destruct (config_of b (label c)) as [d|].
  - destruct (same_config transport same d c); [exact S|]. destruct (l (reach c)) as [ts|]; [|exact S]. destruct (register transport _ _) as [m'|] eqn:R; [|exact S]. eapply register_sound; [|exact R]. apply remove_sound. exact S.
  - destruct (l (reach c)) as [ts|]; [|exact S]. destruct (register transport _ _) as [m'|] eqn:R; [|exact S]. eapply register_sound; eassumption.
Qed.
Lemma fold_inv {A B} (P : A -> Prop) (f : A -> B -> A) l : (forall a b, P a -> P (f a b)) -> forall a, P a -> P (fold_left f l a).
Proof. intros H. induction l as [|b l IH]; intros a Pa; [exact Pa|]. cbn [fold_left]. apply IH, H, Pa. Qed.
Lemma sync_sound l cs m : sound m -> sound (sync l cs m).
Proof.
  intros S. unfold Mcp_Model.sync. apply fold_inv; [intros a c Ha; apply sync_one_sound; exact Ha|]. apply fold_inv; [intros a x Ha; apply remove_sound; exact Ha|exact S].
Qed.
Lemma after_sound es : sound (mgr transport (after transport same es)).
Proof.
  unfold after. apply fold_inv with (P := fun s => sound (mgr transport s)); [|constructor; cbn; constructor].
  intros s e H. destruct e as [cs|l c| |l|lbl a|lbl|]; cbn [step mgr]; try exact H.
  - unfold add. destruct (l (reach c)) as [ts|]; [|exact H]. destruct (register transport _ _) as [m|] eqn:R; [|exact H]. eapply register_sound; eassumption.
  - destruct (same_configs _ _ _ _); [exact H|]. apply sync_sound. exact H.
  - unfold connect. destruct (known transport _ lbl); [|exact H]. destruct a; destruct H; constructor; assumption.
  - destruct H; constructor; assumption.
  - destruct H; constructor; assumption.
Qed.

(** ** C162 *)
(** Whatever was configured, added, reloaded, connected: no two tools share a name, each tool of each
    server has one, and there are no others. *)
Theorem C162_one_name_per_tool es : let m := mgr transport (after transport same es) in
  NoDup (map fst (bindings m)) /\ Permutation (map snd (bindings m)) (offered (servers m)) /\ NoDup (map name_of (servers m)).
Proof. intros m. destruct (after_sound es) as [N L O _]. auto. Qed.
(** Calling a tool's name calls this tool at its own server, with the arguments as they are; calling
    anything else calls nothing. *)
Theorem C162_call parse es name b arguments : let m := mgr transport (after transport same es) in
  In (name, b) (bindings m) ->
  exists s, In s (servers m) /\ label (conf s) = b_server b /\ In (b_tool b) (tools s) /\
  (forall s', In s' (servers m) -> label (conf s') = b_server b -> s' = s) /\
  execute parse m name arguments =
    match (match trim arguments with [] => Null | _ => parse arguments end) with
    | Bad | Other => Error transport
    | Null => Call transport (reach (conf s)) (b_tool b) None
    | Object o => Call transport (reach (conf s)) (b_tool b) (Some o)
    end.
Proof.
  intros m I. destruct (after_sound es) as [N L O _]. fold m in N, L, O.
  assert (Ib : In b (offered (servers m))) by (eapply Permutation_in; [exact O|]; apply (in_map snd) in I; exact I).
  unfold Mcp_Spec.offered in Ib. apply in_flat_map in Ib as (s & Is & Ib). apply in_map_iff in Ib as (t & Eb & It). subst b. cbn [b_server b_tool] in *.
  assert (U : forall s', In s' (servers m) -> label (conf s') = label (conf s) -> s' = s).
  { clear - L Is. revert Is L. generalize (servers m) as l. intros l Is L s' Is' E. induction l as [|x l IH]; [destruct Is|]. cbn [map] in L. inversion L as [|? ? A B]; subst.
    destruct Is as [-> |Is], Is' as [-> |Is']; [reflexivity| | |exact (IH Is B Is')].
    - exfalso. apply A. apply in_map_iff. exists s'. split; [exact E|exact Is'].
    - exfalso. apply A. apply in_map_iff. exists s. split; [symmetry; exact E|exact Is]. }
  exists s. split; [exact Is|]. split; [reflexivity|]. split; [exact It|]. split; [exact U|].
  unfold Mcp_Model.execute. rewrite (in_get _ _ _ N I). cbn [b_server b_tool].
  destruct (List.find (fun x => str_eqb (name_of x) (label (conf s))) (servers m)) as [s'|] eqn:F.
  - apply find_some in F as [Is' E]. apply str_eqb_eq in E. rewrite (U s' Is' E). destruct (match trim arguments with [] => Null | _ => parse arguments end); reflexivity.
  - exfalso. pose proof (find_none _ _ F s Is) as H. cbn beta in H. unfold Mcp_Model.name_of in H. rewrite str_eqb_refl in H. discriminate.
Qed.
Theorem C162_only_tools parse m name arguments : ~ In name (map fst (bindings m)) -> execute parse m name arguments = Unbound transport.
Proof. intros N. unfold Mcp_Model.execute. apply get_none in N. rewrite N. reflexivity. Qed.
Lemma name_chars_app a b : Forall name_char a -> Forall name_char b -> Forall name_char (a ++ b).
Proof. intros. apply Forall_app. auto. Qed.
(** Every name is mcp__server__tool, perhaps with a number, of lower-case letters, digits and underscores. *)
Theorem C162_shape es name b : let m := mgr transport (after transport same es) in In (name, b) (bindings m) ->
  Forall name_char name /\ exists x y z, name = lit "mcp__" ++ x ++ lit "__" ++ y ++ z /\ part x /\ part y /\ x = sanitize_identifier (b_server b) /\ y = sanitize_identifier (b_tool b).
Proof.
  intros m I. destruct (after_sound es) as [_ _ _ F]. rewrite Forall_forall in F. specialize (F _ I). cbn [fst snd] in F.
  pose proof (C162_parts_are_names (b_server b)) as Px. pose proof (C162_parts_are_names (b_tool b)) as Py.
  assert (B : Forall name_char (base_name (b_server b) (b_tool b))).
  { unfold base_name. apply name_chars_app; [repeat (constructor; [first [left; cbn; lia|right; right; reflexivity]|]); constructor|]. apply name_chars_app; [apply part_chars; exact Px|].
    apply name_chars_app; [repeat (constructor; [right; right; reflexivity|]); constructor|apply part_chars; exact Py]. }
  destruct F as [-> |(n & ->)].
  - split; [exact B|]. exists (sanitize_identifier (b_server b)), (sanitize_identifier (b_tool b)), []. rewrite app_nil_r. repeat split; try reflexivity; try apply Px; try apply Py.
  - split.
    + unfold numbered. apply name_chars_app; [exact B|]. apply name_chars_app; [repeat (constructor; [right; right; reflexivity|]); constructor|].
      pose proof (Lread_Props.show_nat_Dec n) as D. apply Dec_iff in D as (_ & D & _). eapply Forall_impl; [|exact D]. intros c H. apply is_digit_iff in H as (d & Hd & ->). right. left. lia.
    + exists (sanitize_identifier (b_server b)), (sanitize_identifier (b_tool b)), (lit "_" ++ Lread_Model.show_nat n). unfold numbered, base_name. rewrite <- !app_assoc. repeat split; try reflexivity; try apply Px; try apply Py.
Qed.

(** ** C163 *)
Definition server_of (m : manager) (x : str) : option server := List.find (fun s => str_eqb (name_of s) x) (servers m).
Lemma server_of_iff m x s : NoDup (map name_of (servers m)) -> server_of m x = Some s <-> In s (servers m) /\ label (conf s) = x.
Proof.
  intros L. unfold server_of. split; [intros F; apply find_some in F as [I E]; apply str_eqb_eq in E; auto|]. intros [I E]. subst x. revert L I. generalize (servers m) as l. induction l as [|y l IH]; intros L I; [destruct I|].
  cbn [map] in L. inversion L as [|? ? A B]; subst. cbn [List.find]. destruct I as [-> |I]; [unfold Mcp_Model.name_of; rewrite str_eqb_refl; reflexivity|].
  destruct (str_eqb_spec (name_of y) (label (conf s))) as [E|_]; [|exact (IH B I)]. exfalso. apply A. rewrite E. apply in_map_iff. exists s. auto.
Qed.
Lemma find_app {A} (p : A -> bool) a b : List.find p (a ++ b) = match List.find p a with Some x => Some x | None => List.find p b end.
Proof. induction a as [|x a IH]; [reflexivity|]. cbn [app List.find]. destruct (p x); [reflexivity|exact IH]. Qed.
Lemma known_server m x : known transport m x = match server_of m x with Some _ => true | None => false end.
Proof. unfold known, server_of. induction (servers m) as [|s l IH]; [reflexivity|]. cbn [existsb List.find]. destruct (str_eqb (name_of s) x); [reflexivity|exact IH]. Qed.
Lemma register_server s m : register transport s m = None <-> server_of m (name_of s) <> None.
Proof. unfold register. rewrite known_server. destruct (server_of m (name_of s)); split; try discriminate; try reflexivity; congruence. Qed.
Lemma server_register s m m' x : register transport s m = Some m' -> server_of m' x = if str_eqb (name_of s) x then Some s else server_of m x.
Proof.
  intros R. assert (Nn : server_of m (name_of s) = None). { destruct (server_of m (name_of s)) eqn:E; [|reflexivity]. assert (register transport s m = None) by (apply register_server; congruence). congruence. }
  unfold register in R. destruct (known transport m (name_of s)); [discriminate|]. injection R as <-. unfold server_of in *. cbn [Mcp_Model.servers]. rewrite find_app. cbn [List.find].
  destruct (str_eqb_spec (name_of s) x) as [<- |_]; [rewrite Nn; reflexivity|]. clear Nn. destruct (List.find (fun s => str_eqb (name_of s) x) (servers m)); reflexivity.
Qed.
Lemma server_remove lbl m x : server_of (remove transport lbl m) x = if str_eqb lbl x then None else server_of m x.
Proof.
  assert (G : forall l, List.find (fun s => str_eqb (name_of s) x) (filter (fun s => negb (str_eqb (name_of s) lbl)) l) = if str_eqb lbl x then None else List.find (fun s => str_eqb (name_of s) x) l).
  { induction l as [|s l IH]; [destruct (str_eqb lbl x); reflexivity|]. cbn [filter List.find]. destruct (str_eqb_spec (name_of s) lbl) as [E|E]; cbn [negb].
    - rewrite IH. destruct (str_eqb_spec lbl x) as [E1|E2]; [reflexivity|]. destruct (str_eqb_spec (name_of s) x); [congruence|reflexivity].
    - cbn [List.find]. rewrite IH. destruct (str_eqb_spec (name_of s) x) as [E2|E2]; [|reflexivity]. destruct (str_eqb_spec lbl x); [congruence|reflexivity]. }
  unfold remove, server_of. destruct (known transport m lbl) eqn:K; cbn [Mcp_Model.servers]; [apply G|]. destruct (str_eqb_spec lbl x) as [E1|E1]; [|reflexivity]. subst x.
  rewrite known_server in K. unfold server_of in K. destruct (List.find _ _); [discriminate|reflexivity].
Qed.
Lemma server_removes gone : forall m x, server_of (fold_left (fun m y => remove transport y m) gone m) x = if mem_str x gone then None else server_of m x.
Proof.
  induction gone as [|y gone IH]; intros m x; [reflexivity|]. cbn [fold_left]. rewrite IH, server_remove. unfold mem_str. cbn [existsb].
  destruct (str_eqb_spec y x) as [-> |N].
  - rewrite str_eqb_refl. cbn [orb]. destruct (existsb (str_eqb x) gone); reflexivity.
  - destruct (str_eqb_spec x y) as [E|_]; [congruence|reflexivity].
Qed.
Lemma same_config_iff a b : same_config transport same a b = true <-> a = b.
Proof.
  unfold same_config. destruct a as [la da ra], b as [lb db rb]. cbn [Mcp_Model.label about Mcp_Model.reach]. rewrite !andb_true_iff, same_iff. split.
  - intros [[A B] C]. apply str_eqb_eq in A. subst. destruct da, db; try discriminate; [apply str_eqb_eq in B; subst|]; reflexivity.
  - intros [= <- <- <-]. rewrite str_eqb_refl. destruct da; [rewrite str_eqb_refl|]; auto.
Qed.
(** what becomes of a server that is wanted as [c] *)
Definition becomes (l : listing transport) (old : option server) (c : config) : option server :=
  match old with
  | Some s => if same_config transport same (conf s) c then Some s else match l (reach c) with Some ts => Some (Server transport c ts) | None => Some s end
  | None => match l (reach c) with Some ts => Some (Server transport c ts) | None => None end
  end.
Lemma server_sync_one l before m c x : server_of m (label c) = server_of before (label c) ->
  server_of (sync_one transport same l before m c) x = if str_eqb (label c) x then becomes l (server_of before x) c else server_of m x.
Proof.
  intros E. unfold sync_one, becomes. replace (config_of before (label c)) with (option_map conf (server_of before (label c))) by (unfold Mcp_Model.config_of, server_of; destruct (List.find _ _); reflexivity).
  destruct (str_eqb_spec (label c) x) as [<- |N].
  - destruct (server_of before (label c)) as [s|] eqn:B; cbn [option_map].
    + destruct (same_config transport same (conf s) c); [exact E|]. unfold replace_server. destruct (l (reach c)) as [ts|]; [|exact E].
      destruct (register transport _ _) as [m'|] eqn:R; [rewrite (server_register _ _ _ _ R); unfold Mcp_Model.name_of; cbn [Mcp_Model.conf]; rewrite str_eqb_refl; reflexivity|].
      apply register_server in R. exfalso. apply R. rewrite server_remove. unfold Mcp_Model.name_of. cbn [Mcp_Model.conf]. rewrite str_eqb_refl. reflexivity.
    + unfold add. destruct (l (reach c)) as [ts|]; [|exact E]. destruct (register transport _ _) as [m'|] eqn:R; [rewrite (server_register _ _ _ _ R); unfold Mcp_Model.name_of; cbn [Mcp_Model.conf]; rewrite str_eqb_refl; reflexivity|].
      apply register_server in R. exfalso. apply R. exact E.
  - assert (Nx : str_eqb (label c) x = false) by (apply str_eqb_neq; exact N). destruct (option_map conf (server_of before (label c))) as [d|].
    + destruct (same_config transport same d c); [reflexivity|]. unfold replace_server. destruct (l (reach c)) as [ts|]; [|reflexivity]. destruct (register transport _ _) as [m'|] eqn:R; [|reflexivity].
      rewrite (server_register _ _ _ _ R). unfold Mcp_Model.name_of. cbn [Mcp_Model.conf]. rewrite Nx, server_remove, Nx. reflexivity.
    + unfold add. destruct (l (reach c)) as [ts|]; [|reflexivity]. destruct (register transport _ _) as [m'|] eqn:R; [|reflexivity].
      rewrite (server_register _ _ _ _ R). unfold Mcp_Model.name_of. cbn [Mcp_Model.conf]. rewrite Nx. reflexivity.
Qed.
Lemma server_sync_all l before todo : forall m x, NoDup (map label todo) -> (forall c, In c todo -> server_of m (label c) = server_of before (label c)) ->
  (forall c, In c todo -> label c = x -> server_of (fold_left (sync_one transport same l before) todo m) x = becomes l (server_of before x) c) /\
  (~ In x (map label todo) -> server_of (fold_left (sync_one transport same l before) todo m) x = server_of m x).
Proof.
  induction todo as [|c todo IH]; intros m x N H; [split; [intros c []|reflexivity]|]. cbn [map] in N. inversion N as [|? ? A B]; subst. cbn [fold_left].
  assert (H' : forall d, In d todo -> server_of (sync_one transport same l before m c) (label d) = server_of before (label d)).
  { intros d I. rewrite server_sync_one by (apply H; left; reflexivity). destruct (str_eqb_spec (label c) (label d)) as [E|_]; [|apply H; right; exact I]. exfalso. apply A. rewrite E. apply in_map. exact I. }
  destruct (IH (sync_one transport same l before m c) x B H') as [H1 H2]. split.
  - intros d [<- |I] E; [|exact (H1 d I E)]. rewrite H2; [|subst x; exact A]. rewrite server_sync_one by (apply H; left; reflexivity). subst x. rewrite str_eqb_refl. reflexivity.
  - intros Nx. rewrite H2; [|intros I; apply Nx; right; exact I]. rewrite server_sync_one by (apply H; left; reflexivity). destruct (str_eqb_spec (label c) x) as [E|_]; [|reflexivity]. exfalso. apply Nx. left. exact E.
Qed.
Lemma desired_iff cs c : forall seen, In c (desired transport seen cs) <-> counts transport cs c /\ ~ In (label c) seen.
Proof.
  induction cs as [|d cs IH]; intros seen; cbn [desired].
  - split; [intros []|]. intros [(b & a & E & _) _]. destruct b; discriminate.
  - assert (C : counts transport (d :: cs) c <-> (d = c /\ trim (label c) <> []) \/ (label d <> label c /\ counts transport cs c)).
    { split.
      - intros (b & a & E & T & F). destruct b as [|y b]; injection E as -> E; [left; auto|]. right. split; [apply F; left; reflexivity|]. exists b, a. split; [exact E|]. split; [exact T|]. intros e I. apply F. right. exact I.
      - intros [[-> T]|[Nd (b & a & -> & T & F)]]; [exists [], cs; split; [reflexivity|]; split; [exact T|intros e []]|]. exists (d :: b), a. split; [reflexivity|]. split; [exact T|]. intros e [<- |I]; [exact Nd|exact (F e I)]. }
    rewrite C. destruct (trim (label d)) as [|t0 t] eqn:T.
    + rewrite IH. split; [intros [X Y]; split; [right; split; [|exact X]|exact Y]|intros [[[-> X]|[_ X]] Y]; [contradiction|auto]].
      intros E. destruct X as (b & a & _ & Tc & _). rewrite <- E in Tc. contradiction.
    + destruct (mem_str (label d) seen) eqn:M.
      * rewrite IH. apply mem_str_iff in M. split; [intros [X Y]; split; [right; split; [intros E; rewrite E in M; contradiction|exact X]|exact Y]|]. intros [[[-> _]|[_ X]] Y]; [contradiction|auto].
      * cbn [In]. rewrite IH. cbn [In]. assert (Ns : ~ In (label d) seen) by (intros I; apply mem_str_iff in I; congruence). split.
        -- intros [-> |[X Y]]; [split; [left; split; [reflexivity|rewrite T; discriminate]|exact Ns]|]. split; [right; split; [tauto|exact X]|tauto].
        -- intros [[[-> _]|[E X]] Y]; [left; reflexivity|right]. split; [exact X|tauto].
Qed.
Lemma desired_nodup cs : forall seen, NoDup (map label (desired transport seen cs)).
Proof.
  induction cs as [|d cs IH]; intros seen; cbn [desired]; [constructor|]. destruct (trim (label d)); [apply IH|]. destruct (mem_str (label d) seen); [apply IH|]. cbn [map]. constructor; [|apply IH].
  intros I. apply in_map_iff in I as (x & E & I). apply desired_iff in I as [_ N]. apply N. left. symmetry. exact E.
Qed.
Lemma sync_server l cs m x : sound m ->
  (forall c, counts transport cs c -> label c = x -> server_of (sync l cs m) x = becomes l (server_of m x) c) /\
  ((forall c, counts transport cs c -> label c <> x) -> server_of (sync l cs m) x = None).
Proof.
  intros S. unfold Mcp_Model.sync. set (want := desired transport [] cs). set (gone := filter _ _). set (m0 := fold_left _ gone m).
  assert (P : Permutation want (sort (by_label transport) want)) by apply Frecency_Proofs.sort_perm.
  assert (N : NoDup (map label (sort (by_label transport) want))) by (eapply Permutation_NoDup; [apply Permutation_map; exact P|apply desired_nodup]).
  assert (G : forall y, In y gone <-> In y (map name_of (servers m)) /\ ~ In y (map label want)).
  { intros y. unfold gone. rewrite filter_In. assert (W : negb (wanted_label transport want y) = true <-> ~ In y (map label want)); [|rewrite W; reflexivity].
    rewrite negb_true_iff. unfold wanted_label. split; intros H.
    - intros I. apply in_map_iff in I as (c & E & I). assert (existsb (fun c => str_eqb (label c) y) want = true); [|congruence]. apply existsb_exists. exists c. split; [exact I|]. subst y. apply str_eqb_refl.
    - destruct (existsb _ want) eqn:E; [|reflexivity]. exfalso. apply existsb_exists in E as (c & I & E). apply str_eqb_eq in E. apply H. subst y. apply in_map. exact I. }
  assert (M0 : forall y, server_of m0 y = if mem_str y gone then None else server_of m y) by (intros y; apply server_removes).
  assert (K : forall c, In c want -> server_of m0 (label c) = server_of m (label c)).
  { intros c I. rewrite M0. destruct (mem_str (label c) gone) eqn:E; [|reflexivity]. apply mem_str_iff, G in E as [_ E]. exfalso. apply E. apply in_map. exact I. }
  destruct (server_sync_all l m (sort (by_label transport) want) m0 x N) as [H1 H2].
  { intros c I. apply K. eapply Permutation_in; [apply Permutation_sym; exact P|exact I]. }
  split.
  - intros c C E. apply H1; [|exact E]. eapply Permutation_in; [exact P|]. apply desired_iff. split; [exact C|intros []].
  - intros F. rewrite H2, M0.
    + destruct (mem_str x gone) eqn:E; [reflexivity|]. destruct (server_of m x) as [s|] eqn:Sx; [|reflexivity]. exfalso. assert (In x gone); [|apply mem_str_iff in H; congruence].
      apply G. apply (server_of_iff m x s (s_labels m S)) in Sx as [Is Es]. split; [apply in_map_iff; exists s; auto|]. intros I. apply in_map_iff in I as (c & Ec & I). apply desired_iff in I as [I _]. exact (F c I Ec).
    + intros I. apply in_map_iff in I as (c & Ec & I). apply Permutation_in with (l' := want) in I; [|apply Permutation_sym; exact P]. apply desired_iff in I as [I _]. exact (F c I Ec).
Qed.
Lemma same_configs_eq a b : same_configs transport same a b = true -> a = b.
Proof. revert b. induction a as [|x a IH]; intros [|y b]; cbn [same_configs]; try discriminate; [reflexivity|]. rewrite andb_true_iff, same_config_iff. intros [-> H]. f_equal. exact (IH b H). Qed.
(** After a reload every configured server that answered is registered as it is configured, with
    the tools it listed if it is new or changed, and what it had if it is not; every registered server
    is configured, and is as configured unless it was there before and its new configuration did
    not answer. *)
Theorem C163_reloaded es l : let s := after transport same es in let m := mgr transport s in let m' := mgr transport (step transport same s (Reload transport l)) in
  (forall c ts, counts transport (wanted transport s) c -> l (reach c) = Some ts -> In c (map conf (servers m')) /\ (~ In c (map conf (servers m)) -> In (Server transport c ts) (servers m'))) /\
  (forall v, In v (servers m) -> counts transport (wanted transport s) (conf v) -> In v (servers m')) /\
  (forall v, In v (servers m') -> exists c, In c (wanted transport s) /\ label c = label (conf v) /\ (conf v = c \/ (l (reach c) = None /\ In v (servers m)))).
Proof.
  intros s m m'. pose proof (after_sound es) as S. fold s m in S. assert (S' : sound m').
  { unfold m'. cbn [step]. destruct (same_configs _ _ _ _); [exact S|]. apply sync_sound. exact S. }
  unfold m' in *. cbn [step] in *. fold m in S' |- *. destruct (same_configs transport same (map conf (servers m)) (wanted transport s)) eqn:E.
  - apply same_configs_eq in E. fold m. split; [|split].
    + intros c ts (b & a & C & _) _. rewrite E, C. assert (I : In c (b ++ c :: a)) by (apply in_app_iff; right; left; reflexivity). split; [exact I|]. intros F. contradiction.
    + intros v I _. exact I.
    + intros v I. exists (conf v). split; [rewrite <- E; apply in_map; exact I|]. split; [reflexivity|]. left. reflexivity.
  - cbn [mgr] in *. split; [|split].
    + intros c ts C A. destruct (sync_server l (wanted transport s) m (label c) S) as [H _]. specialize (H c C eq_refl). unfold becomes in H. rewrite A in H.
      assert (K : server_of (sync l (wanted transport s) m) (label c) = Some (Server transport c ts) \/ exists v, server_of m (label c) = Some v /\ conf v = c /\ server_of (sync l (wanted transport s) m) (label c) = Some v).
      { destruct (server_of m (label c)) as [v|] eqn:B; [|left; exact H]. destruct (same_config transport same (conf v) c) eqn:Sc; [|left; exact H]. right. exists v. split; [reflexivity|]. split; [apply same_config_iff; exact Sc|exact H]. }
      destruct K as [K|(v & B & Ev & K)]; apply (server_of_iff _ _ _ (s_labels _ S')) in K as [K _].
      * split; [apply in_map_iff; eexists; split; [|exact K]; reflexivity|intros _; exact K].
      * split; [apply in_map_iff; exists v; auto|]. intros F. exfalso. apply F. apply (server_of_iff _ _ _ (s_labels _ S)) in B as [B _]. apply in_map_iff. exists v. auto.
    + intros v I C. destruct (sync_server l (wanted transport s) m (label (conf v)) S) as [H _]. specialize (H (conf v) C eq_refl).
      assert (B : server_of m (label (conf v)) = Some v) by (apply (server_of_iff _ _ _ (s_labels _ S)); auto). rewrite B in H. unfold becomes in H.
      assert (X : same_config transport same (conf v) (conf v) = true) by (apply same_config_iff; reflexivity). rewrite X in H. apply (server_of_iff _ _ _ (s_labels _ S')) in H. tauto.
    + intros v I. assert (B : server_of (sync l (wanted transport s) m) (label (conf v)) = Some v) by (apply (server_of_iff _ _ _ (s_labels _ S')); auto).
      destruct (sync_server l (wanted transport s) m (label (conf v)) S) as [H1 H2].
      assert (D : In (label (conf v)) (map label (desired transport [] (wanted transport s))) \/ ~ In (label (conf v)) (map label (desired transport [] (wanted transport s)))).
      { destruct (mem_str (label (conf v)) (map label (desired transport [] (wanted transport s)))) eqn:M; [left; apply mem_str_iff; exact M|right; intros F; apply mem_str_iff in F; congruence]. }
      destruct D as [D|D].
      * apply in_map_iff in D as (c & Ec & D). apply desired_iff in D as [D _]. exists c. specialize (H1 c D Ec). rewrite B in H1. destruct D as (b & a & -> & _). split; [apply in_app_iff; right; left; reflexivity|]. split; [exact Ec|].
        unfold becomes in H1. destruct (server_of m (label (conf v))) as [w|] eqn:W.
        -- destruct (same_config transport same (conf w) c) eqn:Sc; [injection H1 as ->; left; apply same_config_iff; exact Sc|]. destruct (l (reach c)) as [ts|] eqn:A; [injection H1 as ->; left; reflexivity|]. injection H1 as ->. right. split; [reflexivity|]. apply (server_of_iff _ _ _ (s_labels _ S)) in W. tauto.
        -- destruct (l (reach c)) as [ts|]; [injection H1 as ->; left; reflexivity|discriminate].
      * exfalso. rewrite H2 in B; [discriminate|]. intros c C Ec. apply D. apply in_map_iff. exists c. split; [exact Ec|]. apply desired_iff. split; [exact C|intros []].
Qed.
(** The name of a tool stays while its server stays: other servers can come and go. *)
Lemma get_register s m m' n b : register transport s m = Some m' -> get (bindings m) n = Some b -> get (bindings m') n = Some b.
Proof.
  intros R G. unfold register in R. destruct (known transport m (name_of s)); [discriminate|]. injection R as <-. cbn [Mcp_Model.bindings].
  destruct (bind_extends (name_of s) (tools s) (bindings m)) as (new & -> & _). rewrite get_app, G. reflexivity.
Qed.
Lemma get_remove x m n b : x <> b_server b -> get (bindings m) n = Some b -> get (bindings (remove transport x m)) n = Some b.
Proof. intros N G. unfold remove. destruct (known transport m x); [|exact G]. cbn [Mcp_Model.bindings]. apply get_filter; [exact G|]. cbn [snd]. rewrite negb_true_iff. apply str_eqb_neq. congruence. Qed.
Theorem C163_names_kept es l name b : let s := after transport same es in let m := mgr transport s in
  In (name, b) (bindings m) -> (exists v, In v (servers m) /\ label (conf v) = b_server b /\ counts transport (wanted transport s) (conf v)) ->
  In (name, b) (bindings (mgr transport (step transport same s (Reload transport l)))).
Proof.
  intros s m I (v & Iv & Ev & C). pose proof (after_sound es) as S. fold s m in S. cbn [step]. fold m. destruct (same_configs _ _ _ _); [exact I|]. cbn [mgr]. apply get_in. pose proof (in_get _ _ _ (s_names _ S) I) as G. clear I.
  unfold Mcp_Model.sync. set (want := desired transport [] (wanted transport s)). set (gone := filter _ _).
  assert (W : In (conf v) want) by (apply desired_iff; split; [exact C|intros []]).
  assert (G0 : get (bindings (fold_left (fun m x => remove transport x m) gone m)) name = Some b).
  { assert (Ng : ~ In (b_server b) gone). { unfold gone. intros F. apply filter_In in F as [_ F]. apply negb_true_iff in F. unfold wanted_label in F. assert (existsb (fun c => str_eqb (label c) (b_server b)) want = true); [|congruence]. apply existsb_exists. exists (conf v). split; [exact W|]. rewrite Ev. apply str_eqb_refl. }
    clear - G Ng. revert G Ng. clearbody gone. clearbody m. intros G Ng. revert m G. induction gone as [|x gone IH]; intros m G; [exact G|]. cbn [fold_left]. apply IH; [intros F; apply Ng; right; exact F|]. apply get_remove; [|exact G]. intros E. apply Ng. left. exact E. }
  assert (Cf : config_of m (b_server b) = Some (conf v)).
  { assert (B : server_of m (b_server b) = Some v) by (apply (server_of_iff _ _ _ (s_labels _ S)); auto). unfold Mcp_Model.config_of. unfold server_of in B. rewrite B. reflexivity. }
  assert (U : forall c, In c (sort (by_label transport) want) -> label c = b_server b -> c = conf v).
  { intros c Ic Ec. apply Permutation_in with (l' := want) in Ic; [|apply Permutation_sym, Frecency_Proofs.sort_perm]. pose proof (desired_nodup (wanted transport s) []) as N. fold want in N. rewrite <- Ev in Ec. clear - Ic W Ec N.
    induction want as [|y want IH]; [destruct W|]. cbn [map] in N. inversion N as [|? ? A B]; subst. destruct W as [-> |W], Ic as [E|Ic]; [congruence| | |exact (IH W Ic B)].
    - exfalso. apply A. rewrite <- Ec. apply in_map. exact Ic.
    - subst c. exfalso. apply A. rewrite Ec. apply in_map. exact W. }
  revert U G0. generalize (fold_left (fun m x => remove transport x m) gone m) as m0. generalize (sort (by_label transport) want) as todo. induction todo as [|c todo IH]; intros m0 U G0; [exact G0|]. cbn [fold_left]. apply IH; [intros d Id; apply U; right; exact Id|].
  unfold sync_one. destruct (str_eqb_spec (label c) (b_server b)) as [E|N].
  - rewrite (U c (or_introl eq_refl) E). rewrite (U c (or_introl eq_refl) E) in E. rewrite E, Cf. assert (X : same_config transport same (conf v) (conf v) = true) by (apply same_config_iff; reflexivity). rewrite X. exact G0.
  - destruct (config_of m (label c)) as [d|].
    + destruct (same_config transport same d c); [exact G0|]. unfold replace_server. destruct (l (reach c)); [|exact G0]. destruct (register transport _ _) eqn:R; [|exact G0]. eapply get_register; [exact R|]. apply get_remove; [exact N|exact G0].
    + unfold add. destruct (l (reach c)); [|exact G0]. destruct (register transport _ _) eqn:R; [|exact G0]. eapply get_register; [exact R|exact G0].
Qed.
Theorem C163_added_keeps es l c name b : let s := after transport same es in
  In (name, b) (bindings (mgr transport s)) -> In (name, b) (bindings (mgr transport (step transport same s (Add transport l c)))).
Proof.
  intros s I. cbn [step mgr]. unfold add. destruct (l (reach c)) as [ts|]; [|exact I]. destruct (register transport _ _) as [m|] eqn:R; [|exact I].
  apply get_in. eapply get_register; [exact R|]. apply in_get; [apply (after_sound es)|exact I].
Qed.
(** But a name can come to mean another server's tool: for any two labels that are written alike in a name,
    when the one is replaced by the other. *)
Theorem C163_renamed_refuted x y a t l : label x <> label y -> sanitize_identifier (label x) = sanitize_identifier (label y) -> trim (label y) <> [] -> l (reach x) = Some [t] -> l (reach y) = Some [t] -> a = [Add transport l x] ->
  bindings (mgr transport (after transport same a)) = [(base_name (label x) t, Binding (label x) t)] /\
  bindings (mgr transport (after transport same (a ++ [Configure transport [y]; Reload transport l]))) = [(base_name (label x) t, Binding (label y) t)].
Proof.
  intros N E T Lx Ly ->. split.
  - unfold after. cbn [fold_left step mgr]. unfold add. rewrite Lx. reflexivity.
  - unfold after. cbn [app fold_left step mgr wanted]. unfold add. rewrite Lx. unfold register at 1 2 3. cbn [known Mcp_Model.servers empty existsb].
    unfold Mcp_Model.name_of. cbn [Mcp_Model.conf Mcp_Model.tools Mcp_Model.bindings bind_tools app map same_configs].
    assert (X : same_config transport same x y = false) by (destruct (same_config transport same x y) eqn:X; [apply same_config_iff in X; subst y; congruence|reflexivity]).
    cbn [mgr Mcp_Model.servers map Mcp_Model.conf]. rewrite X. cbn [andb mgr wanted].
    unfold Mcp_Model.sync. cbn [desired]. destruct (trim (label y)) as [|t0 tr]; [contradiction|]. cbn [mem_str existsb].
    unfold Mcp_Model.name_of. cbn [Mcp_Model.servers map Mcp_Model.conf filter wanted_label existsb].
    assert (Y : str_eqb (label y) (label x) = false) by (apply str_eqb_neq; congruence). assert (Y' : str_eqb (label x) (label y) = false) by (apply str_eqb_neq; congruence).
    unfold wanted_label. cbn [existsb]. rewrite Y. cbn [orb negb]. cbn [sort fold_right insert_sorted fold_left].
    unfold sync_one, Mcp_Model.config_of. cbn [Mcp_Model.servers List.find]. unfold Mcp_Model.name_of. cbn [Mcp_Model.conf]. rewrite Y'. unfold add. rewrite Ly.
    unfold remove, known. cbn [Mcp_Model.servers existsb]. unfold Mcp_Model.name_of. cbn [Mcp_Model.conf]. rewrite str_eqb_refl. cbn [orb Mcp_Model.servers filter Mcp_Model.bindings snd b_server]. rewrite str_eqb_refl. cbn [negb].
    unfold register, known. cbn [Mcp_Model.servers existsb]. unfold Mcp_Model.name_of. cbn [Mcp_Model.conf Mcp_Model.tools Mcp_Model.bindings]. unfold empty. cbn [Mcp_Model.bindings app filter snd b_server]. rewrite ?str_eqb_refl. cbn [negb]. unfold base_name. rewrite E. reflexivity.
Qed.
(** A server that is no longer configured is called until the next reload, and one that is disconnected as well. *)
Theorem C163_cleared_refuted parse s name arguments lbl :
  execute parse (mgr transport (step transport same s (Clear transport))) name arguments = execute parse (mgr transport s) name arguments /\
  execute parse (mgr transport (step transport same s (Disconnect transport lbl))) name arguments = execute parse (mgr transport s) name arguments /\
  execute parse (mgr transport (step transport same s (Disconnect_all transport))) name arguments = execute parse (mgr transport s) name arguments.
Proof. repeat split. Qed.
(** The status: connected after a success, until disconnected. *)
Theorem C163_connected m lbl : In lbl (map name_of (servers m)) -> status_of transport (connect transport lbl None m) lbl = Connected.
Proof. intros I. apply known_iff in I. unfold connect. rewrite I. unfold status_of. cbn [connected]. unfold mem_str. cbn [existsb]. rewrite str_eqb_refl. reflexivity. Qed.
Theorem C163_disconnected m lbl : status_of transport (disconnect transport lbl m) lbl <> Connected.
Proof.
  unfold status_of, disconnect. cbn [connected errors]. assert (F : mem_str lbl (forget (connected transport m) lbl) = false).
  { apply mem_str_false. unfold forget. intros I. apply filter_In in I as [_ I]. rewrite str_eqb_refl in I. discriminate. }
  rewrite F. destruct (get _ _); discriminate.
Qed.
Theorem C163_failed_partial m lbl e : In lbl (map name_of (servers m)) -> ~ In lbl (connected transport m) -> status_of transport (connect transport lbl (Some e) m) lbl = Failed e.
Proof.
  intros I N. apply known_iff in I. unfold connect. rewrite I. unfold status_of. cbn [connected errors get]. apply mem_str_false in N. rewrite N, str_eqb_refl. reflexivity.
Qed.
(** But a server that was connected once is shown as connected whatever connecting to it says now. *)
Theorem C163_failed_refuted m lbl e : In lbl (map name_of (servers m)) -> status_of transport (connect transport lbl (Some e) (connect transport lbl None m)) lbl = Connected.
Proof.
  intros I. apply known_iff in I. unfold connect at 2. rewrite I. unfold connect, known. cbn [Mcp_Model.servers]. unfold known in I. rewrite I. unfold status_of. cbn [connected]. unfold mem_str. cbn [existsb]. rewrite str_eqb_refl. reflexivity.
Qed.
(** Nothing is shown of a server that is not registered, so that one registered again begins anew. *)
Definition shown_known (m : manager) : Prop := incl (connected transport m) (map name_of (servers m)) /\ incl (map fst (errors transport m)) (map name_of (servers m)).
Lemma shown_register s m m' : register transport s m = Some m' -> shown_known m -> shown_known m'.
Proof.
  unfold register. destruct (known transport m (name_of s)); [discriminate|]. intros [= <-] [A B]. unfold shown_known. cbn [connected errors Mcp_Model.servers]. rewrite map_app.
  split; apply incl_appl; assumption.
Qed.
Lemma shown_remove x m : shown_known m -> shown_known (remove transport x m).
Proof.
  intros [A B]. unfold remove. destruct (known transport m x); [|split; assumption]. unfold shown_known. cbn [connected errors Mcp_Model.servers].
  assert (K : forall y, In y (map name_of (servers m)) -> y <> x -> In y (map name_of (filter (fun s => negb (str_eqb (name_of s) x)) (servers m)))).
  { intros y I N. apply in_map_iff in I as (s & <- & I). apply in_map. apply filter_In. split; [exact I|]. apply negb_true_iff. apply str_eqb_neq. exact N. }
  split; intros y I.
  - unfold forget in I. apply filter_In in I as [I N]. apply K; [exact (A y I)|]. apply negb_true_iff in N. apply str_eqb_neq in N. exact N.
  - apply in_map_iff in I as (p & <- & I). unfold without in I. apply filter_In in I as [I N]. apply K; [apply B; apply in_map; exact I|]. apply negb_true_iff in N. apply str_eqb_neq in N. exact N.
Qed.
Lemma shown_sync_one l before m c : shown_known m -> shown_known (sync_one transport same l before m c).
Proof.
  intros S. unfold sync_one. destruct (config_of before (label c)) as [d|].
  - destruct (same_config transport same d c); [exact S|]. unfold replace_server. destruct (l (reach c)); [|exact S]. destruct (register transport _ _) eqn:R; [|exact S]. eapply shown_register; [exact R|]. apply shown_remove. exact S.
  - unfold add. destruct (l (reach c)); [|exact S]. destruct (register transport _ _) eqn:R; [|exact S]. eapply shown_register; [exact R|exact S].
Qed.
Theorem C163_unknown es lbl : let m := mgr transport (after transport same es) in ~ In lbl (map name_of (servers m)) -> status_of transport m lbl = Disconnected.
Proof.
  intros m N. assert (S : shown_known m).
  { unfold m, after. assert (Z : shown_known (mgr transport (Shell transport [] (empty transport)))) by (split; intros x []). revert Z. generalize (Shell transport [] (empty transport)) as s. clear. induction es as [|e es IH]; intros s Z; [exact Z|]. cbn [fold_left]. apply IH. clear IH.
    destruct e; cbn [step mgr]; try exact Z.
    - unfold add. destruct (l (reach c)); [|exact Z]. destruct (register transport _ _) eqn:R; [|exact Z]. eapply shown_register; [exact R|exact Z].
    - destruct (same_configs _ _ _ _); [exact Z|]. cbn [mgr]. unfold Mcp_Model.sync. apply fold_inv; [intros; apply shown_sync_one; assumption|]. apply fold_inv; [intros; apply shown_remove; assumption|exact Z].
    - unfold connect. destruct (known transport (mgr transport s) lbl) eqn:K; [|exact Z]. apply known_iff in K. destruct Z as [A B]. destruct answer as [e|]; unfold shown_known; cbn [connected errors Mcp_Model.servers].
      + split; [exact A|]. intros y [<- |I]; [exact K|]. apply B. apply in_map_iff in I as (p & <- & I). unfold without in I. apply filter_In in I as [I _]. apply in_map. exact I.
      + split; [intros y [<- |I]; [exact K|]; apply A; unfold forget in I; apply filter_In in I; tauto|]. intros y I. apply B. apply in_map_iff in I as (p & <- & I). unfold without in I. apply filter_In in I as [I _]. apply in_map. exact I.
    - unfold disconnect, shown_known. cbn [connected errors Mcp_Model.servers]. destruct Z as [A B]. split; [|exact B]. intros y I. apply A. unfold forget in I. apply filter_In in I. tauto.
    - unfold disconnect_all, shown_known. cbn [connected errors Mcp_Model.servers]. destruct Z as [A B]. split; [intros y []|exact B]. }
  destruct S as [A B]. unfold status_of. assert (C : mem_str lbl (connected transport m) = false) by (apply mem_str_false; intros I; apply N; exact (A lbl I)). rewrite C.
  assert (G : get (errors transport m) lbl = None) by (apply get_none; intros I; apply N; exact (B lbl I)). rewrite G. reflexivity.
Qed.
(** A server that is added while the shell runs is registered at once, and stays through any reload. *)
Theorem C163_added_stays es l l' c ts : let s := after transport same es in
  trim (label c) <> [] -> ~ In (label c) (map label (wanted transport s)) -> ~ In (label c) (map name_of (servers (mgr transport s))) -> l (reach c) = Some ts ->
  In (Server transport c ts) (servers (mgr transport (after transport same (es ++ [Add transport l c])))) /\
  In (Server transport c ts) (servers (mgr transport (after transport same (es ++ [Add transport l c; Reload transport l'])))).
Proof.
  intros s T Nw Ns L. assert (W : wanted transport (after transport same (es ++ [Add transport l c])) = wanted transport s ++ [c]) by (unfold after; rewrite fold_left_app; reflexivity).
  assert (I : In (Server transport c ts) (servers (mgr transport (after transport same (es ++ [Add transport l c]))))).
  { unfold after. rewrite fold_left_app. cbn [fold_left step mgr]. fold (after transport same es). fold s. unfold add. rewrite L. unfold register. unfold Mcp_Model.name_of at 1. cbn [Mcp_Model.conf].
    destruct (known transport (mgr transport s) (label c)) eqn:K; [apply known_iff in K; contradiction|]. cbn [Mcp_Model.servers]. apply in_app_iff. right. left. reflexivity. }
  split; [exact I|]. change [Add transport l c; Reload transport l'] with ([Add transport l c] ++ [Reload transport l']). rewrite app_assoc. unfold after at 1. rewrite fold_left_app. cbn [fold_left]. fold (after transport same (es ++ [Add transport l c])).
  apply (C163_reloaded (es ++ [Add transport l c]) l'); [exact I|]. rewrite W. exists (wanted transport s), []. split; [reflexivity|]. split; [exact T|]. intros d Id E. apply Nw. cbn [Mcp_Model.conf] in E. rewrite <- E. apply in_map. exact Id.
Qed.
End Mcp.
Print Assumptions C162_parts_are_names.
Print Assumptions C162_parts_apart.
Print Assumptions C162_one_name_per_tool.
Print Assumptions C162_call.
Print Assumptions C162_only_tools.
Print Assumptions C162_shape.
Print Assumptions C163_reloaded.
Print Assumptions C163_names_kept.
Print Assumptions C163_added_keeps.
Print Assumptions C163_renamed_refuted.
Print Assumptions C163_cleared_refuted.
Print Assumptions C163_connected.
Print Assumptions C163_disconnected.
Print Assumptions C163_failed_partial.
Print Assumptions C163_failed_refuted.
Print Assumptions C163_added_stays.
Print Assumptions C163_unknown.

(** two servers, the second of which changes, fails to answer and is then dropped *)
Example C163_example :
  let cfg lbl (n : nat) := Config nat (lit lbl) None n in
  let l : listing nat := fun n => match n with 1 => Some [lit "list"] | 2 => Some [lit "put"; lit "get"] | _ => None end in
  let m es := mgr nat (after nat Nat.eqb es) in
  let start := [Configure nat [cfg "a"%string 1; cfg " "%string 1; cfg "b"%string 2; cfg "a"%string 2]; Reload nat l] in
  servers nat (m start) = [Server nat (cfg "a"%string 1) [lit "list"]; Server nat (cfg "b"%string 2) [lit "put"; lit "get"]] /\
  map fst (bindings nat (m start)) = map lit ["mcp__a__list"; "mcp__b__put"; "mcp__b__get"]%string /\
  servers nat (m (start ++ [Configure nat [cfg "a"%string 2; cfg "b"%string 7]; Reload nat l])) = [Server nat (cfg "b"%string 2) [lit "put"; lit "get"]; Server nat (cfg "a"%string 2) [lit "put"; lit "get"]] /\
  servers nat (m (start ++ [Configure nat [cfg "b"%string 2]; Reload nat l])) = [Server nat (cfg "b"%string 2) [lit "put"; lit "get"]].
Proof. vm_compute. repeat split; reflexivity. Qed.
