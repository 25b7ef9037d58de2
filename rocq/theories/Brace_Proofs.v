(** Proofs about brace expansion. *)
From Verif Require Import Base Parse_Model Env_Model Expand_Model Expand_Spec.

Scheme bword_ind2 := Induction for bword Sort Prop with balts_ind2 := Induction for balts Sort Prop.
Combined Scheme brace_ind from bword_ind2, balts_ind2.

(** rewriting the left side up to conversion *)
Ltac by_ E := etransitivity; [exact E|].
Notation free p := (unescaped p = true).
Lemma free_some c : c <> 92%N -> free (Some c).
Proof. intros H. cbn. destruct (N.eqb_spec c 92); [congruence|reflexivity]. Qed.

(** reading an alternative leaves the stack as it was *)
Lemma pair_alt :
  (forall w, alt_ok w -> forall i s st prev r, free prev -> exists prev', free prev' /\
     find_pair i (s :: st) prev (btext w ++ r) = find_pair (i + length (btext w)) (s :: st) prev' r) /\
  (forall a, alts_ok a -> forall i s st prev r, free prev -> exists prev', free prev' /\
     find_pair i (s :: st) prev (atext a ++ r) = find_pair (i + length (atext a)) (s :: st) prev' r).
Proof.
  apply brace_ind.
  - intros _ i s st prev r F. exists prev. split; [exact F|]. cbn [btext app length]. rewrite Nat.add_0_r. reflexivity.
  - intros c w IH [C W] i s st prev r F. destruct (IH W (S i) s st (Some c) r) as (p & Fp & E).
    { apply free_some. intros ->. apply C. vm_compute. auto. }
    exists p. split; [exact Fp|]. cbn [btext app find_pair length].
    destruct (N.eqb_spec c 123) as [-> |]; [exfalso; apply C; vm_compute; auto|]. destruct (N.eqb_spec c 125) as [-> |]; [exfalso; apply C; vm_compute; auto|].
    cbn [andb]. rewrite E. f_equal. lia.
  - intros c w IH [C W] i s st prev r F. destruct (IH W (S (S i)) s st (Some c) r) as (p & Fp & E); [apply free_some, C|].
    exists p. split; [exact Fp|]. cbn [btext app find_pair length unescaped N.eqb Pos.eqb andb negb]. rewrite !andb_false_r. rewrite E. f_equal. lia.
  - intros a IHa w IHw [A W] i s st prev r F.
    destruct (IHa A (S i) i (s :: st) (Some 123%N) (lit "}" ++ btext w ++ r)) as (p & Fp & E); [apply free_some; discriminate|].
    destruct (IHw W (S (S i + length (atext a))) s st (Some 125%N) r) as (p' & Fp' & E'); [apply free_some; discriminate|].
    exists p'. split; [exact Fp'|]. cbn [btext]. rewrite <- !app_assoc. change (lit "{") with [123%N]. cbn [app find_pair N.eqb Pos.eqb andb]. rewrite F. etransitivity; [exact E|].
    change (lit "}") with [125%N]. cbn [app find_pair N.eqb Pos.eqb andb]. rewrite Fp. by_ E'. f_equal. cbn [length]. rewrite app_length. cbn [length]. lia.
  - intros w IH W. cbn [atext]. apply IH, W.
  - intros w IHw a IHa [W A] i s st prev r F.
    destruct (IHw W i s st prev (lit "," ++ atext a ++ r) F) as (p & Fp & E).
    destruct (IHa A (S (i + length (btext w))) s st (Some 44%N) r) as (p' & Fp' & E'); [apply free_some; discriminate|].
    exists p'. split; [exact Fp'|]. cbn [atext]. rewrite <- !app_assoc. by_ E. change (lit ",") with [44%N]. cbn [app find_pair N.eqb Pos.eqb andb]. by_ E'. f_equal. rewrite !app_length. cbn [length]. lia.
Qed.

(** splitting: inside a group nothing is split *)
Lemma split_alt :
  (forall w, alt_ok w -> forall d cur prev r, free prev -> exists prev', free prev' /\
     split_parts d cur prev (btext w ++ r) = split_parts d (cur ++ btext w) prev' r) /\
  (forall a, alts_ok a -> forall d cur prev r, free prev -> exists prev', free prev' /\
     split_parts (S d) cur prev (atext a ++ r) = split_parts (S d) (cur ++ atext a) prev' r).
Proof.
  apply brace_ind.
  - intros _ d cur prev r F. exists prev. split; [exact F|]. cbn [btext app]. rewrite app_nil_r. reflexivity.
  - intros c w IH [C W] d cur prev r F. destruct (IH W d (cur ++ [c]) (Some c) r) as (p & Fp & E).
    { apply free_some. intros ->. apply C. vm_compute. auto. }
    exists p. split; [exact Fp|]. cbn [btext app split_parts].
    destruct (N.eqb_spec c 123) as [-> |]; [exfalso; apply C; vm_compute; auto|]. destruct (N.eqb_spec c 125) as [-> |]; [exfalso; apply C; vm_compute; auto|].
    destruct (N.eqb_spec c 44) as [-> |]; [exfalso; apply C; vm_compute; auto|].
    cbn [andb]. rewrite E, <- app_assoc. reflexivity.
  - intros c w IH [C W] d cur prev r F. destruct (IH W d (cur ++ [92%N; c]) (Some c) r) as (p & Fp & E); [apply free_some, C|].
    exists p. split; [exact Fp|]. cbn [btext app split_parts unescaped N.eqb Pos.eqb andb negb]. rewrite !andb_false_r, <- app_assoc. cbn [app]. by_ E. rewrite <- app_assoc. reflexivity.
  - intros a IHa w IHw [A W] d cur prev r F.
    destruct (IHa A d (cur ++ [123%N]) (Some 123%N) (lit "}" ++ btext w ++ r)) as (p & Fp & E); [apply free_some; discriminate|].
    destruct (IHw W d (((cur ++ [123%N]) ++ atext a) ++ [125%N]) (Some 125%N) r) as (p' & Fp' & E'); [apply free_some; discriminate|].
    exists p'. split; [exact Fp'|]. cbn [btext]. rewrite <- !app_assoc. change (lit "{") with [123%N]. cbn [app split_parts N.eqb Pos.eqb andb]. rewrite F. by_ E.
    change (lit "}") with [125%N]. cbn [app split_parts N.eqb Pos.eqb andb]. rewrite Fp. replace (S d - 1) with d by lia.
    by_ E'. rewrite <- !app_assoc. reflexivity.
  - intros w IH W d. cbn [atext]. apply IH, W.
  - intros w IHw a IHa [W A] d cur prev r F.
    destruct (IHw W (S d) cur prev (lit "," ++ atext a ++ r) F) as (p & Fp & E).
    destruct (IHa A d ((cur ++ btext w) ++ [44%N]) (Some 44%N) r) as (p' & Fp' & E'); [apply free_some; discriminate|].
    exists p'. split; [exact Fp'|]. cbn [atext]. rewrite <- !app_assoc. by_ E. change (lit ",") with [44%N]. cbn [app split_parts N.eqb Pos.eqb andb Nat.eqb].
    by_ E'. rewrite <- !app_assoc. reflexivity.
Qed.
(** the alternatives of a group *)
Fixpoint alts (a : balts) : list bword := match a with BOne w => [w] | BMore w a => w :: alts a end.
Lemma split_alts a : alts_ok a -> forall prev, free prev -> split_parts 0 [] prev (atext a) = map btext (alts a).
Proof.
  induction a as [w|w a IH]; intros A prev F.
  - destruct (proj1 split_alt w A 0 [] prev [] F) as (p & _ & E). rewrite app_nil_r in E. cbn [atext alts map]. rewrite E. reflexivity.
  - destruct A as [W A]. cbn [atext alts map]. destruct (proj1 split_alt w W 0 [] prev (lit "," ++ atext a) F) as (p & Fp & E). rewrite E.
    change (lit ",") with [44%N]. cbn [app split_parts N.eqb Pos.eqb andb Nat.eqb]. rewrite Fp. cbn [andb]. f_equal. apply IH; [exact A|apply free_some; discriminate].
Qed.

(** a word up to its first group *)
Fixpoint flat_word (w : bword) : Prop :=
  match w with BEnd => True | BChr _ w | BEsc _ w => flat_word w | BGroup _ _ => False end.
Fixpoint bapp (u w : bword) : bword :=
  match u with BEnd => w | BChr c u => BChr c (bapp u w) | BEsc c u => BEsc c (bapp u w) | BGroup a u => BGroup a (bapp u w) end.
Lemma btext_app u w : btext (bapp u w) = btext u ++ btext w.
Proof. induction u as [|c u IH|c u IH|a u IH]; cbn [bapp btext]; rewrite ?IH, <- ?app_assoc; reflexivity. Qed.
Lemma word_ok_app u w : word_ok (bapp u w) <-> word_ok u /\ word_ok w.
Proof. induction u as [|c u IH|c u IH|a u IH]; cbn [bapp word_ok]; rewrite ?IH; tauto. Qed.
Lemma alt_word_ok w : alt_ok w -> word_ok w.
Proof.
  induction w as [|c w IH|c w IH|a w IH]; cbn [alt_ok word_ok]; try tauto. intros [C W]. split; [|apply IH, W].
  intros H. apply C. vm_compute in H |- *. tauto.
Qed.
Lemma flat_choices u : flat_word u -> choices u = [btext u].
Proof. induction u as [|c u IH|c u IH|a u IH]; cbn [flat_word choices btext]; intros H; try contradiction; [reflexivity|rewrite IH by exact H; reflexivity..]. Qed.
Lemma choices_app u w : choices (bapp u w) = flat_map (fun x => map (app x) (choices w)) (choices u).
Proof.
  assert (M : forall (f : str -> str) (l : list str) (m : list str), (forall x y, f (x ++ y) = f x ++ y) -> map f (flat_map (fun x => map (app x) m) l) = flat_map (fun x => map (app x) m) (map f l)).
  { intros f l m H. induction l as [|x l IH]; [reflexivity|]. cbn [flat_map map]. by_ (map_app f (map (app x) m) (flat_map (fun x => map (app x) m) l)). f_equal; [rewrite map_map; apply map_ext; intros y; apply H|exact IH]. }
  induction u as [|c u IH|c u IH|a u IH]; cbn [bapp choices].
  - cbn [flat_map]. rewrite app_nil_r. symmetry. rewrite map_ext with (g := fun x => x) by reflexivity. apply map_id.
  - rewrite IH. apply M. reflexivity.
  - rewrite IH. apply M. reflexivity.
  - rewrite IH. induction (achoices a) as [|x l IHl]; [reflexivity|]. cbn [flat_map]. rewrite flat_map_app, <- IHl. f_equal. apply M. intros y z. apply app_assoc.
Qed.
Lemma achoices_alts a : achoices a = flat_map choices (alts a).
Proof. induction a as [w|w a IH]; cbn [achoices alts flat_map]; rewrite ?app_nil_r, ?IH; reflexivity. Qed.
Lemma choices_group u a w : flat_word u -> choices (bapp u (BGroup a w)) = flat_map (fun x => choices (bapp u (bapp x w))) (alts a).
Proof.
  intros F. rewrite choices_app, (flat_choices u F). cbn [flat_map choices]. rewrite app_nil_r, achoices_alts.
  induction (alts a) as [|x l IH]; [reflexivity|]. cbn [flat_map]. rewrite flat_map_app. by_ (map_app (app (btext u)) (flat_map (fun x => map (app x) (choices w)) (choices x)) (flat_map (fun x => map (app x) (choices w)) (flat_map choices l))). f_equal; [|exact IH].
  rewrite (choices_app u), (flat_choices u F). cbn [flat_map]. rewrite app_nil_r, choices_app. reflexivity.
Qed.
Fixpoint first_group (w : bword) : option (bword * balts * bword) :=
  match w with
  | BEnd => None
  | BChr c w => match first_group w with Some (u, a, v) => Some (BChr c u, a, v) | None => None end
  | BEsc c w => match first_group w with Some (u, a, v) => Some (BEsc c u, a, v) | None => None end
  | BGroup a w => Some (BEnd, a, w)
  end.
Lemma first_group_some w u a v : first_group w = Some (u, a, v) -> w = bapp u (BGroup a v) /\ flat_word u.
Proof.
  revert u. induction w as [|c w IH|c w IH|b w IH]; intros u; cbn [first_group]; intros H.
  - discriminate.
  - destruct (first_group w) as [[[u' a'] v']|]; [|discriminate]. injection H as <- -> ->. destruct (IH u' eq_refl) as [-> F]. split; [reflexivity|exact F].
  - destruct (first_group w) as [[[u' a'] v']|]; [|discriminate]. injection H as <- -> ->. destruct (IH u' eq_refl) as [-> F]. split; [reflexivity|exact F].
  - injection H as <- <- <-. split; [reflexivity|exact I].
Qed.
Lemma first_group_none w : first_group w = None -> flat_word w.
Proof.
  induction w as [|c w IH|c w IH|b w IH]; cbn [first_group flat_word]; intros H; [exact I| | |discriminate];
    destruct (first_group w) as [[[u' a'] v']|]; try discriminate; apply IH; reflexivity.
Qed.
Lemma pair_flat u : flat_word u -> word_ok u -> forall i prev r, free prev -> exists prev', free prev' /\
  find_pair i [] prev (btext u ++ r) = find_pair (i + length (btext u)) [] prev' r.
Proof.
  induction u as [|c u IH|c u IH|a u IH]; cbn [flat_word word_ok]; intros F O i prev r P; try contradiction.
  - exists prev. split; [exact P|]. cbn [btext app length]. rewrite Nat.add_0_r. reflexivity.
  - destruct O as [C O]. destruct (IH F O (S i) (Some c) r) as (p & Fp & E). { apply free_some. intros ->. apply C. vm_compute. auto. }
    exists p. split; [exact Fp|]. cbn [btext app find_pair length]. destruct (N.eqb_spec c 123) as [-> |]; [exfalso; apply C; vm_compute; auto|]. cbn [andb].
    destruct ((c =? 125)%N && unescaped prev); rewrite E; f_equal; lia.
  - destruct O as [C O]. destruct (IH F O (S (S i)) (Some c) r) as (p & Fp & E); [apply free_some, C|].
    exists p. split; [exact Fp|]. cbn [btext app find_pair length unescaped N.eqb Pos.eqb andb negb]. rewrite !andb_false_r. rewrite E. f_equal. lia.
Qed.
Lemma find_group u a v : flat_word u -> word_ok u -> alts_ok a ->
  find_pair 0 [] None (btext (bapp u (BGroup a v))) = Some (length (btext u), S (length (btext u) + length (atext a))).
Proof.
  intros F O A. rewrite btext_app. destruct (pair_flat u F O 0 None (btext (BGroup a v)) eq_refl) as (p & Fp & E). rewrite E. cbn [btext].
  change (lit "{") with [123%N]. cbn [app find_pair N.eqb Pos.eqb andb]. rewrite Fp. rewrite Nat.add_0_l.
  destruct (proj2 pair_alt a A (S (length (btext u))) (length (btext u)) [] (Some 123%N) (lit "}" ++ btext v)) as (p' & Fp' & E'); [apply free_some; discriminate|].
  by_ E'. change (lit "}") with [125%N]. cbn [app find_pair N.eqb Pos.eqb andb]. rewrite Fp'. reflexivity.
Qed.

(** ** termination *)
Lemma find_pair_bound l : forall i st prev s e, find_pair i st prev l = Some (s, e) -> Forall (fun x => x < i) st -> s < e /\ e < i + length l.
Proof.
  induction l as [|c l IH]; intros i st prev s e H F; [discriminate|]. cbn [find_pair length] in *.
  assert (W : forall st', Forall (fun x => x < i) st' -> Forall (fun x => x < S i) st') by (intros st'; apply Forall_impl; intros; lia).
  destruct ((c =? 123)%N && unescaped prev); [apply IH in H; [lia|constructor; [lia|apply W, F]]|].
  destruct ((c =? 125)%N && unescaped prev).
  - destruct st as [|x [|y st]]; [apply IH in H; [lia|constructor]| |apply IH in H; [lia|inversion F; apply W; assumption]].
    injection H as <- <-. inversion F; subst. lia.
  - apply IH in H; [lia|apply W, F].
Qed.
Lemma split_parts_bound l : forall d cur prev p, In p (split_parts d cur prev l) -> length p <= length cur + length l.
Proof.
  induction l as [|c l IH]; intros d cur prev p; cbn [split_parts length].
  - intros [<- | []]. lia.
  - destruct ((c =? 123)%N && unescaped prev); [intros H; apply IH in H; rewrite app_length in H; cbn [length] in H; lia|].
    destruct ((c =? 125)%N && unescaped prev); [intros H; apply IH in H; rewrite app_length in H; cbn [length] in H; lia|].
    destruct ((c =? 44)%N && (d =? 0) && unescaped prev); [intros [<- | H]; [lia|apply IH in H; cbn [length] in H; lia]|].
    intros H; apply IH in H; rewrite app_length in H; cbn [length] in H; lia.
Qed.
Lemma foldm_parts {A} (f : A -> option (list str)) g l : (forall x, In x l -> f x = Some (g x)) ->
  forall acc, foldm (fun acc p => option_map (app acc) (f p)) l acc = Some (acc ++ flat_map g l).
Proof.
  induction l as [|x l IH]; intros H acc; cbn [foldm flat_map]; [rewrite app_nil_r; reflexivity|].
  rewrite (H x) by (left; reflexivity). cbn [option_map]. rewrite IH by (intros; apply H; right; assumption). rewrite <- app_assoc. reflexivity.
Qed.
Lemma braces_some n : forall s, length s < n -> exists l, braces n s = Some l.
Proof.
  induction n as [|n IH]; intros s L; [lia|]. cbn [braces]. destruct (find_pair 0 [] None s) as [[a b]|] eqn:E; [|eauto].
  apply find_pair_bound in E; [|constructor]. cbn [Nat.add] in E.
  assert (G : exists g, forall p, In p (split_parts 0 [] None (firstn (b - S a) (skipn (S a) s))) -> braces n (firstn a s ++ p ++ skipn (S b) s) = Some (g p)).
  { exists (fun p => match braces n (firstn a s ++ p ++ skipn (S b) s) with Some l => l | None => [] end). intros p P. apply split_parts_bound in P. cbn [length] in P.
    destruct (IH (firstn a s ++ p ++ skipn (S b) s)) as (l & ->); [|reflexivity]. rewrite !app_length, firstn_length, skipn_length. rewrite firstn_length, skipn_length in P. lia. }
  destruct G as (g & G). rewrite (foldm_parts _ g _ G). eauto.
Qed.
(** ** the cross product *)
Lemma alts_all_ok a x : alts_ok a -> In x (alts a) -> alt_ok x.
Proof. induction a as [w|w a IH]; cbn [alts_ok alts]; [intros A [<- | []]; exact A|intros [W A] [<- | H]; [exact W|exact (IH A H)]]. Qed.
Lemma alts_length a x : In x (alts a) -> length (btext x) <= length (atext a).
Proof. induction a as [w|w a IH]; cbn [alts atext]; [intros [<- | []]; lia|]. rewrite !app_length. intros [<- | H]; [lia|apply IH in H; lia]. Qed.
Lemma braces_choices n : forall w, word_ok w -> length (btext w) < n -> braces n (btext w) = Some (choices w).
Proof.
  induction n as [|n IH]; intros w O L; [lia|]. cbn [braces]. destruct (first_group w) as [[[u a] v]|] eqn:G.
  - apply first_group_some in G as [-> F]. apply word_ok_app in O as [Ou [Oa Ov]]. rewrite (find_group u a v F Ou Oa).
    rewrite choices_group by exact F.
    assert (T : btext (bapp u (BGroup a v)) = btext u ++ [123%N] ++ atext a ++ [125%N] ++ btext v) by (rewrite btext_app; cbn [btext]; reflexivity).
    rewrite T in *. set (lu := length (btext u)) in *. set (la := length (atext a)) in *.
    assert (T1 : firstn lu (btext u ++ [123%N] ++ atext a ++ [125%N] ++ btext v) = btext u) by (unfold lu; rewrite firstn_app, Nat.sub_diag, firstn_all; cbn [firstn]; apply app_nil_r).
    assert (T2 : skipn (S (S (lu + la))) (btext u ++ [123%N] ++ atext a ++ [125%N] ++ btext v) = btext v).
    { replace (btext u ++ [123%N] ++ atext a ++ [125%N] ++ btext v) with ((btext u ++ [123%N] ++ atext a ++ [125%N]) ++ btext v) by (rewrite <- !app_assoc; reflexivity).
      replace (S (S (lu + la))) with (length (btext u ++ [123%N] ++ atext a ++ [125%N])) by (rewrite !app_length; cbn [length]; lia). rewrite skipn_app, Nat.sub_diag, skipn_all. reflexivity. }
    assert (T3 : firstn (S (lu + la) - S lu) (skipn (S lu) (btext u ++ [123%N] ++ atext a ++ [125%N] ++ btext v)) = atext a).
    { replace (btext u ++ [123%N] ++ atext a ++ [125%N] ++ btext v) with ((btext u ++ [123%N]) ++ atext a ++ [125%N] ++ btext v) by (rewrite <- !app_assoc; reflexivity).
      replace (S lu) with (length (btext u ++ [123%N])) at 2 by (rewrite app_length; cbn [length]; lia). rewrite skipn_app, Nat.sub_diag, skipn_all. cbn [skipn app].
      replace (S (lu + la) - S lu) with la by lia. unfold la. rewrite firstn_app, Nat.sub_diag, firstn_all. cbn [firstn]. apply app_nil_r. }
    rewrite T1, T2, T3. rewrite split_alts by (try exact Oa; reflexivity).
    assert (Q : forall l, (forall x, In x l -> In x (alts a)) -> forall acc,
      foldm (fun acc part => option_map (app acc) (braces n (btext u ++ part ++ btext v))) (map btext l) acc = Some (acc ++ flat_map (fun x => choices (bapp u (bapp x v))) l)).
    { induction l as [|x l IHl]; intros H acc; [cbn [map foldm flat_map]; rewrite app_nil_r; reflexivity|]. cbn [map foldm flat_map].
      assert (E : btext u ++ btext x ++ btext v = btext (bapp u (bapp x v))) by (rewrite !btext_app; reflexivity).
      rewrite E, IH; [cbn [option_map]; rewrite IHl by (intros; apply H; right; assumption); rewrite <- app_assoc; reflexivity| |].
      - apply word_ok_app. split; [exact Ou|]. apply word_ok_app. split; [|exact Ov]. apply alt_word_ok. apply (alts_all_ok a x Oa), H. left. reflexivity.
      - rewrite <- E. rewrite !app_length in *. cbn [length] in L. pose proof (alts_length a x (H x (or_introl eq_refl))). clear -L H0. unfold str, char in *. lia. }
    rewrite Q by auto. reflexivity.
  - apply first_group_none in G. destruct (pair_flat w G O 0 None [] eq_refl) as (p & _ & E). rewrite app_nil_r in E. rewrite E. cbn [find_pair]. rewrite flat_choices by exact G. reflexivity.
Qed.
