(** C105: notebooks keep what they hold, and what is recorded can be read back. *)
From Coq Require Import Lia.
From Verif Require Import Base Direnv_Model Notebook_Model Notebook_Spec.
From Verif Require Direnv_Proofs Task_Props.

(** ** Loading and saving *)
Lemma slice_mid a b c : slice (a ++ b ++ c) (blen a) (blen a + blen b) = Some b.
Proof.
  unfold slice. rewrite split_byte_app. replace (blen a + blen b <? blen a) with false by (symmetry; apply Nat.ltb_ge; lia).
  replace (blen a + blen b - blen a) with (blen b) by lia. now rewrite split_byte_app.
Qed.
Definition blocks_of (ps : list piece) (rest : str) : list block :=
  flat_map (fun p => match fst (fst p) with [] => [] | t => [Block t Markdown] end ++ [Block (snd p) (kind_of (snd (fst p)))]) ps
  ++ match rest with [] => [] | t => [Block t Markdown] end.
Lemma blen_pos s : s <> [] -> 0 < blen s.
Proof. intros H. destruct (blen s) eqn:E; [|lia]. apply blen_zero in E. contradiction. Qed.
Lemma load_describes text n es ps : describes n es ps -> forall before rest, n = blen before -> text = before ++ text_of ps rest ->
  load_from text n None es = Some (blocks_of ps rest).
Proof.
  induction 1 as [n|n es ps _ IH|n t lang c inner es ps Hi _ IH]; intros before rest Hn Ht.
  - cbn [text_of flat_map app] in Ht. cbn [load_from]. unfold blocks_of. cbn [flat_map app]. rewrite Ht, blen_app. subst n.
    destruct rest as [|x rest].
    + replace (blen before <? blen before + blen []) with false by (symmetry; apply Nat.ltb_ge; cbn; lia). reflexivity.
    + replace (blen before <? blen before + blen (x :: rest)) with true by (symmetry; apply Nat.ltb_lt; assert (H := blen_pos (x :: rest)); specialize (H ltac:(discriminate)); lia).
      assert (S := slice_mid before (x :: rest) []). rewrite app_nil_r in S. rewrite S. reflexivity.
  - cbn [load_from]. now apply (IH before).
  - assert (E : text = before ++ t ++ c ++ text_of ps rest) by (rewrite Ht; unfold text_of; cbn [flat_map fst snd]; now rewrite <- !app_assoc).
    cbn [load_from]. subst n.
    assert (Inner : load_from text (blen before + blen t) (Some lang) (inner ++ End_ (blen before + blen t + blen c) :: es)
              = load_from text (blen before + blen t) (Some lang) (End_ (blen before + blen t + blen c) :: es)).
    { clear -Hi. induction Hi as [|x inner <- _ IHi]; [reflexivity|]. cbn [app load_from]. exact IHi. }
    rewrite Inner. cbn [load_from].
    assert (S2 := slice_mid (before ++ t) c (text_of ps rest)). rewrite blen_app, <- app_assoc in S2. rewrite <- E in S2. rewrite S2.
    assert (B1 : blen before + blen t + blen c = blen (before ++ t ++ c)) by (rewrite !blen_app; apply Nat.add_assoc || (symmetry; apply Nat.add_assoc)).
    assert (B2 : text = (before ++ t ++ c) ++ text_of ps rest) by (etransitivity; [exact E|]; rewrite <- !app_assoc; reflexivity).
    rewrite (IH (before ++ t ++ c) rest B1 B2).
    unfold blocks_of. cbn [flat_map fst snd]. destruct t as [|x t].
    + replace (blen before <? blen before + blen []) with false by (symmetry; apply Nat.ltb_ge; cbn; lia). reflexivity.
    + replace (blen before <? blen before + blen (x :: t)) with true by (symmetry; apply Nat.ltb_lt; assert (H := blen_pos (x :: t)); specialize (H ltac:(discriminate)); lia).
      assert (S1 := slice_mid before (x :: t) (c ++ text_of ps rest)). rewrite <- E in S1. rewrite S1. cbn [app]. rewrite ?app_assoc. reflexivity.
Qed.

(** Loading a notebook and saving it gives the file back, byte for byte; its code blocks
    are the ones of the file, in order. *)
Theorem C105_loading_and_saving : forall es ps rest, describes 0 es ps ->
  exists bs, load (text_of ps rest) es = Some bs /\ save bs = text_of ps rest /\
    Forall2 holds ps (filter (fun b => match what b with Markdown => false | _ => true end) bs).
Proof.
  intros es ps rest H. exists (blocks_of ps rest). split; [|split].
  - apply (load_describes (text_of ps rest) 0 es ps H [] rest); reflexivity.
  - unfold save, blocks_of, text_of. rewrite flat_map_app. f_equal; [|destruct rest; [reflexivity|cbn; now rewrite app_nil_r]].
    clear H. induction ps as [|[[t lang] c] ps IH]; [reflexivity|]. cbn [flat_map fst snd]. rewrite !flat_map_app, IH.
    f_equal. destruct t; cbn; rewrite ?app_nil_r; reflexivity.
  - unfold blocks_of. rewrite filter_app.
    assert (E : filter (fun b => match what b with Markdown => false | _ => true end) (match rest with [] => [] | t => [Block t Markdown] end) = []) by (now destruct rest).
    rewrite E, app_nil_r. clear. induction ps as [|[[t lang] c] ps IH]; [constructor|]. cbn [flat_map fst snd]. rewrite filter_app, filter_app.
    assert (K : filter (fun b => match what b with Markdown => false | _ => true end) [Block c (kind_of lang)] = [Block c (kind_of lang)]) by (cbn; unfold kind_of; now destruct (str_eqb lang (lit "text"))).
    rewrite K. assert (G : Forall2 holds ((t, lang, c) :: ps) ([Block c (kind_of lang)] ++ filter (fun b => match what b with Markdown => false | _ => true end) (flat_map (fun p => match fst (fst p) with [] => [] | t => [Block t Markdown] end ++ [Block (snd p) (kind_of (snd (fst p)))]) ps))); [|now destruct t].
    cbn [app]. constructor; [|exact IH]. unfold kind_of. destruct (str_eqb lang (lit "text")) eqn:X.
    + apply str_eqb_eq in X. subst lang. constructor.
    + constructor. intros ->. now rewrite str_eqb_refl in X.
Qed.
Print Assumptions C105_loading_and_saving.
Example C105_load_example :
  let es := [Start (lit "bash") 6; Other; End_ 20; Other; Start (lit "text") 21; Other; End_ 35] in
  let ps := [(lit "# Hi" ++ nl ++ nl, lit "bash", lit "```bash" ++ nl ++ lit "ls" ++ nl ++ lit "```"); (nl, lit "text", lit "```text" ++ nl ++ lit "a" ++ nl ++ lit "```" ++ nl)] in
  describes 0 es ps.
Proof.
  intros es ps. unfold es, ps.
  refine (D_code 0 (lit "# Hi" ++ nl ++ nl) (lit "bash") (lit "```bash" ++ nl ++ lit "ls" ++ nl ++ lit "```") [Other] _ _ _ _); [repeat constructor|]. apply D_other.
  refine (D_code 20 nl (lit "text") (lit "```text" ++ nl ++ lit "a" ++ nl ++ lit "```" ++ nl) [Other] [] [] _ _); [repeat constructor|]. constructor.
Qed.

(** ** Recording *)
Lemma fenced_body n lang ls r : (forall l, In l ls -> closes n l = false) -> closes n (lit "```") = true -> forall body,
  fenced (Some (n, lang, body)) (ls ++ lit "```" :: r) = (lang, rev body ++ ls) :: fenced None r.
Proof.
  intros H Hc. induction ls as [|l ls IH]; intros body; cbn [app fenced].
  - now rewrite Hc, app_nil_r.
  - rewrite (H l) by now left. rewrite IH by (intros x Hx; apply H; now right). cbn [rev]. now rewrite <- app_assoc.
Qed.
Lemma recorded_lines c rest :
  split_on 10%N (recorded c ++ rest) = [] :: lit "```bash" :: split_on 10%N (trim c) ++ lit "```" :: split_on 10%N rest.
Proof.
  unfold recorded. rewrite <- !app_assoc.
  change (nl ++ lit "```bash" ++ nl ++ trim c ++ nl ++ lit "```" ++ nl ++ rest) with ([] ++ 10%N :: lit "```bash" ++ 10%N :: trim c ++ 10%N :: lit "```" ++ 10%N :: rest).
  rewrite split_on_app, split_on_app, split_on_app, split_on_app. reflexivity.
Qed.
Lemma recorded_blocks c rest : no_fence (trim c) ->
  code_blocks (recorded c ++ rest) = (lit "bash", split_on 10%N (trim c)) :: code_blocks rest.
Proof.
  intros H. unfold code_blocks. rewrite recorded_lines. cbn [fenced]. change (opens []) with (@None (nat * str)).
  cbv iota. change (opens (lit "```bash")) with (Some (3, lit "bash")). cbv iota beta.
  rewrite fenced_body; [reflexivity|exact H|reflexivity].
Qed.
Lemma record_all cmds : forall text, fold_left (fun t c => record c t) cmds text = text ++ flat_map recorded (filter (fun c => match trim c with [] => false | _ => true end) cmds).
Proof.
  induction cmds as [|c cmds IH]; intros text; [cbn; now rewrite app_nil_r|]. cbn [fold_left filter]. rewrite IH. unfold record, append_code.
  destruct (trim c) eqn:E; [reflexivity|]. cbn [flat_map]. now rewrite <- app_assoc.
Qed.

(** What is recorded into a new notebook is read back from it: one block for each line
    entered that is not blank, with its text, if no line of it is a fence. *)
Theorem C105_recorded_commands_partial : forall cmds,
  (forall c, In c cmds -> no_fence (trim c)) ->
  code_blocks (fold_left (fun t c => record c t) cmds []) =
  map (fun c => (lit "bash", split_on 10%N (trim c))) (filter (fun c => match trim c with [] => false | _ => true end) cmds).
Proof.
  intros cmds H. rewrite record_all. cbn [app]. assert (G : forall c, In c (filter (fun c => match trim c with [] => false | _ => true end) cmds) -> no_fence (trim c)).
  { intros c Hc. apply filter_In in Hc. now apply H. }
  induction (filter (fun c => match trim c with [] => false | _ => true end) cmds) as [|c l IH]; [reflexivity|]. cbn [flat_map map].
  rewrite recorded_blocks by (apply G; now left). rewrite IH by (intros x Hx; apply G; now right). reflexivity.
Qed.
Print Assumptions C105_recorded_commands_partial.

(** A fence in what is entered ends its block: the rest is not in it. *)
Theorem C105_fences_refuted : forall a f b, trim (a ++ nl ++ f ++ nl ++ b) = a ++ nl ++ f ++ nl ++ b ->
  no_fence a -> ~ In 10%N f -> closes 3 f = true ->
  exists more, code_blocks (record (a ++ nl ++ f ++ nl ++ b) []) = (lit "bash", split_on 10%N a) :: more /\
    split_on 10%N a <> split_on 10%N (a ++ nl ++ f ++ nl ++ b).
Proof.
  intros a f b Ht Ha Hf Hc. unfold record. rewrite Ht.
  assert (S : split_on 10%N (a ++ nl ++ f ++ nl ++ b) = split_on 10%N a ++ f :: split_on 10%N b).
  { change (a ++ nl ++ f ++ nl ++ b) with (a ++ 10%N :: f ++ 10%N :: b). now rewrite split_on_app, split_on_app, (split_on_none _ f Hf). }
  assert (Ne : a ++ nl ++ f ++ nl ++ b <> []) by (destruct a; discriminate).
  destruct (a ++ nl ++ f ++ nl ++ b) as [|x s] eqn:E; [congruence|].
  assert (B : forall ls r body, (forall l, In l ls -> closes 3 l = false) -> fenced (Some (3, lit "bash", body)) (ls ++ f :: r) = (lit "bash", rev body ++ ls) :: fenced None r).
  { clear -Hc. induction ls as [|l ls IH]; intros r body H; cbn [app fenced].
    - now rewrite Hc, app_nil_r.
    - rewrite (H l) by now left. rewrite IH by (intros z Hz; apply H; now right). cbn [rev]. now rewrite <- app_assoc. }
  assert (L := recorded_lines (x :: s) []). rewrite Ht, S, app_nil_r in L.
  unfold append_code. cbn [app]. unfold code_blocks at 1. rewrite L.
  cbn [fenced]. change (opens []) with (@None (nat * str)). cbv iota. change (opens (lit "```bash")) with (Some (3, lit "bash")). cbv iota beta.
  rewrite <- app_assoc. cbn [app].
  eexists. split; [rewrite B by exact Ha; reflexivity|]. rewrite S. intros X. apply (f_equal (@length _)) in X. rewrite app_length in X. cbn in X. lia.
Qed.
Print Assumptions C105_fences_refuted.

(** ** The text of a block *)
Lemma lines_join ps t : (forall p, In p ps -> ~ In 10%N p) -> ps <> [] ->
  lines (join_with nl ps ++ 10%N :: t) = map strip_cr ps ++ lines t.
Proof.
  induction ps as [|p ps IH]; intros H Hn; [congruence|]. destruct ps as [|q ps].
  - cbn [join_with map app]. apply Direnv_Proofs.lines_nl. apply H. now left.
  - change (join_with nl (p :: q :: ps)) with (p ++ nl ++ join_with nl (q :: ps)). unfold nl at 1. rewrite <- !app_assoc.
    change (p ++ [10%N] ++ join_with nl (q :: ps) ++ 10%N :: t) with (p ++ 10%N :: (join_with nl (q :: ps) ++ 10%N :: t)).
    rewrite Direnv_Proofs.lines_nl by (apply H; now left). rewrite IH; [reflexivity|intros x Hx; apply H; now right|discriminate].
Qed.
(** The text to be run of a recorded block is what was entered. *)
Theorem C105_text_of_a_block : forall c b e,
  ~ In 13%N c -> Forall (fun x => is_whitespace x = true) b -> Forall (fun x => is_whitespace x = true) e ->
  raw_content (Block (b ++ lit "```bash" ++ nl ++ trim c ++ nl ++ lit "```" ++ e) (Code (lit "bash"))) = trim c.
Proof.
  intros c b e Hr Hb He. unfold raw_content. cbn [what content].
  assert (Hr' : ~ In 13%N (trim c)) by (intros Hi; apply Hr; now apply Task_Props.trim_incl).
  set (t := trim c) in *. clearbody t. clear c Hr.
  assert (T : trim (b ++ lit "```bash" ++ nl ++ t ++ nl ++ lit "```" ++ e) = lit "```bash" ++ 10%N :: t ++ 10%N :: lit "```").
  { unfold trim. assert (T1 : trim_start (b ++ lit "```bash" ++ nl ++ t ++ nl ++ lit "```" ++ e) = (lit "```bash" ++ nl ++ t ++ nl ++ lit "``") ++ chr "`" :: e).
    { induction Hb as [|x b Hx _ IH]; cbn [app trim_start]; [rewrite <- !app_assoc; reflexivity|now rewrite Hx]. }
    rewrite T1, Task_Props.trim_end_keeps by reflexivity.
    assert (T2 : trim_end e = []). { unfold trim_end. assert (F : forall y, Forall (fun x => is_whitespace x = true) y -> trim_start y = []) by (induction 1 as [|x y Hx _ IH]; [reflexivity|cbn; now rewrite Hx]). rewrite F; [reflexivity|]. now apply Forall_rev. }
    rewrite T2. rewrite <- !app_assoc. reflexivity. }
  rewrite T. rewrite Direnv_Proofs.lines_nl by (intros Hi; apply Task_Props.lit_free in Hi; vm_compute in Hi; discriminate Hi).
  assert (J := lines_join (split_on 10%N t) (lit "```") (fun p Hp => split_on_no_sep _ _ _ Hp) (split_on_nonempty _ _)).
  unfold nl in J. rewrite split_on_join in J. rewrite J. change (lines (lit "```")) with [lit "```"]. change (strip_cr (lit "```bash")) with (lit "```bash").
  assert (E : map strip_cr (split_on 10%N t) = split_on 10%N t).
  { rewrite <- (map_id (split_on 10%N t)) at 2. apply map_ext_in. intros p Hp. apply Task_Props.strip_cr_id. intros Hi. apply Hr'.
    rewrite <- (split_on_join 10%N t). clear -Hp Hi. revert Hp. generalize (split_on 10%N t). induction l as [|q l IH]; intros []; cbn [join_with].
    - subst q. destruct l; [exact Hi|]. apply in_or_app. now left.
    - destruct l as [|r l]; [destruct H|]. apply in_or_app. right. apply in_or_app. right. now apply IH. }
  rewrite E. cbn [hd tl].
  assert (Len : (2 <=? length (lit "```bash" :: split_on 10%N t ++ [lit "```"])) = true) by (apply Nat.leb_le; cbn [length]; rewrite app_length; cbn; lia).
  rewrite Len. change (starts_with (lit "```") (lit "```bash")) with true.
  assert (La : last (lit "```bash" :: split_on 10%N t ++ [lit "```"]) [] = lit "```").
  { change (lit "```bash" :: split_on 10%N t ++ [lit "```"]) with ((lit "```bash" :: split_on 10%N t) ++ [lit "```"]). apply last_last. }
  rewrite La. change (starts_with (lit "```") (lit "```")) with true. cbn [andb]. rewrite removelast_last. apply split_on_join.
Qed.
Print Assumptions C105_text_of_a_block.
Example C105_example :
  let nb := fold_left (fun t c => record c t) [lit " ls -la "; lit "   "; lit "for i in 1 2" ++ nl ++ lit "do echo $i; done"] [] in
  code_blocks nb = [(lit "bash", [lit "ls -la"]); (lit "bash", [lit "for i in 1 2"; lit "do echo $i; done"])]
  /\ code_blocks (record (lit "cat <<E" ++ nl ++ lit "```" ++ nl ++ lit "```bash" ++ nl ++ lit "rm x" ++ nl ++ lit "E") []) = [(lit "bash", [lit "cat <<E"]); (lit "bash", [lit "rm x"; lit "E"])].
Proof. split; vm_compute; reflexivity. Qed.
