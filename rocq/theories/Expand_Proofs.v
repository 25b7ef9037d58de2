(** Proofs about expansion: the text of an expanded line is the text of the line it stands for. *)
From Verif Require Import Base Peg_Model Peg_Proofs Grammar_Model Parse_Model Parse_Spec Grammar_Proofs Parse_Proofs Env_Model Expand_Model Expand_Spec.

Definition flat (ts : list str) : str := flat_map (fun t => 32%N :: t) ts.
Lemma flat_app a b : flat (a ++ b) = flat a ++ flat b.
Proof. apply flat_map_app. Qed.
Lemma flat_join ts : ts <> [] -> flat ts = 32%N :: join_with (lit " ") ts.
Proof.
  induction ts as [|a ts IH]; [congruence|]. intros _. destruct ts as [|b ts]; [cbn; rewrite app_nil_r; reflexivity|].
  change (flat (a :: b :: ts)) with (32%N :: a ++ flat (b :: ts)). rewrite IH by discriminate. reflexivity.
Qed.

Lemma f2_nil_l {A B} (R : A -> B -> Prop) m : Forall2 R [] m -> m = [].
Proof. inversion 1. reflexivity. Qed.
Lemma f2_nil_r {A B} (R : A -> B -> Prop) l : Forall2 R l [] -> l = [].
Proof. inversion 1. reflexivity. Qed.

(** ** what runs depends on the arguments and redirections only *)
Definition same_cmd (c d : cmdline) : Prop := argv c = argv d /\ redirections c = redirections d.
Definition same_seg (g h : segment) : Prop := Forall2 same_cmd (bgs g) (bgs h) /\ Forall2 same_cmd (pipe g) (pipe h).
Definition same_rest (r s : list (separator * segment)) : Prop :=
  Forall2 (fun a b : separator * segment => fst a = fst b /\ same_seg (snd a) (snd b)) r s.
Lemma same_name c d : same_cmd c d -> meaning (name c) = meaning (name d).
Proof. intros [A _]. unfold argv in A. injection A as A _. exact A. Qed.
Lemma same_process resolve c d : same_cmd c d -> process_for resolve c = process_for resolve d.
Proof. intros S. unfold process_for. rewrite (same_name _ _ S). destruct S as [-> _]. reflexivity. Qed.
Lemma same_known resolve c d : same_cmd c d -> known resolve d -> known resolve c.
Proof. intros S. unfold known. rewrite (same_name _ _ S). auto. Qed.
Lemma same_seg_jobs resolve g h : same_seg g h -> segment_jobs resolve g = segment_jobs resolve h.
Proof.
  intros [B P]. unfold segment_jobs. f_equal.
  - induction B as [|c d l m S B IH]; [reflexivity|]. cbn [map]. rewrite IH, (same_process _ _ _ S). destruct S as [_ ->]. reflexivity.
  - assert (E : map (process_for resolve) (pipe g) = map (process_for resolve) (pipe h) /\ flat_map redirections (pipe g) = flat_map redirections (pipe h)).
    { clear B. induction P as [|c d l m S P IH]; [split; reflexivity|]. cbn [map flat_map]. destruct IH as [-> ->]. rewrite (same_process _ _ _ S). destruct S as [_ ->]. split; reflexivity. }
    destruct E as [E1 E2]. destruct (pipe g) as [|c l], (pipe h) as [|d m]; inversion P; [reflexivity|]. rewrite E1, E2. reflexivity.
Qed.
Lemma same_rest_jobs resolve r s : same_rest r s -> forall p, rest_jobs resolve p r = rest_jobs resolve p s.
Proof.
  induction 1 as [|[a g] [b h] r s [E S] H IH]; intros p; [reflexivity|]. cbn [fst snd] in *. subst b. cbn [rest_jobs].
  rewrite (same_seg_jobs resolve g h S), IH. reflexivity.
Qed.
Lemma same_all g h r s : same_seg g h -> same_rest r s -> Forall2 same_cmd (all_commands (g, r)) (all_commands (h, s)).
Proof.
  intros [B P] R. unfold all_commands. cbn [fst snd]. apply Forall2_app; [exact B|]. apply Forall2_app; [exact P|].
  induction R as [|a b r s [_ [B' P']] R IH]; [constructor|]. cbn [flat_map]. apply Forall2_app; [apply Forall2_app; assumption|exact IH].
Qed.

Section Expand.
Variable home : option str.
Variable glob : str -> list str.
Variable alias : map_.
Variable e : env.
Notation var := (get_var e).
Notation vt := (var_text e).
Notation et := (expand_tree home glob alias).

(** ** words *)
Lemma tilde_id c s : c <> 126%N -> tilde home (c :: s) = c :: s.
Proof using. intros H. cbn [tilde]. destruct (N.eqb_spec c 126); [congruence|reflexivity]. Qed.
Lemma tilde_typed w : valid_word w -> tilde home (typed_word w) = tilde_text home w.
Proof using.
  destruct w as [l|t|t|n]; intros V; try (cbn [typed_word tilde_text app]; apply tilde_id; discriminate).
  cbn [tilde_text]. destruct l as [|[b c] l]; [reflexivity|].
  destruct b; [cbn [tilde_word]; cbn [typed_word flat_map app]; apply tilde_id; discriminate|].
  cbn [tilde_word]. change (typed_word (Bare ((false, c) :: l))) with (c :: typed_word (Bare l)). cbn [tilde].
  destruct (c =? 126)%N; [|reflexivity].
  destruct l as [|[b d] l]; [cbn [typed_word flat_map andb app]; destruct home; reflexivity|].
  change (typed_word (Bare ((b, d) :: l))) with ((if b then [92%N; d] else [d]) ++ typed_word (Bare l)).
  destruct b; cbn [app negb andb]; [reflexivity|]. destruct (d =? 47)%N; [|reflexivity]. destruct home; reflexivity.
Qed.
Lemma typed_plain h l : typed_word (Bare (map (fun c => (false, c)) h ++ l)) = h ++ typed_word (Bare l).
Proof using. cbn [typed_word]. rewrite flat_map_app. f_equal. induction h as [|c h IH]; [reflexivity|]. cbn [map flat_map app]. rewrite IH. reflexivity. Qed.
Lemma snd_plain (h : str) : map snd (map (fun c => (false, c)) h) = h.
Proof using. rewrite map_map. apply map_id. Qed.
Lemma snd_literal v : meaning (literal v) = v.
Proof using. cbn [meaning literal]. rewrite map_map. apply map_id. Qed.

(** the word that is typed for a word *)
Definition nword (w : word) : word :=
  match w with
  | Bare l => match tilde_word l, home with Some r, Some h => Bare (map (fun c => (false, c)) h ++ r) | _, _ => w end
  | Single _ | Double _ => w
  | Var n => match var (36%N :: n) with
             | None => w
             | Some v => match v with [] => Double [] | _ => if has 10%N v || has 32%N v || has 9%N v then Double v else Bare (map (fun c => (false, c)) v) end
             end
  end.
Lemma tilde_valid l r : tilde_word l = Some r -> valid_word (Bare l) -> forall b c, In (b, c) r -> b = false -> ordinary c = true.
Proof using.
  intros T [_ V] b c H E. apply (V b c); [|exact E]. destruct l as [|[[] x] l]; try discriminate. cbn [tilde_word] in T.
  destruct (x =? 126)%N; [|discriminate]. right.
  destruct l as [|[b' d] l]; [injection T as <-; exact H|]. destruct (negb b' && (d =? 47)%N); [|discriminate]. injection T as <-. exact H.
Qed.
Lemma no_quote_escape v : (forall c, In c v -> ~ In c [34; 92; 96; 36]%N) -> flat_map (fun c => if (c =? 34)%N then [92; 34]%N else [c]) v = v.
Proof using.
  induction v as [|c v IH]; intros H; [reflexivity|]. cbn [flat_map]. destruct (N.eqb_spec c 34) as [-> |].
  - exfalso. apply (H 34%N); cbn; auto.
  - cbn [app]. rewrite IH; [reflexivity|]. intros d D. apply H. right. exact D.
Qed.
Lemma has_blank v : (has 10%N v || has 32%N v || has 9%N v = true) <-> exists c, In c v /\ In c [10; 32; 9]%N.
Proof using.
  unfold has. rewrite !orb_true_iff, !mem_char_iff. split.
  - intros [[H | H] | H]; eexists; (split; [exact H|cbn; auto]).
  - intros (c & H & [<- | [<- | [<- | []]]]); auto.
Qed.
Lemma ordinary_no_blank v : forallb ordinary v = true -> has 10%N v || has 32%N v || has 9%N v = false.
Proof using.
  intros O. apply not_true_is_false. intros H. apply has_blank in H as (c & Hc & I). rewrite forallb_forall in O. specialize (O c Hc).
  destruct I as [<- | [<- | [<- | []]]]; discriminate O.
Qed.
Lemma nword_facts w : valid_word w -> tame_word home var w ->
  typed_word (nword w) = vt (tilde_text home w) /\ meaning (nword w) = value home var w /\ valid_word (nword w).
Proof using.
  intros V T. destruct w as [l|t|t|n].
  - destruct T as [T H]. unfold var_text. rewrite T. cbn [nword tilde_text value].
    destruct (tilde_word l) as [r|] eqn:El, home as [h|]; try (split; [reflexivity|split; [reflexivity|exact V]]).
    destruct H as [Nh Oh]. split; [apply typed_plain|]. split; [cbn [meaning]; rewrite map_app, snd_plain; reflexivity|].
    split; [destruct h; [congruence|discriminate]|]. intros b c Hin E. apply in_app_or in Hin as [Hin | Hin]; [|exact (tilde_valid l r El V b c Hin E)].
    apply in_map_iff in Hin as (x & [= <- <-] & Hx). rewrite forallb_forall in Oh. apply Oh, Hx.
  - cbn [tame_word] in T. cbn [nword tilde_text value meaning]. unfold var_text. rewrite T. auto.
  - cbn [tame_word] in T. cbn [nword tilde_text value meaning]. unfold var_text. rewrite T. auto.
  - cbn [tame_word] in T. cbn [nword tilde_text value meaning typed_word]. unfold var_text. destruct (var (36%N :: n)) as [v|]; [|auto].
    destruct v as [|x v']; [split; [reflexivity|split; [reflexivity|intros c []]]|]. set (v := x :: v') in *.
    destruct T as [T | [[O Tr] | [B Q]]]; [discriminate| |].
    + rewrite (ordinary_no_blank v O). pose proof (typed_plain v []) as Tv. rewrite app_nil_r in Tv. cbn [typed_word flat_map] in Tv. rewrite app_nil_r in Tv.
      split; [rewrite Tr; exact Tv|]. split; [apply snd_plain|]. split; [discriminate|].
      intros b c Hin E. apply in_map_iff in Hin as (y & [= <- <-] & Hy). rewrite forallb_forall in O. apply O, Hy.
    + apply has_blank in B. rewrite B. rewrite (no_quote_escape v Q). split; [reflexivity|]. split; [reflexivity|exact Q].
Qed.

(** ** the tokens of a tree *)
Lemma et_span w n : valid_word w -> span_node w n -> et n = [tilde_text home w].
Proof using.
  intros V (p & q & -> & [R T] & _). destruct q as [r p' t k]. cbn [rule_of text_of] in R, T. subst r t.
  destruct w; cbn [word_rule expand_tree app]; rewrite tilde_typed by exact V; reflexivity.
Qed.
Definition item_toks (i : item) : list str :=
  match i with Arg _ w => [tilde_text home w] | Redir _ d _ f => [typed_direction d; tilde_text home (plain_word f)] end.
Lemma plain_valid f : f <> [] -> forallb ordinary f = true -> valid_word (plain_word f).
Proof using.
  intros N O. split; [destruct f; [congruence|discriminate]|]. apply (bare_of_ordinary f O).
Qed.
Lemma et_item i n : valid_item i -> item_node i n -> et n = item_toks i.
Proof using.
  destruct i as [g w|g d h f]; intros V H; cbn [item_node] in H.
  - destruct V as (_ & _ & V). apply et_span; assumption.
  - destruct V as (_ & _ & _ & Nf & Of). destruct H as (p & t & dn & sn & -> & D & S & _). cbn [expand_tree].
    rewrite (et_span (plain_word f) sn) by (auto; apply plain_valid; auto).
    destruct D as (pd & q & -> & _). destruct d; reflexivity.
Qed.
Fixpoint each (l : list pair_) : list str := match l with [] => [] | q :: l' => et q ++ each l' end.
Lemma each_eq l : (fix each (l : list pair_) : list str := match l with [] => [] | q :: l' => et q ++ each l' end) l = each l.
Proof using. induction l as [|q l IH]; [reflexivity|]. cbn [each]. f_equal. Qed.
Lemma each_items its inner : Forall valid_item its -> Forall2 item_node its inner -> each inner = flat_map item_toks its.
Proof using.
  intros V F. induction F as [|i n its inner H F IH]; [reflexivity|]. inversion V; subst. cbn [each flat_map]. rewrite (et_item i n), IH; auto.
Qed.
Definition head_tok (w : word) : str :=
  trim (match assoc (tilde_text home w) alias with Some a => a | None => tilde_text home w end).
Definition cmd_toks (c : cmdline) : list str := head_tok (name c) :: flat_map item_toks (items c).

Lemma et_simple c n : valid_word (name c) -> Forall valid_item (items c) -> simple_node (name c) (items c) n -> et n = cmd_toks c.
Proof using.
  intros V Vi (p & t & p0 & t0 & s & ns & -> & S & A). cbn [expand_tree]. rewrite (et_span _ _ V S). cbn [expand_name map app].
  unfold cmd_toks, head_tok. f_equal.
  destruct A as [[-> ->] | (p1 & t1 & inner & -> & F)]; [reflexivity|].
  change ((fix each (l : list pair_) : list str := match l with [] => [] | q :: l' => et q ++ each l' end) inner ++ [] = flat_map item_toks (items c)).
  rewrite each_eq, app_nil_r. apply each_items; auto.
Qed.
Lemma et_pipe c n : valid_word (name c) -> Forall valid_item (items c) -> pipe_node c n -> et n = cmd_toks c.
Proof using.
  intros V Vi (p & t & o & s & -> & (po & ->) & S). cbn [expand_tree app]. rewrite (et_simple c s V Vi S), app_nil_r. reflexivity.
Qed.
(** in the background: redirections are dropped *)
Lemma et_back c n : valid_word (name c) -> Forall valid_item (items c) -> redirections c = [] -> back_node c n -> et n = cmd_toks c.
Proof using.
  intros V Vi R (p & s & p' & k & -> & (ps & ts & p0 & t0 & s' & ns & -> & S & A)). cbn [expand_tree]. rewrite (et_span _ _ V S).
  cbn [expand_name map app]. unfold cmd_toks, head_tok. f_equal. rewrite app_nil_r.
  destruct A as [[-> ->] | (p1 & t1 & inner & -> & F)]; [reflexivity|].
  cbn [app]. rewrite app_nil_r. unfold redirections in R. clear S V. revert R Vi.
  induction F as [|i n its inner H F IH]; intros R Vi; [reflexivity|]. inversion Vi; subst. cbn [flat_map] in *. destruct i as [g w|g d h f]; [|discriminate R].
  rewrite <- (IH R) by assumption. cbn [item_node] in H. destruct H as (pn & q & -> & [Rq Tq] & _).
  destruct q as [rq pq tq kq]. cbn [rule_of text_of] in Rq, Tq. subst rq tq.
  transitivity ((et (Node (word_rule w) pq (typed_word w) kq) ++ []) ++ et (Node args p1 t1 inner)); [reflexivity|]. f_equal.
  cbn [item_toks]. rewrite <- (tilde_typed w) by (apply H2). destruct w; reflexivity.
Qed.

(** ** the tokens of a line *)
Definition vcmd (c : cmdline) : list str := map vt (cmd_toks c).
Definition pipe_toks (cs : list cmdline) : list str := flat_map (fun c => lit "|" :: vcmd c) cs.
Definition seg_toks (g : segment) : list str :=
  flat_map (fun c => vcmd c ++ [lit "&"]) (bgs g) ++
  match pipe g with [] => [] | c :: cs => vcmd c ++ pipe_toks cs end.
Definition rest_toks (r : list (separator * segment)) : list str :=
  flat_map (fun sg : separator * segment => typed_sep (fst sg) :: seg_toks (snd sg)) r.

Lemma simple_rule w its n : simple_node w its n -> rule_of n = simple_command.
Proof using. intros (p & t & p0 & t0 & s & ns & -> & _). reflexivity. Qed.
Lemma ec_segment g n : valid_segment g -> Forall (fun c => redirections c = []) (bgs g) -> command_node g n ->
  expand_command home glob alias e n = seg_toks g.
Proof using.
  intros (V & _ & _) R (p & inner & -> & b & f & q & -> & Hb & Hf & Hp). cbn [expand_command rule_of inner_of].
  rewrite !flat_map_app. apply Forall_app in V as [Vb Vp]. unfold seg_toks. f_equal.
  - clear Hf Hp Vp. revert Vb R. induction Hb as [|c n cs ns H F IH]; intros Vb R; [reflexivity|]. inversion Vb; inversion R; subst.
    cbn [flat_map]. rewrite IH by assumption. f_equal.
    assert (E : rule_of n = simple_command_bg) by (destruct H as (? & ? & ? & ? & -> & _); reflexivity). rewrite E.
    destruct H2 as (_ & _ & Vn & Vi). unfold expand_var_args. rewrite (et_back c n) by assumption. reflexivity.
  - clear Hb Vb R. destruct (pipe g) as [|c cs]; cbn [firstn skipn] in *; [inversion Hf; inversion Hp; reflexivity|].
    inversion Hf as [|? n ? ns' H F]; subst. inversion F; subst. inversion Vp as [|? ? Vc Vcs]; subst. cbn [flat_map]. rewrite app_nil_r. f_equal.
    + rewrite (simple_rule _ _ _ H). destruct Vc as (_ & _ & Vn & Vi). unfold expand_var_args. rewrite (et_simple c n) by assumption. reflexivity.
    + clear -Hp Vcs. revert Vcs. induction Hp as [|c n cs ns H F IH]; intros V; [reflexivity|]. inversion V as [|? ? Vc Vcs]; subst. cbn [flat_map pipe_toks]. fold (pipe_toks cs). rewrite IH by exact Vcs. f_equal.
      assert (E : rule_of n = pipe_command) by (destruct H as (? & ? & ? & ? & -> & _); reflexivity). rewrite E.
      destruct Vc as (_ & _ & Vn & Vi). unfold expand_var_args. rewrite (et_pipe c n) by assumption. reflexivity.
Qed.
Lemma ec_sep s n : sep_node s n -> expand_command home glob alias e n = [typed_sep s].
Proof using. intros (p & q & -> & _). reflexivity. Qed.
Lemma ec_rest r : forall g ns, valid_rest g r -> regular g r -> rest_nodes r ns -> flat_map (expand_command home glob alias e) ns = rest_toks r.
Proof using.
  induction r as [|[s g'] r IH]; intros g ns V R H; [cbn in H; subst ns; reflexivity|].
  destruct V as (Vg & _ & Vr). cbn [regular] in R. destruct R as (_ & _ & R). destruct H as (a & b & l & -> & Ha & Hb & Hl).
  cbn [flat_map rest_toks fst snd]. fold (rest_toks r). rewrite (ec_sep s a Ha), (ec_segment g' b Vg) by (try exact Hb; destruct r as [|[]]; apply R).
  rewrite (IH g' l Vr R Hl). reflexivity.
Qed.
Definition line_toks (l : line) : list str := seg_toks (fst l) ++ rest_toks (snd l).
Lemma expand_line l n : valid_line l -> regular (fst l) (snd l) -> line_node l n -> expand_pairs home glob alias e [n] = join_with (lit " ") (line_toks l).
Proof using.
  destruct l as [g r]. intros [Vg Vr] R (p & t & c & rest & -> & Hc & Hr). cbn [fst snd] in *. unfold expand_pairs. cbn [flat_map inner_of]. rewrite app_nil_r.
  rewrite (ec_segment g c Vg) by (try exact Hc; destruct r as [|[]]; apply R). rewrite (ec_rest r g rest Vr R Hr). reflexivity.
Qed.

(** ** the line those tokens type *)
Definition spaced (t : str) (c : cmdline) : cmdline := CmdLine (lead c) (name c) (items c) t.
(** typed with a blank before it and nothing after it *)
Definition typed_as (ts : list str) (c : cmdline) : Prop :=
  flat ts = typed_cmd c /\ valid_cmd c /\ lead c = [32%N] /\ trail c = [].
Definition nitem (i : item) : item :=
  match i with Arg _ w => Arg [32%N] (nword w) | Redir _ d _ f => Redir [32%N] d [32%N] (tilde_text home (plain_word f)) end.
Lemma file_ordinary f : f <> [] -> forallb ordinary f = true -> tame_word home var (plain_word f) ->
  tilde_text home (plain_word f) = value home var (plain_word f) /\ value home var (plain_word f) <> [] /\ forallb ordinary (value home var (plain_word f)) = true.
Proof using.
  intros N O [_ T]. pose proof (typed_plain f []) as P. rewrite app_nil_r in P. cbn [typed_word flat_map] in P. rewrite app_nil_r in P.
  cbn [tilde_text value plain_word] in *. destruct (tilde_word _) as [r|] eqn:E; [|split; [rewrite snd_plain; exact P|rewrite snd_plain; auto]].
  destruct home as [h|]; [|split; [rewrite snd_plain; exact P|rewrite snd_plain; auto]].
  destruct f as [|c f]; [congruence|]. cbn [map tilde_word] in E. destruct (c =? 126)%N; [|discriminate].
  assert (Er : r = map (fun c => (false, c)) f) by (destruct f as [|d f]; cbn [map negb andb] in E; [injection E as <-; reflexivity|destruct (d =? 47)%N; [injection E as <-; reflexivity|discriminate]]). subst r.
  rewrite snd_plain. pose proof (typed_plain f []) as P'. rewrite app_nil_r in P'. rewrite P'. cbn [typed_word flat_map]. rewrite app_nil_r.
  destruct T as [Nh Oh]. split; [reflexivity|]. split; [destruct h; [congruence|discriminate]|]. rewrite forallb_app, Oh. cbn [forallb] in O. apply andb_true_iff in O as [_ O]. exact O.
Qed.
Hypothesis no_op : forall o, In o operators -> var o = None.
Lemma vt_dir d : vt (typed_direction d) = typed_direction d.
Proof using no_op. unfold var_text. rewrite no_op; [reflexivity|]. destruct d; cbn; auto 10. Qed.
Lemma nitem_facts i : valid_item i -> tame_item home var i ->
  flat (map vt (item_toks i)) = typed_item (nitem i) /\ valid_item (nitem i) /\
  item_args [nitem i] = item_args [item_value home var i] /\ item_redirs [nitem i] = item_redirs [item_value home var i].
Proof using no_op.
  destruct i as [g w|g d h f]; intros V T.
  - destruct V as (_ & _ & V). destruct (nword_facts w V T) as (E1 & E2 & E3). cbn [item_toks map flat flat_map nitem typed_item app item_args item_redirs item_value].
    rewrite E1, E2, app_nil_r. split; [reflexivity|]. split; [split; [reflexivity|split; [left; discriminate|exact E3]]|]. rewrite snd_literal. auto.
  - destruct V as (_ & _ & _ & Nf & Of). cbn [tame_item] in T. destruct (file_ordinary f Nf Of T) as (E1 & E2 & E3).
    cbn [item_toks map flat flat_map nitem typed_item app item_args item_redirs item_value]. rewrite vt_dir, E1.
    split; [|split; [split; [reflexivity|split; [discriminate|split; [reflexivity|split; [exact E2|exact E3]]]]|split; reflexivity]].
    rewrite app_nil_r. f_equal. f_equal. f_equal. destruct T as [T _]. unfold var_text. cbn [tilde_text] in T, E1. rewrite <- E1, T. reflexivity.
Qed.
Lemma nitems_facts its : Forall valid_item its -> Forall (tame_item home var) its ->
  flat (map vt (flat_map item_toks its)) = flat_map typed_item (map nitem its) /\ Forall valid_item (map nitem its) /\
  item_args (map nitem its) = item_args (map (item_value home var) its) /\ item_redirs (map nitem its) = item_redirs (map (item_value home var) its).
Proof using no_op.
  induction its as [|i its IH]; intros V T; [repeat split; constructor|]. inversion V; inversion T; subst.
  destruct (nitem_facts i) as (A & B & C & D); [assumption..|]. destruct IH as (A' & B' & C' & D'); [assumption..|].
  cbn [flat_map map]. rewrite map_app, flat_app, A, A'. split; [reflexivity|]. split; [constructor; assumption|].
  unfold item_args, item_redirs in *. cbn [flat_map] in *. rewrite !app_nil_r in *. rewrite C, C', D, D'. auto.
Qed.
Lemma argv_args c : argv c = meaning (name c) :: item_args (items c).
Proof using. reflexivity. Qed.
Lemma redirections_items c : redirections c = item_redirs (items c).
Proof using. reflexivity. Qed.
Lemma value_tilde l : forallb (fun bc : bool * char => negb (fst bc)) l = true -> value home var (Bare l) = tilde_text home (Bare l).
Proof using.
  assert (P : forall l, forallb (fun bc : bool * char => negb (fst bc)) l = true -> typed_word (Bare l) = map snd l).
  { clear. induction l as [|[[] c] l IH]; cbn [forallb fst negb andb]; intros H; [reflexivity|discriminate|]. cbn [map snd]. rewrite <- IH by exact H. reflexivity. }
  intros H. cbn [value tilde_text]. destruct (tilde_word l) as [r|] eqn:E; [|symmetry; apply P, H]. destruct home as [h|]; [|symmetry; apply P, H]. f_equal. symmetry. apply P.
  destruct l as [|[[] c] l]; try discriminate. cbn [tilde_word] in E. destruct (c =? 126)%N; [|discriminate]. cbn [forallb fst negb andb] in H.
  destruct l as [|[b d] l]; [injection E as <-; reflexivity|]. destruct (negb b && (d =? 47)%N); [|discriminate]. injection E as <-. exact H.
Qed.
Lemma ncmd c c' : valid_cmd c -> tame_cmd home alias var c -> cmd_value home alias var c c' ->
  exists nc, typed_as (vcmd c) nc /\ same_cmd nc c'.
Proof using no_op.
  intros (_ & _ & Vn & Vi) [Tn Ti] H. destruct (nitems_facts (items c) Vi Ti) as (A & B & C & D). unfold tame_name in Tn.
  destruct H as [E|a w its E Ea Vw Vits]; rewrite E in Tn.
  - destruct Tn as (T & As & Tr). destruct (nword_facts _ Vn T) as (W1 & W2 & W3).
    exists (CmdLine [32%N] (nword (name c)) (map nitem (items c)) []). split.
    + split; [|split; [repeat split; assumption|split; reflexivity]]. unfold vcmd, cmd_toks, head_tok. rewrite As, Tr. cbn [map flat flat_map]. fold (flat (map vt (flat_map item_toks (items c)))).
      rewrite A, <- W1. unfold typed_cmd. cbn [lead name items trail app]. rewrite app_nil_r. reflexivity.
    + unfold same_cmd. rewrite !argv_args, !redirections_items. cbn [name items]. rewrite W2, snd_literal, C, D. split; reflexivity.
  - exists (CmdLine [32%N] w (its ++ map nitem (items c)) []). split.
    + split; [|split; [repeat split; try assumption; apply Forall_app; split; assumption|split; reflexivity]].
      assert (As : assoc (tilde_text home (name c)) alias = Some a).
      { unfold alias_of in E. destruct (name c) as [l| | |]; try discriminate. destruct (forallb _ l) eqn:Fl; [|discriminate]. rewrite (value_tilde l Fl) in E. exact E. }
      unfold vcmd, cmd_toks, head_tok. rewrite As. cbn [map flat flat_map]. fold (flat (map vt (flat_map item_toks (items c)))).
      rewrite A. unfold typed_cmd. cbn [lead name items trail app]. rewrite app_nil_r, flat_map_app. unfold var_text at 1. rewrite Tn, Ea, <- app_assoc. reflexivity.
    + unfold same_cmd. rewrite !argv_args, !redirections_items. cbn [name items]. unfold item_args, item_redirs in *. rewrite !flat_map_app, C, D. split; reflexivity.
Qed.
Lemma spaced_text t c : trail c = [] -> typed_cmd (spaced t c) = typed_cmd c ++ t.
Proof using. intros E. unfold typed_cmd, spaced. cbn [lead name items trail]. rewrite E, app_nil_r, <- !app_assoc. reflexivity. Qed.
Lemma spaced_same t c d : same_cmd c d -> same_cmd (spaced t c) d.
Proof using. exact (fun H => H). Qed.
Lemma spaced_valid t c : gap t -> valid_cmd c -> valid_cmd (spaced t c).
Proof using. intros G (A & _ & B & C). repeat split; assumption. Qed.

Definition good_cmds (cs : list cmdline) : Prop := Forall (fun c => valid_cmd c /\ lead c = [32%N]) cs.
Lemma nbgs cs cs' : Forall valid_cmd cs -> Forall (tame_cmd home alias var) cs -> Forall2 (cmd_value home alias var) cs cs' ->
  exists ns, flat (flat_map (fun c => vcmd c ++ [lit "&"]) cs) = flat_map (fun c => typed_cmd c ++ lit "&") ns /\ good_cmds ns /\ Forall2 same_cmd ns cs'.
Proof using no_op.
  intros V T F. revert V T. induction F as [|c c' cs cs' H F IH]; intros V T; [exists []; repeat constructor|].
  inversion V; inversion T; subst. destruct IH as (ns & E & G & S); [assumption..|]. destruct (ncmd c c') as (n & (E1 & V1 & L1 & T1) & S1); [assumption..|].
  exists (spaced [32%N] n :: ns). split; [|split; [constructor; [split; [apply spaced_valid; [reflexivity|exact V1]|exact L1]|exact G]|constructor; assumption]].
  cbn [flat_map]. rewrite !flat_app, E, E1, (spaced_text _ _ T1), <- !app_assoc. reflexivity.
Qed.
Fixpoint npipe (t : str) (l : list cmdline) : list cmdline :=
  match l with [] => [] | [c] => [spaced t c] | c :: r => spaced [32%N] c :: npipe t r end.
Lemma npipes t cs cs' : gap t -> Forall valid_cmd cs -> Forall (tame_cmd home alias var) cs -> Forall2 (cmd_value home alias var) cs cs' ->
  forall c c', valid_cmd c -> tame_cmd home alias var c -> cmd_value home alias var c c' ->
  exists ns, flat (vcmd c ++ pipe_toks cs) ++ t = join_with (lit "|") (map typed_cmd ns) /\ good_cmds ns /\ ns <> [] /\ Forall2 same_cmd ns (c' :: cs').
Proof using no_op.
  intros G V T F. revert V T. induction F as [|d d' cs cs' H F IH]; intros V T c c' Vc Tc Hc.
  - destruct (ncmd c c' Vc Tc Hc) as (n & (E1 & V1 & L1 & T1) & S1). exists [spaced t n]. rewrite app_nil_r, E1.
    split; [symmetry; apply spaced_text, T1|]. split; [constructor; [split; [apply spaced_valid; assumption|exact L1]|constructor]|]. split; [discriminate|constructor; [exact S1|constructor]].
  - inversion V; inversion T; subst. destruct (IH ltac:(assumption) ltac:(assumption) d d') as (ns & E & Gn & Nn & S); [assumption..|].
    destruct (ncmd c c' Vc Tc Hc) as (n & (E1 & V1 & L1 & T1) & S1). exists (spaced [32%N] n :: ns).
    split; [|split; [constructor; [split; [apply spaced_valid; [reflexivity|exact V1]|exact L1]|exact Gn]|split; [discriminate|constructor; assumption]]].
    cbn [pipe_toks flat_map]. fold (pipe_toks cs). change (lit "|" :: vcmd d) with ([lit "|"] ++ vcmd d). rewrite <- app_assoc, !flat_app, E1, <- app_assoc, <- app_assoc.
    rewrite flat_app in E. rewrite E. cbn [map]. destruct ns as [|m ns]; [congruence|]. cbn [map join_with]. rewrite (spaced_text _ _ T1), <- app_assoc. reflexivity.
Qed.
(** [t]: a blank when a separator follows *)
Lemma nseg t g g' : gap t -> (pipe g = [] -> t = []) -> valid_segment g -> Forall (tame_cmd home alias var) (bgs g ++ pipe g) -> seg_value home alias var g g' ->
  exists ng, flat (seg_toks g) ++ t = typed_segment ng /\ valid_segment ng /\ same_seg ng g' /\ lead_of ng = [32%N] /\ (pipe ng = [] <-> pipe g = []).
Proof using no_op.
  intros G Pt (V & N & _) T [Fb Fp]. apply Forall_app in V as [Vb Vp]. apply Forall_app in T as [Tb Tp].
  destruct (nbgs _ _ Vb Tb Fb) as (nb & Eb & Gb & Sb). unfold seg_toks.
  assert (exists np, match pipe g with [] => [] | c :: cs => flat (vcmd c ++ pipe_toks cs) end ++ t = join_with (lit "|") (map typed_cmd np) /\ good_cmds np /\ Forall2 same_cmd np (pipe g') /\ (np = [] <-> pipe g = [])) as (np & Ep & Gp & Sp & Np).
  { destruct (pipe g) as [|c cs]; inversion Fp as [|? c' ? cs' Hc Fcs]; subst; [exists []; rewrite Pt by reflexivity; repeat split; auto; constructor|].
    inversion Vp; inversion Tp; subst. destruct (npipes t cs cs' G ltac:(assumption) ltac:(assumption) Fcs c c') as (np & E & Gn & Nn & S); [assumption..|].
    exists np. split; [exact E|]. split; [exact Gn|]. split; [exact S|]. split; intros; congruence. }
  exists (Segment nb np). split; [|split; [|split; [split; assumption|split; [|exact Np]]]].
  - unfold typed_segment. cbn [bgs pipe]. rewrite flat_app, Eb, <- Ep, <- app_assoc. f_equal. f_equal. destruct (pipe g); reflexivity.
  - split; [apply Forall_app; split; eapply Forall_impl; try eassumption; intros c Hc; apply Hc|]. cbn [bgs pipe]. split.
    + intros Q. apply app_eq_nil in Q as [-> Q]. apply Np in Q. apply f2_nil_l in Sb. rewrite Sb in Fb. apply f2_nil_r in Fb. rewrite Q, Fb in N. apply N. reflexivity.
    + destruct np as [|c np]; [constructor|]. inversion Gp; subst. cbn [tl]. eapply Forall_impl; [|eassumption]. intros d [_ ->]. discriminate.
  - unfold lead_of. cbn [bgs pipe]. destruct nb as [|c nb]; [destruct np as [|c np]|].
    + exfalso. apply f2_nil_l in Sb. rewrite Sb in Fb. apply f2_nil_r in Fb. rewrite Fb, (proj1 Np eq_refl) in N. apply N. reflexivity.
    + inversion Gp as [|? ? [_ L] _]; subst. exact L.
    + inversion Gb as [|? ? [_ L] _]; subst. exact L.
Qed.
Lemma nrest r : forall r' g, valid_rest g r -> regular g r -> Forall (tame_cmd home alias var) (flat_map (fun sg : separator * segment => bgs (snd sg) ++ pipe (snd sg)) r) ->
  Forall2 (fun sg sg' : separator * segment => fst sg = fst sg' /\ seg_value home alias var (snd sg) (snd sg')) r r' ->
  exists nr, flat (rest_toks r) = (match r with [] => [] | _ => [32%N] end) ++ rest_text nr /\ same_rest nr r' /\ (forall ng, (pipe ng = [] <-> pipe g = []) -> valid_rest ng nr).
Proof using no_op.
  induction r as [|[s g'] r IH]; intros r' g V R T F; inversion F as [|? [s0 h] ? hs [Es Sg] Fr]; subst; [exists []; repeat split; constructor|].
  cbn [fst snd] in *. subst s0. destruct V as (Vg & Hs & Vr). cbn [regular] in R. destruct R as (_ & Np & R). cbn [flat_map snd] in T. apply Forall_app in T as [Tg Tr].
  destruct (IH hs g' Vr R Tr Fr) as (nr & E & S & Vn).
  destruct (nseg (match r with [] => [] | _ => [32%N] end) g' h) as (ng & Eg & Vng & Sng & Lng & Png); try assumption.
  { destruct r; reflexivity. } { intros Q. destruct r as [|[]]; [reflexivity|]. exfalso. cbn [regular] in R. apply (proj1 (proj2 R)), Q. }
  exists ((s, ng) :: nr). split; [|split; [constructor; [split; [reflexivity|exact Sng]|exact S]|]].
  - unfold rest_toks. cbn [flat_map fst snd]. fold (rest_toks r). change (typed_sep s :: seg_toks g') with ([typed_sep s] ++ seg_toks g'). rewrite <- app_assoc, !flat_app, E.
    cbn [rest_text flat_map fst snd]. fold (rest_text nr). rewrite <- Eg. cbn [flat flat_map]. rewrite app_nil_r, <- !app_assoc. reflexivity.
  - intros ng' Q. cbn [valid_rest]. split; [exact Vng|]. split; [intros Q'; exfalso; apply Np, Q, Q'|apply Vn, Png].
Qed.
Lemma nline l l' : valid_line l -> Forall (tame_cmd home alias var) (all_commands l) -> regular (fst l) (snd l) -> line_value home alias var l l' ->
  exists nl, join_with (lit " ") (line_toks l) = typed_line nl /\ valid_line nl /\ same_seg (fst nl) (fst l') /\ same_rest (snd nl) (snd l').
Proof using no_op.
  destruct l as [g r], l' as [g' r']. intros [Vg Vr] T R [Hg Hr]. cbn [fst snd] in *. unfold all_commands in T. cbn [fst snd] in T. rewrite app_assoc in T. apply Forall_app in T as [Tg Tr].
  destruct (nrest r r' g Vr R Tr Hr) as (nr & E & S & Vn).
  destruct (nseg (match r with [] => [] | _ => [32%N] end) g g') as (ng & Eg & Vng & Sng & Lng & Png); try assumption.
  { destruct r; reflexivity. } { intros Q. destruct r as [|[]]; [reflexivity|]. exfalso. cbn [regular] in R. apply (proj1 (proj2 R)), Q. }
  exists (unlead ng, nr). split; [|split; [split; [apply unlead_valid, Vng|apply Vn; cbn [fst]; rewrite unlead_pipe; exact Png]|split; [|exact S]]].
  - assert (Q : flat (line_toks (g, r)) = 32%N :: typed_line (unlead ng, nr)).
    { unfold line_toks, typed_line. cbn [fst snd]. fold (rest_text nr). rewrite flat_app, E, app_assoc. etransitivity; [apply (f_equal (fun x => x ++ rest_text nr) Eg)|]. rewrite (unlead_text ng), Lng. reflexivity. }
    assert (N : line_toks (g, r) <> []) by (intros N; rewrite N in Q; discriminate). rewrite (flat_join _ N) in Q. injection Q as ->. reflexivity.
  - cbn [fst]. unfold unlead. destruct Sng as [S1 S2]. destruct (bgs ng) as [|c cs] eqn:Eb; [destruct (pipe ng) as [|c cs] eqn:Ep|]; (split; cbn [bgs pipe]; [|]); rewrite ?Eb, ?Ep in *; try assumption.
    + inversion S2; subst. constructor; assumption.
    + inversion S1; subst. constructor; assumption.
Qed.

(** ** lines that need no expansion *)
Notation nd := (needed alias).
Definition quiet_word (w : word) : Prop := has 126%N (typed_word w) || has 36%N (typed_word w) = false.
Definition quiet_item (i : item) : Prop := match i with Arg _ w => quiet_word w | Redir _ _ _ f => quiet_word (plain_word f) end.
Definition quiet_cmd (c : cmdline) : Prop := quiet_word (name c) /\ Forall quiet_item (items c) /\ assoc (meaning (name c)) alias = None.
Lemma quiet_value w : quiet_word w -> value home var w = meaning w.
Proof using.
  unfold quiet_word. destruct w as [l|t|t|n]; intros Q; try reflexivity.
  - cbn [value meaning]. destruct l as [|[[] c] l]; try reflexivity. cbn [tilde_word]. destruct (N.eqb_spec c 126) as [-> |]; [|reflexivity]. discriminate Q.
  - cbn [typed_word] in Q. apply orb_false_iff in Q as [_ Q]. discriminate Q.
Qed.
Lemma quiet_same c c' : quiet_cmd c -> cmd_value home alias var c c' -> same_cmd c c'.
Proof using.
  intros (Qn & Qi & A) H. destruct H as [E|a w its E]; [|exfalso; unfold alias_of in E; destruct (name c) as [l| | |]; try discriminate; destruct (forallb _ l); [|discriminate];
    rewrite (quiet_value _ Qn) in E; cbn [meaning] in *; congruence].
  unfold same_cmd. rewrite !argv_args, !redirections_items. cbn [name items]. rewrite snd_literal, (quiet_value _ Qn).
  assert (F : item_args (items c) = item_args (map (item_value home var) (items c)) /\ item_redirs (items c) = item_redirs (map (item_value home var) (items c))).
  { clear -Qi. induction Qi as [|i its Q Qi IH]; [split; reflexivity|]. destruct IH as [I1 I2]. unfold item_args, item_redirs in *. cbn [flat_map map]. rewrite I1, I2.
    destruct i as [g w|g d h f]; cbn [item_value quiet_item] in *; [rewrite snd_literal, (quiet_value _ Q); split; reflexivity|].
    rewrite (quiet_value _ Q). cbn [meaning plain_word]. rewrite snd_plain. split; reflexivity. }
  destruct F as [-> ->]. split; reflexivity.
Qed.
Lemma quiet_span w n : span_node w n -> nd n = false -> quiet_word w.
Proof using.
  intros (p & q & -> & [R T] & _). destruct q as [r p' t k]. cbn [rule_of text_of] in *. subst r t. unfold quiet_word.
  destruct w; cbn [word_rule needed]; rewrite orb_false_r; exact (fun H => H).
Qed.
Lemma needed_in r p t inner n : In n inner -> nd (Node r p t inner) = false ->
  match r with glob_word | brace_word | Grammar_Model.word | variable | s_quoted | d_quoted => True | _ => nd n = false end.
Proof using.
  intros I. assert (A : (fix any (l : list pair_) : bool := match l with [] => false | q :: l' => nd q || any l' end) inner = false -> nd n = false).
  { induction inner as [|q l IH]; [destruct I|]. intros H. apply orb_false_iff in H as [H1 H2]. destruct I as [-> | I]; [exact H1|apply IH; assumption]. }
  destruct r; try (intros _; exact I0); try exact A; try (intros _; exact Logic.I).
  cbn [needed]. intros H. apply orb_false_iff in H as [_ H]. exact (A H).
Qed.
Lemma quiet_items its inner : Forall2 item_node its inner -> (forall n, In n inner -> nd n = false) -> Forall quiet_item its.
Proof using.
  induction 1 as [|i n its inner H F IH]; intros N; constructor; [|apply IH; intros; apply N; right; assumption].
  assert (Nn : nd n = false) by (apply N; left; reflexivity). destruct i as [g w|g d h f]; cbn [item_node quiet_item] in *; [exact (quiet_span w n H Nn)|].
  destruct H as (p & t & dn & sn & -> & _ & S & _). apply (quiet_span _ sn S). apply (needed_in redirect p t [dn; sn] sn) in Nn; [exact Nn|right; left; reflexivity].
Qed.
Lemma quiet_simple c n : simple_node (name c) (items c) n -> nd n = false -> quiet_cmd c.
Proof using.
  intros (p & t & p0 & t0 & s & ns & -> & S & A) N.
  pose proof (needed_in _ _ _ _ _ (in_eq _ _) N) as N0. cbv beta iota in N0.
  split; [|split].
  - apply (quiet_span _ s S). exact (needed_in _ _ _ _ _ (in_eq _ _) N0).
  - destruct A as [[-> ->] | (p1 & t1 & inner & -> & F)]; [constructor|]. apply (quiet_items _ inner F). intros m I.
    assert (N1 : nd (Node args p1 t1 inner) = false) by exact (needed_in _ _ _ _ _ (in_cons _ _ _ (in_eq _ _)) N).
    exact (needed_in _ _ _ _ _ I N1).
  - destruct S as (p2 & q & -> & _ & G). cbn [needed get_string] in N0. rewrite G in N0. destruct (assoc (meaning (name c)) alias); [discriminate N0|reflexivity].
Qed.
Lemma quiet_segment g n : command_node g n -> nd n = false -> Forall quiet_cmd (bgs g ++ pipe g).
Proof using.
  intros (p & inner & -> & b & f & q & -> & Hb & Hf & Hp) N.
  assert (NI : forall m, In m (b ++ f ++ q) -> nd m = false) by (intros m I; exact (needed_in _ _ _ _ _ I N)). apply Forall_app. split.
  - clear -Hb NI. assert (NI' : forall m, In m b -> nd m = false) by (intros m I; apply NI, in_or_app; left; exact I). clear NI. induction Hb as [|c n cs ns H F IH]; constructor.
    + destruct H as (? & s & ? & ? & -> & S). apply (quiet_simple c s S). exact (needed_in _ _ _ _ _ (in_eq _ _) (NI' _ (in_eq _ _))).
    + apply IH. intros m I. apply NI'. right. exact I.
  - rewrite <- (firstn_skipn 1 (pipe g)). apply Forall_app. split.
    + assert (NI' : forall m, In m f -> nd m = false) by (intros m I; apply NI, in_or_app; right; apply in_or_app; left; exact I). clear -Hf NI'. induction Hf as [|c n cs ns H F IH]; constructor.
      * apply (quiet_simple c n H), NI'. left. reflexivity.
      * apply IH. intros m I. apply NI'. right. exact I.
    + assert (NI' : forall m, In m q -> nd m = false) by (intros m I; apply NI, in_or_app; right; apply in_or_app; right; exact I). clear -Hp NI'. induction Hp as [|c n cs ns H F IH]; constructor.
      * destruct H as (? & ? & o & s & -> & _ & S). apply (quiet_simple c s S). exact (needed_in _ _ _ _ _ (in_cons _ _ _ (in_eq _ _)) (NI' _ (in_eq _ _))).
      * apply IH. intros m I. apply NI'. right. exact I.
Qed.
Lemma quiet_line l n : line_node l n -> nd n = false -> Forall quiet_cmd (all_commands l).
Proof using.
  destruct l as [g r]. intros (p & t & c & rest & -> & Hc & Hr) N. cbn [fst snd] in *. unfold all_commands. cbn [fst snd]. rewrite app_assoc. apply Forall_app. split.
  - apply (quiet_segment g c Hc). exact (needed_in _ _ _ _ _ (in_eq _ _) N).
  - assert (NI : forall m, In m rest -> nd m = false) by (intros m I; exact (needed_in _ _ _ _ _ (in_cons _ _ _ I) N)). clear -Hr NI. revert rest Hr NI.
    induction r as [|[s g] r IH]; intros rest Hr NI; [constructor|]. destruct Hr as (a & b & l & -> & _ & Hb & Hl). cbn [flat_map snd]. apply Forall_app. split.
    + apply (quiet_segment g b Hb), NI. right. left. reflexivity.
    + apply (IH l Hl). intros m I. apply NI. right. right. exact I.
Qed.
(** without aliases and without a tilde or a dollar sign *)
Lemma mem_false_app c a b : mem_char c (a ++ b) = false -> mem_char c a = false /\ mem_char c b = false.
Proof using. unfold mem_char. rewrite existsb_app. apply orb_false_iff. Qed.
Lemma plain_typed f : typed_word (plain_word f) = f.
Proof using. pose proof (typed_plain f []) as P. rewrite app_nil_r in P. unfold plain_word. rewrite P. cbn [typed_word flat_map]. apply app_nil_r. Qed.
Definition clean (x : char) (c : cmdline) : Prop := mem_char x (typed_word (name c)) = false /\
  Forall (fun i => match i with Arg _ w => mem_char x (typed_word w) = false | Redir _ _ _ f => mem_char x f = false end) (items c).
Lemma clean_cmd x c : mem_char x (typed_cmd c) = false -> clean x c.
Proof using.
  unfold typed_cmd. intros H. apply mem_false_app in H as [_ H]. apply mem_false_app in H as [H1 H]. apply mem_false_app in H as [H _]. split; [exact H1|].
  induction (items c) as [|i its IH]; constructor; cbn [flat_map] in H; apply mem_false_app in H as [H2 H3]; [|apply IH, H3].
  destruct i as [g w|g d h f]; cbn [typed_item] in H2; apply mem_false_app in H2 as [_ H2]; [exact H2|]. apply mem_false_app in H2 as [_ H2]. apply mem_false_app in H2 as [_ H2]. exact H2.
Qed.
Lemma clean_segment x g : mem_char x (typed_segment g) = false -> Forall (clean x) (bgs g ++ pipe g).
Proof using.
  unfold typed_segment. intros H. apply mem_false_app in H as [H1 H2]. apply Forall_app. split.
  - induction (bgs g) as [|c cs IH]; constructor; cbn [flat_map] in H1; apply mem_false_app in H1 as [H1 H3]; [|apply IH, H3]. apply mem_false_app in H1 as [H1 _]. apply clean_cmd, H1.
  - induction (pipe g) as [|c cs IH]; constructor.
    + destruct cs as [|d cs]; [apply clean_cmd, H2|]. cbn [map join_with] in H2. apply mem_false_app in H2 as [H2 _]. apply clean_cmd, H2.
    + destruct cs as [|d cs]; [constructor|]. apply IH. change (join_with (lit "|") (map typed_cmd (c :: d :: cs))) with (typed_cmd c ++ lit "|" ++ join_with (lit "|") (map typed_cmd (d :: cs))) in H2.
      apply mem_false_app in H2 as [_ H2]. apply mem_false_app in H2 as [_ H2]. exact H2.
Qed.
Lemma clean_line x l : mem_char x (typed_line l) = false -> Forall (clean x) (all_commands l).
Proof using.
  destruct l as [g r]. unfold typed_line, all_commands. cbn [fst snd]. intros H. apply mem_false_app in H as [H1 H2]. rewrite app_assoc. apply Forall_app. split; [apply clean_segment, H1|].
  induction r as [|[s h] r IH]; [constructor|]. cbn [flat_map fst snd] in *. apply mem_false_app in H2 as [H2 H3]. apply mem_false_app in H2 as [_ H2]. apply Forall_app. split; [apply clean_segment, H2|apply IH, H3].
Qed.
Lemma clean_quiet l : alias = [] -> has_meta (typed_line l) = false -> Forall quiet_cmd (all_commands l).
Proof using.
  intros A H. unfold has_meta, has in H. apply orb_false_iff in H as [H _]. apply orb_false_iff in H as [H _]. apply orb_false_iff in H as [H1 H2].
  apply clean_line in H1. apply clean_line in H2. rewrite Forall_forall in *. intros c I. specialize (H1 c I) as [N1 I1]. specialize (H2 c I) as [N2 I2].
  split; [unfold quiet_word, has; rewrite N1, N2; reflexivity|]. split; [|rewrite A; reflexivity].
  rewrite Forall_forall in *. intros i J. specialize (I1 i J). specialize (I2 i J). destruct i; cbn [quiet_item]; unfold quiet_word, has; rewrite ?plain_typed, I1, I2; reflexivity.
Qed.

Lemma quiet_lines l l' : Forall quiet_cmd (all_commands l) -> line_value home alias var l l' -> same_seg (fst l) (fst l') /\ same_rest (snd l) (snd l').
Proof using.
  destruct l as [g r], l' as [g' r']. unfold all_commands. cbn [fst snd]. rewrite app_assoc. intros Q [Hg Hr]. cbn [fst snd] in *. apply Forall_app in Q as [Qg Qr].
  assert (F : forall cs cs', Forall quiet_cmd cs -> Forall2 (cmd_value home alias var) cs cs' -> Forall2 same_cmd cs cs').
  { intros cs cs' Q H. induction H; constructor; inversion Q; subst; [apply quiet_same; assumption|auto]. }
  assert (Fs : forall h h', Forall quiet_cmd (bgs h ++ pipe h) -> seg_value home alias var h h' -> same_seg h h').
  { intros h h' Q [H1 H2]. apply Forall_app in Q as [Q1 Q2]. split; apply F; assumption. }
  split; [apply Fs; assumption|]. induction Hr as [|[s h] [s' h'] r r' [E H] Hr IH]; constructor; cbn [flat_map snd fst] in *; apply Forall_app in Qr as [Q1 Q2]; [split; [exact E|apply Fs; assumption]|apply IH, Q2].
Qed.
Variable resolve : str -> found.
Variable substitute : subshell_type -> list job -> list str.
Lemma run_same nl l' u : valid_line nl -> stop u -> same_seg (fst nl) (fst l') -> same_rest (snd nl) (snd l') -> Forall (known resolve) (all_commands l') ->
  exists js, jobs_of resolve substitute (typed_line nl ++ u) = Some js /\ map shape_of js = line_jobs resolve l'.
Proof using.
  intros V U S1 S2 K. assert (K' : Forall (known resolve) (all_commands nl)).
  { destruct nl as [g r], l' as [g' r']. pose proof (same_all _ _ _ _ S1 S2) as F. cbn [fst snd] in F. clear -F K. induction F; constructor; inversion K; subst; [eapply same_known; eassumption|auto]. }
  destruct (jobs_of_line resolve substitute nl u V U K') as (js & E & _ & M). exists js. split; [exact E|]. rewrite M. unfold line_jobs. rewrite (same_seg_jobs resolve _ _ S1). apply same_rest_jobs, S2.
Qed.
Theorem expanded_line l l' : valid_line l -> tame_line home alias var l -> line_value home alias var l l' -> Forall (known resolve) (all_commands l') ->
  exists js, get_jobs home glob alias e resolve substitute (typed_line l) = Some js /\ map shape_of js = line_jobs resolve l'.
Proof using no_op.
  intros V (T & R & _) L K. unfold get_jobs, expanded. destruct (y_line l [] V (or_introl eq_refl) 0) as (ns & E & n & -> & Hn). rewrite app_nil_r in E.
  rewrite parse_run, E. cbn [existsb]. rewrite orb_false_r.
  destruct (negb (has_meta (typed_line l)) && match alias with [] => true | _ => false end) eqn:M.
  - apply andb_true_iff in M as [M A]. apply negb_true_iff in M. assert (A' : alias = []) by (destruct alias; [reflexivity|discriminate]).
    destruct (quiet_lines l l' (clean_quiet l A' M) L) as [S1 S2]. rewrite <- (app_nil_r (typed_line l)). apply (run_same l l' [] V (or_introl eq_refl) S1 S2 K).
  - destruct (nd n) eqn:N.
    + rewrite (expand_line l n V R Hn). destruct (nline l l' V T R L) as (nl & -> & Vn & S1 & S2). rewrite <- (app_nil_r (typed_line nl)). apply (run_same nl l' [] Vn (or_introl eq_refl) S1 S2 K).
    + destruct (quiet_lines l l' (quiet_line l n Hn N) L) as [S1 S2]. rewrite <- (app_nil_r (typed_line l)). apply (run_same l l' [] V (or_introl eq_refl) S1 S2 K).
Qed.
End Expand.
