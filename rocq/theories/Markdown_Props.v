(** C156, C157 and C158: answers in Markdown on the terminal. *)
From Verif Require Import Base Numerals Lread_Model Lread_Props Markdown_Model Markdown_Spec.

(** ** the drawing as a sequence of pieces *)
Inductive piece := Open (s : str) | Inked (p a s b : str) | Mark (s : str).
Definition show (x : piece) : str := match x with Open s | Mark s => s | Inked p a s b => p ++ a ++ s ++ b ++ ansi_reset end.
Definition says (x : piece) : str := match x with Open s | Inked _ _ s _ => s | Mark _ => [] end.
Definition all_own (s : str) : Prop := forall c, In c s -> own c = true.
Definition Ink (p : str) : Prop := all_own p /\ forall on, reading p (Some (Ground, on)) = Some (Ground, true).
Definition mark_ok (s : str) : Prop := all_own s /\ ~ In 27%N s.
(** [strict]: no newline is written in colour *)
Definition piece_ok (strict : Prop) (x : piece) : Prop :=
  match x with
  | Open _ => True
  | Inked p a s b => Ink p /\ mark_ok a /\ mark_ok b /\ ~ In 10%N a /\ (strict -> ~ In 10%N s) /\ ~ In 10%N b
  | Mark s => mark_ok s
  end.
Definition Draws (Q : Prop) (d d' : drawing) (t : str) : Prop :=
  exists ps, buffer d' = buffer d ++ flat_map show ps /\ Forall (piece_ok Q) ps /\ no_newline (flat_map says ps) = no_newline t.

Lemma no_newline_app a b : no_newline (a ++ b) = no_newline a ++ no_newline b. Proof. apply filter_app. Qed.
Lemma reading_app a b st : reading (a ++ b) st = reading b (reading a st). Proof. apply fold_left_app. Qed.
Lemma all_own_app a b : all_own a -> all_own b -> all_own (a ++ b).
Proof. intros A B c I. apply in_app_or in I as [I|I]; auto. Qed.
Lemma mark_app a b : mark_ok a -> mark_ok b -> mark_ok (a ++ b).
Proof. intros [A A'] [B B']. split; [apply all_own_app; assumption|]. intros I. apply in_app_or in I as [I|I]; auto. Qed.
Lemma mark_copies n s : mark_ok s -> mark_ok (copies n s).
Proof. intros H. induction n as [|n IH]; [split; [intros c []|intros []]|]. apply mark_app; assumption. Qed.
Lemma own_all s : forallb own s = true -> all_own s.
Proof. intros H c I. rewrite forallb_forall in H. apply H, I. Qed.
Lemma mark_of s : forallb (fun c => own c && negb (c =? 27)%N) s = true -> mark_ok s.
Proof.
  intros H. rewrite forallb_forall in H. split; intros c; [intros I; apply H in I; apply andb_prop in I as [I _]; exact I|].
  apply H in c. vm_compute in c. discriminate.
Qed.
Lemma ink_app a b : Ink a -> Ink b -> Ink (a ++ b).
Proof. intros [A A'] [B B']. split; [apply all_own_app; assumption|]. intros on. rewrite reading_app, A'. apply B'. Qed.
Lemma ink_of s : forallb own s = true -> reading s (Some (Ground, true)) = Some (Ground, true) -> reading s (Some (Ground, false)) = Some (Ground, true) -> Ink s.
Proof. intros A B C. split; [apply own_all, A|]. intros [|]; assumption. Qed.
Ltac ink := apply ink_of; vm_compute; reflexivity.
Lemma ink_heading l : Ink (heading_color l). Proof. unfold heading_color. destruct l as [|[|[|[|[|l]]]]]; ink. Qed.
Lemma ink_bold : Ink ansi_bold. Proof. ink. Qed.
Lemma ink_italic : Ink ansi_italic. Proof. ink. Qed.
Lemma ink_strike : Ink ansi_strike. Proof. ink. Qed.
Lemma ink_dim : Ink ansi_dim. Proof. ink. Qed.
Lemma ink_underline : Ink ansi_underline. Proof. ink. Qed.
Lemma ink_code : Ink color_inline_code. Proof. ink. Qed.
Lemma ink_block : Ink color_block. Proof. ink. Qed.
Lemma ink_quote : Ink color_quote. Proof. ink. Qed.
Lemma ink_link : Ink color_link. Proof. ink. Qed.
Lemma ink_marker : Ink color_marker. Proof. ink. Qed.
Definition ink_or (p : str) : Prop := p = [] \/ Ink p.
Lemma ink_or_app a b : ink_or a -> ink_or b -> ink_or (a ++ b).
Proof. intros [-> |A] B; [exact B|]. destruct B as [-> |B]; [rewrite app_nil_r; right; exact A|]. right. apply ink_app; assumption. Qed.
Lemma ink_if (b : bool) p : Ink p -> ink_or (if b then p else []).
Proof. intros H. destruct b; [right; exact H|left; reflexivity]. Qed.
Lemma ink_style f : ink_or (style_prefix f).
Proof.
  unfold style_prefix. apply ink_or_app; [|repeat apply ink_or_app; apply ink_if; try apply ink_app; auto using ink_strike, ink_code, ink_link, ink_underline, ink_quote].
  destruct (heading f) as [l|]; [|apply ink_or_app; apply ink_if; auto using ink_bold, ink_italic].
  apply ink_or_app; [right; apply ink_heading|]. apply ink_or_app; [right; apply ink_bold|]. apply ink_if, ink_underline.
Qed.

Section Draws.
Context (Q : Prop).
Notation Draws := (Draws Q).
Notation piece_ok := (piece_ok Q).
Lemma draws_same d d' : buffer d' = buffer d -> Draws d d' [].
Proof. intros E. exists []. split; [cbn; rewrite app_nil_r; exact E|]. split; [constructor|reflexivity]. Qed.
Lemma draws_one d d' x : piece_ok x -> buffer d' = buffer d ++ show x -> Draws d d' (says x).
Proof.
  intros P E. exists [x]. split; [cbn; rewrite app_nil_r; exact E|]. split; [constructor; [exact P|constructor]|cbn; rewrite app_nil_r; reflexivity].
Qed.
Lemma draws_mark d d' s : mark_ok s -> buffer d' = buffer d ++ s -> Draws d d' [].
Proof. intros P E. apply (draws_one d d' (Mark s)); [exact P|exact E]. Qed.
Lemma draws_trans d d1 d2 t u : Draws d d1 t -> Draws d1 d2 u -> Draws d d2 (t ++ u).
Proof.
  intros (ps & A & B & C) (qs & A' & B' & C'). exists (ps ++ qs). split; [|split].
  - rewrite A', A, <- app_assoc, flat_map_app. reflexivity.
  - apply Forall_app. split; assumption.
  - rewrite flat_map_app, !no_newline_app, C, C'. reflexivity.
Qed.
Lemma draws_trans' d d1 d2 t : Draws d d1 [] -> Draws d1 d2 t -> Draws d d2 t.
Proof. apply (draws_trans d d1 d2 [] t). Qed.
Lemma draws_trans0 d d1 d2 t : Draws d d1 t -> Draws d1 d2 [] -> Draws d d2 t.
Proof. intros A B. rewrite <- (app_nil_r t). exact (draws_trans d d1 d2 t [] A B). Qed.
Lemma draws_said d d' t u : Draws d d' t -> no_newline t = no_newline u -> Draws d d' u.
Proof. intros (ps & A & B & C) E. exists ps. rewrite <- E. auto. Qed.

Lemma newline_mark : mark_ok [10%N]. Proof. apply mark_of. reflexivity. Qed.
Lemma draws_flush d : Draws d (flush_newlines d) [].
Proof.
  unfold flush_newlines. destruct (pending d) as [|n] eqn:E; [apply draws_same; reflexivity|].
  destruct (buffer d) as [|c b] eqn:B; [apply draws_same; rewrite B; reflexivity|].
  apply draws_mark with (s := copies (S n) [10%N]); [apply mark_copies, newline_mark|]. rewrite B. reflexivity.
Qed.
Lemma prefix_mark d : mark_ok (quote_prefix d).
Proof. apply mark_copies, mark_of. reflexivity. Qed.
Lemma draws_prepare d : Draws d (prepare_line d) [].
Proof.
  unfold prepare_line. eapply draws_trans'; [apply draws_flush|]. destruct (line_start (flush_newlines d)); [|apply draws_same; reflexivity].
  assert (P := prefix_mark (flush_newlines d)). destruct (quote_prefix (flush_newlines d)) as [|c p]; [apply draws_same; reflexivity|].
  eapply draws_mark; [exact P|reflexivity].
Qed.
Lemma draws_write t f d : (Q -> ~ In 10%N t) -> Draws d (write_styled t f d) t.
Proof.
  intros L. unfold write_styled. destruct t as [|c t]; [apply draws_same; reflexivity|].
  assert (I := ink_style f). destruct (style_prefix f) as [|k p] eqn:E.
  - apply (draws_one _ _ (Open (c :: t))); [exact Logic.I|]. cbn [buffer written at_start push app show]. rewrite app_nil_r. reflexivity.
  - destruct I as [I|I]; [discriminate|]. apply (draws_one _ _ (Inked (k :: p) [] (c :: t) [])).
    + split; [exact I|]. split; [split; [intros x []|intros []]|]. split; [split; [intros x []|intros []]|]. split; [intros []|]. split; [exact L|intros []].
    + reflexivity.
Qed.
Lemma nl_head l r : r <> [] -> no_newline (join_with [10%N] (l :: r)) = no_newline l ++ no_newline (join_with [10%N] r).
Proof. intros H. destruct r as [|x r]; [contradiction|]. change (join_with [10%N] (l :: x :: r)) with (l ++ [10%N] ++ join_with [10%N] (x :: r)). rewrite !no_newline_app. reflexivity. Qed.
Lemma draws_lines f ls : forall d, (forall l, In l ls -> ~ In 10%N l) -> Draws d (text_lines f ls d) (join_with [10%N] ls).
Proof.
  induction ls as [|l r IH]; intros d H; [apply draws_same; reflexivity|]. destruct r as [|l' r].
  - cbn [text_lines join_with]. apply draws_write. intros _. apply H. left. reflexivity.
  - change (text_lines f (l :: l' :: r) d) with (text_lines f (l' :: r) (prepare_line (at_start true (push [10%N] (write_styled l f d))))).
    eapply draws_said with (t := l ++ join_with [10%N] (l' :: r)).
    + eapply draws_trans; [|apply IH; intros x X; apply H; right; exact X]. eapply draws_trans0; [apply draws_write; intros _; apply H; left; reflexivity|].
      eapply draws_trans'; [|apply draws_prepare]. eapply draws_mark; [exact newline_mark|reflexivity].
    + rewrite nl_head by discriminate. apply no_newline_app.
Qed.
Lemma draws_code_lines q i ls : forall d d', mark_ok (q ++ i) -> (forall l, In l ls -> ~ In 10%N l) ->
  buffer d' = buffer d ++ join_with [10%N] (map (code_line q i) ls) -> Draws d d' (join_with [10%N] ls).
Proof.
  assert (One : forall l d d', mark_ok (q ++ i) -> ~ In 10%N l -> buffer d' = buffer d ++ code_line q i l -> Draws d d' l).
  { intros l d d' M L E. eapply draws_trans' with (d1 := push (q ++ i) d); [eapply draws_mark; [exact M|reflexivity]|].
    apply (draws_one _ _ (Inked color_block [32%N] l [32%N])).
    - split; [exact ink_block|]. split; [apply mark_of; reflexivity|]. split; [apply mark_of; reflexivity|]. split; [intros [X|[]]; discriminate|]. split; [intros _; exact L|intros [X|[]]; discriminate].
    - rewrite E. unfold code_line, push. cbn [buffer show]. rewrite <- !app_assoc. reflexivity. }
  induction ls as [|l r IH]; intros d d' M H E; [apply draws_same; rewrite E; apply app_nil_r|]. destruct r as [|l' r].
  - apply (One l); [exact M|apply H; left; reflexivity|exact E].
  - eapply draws_said with (t := l ++ join_with [10%N] (l' :: r)).
    + eapply draws_trans with (d1 := push (code_line q i l) d); [apply One; [exact M|apply H; left; reflexivity|reflexivity]|].
      eapply draws_trans' with (d1 := push [10%N] (push (code_line q i l) d)); [eapply draws_mark; [exact newline_mark|reflexivity]|].
      apply IH; [exact M|intros x X; apply H; right; exact X|]. rewrite E. cbn [push buffer]. rewrite <- !app_assoc. reflexivity.
    + rewrite nl_head by discriminate. apply no_newline_app.
Qed.
Lemma buffer_want n d : buffer (want n d) = buffer d. Proof. unfold want. destruct (wrote d); reflexivity. Qed.
Lemma draws_code t d : Draws d (push_code_block_text t d) t.
Proof.
  unfold push_code_block_text. eapply draws_trans'; [apply draws_flush|]. rewrite <- (split_on_join 10%N t) at 2. eapply draws_code_lines.
  3:{ unfold ensure_newline. rewrite buffer_want. reflexivity. }
  - apply mark_app; [apply prefix_mark|]. apply mark_copies, mark_of. reflexivity.
  - intros l I. exact (split_on_no_sep _ _ _ I).
Qed.
Lemma draws_text t d : Draws d (push_text t d) t.
Proof.
  unfold push_text. destruct t as [|c t]; [apply draws_same; reflexivity|]. destruct (code_block (current_style d)); [apply draws_code|].
  eapply draws_trans'; [apply draws_prepare|]. rewrite <- (split_on_join 10%N (c :: t)) at 2. apply draws_lines. intros l I. exact (split_on_no_sep _ _ _ I).
Qed.
Lemma draws_inline t d : (Q -> ~ In 10%N t) -> Draws d (push_inline_code t d) t.
Proof. intros H. unfold push_inline_code. eapply draws_trans'; [apply draws_prepare|]. apply draws_write, H. Qed.
Lemma draws_break d : Draws d (line_break d) [].
Proof. unfold line_break. eapply draws_trans'; [|apply draws_prepare]. eapply draws_mark; [exact newline_mark|reflexivity]. Qed.
Lemma draws_inked d p s : Ink p -> mark_ok s -> ~ In 10%N s -> Draws d (push (p ++ s ++ ansi_reset) d) [].
Proof.
  intros A B C. apply (draws_one _ _ (Inked p s [] [])); [|reflexivity]. split; [exact A|]. split; [exact B|]. split; [split; [intros x []|intros []]|]. split; [exact C|]. split; [intros _ []|intros []].
Qed.
Lemma draws_rule d : Draws d (rule d) [].
Proof.
  unfold rule. eapply draws_trans' with (d1 := ensure_blank_line d); [apply draws_same, buffer_want|]. eapply draws_trans'; [apply draws_flush|].
  eapply draws_trans'; [apply (draws_inked _ ansi_dim (copies 40 [9472%N])); [exact ink_dim|apply mark_of; reflexivity|]|].
  { intros I. apply (proj2 (mem_char_iff _ _)) in I. vm_compute in I. discriminate. }
  eapply draws_mark; [exact newline_mark|]. cbn [at_start push buffer]. rewrite <- !app_assoc. reflexivity.
Qed.
Lemma blank_mark : mark_ok [32%N]. Proof. apply mark_of. reflexivity. Qed.
Lemma draws_marker d s : mark_ok s -> ~ In 10%N s -> Draws d (push (color_marker ++ s ++ ansi_reset ++ [32%N]) d) [].
Proof.
  intros A B. eapply draws_trans'; [apply (draws_inked _ color_marker s ink_marker A B)|]. eapply draws_mark; [exact blank_mark|]. cbn [push buffer]. rewrite <- !app_assoc. reflexivity.
Qed.
Lemma draws_task c d : Draws d (task_marker c d) [].
Proof.
  unfold task_marker. eapply draws_trans0; [|apply draws_same; reflexivity]. apply draws_marker; destruct c; try (apply mark_of; reflexivity); intros I; apply (proj2 (mem_char_iff _ _)) in I; vm_compute in I; discriminate.
Qed.
Lemma digits_own n c : In c (show_nat n) -> (48 <= c <= 57)%N.
Proof.
  intros I. assert (D := show_nat_Dec n). induction D as [k H|s n0 k D IH H].
  - destruct I as [<-|[]]. lia.
  - apply in_app_or in I as [I|[<-|[]]]; [apply IH, I|lia].
Qed.
Lemma draws_item d : Draws d (start_list_item d) [].
Proof.
  unfold start_list_item. eapply draws_trans'; [apply draws_flush|]. set (d1 := flush_newlines d). cbv zeta.
  set (d2 := at_start true (if line_start d1 then d1 else push [10%N] d1)).
  eapply draws_trans' with (d1 := d2); [unfold d2; destruct (line_start d1); [apply draws_same; reflexivity|eapply draws_mark; [exact newline_mark|reflexivity]]|].
  eapply draws_trans' with (d1 := push (quote_prefix d2) d2); [eapply draws_mark; [apply (prefix_mark d2)|reflexivity]|]. set (d3 := push (quote_prefix d2) d2).
  eapply draws_trans' with (d1 := push (copies (length (lists d3) - 1) [32%N; 32%N]) d3); [eapply draws_mark; [|reflexivity]; apply mark_copies, mark_of; reflexivity|].
  set (d4 := push (copies (length (lists d3) - 1) [32%N; 32%N]) d3). eapply draws_trans0 with (d1 := push (marker (lists d4)) d4); [|apply draws_same; reflexivity].
  unfold marker. destruct (rev (lists d4)) as [|[n|] r].
  - apply draws_same. cbn. apply app_nil_r.
  - replace (color_marker ++ show_nat n ++ lit "." ++ ansi_reset ++ [32%N]) with (color_marker ++ (show_nat n ++ lit ".") ++ ansi_reset ++ [32%N]) by (rewrite <- !app_assoc; reflexivity).
    apply draws_marker.
    + apply mark_app; [|apply mark_of; reflexivity]. split; [intros c I|intros I]; apply digits_own in I; [|lia]. unfold own.
      replace ((48 <=? c)%N) with true by (symmetry; apply N.leb_le; lia). replace ((c <=? 57)%N) with true by (symmetry; apply N.leb_le; lia). reflexivity.
    + intros I. apply in_app_or in I as [I|[I|[]]]; [apply digits_own in I; lia|discriminate].
  - apply (draws_marker d4 [8226%N]); [apply mark_of; reflexivity|intros [I|[]]; discriminate].
Qed.
Lemma draws_suffix dest d : Draws d (append_link_suffix dest d) dest.
Proof.
  unfold append_link_suffix. destruct dest as [|c t]; [apply draws_same; reflexivity|].
  eapply draws_trans' with (d1 := push (lit " (") d); [eapply draws_mark; [|reflexivity]; apply mark_of; reflexivity|].
  eapply draws_trans0 with (d1 := push (c :: t) (push (lit " (") d)); [apply (draws_one _ _ (Open (c :: t))); [exact Logic.I|reflexivity]|].
  eapply draws_mark with (s := lit ")"); [apply mark_of; reflexivity|]. cbn [written at_start push buffer]. rewrite <- !app_assoc. reflexivity.
Qed.
Lemma draws_popped p d : Draws d (popped p d) [].
Proof. apply draws_same. unfold popped, pop_style. destruct (take_first p (rev (styles d))) as [[s r]|]; reflexivity. Qed.
Lemma draws_want n d : Draws d (want n d) []. Proof. apply draws_same, buffer_want. Qed.

(** the links open, the innermost first *)
Definition is_link (s : style) : bool := match s with Link _ => true | _ => false end.
Definition links (d : drawing) : list str := flat_map (fun s => match s with Link x => [x] | _ => [] end) (rev (styles d)).
Lemma draws_start t d : Draws d (start_tag t d) [].
Proof.
  destruct t; cbn [start_tag]; try (destruct (_ && _)); try apply draws_want; try (apply draws_same; reflexivity); try (eapply draws_trans0; [apply draws_want|apply draws_same; reflexivity]).
  apply draws_item.
Qed.
Lemma take_link l : match take_first is_link l with
  | Some (s, r) => exists x, s = Link x /\ flat_map (fun s => match s with Link x => [x] | _ => [] end) l = x :: flat_map (fun s => match s with Link x => [x] | _ => [] end) r
  | None => flat_map (fun s => match s with Link x => [x] | _ => [] end) l = [] end.
Proof.
  induction l as [|s l IH]; [reflexivity|]. destruct s; cbn [take_first is_link flat_map app]; try (destruct (take_first is_link l) as [[s' r]|]; cbn [flat_map app]; exact IH).
  exists dest. split; reflexivity.
Qed.
Lemma draws_end t d : Draws d (end_tag t d) (match t with TLink _ => match links d with x :: _ => x | [] => [] end | _ => [] end).
Proof.
  destruct t; cbn [end_tag]; try apply draws_want; try (apply draws_same; reflexivity); try apply draws_popped; try (eapply draws_trans0; [apply draws_popped|apply draws_want]).
  - eapply draws_trans0; [|apply draws_want]. apply draws_same. reflexivity.
  - eapply draws_trans0; [|apply draws_want]. destruct (line_start d); [apply draws_same; reflexivity|eapply draws_mark; [exact newline_mark|reflexivity]].
  - change (fun s : style => match s with Link _ => true | _ => false end) with is_link. assert (T := take_link (rev (styles d))). unfold pop_style, links.
    destruct (take_first is_link (rev (styles d))) as [[s r]|].
    + destruct T as (x & -> & T). rewrite T. eapply draws_trans'; [|apply draws_suffix]. apply draws_same. reflexivity.
    + rewrite T. apply draws_same. reflexivity.
Qed.
Lemma draws_event e d : (Q -> forall s, e = Code s \/ e = InlineMath s -> ~ In 10%N s) ->
  Draws d (handle_event d e) (match e with End (TLink _) => match links d with x :: _ => x | [] => [] end | _ => carries e end).
Proof.
  intros H. destruct e; cbn [handle_event carries]; try apply draws_text; try apply draws_break; try apply draws_start; try apply draws_rule; try apply draws_task; try (apply draws_inline; intros q; apply (H q s); auto).
  - exact (draws_end t d).
  - eapply draws_trans'; [apply draws_want|apply draws_code].
Qed.
End Draws.

Lemma styles_want n d : styles (want n d) = styles d. Proof. unfold want. destruct (wrote d); reflexivity. Qed.
Lemma styles_flush d : styles (flush_newlines d) = styles d. Proof. unfold flush_newlines. destruct (pending d); reflexivity. Qed.
Lemma styles_prepare d : styles (prepare_line d) = styles d.
Proof. unfold prepare_line. destruct (line_start (flush_newlines d)); [|apply styles_flush]. destruct (quote_prefix (flush_newlines d)); apply styles_flush. Qed.
Lemma styles_write t f d : styles (write_styled t f d) = styles d. Proof. unfold write_styled. destruct t; reflexivity. Qed.
Lemma styles_lines f ls : forall d, styles (text_lines f ls d) = styles d.
Proof.
  induction ls as [|l r IH]; intros d; [reflexivity|]. destruct r as [|l' r]; [apply styles_write|].
  change (text_lines f (l :: l' :: r) d) with (text_lines f (l' :: r) (prepare_line (at_start true (push [10%N] (write_styled l f d))))).
  rewrite IH, styles_prepare. cbn [at_start push styles]. apply styles_write.
Qed.
Lemma styles_code t d : styles (push_code_block_text t d) = styles d.
Proof. unfold push_code_block_text, ensure_newline. rewrite styles_want. cbn [written at_start push styles]. apply styles_flush. Qed.
Lemma styles_text t d : styles (push_text t d) = styles d.
Proof. unfold push_text. destruct t as [|c t]; [reflexivity|]. destruct (code_block (current_style d)); [apply styles_code|]. rewrite styles_lines. apply styles_prepare. Qed.
Lemma styles_item d : styles (start_list_item d) = styles d.
Proof. unfold start_list_item. cbn [written at_start push styles with_lists]. destruct (line_start (flush_newlines d)); apply styles_flush. Qed.
Lemma take_other p (l : list style) : (forall x, p (Link x) = false) -> match take_first p l with
  | Some (s, r) => flat_map (fun s => match s with Link x => [x] | _ => [] end) l = flat_map (fun s => match s with Link x => [x] | _ => [] end) r
  | None => True end.
Proof.
  intros H. induction l as [|s l IH]; [exact Logic.I|]. cbn [take_first]. destruct (p s) eqn:E; [destruct s; try reflexivity; rewrite H in E; discriminate|].
  destruct (take_first p l) as [[s' r]|]; [|exact Logic.I]. cbn [flat_map]. rewrite IH. reflexivity.
Qed.
Lemma links_popped p d : (forall x, p (Link x) = false) -> links (popped p d) = links d.
Proof.
  intros H. unfold popped, pop_style, links. assert (T := take_other p (rev (styles d)) H). destruct (take_first p (rev (styles d))) as [[s r]|]; [|reflexivity].
  cbn [snd with_styles styles]. rewrite rev_involutive. symmetry. exact T.
Qed.
Lemma links_same d d' : styles d' = styles d -> links d' = links d. Proof. unfold links. intros ->. reflexivity. Qed.
Lemma links_styled s d : links (styled s d) = match s with Link x => x :: links d | _ => links d end.
Proof. unfold links, styled. cbn [with_styles styles]. rewrite rev_app_distr. destruct s; reflexivity. Qed.
Lemma links_event e d : links (handle_event d e) =
  match e with Start (TLink x) => x :: links d | End (TLink _) => tl (links d) | _ => links d end.
Proof.
  assert (W : forall n d, links (want n d) = links d) by (intros; apply links_same, styles_want).
  assert (P : forall p d, (forall x, p (Link x) = false) -> links (popped p d) = links d) by exact links_popped.
  destruct e; cbn [handle_event]; try (apply links_same; first [apply styles_text|reflexivity]).
  - destruct t; cbn [start_tag]; try (destruct (_ && _)); unfold ensure_blank_line, ensure_newline; try rewrite links_styled; try apply W; try reflexivity.
    + apply links_same. apply styles_item.
  - destruct t; cbn [end_tag]; unfold ensure_blank_line, ensure_newline; rewrite ?W; try reflexivity; try (apply P; reflexivity).
    + destruct (line_start d); reflexivity.
    + change (fun s : style => match s with Link _ => true | _ => false end) with is_link. assert (T := take_link (rev (styles d))). unfold pop_style.
      destruct (take_first is_link (rev (styles d))) as [[s r]|].
      * destruct T as (x & -> & T). rewrite (links_same (with_styles (rev r) d)) by (unfold append_link_suffix; destruct x; reflexivity).
        unfold links. cbn [with_styles styles]. rewrite rev_involutive, T. reflexivity.
      * unfold links. rewrite T. reflexivity.
  - apply links_same. unfold push_inline_code. rewrite styles_write. apply styles_prepare.
  - apply links_same. unfold push_inline_code. rewrite styles_write. apply styles_prepare.
  - apply links_same. rewrite styles_code. apply styles_want.
  - apply links_same. unfold line_break. rewrite styles_prepare. reflexivity.
  - apply links_same. unfold line_break. rewrite styles_prepare. reflexivity.
  - apply links_same. unfold rule. cbn [at_start push styles]. rewrite styles_flush. apply styles_want.
Qed.
Lemma draws_all (Q : Prop) es : forall d, (Q -> forall s, In (Code s) es \/ In (InlineMath s) es -> ~ In 10%N s) ->
  Draws Q d (fold_left handle_event es d) (content (links d) es).
Proof.
  induction es as [|e es IH]; intros d H; [apply draws_same; reflexivity|]. cbn [fold_left].
  assert (E : content (links d) (e :: es) = (match e with End (TLink _) => match links d with x :: _ => x | [] => [] end | _ => carries e end) ++ content (links (handle_event d e)) es).
  { rewrite links_event. destruct e; try reflexivity; destruct t; try reflexivity. cbn [content]. destruct (links d); reflexivity. }
  rewrite E. eapply draws_trans; [apply draws_event|apply IH].
  - intros q s [-> | ->]; apply (H q); [left|right]; left; reflexivity.
  - intros q s I. apply (H q). destruct I as [I|I]; [left|right]; right; exact I.
Qed.
Lemma drop_newlines_spec s : exists n, s = copies n [10%N] ++ drop_newlines s.
Proof.
  induction s as [|c s [n IH]]; [exists 0; reflexivity|]. cbn [drop_newlines]. destruct (N.eqb_spec c 10) as [->|_]; [|exists 0; reflexivity].
  exists (S n). cbn [copies app]. rewrite <- IH. reflexivity.
Qed.
Lemma copies_rev n : rev (copies n [10%N]) = copies n [10%N].
Proof.
  assert (E : forall k, copies k [10%N] = repeat 10%N k) by (induction k as [|k IH]; [reflexivity|cbn; rewrite IH; reflexivity]).
  rewrite !E. induction n as [|n IH]; [reflexivity|]. cbn [repeat rev]. rewrite IH. symmetry. apply repeat_cons.
Qed.
Lemma draw_pieces (Q : Prop) es : (Q -> forall s, In (Code s) es \/ In (InlineMath s) es -> ~ In 10%N s) ->
  exists ps n, flat_map show ps = draw es ++ copies n [10%N] /\ Forall (piece_ok Q) ps /\ no_newline (flat_map says ps) = no_newline (content [] es).
Proof.
  intros H. destruct (draws_trans0 Q _ _ _ _ (draws_all Q es empty H) (draws_flush Q _)) as (ps & A & B & C).
  destruct (drop_newlines_spec (rev (buffer (flush_newlines (fold_left handle_event es empty))))) as [n E].
  exists ps, n. split; [|split; assumption]. cbn [buffer empty app] in A. rewrite <- A. unfold draw, finish.
  rewrite <- (rev_involutive (buffer _)) at 1. rewrite E at 1. rewrite rev_app_distr, copies_rev. reflexivity.
Qed.
Lemma filter_copies n (p : char -> bool) : p 10%N = false -> filter p (copies n [10%N]) = [].
Proof. intros H. induction n as [|n IH]; [reflexivity|]. cbn [copies app filter]. rewrite H. exact IH. Qed.
Lemma filter_own s : all_own s -> filter (fun c => negb (own c)) s = [].
Proof. induction s as [|c s IH]; intros H; [reflexivity|]. cbn [filter]. rewrite (H c (or_introl eq_refl)). apply IH. intros x X. apply H. right. exact X. Qed.
Lemma filter_nn s : filter (fun c => negb (own c)) (no_newline s) = filter (fun c => negb (own c)) s.
Proof.
  unfold no_newline. induction s as [|c s IH]; [reflexivity|]. cbn [filter]. destruct (N.eqb_spec c 10) as [->|N]; cbn [negb]; [exact IH|]. cbn [filter]. rewrite IH. reflexivity.
Qed.
Lemma own_reset : all_own ansi_reset. Proof. apply own_all. reflexivity. Qed.

(** C156.  Whatever the events: all characters but those the drawing itself uses are drawn exactly as
    the answer has them, in order, once each; *)
Theorem C156_exact es : filter (fun c => negb (own c)) (draw es) = filter (fun c => negb (own c)) (content [] es).
Proof.
  destruct (draw_pieces False es) as (ps & n & A & B & C); [intros []|].
  rewrite <- (app_nil_r (filter _ (draw es))), <- (filter_copies n (fun c => negb (own c)) eq_refl), <- filter_app, <- A, <- (filter_nn (content [] es)), <- C, filter_nn.
  clear A C. induction B as [|x ps P B IH]; [reflexivity|]. cbn [flat_map]. rewrite !filter_app, IH. f_equal.
  destruct x as [s|p a s b|s]; cbn [show says]; [reflexivity| |apply filter_own, P].
  destruct P as ((P & _) & (M & _) & (M' & _) & _). rewrite !filter_app, (filter_own p P), (filter_own a M), (filter_own b M'), (filter_own _ own_reset), app_nil_r. reflexivity.
Qed.
Lemma within_refl s : Within s s. Proof. induction s; constructor; assumption. Qed.
Lemma within_left p : forall s t, Within s t -> Within s (p ++ t). Proof. induction p as [|c p IH]; intros s t H; [exact H|]. apply W_skip, IH, H. Qed.
Lemma within_app s t u v : Within s t -> Within u v -> Within (s ++ u) (t ++ v).
Proof. intros A B. induction A as [t|c s t A IH|c s t A IH]; [apply within_left, B|apply W_take, IH|apply W_skip, IH]. Qed.
Lemma within_trans a b : Within a b -> forall c, Within b c -> Within a c.
Proof.
  intros A c B. revert a A. induction B as [t|x s t B IH|x s t B IH]; intros a A; [inversion A; constructor| |apply W_skip, IH, A].
  inversion A; subst; [constructor|apply W_take, IH; assumption|apply W_skip, IH; assumption].
Qed.
Lemma within_filter p s : Within (filter p s) s. Proof. induction s as [|c s IH]; [constructor|]. cbn [filter]. destruct (p c); constructor; exact IH. Qed.
Lemma within_cut n s t : ~ In 10%N s -> Within s (t ++ copies n [10%N]) -> Within s t.
Proof.
  intros L H. remember (t ++ copies n [10%N]) as u eqn:E. revert t E. induction H as [u|c s u H IH|c s u H IH]; intros t E; [constructor| |].
  - destruct t as [|x t]; [|injection E as <- E; apply W_take, IH; [intros X; apply L; right; exact X|exact E]].
    exfalso. apply L. left. destruct n as [|n]; [discriminate|]. injection E as -> _. reflexivity.
  - destruct t as [|x t]; [|injection E as <- E; apply W_skip, IH; [exact L|exact E]].
    destruct n as [|n]; [discriminate|]. injection E as _ E. specialize (IH L []). 
    clear -IH E L H. revert IH. assert (X : forall k v, Within s v -> v = copies k [10%N] -> s = []).
    { intros k v W -> . destruct s as [|y s]; [reflexivity|]. exfalso. apply L. left.
      clear -W. induction k as [|k IH]; [inversion W|]. cbn [copies app] in W. inversion W; subst; [reflexivity|apply IH; assumption]. }
    rewrite (X n u H E). constructor.
Qed.
(** and all of them, but newlines, are drawn in order. *)
Theorem C156_in_order es : Within (no_newline (content [] es)) (draw es).
Proof.
  destruct (draw_pieces False es) as (ps & n & A & B & C); [intros []|]. apply (within_cut n).
  - unfold no_newline. intros I. apply filter_In in I as [_ I]. discriminate.
  - rewrite <- A, <- C. eapply within_trans; [apply within_filter|]. clear. induction ps as [|x ps IH]; [constructor|]. cbn [flat_map]. apply within_app; [|exact IH].
    destruct x as [s|p a s b|s]; cbn [show says]; [apply within_refl| |constructor]. apply within_left, within_left. rewrite <- (app_nil_r s) at 1. apply within_app; [apply within_refl|constructor].
Qed.

(** C157.  If no text holds an escape character, the colours are always put back: before every newline
    and at the end. *)
Lemma reading_plain s : ~ In 27%N s -> forall on, (on = true -> ~ In 10%N s) -> reading s (Some (Ground, on)) = Some (Ground, on).
Proof.
  induction s as [|c s IH]; intros E on L; [reflexivity|]. change (reading (c :: s) (Some (Ground, on))) with (reading s (read_char (Some (Ground, on)) c)).
  cbn [read_char]. destruct (N.eqb_spec c 27) as [->|_]; [exfalso; apply E; left; reflexivity|].
  destruct (N.eqb_spec c 10) as [->|N].
  - destruct on; [exfalso; apply L; [reflexivity|left; reflexivity]|]. apply IH; [intros X; apply E; right; exact X|discriminate].
  - cbn [andb]. apply IH; [intros X; apply E; right; exact X|intros o X; apply L; [exact o|right; exact X]].
Qed.
Lemma reading_cut t n : reading (t ++ copies n [10%N]) (Some (Ground, false)) = Some (Ground, false) -> neutral t.
Proof.
  unfold neutral. rewrite reading_app. generalize (reading t (Some (Ground, false))) as st. intros st. revert st.
  induction n as [|n IH]; intros st H; [exact H|]. change (reading (copies (S n) [10%N]) st) with (reading (copies n [10%N]) (read_char st 10%N)) in H. apply IH in H.
  destruct st as [[[| |p] [|]]|]; cbn [read_char] in H; try discriminate; reflexivity.
Qed.
Theorem C157_neutral_partial es : ~ In 27%N (content [] es) -> (forall s, In (Code s) es \/ In (InlineMath s) es -> ~ In 10%N s) -> neutral (draw es).
Proof.
  intros E L. destruct (draw_pieces True es (fun _ => L)) as (ps & n & A & B & C). apply (reading_cut _ n). rewrite <- A.
  assert (F : ~ In 27%N (flat_map says ps)).
  { intros I. apply E. assert (J : In 27%N (no_newline (flat_map says ps))) by (apply filter_In; split; [exact I|reflexivity]). rewrite C in J. apply filter_In in J. apply J. }
  clear A C. induction B as [|x ps P B IH]; [reflexivity|]. cbn [flat_map]. rewrite reading_app.
  assert (X : reading (show x) (Some (Ground, false)) = Some (Ground, false)).
  { cbn [flat_map] in F. assert (F' : ~ In 27%N (says x)) by (intros I; apply F, in_or_app; left; exact I). destruct x as [s|p a s b|s]; cbn [show says] in *.
    - apply reading_plain; [exact F'|discriminate].
    - destruct P as ((_ & P) & (_ & M) & (_ & M') & L1 & L2 & L3). rewrite !reading_app, P, (reading_plain a), (reading_plain s), (reading_plain b); auto.
    - apply reading_plain; [apply P|discriminate]. }
  rewrite X. apply IH. intros I. apply F. cbn [flat_map]. apply in_or_app. right. exact I.
Qed.
(** But nothing is taken out of the answer: a text is written as it came, with any control sequence in it, *)
Theorem C157_control_refuted t : t <> [] -> ~ In 10%N t -> draw [Start TParagraph; Text t; End TParagraph] = t.
Proof.
  intros N L. unfold draw. cbn [fold_left handle_event start_tag]. destruct t as [|c t]; [contradiction|]. clear N.
  unfold push_text. cbn [code_block current_style fold_left styles empty no_flags]. cbn [andb length filter quote_depth styles lists empty Nat.eqb]. unfold ensure_blank_line, want. cbn [wrote empty].
  rewrite (split_on_none _ _ L). unfold prepare_line, flush_newlines. cbn [pending empty line_start]. cbn [text_lines]. unfold write_styled. cbn.
  unfold finish. cbn [flush_newlines pending buffer]. cbn [buffer]. rewrite app_nil_r. change ((c :: t) ++ [10%N]) with (c :: t ++ [10%N]).
  assert (D : forall x : str, ~ In 10%N x -> rev (drop_newlines (rev (x ++ [10%N]))) = x).
  { intros x X. rewrite rev_app_distr. change (rev [10%N]) with [10%N]. cbn [app drop_newlines]. change (10 =? 10)%N with true. cbv iota.
    destruct (rev x) as [|y r] eqn:R; [apply (f_equal (@rev char)) in R; rewrite rev_involutive in R; rewrite R; reflexivity|].
    cbn [drop_newlines]. destruct (N.eqb_spec y 10) as [->|_]; [exfalso; apply X, (proj2 (in_rev x 10%N)); rewrite R; left; reflexivity|]. rewrite <- R. apply rev_involutive. }
  exact (D (c :: t) L).
Qed.
(** a link's destination too, *)
Theorem C157_link_refuted dest : dest <> [] -> In 27%N dest -> In 27%N (draw [Start TParagraph; Start (TLink dest); Text (lit "x"); End (TLink dest); End TParagraph]).
Proof.
  intros _ I. set (es := [Start TParagraph; Start (TLink dest); Text (lit "x"); End (TLink dest); End TParagraph]).
  assert (W := C156_in_order es). assert (C : content [] es = lit "x" ++ dest ++ []) by reflexivity. rewrite C in W.
  assert (X : forall s t, Within s t -> forall c, In c s -> In c t). { clear. intros s t W. induction W; intros k K; [destruct K| |right; apply IHW, K]. destruct K as [->|K]; [left; reflexivity|right; apply IHW, K]. }
  apply (X _ _ W). unfold no_newline. apply filter_In. split; [|reflexivity]. apply in_or_app. right. apply in_or_app. left. exact I.
Qed.
(** and an answer with a null byte is not drawn at all but written as it is. *)
Theorem C157_null_refuted parse input : In 0%N input -> render_with_fallback parse input = input.
Proof. intros I. unfold render_with_fallback, render_markdown. rewrite (proj2 (mem_char_iff _ _) I). reflexivity. Qed.
Theorem C156_answer_partial parse input : ~ In 0%N input -> trim input <> [] -> draw (parse input) <> [] -> render_with_fallback parse input = draw (parse input).
Proof.
  intros A B C. unfold render_with_fallback, render_markdown. destruct (mem_char 0%N input) eqn:M; [apply mem_char_iff in M; contradiction|].
  destruct (trim input); [contradiction|]. destruct (draw (parse input)); [contradiction|reflexivity].
Qed.

(** ** lists *)
Lemma lists_want n d : lists (want n d) = lists d. Proof. unfold want. destruct (wrote d); reflexivity. Qed.
Lemma lists_flush d : lists (flush_newlines d) = lists d. Proof. unfold flush_newlines. destruct (pending d); reflexivity. Qed.
Lemma lists_prepare d : lists (prepare_line d) = lists d.
Proof. unfold prepare_line. destruct (line_start (flush_newlines d)); [|apply lists_flush]. destruct (quote_prefix (flush_newlines d)); apply lists_flush. Qed.
Lemma lists_write t f d : lists (write_styled t f d) = lists d. Proof. unfold write_styled. destruct t; reflexivity. Qed.
Lemma lists_lines f ls : forall d, lists (text_lines f ls d) = lists d.
Proof.
  induction ls as [|l r IH]; intros d; [reflexivity|]. destruct r as [|l' r]; [apply lists_write|].
  change (text_lines f (l :: l' :: r) d) with (text_lines f (l' :: r) (prepare_line (at_start true (push [10%N] (write_styled l f d))))).
  rewrite IH, lists_prepare. cbn [at_start push lists]. apply lists_write.
Qed.
Lemma lists_code t d : lists (push_code_block_text t d) = lists d.
Proof. unfold push_code_block_text, ensure_newline. rewrite lists_want. cbn [written at_start push lists]. apply lists_flush. Qed.
Lemma lists_text t d : lists (push_text t d) = lists d.
Proof. unfold push_text. destruct t as [|c t]; [reflexivity|]. destruct (code_block (current_style d)); [apply lists_code|]. rewrite lists_lines. apply lists_prepare. Qed.
Lemma lists_popped p d : lists (popped p d) = lists d.
Proof. unfold popped, pop_style. destruct (take_first p (rev (styles d))) as [[s r]|]; reflexivity. Qed.
Lemma lists_simple e d : simple e = true -> lists (handle_event d e) = lists d.
Proof.
  destruct e; cbn [handle_event]; intros H; try apply lists_text; try reflexivity.
  - destruct t; try discriminate; cbn [start_tag]; try (destruct (_ && _)); unfold ensure_blank_line, ensure_newline; cbn [styled with_styles lists]; try apply lists_want; reflexivity.
  - destruct t; try discriminate; cbn [end_tag]; unfold ensure_blank_line, ensure_newline; rewrite ?lists_want; try apply lists_popped; try reflexivity.
    + destruct (line_start d); reflexivity.
    + unfold pop_style. destruct (take_first _ (rev (styles d))) as [[s r]|]; [|reflexivity]. destruct s; try reflexivity. unfold append_link_suffix. destruct dest0; reflexivity.
  - unfold push_inline_code. rewrite lists_write. apply lists_prepare.
  - unfold push_inline_code. rewrite lists_write. apply lists_prepare.
  - rewrite lists_code. apply lists_want.
  - unfold line_break. rewrite lists_prepare. reflexivity.
  - unfold line_break. rewrite lists_prepare. reflexivity.
  - unfold rule. cbn [at_start push lists]. rewrite lists_flush. apply lists_want.
Qed.
Lemma lists_item d : lists (start_list_item d) = bump (lists d).
Proof. unfold start_list_item. cbn [written at_start push lists with_lists]. destruct (line_start (flush_newlines d)); cbn [push lists]; rewrite lists_flush; reflexivity. Qed.
Fixpoint bumped (k : nat) (l : list (option N)) : list (option N) := match k with 0 => l | S j => bumped j (bump l) end.
Lemma bump_last l x : bump (l ++ [x]) = l ++ [match x with Some n => Some (n + 1)%N | None => None end].
Proof. unfold bump. rewrite rev_app_distr. cbn [rev app]. destruct x; [rewrite rev_involutive|]; reflexivity. Qed.
Lemma bumped_last k : forall l x, bumped k (l ++ [x]) = l ++ [match x with Some n => Some (n + N.of_nat k)%N | None => None end].
Proof.
  induction k as [|k IH]; intros l x; [cbn [bumped]; destruct x; [rewrite N.add_0_r|]; reflexivity|].
  cbn [bumped]. rewrite bump_last, IH. destruct x as [n|]; [|reflexivity]. do 3 f_equal. lia.
Qed.
Lemma start_list n d : lists (handle_event d (Start (TList n))) = lists d ++ [n].
Proof. cbn [handle_event start_tag with_lists lists]. unfold ensure_blank_line. rewrite lists_want. reflexivity. Qed.
Lemma end_list m d : lists (handle_event d (End (TList m))) = removelast (lists d).
Proof. cbn [handle_event end_tag]. unfold ensure_newline. rewrite lists_want. reflexivity. Qed.
Lemma body_lists es : Body es -> forall d, lists (fold_left handle_event es d) = lists d.
Proof.
  intros B. induction B using Body_rec2 with (P0 := fun k es _ => forall d, lists (fold_left handle_event es d) = bumped k (lists d)); intros d.
  - reflexivity.
  - cbn [fold_left]. rewrite IHB. apply lists_simple. assumption.
  - cbn [fold_left]. rewrite fold_left_app. cbn [fold_left]. rewrite IHB0, end_list, IHB, start_list, bumped_last, removelast_last. reflexivity.
  - reflexivity.
  - cbn [fold_left]. rewrite fold_left_app. cbn [fold_left]. rewrite IHB0, lists_simple, IHB by reflexivity. cbn [handle_event start_tag]. rewrite lists_item. reflexivity.
Qed.
Lemma items_lists k es : Items k es -> forall d, lists (fold_left handle_event es d) = bumped k (lists d).
Proof.
  intros H. induction H as [|k body r B H IH]; intros d; [reflexivity|].
  cbn [fold_left]. rewrite fold_left_app. cbn [fold_left]. rewrite IH, lists_simple, (body_lists _ B) by reflexivity. cbn [handle_event start_tag]. rewrite lists_item. reflexivity.
Qed.
Lemma item_marker d : exists before, mark_ok before /\ buffer (start_list_item d) = buffer d ++ before ++ marker (lists d).
Proof.
  unfold start_list_item. cbn [written at_start push buffer lists with_lists].
  set (d1 := flush_newlines d). assert (F : exists n, buffer d1 = buffer d ++ copies n [10%N]).
  { unfold d1, flush_newlines. destruct (pending d) as [|n]; [exists 0; symmetry; apply app_nil_r|]. cbn [buffer]. destruct (buffer d); [exists 0; reflexivity|exists (S n); reflexivity]. }
  destruct F as [n F]. assert (Li : lists d1 = lists d) by apply lists_flush.
  assert (Nl : mark_ok (copies n [10%N])) by apply mark_copies, newline_mark. assert (Q : forall d, mark_ok (quote_prefix d)) by exact prefix_mark.
  assert (I : mark_ok (copies (length (lists d) - 1) [32%N; 32%N])) by (apply mark_copies, mark_of; reflexivity).
  destruct (line_start d1); cbn [push buffer lists]; rewrite F, Li.
  - match goal with |- context [quote_prefix ?x] => assert (Qx := Q x); set (q := quote_prefix x) in * end.
    exists (copies n [10%N] ++ q ++ copies (length (lists d) - 1) [32%N; 32%N]). split; [|rewrite <- !app_assoc; reflexivity]. apply mark_app; [exact Nl|]. apply mark_app; [exact Qx|exact I].
  - match goal with |- context [quote_prefix ?x] => assert (Qx := Q x); set (q := quote_prefix x) in * end.
    exists (copies n [10%N] ++ [10%N] ++ q ++ copies (length (lists d) - 1) [32%N; 32%N]). split; [|rewrite <- !app_assoc; reflexivity]. apply mark_app; [exact Nl|]. apply mark_app; [exact newline_mark|]. apply mark_app; [exact Qx|exact I].
Qed.
(** C158.  Wherever a numbered list stands, and whatever its items hold: after i items the next one is
    numbered i more than the first; before the number stand only newlines, bars and blanks. *)
Theorem C158_numbered d first i items :
  Items i items ->
  exists before, mark_ok before /\
  let d' := fold_left handle_event (Start (TList (Some first)) :: items) d in
  buffer (handle_event d' (Start TItem)) = buffer d' ++ before ++ color_marker ++ show_nat (first + N.of_nat i) ++ lit "." ++ ansi_reset ++ lit " ".
Proof.
  intros H. set (d' := fold_left handle_event (Start (TList (Some first)) :: items) d).
  destruct (item_marker d') as (before & M & E). exists before. split; [exact M|]. cbn [handle_event start_tag]. rewrite E. do 2 f_equal.
  unfold d'. cbn [fold_left]. rewrite (items_lists _ _ H), start_list, bumped_last. unfold marker. rewrite rev_app_distr. reflexivity.
Qed.
Theorem C158_bullets d i items :
  Items i items ->
  exists before, mark_ok before /\
  let d' := fold_left handle_event (Start (TList None) :: items) d in
  buffer (handle_event d' (Start TItem)) = buffer d' ++ before ++ color_marker ++ [8226%N] ++ ansi_reset ++ lit " ".
Proof.
  intros H. set (d' := fold_left handle_event (Start (TList None) :: items) d).
  destruct (item_marker d') as (before & M & E). exists before. split; [exact M|]. cbn [handle_event start_tag]. rewrite E. do 2 f_equal.
  unfold d'. cbn [fold_left]. rewrite (items_lists _ _ H), start_list, bumped_last. unfold marker. rewrite rev_app_distr. reflexivity.
Qed.
(** When a list ends, the list it stands in goes on where it was. *)
Theorem C158_nested d n m i items : Items i items -> lists (fold_left handle_event (Start (TList n) :: items ++ [End (TList m)]) d) = lists d.
Proof. intros H. cbn [fold_left]. rewrite fold_left_app. cbn [fold_left]. rewrite end_list, (items_lists _ _ H), start_list, bumped_last, removelast_last. reflexivity. Qed.
(** But an answer beginning with a list begins with an empty line. *)
Theorem C158_list_first_refuted n t : t <> [] -> ~ In 10%N t -> exists r, draw [Start (TList n); Start TItem; Text t; End TItem; End (TList n)] = 10%N :: r /\ r <> [].
Proof.
  intros T L. destruct t as [|c t]; [contradiction|]. unfold draw. cbn [fold_left handle_event start_tag].
  set (d0 := with_lists _ _). assert (E : start_list_item d0 = Drawing (10%N :: marker [n]) [] (bump [n]) 0 false true) by reflexivity. rewrite E.
  unfold push_text. cbn [current_style code_block styles fold_left no_flags]. rewrite (split_on_none _ _ L). cbn [text_lines prepare_line flush_newlines pending line_start].
  unfold write_styled, style_prefix. cbn [current_style styles fold_left no_flags heading bold italic strike inline_code link quote andb app]. rewrite app_nil_r.
  cbn [written at_start push buffer end_tag line_start ensure_newline want wrote with_lists lists pending Nat.max finish flush_newlines].
  set (b := (10%N :: marker [n]) ++ c :: t).
  assert (D : forall k, rev (drop_newlines (rev ((b ++ [10%N]) ++ copies k [10%N]))) = b).
  { intros k. rewrite rev_app_distr, copies_rev, rev_app_distr. cbn [rev app]. induction k as [|k IH]; [|cbn [copies app drop_newlines]; exact IH].
    cbn [copies app drop_newlines]. change (10 =? 10)%N with true. cbv iota. unfold b at 1. rewrite rev_app_distr. destruct (rev (c :: t)) as [|y r] eqn:R; [apply (f_equal (@length char)) in R; rewrite rev_length in R; discriminate|].
    cbn [app drop_newlines]. destruct (N.eqb_spec y 10) as [->|_]; [exfalso; apply L, (proj2 (in_rev (c :: t) 10%N)); rewrite R; left; reflexivity|].
    change (y :: r ++ rev (10%N :: marker [n])) with ((y :: r) ++ rev (10%N :: marker [n])). rewrite <- R, <- rev_app_distr. apply rev_involutive. }
  exists (marker [n] ++ c :: t). split; [exact (D 1)|]. destruct (marker [n]); discriminate.
Qed.

(** ** quotes and code *)
Lemma quote_depth_styled d : quote_depth (styled Quote d) = S (quote_depth d).
Proof. unfold quote_depth, styled. cbn [with_styles styles]. rewrite filter_app, app_length. cbn. lia. Qed.
Lemma flags_app l s : fold_left add_flag (l ++ [s]) no_flags = add_flag (fold_left add_flag l no_flags) s.
Proof. apply fold_left_app. Qed.
Lemma flags_code l : forall f, inline_code f = false -> inline_code (fold_left add_flag l f) = false.
Proof. induction l as [|s l IH]; intros f X; [exact X|]. cbn [fold_left]. apply IH. destruct s; exact X. Qed.
(** A paragraph quoted after other text begins a line of its own, with one bar for each quotation it is in. *)
Theorem C158_quoted_partial d t :
  buffer d <> [] -> wrote d = true -> code_block (current_style d) = false -> t <> [] -> ~ In 10%N t ->
  exists n colour, 2 <= n /\ Ink colour /\
  buffer (fold_left handle_event [Start TQuote; Start TParagraph; Text t] d) =
  buffer d ++ copies n [10%N] ++ copies (S (quote_depth d)) [9474%N; 32%N] ++ colour ++ t ++ ansi_reset.
Proof.
  intros B W C T L. change (fold_left handle_event [Start TQuote; Start TParagraph; Text t] d) with (push_text t (start_tag TParagraph (styled Quote (ensure_blank_line d)))).
  assert (E0 : ensure_blank_line d = Drawing (buffer d) (styles d) (lists d) (max (pending d) 2) (line_start d) (wrote d)) by (unfold ensure_blank_line, want; rewrite W; reflexivity). rewrite E0.
  set (d1 := styled Quote _).
  assert (Q1 : quote_depth d1 = S (quote_depth d)) by (unfold d1; rewrite quote_depth_styled; reflexivity).
  assert (S1 : start_tag TParagraph d1 = ensure_newline d1) by (cbn [start_tag]; rewrite Q1, andb_false_r; reflexivity). rewrite S1.
  unfold ensure_newline, want. change (wrote d1) with (wrote d). rewrite W. set (d2 := Drawing _ _ _ _ _ _).
  assert (P2 : exists n, pending d2 = S n /\ 1 <= n). { exists (pending d2 - 1). change (pending d2) with (max (max (pending d) 2) 1). lia. }
  destruct P2 as (n & P2 & G). exists (S n). destruct t as [|c t]; [contradiction|].
  assert (F : current_style d2 = add_flag (current_style d) Quote) by (unfold current_style; change (styles d2) with (styles d ++ [Quote]); apply flags_app).
  assert (C' : code_block (add_flag (current_style d) Quote) = false) by exact C. unfold push_text. rewrite F, C', (split_on_none _ _ L). cbn [text_lines].
  exists (style_prefix (add_flag (current_style d) Quote)). assert (Ne : style_prefix (add_flag (current_style d) Quote) <> []).
  { unfold style_prefix. cbn [add_flag heading bold italic strike inline_code link quote].
    rewrite (flags_code (styles d) no_flags eq_refl : inline_code (current_style d) = false).
    cbn [negb andb]. rewrite !app_assoc. intros X. apply app_eq_nil in X as [_ X]. discriminate. }
  split; [lia|]. split; [destruct (ink_style (add_flag (current_style d) Quote)) as [X|X]; [contradiction|exact X]|].
  assert (Pr : buffer (prepare_line d2) = buffer d ++ copies (S n) [10%N] ++ copies (S (quote_depth d)) [9474%N; 32%N]).
  { unfold prepare_line, flush_newlines. rewrite P2. cbn [line_start]. unfold quote_prefix at 1. set (d3 := Drawing _ _ _ _ _ _). change (quote_depth d3) with (quote_depth d1). rewrite Q1.
    cbn [copies app]. cbn [written at_start push buffer]. unfold d3. cbn [buffer]. change (buffer d2) with (buffer d). destruct (buffer d) as [|x b]; [contradiction|]. rewrite <- app_assoc. f_equal.
    }
  unfold write_styled. destruct (style_prefix (add_flag (current_style d) Quote)) as [|k p]; [contradiction|]. cbn [written at_start push buffer]. rewrite Pr, <- !app_assoc. reflexivity.
Qed.
Lemma drop_tail n b c : c <> 10%N -> rev (drop_newlines (rev ((b ++ [c]) ++ copies n [10%N]))) = b ++ [c].
Proof.
  intros C. rewrite rev_app_distr, copies_rev. induction n as [|n IH]; [|cbn [copies app drop_newlines]; exact IH].
  cbn [copies app]. rewrite rev_app_distr. cbn [rev app drop_newlines]. destruct (N.eqb_spec c 10) as [->|_]; [contradiction|]. cbn [rev]. rewrite rev_involutive. reflexivity.
Qed.
Lemma finish_ends b s l n f w : finish (Drawing (b ++ ansi_reset) s l n f w) = b ++ ansi_reset.
Proof.
  assert (X : forall x : str, finish (Drawing (x ++ [109%N]) s l n f w) = x ++ [109%N]).
  { intros x. unfold finish, flush_newlines. destruct n as [|n]; [assert (D := drop_tail 0 x 109%N); cbn [copies] in D; rewrite app_nil_r in D; apply D; discriminate|].
    cbn [pending buffer]. destruct (x ++ [109%N]) as [|y r] eqn:E; [destruct x; discriminate|]. cbn [buffer]. rewrite <- E. apply drop_tail. discriminate. }
  replace (b ++ ansi_reset) with ((b ++ [27%N; 91%N; 48%N]) ++ [109%N]) by (rewrite <- app_assoc; reflexivity). apply X.
Qed.
(** But at the beginning of an answer it has no bar. *)
Theorem C158_quote_first_refuted t : t <> [] -> ~ In 10%N t ->
  draw [Start TQuote; Start TParagraph; Text t; End TParagraph; End TQuote] = color_quote ++ t ++ ansi_reset.
Proof.
  intros T L. destruct t as [|c t]; [contradiction|]. unfold draw. cbn [fold_left handle_event].
  set (d1 := start_tag TParagraph (start_tag TQuote empty)). assert (E : d1 = Drawing [] [Quote] [] 0 false false) by reflexivity. rewrite E.
  unfold push_text. change (code_block (current_style (Drawing [] [Quote] [] 0 false false))) with false. cbv iota. rewrite (split_on_none _ _ L).
  change (prepare_line (Drawing [] [Quote] [] 0 false false)) with (Drawing [] [Quote] [] 0 false false). cbn [text_lines]. unfold write_styled.
  change (style_prefix (current_style (Drawing [] [Quote] [] 0 false false))) with color_quote.
  set (b := color_quote ++ (c :: t) ++ ansi_reset). change (match color_quote with [] => [] | _ :: _ => ansi_reset end) with ansi_reset. cbv zeta. fold b.
  change (finish (end_tag TQuote (end_tag TParagraph (written (at_start false (push b (Drawing [] [Quote] [] 0 false false))))))) with (finish (Drawing b [] [] 2 false true)).
  unfold b. rewrite (app_assoc color_quote). apply finish_ends.
Qed.
(** And a block of code ending, as every block does, with a newline is drawn with an empty line more. *)
Theorem C158_code_refuted t : t <> [] ->
  draw [Start TCodeBlock; Text (t ++ [10%N]); End TCodeBlock] = draw [Start TCodeBlock; Text t; End TCodeBlock] ++ 10%N :: code_line [] [] [].
Proof.
  intros T.
  assert (G : forall u : str, u <> [] -> draw [Start TCodeBlock; Text u; End TCodeBlock] = join_with [10%N] (map (code_line [] []) (split_on 10%N u))).
  { intros u U. destruct u as [|c u]; [contradiction|]. unfold draw. cbn [fold_left handle_event]. set (d1 := start_tag TCodeBlock empty). assert (E : d1 = Drawing [] [CodeBlock] [] 0 false false) by reflexivity. rewrite E.
    unfold push_text. change (code_block (current_style (Drawing [] [CodeBlock] [] 0 false false))) with true. cbv iota. unfold push_code_block_text.
    change (flush_newlines (Drawing [] [CodeBlock] [] 0 false false)) with (Drawing [] [CodeBlock] [] 0 false false). cbv zeta.
    change (quote_prefix (Drawing [] [CodeBlock] [] 0 false false)) with (@nil char). cbn [lists length copies]. set (b := join_with [10%N] _).
    change (finish (Drawing ([] ++ b) [] [] 2 false true) = b). cbn [app].
    assert (R : forall ls, ls <> [] -> exists x, join_with [10%N] (map (code_line [] []) ls) = x ++ ansi_reset).
    { clear. induction ls as [|l ls IH]; intros N; [contradiction|]. destruct ls as [|l' ls].
      - exists (color_block ++ [32%N] ++ l ++ [32%N]). cbn [map join_with]. unfold code_line. rewrite <- !app_assoc. reflexivity.
      - destruct IH as [x IH]; [discriminate|]. exists (code_line [] [] l ++ [10%N] ++ x).
        change (code_line [] [] l ++ [10%N] ++ join_with [10%N] (map (code_line [] []) (l' :: ls)) = (code_line [] [] l ++ [10%N] ++ x) ++ ansi_reset). rewrite IH, <- !app_assoc. reflexivity. }
    destruct (R (split_on 10%N (c :: u))) as [x X]; [intros Y; apply (f_equal (join_with [10%N])) in Y; rewrite split_on_join in Y; discriminate|].
    unfold b. rewrite X. apply finish_ends. }
  rewrite (G (t ++ [10%N])) by (destruct t; discriminate). rewrite (G t T). rewrite split_on_app. change (split_on 10%N []) with [@nil char]. rewrite map_app. cbn [map].
  assert (J : forall ls : list str, ls <> [] -> forall x, join_with [10%N] (ls ++ [x]) = join_with [10%N] ls ++ 10%N :: x).
  { clear. induction ls as [|l ls IH]; intros N x; [contradiction|]. destruct ls as [|l' ls]; [reflexivity|].
    change (join_with [10%N] ((l :: l' :: ls) ++ [x])) with (l ++ [10%N] ++ join_with [10%N] ((l' :: ls) ++ [x])). rewrite IH by discriminate.
    change (join_with [10%N] (l :: l' :: ls)) with (l ++ [10%N] ++ join_with [10%N] (l' :: ls)). rewrite <- !app_assoc. reflexivity. }
  apply J. intros Y. apply map_eq_nil in Y. apply (f_equal (join_with [10%N])) in Y. rewrite split_on_join in Y. contradiction.
Qed.

(** ** cases *)
Definition answer : list event :=
  [Start (THeading 1); Text (lit "Find"); End (THeading 1); Start TParagraph; Text (lit "Use "); Code (lit "find ."); Text (lit " or"); SoftBreak;
   Start (TLink (lit "http://x.y")); Start TStrong; Text (lit "fd"); End TStrong; End (TLink []); End TParagraph;
   Start TQuote; Start TParagraph; Text (lit "so it is"); End TParagraph; End TQuote;
   Start (TList (Some 3%N)); Start TItem; Text (lit "one"); Start (TList None); Start TItem; TaskMarker true; Text (lit "sub"); End TItem; End (TList None); End TItem;
   Start TItem; Text (lit "two"); End TItem; End (TList None); Rule; Start TCodeBlock; Text (lit "ls"); End TCodeBlock].
Example C156_case : content [] answer = lit "FindUse find . orfdhttp://x.yso it isonesubtwols" /\
  filter (fun c => negb (own c)) (draw answer) = lit "FindUsefindorfdhttp://ysoitisonesubtwols" /\
  draw [Start TParagraph; Text (lit "a"); SoftBreak; Text (lit "b"); End TParagraph] = [97%N; 10%N; 98%N].
Proof. vm_compute. auto. Qed.
Example C157_case : ~ In 27%N (content [] answer) /\ (forall s, In (Code s) answer \/ In (InlineMath s) answer -> ~ In 10%N s) /\
  neutral (draw answer) /\ ~ neutral ansi_bold /\ ~ neutral (ansi_bold ++ [10%N] ++ ansi_reset) /\
  draw [Start TParagraph; Text (esc "]0;title"); End TParagraph] = esc "]0;title".
Proof.
  split; [|split; [|vm_compute; repeat split; discriminate]].
  - intros I. apply mem_char_iff in I. vm_compute in I. discriminate.
  - intros s I. assert (E : s = lit "find ."). { destruct I as [I|I]; unfold answer in I; cbn [In] in I; repeat (destruct I as [I|I]; [first [discriminate|injection I as <-; reflexivity]|]); destruct I. }
    rewrite E. intros J. apply mem_char_iff in J. vm_compute in J. discriminate.
Qed.
Example C158_case : Items 2 [Start TItem; Text (lit "a"); Start (TList None); Start TItem; Text (lit "x"); End TItem; End (TList None); End TItem; Start TItem; End TItem] /\
  let d := fold_left handle_event [Start TParagraph; Text (lit "a"); End TParagraph] empty in
  buffer d <> [] /\ wrote d = true /\ code_block (current_style d) = false.
Proof.
  split; [|repeat split; discriminate].
  apply (I_item 1 [Text (lit "a"); Start (TList None); Start TItem; Text (lit "x"); End TItem; End (TList None)]).
  - apply B_event; [reflexivity|]. apply (B_list None None 1 [Start TItem; Text (lit "x"); End TItem]); [|constructor]. apply (I_item 0 [Text (lit "x")] []); [|constructor]. apply B_event; [reflexivity|constructor].
  - apply (I_item 0 [] []); constructor.
Qed.

Print Assumptions C156_exact.
Print Assumptions C156_in_order.
Print Assumptions C156_answer_partial.
Print Assumptions C157_neutral_partial.
Print Assumptions C157_control_refuted.
Print Assumptions C157_link_refuted.
Print Assumptions C157_null_refuted.
Print Assumptions C158_numbered.
Print Assumptions C158_bullets.
Print Assumptions C158_nested.
Print Assumptions C158_list_first_refuted.
Print Assumptions C158_quoted_partial.
Print Assumptions C158_quote_first_refuted.
Print Assumptions C158_code_refuted.
