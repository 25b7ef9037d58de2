(** C165 to C168: what a chat sends, calls and answers, and when it ends. *)
From Coq Require Import Permutation.
From Verif Require Import Base Cut_Model Mcp_Model Mcp_Spec Chat_Model Chat_Spec.
From Verif Require Mcp_Props Cut_Props.

Section Chat.
Variable transport : Type.
Notation trace := (list (event transport)).
Notation conversation := (conversation transport).
Notation summed := (summed transport).
Notation asked := (asked transport).
Variable mcp : manager transport.
Variable parse : str -> json.
Variable yes : trace -> option bool.
Variable tool_answer : trace -> result.
Variable complaint : str -> str.
Variable reply : trace -> option value.
Variable context : trace -> str.
Variable size : value -> N.
Variable system user summarizer : str.
Notation tool_call := (tool_call transport mcp parse yes tool_answer complaint).
Notation summarise := (summarise transport reply size summarizer).
Notation shrink := (shrink transport reply size summarizer).
Notation run_calls := (run_calls transport mcp parse yes tool_answer complaint size).
Notation rounds := (rounds transport mcp parse yes tool_answer complaint reply context size system user summarizer).
Notation chat := (chat transport mcp parse yes tool_answer complaint reply context size system user summarizer).
Notation note := (note size).
Notation messages := (messages system user).

(** what each event needs of what came before *)
Definition sent_ok (a : trace) (ms : list value) : Prop := exists extra old kept,
  ms = [says "system" system; says "user" (context a); says "user" user] ++ extra ++ kept /\
  conversation a = old ++ kept /\ length extra <= 1 /\ (forall m, In m extra -> field "role" m = Some (Str (lit "system"))) /\
  (summed a = [] -> old = [] /\ extra = []) /\ (old <> [] -> 6 <= length kept) /\
  (forall m s, In m old -> field "content" m = Some (Str s) -> trim s <> [] -> exists q, In q (summed a) /\ mentions q s).
Definition called_ok (a : trace) (w : transport) (t : str) (args : option str) : Prop := exists a' name raw s,
  a = a' ++ [Shown (shown_line name raw); Question (question name)] /\ yes a = Some true /\
  In (name, Binding (label _ (conf _ s)) t) (bindings _ mcp) /\ In s (servers _ mcp) /\ w = reach _ (conf _ s) /\
  args = match (match trim raw with [] => Null | _ => parse raw end) with Object o => Some o | _ => None end.
Definition own_ok (a : trace) (name args : str) : Prop := In name own_tools /\ ~ In name (map fst (bindings _ mcp)) /\ exists a', a = a' ++ [Shown (shown_line name args)].
Definition told_ok (a : trace) (text : str) : Prop :=
  match last a (Shown []) with
  | Called _ _ _ | Own _ _ => match tool_answer a with
                              | Ok s => text = truncate_output s
                              | Err e => text = lit "Error: " ++ e ++ 10%N :: lit "Please analyze the error and retry with corrected arguments."
                              end
  | Question _ => match yes a with Some false => text = lit "MCP tool execution cancelled by user." | _ => starts_with (lit "Error: ") text = true end
  | _ => starts_with (lit "Error: ") text = true
  end.
Definition settled (a : trace) : Prop := match last a (Shown []) with Called _ _ _ | Own _ _ | Question _ => False | _ => True end.
Definition ok (a : trace) (e : event transport) : Prop :=
  match e with
  | Asked ms => sent_ok a ms /\ answered (conversation a)
  | Called w t args => called_ok a w t args
  | Own name args => own_ok a name args
  | Told _ text => told_ok a text
  | _ => True
  end.
Definition history_ok (tr : trace) : Prop := forall a e b, tr = a ++ e :: b -> ok a e.
Lemma history_snoc tr e : history_ok tr -> ok tr e -> history_ok (tr ++ [e]).
Proof.
  intros H O a x b E. destruct (rev b) as [|y b'] eqn:R.
  - assert (b = []) by (rewrite <- (rev_involutive b), R; reflexivity). subst b. apply app_inj_tail in E as [-> ->]. exact O.
  - assert (B : b = rev b' ++ [y]) by (rewrite <- (rev_involutive b), R; reflexivity). rewrite B in E. change (a ++ x :: rev b' ++ [y]) with (a ++ (x :: rev b') ++ [y]) in E. rewrite app_assoc in E. apply app_inj_tail in E as [E _]. apply (H a x (rev b')). exact E.
Qed.
Lemma conversation_app a b : conversation (a ++ b) = conversation a ++ conversation b.
Proof. apply flat_map_app. Qed.
Lemma summed_app a b : summed (a ++ b) = summed a ++ summed b.
Proof. apply flat_map_app. Qed.
Lemma asked_app a b : asked (a ++ b) = asked a ++ asked b.
Proof. apply flat_map_app. Qed.

Lemma get_sound n b : get (bindings _ mcp) n = Some b -> In (n, b) (bindings _ mcp).
Proof. induction (bindings _ mcp) as [|[x y] l IH]; cbn [get]; [discriminate|]. destruct (str_eqb_spec x n) as [-> |_]; [intros [= ->]; left; reflexivity|intros G; right; exact (IH G)]. Qed.
(** a tool call: what it adds *)
Definition quiet (ev : trace) : Prop := conversation ev = [] /\ summed ev = [] /\ asked ev = [].
Lemma tool_call_spec tr c : history_ok tr -> settled tr -> exists ev, fst (tool_call tr c) = tr ++ ev /\ quiet ev /\ history_ok (tr ++ ev) /\ told_ok (tr ++ ev) (result_text (snd (tool_call tr c))).
Proof.
  intros H St. unfold Chat_Model.tool_call.
  assert (Z : forall e, exists ev, tr = tr ++ ev /\ quiet ev /\ history_ok (tr ++ ev) /\ told_ok (tr ++ ev) (result_text (Err e))).
  { intros e. exists []; rewrite app_nil_r; split; [reflexivity|]; split; [repeat split|]; split; [exact H|]. unfold settled in St. unfold told_ok. destruct (last tr (Shown [])); try contradiction; reflexivity. }
  destruct (field "function" c) as [f|]; [|apply Z]. destruct (as_str (field "name" f)) as [name|]; [|apply Z]. cbv zeta. set (raw := or_empty (as_str (field "arguments" f))). clear Z.
  assert (H1 : history_ok (tr ++ [Shown (shown_line name raw)])) by (apply history_snoc; [exact H|exact Logic.I]).
  destruct (mem_str name (map fst (bindings _ mcp))) eqn:B.
  - assert (H2 : history_ok ((tr ++ [Shown (shown_line name raw)]) ++ [Question (question name)])) by (apply history_snoc; [exact H1|exact Logic.I]).
    set (trq := (tr ++ [Shown (shown_line name raw)]) ++ [Question (question name)]) in *.
    assert (Q : forall res, match yes trq with Some false => result_text res = lit "MCP tool execution cancelled by user." | _ => starts_with (lit "Error: ") (result_text res) = true end ->
      exists ev, trq = tr ++ ev /\ quiet ev /\ history_ok (tr ++ ev) /\ told_ok (tr ++ ev) (result_text res)).
    { intros res R. exists [Shown (shown_line name raw); Question (question name)]. assert (X : tr ++ [Shown (shown_line name raw); Question (question name)] = trq) by (unfold trq; rewrite <- app_assoc; reflexivity). rewrite X. split; [reflexivity|]. split; [repeat split|]. split; [exact H2|].
      unfold told_ok. replace (last trq (Shown [])) with (Question (transport := transport) (question name)) by (unfold trq; rewrite last_last; reflexivity). exact R. }
    destruct (yes trq) as [[|]|] eqn:Y; cbn [fst snd]; [|apply Q; reflexivity|apply Q; reflexivity]. destruct (Mcp_Model.execute transport parse mcp name raw) as [| |w t a] eqn:X; cbn [fst snd]; [apply Q; reflexivity|apply Q; reflexivity|]. clear Q.
    assert (C : called_ok trq w t a).
    { unfold Mcp_Model.execute in X. destruct (get (bindings _ mcp) name) as [b|] eqn:G; [|discriminate]. apply get_sound in G. cbv zeta in X.
      destruct (List.find (fun s => str_eqb (name_of _ s) (b_server b)) (servers _ mcp)) as [s|] eqn:F.
      - apply find_some in F as [Is Es]. apply str_eqb_eq in Es. exists tr, name, raw, s. split; [unfold trq; rewrite <- app_assoc; reflexivity|]. split; [exact Y|].
        unfold Mcp_Model.name_of in Es. rewrite Es. destruct b as [bs bt]. cbn [b_server b_tool] in *.
        destruct (match trim raw with [] => Null | _ :: _ => parse raw end); try discriminate; injection X as <- <- <-; split; try exact G; split; try exact Is; split; reflexivity.
      - destruct (match trim raw with [] => Null | _ :: _ => parse raw end); discriminate. }
    assert (H3 : history_ok (trq ++ [Called w t a])) by (apply history_snoc; [exact H2|exact C]).
    assert (Q : forall res, match tool_answer (trq ++ [Called w t a]) with Ok s => result_text res = truncate_output s | Err e => res = Err e end ->
      exists ev, trq ++ [Called w t a] = tr ++ ev /\ quiet ev /\ history_ok (tr ++ ev) /\ told_ok (tr ++ ev) (result_text res)).
    { intros res R. exists [Shown (shown_line name raw); Question (question name); Called w t a]. assert (X' : tr ++ [Shown (shown_line name raw); Question (question name); Called w t a] = trq ++ [Called w t a]) by (unfold trq; rewrite <- !app_assoc; reflexivity). rewrite X'. split; [reflexivity|]. split; [repeat split|]. split; [exact H3|].
      unfold told_ok. rewrite last_last. destruct (tool_answer _); [exact R|subst res; reflexivity]. }
    destruct (tool_answer (trq ++ [Called w t a])); cbn [fst snd]; apply Q; reflexivity.
  - assert (Nb : ~ In name (map fst (bindings _ mcp))) by (intros I; apply mem_str_iff in I; congruence). destruct (mem_str name own_tools) eqn:O.
    + assert (H2 : history_ok ((tr ++ [Shown (shown_line name raw)]) ++ [Own name raw])) by (apply history_snoc; [exact H1|]; split; [apply mem_str_iff; exact O|]; split; [exact Nb|exists tr; reflexivity]).
      set (tro := (tr ++ [Shown (shown_line name raw)]) ++ [Own name raw]) in *.
      assert (Q : forall res, match tool_answer tro with Ok s => result_text res = truncate_output s | Err e => res = Err e end ->
        exists ev, tro = tr ++ ev /\ quiet ev /\ history_ok (tr ++ ev) /\ told_ok (tr ++ ev) (result_text res)).
      { intros res R. exists [Shown (shown_line name raw); Own name raw]. assert (X' : tr ++ [Shown (shown_line name raw); Own name raw] = tro) by (unfold tro; rewrite <- !app_assoc; reflexivity). rewrite X'. split; [reflexivity|]. split; [repeat split|]. split; [exact H2|].
        unfold told_ok. replace (last tro (Shown [])) with (Own (transport := transport) name raw) by (unfold tro; rewrite last_last; reflexivity). destruct (tool_answer tro); [exact R|subst res; reflexivity]. }
      destruct (tool_answer tro); cbn [fst snd]; apply Q; reflexivity.
    + exists [Shown (shown_line name raw)]. split; [reflexivity|]. split; [repeat split|]. split; [exact H1|]. unfold told_ok. rewrite last_last. reflexivity.
Qed.
Lemma run_calls_spec calls : forall tr t, history_ok tr -> settled tr -> exists ev results,
  fst (run_calls calls tr t) = tr ++ ev /\ conversation ev = results /\ summed ev = [] /\ asked ev = [] /\ history_ok (tr ++ ev) /\
  Forall2 (fun c r => exists text, r = tool_message (id_of c) text) calls results /\
  summary (snd (run_calls calls tr t)) = summary t /\ buffer (snd (run_calls calls tr t)) = buffer t ++ results /\ chars (snd (run_calls calls tr t)) = (chars t + sum_sizes size results)%N.
Proof.
  assert (SS : forall l n, fold_left (fun n m => (n + size m)%N) l n = (n + sum_sizes size l)%N).
  { intros l. unfold sum_sizes. induction l as [|m l IH]; intros n; cbn [fold_left]; [lia|]. rewrite IH, (IH (0 + size m)%N). lia. }
  induction calls as [|c calls IH]; intros tr t H St; cbn [Chat_Model.run_calls].
  - exists [], []. rewrite !app_nil_r. unfold sum_sizes. cbn [fold_left fst snd]. rewrite N.add_0_r. repeat (split; [first [reflexivity|exact H|constructor]|]). reflexivity.
  - destruct (tool_call_spec tr c H St) as (ev & E & (Q1 & Q2 & Q3) & H1 & Tk). destruct (tool_call tr c) as [tr1 r] eqn:T. cbn [fst snd] in E, Tk. subst tr1.
    assert (H2 : history_ok ((tr ++ ev) ++ [Told (id_of c) (result_text r)])) by (apply history_snoc; [exact H1|exact Tk]).
    assert (St2 : settled ((tr ++ ev) ++ [Told (id_of c) (result_text r)])) by (unfold settled; rewrite last_last; exact Logic.I).
    destruct (IH _ (note (tool_message (id_of c) (result_text r)) t) H2 St2) as (ev2 & rs & E1 & E2 & E3 & E4 & E5 & E6 & E7 & E8 & E9).
    exists (ev ++ Told (id_of c) (result_text r) :: ev2), (tool_message (id_of c) (result_text r) :: rs). rewrite E1, E7, E8, E9.
    assert (A : ((tr ++ ev) ++ [Told (id_of c) (result_text r)]) ++ ev2 = tr ++ ev ++ Told (id_of c) (result_text r) :: ev2) by (rewrite <- !app_assoc; reflexivity).
    split; [exact A|]. split; [rewrite conversation_app, Q1; cbn [app]; unfold Chat_Spec.conversation; cbn [flat_map app]; f_equal; exact E2|].
    split; [rewrite summed_app, Q2; exact E3|]. split; [rewrite asked_app, Q3; exact E4|]. split; [rewrite <- A; exact E5|].
    split; [constructor; [eexists; reflexivity|exact E6]|]. split; [reflexivity|]. unfold Chat_Model.note. cbn [buffer chars]. split; [rewrite <- app_assoc; reflexivity|].
    unfold sum_sizes at 2. cbn [fold_left]. rewrite SS. lia.
Qed.

(** what holds between the rounds *)
Record fit (tr : trace) (t : talk) : Prop := {
  fit_history : history_ok tr;
  fit_answered : answered (conversation tr);
  fit_chars : chars t = sum_sizes size (buffer t);
  fit_kept : exists old, conversation tr = old ++ buffer t /\ (summed tr = [] -> old = [] /\ summary t = None) /\ (old <> [] -> 6 <= length (buffer t)) /\
    (forall m s, In m old -> field "content" m = Some (Str s) -> trim s <> [] -> exists q, In q (summed tr) /\ mentions q s) }.
Lemma content_string m s : field "content" m = Some (Str s) -> trim s <> [] -> content_of m = Some s.
Proof.
  intros F T. unfold content_of. rewrite F. destruct s as [|c s]; [contradiction|]. cbn [segments concat]. rewrite app_nil_r. cbv zeta. destruct (trim (c :: s)); [contradiction|reflexivity].
Qed.
Lemma join_in (sep : str) l : forall x, In x l -> exists pre post, join_with sep l = pre ++ x ++ post.
Proof.
  induction l as [|y l IH]; intros x I; [destruct I|]. destruct I as [-> |I].
  - destruct l as [|z l]; [exists [], []; cbn [join_with]; rewrite app_nil_r; reflexivity|]. exists [], (sep ++ join_with sep (z :: l)). reflexivity.
  - destruct (IH x I) as (pre & post & E). destruct l as [|z l]; [destruct I|]. exists (y ++ sep ++ pre), post. change (join_with sep (y :: z :: l)) with (y ++ sep ++ join_with sep (z :: l)). rewrite E, <- !app_assoc. reflexivity.
Qed.
Lemma summary_mentions t m s : In m (buffer t) -> field "content" m = Some (Str s) -> trim s <> [] -> mentions (summary_request summarizer t) s.
Proof.
  intros I F T. destruct (join_in [10; 10]%N (map summary_line (buffer t)) (summary_line m)) as (pre & post & E); [apply in_map; exact I|].
  unfold summary_request. rewrite E. unfold summary_line. rewrite (content_string m s F T). cbn [or_empty]. unfold mentions. exists "user"%string.
  set (r := match as_str (field "role" m) with Some r => r | None => lit "unknown" end). set (z := match calls_of m with Some cs => _ | None => _ end).
  set (x := match summary t with Some s => s | None => lit "None" end).
  exists (lit "Current Summary:" ++ 10%N :: x ++ [10; 10]%N ++ lit "Recent Messages to Integrate:" ++ 10%N :: pre ++ r ++ lit ": "), (z ++ post).
  right. left. apply f_equal. set (c1 := lit "Current Summary:"). set (c2 := lit "Recent Messages to Integrate:"). set (c3 := lit ": ").
  fold x r. assert (G : forall a b x c d p r e s z q : str, a ++ b ++ x ++ c ++ d ++ b ++ p ++ (r ++ e ++ s ++ z) ++ q = (a ++ b ++ x ++ c ++ d ++ b ++ p ++ r ++ e) ++ s ++ z ++ q) by (intros; rewrite <- !app_assoc; reflexivity).
  exact (G c1 [10%N] x [10; 10]%N c2 pre r c3 s z post).
Qed.
Lemma summarise_fit tr t : fit tr t -> exists ms, fst (summarise tr t) = tr ++ [Summed ms] /\ fit (tr ++ [Summed ms]) t /\
  forall t', snd (summarise tr t) = Some t' -> fit (tr ++ [Summed ms]) t'.
Proof.
  intros [H A C (old & E & N & K & M)]. exists (summary_request summarizer t).
  assert (H' : history_ok (tr ++ [Summed (summary_request summarizer t)])) by (apply history_snoc; [exact H|exact Logic.I]).
  assert (E' : conversation (tr ++ [Summed (summary_request summarizer t)]) = conversation tr) by (rewrite conversation_app; cbn; apply app_nil_r).
  assert (S' : summed (tr ++ [Summed (summary_request summarizer t)]) = summed tr ++ [summary_request summarizer t]) by (rewrite summed_app; reflexivity).
  assert (F : fit (tr ++ [Summed (summary_request summarizer t)]) t).
  { split; [exact H'|rewrite E'; exact A|exact C|]. exists old. rewrite E', S'. split; [exact E|]. split; [intros Z; destruct (summed tr); discriminate|]. split; [exact K|].
    intros m s I Fm T. destruct (M m s I Fm T) as (q & Iq & Mq). exists q. split; [apply in_app_iff; left; exact Iq|exact Mq]. }
  unfold Chat_Model.summarise. cbv zeta. assert (R : forall o, (exists ms, ms = summary_request summarizer t) -> fst (tr ++ [Summed (summary_request summarizer t)], o : option talk) = tr ++ [Summed (summary_request summarizer t)]) by reflexivity.
  destruct (reply _) as [r|]; [|split; [reflexivity|]; split; [exact F|discriminate]]. destruct (message_of r) as [m|]; [|split; [reflexivity|]; split; [exact F|discriminate]].
  destruct (content_of m) as [s|]; [|split; [reflexivity|]; split; [exact F|discriminate]]. split; [reflexivity|]. split; [exact F|]. intros t' [= <-]. clear R.
  split; [exact H'|rewrite E'; exact A|reflexivity|]. cbn [buffer summary]. rewrite E', S'. set (n := length (buffer t) - 6).
  exists (old ++ firstn n (buffer t)). split; [rewrite <- app_assoc, firstn_skipn; exact E|]. split; [intros Z; destruct (summed tr); discriminate|]. split.
  - intros X. rewrite skipn_length. unfold n. destruct (Nat.le_gt_cases 6 (length (buffer t))) as [L|L]; [lia|]. exfalso. apply X. unfold n. replace (length (buffer t) - 6) with 0 by lia. cbn [firstn]. rewrite app_nil_r.
    destruct old as [|y old]; [reflexivity|]. assert (6 <= length (buffer t)) by (apply K; discriminate). lia.
  - intros x s' I Fx T. apply in_app_iff in I as [I|I].
    + destruct (M x s' I Fx T) as (q & Iq & Mq). exists q. split; [apply in_app_iff; left; exact Iq|exact Mq].
    + exists (summary_request summarizer t). split; [apply in_app_iff; right; left; reflexivity|]. eapply summary_mentions; [|exact Fx|exact T]. clear - I. rewrite <- (firstn_skipn n (buffer t)). apply in_app_iff. left. exact I.
Qed.
Lemma shrink_fit fuel : forall tr t, fit tr t -> fit (snd (fst (shrink fuel tr t))) (snd (shrink fuel tr t)) /\ asked (snd (fst (shrink fuel tr t))) = asked tr.
Proof.
  induction fuel as [|f IH]; intros tr t F; cbn [Chat_Model.shrink]; destruct (too_long t); cbn [fst snd]; auto.
  destruct (summarise_fit tr t F) as (ms & E & F1 & F2). destruct (summarise tr t) as [tr' [t'|]]; cbn [fst snd] in *; subst tr'.
  - destruct (IH _ t' (F2 t' eq_refl)) as [G1 G2]. split; [exact G1|]. rewrite G2, asked_app. cbn. apply app_nil_r.
  - split; [exact F1|]. rewrite asked_app. cbn. apply app_nil_r.
Qed.
Lemma asked_fit tr t : fit tr t -> fit (tr ++ [Asked (messages t (context tr))]) t.
Proof.
  intros F. pose proof F as [H A C (old & E & N & K & M)]. assert (E' : conversation (tr ++ [Asked (messages t (context tr))]) = conversation tr) by (rewrite conversation_app; cbn; apply app_nil_r).
  assert (S' : summed (tr ++ [Asked (messages t (context tr))]) = summed tr) by (rewrite summed_app; cbn; apply app_nil_r).
  split; [|rewrite E'; exact A|exact C|exists old; rewrite E', S'; auto].
  apply history_snoc; [exact H|]. split; [|exact A]. unfold Chat_Model.messages. eexists _, old, (buffer t). split; [reflexivity|]. split; [exact E|].
  split; [destruct (summary t); cbn; lia|]. split; [destruct (summary t) as [s|]; intros m I; [destruct I as [<- |[]]; reflexivity|destruct I]|]. split; [|split; [exact K|exact M]].
  intros Z. destruct (N Z) as [-> ->]. auto.
Qed.
Lemma sum_snoc l m : sum_sizes size (l ++ [m]) = (sum_sizes size l + size m)%N.
Proof. unfold sum_sizes. rewrite fold_left_app. reflexivity. Qed.
Lemma sum_app l k : sum_sizes size (l ++ k) = (sum_sizes size l + sum_sizes size k)%N.
Proof. revert l. induction k as [|m k IH]; intros l; [rewrite app_nil_r; unfold sum_sizes at 3; cbn; lia|]. change (l ++ m :: k) with (l ++ [m] ++ k). rewrite app_assoc, IH, sum_snoc. change (m :: k) with ([m] ++ k). rewrite IH. change (sum_sizes size [m]) with (0 + size m)%N. lia. Qed.
Lemma heard_fit tr t m calls : fit tr t -> calls_of m = calls ->
  fit (fst (run_calls (match calls with Some cs => cs | None => [] end) (tr ++ [Heard m]) (note m t))) (snd (run_calls (match calls with Some cs => cs | None => [] end) (tr ++ [Heard m]) (note m t))) /\
  asked (fst (run_calls (match calls with Some cs => cs | None => [] end) (tr ++ [Heard m]) (note m t))) = asked tr.
Proof.
  intros [H A C (old & E & N & K & M)] <-. assert (H1 : history_ok (tr ++ [Heard m])) by (apply history_snoc; [exact H|exact Logic.I]).
  destruct (run_calls_spec (match calls_of m with Some cs => cs | None => [] end) (tr ++ [Heard m]) (note m t) H1 ltac:(unfold settled; rewrite last_last; exact Logic.I)) as (ev & rs & E1 & E2 & E3 & E4 & E5 & E6 & E7 & E8 & E9). rewrite E1.
  assert (Cv : conversation ((tr ++ [Heard m]) ++ ev) = conversation tr ++ m :: rs) by (rewrite !conversation_app, E2, <- app_assoc; reflexivity).
  assert (Sv : summed ((tr ++ [Heard m]) ++ ev) = summed tr) by (rewrite !summed_app, E3; cbn; rewrite !app_nil_r; reflexivity).
  split; [|rewrite !asked_app, E4; cbn; rewrite !app_nil_r; reflexivity]. split.
  - exact E5.
  - rewrite Cv. constructor; [exact A|exact E6].
  - rewrite E9, E8. unfold Chat_Model.note. cbn [chars buffer]. rewrite sum_app, sum_snoc, C. reflexivity.
  - exists old. rewrite Cv, Sv, E8, E7. unfold Chat_Model.note. cbn [buffer summary]. split; [rewrite E, <- !app_assoc; reflexivity|]. split; [exact N|]. split; [|exact M]. intros X. specialize (K X). rewrite !app_length. lia.
Qed.
Lemma rounds_fit fuel n : forall tr t, fit tr t -> (exists t', fit (snd (rounds n fuel tr t)) t') /\ length (asked (snd (rounds n fuel tr t))) <= length (asked tr) + n.
Proof.
  induction n as [|n IH]; intros tr t F; cbn [Chat_Model.rounds]; [split; [exists t; exact F|cbn [snd]; lia]|].
  destruct (shrink_fit fuel tr t F) as [F1 A1]. destruct (shrink fuel tr t) as [[b tr1] t1]. cbn [fst snd] in F1, A1. destruct b; [|split; [exists t1; exact F1|cbn [snd]; rewrite A1; lia]].
  pose proof (asked_fit tr1 t1 F1) as F2. set (tr2 := tr1 ++ [Asked (messages t1 (context tr1))]) in *. cbv zeta.
  assert (A2 : length (asked tr2) <= length (asked tr) + 1) by (unfold tr2; rewrite asked_app, A1, app_length; cbn; lia).
  destruct (reply tr2) as [r|]; [|split; [exists t1; exact F2|cbn [snd]; lia]]. destruct (message_of r) as [m|]; [|split; [exists t1; exact F2|cbn [snd]; lia]].
  destruct (heard_fit tr2 t1 m (calls_of m) F2 eq_refl) as [F3 A3]. destruct (calls_of m) as [calls|].
  - destruct (run_calls calls (tr2 ++ [Heard m]) (note m t1)) as [tr3 t3]. cbn [fst snd] in F3, A3. destruct (IH tr3 t3 F3) as [G1 G2]. split; [exact G1|]. rewrite A3 in G2. lia.
  - cbn [Chat_Model.run_calls fst snd] in F3, A3. destruct (match as_str _ with Some f => _ | None => _ end).
    + destruct (IH _ _ F3) as [G1 G2]. split; [exact G1|]. rewrite A3 in G2. lia.
    + destruct (content_of m); (split; [eexists; exact F3|cbn [snd]; rewrite A3; lia]).
Qed.
Lemma chat_fit fuel : (exists t', fit (snd (chat fuel)) t') /\ length (asked (snd (chat fuel))) <= 100.
Proof.
  unfold Chat_Model.chat. destruct (rounds_fit fuel 100 [] (Talk None [] 0)) as [G1 G2]; [|split; [exact G1|]; change (length (asked [])) with 0 in G2; exact G2].
  split; [intros a e b E; destruct a; discriminate|constructor|reflexivity|]. exists []. split; [reflexivity|]. split; [auto|]. split; [congruence|]. intros m s [].
Qed.

(** ** C165: an external tool is called only after a yes to a question that names it, at its own server,
    with the arguments that were given; the shell's own tools are run only if no server has the name. *)
Theorem C165_confirmed fuel a w t args b : snd (chat fuel) = a ++ Called w t args :: b ->
  exists a' name raw s, a = a' ++ [Shown (shown_line name raw); Question (question name)] /\ yes a = Some true /\
  In (name, Binding (label _ (conf _ s)) t) (bindings _ mcp) /\ In s (servers _ mcp) /\ w = reach _ (conf _ s) /\
  args = match (match trim raw with [] => Null | _ => parse raw end) with Object o => Some o | _ => None end.
Proof. intros E. destruct (chat_fit fuel) as [[t' F] _]. exact (fit_history _ _ F a _ b E). Qed.
Theorem C165_own fuel a name args b : snd (chat fuel) = a ++ Own name args :: b ->
  In name (map lit ["edit"; "execute"; "ls"; "read_file"; "search"]%string) /\ ~ In name (map fst (bindings _ mcp)).
Proof. intros E. destruct (chat_fit fuel) as [[t' F] _]. destruct (fit_history _ _ F a _ b E) as (A & B & _). split; assumption. Qed.
(** What the model is told of a call: the result of the tool that was run, cut at its limit, or its error; that the user
    said no; or an error, if nothing was run. *)
Theorem C165_told fuel a id text b : snd (chat fuel) = a ++ Told id text :: b ->
  match last a (Shown []) with
  | Called _ _ _ | Own _ _ => match tool_answer a with
                              | Ok s => text = truncate_output s
                              | Err e => text = lit "Error: " ++ e ++ 10%N :: lit "Please analyze the error and retry with corrected arguments."
                              end
  | Question _ => match yes a with Some false => text = lit "MCP tool execution cancelled by user." | _ => starts_with (lit "Error: ") text = true end
  | _ => starts_with (lit "Error: ") text = true
  end.
Proof. intros E. destruct (chat_fit fuel) as [[t' F] _]. exact (fit_history _ _ F a _ b E). Qed.

(** ** C166: what is sent to the model *)
Theorem C166_sent fuel a ms b : snd (chat fuel) = a ++ Asked ms :: b -> exists extra old kept,
  ms = [says "system" system; says "user" (context a); says "user" user] ++ extra ++ kept /\
  conversation a = old ++ kept /\ length extra <= 1 /\ (forall m, In m extra -> field "role" m = Some (Str (lit "system"))) /\
  (summed a = [] -> old = [] /\ extra = []) /\ (old <> [] -> 6 <= length kept) /\
  (forall m s, In m old -> field "content" m = Some (Str s) -> trim s <> [] -> exists q, In q (summed a) /\ mentions q s).
Proof. intros E. destruct (chat_fit fuel) as [[t' F] _]. exact (proj1 (fit_history _ _ F a _ b E)). Qed.
Theorem C166_answered fuel a ms b : snd (chat fuel) = a ++ Asked ms :: b -> answered (conversation a).
Proof. intros E. destruct (chat_fit fuel) as [[t' F] _]. exact (proj2 (fit_history _ _ F a _ b E)). Qed.

(** the trace only grows *)
Lemma tool_call_grows tr c : exists ev, fst (tool_call tr c) = tr ++ ev.
Proof.
  unfold Chat_Model.tool_call. assert (Z : exists ev, tr = tr ++ ev) by (exists []; rewrite app_nil_r; reflexivity). destruct (field "function" c) as [f|]; [|exact Z]. destruct (as_str (field "name" f)) as [name|]; [|exact Z]. cbv zeta. clear Z.
  destruct (mem_str name (map fst (bindings _ mcp))).
  - destruct (yes _) as [[|]|]; [|eexists; cbn [fst]; rewrite <- app_assoc; reflexivity|eexists; cbn [fst]; rewrite <- app_assoc; reflexivity]. destruct (Mcp_Model.execute _ _ _ _ _); [eexists; cbn [fst]; rewrite <- app_assoc; reflexivity|eexists; cbn [fst]; rewrite <- app_assoc; reflexivity|].
    destruct (tool_answer _); eexists; cbn [fst]; rewrite <- !app_assoc; reflexivity.
  - destruct (mem_str name own_tools); [|eexists; reflexivity]. destruct (tool_answer _); eexists; cbn [fst]; rewrite <- !app_assoc; reflexivity.
Qed.
Lemma run_calls_grows calls : forall tr t, exists ev, fst (run_calls calls tr t) = tr ++ ev.
Proof.
  induction calls as [|c calls IH]; intros tr t; cbn [Chat_Model.run_calls]; [exists []; rewrite app_nil_r; reflexivity|]. destruct (tool_call_grows tr c) as [ev E]. destruct (tool_call tr c) as [tr1 r]. cbn [fst] in E. subst tr1.
  destruct (IH ((tr ++ ev) ++ [Told (id_of c) (result_text r)]) (note (tool_message (id_of c) (result_text r)) t)) as [ev2 E2]. rewrite E2. eexists. rewrite <- !app_assoc. reflexivity.
Qed.
Lemma shrink_grows fuel : forall tr t, exists ev, snd (fst (shrink fuel tr t)) = tr ++ ev /\ asked ev = [] /\ forall e, In e ev -> exists ms, e = Summed ms.
Proof.
  assert (Z : forall tr : trace, exists ev, tr = tr ++ ev /\ asked ev = [] /\ forall e, In e ev -> exists ms, e = Summed ms) by (intros tr; exists []; rewrite app_nil_r; split; [reflexivity|]; split; [reflexivity|intros e []]).
  induction fuel as [|f IH]; intros tr t; cbn [Chat_Model.shrink]; destruct (too_long t); cbn [fst snd]; try apply Z.
  assert (S1 : fst (summarise tr t) = tr ++ [Summed (summary_request summarizer t)]).
  { unfold Chat_Model.summarise. cbv zeta. destruct (reply _) as [r|]; [|reflexivity]. destruct (message_of r) as [m|]; [|reflexivity]. destruct (content_of m); reflexivity. }
  destruct (summarise tr t) as [tr' [t'|]]; cbn [fst snd] in *; subst tr'.
  - destruct (IH (tr ++ [Summed (summary_request summarizer t)]) t') as (ev & E & A & M). exists (Summed (summary_request summarizer t) :: ev). split; [rewrite E, <- app_assoc; reflexivity|]. split; [exact A|]. intros e [<- |I]; [eexists; reflexivity|exact (M e I)].
  - eexists. split; [reflexivity|]. split; [reflexivity|]. intros e [<- |[]]. eexists; reflexivity.
Qed.
Lemma rounds_grows fuel n : forall tr t, exists ev, snd (rounds n fuel tr t) = tr ++ ev.
Proof.
  induction n as [|n IH]; intros tr t; cbn [Chat_Model.rounds]; [exists []; rewrite app_nil_r; reflexivity|].
  destruct (shrink_grows fuel tr t) as (e1 & E1 & _). destruct (shrink fuel tr t) as [[b tr1] t1]. cbn [fst snd] in E1. subst tr1. destruct b; [|eexists; reflexivity]. cbv zeta.
  destruct (reply _) as [r|]; [|eexists; cbn [snd]; rewrite <- !app_assoc; reflexivity]. destruct (message_of r) as [m|]; [|eexists; cbn [snd]; rewrite <- !app_assoc; reflexivity].
  set (tr2 := (tr ++ e1) ++ [Asked (messages t1 (context (tr ++ e1)))]). assert (G : exists e, tr2 ++ [Heard m] = tr ++ e) by (eexists; unfold tr2; rewrite <- !app_assoc; reflexivity).
  destruct (calls_of m) as [calls|].
  - destruct (run_calls_grows calls (tr2 ++ [Heard m]) (note m t1)) as [e3 E3]. destruct (run_calls calls (tr2 ++ [Heard m]) (note m t1)) as [tr3 t3]. cbn [fst] in E3. destruct (IH tr3 t3) as [e4 E4]. destruct G as [e G]. exists (e ++ e3 ++ e4). rewrite E4, E3, G, <- !app_assoc. reflexivity.
  - destruct (match as_str _ with Some f => _ | None => _ end).
    + destruct (IH (tr2 ++ [Heard m]) (note m t1)) as [e4 E4]. destruct G as [e G]. exists (e ++ e4). rewrite E4, G, <- app_assoc. reflexivity.
    + destruct (content_of m); exact G.
Qed.

(** ** C167: the model is asked at most a hundred times *)
Theorem C167_bounded_partial fuel : length (asked (snd (chat fuel))) <= 100.
Proof. apply chat_fit. Qed.

Definition usable (r : option value) : Prop := exists v m s, r = Some v /\ message_of v = Some m /\ content_of m = Some s.
Lemma summarise_usable tr t : (forall tr ms, usable (reply (tr ++ [Summed ms]))) -> exists s, summarise tr t = (tr ++ [Summed (summary_request summarizer t)], Some (Talk (Some s) (skipn (length (buffer t) - 6) (buffer t)) (sum_sizes size (skipn (length (buffer t) - 6) (buffer t))))).
Proof. intros U. destruct (U tr (summary_request summarizer t)) as (v & m & s & E1 & E2 & E3). exists s. unfold Chat_Model.summarise. cbv zeta. rewrite E1, E2, E3. reflexivity. Qed.
Lemma shrink_endless : (forall tr ms, usable (reply (tr ++ [Summed ms]))) -> forall fuel tr t, length (buffer t) <= 6 -> chars t = sum_sizes size (buffer t) -> (96000 < chars t)%N ->
  fst (fst (shrink fuel tr t)) = false /\ length (summed (snd (fst (shrink fuel tr t)))) = length (summed tr) + fuel.
Proof.
  intros U. induction fuel as [|f IH]; intros tr t L C B; cbn [Chat_Model.shrink]; assert (T : too_long t = true) by (apply N.ltb_lt; exact B); rewrite T; [cbn [fst snd]; split; [reflexivity|lia]|].
  destruct (summarise_usable tr t U) as (s & E). rewrite E. replace (length (buffer t) - 6) with 0 by lia. cbn [skipn].
  destruct (IH (tr ++ [Summed (summary_request summarizer t)]) (Talk (Some s) (buffer t) (sum_sizes size (buffer t))) L eq_refl) as [G1 G2]; [cbn [chars]; rewrite <- C; exact B|].
  split; [exact G1|]. rewrite G2, summed_app, app_length. cbn. lia.
Qed.
(** one round *)
Lemma rounds_S n fuel tr t : rounds (S n) fuel tr t =
  match shrink fuel tr t with
  | (false, tr, _) => (Endless, tr)
  | (true, tr, t) =>
      let tr := tr ++ [Asked (messages t (context tr))] in
      match reply tr with
      | None => (Failed, tr)
      | Some r =>
          match message_of r with
          | None => (Failed, tr)
          | Some m =>
              let tr := tr ++ [Heard m] in
              let t := note m t in
              match calls_of m with
              | Some calls => let '(tr, t) := run_calls calls tr t in rounds n fuel tr t
              | None =>
                  if match as_str (match choice_of r with Some c => field "finish_reason" c | None => None end) with Some f => str_eqb f (lit "tool_calls") | None => false end
                  then rounds n fuel tr t
                  else match content_of m with Some s => (Answer s, tr) | None => (Failed, tr) end
              end
          end
      end
  end.
Proof. reflexivity. Qed.
(** the first round: the model calls tools *)
Lemma first_round fuel r m calls : reply [Asked (messages (Talk None [] 0) (context []))] = Some r -> message_of r = Some m -> calls_of m = Some calls ->
  exists tr t results, chat fuel = rounds 99 fuel tr t /\ buffer t = m :: results /\ length results = length calls /\ (forall x, In x results -> exists id text, x = tool_message id text) /\ chars t = sum_sizes size (buffer t) /\ summed tr = [] /\ fit tr t.
Proof.
  intros R M C. unfold Chat_Model.chat. change 100 with (S 99). rewrite rounds_S. replace (shrink fuel [] (Talk None [] 0)) with (true, @nil (event transport), Talk None [] 0) by (destruct fuel; reflexivity).
  cbv zeta. cbn [app]. rewrite R, M, C. assert (F0 : fit [] (Talk None [] 0)).
  { split; [intros a e b E; destruct a; discriminate|constructor|reflexivity|]. exists []. split; [reflexivity|]. split; [auto|]. split; [congruence|]. intros x s []. }
  pose proof (asked_fit [] _ F0) as F1. cbn [app] in F1. destruct (heard_fit _ _ m (Some calls) F1 C) as [F2 _]. cbn [app] in F2.
  destruct (run_calls_spec calls ([Asked (messages (Talk None [] 0) (context []))] ++ [Heard m]) (note m (Talk None [] 0))) as (ev & rs & E1 & E2 & E3 & E4 & E5 & E6 & E7 & E8 & E9).
  { apply history_snoc; [apply (fit_history _ _ F1)|exact Logic.I]. }
  { exact Logic.I. }
  cbn [app] in *. destruct (run_calls calls [Asked (messages (Talk None [] 0) (context [])); Heard m] (note m (Talk None [] 0))) as [tr t]. cbn [fst snd] in *. exists tr, t, rs.
  split; [reflexivity|]. split; [exact E8|]. split; [symmetry; clear - E6; induction E6; cbn [length]; congruence|]. split.
  - intros x I. clear - E6 I. induction E6 as [|c y cs ys [text ->] _ IH]; [destruct I|]. destruct I as [<- |I]; [do 2 eexists; reflexivity|exact (IH I)].
  - split; [exact (fit_chars _ _ F2)|]. split; [|exact F2]. rewrite E1. change (summed ([Asked (messages (Talk None [] 0) (context [])); Heard m] ++ ev)) with (summed ev). exact E3.
Qed.
(** But a conversation need not end, and asks for a summary again and again: whenever the model calls up to five tools
    in a message that is too long, as one that writes a long file. *)
Theorem C167_endless_refuted r m calls : reply [Asked (messages (Talk None [] 0) (context []))] = Some r -> message_of r = Some m -> calls_of m = Some calls ->
  length calls <= 5 -> (96000 < size m)%N -> (forall tr ms, usable (reply (tr ++ [Summed ms]))) ->
  forall fuel, fst (chat fuel) = Endless /\ length (summed (snd (chat fuel))) = fuel.
Proof.
  intros R M C L B U fuel. destruct (first_round fuel r m calls R M C) as (tr & t & rs & -> & Bt & Lr & _ & Ct & St & _). change 99 with (S 98). rewrite rounds_S.
  assert (L6 : length (buffer t) <= 6) by (rewrite Bt; cbn [length]; lia). assert (Bg : (96000 < chars t)%N) by (rewrite Ct, Bt; change (m :: rs) with ([m] ++ rs); rewrite sum_app; change (sum_sizes size [m]) with (0 + size m)%N; lia).
  destruct (shrink_endless U fuel tr t L6 Ct Bg) as [G1 G2]. destruct (shrink fuel tr t) as [[b tr1] t1]. cbn [fst snd] in *. subst b. cbn [fst snd]. split; [reflexivity|]. rewrite G2, St. reflexivity.
Qed.
(** ** C166, what fails: after a summary the results of tools are sent without the calls they answer. *)
Theorem C166_orphans_refuted r m calls fuel : reply [Asked (messages (Talk None [] 0) (context []))] = Some r -> message_of r = Some m -> calls_of m = Some calls ->
  6 <= length calls -> (96000 < size m)%N -> (forall tr ms, usable (reply (tr ++ [Summed ms]))) -> (forall id text, size (tool_message id text) <= 16000)%N ->
  exists ms, In ms (asked (snd (chat (S fuel)))) /\ (exists id text, In (tool_message id text) ms) /\ forall x, In x ms -> calls_of x = None.
Proof.
  intros R M C L B U Sm. destruct (first_round (S fuel) r m calls R M C) as (tr & t & rs & -> & Bt & Lr & Tr & Ct & St & _). change 99 with (S 98). rewrite rounds_S. cbn [Chat_Model.shrink].
  assert (Bg : too_long t = true) by (apply N.ltb_lt; rewrite Ct, Bt; change (m :: rs) with ([m] ++ rs); rewrite sum_app; change (sum_sizes size [m]) with (0 + size m)%N; lia). rewrite Bg.
  destruct (summarise_usable tr t U) as (s & E). rewrite E. set (kept := skipn (length (buffer t) - 6) (buffer t)).
  assert (Kr : kept = skipn (length rs - 6) rs). { unfold kept. rewrite Bt. cbn [length]. replace (S (length rs) - 6) with (S (length rs - 6)) by lia. reflexivity. }
  assert (Kl : length kept = 6) by (rewrite Kr, skipn_length; lia).
  assert (Kt : forall x, In x kept -> exists id text, x = tool_message id text). { intros x I. apply Tr. rewrite Kr in I. rewrite <- (firstn_skipn (length rs - 6) rs). apply in_app_iff. right. exact I. }
  assert (Ks : forall l, (forall x, In x l -> exists id text, x = tool_message id text) -> (sum_sizes size l <= 16000 * N.of_nat (length l))%N).
  { clear - Sm. induction l as [|y l IH]; intros H; [cbn; lia|]. change (y :: l) with ([y] ++ l). rewrite sum_app. change (sum_sizes size [y]) with (0 + size y)%N. destruct (H y (or_introl eq_refl)) as (i & x & ->). specialize (Sm i x). assert (IH' := IH (fun z I => H z (or_intror I))). cbn [length app]. lia. }
  assert (Sk : too_long (Talk (Some s) kept (sum_sizes size kept)) = false) by (apply N.ltb_ge; cbn [chars]; specialize (Ks kept Kt); rewrite Kl in Ks; lia).
  assert (Sh : shrink fuel (tr ++ [Summed (summary_request summarizer t)]) (Talk (Some s) kept (sum_sizes size kept)) = (true, tr ++ [Summed (summary_request summarizer t)], Talk (Some s) kept (sum_sizes size kept))) by (destruct fuel; cbn [Chat_Model.shrink]; rewrite Sk; reflexivity).
  rewrite Sh. cbv zeta. set (tr1 := tr ++ [Summed (summary_request summarizer t)]). set (t1 := Talk (Some s) kept (sum_sizes size kept)). set (ms := messages t1 (context tr1)). exists ms.
  assert (Sub : forall x, (exists ev, x = (tr1 ++ [Asked ms]) ++ ev) -> In ms (asked x)) by (intros x [ev ->]; rewrite !asked_app, !in_app_iff; left; right; left; reflexivity).
  split; [|split].
  - apply Sub. destruct (reply (tr1 ++ [Asked ms])) as [r2|]; [|exists []; rewrite app_nil_r; reflexivity]. destruct (message_of r2) as [m2|]; [|exists []; rewrite app_nil_r; reflexivity]. destruct (calls_of m2) as [cs2|].
    + destruct (run_calls_grows cs2 ((tr1 ++ [Asked ms]) ++ [Heard m2]) (note m2 t1)) as [e3 E3]. destruct (run_calls cs2 ((tr1 ++ [Asked ms]) ++ [Heard m2]) (note m2 t1)) as [tr3 t3]. cbn [fst] in E3. destruct (rounds_grows (S fuel) 98 tr3 t3) as [e4 E4]. rewrite E4, E3. eexists. rewrite <- !app_assoc. reflexivity.
    + destruct (match as_str _ with Some f => _ | None => _ end).
      * destruct (rounds_grows (S fuel) 98 ((tr1 ++ [Asked ms]) ++ [Heard m2]) (note m2 t1)) as [e4 E4]. rewrite E4. eexists. rewrite <- !app_assoc. reflexivity.
      * destruct (content_of m2); eexists; reflexivity.
  - destruct kept as [|k kept'] eqn:K; [discriminate|]. destruct (Kt k (or_introl eq_refl)) as (id & text & ->). exists id, text. unfold ms, Chat_Model.messages, t1. cbn [summary buffer]. apply in_app_iff. right. right. left. reflexivity.
  - intros x I. unfold ms, Chat_Model.messages, t1 in I. cbn [summary buffer] in I. apply in_app_iff in I as [I|I]; [destruct I as [<- |[<- |[<- |[]]]]; reflexivity|]. apply in_app_iff in I as [[<- |[]]|I]; [reflexivity|]. destruct (Kt x I) as (id & text & ->). reflexivity.
Qed.

(** ** C168: the answer *)
Lemma message_first r m : message_of r = Some m -> exists c, first_choice r c /\ field "message" c = Some m.
Proof.
  unfold message_of, choice_of, first_choice. destruct (field "choices" r) as [w|]; [|discriminate]. destruct w as [|l| |]; try discriminate. cbn [as_array]. destruct l as [|c l]; [discriminate|]. intros E. exists c. split; [exists l; reflexivity|exact E].
Qed.
Lemma rounds_answer fuel n : forall tr t s, fst (rounds n fuel tr t) = Answer s -> exists a ms r c m, snd (rounds n fuel tr t) = (a ++ [Asked ms]) ++ [Heard m] /\
  reply (a ++ [Asked ms]) = Some r /\ first_choice r c /\ field "message" c = Some m /\ calls_of m = None /\ content_of m = Some s.
Proof.
  induction n as [|n IH]; intros tr t s; cbn [Chat_Model.rounds]; [discriminate|]. destruct (shrink fuel tr t) as [[b tr1] t1]. destruct b; [|discriminate]. cbv zeta.
  destruct (reply (tr1 ++ _)) as [r|] eqn:R; [|discriminate]. destruct (message_of r) as [m|] eqn:M; [|discriminate]. destruct (calls_of m) as [calls|] eqn:C.
  - destruct (run_calls _ _ _) as [tr3 t3]. apply IH.
  - destruct (match as_str _ with Some f => _ | None => _ end); [apply IH|]. destruct (content_of m) as [x|] eqn:X; [|discriminate]. intros [= <-]. destruct (message_first r m M) as (c & Fc & Fm). exists tr1, (messages t1 (context tr1)), r, c, m. auto 10.
Qed.
(** What is shown is the text of the last message heard, which is that of the first choice of the service's reply to the last request. *)
Theorem C168_answer fuel s : fst (chat fuel) = Answer s -> exists a ms r c m, snd (chat fuel) = (a ++ [Asked ms]) ++ [Heard m] /\
  reply (a ++ [Asked ms]) = Some r /\ first_choice r c /\ field "message" c = Some m /\ calls_of m = None /\ content_of m = Some s.
Proof. apply rounds_answer. Qed.
(** a reply that is text and calls no tool *)
Definition plain (r : option value) (s : str) : Prop := exists v c m, r = Some v /\ first_choice v c /\ field "message" c = Some m /\ calls_of m = None /\ content_of m = Some s /\
  field "finish_reason" c <> Some (Str (lit "tool_calls")).
Lemma same_place {A} (a c : list A) x y b d : a ++ x :: b = c ++ y :: d -> length a = length c -> a = c /\ x = y /\ b = d.
Proof.
  revert c. induction a as [|u a IH]; intros [|v c] E L; cbn in *; try discriminate; [injection E as -> ->; auto|]. injection E as -> E. destruct (IH c E) as (-> & -> & ->); [lia|auto].
Qed.
Lemma rounds_plain fuel n a ms b s : forall tr t, fit tr t -> snd (rounds n fuel tr t) = a ++ Asked ms :: b -> length tr <= length a -> plain (reply (a ++ [Asked ms])) s -> fst (rounds n fuel tr t) = Answer s.
Proof.
  assert (Skip : forall pre ev rest, pre ++ ev ++ rest = a ++ Asked ms :: b -> length pre <= length a -> asked ev = [] -> length (pre ++ ev) <= length a).
  { intros pre ev rest E L Q. destruct (Nat.le_gt_cases (length (pre ++ ev)) (length a)) as [G|G]; [exact G|]. exfalso. rewrite app_length in G. assert (I : In (Asked ms) ev).
    { assert (X : nth_error (pre ++ ev ++ rest) (length a) = Some (Asked ms)) by (rewrite E, nth_error_app2, Nat.sub_diag by lia; reflexivity). rewrite nth_error_app2 in X by lia. rewrite nth_error_app1 in X by lia. eapply nth_error_In. exact X. }
    clear - I Q. induction ev as [|e ev IH]; [destruct I|]. destruct I as [-> |I]; [discriminate|]. unfold Chat_Spec.asked in Q. cbn [flat_map] in Q. apply app_eq_nil in Q as [_ Q]. exact (IH Q I). }
  induction n as [|n IH]; intros tr t F E L P.
  - cbn [Chat_Model.rounds snd] in E. subst tr. rewrite app_length in L. cbn [length] in L. lia.
  - cbn [Chat_Model.rounds] in *. destruct (shrink_fit fuel tr t F) as [F1 _]. destruct (shrink_grows fuel tr t) as (e1 & E1 & A1 & _). destruct (shrink fuel tr t) as [[x tr1] t1]. cbn [fst snd] in E1, F1. subst tr1. destruct x.
    + cbv zeta in *. set (tr1 := tr ++ e1) in *. set (q := messages t1 (context tr1)) in *. pose proof (asked_fit tr1 t1 F1) as F2. fold q in F2.
      assert (G : exists rest, a ++ Asked ms :: b = tr ++ e1 ++ Asked q :: rest).
      { rewrite <- E. assert (Gr : forall ev, exists rest, (tr1 ++ [Asked q]) ++ ev = tr ++ e1 ++ Asked q :: rest) by (intros ev; exists ev; unfold tr1; rewrite <- !app_assoc; reflexivity).
        destruct (reply (tr1 ++ [Asked q])) as [r|]; [|exists []; unfold tr1; cbn [snd]; rewrite <- app_assoc; reflexivity]. destruct (message_of r) as [m|]; [|exists []; unfold tr1; cbn [snd]; rewrite <- app_assoc; reflexivity]. destruct (calls_of m) as [cs|].
        - destruct (run_calls_grows cs ((tr1 ++ [Asked q]) ++ [Heard m]) (note m t1)) as [e3 E3]. destruct (run_calls cs ((tr1 ++ [Asked q]) ++ [Heard m]) (note m t1)) as [tr3 t3]. cbn [fst] in E3. destruct (rounds_grows fuel n tr3 t3) as [e4 E4]. rewrite E4, E3, <- !(app_assoc (tr1 ++ [Asked q])). apply Gr.
        - destruct (match as_str _ with Some f => _ | None => _ end); [destruct (rounds_grows fuel n ((tr1 ++ [Asked q]) ++ [Heard m]) (note m t1)) as [e4 E4]; rewrite E4, <- !(app_assoc (tr1 ++ [Asked q])); apply Gr|]. destruct (content_of m); apply Gr. }
      destruct G as [rest G]. assert (L1 : length tr1 <= length a) by (unfold tr1; eapply Skip; [symmetry; exact G|exact L|exact A1]).
      destruct (Nat.eq_dec (length a) (length tr1)) as [El|El].
      * unfold tr1 in El. rewrite app_assoc in G. destruct (same_place _ _ _ _ _ _ G El) as (Ea & Eq & _). injection Eq as Eq. fold tr1 in Ea. destruct P as (v & c & m & R & [more Fc] & Fm & C & X & Fn). rewrite Ea, Eq in R. assert (Ch : choice_of v = Some c) by (unfold choice_of; rewrite Fc; reflexivity). assert (M : message_of v = Some m) by (unfold message_of; rewrite Ch; exact Fm). rewrite R, M, C.
        replace (match as_str (match choice_of v with Some c => field "finish_reason" c | None => None end) with Some f => str_eqb f (lit "tool_calls") | None => false end) with false; [rewrite X; reflexivity|].
        rewrite Ch. destruct (field "finish_reason" c) as [w|]; [|reflexivity]. destruct w; try reflexivity. cbn [as_str]. destruct (str_eqb_spec s0 (lit "tool_calls")) as [-> |]; [congruence|reflexivity].
      * assert (L2 : length (tr1 ++ [Asked q]) <= length a) by (rewrite app_length; cbn [length]; lia).
        destruct (reply (tr1 ++ [Asked q])) as [r|]; [|cbn [snd] in E; rewrite E, app_length in L2; cbn [length] in L2; lia]. destruct (message_of r) as [m|]; [|cbn [snd] in E; rewrite E, app_length in L2; cbn [length] in L2; lia].
        destruct (heard_fit _ _ m (calls_of m) F2 eq_refl) as [F3 A3].
        assert (L3 : forall ev, (tr1 ++ [Asked q]) ++ [Heard m] ++ ev = a ++ Asked ms :: b -> length ((tr1 ++ [Asked q]) ++ [Heard m]) <= length a) by (intros ev Ev; eapply Skip; [exact Ev|exact L2|reflexivity]).
        destruct (calls_of m) as [cs|].
        -- destruct (run_calls_grows cs ((tr1 ++ [Asked q]) ++ [Heard m]) (note m t1)) as [e3 E3]. destruct (run_calls cs ((tr1 ++ [Asked q]) ++ [Heard m]) (note m t1)) as [tr3 t3]. cbn [fst snd] in *. destruct (rounds_grows fuel n tr3 t3) as [e4 E4].
           assert (E5 : ((tr1 ++ [Asked q]) ++ [Heard m]) ++ e3 ++ e4 = a ++ Asked ms :: b) by (rewrite <- E, E4, E3, <- !app_assoc; reflexivity).
           assert (A3' : asked e3 = []). { rewrite E3, (asked_app ((tr1 ++ [Asked q]) ++ [Heard m])), (asked_app (tr1 ++ [Asked q])) in A3. change (asked [Heard m]) with (@nil (list value)) in A3. rewrite app_nil_r in A3. rewrite <- (app_nil_r (asked (tr1 ++ [Asked q]))) in A3 at 2. exact (app_inv_head _ _ _ A3). }
           apply (IH tr3 t3 F3 E); [|exact P]. rewrite E3. eapply Skip; [exact E5| |exact A3']. apply (L3 (e3 ++ e4)). rewrite (app_assoc (tr1 ++ [Asked q])). exact E5.
        -- cbn [Chat_Model.run_calls fst snd] in F3. destruct (match as_str _ with Some f => _ | None => _ end).
           ++ apply (IH _ _ F3 E); [|exact P]. destruct (rounds_grows fuel n ((tr1 ++ [Asked q]) ++ [Heard m]) (note m t1)) as [e4 E4]. apply (L3 e4). rewrite (app_assoc (tr1 ++ [Asked q])), <- E4. exact E.
           ++ exfalso. assert (E6 : (tr1 ++ [Asked q]) ++ [Heard m] = a ++ Asked ms :: b) by (destruct (content_of m); exact E). specialize (L3 [] E6). rewrite E6, app_length in L3. cbn [length] in L3. lia.
    + cbn [snd] in E. exfalso. assert (L1 : length (tr ++ e1) <= length a) by (eapply Skip with (rest := []); [rewrite app_nil_r; exact E|exact L|exact A1]). rewrite E, app_length in L1. cbn [length] in L1. lia.
Qed.
Theorem C168_plain_answered fuel a ms b s : snd (chat fuel) = a ++ Asked ms :: b -> plain (reply (a ++ [Asked ms])) s -> fst (chat fuel) = Answer s.
Proof.
  unfold Chat_Model.chat. generalize 100 as n. intros n E P. apply (rounds_plain fuel n a ms b s [] (Talk None [] 0)); [|exact E|apply Nat.le_0_l|exact P].
  split; [intros x e y Z; destruct x; discriminate|constructor|reflexivity|]. exists []. split; [reflexivity|]. split; [auto|]. split; [congruence|]. intros m z [].
Qed.
(** But an answer that comes with an empty list of calls, as some services send it, is never shown, whatever it says. *)
Lemma rounds_empty_calls fuel : (forall tr v m, reply tr = Some v -> message_of v = Some m -> calls_of m = Some []) -> forall n tr t s, fst (rounds n fuel tr t) <> Answer s.
Proof.
  intros H. induction n as [|n IH]; intros tr t s; cbn [Chat_Model.rounds]; [discriminate|]. destruct (shrink fuel tr t) as [[b tr1] t1]. destruct b; [|discriminate]. cbv zeta.
  destruct (reply (tr1 ++ _)) as [r|] eqn:R; [|discriminate]. destruct (message_of r) as [m|] eqn:M; [|discriminate]. rewrite (H _ r m R M). cbn [Chat_Model.run_calls]. apply IH.
Qed.
Theorem C168_empty_calls_refuted fuel : (forall tr v m, reply tr = Some v -> message_of v = Some m -> calls_of m = Some []) -> forall s, fst (chat fuel) <> Answer s.
Proof. intros H s. unfold Chat_Model.chat. apply rounds_empty_calls. exact H. Qed.
Lemma rounds_waste fuel : (forall tr, exists v m, reply tr = Some v /\ message_of v = Some m /\ calls_of m = Some [] /\ (size m <= 900)%N) -> forall n tr t, (chars t + 900 * N.of_nat n <= 96000)%N ->
  fst (rounds n fuel tr t) = Too_many /\ length (asked (snd (rounds n fuel tr t))) = length (asked tr) + n.
Proof.
  intros H. induction n as [|n IH]; intros tr t B; cbn [Chat_Model.rounds]; [split; [reflexivity|cbn [snd]; lia]|].
  replace (shrink fuel tr t) with (true, tr, t) by (destruct fuel; cbn [Chat_Model.shrink]; replace (too_long t) with false by (symmetry; apply N.ltb_ge; lia); reflexivity). cbv zeta.
  destruct (H (tr ++ [Asked (messages t (context tr))])) as (v & m & R & M & C & S). rewrite R, M, C. cbn [Chat_Model.run_calls]. destruct (IH ((tr ++ [Asked (messages t (context tr))]) ++ [Heard m]) (note m t)) as [G1 G2]; [unfold Chat_Model.note; cbn [chars]; lia|].
  split; [exact G1|]. rewrite G2, !asked_app, !app_length. cbn. lia.
Qed.
Theorem C168_wasted_refuted fuel : (forall tr, exists v m, reply tr = Some v /\ message_of v = Some m /\ calls_of m = Some [] /\ (size m <= 900)%N) ->
  fst (chat fuel) = Too_many /\ length (asked (snd (chat fuel))) = 100.
Proof.
  intros H. unfold Chat_Model.chat. assert (G : forall n, (900 * N.of_nat n <= 96000)%N -> fst (rounds n fuel [] (Talk None [] 0)) = Too_many /\ length (asked (snd (rounds n fuel [] (Talk None [] 0)))) = n).
  { intros n B. apply (rounds_waste fuel H n [] (Talk None [] 0)). exact B. }
  apply G. vm_compute. discriminate.
Qed.
End Chat.

(** the text of an answer: a text, or its parts in order *)
Theorem C168_text m s : field "content" m = Some (Str s) -> trim s <> [] -> content_of m = Some s.
Proof. apply content_string. Qed.
Theorem C168_parts m ss : field "content" m = Some (Arr (map text_part ss)) -> trim (concat ss) <> [] -> content_of m = Some (concat ss).
Proof.
  intros F T. unfold content_of. rewrite F. assert (E : concat (segments (Arr (map text_part ss))) = concat ss).
  { clear. cbn [segments]. induction ss as [|s ss IH]; [reflexivity|]. cbn [map flat_map concat]. rewrite concat_app, IH. f_equal. destruct s as [|c s]; [reflexivity|]. assert (X : segments (text_part (c :: s)) = [c :: s]) by reflexivity. rewrite X. cbn [concat]. apply app_nil_r. }
  rewrite E. cbv zeta. destruct (trim (concat ss)); [contradiction|reflexivity].
Qed.
(** What the user sees before the question, and the question itself, tell only the first 80 bytes of the arguments. *)
Theorem C165_shown_refuted name (a : str) b c : blen a = 80 -> b <> [] -> c <> [] -> shown_line name (a ++ b) = shown_line name (a ++ c).
Proof.
  intros L Nb Nc. unfold shown_line. do 5 f_equal. f_equal. f_equal. unfold truncate_args.
  assert (P : forall x : str, x <> [] -> (80 <? blen (a ++ x)) = true) by (intros x X; apply Nat.ltb_lt; rewrite blen_app, L; destruct x as [|y x]; [contradiction|]; cbn [blen]; pose proof (utf8_len_pos y); lia).
  rewrite (P b Nb), (P c Nc). f_equal.
  assert (G : forall (a x : str) n, blen a = n -> floor_prefix n (a ++ x) = a).
  { clear. induction a as [|y a IH]; intros x n E; cbn [blen] in E; subst n; [destruct x as [|z x]; [reflexivity|]; cbn [app floor_prefix]; pose proof (utf8_len_pos z); destruct (Nat.leb_spec (utf8_len z) 0); [lia|reflexivity]|].
    cbn [app floor_prefix]. destruct (Nat.leb_spec (utf8_len y) (utf8_len y + blen a)); [|lia]. f_equal. apply IH. lia. }
  rewrite !G by exact L. reflexivity.
Qed.

(** ** Concrete chats *)
Section Examples.
Definition server : config unit := Config _ (lit "files") None tt.
Definition mcp : manager unit := load unit (fun _ => 7%N) (fun _ => Some [lit "Open File"]) [] [server].
Definition name : str := hd [] (map fst (bindings _ mcp)).
Definition call (id n args : str) : value := Obj [(lit "id", Str id); (lit "function", Obj [(lit "name", Str n); (lit "arguments", Str args)])].
Definition answer (m : value) : value := Obj [(lit "choices", Arr [Obj [(lit "message", m)]])].
Definition calling : value := Obj [(lit "role", Str (lit "assistant")); (lit "tool_calls", Arr [call (lit "1") name (lit "{}"); call (lit "2") (lit "ls") (lit "{}"); call (lit "3") (lit "rm") (lit "{}")])].
Definition closing : value := Obj [(lit "role", Str (lit "assistant")); (lit "content", Arr (map text_part [lit "all "; lit "done"]))].
Definition run (big : N) (fuel : nat) := chat unit mcp (fun _ => Object []) (fun _ => Some true) (fun _ => Ok (lit "fine")) (fun x => x)
  (fun tr => match last tr (Shown []) with Summed _ => Some (answer closing) | _ => match length (asked _ tr) with 1 => Some (answer calling) | _ => Some (answer closing) end end)
  (fun _ => lit "here") (fun m => match calls_of m with Some _ => big | None => 10%N end) (lit "sys") (lit "do it") (lit "sum up") fuel.
(** one tool of the server's, one of the shell's own and one that does not exist; then the answer *)
Example C165_example : fst (run 20 0) = Answer (lit "all done") /\
  snd (run 20 0) = [Asked [says "system" (lit "sys"); says "user" (lit "here"); says "user" (lit "do it")]; Heard calling;
    Shown (shown_line name (lit "{}")); Question (question name); Called tt (lit "Open File") (Some []); Told (lit "1") (lit "fine");
    Shown (shown_line (lit "ls") (lit "{}")); Own (lit "ls") (lit "{}"); Told (lit "2") (lit "fine");
    Shown (shown_line (lit "rm") (lit "{}")); Told (lit "3") (result_text (Err (lit "chat: unsupported tool `rm`")));
    Asked ([says "system" (lit "sys"); says "user" (lit "here"); says "user" (lit "do it"); calling] ++ [tool_message (lit "1") (lit "fine"); tool_message (lit "2") (lit "fine"); tool_message (lit "3") (result_text (Err (lit "chat: unsupported tool `rm`")))]);
    Heard closing].
Proof. vm_compute. split; reflexivity. Qed.
(** one message that is too long: the summaries never end *)
Example C167_example : fst (run 96001 7) = Endless /\ length (summed _ (snd (run 96001 7))) = 7.
Proof. vm_compute. split; reflexivity. Qed.
(** a server whose tools have changed since they were first listed *)
Example C165_stale : let k := load_cache unit (fun _ => 7%N) (fun _ => Some [lit "old"]) [] [server] in
  map (tools _) (servers _ (load unit (fun _ => 7%N) (fun _ => Some [lit "new"]) k [server])) = [[lit "old"]].
Proof. vm_compute. reflexivity. Qed.
End Examples.
Print Assumptions C165_confirmed.
Print Assumptions C165_own.
Print Assumptions C165_told.
Print Assumptions C166_sent.
Print Assumptions C166_answered.
Print Assumptions C167_bounded_partial.
Print Assumptions C167_endless_refuted.
Print Assumptions C166_orphans_refuted.
Print Assumptions C168_answer.
Print Assumptions C168_plain_answered.
Print Assumptions C168_empty_calls_refuted.
Print Assumptions C168_wasted_refuted.
Print Assumptions C168_text.
Print Assumptions C168_parts.
Print Assumptions C165_shown_refuted.
