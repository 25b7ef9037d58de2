(** C161: the explanation of the option at the cursor. *)
From Verif Require Import Base Token_Model Comp_Model Comp_Spec Comp_Words Explain_Model Explain_Spec.

(** ** Looking up *)
Lemma find_by_iff which name os d : find_by which name os = Some d <-> says which name os d.
Proof.
  unfold find_by, says. induction os as [|o os IH]; cbn [find].
  - split; [discriminate|]. intros (b & o & a & E & _). destruct b; discriminate.
  - destruct (which o) as [x|] eqn:W.
    + destruct (str_eqb_spec x name) as [-> |N].
      * split.
        -- intros T. exists [], o, os. repeat split; try assumption. intros p [].
        -- intros (b & o' & a & E & W' & T & Nb). destruct b as [|p b]; [injection E as <- _; exact T|]. injection E as <- _. exfalso. apply (Nb o); [left; reflexivity|exact W].
      * rewrite IH. split.
        -- intros (b & o' & a & -> & W' & T & Nb). exists (o :: b), o', a. repeat split; try assumption. intros p [<- |I]; [congruence|exact (Nb p I)].
        -- intros (b & o' & a & E & W' & T & Nb). destruct b as [|p b]; [injection E as <- _; congruence|]. injection E as <- ->. exists b, o', a. repeat split; try assumption. intros p I. apply Nb. right. exact I.
    + rewrite IH. split.
      * intros (b & o' & a & -> & W' & T & Nb). exists (o :: b), o', a. repeat split; try assumption. intros p [<- |I]; [congruence|exact (Nb p I)].
      * intros (b & o' & a & E & W' & T & Nb). destruct b as [|p b]; [injection E as <- _; congruence|]. injection E as <- ->. exists b, o', a. repeat split; try assumption. intros p I. apply Nb. right. exact I.
Qed.
Lemma first_found_app which name a b : first_found which name (a ++ b) = match first_found which name a with Some d => Some d | None => first_found which name b end.
Proof. induction a as [|os a IH]; [reflexivity|]. cbn [app first_found]. destruct (find_by which name os); [reflexivity|exact IH]. Qed.
Lemma first_found_none which name l : first_found which name l = None <-> forall p e, In p l -> ~ says which name p e.
Proof.
  induction l as [|os l IH]; cbn [first_found]; [split; [intros _ p e []|reflexivity]|]. destruct (find_by which name os) as [d|] eqn:F.
  - split; [discriminate|]. intros H. exfalso. apply (H os d); [left; reflexivity|]. apply find_by_iff. exact F.
  - rewrite IH. split; intros H p e I; [|apply H; right; exact I]. destruct I as [<- |I]; [|exact (H p e I)]. rewrite <- find_by_iff, F. discriminate.
Qed.
Lemma innermost_iff which name levels d : first_found which name (rev levels) = Some d <-> innermost which name levels d.
Proof.
  induction levels as [|os levels IH]; cbn [rev].
  - split; [discriminate|]. intros (o & x & i & E & _). destruct o; discriminate.
  - rewrite first_found_app. destruct (first_found which name (rev levels)) as [e|] eqn:F.
    + split.
      * intros [= ->]. destruct (proj1 IH eq_refl) as (o & x & i & E & S & Nn). exists (os :: o), x, i. split; [cbn; congruence|auto].
      * intros (o & x & i & E & S & Nn). destruct o as [|y o].
        -- injection E as <- <-. exfalso. destruct (first_found_none which name (rev levels)) as [_ G]. rewrite G in F; [discriminate|]. intros p e' I. apply Nn. apply in_rev. exact I.
        -- injection E as <- E. apply IH. exists o, x, i. auto.
    + cbn [first_found]. pose proof (proj1 (first_found_none which name (rev levels)) F) as G. split.
      * destruct (find_by which name os) as [e|] eqn:B; [|discriminate]. intros [= ->]. exists [], os, levels. split; [reflexivity|]. split; [apply find_by_iff; exact B|].
        intros p e' I. apply G. apply (proj1 (in_rev levels p)). exact I.
      * intros (o & x & i & E & S & Nn). destruct o as [|y o]; [injection E as <- _; apply find_by_iff in S; rewrite S; reflexivity|]. injection E as <- ->.
        exfalso. apply (G x d); [|exact S]. apply (proj1 (in_rev _ x)). apply in_app_iff. right. left. reflexivity.
Qed.
Lemma levels_nested subs names rest : nested subs names rest -> levels subs names = rest.
Proof.
  induction 1 as [subs|before s after name names rest E Nb _ IH]; [reflexivity|]. cbn [levels].
  assert (F : find (fun x => str_eqb (xs_name x) name) (before ++ s :: after) = Some s).
  { clear IH. induction before as [|b before IHb]; cbn [app find].
    - rewrite E, str_eqb_refl. reflexivity.
    - destruct (str_eqb_spec (xs_name b) name) as [X|_]; [exfalso; exact (Nb b (or_introl eq_refl) X)|]. apply IHb. intros b' I. apply Nb. right. exact I. }
  rewrite F, IH. reflexivity.
Qed.

(** ** A cursor in the last word *)
Lemma take_front (u v : str) : take_bytes (blen u) (u ++ v) = u.
Proof.
  induction u as [|c u IH]; cbn [blen app take_bytes]; [destruct v as [|x v]; [reflexivity|]; cbn [take_bytes]; pose proof (utf8_len_pos x); destruct (Nat.leb_spec (utf8_len x) 0); [lia|reflexivity]|].
  destruct (Nat.leb_spec (utf8_len c) (utf8_len c + blen u)); [|lia]. replace (utf8_len c + blen u - utf8_len c) with (blen u) by lia. rewrite IH. reflexivity.
Qed.
Lemma line_blen ws (w : str) : blen (line_of ws w) = blen (line_of ws []) + blen w.
Proof. unfold line_of. rewrite !blen_app. cbn [blen]. lia. Qed.
Lemma cursor_mid ws (u v : str) : u <> [] -> forall j b i,
  cursor_token j (spans_of b i ws (u ++ v)) (b + blen (line_of ws u)) = (j + length ws, true).
Proof.
  intros Nu. induction ws as [|w ws IH]; intros j b i; cbn [spans_of cursor_token length].
  - unfold line_of. cbn [flat_map app]. rewrite Nat.add_0_r. destruct u as [|c u]; [contradiction|]. cbn [app cursor_token byte_end byte_start]. rewrite app_comm_cons, blen_app.
    destruct (Nat.leb_spec (b + blen (c :: u)) (b + (blen (c :: u) + blen v))); [|lia]. destruct (Nat.leb_spec b (b + blen (c :: u))); [reflexivity|lia].
  - cbn [byte_end]. rewrite blen_line_cons. destruct (Nat.leb_spec (b + (blen w + 1 + blen (line_of ws u))) (b + blen w)); [lia|].
    replace (b + (blen w + 1 + blen (line_of ws u))) with (b + blen w + 1 + blen (line_of ws u)) by lia. rewrite IH. f_equal. lia.
Qed.
Lemma last_span ws (w : str) : w <> [] -> exists i', nth_error (spans_of 0 0 ws w) (length ws) = Some (Span w (blen (line_of ws [])) (blen (line_of ws []) + blen w) i' (i' + length w)).
Proof.
  intros N. destruct w as [|c w]; [contradiction|]. destruct (nth_spans ws c w 0 0) as (b & i & E1 & E2). cbn [Nat.add] in E2. rewrite (line_blen ws (c :: w)) in E2.
  assert (b = blen (line_of ws [])) as -> by lia. exists i. exact E1.
Qed.
Lemma raw_last ws (w : str) : w <> [] -> map raw (spans_of 0 0 ws w) = ws ++ [w].
Proof. intros N. rewrite raw_spans. destruct w; [contradiction|reflexivity]. Qed.
Lemma plain_front (u v : str) : plain (u ++ v) -> plain u.
Proof. intros P. apply Forall_app in P. tauto. Qed.
Lemma tokens_mid ws (u v : str) : Forall word ws -> plain (u ++ v) -> u <> [] -> cursor_tokens (line_of ws (u ++ v)) (blen (line_of ws u)) = (ws ++ [u], length ws).
Proof.
  intros H P N. unfold cursor_tokens, tokenize. rewrite (scan_words ws (u ++ v) H P 0 0 []). cbn [app].
  pose proof (cursor_mid ws u v N 0 0 0) as C. cbn [Nat.add] in C. rewrite C. assert (Nw : u ++ v <> []) by (destruct u; [contradiction|discriminate]).
  destruct (last_span ws (u ++ v) Nw) as (i & E). rewrite E, (raw_last ws _ Nw). cbn [raw byte_start]. rewrite (line_blen ws u).
  replace (blen (line_of ws []) + blen u - blen (line_of ws [])) with (blen u) by lia. f_equal.
  destruct (Nat.ltb_spec (blen u) (blen (u ++ v))) as [L|L].
  - rewrite take_front, firstn_app, Nat.sub_diag, firstn_all, app_nil_r, skipn_app, (skipn_all2 ws) by lia. replace (S (length ws) - length ws) with 1 by lia. reflexivity.
  - rewrite blen_app in L. assert (blen v = 0) by lia. apply blen_zero in H0. subst v. rewrite app_nil_r. reflexivity.
Qed.
Lemma token_mid ws (u v : str) : Forall word ws -> plain (u ++ v) -> u <> [] -> token_at_cursor (line_of ws (u ++ v)) (blen (line_of ws u)) = Some (u ++ v, blen u).
Proof.
  intros H P N. unfold token_at_cursor, tokenize. rewrite (scan_words ws (u ++ v) H P 0 0 []). cbn [app].
  pose proof (cursor_mid ws u v N 0 0 0) as C. cbn [Nat.add] in C. rewrite C. assert (Nw : u ++ v <> []) by (destruct u; [contradiction|discriminate]).
  destruct (last_span ws (u ++ v) Nw) as (i & E). rewrite E. cbn [raw byte_start]. rewrite (line_blen ws u). f_equal. f_equal. lia.
Qed.
Lemma trim_some (s : str) c : In c s -> is_whitespace c = false -> trim s <> [].
Proof.
  assert (K : forall x : str, (exists c, In c x /\ is_whitespace c = false) -> exists c, In c (trim_start x) /\ is_whitespace c = false).
  { induction x as [|a x IH]; intros (d & I & W); [destruct I|]. unfold trim_start in *. cbn. destruct (is_whitespace a) eqn:A; [|exists a; split; [left; reflexivity|exact A]].
    apply IH. exists d. split; [|exact W]. destruct I as [-> |I]; [congruence|exact I]. }
  intros I W E. destruct (K s (ex_intro _ c (conj I W))) as (d & Id & Wd). destruct (K (rev (trim_start s))) as (e & Ie & _); [exists d; split; [apply (proj1 (in_rev _ d)); exact Id|exact Wd]|].
  unfold trim, trim_end in E. apply (f_equal (@rev char)) in E. rewrite rev_involutive in E. cbn [rev] in E. change (@rev char []) with (@nil char) in E. rewrite E in Ie. destruct Ie.
Qed.

Section Explain.
Variables alphabetic alphanumeric : char -> bool.
Variable db : str -> option xcommand.
Notation looks_like_sub := (looks_like_sub alphabetic alphanumeric).
Notation shown := (shown alphabetic alphanumeric db).
Notation get_explanation := (get_explanation alphabetic alphanumeric db).
(** the words after a command: those that look like subcommands, up to the first option *)
Definition subs_then (ws rs : list str) : Prop :=
  Forall (fun w => word w /\ looks_like_sub w = true) ws /\ Forall word rs /\ match rs with [] => True | r :: _ => is_option r = true end.
Lemma option_no_sub t : is_option t = true -> looks_like_sub t = false.
Proof. intros H. unfold Comp_Model.looks_like_sub. rewrite H. reflexivity. Qed.
Lemma leading_subs ws rs (u : str) : subs_then ws rs -> is_option u = true -> leading alphabetic alphanumeric (ws ++ rs ++ [u]) = (ws, rs ++ [u]).
Proof.
  intros (F & _ & R) O. induction F as [|w ws [_ L] _ IH]; cbn [app leading]; [|rewrite L, IH; reflexivity].
  destruct rs as [|r rs]; cbn [app leading]; [rewrite (option_no_sub u O)|rewrite (option_no_sub r R)]; reflexivity.
Qed.
Lemma explained cmd ws rs (u v : str) c : word cmd -> subs_then ws rs -> plain (u ++ v) -> is_option u = true -> split_inline u = None -> db cmd = Some c ->
  get_explanation (line_of (cmd :: ws ++ rs) (u ++ v)) (blen (line_of (cmd :: ws ++ rs) u)) = explain_option (chain c ws) (u ++ v) (blen u).
Proof.
  intros Wc S P O I D. assert (Wf : Forall word (cmd :: ws ++ rs)).
  { constructor; [exact Wc|]. destruct S as (F & R & _). apply Forall_app. split; [|exact R]. eapply Forall_impl; [|exact F]. intros a [A _]. exact A. }
  assert (Nu : u <> []) by (intros ->; discriminate).
  unfold Explain_Model.get_explanation. destruct (trim (line_of (cmd :: ws ++ rs) (u ++ v))) as [|x t] eqn:T.
  { exfalso. destruct Wc as [Pc Nc]. destruct cmd as [|a cmd]; [contradiction|]. apply plain_cons in Pc as ((_ & _ & _ & _ & W) & _). eapply trim_some; [| |exact T]; [|exact W]. rewrite line_cons. left. reflexivity. }
  unfold parse. rewrite (tokens_mid _ _ _ Wf P Nu), (token_mid _ _ _ Wf P Nu). cbn [app length]. unfold analyze. rewrite <- app_assoc, (leading_subs _ _ _ S O). cbn iota beta.
  destruct (classify false (rs ++ [u])) as [o a]. cbn [Nat.eqb].
  assert (E : nth (Datatypes.S (length (ws ++ rs))) (cmd :: ws ++ rs ++ [u]) [] = u) by (cbn [nth]; rewrite app_assoc, app_nth2, Nat.sub_diag by lia; reflexivity).
  match goal with |- context [nth (Datatypes.S (length (ws ++ rs))) ?l ?z] => change (nth (Datatypes.S (length (ws ++ rs))) l z) with (nth (Datatypes.S (length (ws ++ rs))) (cmd :: ws ++ rs ++ [u]) []) end. rewrite E. match goal with |- context [context_of ?f1 ?f2 ?n ?q ?r ?y ?z ?w] => set (k := context_of f1 f2 n q r y z w) end.
  assert (K : k = In_short \/ k = In_long).
  { unfold k, context_of. rewrite I, O. destruct (is_long u); [right; reflexivity|]. destruct (blen u =? 2); auto. }
  destruct K as [-> | ->]; cbn [command ctx path]; rewrite D; reflexivity.
Qed.
Lemma ascii_cursor ws u : ascii (line_of ws u) -> length (line_of ws u) = blen (line_of ws u).
Proof. intros A. symmetry. apply ascii_blen. exact A. Qed.

(** ** C161 *)
(** The cursor in the name of a long option: what is shown is the description by the innermost
    of the subcommands on the line, with the command's own options outermost. *)
Theorem C161_long_partial cmd ws rs c rest (u v name : str) d :
  word cmd -> subs_then ws rs -> plain (u ++ v) -> ascii (line_of (cmd :: ws ++ rs) u) ->
  db cmd = Some c -> nested (x_subs c) ws rest ->
  u <> [] -> ~ In (chr "=") u -> starts_with (lit "--") (u ++ v) = true -> ~ In (chr "=") name -> (u ++ v = name \/ exists value, u ++ v = name ++ chr "=" :: value) ->
  shown None (line_of (cmd :: ws ++ rs) (u ++ v)) (length (line_of (cmd :: ws ++ rs) u)) = Some d <-> innermost x_long name (x_globals c :: rest) d.
Proof.
  intros Wc S P A D Nn Nu Eu L En Ew. unfold Explain_Model.shown. rewrite (ascii_cursor _ _ A).
  assert (O : is_option u = true). { destruct u as [|a u]; [contradiction|]. apply starts_with_iff in L as (r & L). injection L as -> _. reflexivity. }
  assert (N0 : forall s : str, ~ In (chr "=") s -> split_once (chr "=") s = None).
  { induction s as [|a s IH]; intros H; [reflexivity|]. cbn [split_once]. destruct (N.eqb_spec a (chr "=")) as [-> |_]; [exfalso; apply H; left; reflexivity|]. rewrite IH; [reflexivity|]. intros I. apply H. right. exact I. }
  assert (I : split_inline u = None) by (unfold split_inline; rewrite (N0 u Eu); destruct (is_long u); reflexivity).
  rewrite (explained cmd ws rs u v c Wc S P O I D). unfold explain_option. rewrite L.
  assert (E : match split_once (chr "=") (u ++ v) with Some (n, _) => n | None => u ++ v end = name).
  { destruct Ew as [-> |(value & ->)]; [rewrite (N0 name En); reflexivity|].
    assert (K : split_once (chr "=") (name ++ chr "=" :: value) = Some (name, value)); [|rewrite K; reflexivity].
    clear - En. induction name as [|a n IH]; [reflexivity|]. cbn [app split_once]. destruct (N.eqb_spec a (chr "=")) as [-> |_]; [exfalso; apply En; left; reflexivity|].
    rewrite IH; [reflexivity|]. intros I. apply En. right. exact I. }
  rewrite E. unfold chain. rewrite (levels_nested _ _ _ Nn). apply innermost_iff.
Qed.
(** The cursor on a letter of a word of short options: this letter's description. *)
Theorem C161_short_partial cmd ws rs c rest (u : str) x (v : str) d :
  word cmd -> subs_then ws rs -> plain (u ++ x :: v) -> ascii (line_of (cmd :: ws ++ rs) u) ->
  db cmd = Some c -> nested (x_subs c) ws rest ->
  is_option u = true -> starts_with (lit "--") (u ++ x :: v) = false ->
  shown None (line_of (cmd :: ws ++ rs) (u ++ x :: v)) (length (line_of (cmd :: ws ++ rs) u)) = Some d <-> innermost x_short [chr "-"; x] (x_globals c :: rest) d.
Proof.
  intros Wc S P A D Nn O L. unfold Explain_Model.shown. rewrite (ascii_cursor _ _ A).
  assert (Au : ascii u). { clear - A. unfold line_of, ascii in A. apply Forall_app in A. tauto. }
  assert (I : split_inline u = None).
  { unfold split_inline, is_long. destruct (starts_with (lit "--") u) eqn:E; [|reflexivity]. exfalso. apply starts_with_iff in E as (r & ->). rewrite <- app_assoc in L. assert (starts_with (lit "--") (lit "--" ++ r ++ x :: v) = true) by (apply starts_with_iff; eexists; reflexivity). congruence. }
  rewrite (explained cmd ws rs u (x :: v) c Wc S P O I D). unfold explain_option. rewrite L.
  assert (O' : starts_with (lit "-") (u ++ x :: v) = true). { apply starts_with_iff in O as (r & ->). apply starts_with_iff. exists (r ++ x :: v). rewrite <- app_assoc. reflexivity. }
  rewrite O', (ascii_blen u Au). destruct u as [|a u]; [discriminate|]. change (length (a :: u) =? 0) with false. cbn iota. rewrite nth_error_app2, Nat.sub_diag by lia. cbn [nth_error].
  unfold chain. rewrite (levels_nested _ _ _ Nn). apply innermost_iff.
Qed.
(** But with the cursor behind a word of short options, where it is while they are typed, nothing is shown. *)
Theorem C161_typed_short_refuted cmd ws rs u :
  word cmd -> subs_then ws rs -> plain u -> is_option u = true -> is_long u = false -> ascii (line_of (cmd :: ws ++ rs) u) ->
  shown None (line_of (cmd :: ws ++ rs) u) (length (line_of (cmd :: ws ++ rs) u)) = None.
Proof.
  intros Wc S P O L A. unfold Explain_Model.shown. rewrite (ascii_cursor _ _ A).
  assert (Au : ascii u). { clear - A. unfold line_of, ascii in A. apply Forall_app in A. tauto. }
  assert (I : split_inline u = None) by (unfold split_inline; rewrite L; reflexivity).
  destruct (db cmd) as [c|] eqn:D.
  - pose proof (explained cmd ws rs u [] c Wc S) as E. rewrite app_nil_r in E. rewrite (E P O I D). unfold explain_option. unfold is_long in L. rewrite L. unfold is_option in O. rewrite O.
    rewrite (ascii_blen u Au). assert (Nn : nth_error u (length u) = None) by (apply nth_error_None; lia). rewrite Nn. destruct (length u =? 0); reflexivity.
  - unfold Explain_Model.get_explanation. destruct (trim _); [reflexivity|]. assert (Wf : Forall word (ws ++ rs)).
    { destruct S as (F & R & _). apply Forall_app. split; [|exact R]. eapply Forall_impl; [|exact F]. intros a [B _]. exact B. }
    pose proof (parse_words alphabetic alphanumeric cmd (ws ++ rs) u Wc Wf P) as E. cbn zeta in E. rewrite E. unfold analyze. destruct (leading _ _ _) as [sub args]. destruct (classify false args). cbn [Nat.eqb command]. rewrite D. reflexivity.
Qed.
(** The value of a short option is read as more options: what is shown for a letter depends on
    nothing that stands before it. *)
Theorem C161_value_refuted cmd ws rs c rest flag (value : str) x (v : str) d :
  word cmd -> subs_then ws rs -> plain (chr "-" :: flag :: value ++ x :: v) -> ascii (line_of (cmd :: ws ++ rs) (chr "-" :: flag :: value)) ->
  db cmd = Some c -> nested (x_subs c) ws rest -> flag <> chr "-" -> innermost x_short [chr "-"; x] (x_globals c :: rest) d ->
  shown None (line_of (cmd :: ws ++ rs) (chr "-" :: flag :: value ++ x :: v)) (length (line_of (cmd :: ws ++ rs) (chr "-" :: flag :: value))) = Some d.
Proof.
  intros Wc S P A D Nn F H. apply (C161_short_partial cmd ws rs c rest (chr "-" :: flag :: value) x v d); try assumption; try reflexivity.
  match goal with |- ?s = false => destruct s eqn:E; [|reflexivity] end. exfalso. apply starts_with_iff in E as (r & E). injection E as E _. apply F. exact E.
Qed.
(** A subcommand given by an alias is passed over: only the options around it are explained. *)
Theorem C161_alias_refuted c a ws rest : (forall s, In s (x_subs c) -> xs_name s <> a) -> nested (x_subs c) ws rest -> chain c (a :: ws) = x_globals c :: rest.
Proof.
  intros H Nn. unfold chain. f_equal. cbn [levels]. assert (F : find (fun s => str_eqb (xs_name s) a) (x_subs c) = None).
  { clear Nn. revert H. generalize (x_subs c) as l. induction l as [|s l IH]; intros H; [reflexivity|]. cbn [find]. destruct (str_eqb_spec (xs_name s) a) as [E|_]; [exfalso; exact (H s (or_introl eq_refl) E)|]. apply IH. intros s' I. apply H. right. exact I. }
  rewrite F. apply levels_nested. exact Nn.
Qed.
Theorem C161_alias_line_refuted cmd c a ws rs rest (u v name : str) d :
  word cmd -> subs_then (a :: ws) rs -> plain (u ++ v) -> ascii (line_of (cmd :: a :: ws ++ rs) u) -> db cmd = Some c ->
  (forall s, In s (x_subs c) -> xs_name s <> a) -> nested (x_subs c) ws rest -> u ++ v = name -> u <> [] -> ~ In (chr "=") name -> starts_with (lit "--") name = true ->
  (forall p e, In p (x_globals c :: rest) -> ~ says x_long name p e) ->
  shown None (line_of (cmd :: a :: ws ++ rs) name) (length (line_of (cmd :: a :: ws ++ rs) u)) <> Some d.
Proof.
  intros Wc S P A D Ha Nn <- Nu En L Hn. unfold Explain_Model.shown. change (cmd :: a :: ws ++ rs) with (cmd :: (a :: ws) ++ rs) in *. rewrite (ascii_cursor _ _ A).
  assert (O : is_option u = true). { destruct u as [|b u]; [contradiction|]. apply starts_with_iff in L as (r & L). injection L as -> _. reflexivity. }
  assert (N0 : forall s : str, ~ In (chr "=") s -> split_once (chr "=") s = None).
  { induction s as [|b s IH]; intros H; [reflexivity|]. cbn [split_once]. destruct (N.eqb_spec b (chr "=")) as [-> |_]; [exfalso; apply H; left; reflexivity|]. rewrite IH; [reflexivity|]. intros I. apply H. right. exact I. }
  assert (I : split_inline u = None). { unfold split_inline. rewrite N0; [destruct (is_long u); reflexivity|]. intros I. apply En. apply in_app_iff. left. exact I. }
  rewrite (explained cmd (a :: ws) rs u v c Wc S P O I D). unfold explain_option. rewrite L, (N0 _ En), (C161_alias_refuted c a ws rest Ha Nn).
  rewrite innermost_iff. intros (o & x & i & E & Sy & _). apply (Hn x d); [rewrite E; apply in_app_iff; right; left; reflexivity|exact Sy].
Qed.
(** The assistant's explanation comes before all. *)
Theorem C161_assistant e input cursor : shown (Some e) input cursor = Some ([10024; 32]%N ++ e).
Proof. reflexivity. Qed.
End Explain.
(** The cursor is counted in characters and used as a number of bytes: after words outside of ASCII
    the wrong word, or none, is explained. *)
Definition git : str -> option xcommand := fun c =>
  if str_eqb c (lit "git") then
    Some (Xcommand [Xoption (Some (lit "-v")) (Some (lit "--version")) (Some (lit "the version"))]
      [Xsub (lit "commit") [lit "ci"] [Xoption (Some (lit "-a")) (Some (lit "--all")) (Some (lit "all files")); Xoption (Some (lit "-m")) (Some (lit "--message")) (Some (lit "the message"))] []])
  else None.
Definition letter (c : char) : bool := (97 <=? c)%N && (c <=? 122)%N.
Theorem C161_cursor_refuted : exists cmd ws rs u d,
  word cmd /\ subs_then letter letter ws rs /\ plain u /\ starts_with (lit "--") u = true /\
  get_explanation letter letter git (line_of (cmd :: ws ++ rs) u) (blen (line_of (cmd :: ws ++ rs) u)) = Some d /\
  shown letter letter git None (line_of (cmd :: ws ++ rs) u) (length (line_of (cmd :: ws ++ rs) u)) = None.
Proof.
  exists (lit "git"), [lit "commit"], [lit "--dry"; [12354; 12356; 12358; 12360]%N], (lit "--all"), (lit "all files").
  assert (P : forall w : str, forallb (fun c => negb (mem_char c [32; 9; 39; 34; 92]%N) && negb (is_whitespace c)) w = true -> plain w).
  { intros w H. apply Forall_forall. intros c I. rewrite forallb_forall in H. specialize (H c I). apply andb_true_iff in H as [H1 H2]. rewrite negb_true_iff in H1, H2. split; [|exact H2].
    intros J. apply mem_char_iff in J. congruence. }
  split; [split; [apply P; reflexivity|discriminate]|]. split; [split; [constructor; [split; [split; [apply P; reflexivity|discriminate]|reflexivity]|constructor]|]|].
  - split; [|reflexivity]. constructor; [split; [apply P; reflexivity|discriminate]|]. constructor; [split; [apply P; reflexivity|discriminate]|constructor].
  - split; [apply P; reflexivity|]. split; [reflexivity|]. split; vm_compute; reflexivity.
Qed.
(** Cases: the inner option, the outer one behind a subcommand, a letter among letters, and the
    same letter with the cursor behind it. *)
Example C161_case :
  shown letter letter git None (lit "git commit --all") 16 = Some (lit "all files") /\
  shown letter letter git None (lit "git commit --version") 14 = Some (lit "the version") /\
  shown letter letter git None (lit "git commit -xam") 13 = Some (lit "all files") /\
  shown letter letter git None (lit "git commit -a") 13 = None /\
  shown letter letter git None (lit "git ci --all") 12 = None.
Proof. repeat split. Qed.
Example C161_nested_case : exists c rest, git (lit "git") = Some c /\ nested (x_subs c) [lit "commit"] rest /\ innermost x_long (lit "--all") (x_globals c :: rest) (lit "all files").
Proof.
  eexists _, _. split; [reflexivity|]. split; [eapply (Inside [] _ []); [reflexivity|intros b []|constructor]|]. apply innermost_iff. reflexivity.
Qed.
Print Assumptions C161_long_partial.
Print Assumptions C161_short_partial.
Print Assumptions C161_typed_short_refuted.
Print Assumptions C161_value_refuted.
Print Assumptions C161_alias_line_refuted.
Print Assumptions C161_assistant.
Print Assumptions C161_cursor_refuted.
