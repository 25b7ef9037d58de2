(** C260-C265: the command doctor. *)
From Coq Require Import Permutation.
From Verif Require Import Base Doctor_Model Doctor_Spec.
From Verif Require Frecency_Model Frecency_Proofs Direnv_Model Direnv_Proofs Keys_Model Keys_Spec Keys_Props Client_Model Offer_Spec Offer_Props.

(** ** C260: the key of the AI service *)
Lemma mask_tail a t : length t = 4 -> mask_secret (Some (a ++ t)) = lit "***" ++ t.
Proof.
  intros L. unfold mask_secret. destruct (a ++ t) as [|c s] eqn:E; [destruct a, t; try discriminate; discriminate L|]. rewrite <- E, rev_app_distr, firstn_app, rev_length, L.
  change (4 - 4) with 0. rewrite firstn_O, app_nil_r, firstn_all2 by (rewrite rev_length; lia). rewrite rev_involutive. reflexivity.
Qed.
(** Two keys with the same last four characters give the same report: nothing else of the key is shown. *)
Theorem C260_hidden : forall get get' a b t, length t = 4 -> trim (a ++ t) <> [] -> trim (b ++ t) <> [] ->
  get (lit "AI_CHAT_API_KEY") = Some (a ++ t) -> get' (lit "AI_CHAT_API_KEY") = Some (b ++ t) ->
  (forall v, In v (map lit ["AI_CHAT_MODEL"; "OPENAI_MODEL"; "AI_CHAT_BASE_URL"; "OPENAI_BASE_URL"; "AI_MESSAGE_LANG"]%string) -> get v = get' v) ->
  check_ai get = check_ai get'.
Proof.
  intros get get' a b t L A B G G' E. unfold check_ai. rewrite G, G'. cbn [or_else]. rewrite !mask_tail by exact L. rewrite !E by (cbn; auto 6).
  destruct (trim (a ++ t)); [contradiction|]. destruct (trim (b ++ t)); [contradiction|]. reflexivity.
Qed.
(** A key is never shown whole when it has more than four characters. *)
Theorem C260_length : forall s, length (mask_secret (Some s)) = match s with [] => 7 | _ => 3 + Nat.min 4 (length s) end.
Proof. intros [|c s]; [reflexivity|]. unfold mask_secret. rewrite app_length, rev_length, firstn_length, rev_length. reflexivity. Qed.
(** A shorter one is. *)
Theorem C260_short_refuted : forall s, s <> [] -> length s <= 4 -> mask_secret (Some s) = lit "***" ++ s.
Proof. intros [|c s] N1 L; [contradiction|]. unfold mask_secret. rewrite firstn_all2 by (rewrite rev_length; exact L). rewrite rev_involutive. reflexivity. Qed.
(** And the address is shown as it is, with the password that it may hold. *)
Theorem C260_address_refuted : forall get u, get (lit "AI_CHAT_BASE_URL") = Some u -> In (lit "ok base-url " ++ u) (check_ai get).
Proof. intros get u G. unfold check_ai. rewrite G. cbn [or_else unwrap]. right. right. left. reflexivity. Qed.

(** ** C261: the settings shown are those used *)
Theorem C261_used_partial : forall process get, let s := Client_Model.from_getter process get in
  ((forall v, or_else (get (lit "AI_CHAT_MODEL")) (get (lit "OPENAI_MODEL")) = Some v -> trim v <> []) -> In (lit "ok model " ++ Client_Model.model s) (check_ai get)) /\
  ((forall u, or_else (get (lit "AI_CHAT_BASE_URL")) (get (lit "OPENAI_BASE_URL")) = Some u -> starts_with (lit "https://") u = true /\ trim u = u /\ Client_Model.trim_slashes u = u) ->
   In (lit "ok base-url " ++ Client_Model.base s) (check_ai get)) /\
  (Client_Model.key s = None -> In (lit "warn api-key missing") (check_ai get)).
Proof.
  intros process get s. unfold s, Client_Model.from_getter, Client_Model.configure, check_ai. cbn [Client_Model.model Client_Model.base Client_Model.key]. repeat split.
  - intros H. right. left. change @Client_Model.or_else with @or_else. destruct (or_else (get (lit "AI_CHAT_MODEL")) (get (lit "OPENAI_MODEL"))) as [v|]; [|reflexivity]. specialize (H v eq_refl). cbn [unwrap].
    destruct (trim v); [contradiction|reflexivity].
  - intros H. right. right. left. change @Client_Model.or_else with @or_else. unfold Client_Model.sanitize. destruct (or_else (get (lit "AI_CHAT_BASE_URL")) (get (lit "OPENAI_BASE_URL"))) as [u|].
    + destruct (H u eq_refl) as (A & B & C). cbn [unwrap]. rewrite B. destruct u as [|c u]; [discriminate A|]. rewrite C, A, orb_true_r. reflexivity.
    + cbn [unwrap]. replace (starts_with _ Client_Model.default_base) with true by reflexivity. rewrite orb_true_r. reflexivity.
  - change @Client_Model.or_else with @or_else. intros ->. left. reflexivity.
Qed.
(** A blank model and an address that is not encrypted are shown but not used. *)
Theorem C261_blank_refuted : forall process get v, get (lit "AI_CHAT_MODEL") = Some v -> trim v = [] ->
  In (lit "ok model " ++ v) (check_ai get) /\ Client_Model.model (Client_Model.from_getter process get) = lit "gpt-5-mini".
Proof. intros process get v G T. unfold check_ai, Client_Model.from_getter, Client_Model.configure. rewrite G. cbn [or_else Client_Model.or_else Client_Model.model]. rewrite T. split; [right; left|]; reflexivity. Qed.
Theorem C261_address_refuted : forall process get r, get (lit "AI_CHAT_BASE_URL") = Some (lit "http://" ++ r) -> trim (lit "http://" ++ r) = lit "http://" ++ r -> Client_Model.http_allowed process = false ->
  In (lit "ok base-url http://" ++ r) (check_ai get) /\ Client_Model.base (Client_Model.from_getter process get) = lit "https://api.openai.com/v1".
Proof.
  intros process get r G T A. split; [apply C260_address_refuted in G; exact G|]. unfold Client_Model.from_getter, Client_Model.configure. rewrite G. cbn [Client_Model.or_else Client_Model.base]. unfold Client_Model.sanitize. rewrite T, A. cbn [orb].
  change (lit "http://" ++ r) with (104%N :: [116; 116; 112; 58; 47; 47]%N ++ r). cbv iota.
  assert (P : forall s, exists t, s = Client_Model.trim_slashes s ++ t).
  { intros s. unfold Client_Model.trim_slashes. cut (exists t, rev (rev s) = rev (Client_Model.drop_slashes (rev s)) ++ t); [rewrite rev_involutive; auto|]. generalize (rev s) as l. induction l as [|c l (t & IH)]; [exists []; reflexivity|]. cbn [Client_Model.drop_slashes].
    destruct (c =? Client_Model.slash)%N; [|exists []; rewrite app_nil_r; reflexivity]. exists (t ++ [c]). cbn [rev]. rewrite IH at 1. rewrite <- app_assoc. reflexivity. }
  destruct (P (104%N :: [116; 116; 112; 58; 47; 47]%N ++ r)) as (t & E). destruct (starts_with (lit "https://") (Client_Model.trim_slashes (104%N :: [116; 116; 112; 58; 47; 47]%N ++ r))) eqn:S'; [|unfold char, str in *; rewrite S'; reflexivity].
  exfalso. apply starts_with_iff in S' as (w & S'). rewrite S' in E. discriminate E.
Qed.

(** ** C262: the sections *)
(** Without a word all sections are shown in their order; a word shows its section; any other is refused. *)
Theorem C262_all : command None = Shown (map lit ["config"; "ai"; "mcp"; "project"; "runtimes"; "performance"; "skills"; "dev"]%string).
Proof. reflexivity. Qed.
Theorem C262_one : forall w t, In (w, t) titles -> command (Some w) = Shown [t].
Proof. intros w t H. cbn in H. repeat (destruct H as [H|H]; [injection H as <- <-; reflexivity|]). destruct H. Qed.
Theorem C262_other : forall w, command (Some w) = Unknown w <-> ~ In w (map fst titles) /\ ~ In w [lit "-h"; lit "--help"; lit "help"].
Proof.
  intros w. unfold command. assert (K : is_known_section w = mem_str w (map fst titles)) by reflexivity. rewrite K. rewrite <- (mem_str_iff w (map fst titles)), <- (mem_str_iff w [_; _; _]).
  destruct (mem_str w [_; _; _]); [split; [discriminate|intros (_ & X); elim X; reflexivity]|]. destruct (mem_str w (map fst titles)); cbn [negb]; [split; [discriminate|intros (X & _); elim X; reflexivity]|].
  split; [intros _; split; discriminate|reflexivity].
Qed.

(** ** C263: changed files *)
Lemma quotes_none p : ~ In 34%N p -> drop_quotes p = p.
Proof. destruct p as [|c p]; [reflexivity|]. intros H. cbn. destruct (N.eqb_spec c 34) as [->|_]; [elim H; left; reflexivity|reflexivity]. Qed.
Lemma quotes_plain q p : ~ In 34%N p -> trim_quotes (printed q p) = p.
Proof.
  intros H. assert (R : ~ In 34%N (rev p)) by (rewrite <- in_rev; exact H). unfold trim_quotes, printed. destruct q.
  - cbn [app drop_quotes N.eqb Pos.eqb]. destruct p as [|c p]; [reflexivity|]. cbn [app drop_quotes]. destruct (N.eqb_spec c 34) as [->|_]; [elim H; left; reflexivity|].
    change (c :: p ++ [34%N]) with ((c :: p) ++ [34%N]). rewrite rev_app_distr. cbn [rev app drop_quotes N.eqb Pos.eqb]. cbn [rev] in R. rewrite quotes_none by exact R. change (rev p ++ [c]) with (rev (c :: p)). apply rev_involutive.
  - rewrite (quotes_none p H), quotes_none by exact R. apply rev_involutive.
Qed.
Definition edges (t : str) : Prop := (forall c u, t = c :: u -> is_whitespace c = false) /\ (forall c u, t = u ++ [c] -> is_whitespace c = false).
Lemma edges_trim t : edges t -> trim t = t.
Proof. intros (A & B). apply Offer_Props.trim_iff. exists [], []. split; [rewrite app_nil_r; reflexivity|]. split; [intros c []|]. split; [intros c []|]. split; assumption. Qed.
Lemma trim_edges t : trim t = t -> edges t.
Proof. intros H. apply Offer_Props.trim_iff in H as (l & r & E & _ & _ & A & B). split; assumption. Qed.
Lemma printed_edges q p : plain p -> edges (printed q p) /\ printed q p <> [].
Proof.
  intros (N1 & T & _). destruct q; cbn [printed].
  - split; [|discriminate]. split; [intros c u E; injection E as <- _; reflexivity|]. intros c u E. change ([34%N] ++ p ++ [34%N]) with ((34%N :: p) ++ [34%N]) in E. apply app_inj_tail in E as (_ & <-). reflexivity.
  - split; [apply trim_edges; exact T|exact N1].
Qed.
Lemma edges_app a m b : edges a -> a <> [] -> edges b -> b <> [] -> edges (a ++ m ++ b).
Proof.
  intros (A & _) NA (_ & B) NB. split.
  - intros c u E. destruct a as [|x a]; [contradiction|]. injection E as <- _. exact (A x a eq_refl).
  - intros c u E. destruct b as [|x b _] using rev_ind; [contradiction|]. rewrite !app_assoc in E. apply app_inj_tail in E as (_ & <-). exact (B x b eq_refl).
Qed.
Lemma contains_quote p : contains (lit " -> ") p = false -> contains (lit " -> ") (p ++ [34%N]) = false.
Proof.
  intros H. destruct (contains _ (p ++ [34%N])) eqn:C; [|reflexivity]. apply contains_iff in C as (a & b & E). exfalso. destruct b as [|x b _] using rev_ind.
  - rewrite app_nil_r in E. change (lit " -> ") with ([32; 45; 62]%N ++ [32%N]) in E. rewrite app_assoc in E. apply app_inj_tail in E as (_ & E). discriminate E.
  - rewrite !app_assoc in E. apply app_inj_tail in E as (E & _). rewrite <- app_assoc in E. assert (X : contains (lit " -> ") p = true) by (apply contains_iff; exists a, b; exact E). congruence.
Qed.
Lemma printed_arrow q p : plain p -> contains (lit " -> ") (printed q p) = false /\ starts_with (lit "-> ") (printed q p) = false.
Proof.
  intros (_ & _ & _ & _ & C & S'). destruct q; cbn [printed]; [|split; assumption]. split; [|reflexivity]. exact (contains_quote p C).
Qed.
Lemma none_in p : contains (lit " -> ") p = false -> Keys_Model.rsplit (lit " -> ") p = None.
Proof. intros C. apply Keys_Props.rsplit_none; [discriminate|]. intros (a & b & E). assert (X : contains (lit " -> ") p = true) by (apply contains_iff; exists a, b; exact E). congruence. Qed.
Lemma last_arrow a q p : plain p -> Keys_Model.rsplit (lit " -> ") (a ++ lit " -> " ++ printed q p) = Some (a, printed q p).
Proof.
  intros P. destruct (printed_arrow q p P) as (C & S'). apply Keys_Props.rsplit_last; [discriminate|apply none_in; exact C|]. intros b1 b2 E.
  assert (X : contains (lit " -> ") (tl (lit " -> ") ++ printed q p) = true) by (apply contains_iff; exists b1, b2; exact E).
  change (tl (lit " -> ") ++ printed q p) with (45%N :: 62%N :: 32%N :: printed q p) in X. change (contains (lit " -> ") (45%N :: 62%N :: 32%N :: printed q p)) with (starts_with (lit "-> ") (printed q p) || contains (lit " -> ") (printed q p)) in X.
  rewrite C, S' in X. discriminate X.
Qed.
Lemma three c1 c2 r : (c1 < 128)%N -> (c2 < 128)%N -> split_byte (c1 :: c2 :: 32%N :: r) 3 = Some ([c1; c2; 32%N], r).
Proof.
  intros A B. assert (U : forall c, (c < 128)%N -> utf8_len c = 1) by (intros c H; unfold utf8_len; apply N.ltb_lt in H; rewrite H; reflexivity).
  cbn [split_byte]. rewrite (U c1 A), (U c2 B). destruct r; reflexivity.
Qed.
Lemma parse_text c1 c2 t : (c1 < 128)%N -> (c2 < 128)%N -> edges t -> t <> [] ->
  parse_line (c1 :: c2 :: 32%N :: t) = [trim_quotes (match Keys_Model.rsplit (lit " -> ") t with Some (_, new) => new | None => t end)].
Proof. intros A B E NE. unfold parse_line. rewrite three by assumption. rewrite (edges_trim _ E). destruct t; [contradiction|reflexivity]. Qed.
Lemma parse_one c : proper c -> parse_line (line c) = [name c].
Proof.
  intros (A & B & _ & _ & P & O). unfold line. destruct (printed_edges (quoted c) (name c) P) as (E & NE).
  destruct (old c) as [[q p]|].
  - destruct (printed_edges q p O) as (E1 & NE1). pose proof (edges_app _ (lit " -> ") _ E1 NE1 E NE) as EE. rewrite <- (app_assoc (printed q p)). cbn [app].
    rewrite parse_text by (assumption || (destruct (printed q p); [contradiction|discriminate])). rewrite last_arrow by exact P. rewrite quotes_plain by apply P. reflexivity.
  - cbn [app]. rewrite parse_text by assumption. rewrite (none_in _ (proj1 (printed_arrow (quoted c) (name c) P))), quotes_plain by apply P. reflexivity.
Qed.
Lemma line_ends c : proper c -> ~ In 10%N (line c) /\ Direnv_Model.strip_cr (line c) = line c.
Proof.
  intros (A & B & N1 & N2 & P & O). split.
  - unfold line. assert (Q : forall q p, plain p -> ~ In 10%N (printed q p)).
    { intros q p (_ & _ & H & _). destruct q; cbn [printed]; [|exact H]. intros X. rewrite !in_app_iff in X. cbn in X. destruct X as [[X|[]]|[X|[X|[]]]]; [discriminate X|exact (H X)|discriminate X]. }
    intros X. destruct X as [X|[X|[X|X]]]; try congruence. cbn [app] in X. rewrite in_app_iff in X. destruct X as [X|X]; [|exact (Q _ _ P X)]. destruct (old c) as [[q p]|]; [|exact X].
    rewrite in_app_iff in X. destruct X as [X|X]; [exact (Q _ _ O X)|]. cbn in X. repeat (destruct X as [X|X]; [discriminate|]). exact X.
  - destruct (printed_edges (quoted c) (name c) P) as ((_ & E) & NE). unfold line, Direnv_Model.strip_cr. destruct (exists_last NE) as (y & x & X). rewrite X in *. specialize (E x y eq_refl).
    rewrite !app_assoc, rev_app_distr. cbn [rev app]. destruct (N.eqb_spec x 13) as [->|_]; [discriminate E|reflexivity].
Qed.
(** For whatever changes, each file is reported once, in order, under its new name, without the quotation marks. *)
Theorem C263_changed : forall cs, Forall proper cs -> parse_status (flat_map (fun c => line c ++ [10%N]) cs) = map name cs.
Proof.
  unfold parse_status. induction cs as [|c cs IH]; intros F; [reflexivity|]. inversion F as [|? ? F1 F2]; subst. destruct (line_ends c F1) as (NL & S'). cbn [flat_map map]. rewrite <- app_assoc. cbn [app].
  rewrite Direnv_Proofs.lines_nl by exact NL. cbn [flat_map]. rewrite S', parse_one by exact F1. rewrite IH by exact F2. reflexivity.
Qed.
(** A file with an arrow in its name, which git puts in quotation marks, is reported under the end of its name. *)
Theorem C263_arrow_refuted : forall a b c1 c2, (c1 < 128)%N -> (c2 < 128)%N -> plain b -> parse_line ([c1; c2; 32%N; 34%N] ++ a ++ lit " -> " ++ b ++ [34%N]) = [b].
Proof.
  intros a b c1 c2 A B P. change ([c1; c2; 32%N; 34%N] ++ a ++ lit " -> " ++ b ++ [34%N]) with (c1 :: c2 :: 32%N :: ((34%N :: a) ++ lit " -> " ++ b ++ [34%N])). rewrite parse_text; [|assumption|assumption| |discriminate].
  - assert (R : Keys_Model.rsplit (lit " -> ") ((34%N :: a) ++ lit " -> " ++ b ++ [34%N]) = Some (34%N :: a, b ++ [34%N])).
    { apply Keys_Props.rsplit_last; [discriminate| |].
      - apply none_in. apply contains_quote. apply P.
      - intros b1 b2 X. assert (Y : contains (lit " -> ") (tl (lit " -> ") ++ b ++ [34%N]) = true) by (apply contains_iff; exists b1, b2; exact X).
        change (contains (lit " -> ") (tl (lit " -> ") ++ b ++ [34%N])) with (starts_with (lit "-> ") (b ++ [34%N]) || contains (lit " -> ") (b ++ [34%N])) in Y. rewrite (contains_quote b) in Y by apply P. rewrite orb_false_r in Y.
        apply starts_with_iff in Y as (w & Y). destruct P as (_ & _ & _ & _ & _ & S'). destruct w as [|x w _] using rev_ind.
        + rewrite app_nil_r in Y. change (lit "-> ") with ([45; 62]%N ++ [32%N]) in Y. apply app_inj_tail in Y as (_ & Y). discriminate Y.
        + rewrite app_assoc in Y. apply app_inj_tail in Y as (Y & _). assert (Z : starts_with (lit "-> ") b = true) by (apply starts_with_iff; exists w; exact Y). congruence. }
    rewrite R. f_equal. unfold trim_quotes. destruct P as (NE & _ & _ & Q & _).
    assert (D : drop_quotes (b ++ [34%N]) = b ++ [34%N]). { destruct b as [|x b]; [contradiction|]. cbn. destruct (N.eqb_spec x 34) as [->|_]; [elim Q; left; reflexivity|reflexivity]. }
    rewrite D, rev_app_distr. cbn [rev app drop_quotes N.eqb Pos.eqb]. rewrite quotes_none by (rewrite <- in_rev; exact Q). apply rev_involutive.
  - split; [intros c u E; injection E as <- _; reflexivity|]. intros c u E. rewrite !app_assoc in E. apply app_inj_tail in E as (_ & <-). reflexivity.
Qed.

(** ** C264: the checks *)
Lemma package_iff t k : package t = Some k <-> exists d, In (d, k) packages /\ starts_with d t = true.
Proof.
  split.
  - unfold package. intros H.
    destruct (starts_with (lit "dsh-builtin/") t) eqn:A; [injection H as <-; exists (lit "dsh-builtin/"); split; [cbn; auto|exact A]|].
    destruct (starts_with (lit "dsh-openai/") t) eqn:B; [injection H as <-; exists (lit "dsh-openai/"); split; [cbn; auto|exact B]|].
    destruct (starts_with (lit "dsh-types/") t) eqn:C; [injection H as <-; exists (lit "dsh-types/"); split; [cbn; auto|exact C]|].
    destruct (starts_with (lit "dsh-frecency/") t) eqn:D; [injection H as <-; exists (lit "dsh-frecency/"); split; [cbn; auto 6|exact D]|].
    destruct (starts_with (lit "dsh/") t) eqn:E; [injection H as <-; exists (lit "dsh/"); split; [cbn; auto 6|exact E]|discriminate].
  - intros (d & H & S'). apply starts_with_iff in S' as (r & ->). cbn [packages map fst snd In] in H. repeat (destruct H as [H|H]; [injection H as <- <-; destruct r; reflexivity|]). destruct H.
Qed.
Lemma added_packages ts : forall l, NoDup l -> NoDup (fold_left add_package ts l) /\ forall p, In p (fold_left add_package ts l) <-> In p l \/ exists t, In t ts /\ package t = Some p.
Proof.
  induction ts as [|t ts IH]; intros l N1; [split; [exact N1|]; intros p; cbn; split; [auto|intros [X|(t & [] & _)]; exact X]|]. cbn [fold_left].
  assert (A : NoDup (add_package l t) /\ forall p, In p (add_package l t) <-> In p l \/ package t = Some p).
  { unfold add_package. destruct (package t) as [k|] eqn:K; [|split; [exact N1|]; intros p; split; [auto|intros [X|X]; [exact X|discriminate]]]. destruct (mem_str k l) eqn:M.
    - split; [exact N1|]. intros p. split; [auto|]. intros [X|X]; [exact X|]. injection X as <-. apply mem_str_iff. exact M.
    - assert (NI : ~ In k l) by (intros X; apply mem_str_iff in X; congruence). split.
      + apply NoDup_rev in N1. rewrite <- (rev_involutive (l ++ [k])). apply NoDup_rev. rewrite rev_app_distr. cbn. constructor; [rewrite <- in_rev; exact NI|exact N1].
      + intros p. rewrite in_app_iff. cbn. split; [intros [X|[->|[]]]; auto|]. intros [X|X]; [auto|]. injection X as <-. auto. }
  destruct A as (A1 & A2). destruct (IH _ A1) as (B1 & B2). split; [exact B1|]. intros p. rewrite B2, A2. split.
  - intros [[X|X]|(u & X & Y)]; [auto|right; exists t; split; [left; reflexivity|exact X]|right; exists u; split; [right; exact X|exact Y]].
  - intros [X|(u & [<-|X] & Y)]; [auto|auto|]. right. exists u. auto.
Qed.
Lemma added_commands cs : forall l, NoDup l -> NoDup (fold_left add_command cs l) /\ forall c, In c (fold_left add_command cs l) <-> In c l \/ In c cs.
Proof.
  induction cs as [|t cs IH]; intros l N1; [split; [exact N1|]; intros c; cbn; tauto|]. cbn [fold_left].
  assert (A : NoDup (add_command l t) /\ forall c, In c (add_command l t) <-> In c l \/ t = c).
  { unfold add_command. destruct (mem_str t l) eqn:M.
    - split; [exact N1|]. intros c. split; [auto|]. intros [X| <-]; [exact X|]. apply mem_str_iff. exact M.
    - assert (NI : ~ In t l) by (intros X; apply mem_str_iff in X; congruence). split.
      + apply NoDup_rev in N1. rewrite <- (rev_involutive (l ++ [t])). apply NoDup_rev. rewrite rev_app_distr. cbn. constructor; [rewrite <- in_rev; exact NI|exact N1].
      + intros c. rewrite in_app_iff. cbn. tauto. }
  destruct A as (A1 & A2). destruct (IH _ A1) as (B1 & B2). split; [exact B1|]. intros c. rewrite B2, A2. cbn. tauto.
Qed.
(** A check is suggested exactly when a changed file asks for it, and once. *)
Theorem C264_checks : forall paths c, In c (validation paths) <-> Suggested paths c.
Proof.
  intros paths c. unfold validation. destruct (added_packages (map slashes paths) [] (NoDup_nil _)) as (PN & PI). set (pk := fold_left add_package (map slashes paths) []) in *.
  assert (PK : forall k, In k pk <-> exists p, In p paths /\ in_package p k).
  { intros k. rewrite PI. cbn [In]. split.
    - intros [[]|(t & X & Y)]. apply in_map_iff in X as (p & <- & X). exists p. split; [exact X|]. apply package_iff. exact Y.
    - intros (p & X & Y). right. exists (slashes p). split; [apply in_map; exact X|]. apply package_iff. exact Y. }
  assert (EX : forall f, existsb f (map slashes paths) = true <-> exists p, In p paths /\ f (slashes p) = true).
  { intros f. rewrite existsb_exists. split; [intros (t & X & Y); apply in_map_iff in X as (p & <- & X); eauto|intros (p & X & Y); exists (slashes p); split; [apply in_map; exact X|exact Y]]. }
  assert (IF : forall (b : bool) (l : list str), In c (if b then l else []) <-> b = true /\ In c l) by (intros [] l; cbn; [tauto|split; [intros []|intros (X & _); discriminate X]]).
  rewrite (proj2 (added_commands _ [] (NoDup_nil _))). rewrite !in_app_iff, !IF, in_map_iff, !EX. cbn [In]. split.
  - intros [[]|[((p & X & Y) & [<-|[]])|[(k & <- & X)|[(X & [<-|[]])|[(X & [<-|[]])|((p & X & Y) & Z)]]]]].
    + eapply Sug_format; eauto.
    + apply filter_In in X as (_ & X). apply mem_str_iff, PK in X as (p & X & Y). eapply Sug_test; eauto.
    + apply orb_true_iff in X as [X|X].
      * apply EX in X as (p & X & Y). eapply Sug_manifest; [exact X|]. apply orb_true_iff in Y as [Y|Y]; apply str_eqb_eq in Y; rewrite Y; cbn; auto.
      * apply Nat.ltb_lt in X. destruct pk as [|j [|k l]]; cbn in X; try lia. destruct (proj1 (PK j) (or_introl eq_refl)) as (p & P1 & P2). destruct (proj1 (PK k) (or_intror (or_introl eq_refl))) as (q & Q1 & Q2).
        eapply (Sug_many paths p q j k); eauto. inversion PN as [|? ? NI _]; subst. intros ->. apply NI. left. reflexivity.
    + apply mem_str_iff, PK in X as (p & X & Y). eapply Sug_lint; eauto.
    + eapply Sug_guide; [exact X| |cbn; tauto]. rewrite !orb_true_iff in Y. destruct Y as [[Y|Y]|Y]; [apply str_eqb_eq in Y; rewrite Y; cbn; auto|auto|apply str_eqb_eq in Y; rewrite Y; cbn; auto].
  - intros H. right. inversion H as [p X Y|p k X Y|p X Y|p q j k X X' Y Y' N1|p X Y|p c' X Y Z]; subst.
    + left. split; [eauto|auto].
    + right. left. exists k. split; [reflexivity|]. apply filter_In. split; [|apply mem_str_iff, PK; eauto]. destruct Y as (d & Y & _). cbn in Y. cbn. repeat (destruct Y as [Y|Y]; [injection Y as _ <-; tauto|]). destruct Y.
    + right. right. left. split; [|auto]. apply orb_true_iff. left. apply EX. exists p. split; [exact X|]. apply orb_true_iff. rewrite !str_eqb_eq. destruct Y as [Y|[Y|[]]]; auto.
    + right. right. left. split; [|auto]. apply orb_true_iff. right. apply Nat.ltb_lt. assert (J : In j pk) by (apply PK; eauto). assert (K : In k pk) by (apply PK; eauto).
      destruct pk as [|a [|b l]]; [destruct J| |cbn; lia]. destruct J as [J|[]], K as [K|[]]. congruence.
    + right. right. right. left. split; [|auto]. apply mem_str_iff, PK. eauto.
    + right. right. right. right. split; [|exact Z]. exists p. split; [exact X|]. rewrite !orb_true_iff, !str_eqb_eq. destruct Y as [[Y|[Y|[]]]|Y]; auto.
Qed.
Theorem C264_once : forall paths, NoDup (validation paths).
Proof. intros paths. apply added_commands. constructor. Qed.
(** More changes never drop a check. *)
Theorem C264_more : forall a b, incl a b -> incl (validation a) (validation b).
Proof.
  intros a b I1 c H. assert (I2 : forall p, In p a -> In p b) by exact I1. apply C264_checks in H. apply C264_checks. inversion H as [p X Y|p k X Y|p X Y|p q j k X X' Y Y' N1|p X Y|p c' X Y Z]; subst;
  [eapply Sug_format|eapply Sug_test|eapply Sug_manifest|apply (Sug_many b p q j k)|eapply Sug_lint|eapply Sug_guide]; eauto.
Qed.
(** A new folder, which git shows by its name alone, does not ask for the formatter whatever files it holds. *)
Theorem C264_folder_refuted : forall d, ~ In (lit "cargo fmt --check") (validation [d ++ [47%N]]).
Proof.
  intros d H. apply C264_checks in H. inversion H as [p X Y E|p k X Y E|p X Y E|p q j k X X' Y Y' N1 E|p X Y E|p c' X Y Z E]; subst; try discriminate E.
  - destruct X as [<-|[]]. unfold slashes in Y. rewrite map_app in Y. apply ends_with_iff in Y as (w & Y). change (lit ".rs") with ([46; 114]%N ++ [115%N]) in Y. rewrite app_assoc in Y. apply app_inj_tail in Y as (_ & Y). discriminate Y.
  - cbn in Z. repeat (destruct Z as [Z|Z]; [discriminate Z|]). exact Z.
Qed.

(** ** C265: copies of a skill *)
Fixpoint node_deep (P : node -> Prop) (HF : forall c, P (File c)) (HD : forall es, (forall k x, In (k, x) es -> P x) -> P (Dir es)) (HL : P Locked) (HS : P Special) (n : node) : P n :=
  match n with
  | File c => HF c
  | Dir es => HD es ((fix go (es : list (str * node)) : forall k x, In (k, x) es -> P x :=
      match es with
      | [] => fun k x H => match H with end
      | (j, y) :: r => fun k x H => match H with
          | or_introl E => eq_ind y P (node_deep P HF HD HL HS y) x (f_equal snd E)
          | or_intror H' => go r k x H'
          end
      end) es)
  | Locked => HL
  | Special => HS
  end.
Fixpoint visit_all (pre : list str) (es : list (str * node)) : option (list (list str)) :=
  match es with
  | [] => Some []
  | (k, x) :: r => match visit (pre ++ [k]) x with Some a => match visit_all pre r with Some b => Some (a ++ b) | None => None end | None => None end
  end.
Lemma visit_dir pre es : visit pre (Dir es) = visit_all pre es.
Proof. induction es as [|[k x] es IH]; [reflexivity|]. cbn [visit_all]. rewrite <- IH. reflexivity. Qed.
Lemma visit_spec n : forall pre, match visit pre n with
  | Some l => Listable n /\ forall q, In q l <-> exists p c, q = pre ++ p /\ Holds n p c
  | None => ~ Listable n
  end.
Proof.
  induction n as [c|es IH| |] using node_deep; intros pre.
  - cbn [visit]. split; [constructor|]. intros q. cbn. split; [intros [<-|[]]; exists [], c; split; [rewrite app_nil_r; reflexivity|constructor]|]. intros (p & d & -> & H). inversion H; subst. rewrite app_nil_r. auto.
  - rewrite visit_dir. assert (G : forall l, incl l es -> match visit_all pre l with
      | Some r => (forall k x, In (k, x) l -> Listable x) /\ forall q, In q r <-> exists k x p c, In (k, x) l /\ q = pre ++ k :: p /\ Holds x p c
      | None => exists k x, In (k, x) l /\ ~ Listable x
      end).
    { induction l as [|[k x] l IHl]; intros I1; cbn [visit_all].
      - split; [intros k x []|]. intros q. split; [intros []|intros (k & x & p & c & [] & _)].
      - pose proof (IH k x (I1 _ (or_introl eq_refl)) (pre ++ [k])) as V. specialize (IHl (fun z Z => I1 z (or_intror Z))). destruct (visit (pre ++ [k]) x) as [a|]; [|exists k, x; split; [left; reflexivity|exact V]].
        destruct V as (V1 & V2). destruct (visit_all pre l) as [r|].
        + destruct IHl as (L1 & L2). split; [intros j y [E|Y]; [injection E as <- <-; exact V1|exact (L1 j y Y)]|]. intros q. rewrite in_app_iff, V2, L2. split.
          * intros [(p & c & -> & H)|(j & y & p & c & Y & E & H)]; [exists k, x, p, c; split; [left; reflexivity|split; [rewrite <- app_assoc; reflexivity|exact H]]|exists j, y, p, c; split; [right; exact Y|auto]].
          * intros (j & y & p & c & [E|Y] & -> & H); [injection E as <- <-; left; exists p, c; rewrite <- app_assoc; auto|]. right. exists j, y, p, c. auto.
        + destruct IHl as (j & y & Y & N1). exists j, y. split; [right; exact Y|exact N1]. }
    specialize (G es (incl_refl _)). destruct (visit_all pre es) as [r|].
    + destruct G as (G1 & G2). split; [constructor; exact G1|]. intros q. rewrite G2. split.
      * intros (k & x & p & c & Y & -> & H). exists (k :: p), c. split; [reflexivity|econstructor; eauto].
      * intros (p & c & -> & H). inversion H as [|? k x p' ? Y H']; subst. exists k, x, p', c. auto.
    + destruct G as (k & x & Y & N1). intros H. inversion H as [| |? H']; subst. exact (N1 (H' k x Y)).
  - cbn. intros H. inversion H.
  - cbn. split; [constructor|]. intros q. split; [intros []|]. intros (p & c & _ & H). inversion H.
Qed.
Lemma visit_nodup n : Tree n -> forall pre l, visit pre n = Some l -> NoDup l.
Proof.
  induction n as [c|es IH| |] using node_deep; intros T pre l V.
  - cbn in V. injection V as <-. constructor; [intros []|constructor].
  - rewrite visit_dir in V. inversion T as [| | |? ND TT]; subst. revert l V. assert (G : forall es', incl es' es -> NoDup (map fst es') -> forall l, visit_all pre es' = Some l -> NoDup l).
    { induction es' as [|[k x] es' IHl]; intros I1 N1 l V; cbn [visit_all] in V; [injection V as <-; constructor|]. destruct (visit (pre ++ [k]) x) as [a|] eqn:A; [|discriminate]. destruct (visit_all pre es') as [b|] eqn:B; [|discriminate]. injection V as <-.
      cbn [map fst] in N1. inversion N1 as [|? ? N2 N3]; subst. pose proof (IH k x (I1 _ (or_introl eq_refl)) (TT k x (I1 _ (or_introl eq_refl))) _ _ A) as NA. pose proof (IHl (fun z Z => I1 z (or_intror Z)) N3 _ eq_refl) as NB.
      assert (D : forall q, In q a -> ~ In q b).
      { intros q Q1 Q2. pose proof (visit_spec x (pre ++ [k])) as V1. rewrite A in V1. apply (proj2 V1) in Q1 as (p & c & -> & _). pose proof (visit_spec (Dir es') pre) as V2. rewrite visit_dir, B in V2. apply (proj2 V2) in Q2 as (p' & c' & E & H).
        rewrite <- app_assoc in E. apply app_inv_head in E. cbn [app] in E. subst p'. inversion H as [|? j y p2 ? Y H']; subst. apply N2. apply in_map_iff. exists (k, y). auto. }
      clear -NA NB D. induction a as [|z a IHa]; [exact NB|]. inversion NA; subst. cbn. constructor; [rewrite in_app_iff; intros [X|X]; [contradiction|exact (D z (or_introl eq_refl) X)]|]. apply IHa; [assumption|]. intros q Q. apply D. right. exact Q. }
    exact (G es (incl_refl _) ND).
  - discriminate V.
  - cbn in V. injection V as <-. constructor.
Qed.
Lemma entry_in k x es : NoDup (map fst es) -> In (k, x) es -> entry k es = Some x.
Proof.
  induction es as [|[j y] es IH]; intros N1 H; [destruct H|]. cbn. inversion N1 as [|? ? N2 N3]; subst. destruct H as [E|H]; [injection E as <- <-; rewrite str_eqb_refl; reflexivity|].
  destruct (str_eqb k j) eqn:E; [|exact (IH N3 H)]. apply str_eqb_eq in E. subst. elim N2. apply in_map_iff. exists (j, x). auto.
Qed.
Lemma read_holds n p c : Tree n -> Holds n p c -> read n p = c.
Proof. intros T H. induction H as [c|es k x p c Y H IH]; [reflexivity|]. inversion T as [| | |? ND TT]; subst. cbn. rewrite (entry_in _ _ _ ND Y). apply IH. exact (TT k x Y). Qed.
Lemma holds_fun n p c d : Tree n -> Holds n p c -> Holds n p d -> c = d.
Proof. intros T A B. rewrite <- (read_holds _ _ _ T A), <- (read_holds _ _ _ T B). reflexivity. Qed.
(** the order of paths *)
Lemma leb_total a : forall b, path_leb a b = false -> path_leb b a = true.
Proof.
  induction a as [|x a IH]; intros [|y b]; cbn; try discriminate; auto. rewrite (Frecency_Proofs.str_cmp_sym x y). destruct (Frecency_Model.str_cmp x y); cbn; try discriminate; auto.
Qed.
Lemma leb_trans a : forall b c, path_leb a b = true -> path_leb b c = true -> path_leb a c = true.
Proof.
  induction a as [|x a IH]; intros [|y b] [|z c]; cbn; try discriminate; auto. intros H K.
  destruct (Frecency_Model.str_cmp x y) eqn:A; [apply Frecency_Proofs.str_cmp_eq in A; subst y| |discriminate].
  - destruct (Frecency_Model.str_cmp x z); [exact (IH _ _ H K)|reflexivity|discriminate].
  - destruct (Frecency_Model.str_cmp y z) eqn:B; [apply Frecency_Proofs.str_cmp_eq in B; subst z; rewrite A; reflexivity| |discriminate]. rewrite (Frecency_Proofs.str_lt_trans _ _ _ A B). reflexivity.
Qed.
Lemma leb_anti a : forall b, path_leb a b = true -> path_leb b a = true -> a = b.
Proof.
  induction a as [|x a IH]; intros [|y b]; cbn; try discriminate; auto. rewrite (Frecency_Proofs.str_cmp_sym x y). destruct (Frecency_Model.str_cmp x y) eqn:A; cbn; try discriminate.
  intros H K. apply Frecency_Proofs.str_cmp_eq in A. rewrite A, (IH _ H K). reflexivity.
Qed.
Lemma ordered_unique a : forall b, Frecency_Proofs.ordered path_leb a -> Frecency_Proofs.ordered path_leb b -> Permutation a b -> a = b.
Proof.
  induction a as [|x a IH]; intros [|y b] A B P; [reflexivity|apply Permutation_nil in P; discriminate|apply Permutation_sym, Permutation_nil in P; discriminate|].
  destruct A as (A1 & A2), B as (B1 & B2). assert (E : x = y).
  { assert (X : In x (y :: b)) by (eapply Permutation_in; [exact P|left; reflexivity]). assert (Y : In y (x :: a)) by (eapply Permutation_in; [apply Permutation_sym; exact P|left; reflexivity]).
    destruct X as [X|X]; [auto|]. destruct Y as [Y|Y]; [exact Y|]. apply leb_anti; auto. }
  subst y. f_equal. apply IH; auto. apply Permutation_cons_inv in P. exact P.
Qed.
Lemma relative_spec n : Tree n -> match relative_files n with
  | Some l => folder n /\ Listable n /\ NoDup l /\ Frecency_Proofs.ordered path_leb l /\ forall p, In p l <-> exists c, Holds n p c
  | None => ~ (folder n /\ Listable n)
  end.
Proof.
  intros T. unfold relative_files. destruct n as [c|es| |]; try (intros ((es & E) & _); discriminate E). pose proof (visit_spec (Dir es) []) as V. destruct (visit [] (Dir es)) as [l|] eqn:E; cbn [option_map]; [|intros (_ & L); exact (V L)].
  destruct V as (V1 & V2). split; [exists es; reflexivity|]. split; [exact V1|]. split; [eapply Permutation_NoDup; [apply Frecency_Proofs.sort_perm|exact (visit_nodup _ T _ _ E)]|].
  split; [apply Frecency_Proofs.sort_ordered; [exact (fun x y => leb_total x y)|exact (fun x y z => leb_trans x y z)]|]. intros p. split.
  - intros H. apply (Permutation_in _ (Permutation_sym (Frecency_Proofs.sort_perm path_leb l))), V2 in H as (q & c & -> & H). eauto.
  - intros (c & H). apply (Permutation_in _ (Frecency_Proofs.sort_perm path_leb l)), V2. exists p, c. auto.
Qed.
(** A copy is taken as current exactly when both folders can be read through and hold the same files with the same texts at the same
    paths; the order of the entries and empty folders do not matter. *)
Theorem C265_same : forall s d, Tree s -> Tree d ->
  (skill_dirs_match s d = true <-> folder s /\ folder d /\ Listable s /\ Listable d /\ (forall p c, Holds s p c <-> Holds d p c) /\ forall p, ~ Holds s p None).
Proof.
  intros s d TS TD. unfold skill_dirs_match. pose proof (relative_spec s TS) as RS. pose proof (relative_spec d TD) as RD. destruct (relative_files s) as [a|]; [|split; [discriminate|tauto]]. destruct (relative_files d) as [b|]; [|split; [discriminate|tauto]].
  destruct RS as (S1 & S2 & S3 & S4 & S5), RD as (D1 & D2 & D3 & D4 & D5). destruct (list_eq_dec path_eq_dec a b) as [E|E].
  - rewrite forallb_forall. split.
    + intros H. assert (K : forall p c c', Holds s p c -> Holds d p c' -> c = c' /\ c <> None).
      { intros p c c' A B. specialize (H p (proj2 (S5 p) (ex_intro _ c A))). rewrite (read_holds _ _ _ TS A), (read_holds _ _ _ TD B) in H. destruct c as [x|], c' as [y|]; try discriminate H. apply str_eqb_eq in H. subst. split; [reflexivity|discriminate]. }
      assert (EX : forall p, (exists c, Holds s p c) <-> (exists c, Holds d p c)) by (intros p; rewrite <- S5, <- D5, E; reflexivity).
      repeat (split; [assumption|]). split.
      * intros p c. split; intros A; [destruct (proj1 (EX p) (ex_intro _ c A)) as (c' & B); destruct (K _ _ _ A B) as (-> & _); exact B|destruct (proj2 (EX p) (ex_intro _ c A)) as (c' & B); destruct (K _ _ _ B A) as (-> & _); exact B].
      * intros p A. destruct (proj1 (EX p) (ex_intro _ _ A)) as (c' & B). destruct (K _ _ _ A B) as (_ & X). apply X. reflexivity.
    + intros (_ & _ & _ & _ & H & N1) p P. apply S5 in P as (c & A). rewrite (read_holds _ _ _ TS A), (read_holds _ _ _ TD (proj1 (H p c) A)). destruct c as [x|]; [apply str_eqb_refl|elim (N1 p A)].
  - split; [discriminate|]. intros (_ & _ & _ & _ & H & _). elim E. apply ordered_unique; [exact S4|exact D4|]. apply NoDup_Permutation; [exact S3|exact D3|]. intros p. rewrite S5, D5. split; intros (c & X); exists c; apply H; exact X.
Qed.
Print Assumptions C260_hidden. Print Assumptions C260_length. Print Assumptions C260_short_refuted. Print Assumptions C260_address_refuted.
Print Assumptions C261_used_partial. Print Assumptions C261_blank_refuted. Print Assumptions C261_address_refuted.
Print Assumptions C262_all. Print Assumptions C262_one. Print Assumptions C262_other. Print Assumptions C263_changed. Print Assumptions C263_arrow_refuted.
Print Assumptions C264_checks. Print Assumptions C264_once. Print Assumptions C264_more. Print Assumptions C264_folder_refuted. Print Assumptions C265_same.

Example C263_case : parse_status (lit " M dsh/src/main.rs" ++ [10%N] ++ lit "R  a.rs -> ""b c.rs""" ++ [10%N] ++ lit "?? docs/new/" ++ [10%N]) = [lit "dsh/src/main.rs"; lit "b c.rs"; lit "docs/new/"].
Proof. reflexivity. Qed.
Example C264_case : validation [lit "dsh/src/main.rs"; lit "dsh-types/src/lib.rs"] =
  [lit "cargo fmt --check"; lit "cargo test -p doge-shell"; lit "cargo test -p dsh-types"; lit "cargo check --workspace"; lit "cargo clippy -p doge-shell -- -D warnings"].
Proof. reflexivity. Qed.
Example C265_case : let f := File (Some (lit "x")) in
  skill_dirs_match (Dir [(lit "b", f); (lit "a", Dir [(lit "c", f)])]) (Dir [(lit "a", Dir [(lit "c", f)]); (lit "e", Dir []); (lit "b", f)]) = true /\
  skill_dirs_match (Dir [(lit "b", f)]) (Dir [(lit "b", File (Some (lit "y")))]) = false.
Proof. split; reflexivity. Qed.
