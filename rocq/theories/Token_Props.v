(** Tokens for completion and the text of completed paths: C12-C14. *)
From Verif Require Import Base Env_Model Parse_Model Grammar_Proofs Token_Model Token_Spec Token_Proofs.
From Verif Require Parse_Spec Expand_Model Expand_Spec Expand_Proofs Expand_Props.
From Coq Require Import Sorting.Sorted.

(** ** C14 *)
(** For every line and both modes (Token_Spec): the tokens are in order and do not overlap,
    their spans denote their text, and exactly the unquoted, unescaped separators are left out. *)
Theorem C14_tokens_tile_the_line : forall line m, tokens_of line m (tokenize line m).
Proof. exact tokenize_tokens. Qed.
(** the token for a cursor contains it; there is one whenever some token does *)
Theorem C14_token_contains_cursor : forall line cursor m t, token_at_char_cursor line cursor m = Some t ->
  In t (tokenize line m) /\ char_start t <= Nat.min cursor (length line) <= char_end t.
Proof.
  intros line cursor m t H. unfold token_at_char_cursor in H. apply find_some in H as [I H]. split; [exact I|].
  apply andb_true_iff in H as [H1 H2]. apply Nat.leb_le in H1, H2. lia.
Qed.
Theorem C14_token_found : forall line cursor m t, In t (tokenize line m) -> char_start t <= Nat.min cursor (length line) <= char_end t ->
  token_at_char_cursor line cursor m = Some t.
Proof.
  intros line cursor m t I H. unfold token_at_char_cursor. destruct (tokenize_tokens line m) as (_ & S & _).
  induction S as [|u l S IH F]; [destruct I|]. cbn [find]. destruct ((char_start u <=? Nat.min cursor (length line)) && (Nat.min cursor (length line) <=? char_end u)) eqn:E.
  - destruct I as [-> | I]; [reflexivity|]. exfalso. rewrite Forall_forall in F. specialize (F t I). unfold before in F. apply andb_true_iff in E as [_ E]. apply Nat.leb_le in E. lia.
  - destruct I as [-> | I]; [|apply IH, I]. exfalso. apply andb_false_iff in E as [E | E]; apply Nat.leb_gt in E; lia.
Qed.
Print Assumptions C14_tokens_tile_the_line.
Print Assumptions C14_token_contains_cursor.
Print Assumptions C14_token_found.
Example C14_example : tokenize (lit "ls 'a b'\ c|wc") CompletionRange =
  [Span (lit "ls") 0 2 0 2; Span (lit "'a b'\ c") 3 11 3 11; Span (lit "wc") 12 14 12 14] /\
  token_at_char_cursor (lit "ls 'a b'\ c|wc") 6 CompletionRange = Some (Span (lit "'a b'\ c") 3 11 3 11).
Proof. vm_compute. split; reflexivity. Qed.

(** ** C13 *)
Lemma decode_escape special p : (forall c, special c = true \/ c <> 92%N) -> decode_backslashes (escape special p) = p.
Proof.
  intros H. induction p as [|c p IH]; [reflexivity|]. unfold escape in *. cbn [flat_map]. destruct (special c) eqn:E; cbn [app decode_backslashes].
  - cbn [N.eqb Pos.eqb]. rewrite IH. reflexivity.
  - destruct (N.eqb_spec c 92) as [-> |]; [destruct (H 92%N); congruence|]. rewrite IH. reflexivity.
Qed.
Lemma esc_cases (f : char -> bool) : f 92%N = true -> forall c, f c = true \/ c <> 92%N.
Proof. intros H c. destruct (N.eqb_spec c 92) as [-> |]; auto. Qed.
Lemma strip_suffix_snoc q s : strip_suffix1 q (s ++ [q]) = s.
Proof. unfold strip_suffix1. rewrite rev_app_distr. cbn [rev app strip_prefix1]. rewrite N.eqb_refl, rev_involutive. reflexivity. Qed.
Lemma last_escape special p q : ends_with [q] (escape special p) = ends_with [q] p.
Proof.
  destruct p as [|x p] using rev_ind; [reflexivity|]. unfold escape, ends_with. rewrite flat_map_app, !rev_app_distr. cbn [flat_map]. rewrite app_nil_r. destruct (special x); reflexivity.
Qed.
Lemma one_char (q : char) s : starts_with [q] (q :: s) = true.
Proof. cbn [starts_with]. rewrite N.eqb_refl. reflexivity. Qed.
Lemma blen_app_pos a (c d : char) : (1 <? blen (c :: a ++ [d])) = true.
Proof. apply Nat.ltb_lt. cbn [blen]. rewrite blen_app. cbn [blen]. pose proof (utf8_len_pos c). pose proof (utf8_len_pos d). lia. Qed.
Lemma ends_snoc (q : char) s : ends_with [q] (s ++ [q]) = true.
Proof. apply ends_with_iff. exists s. reflexivity. Qed.
Lemma ends_cons (c q : char) s : s <> [] -> ends_with [q] (c :: s) = ends_with [q] s.
Proof.
  intros N. destruct s as [|x s _] using rev_ind; [congruence|]. unfold ends_with. change (c :: s ++ [x]) with ((c :: s) ++ [x]). rewrite !rev_app_distr. reflexivity.
Qed.
(** in an unclosed quote the path must not end with that quote *)
Definition recoverable (st : style) (p : str) : Prop :=
  match st with SingleQuoted false => ends_with [39%N] p = false | DoubleQuoted false => ends_with [34%N] p = false | _ => True end.
Theorem C13_decode_encode_partial : forall st p, recoverable st p ->
  normalize (encode st p) = p /\
  (detect_style (encode st p) = st \/ ((st = Plain \/ st = Escaped) /\ detect_style (encode st p) = if existsb special_unquoted p then Escaped else Plain)).
Proof.
  assert (U : forall p, (detect_style (escape_unquoted p) = if existsb special_unquoted p then Escaped else Plain)).
  { intros p. unfold detect_style.
    assert (Q : forall q, special_unquoted q = true -> q <> 92%N -> starts_with [q] (escape_unquoted p) = false).
    { intros q Sq Nq. destruct p as [|c p]; [reflexivity|]. unfold escape_unquoted, escape. cbn [flat_map]. destruct (special_unquoted c) eqn:E; cbn [app starts_with].
      - destruct (N.eqb_spec q 92); [congruence|reflexivity].
      - destruct (N.eqb_spec q c) as [-> |]; [congruence|reflexivity]. }
    assert (Q1 : starts_with [34%N] (escape_unquoted p) = false) by (apply (Q 34%N); [reflexivity|discriminate]).
    assert (Q2 : starts_with [39%N] (escape_unquoted p) = false) by (apply (Q 39%N); [reflexivity|discriminate]).
    unfold str, char in *. rewrite Q1, Q2.
    replace (mem_char 92%N (escape_unquoted p)) with (existsb special_unquoted p); [reflexivity|]. clear.
    induction p as [|c p IH]; [reflexivity|]. unfold escape_unquoted, escape in *. cbn [flat_map existsb]. rewrite IH. unfold mem_char. rewrite existsb_app. f_equal.
    destruct (special_unquoted c) eqn:E; [reflexivity|]. cbn [existsb]. rewrite orb_false_r. destruct (N.eqb_spec 92 c) as [<- |]; [discriminate E|reflexivity]. }
  intros st p R.
  assert (P : normalize (escape_unquoted p) = p).
  { unfold normalize. rewrite U. destruct (existsb special_unquoted p); apply decode_escape, esc_cases; reflexivity. }
  destruct st as [| |[]|[]]; cbn [encode recoverable] in *.
  - split; [exact P|]. right. auto.
  - split; [exact P|]. right. auto.
  - assert (D : detect_style ([39%N] ++ escape_single_quoted p ++ [39%N]) = SingleQuoted true).
    { unfold detect_style. cbn [app]. replace (starts_with [34%N] (39%N :: escape_single_quoted p ++ [39%N])) with false by reflexivity. rewrite one_char, blen_app_pos.
      change (39%N :: escape_single_quoted p ++ [39%N]) with ((39%N :: escape_single_quoted p) ++ [39%N]). rewrite ends_snoc. reflexivity. }
    split; [|left; exact D]. unfold normalize. rewrite D. unfold strip_wrapping_quote. cbn [app strip_prefix1]. rewrite N.eqb_refl, strip_suffix_snoc. apply decode_escape, esc_cases. reflexivity.
  - rewrite app_nil_r. assert (D : detect_style ([39%N] ++ escape_single_quoted p) = SingleQuoted false).
    { unfold detect_style. cbn [app]. replace (starts_with [34%N] (39%N :: escape_single_quoted p)) with false by reflexivity. rewrite one_char.
      destruct (escape_single_quoted p) as [|x s] eqn:E; [reflexivity|]. rewrite ends_cons by discriminate. rewrite <- E. unfold escape_single_quoted. rewrite last_escape; unfold str, char in *; rewrite R, andb_false_r. reflexivity. }
    split; [|left; exact D]. unfold normalize. rewrite D. unfold strip_wrapping_quote. cbn [app strip_prefix1]. rewrite N.eqb_refl. apply decode_escape, esc_cases. reflexivity.
  - assert (D : detect_style ([34%N] ++ escape_double_quoted p ++ [34%N]) = DoubleQuoted true).
    { unfold detect_style. cbn [app]. rewrite one_char, blen_app_pos.
      change (34%N :: escape_double_quoted p ++ [34%N]) with ((34%N :: escape_double_quoted p) ++ [34%N]). rewrite ends_snoc. reflexivity. }
    split; [|left; exact D]. unfold normalize. rewrite D. unfold strip_wrapping_quote. cbn [app strip_prefix1]. rewrite N.eqb_refl, strip_suffix_snoc. apply decode_escape, esc_cases. reflexivity.
  - rewrite app_nil_r. assert (D : detect_style ([34%N] ++ escape_double_quoted p) = DoubleQuoted false).
    { unfold detect_style. cbn [app]. rewrite one_char.
      destruct (escape_double_quoted p) as [|x s] eqn:E; [reflexivity|]. rewrite ends_cons by discriminate. rewrite <- E. unfold escape_double_quoted. rewrite last_escape; unfold str, char in *; rewrite R, andb_false_r. reflexivity. }
    split; [|left; exact D]. unfold normalize. rewrite D. unfold strip_wrapping_quote. cbn [app strip_prefix1]. rewrite N.eqb_refl. apply decode_escape, esc_cases. reflexivity.
Qed.
(** a path that ends with the quote still open: the escaped quote is taken for the closing
    one, and the path comes back with a backslash instead *)
Theorem C13_decode_encode_refuted : forall p, let raw := encode (SingleQuoted false) (p ++ [39%N]) in
  detect_style raw = SingleQuoted true /\ normalize raw = p ++ [92%N].
Proof.
  intros p raw. assert (E : raw = 39%N :: (escape_single_quoted p ++ [92%N]) ++ [39%N]).
  { unfold raw. cbn [encode]. rewrite app_nil_r. unfold escape_single_quoted, escape. rewrite flat_map_app, <- app_assoc. reflexivity. }
  assert (D : detect_style raw = SingleQuoted true).
  { rewrite E. unfold detect_style. replace (starts_with [34%N] _) with false by reflexivity. rewrite one_char, blen_app_pos.
    change (39%N :: (escape_single_quoted p ++ [92%N]) ++ [39%N]) with ((39%N :: escape_single_quoted p ++ [92%N]) ++ [39%N]). rewrite ends_snoc. reflexivity. }
  split; [exact D|]. unfold normalize. rewrite D, E. unfold strip_wrapping_quote. cbn [strip_prefix1]. rewrite N.eqb_refl, strip_suffix_snoc. clear.
  induction p as [|c p IH]; [reflexivity|]. unfold escape_single_quoted, escape in *. cbn [flat_map]. destruct (mem_char c (lit "\'")) eqn:M; cbn [app decode_backslashes].
  - cbn [N.eqb Pos.eqb]. rewrite IH. reflexivity.
  - destruct (N.eqb_spec c 92) as [-> |]; [discriminate M|]. rewrite IH. reflexivity.
Qed.
(** so a list of candidates loses nothing when it is written in the style of the typed token:
    reading each inserted path back gives the path, and everything else is kept *)
Theorem C13_candidates_keep_their_paths_partial : forall l raw,
  let shown := format_candidates_for_token l (Some raw) in raw <> [] ->
  length shown = length l /\
  forall i c, nth_error l i = Some c ->
    match c with
    | CPath p => recoverable (detect_style raw) p -> exists t, nth_error shown i = Some (CPath t) /\ normalize t = p
    | CFile p d => recoverable (detect_style raw) p -> exists t, nth_error shown i = Some (CFile t d) /\ normalize t = p
    | CItem p d => recoverable (detect_style raw) p -> exists t, nth_error shown i = Some (CItem t d) /\ (if str_eqb d (lit "(file)") || str_eqb d (lit "(directory)") then normalize t else t) = p
    | COther _ => nth_error shown i = Some c
    end.
Proof.
  intros l raw shown N. unfold shown, format_candidates_for_token. destruct raw as [|a raw]; [congruence|]. split; [apply map_length|].
  intros i c H. rewrite nth_error_map, H. cbn [option_map]. destruct c as [p|p d|p d|t]; [| | |reflexivity]; intros R.
  - eexists; split; [reflexivity|]. apply C13_decode_encode_partial, R.
  - eexists; split; [reflexivity|]. apply C13_decode_encode_partial, R.
  - destruct (str_eqb d _ || str_eqb d _); eexists; split; [reflexivity|apply C13_decode_encode_partial, R|reflexivity|reflexivity].
Qed.
Print Assumptions C13_candidates_keep_their_paths_partial.
Print Assumptions C13_decode_encode_partial.
Print Assumptions C13_decode_encode_refuted.
Example C13_example : recoverable (DoubleQuoted false) (lit "a $b'c") /\ encode Plain (lit "my file's [1].txt") = lit "my\ file\'s\ \[1\].txt".
Proof. vm_compute. split; reflexivity. Qed.

(** ** C12 *)
(** the word the inserted text is *)
Definition inserted_word (st : style) (p : str) : Parse_Spec.word :=
  match st with
  | Plain | Escaped => Parse_Spec.Bare (map (fun c => (special_unquoted c, c)) p)
  | SingleQuoted _ => Parse_Spec.Single p
  | DoubleQuoted _ => Parse_Spec.Double p
  end.
(** styles and names for which it holds: unquoted, every name that is not empty; in closed
    quotes, the names that need no backslash there *)
Definition insertable (st : style) (p : str) : Prop :=
  match st with
  | Plain | Escaped => p <> []
  | SingleQuoted true => ~ In 92%N p /\ ~ In 39%N p
  | DoubleQuoted true => forall c, In c p -> ~ In c [34; 92; 96; 36]%N
  | _ => False
  end.
Lemma meta_special c : special_unquoted c = false -> Parse_Spec.ordinary c = true.
Proof.
  intros H. unfold Parse_Spec.ordinary. apply negb_true_iff. apply not_true_is_false. intros M. apply mem_char_iff in M.
  assert (A : forallb special_unquoted Parse_Spec.meta = true) by (vm_compute; reflexivity). rewrite forallb_forall in A. rewrite (A c M) in H. discriminate.
Qed.
Lemma inserted st p : insertable st p -> encode st p = Parse_Spec.typed_word (inserted_word st p) /\ Parse_Spec.meaning (inserted_word st p) = p /\ Parse_Spec.valid_word (inserted_word st p).
Proof.
  assert (U : p <> [] -> escape_unquoted p = Parse_Spec.typed_word (inserted_word Plain p) /\ Parse_Spec.meaning (inserted_word Plain p) = p /\ Parse_Spec.valid_word (inserted_word Plain p)).
  { intros N. cbn [inserted_word Parse_Spec.typed_word Parse_Spec.meaning]. split; [|split].
    - unfold escape_unquoted, escape. clear N. induction p as [|c p IH]; [reflexivity|]. cbn [map flat_map]. rewrite IH. reflexivity.
    - rewrite map_map. apply map_id.
    - split; [destruct p; [congruence|discriminate]|]. intros b c I E. apply in_map_iff in I as (x & [= <- <-] & _). apply meta_special, E. }
  assert (I : forall f p, (forall c, In c p -> f c = false) -> escape f p = p).
  { intros f. clear. induction p as [|c p IH]; intros H; [reflexivity|]. unfold escape in *. cbn [flat_map]. rewrite (H c) by (left; reflexivity). cbn [app]. rewrite IH; [reflexivity|]. intros; apply H; right; assumption. }
  destruct st as [| |[]|[]]; cbn [insertable encode]; intros H; try contradiction; try (apply U, H).
  - destruct H as [H1 H2]. split; [|split; [reflexivity|]].
    + cbn [inserted_word Parse_Spec.typed_word]. unfold escape_single_quoted. rewrite I; [reflexivity|]. intros c Hc. apply not_true_is_false. intros M. apply mem_char_iff in M. vm_compute in M. destruct M as [<- | [<- | []]]; contradiction.
    + split; [exact H2|]. apply not_true_is_false. intros E. apply ends_with_iff in E as (t & ->). apply H1, in_or_app. right. left. reflexivity.
  - split; [|split; [reflexivity|exact H]]. cbn [inserted_word Parse_Spec.typed_word]. unfold escape_double_quoted. rewrite I; [reflexivity|]. intros c Hc. apply not_true_is_false. intros M. apply mem_char_iff in M.
    apply (H c Hc). vm_compute in M |- *. intuition.
Qed.
(** [cmd] followed by a completed name runs [cmd] with exactly that name, provided
    expansion leaves it alone: the name is not a tilde or below one, and the inserted
    text is not the name of a variable *)
Theorem C12_completed_name_arrives_partial : forall home glob e resolve substitute cmd st p,
  (* a command that is one plain word *)
  cmd <> [] -> forallb Parse_Spec.ordinary cmd = true -> starts_with (lit "~") cmd = false -> trim cmd = cmd -> get_var e cmd = None ->
  resolve cmd = IsProgram cmd -> cmd <> lit "nopty" -> (forall o, In o Expand_Spec.operators -> get_var e o = None) ->
  (* a completed name *)
  insertable st p -> p <> lit "~" -> starts_with (lit "~/") p = false -> get_var e (encode st p) = None ->
  exists j, Expand_Model.get_jobs home glob [] e resolve substitute (cmd ++ lit " " ++ encode st p) = Some [j] /\ procs j = [Program cmd [cmd; p]].
Proof.
  intros home glob e resolve substitute cmd st p Nc Oc Nt Tc Gc Rc Ny Op Ins Np1 Np2 Gp.
  destruct (inserted st p Ins) as (T & M & V). set (w := inserted_word st p) in *.
  assert (Tw : Expand_Spec.tilde_text home w = Parse_Spec.typed_word w /\ Expand_Spec.value home (get_var e) w = p /\ match w with Parse_Spec.Bare l => Expand_Spec.tilde_word l = None | Parse_Spec.Var _ => False | _ => True end).
  { unfold w in *. destruct st; cbn [inserted_word] in *; try (split; [reflexivity|split; [reflexivity|exact I]]);
    (assert (Z : Expand_Spec.tilde_word (map (fun c => (special_unquoted c, c)) p) = None);
      [destruct p as [|c p]; [reflexivity|]; cbn [map Expand_Spec.tilde_word]; destruct (special_unquoted c) eqn:Ec; [reflexivity|]; destruct (N.eqb_spec c 126) as [-> |]; [|reflexivity];
       destruct p as [|d p]; [exfalso; apply Np1; reflexivity|]; cbn [map]; destruct (N.eqb_spec d 47) as [-> |]; [|rewrite andb_false_r; reflexivity]; discriminate Np2|];
     cbn [Expand_Spec.tilde_text Expand_Spec.value]; rewrite Z; split; [reflexivity|split; [exact M|reflexivity]]). }
  destruct Tw as (Tt & Vw & Tn).
  assert (Pt : Parse_Spec.typed_word (Expand_Spec.plain_word cmd) = cmd) by apply Expand_Proofs.plain_typed.
  assert (Zc : Expand_Spec.tilde_word (map (fun c => (false, c)) cmd) = None).
  { destruct cmd as [|c cmd]; [reflexivity|]. cbn [map Expand_Spec.tilde_word]. destruct (N.eqb_spec c 126) as [-> |]; [discriminate Nt|reflexivity]. }
  assert (Ct : Expand_Spec.tilde_text home (Expand_Spec.plain_word cmd) = cmd) by (cbn [Expand_Spec.tilde_text Expand_Spec.plain_word]; rewrite Zc; exact Pt).
  assert (Vc : Expand_Spec.value home (get_var e) (Expand_Spec.plain_word cmd) = cmd) by (cbn [Expand_Spec.value Expand_Spec.plain_word Parse_Spec.meaning]; rewrite Zc, map_map; apply map_id).
  set (l := (Parse_Spec.Segment [] [Parse_Spec.CmdLine [] (Expand_Spec.plain_word cmd) [Parse_Spec.Arg (lit " ") w] []], []) : Parse_Spec.line).
  set (l' := (Parse_Spec.Segment [] [Parse_Spec.CmdLine [] (Expand_Spec.literal cmd) [Parse_Spec.Arg (lit " ") (Expand_Spec.literal p)] []], []) : Parse_Spec.line).
  assert (A : Expand_Spec.alias_of home [] (get_var e) (Expand_Spec.plain_word cmd) = None) by (clear; unfold Expand_Spec.alias_of, Expand_Spec.plain_word; destruct (forallb _ _); reflexivity).
  assert (El : Parse_Spec.typed_line l = cmd ++ lit " " ++ encode st p).
  { unfold l, Parse_Spec.typed_line, Parse_Spec.typed_segment, Parse_Spec.typed_cmd. cbn [fst snd Parse_Spec.bgs Parse_Spec.pipe map join_with flat_map app Parse_Spec.lead Parse_Spec.name Parse_Spec.items Parse_Spec.trail Parse_Spec.typed_item]. rewrite !app_nil_r, Pt, T. reflexivity. }
  destruct (Expand_Props.C63_expansion_keeps_the_line_partial home glob [] e resolve substitute l l') as (js & J & Mj).
  - split; [|exact I]. split; [|split; [discriminate|constructor]]. constructor; [|constructor]. split; [reflexivity|]. split; [reflexivity|]. split; [apply Expand_Proofs.plain_valid; assumption|].
    constructor; [|constructor]. split; [reflexivity|]. split; [left; discriminate|exact V].
  - split; [|split; [split; [constructor|exact I]|exact Op]]. constructor; [|constructor]. split.
    + unfold Expand_Spec.tame_name. cbn [Parse_Spec.name]. rewrite A. split; [|split; [reflexivity|rewrite Ct; exact Tc]].
      cbn [Expand_Spec.tame_word Expand_Spec.plain_word]. fold (Expand_Spec.plain_word cmd). rewrite Ct. split; [exact Gc|].
      cbn [Expand_Spec.tame_word]. rewrite Zc. exact I.
    + constructor; [|constructor]. cbn [Expand_Spec.tame_item]. destruct w as [lw|t|t|n] eqn:Ew; cbn [Expand_Spec.tame_word]; try contradiction; rewrite <- Ew in *.
      * rewrite Ew, Tt in *. rewrite <- T. split; [exact Gp|]. rewrite Tn. exact I.
      * rewrite Ew in *. rewrite <- T. exact Gp.
      * rewrite Ew in *. rewrite <- T. exact Gp.
  - split; [|constructor]. split; [constructor|]. constructor; [|constructor].
    pose proof (Expand_Spec.plain_value home [] (get_var e) (Parse_Spec.CmdLine [] (Expand_Spec.plain_word cmd) [Parse_Spec.Arg (lit " ") w] []) A) as P.
    cbn [Parse_Spec.name Parse_Spec.items map Expand_Spec.item_value Parse_Spec.lead Parse_Spec.trail] in P. rewrite Vc, Vw in P. exact P.
  - constructor; [|constructor]. split; cbn [Parse_Spec.name]; rewrite Expand_Proofs.snd_literal; [exact Ny|rewrite Rc; exact I].
  - rewrite El in J. cbn in Mj. destruct js as [|j [|? ?]]; try discriminate. injection Mj as Hp _ _ _. exists j. split; [exact J|]. rewrite Hp.
    unfold Parse_Spec.process_for. cbn [Parse_Spec.name]. unfold Parse_Spec.argv. cbn [Parse_Spec.name Parse_Spec.items flat_map app]. rewrite !Expand_Proofs.snd_literal, Rc. reflexivity.
Qed.
Print Assumptions C12_completed_name_arrives_partial.
Example C12_example : insertable Plain (lit "my file's $[1].txt") /\ insertable (DoubleQuoted true) (lit "it's here") /\
  Expand_Props.runs Expand_Props.some_env "cat my\ file\'s\ \$\[1\].txt" =
    Some [([Program (lit "cat") [lit "cat"; lit "my file's $[1].txt"]], true, None, Parse_Model.OpNone)].
Proof.
  split; [discriminate|]. split; [|vm_compute; reflexivity].
  intros c H. vm_compute in H. repeat (destruct H as [<- | H]; [vm_compute; intros X; repeat (destruct X as [X | X]; [discriminate|]); contradiction|]). contradiction.
Qed.
Definition argvs (line : str) : option (list (list process)) :=
  option_map (map procs) (Expand_Model.get_jobs (Some (lit "/home/u")) Expand_Props.no_glob [] Expand_Props.some_env (fun s => IsProgram s) (fun _ _ => []) line).
(** in quotes the backslashes that are inserted reach the program, a name ending in a
    backslash is lost altogether, and a name that is a tilde becomes the home directory *)
Theorem C12_completed_name_arrives_refuted :
  argvs (lit "cat " ++ encode (DoubleQuoted true) (lit "a$b")) = Some [[Program (lit "cat") [lit "cat"; lit "a\$b"]]] /\
  argvs (lit "cat " ++ encode (SingleQuoted true) (lit "it's")) = Some [[Program (lit "cat") [lit "cat"; lit "it\'s"]]] /\
  argvs (lit "rm -r x " ++ encode (SingleQuoted true) (lit "a\")) = Some [[Program (lit "rm") [lit "rm"; lit "-r"; lit "x"]]] /\
  argvs (lit "rm -r " ++ encode Plain (lit "~")) = Some [[Program (lit "rm") [lit "rm"; lit "-r"; lit "/home/u"]]].
Proof. vm_compute. repeat split. Qed.
Print Assumptions C12_completed_name_arrives_refuted.
