(** C106: the word that is completed.  C107: subcommands are offered where they can stand. *)
From Verif Require Import Base Token_Model Token_Spec Token_Proofs Comp_Model Comp_Spec Comp_Proofs Comp_Words Comp_Subs.

Section C106.
Variable alphabetic alphanumeric : char -> bool.
Notation parse := (parse alphabetic alphanumeric).

(** ** C106 *)
(** with the cursor counted in bytes: every word of the line is accounted for, the word that is
    completed is what was typed between the last separator and the cursor, or the value of an
    option written as --name=value *)
Theorem C106_word_in_bytes : forall line k, k <= length line ->
  let p := parse line (blen (firstn k line)) in
  exists ts w, tokens_of line Parser ts /\ typed_at line k w /\
    command p :: path p ++ raw_args p = words_before ts k ++ w :: words_after ts k /\
    (words_before ts k = [] -> current p = w /\ ctx p = In_command) /\
    (words_before ts k <> [] -> forall name v, with_value w name v -> current p = v /\ ctx p = In_value name None) /\
    ((forall name v, ~ with_value w name v) -> current p = w).
Proof.
  intros line k K p. destruct (parse_parts alphabetic alphanumeric line k K) as (w & T & P & C & H). exists (tokenize line Parser), w.
  split; [apply tokenize_tokens|]. split; [exact T|]. split; [exact P|]. split; [|split].
  - intros E. split; [|apply H, E]. destruct C as [C | (name & _ & _ & N)]; [exact C|congruence].
  - intros N name v W. apply with_value_iff in W. apply (parse_value alphabetic alphanumeric line k w name v K T N W).
  - intros N. destruct C as [C | (name & S & _ & _)]; [exact C|]. exfalso. apply with_value_iff in S. apply (N _ _ S).
Qed.
(** the key handler counts characters: that is the same as long as what stands before the cursor
    is ASCII *)
Theorem C106_word_at_cursor_partial : forall line k, k <= length line -> ascii (firstn k line) ->
  let p := parse line k in
  exists ts w, tokens_of line Parser ts /\ typed_at line k w /\
    command p :: path p ++ raw_args p = words_before ts k ++ w :: words_after ts k /\
    (words_before ts k = [] -> current p = w /\ ctx p = In_command) /\
    (words_before ts k <> [] -> forall name v, with_value w name v -> current p = v /\ ctx p = In_value name None) /\
    ((forall name v, ~ with_value w name v) -> current p = w).
Proof.
  intros line k K A p. destruct (C106_word_in_bytes line k K) as (ts & w & T & Ty & R). exists ts, w.
  assert (blen (firstn k line) = k) as E by (rewrite (ascii_blen _ A), firstn_length; lia). rewrite E in R. exact (conj T (conj Ty R)).
Qed.
(** otherwise the word is cut short: at the end of a line [cmd w] where [w] has no ASCII character,
    less than [w] is completed *)
Lemma take_bytes_le (s : str) : forall n, blen (take_bytes n s) <= n /\ exists r, s = take_bytes n s ++ r.
Proof.
  induction s as [|c s IH]; intros n; cbn [take_bytes]; [split; [cbn; lia|exists []; reflexivity]|].
  destruct (Nat.leb_spec (utf8_len c) n) as [H|H]; [|split; [cbn; lia|exists (c :: s); reflexivity]].
  destruct (IH (n - utf8_len c)) as (A & r & B). split; [cbn [blen]; lia|]. exists r. cbn [app]. rewrite <- B. reflexivity.
Qed.
Theorem C106_word_at_cursor_refuted : forall cmd w, word cmd -> ascii cmd -> word w -> Forall (fun c => (128 <= c)%N) w ->
  let line := line_of [cmd] w in
  let p := parse line (length line) in
  typed_at line (length line) w /\ exists r, r <> [] /\ w = current p ++ r.
Proof.
  intros cmd w Wc Ac Ww Hi line p. split.
  - destruct (cursor_tokens_spec line (length line) (le_n _)) as (w' & T & C). rewrite firstn_all in C. cbn zeta in C.
    assert (X : cursor_tokens line (blen line) = ([cmd] ++ [w], 1)) by (apply (cursor_words [cmd] w); [constructor; [exact Wc|constructor]|apply Ww]).
    rewrite X in C. injection C as C _. change ([cmd] ++ [w] = words_before (tokenize line Parser) (length line) ++ w' :: words_after (tokenize line Parser) (length line)) in C.
    assert (L : length (words_after (tokenize line Parser) (length line)) = 0).
    { unfold words_after. rewrite map_length. destruct (tokenize_tokens line Parser) as (D & _). clear - D. induction D as [|t l Dt _ IH]; [reflexivity|]. cbn [filter].
      destruct Dt as ((? & ?) & _). destruct (Nat.ltb_spec (length line) (char_start t)); [lia|exact IH]. }
    destruct (words_after (tokenize line Parser) (length line)); [|discriminate L].
    change ([cmd] ++ [w] = words_before (tokenize line Parser) (length line) ++ [w']) in C. apply app_inj_tail in C as [_ ->]. exact T.
  - assert (Bl : blen line = length cmd + 1 + blen w).
    { unfold line. rewrite blen_line_cons, (ascii_blen cmd Ac). reflexivity. }
    assert (Ll : length line = length cmd + 1 + length w).
    { unfold line. rewrite line_cons, app_length. cbn. lia. }
    assert (Lt : length w < blen w).
    { destruct Ww as [_ Nw]. clear - Hi Nw. destruct w as [|c w]; [congruence|]. inversion Hi; subst. cbn [length blen].
      assert (2 <= utf8_len c) by (unfold utf8_len; destruct (N.ltb_spec c 128); [lia|]; repeat (destruct (_ <? _)%N); lia). pose proof (length_le_blen w). lia. }
    assert (Tk : tokenize line Parser = spans_of 0 0 [cmd] w) by (apply (scan_words [cmd] w); [constructor; [exact Wc|constructor]|apply Ww]).
    unfold p, Comp_Model.parse, cursor_tokens. rewrite Tk. cbn [spans_of app].
    destruct w as [|c w]; [destruct Ww; congruence|]. set (W := c :: w) in *. cbn [map raw cursor_token byte_end byte_start Nat.add].
    rewrite (ascii_blen cmd Ac). destruct (Nat.leb_spec (length line) (length cmd)); [lia|].
    destruct (Nat.leb_spec (length line) (length cmd + 1 + blen W)); [|lia]. destruct (Nat.leb_spec (length cmd + 1) (length line)); [|lia].
    cbn [nth_error byte_start raw]. rewrite Ll. replace (length cmd + 1 + length W - (length cmd + 1)) with (length W) by lia.
    destruct (Nat.ltb_spec (length W) (blen W)); [|lia]. cbn [firstn skipn app].
    set (t := take_bytes (length W) W). assert (Tl : blen t <= length W /\ exists r, W = t ++ r) by apply take_bytes_le. destruct Tl as (Tb & r & Tr).
    assert (Rn : r <> []) by (intros ->; rewrite app_nil_r in Tr; rewrite <- Tr in Tb; lia).
    exists r. split; [exact Rn|].
    destruct (analyze_parts alphabetic alphanumeric [cmd; t] 1 line) as (_ & [E | (nm & v & E & _)] & _); [cbn; lia| |].
    + rewrite E. exact Tr.
    + exfalso. cbn [nth] in E. unfold split_inline in E. destruct (is_long t) eqn:Lg; [|discriminate E]. unfold is_long in Lg. apply starts_with_iff in Lg as (r' & Er).
      rewrite Er in Tr. unfold W in Tr. injection Tr as -> _. inversion Hi; subst. lia.
Qed.
(** the separators of commands are not seen: the word after a pipe or a semicolon is completed as
    an argument of the first command of the line *)
Theorem C106_command_refuted : forall cmd sep rest w, word cmd -> In sep [lit "|"; lit "&&"; lit ";"]%string -> Forall word rest -> plain w ->
  let line := line_of (cmd :: sep :: rest) w in
  command (parse line (blen line)) = cmd.
Proof.
  intros cmd sep rest w Wc Is Wr Pw line. unfold line. rewrite parse_words; [|exact Wc| |exact Pw].
  - destruct (analyze_parts alphabetic alphanumeric (cmd :: (sep :: rest) ++ [w]) (S (length (sep :: rest))) (line_of (cmd :: sep :: rest) w)) as (E & _).
    + cbn [length]. rewrite app_length. cbn. lia.
    + injection E as E _. exact E.
  - constructor; [|exact Wr]. destruct Is as [<- | [<- | [<- | []]]]; (split; [repeat (constructor; [split; [cbn; intuition discriminate|reflexivity]|]); constructor|discriminate]).
Qed.
End C106.
Example C106_example :
  let p := parse (fun _ => true) (fun _ => true) (lit "git remote add origin --tags=al x") 31 in
  (command p, path p, raw_args p, current p) =
  (lit "git", [lit "remote"; lit "add"; lit "origin"], [lit "--tags=al"; lit "x"], lit "al").
Proof. vm_compute. reflexivity. Qed.
Example C106_multibyte :
  current (parse (fun _ => true) (fun _ => true) (lit "ls " ++ [12354; 12356]%N) 5) = [].
Proof. vm_compute. reflexivity. Qed.

(** ** C107 *)
Section C107.
Variable alphabetic alphanumeric : char -> bool.
Variable db : str -> option definition.
Variable printable : char -> bool.
Variable escape_name : char -> str.
Variable files commands : str -> list candidate.
Variable other : nat -> str -> list candidate.
Variable fuzzy : str -> str -> bool.
Variable shell resolve : str -> str.
Notation complete_at := (complete_at alphabetic alphanumeric db printable escape_name files commands other fuzzy shell resolve).
Notation generate := (generate alphabetic alphanumeric db printable escape_name files commands other fuzzy shell).
Notation convert := (convert alphabetic alphanumeric db resolve).
Notation parse := (parse alphabetic alphanumeric).

(** the parsed line of a command, some words, and a last word that is no option *)
Lemma parse_subs cmd ws pre : word cmd -> is_option cmd = false -> Forall word ws -> plain pre ->
  Forall (fun w => is_option w = false) ws -> is_option pre = false ->
  let line := line_of (cmd :: ws) pre in
  exists ws1 ws2 o a c, ws = ws1 ++ ws2 /\
    (c = In_sub \/ exists i, c = In_argument i None) /\
    (parse line (blen line) = Parsed cmd ws1 (ws2 ++ [pre]) pre (Some pre) c o a \/
     ws2 = [] /\ parse line (blen line) = Parsed cmd (ws1 ++ [pre]) [] pre (Some pre) c o a).
Proof.
  intros Wc Oc Ww Pp Ow Op line. unfold line. rewrite (parse_words _ _ cmd ws pre Wc Ww Pp). unfold analyze. rewrite (space_words cmd ws pre Wc).
  destruct (leading_words alphabetic alphanumeric ws pre) as (ws1 & ws2 & E & L).
  assert (Nc : nth (S (length ws)) (cmd :: ws ++ [pre]) [] = pre) by (cbn [nth]; rewrite app_nth2, Nat.sub_diag by lia; reflexivity).
  assert (Np : is_option (nth (S (length ws) - 1) (cmd :: ws ++ [pre]) []) = false).
  { cbn [Nat.sub]. rewrite Nat.sub_0_r. change (cmd :: ws ++ [pre]) with ((cmd :: ws) ++ [pre]). rewrite app_nth1 by (cbn; lia).
    assert (A : Forall (fun w => is_option w = false) (cmd :: ws)) by (constructor; assumption). rewrite Forall_forall in A. apply A, nth_In. cbn. lia. }
  rewrite Nc. set (prev := nth (S (length ws) - 1) (cmd :: ws ++ [pre]) []) in *. cbn [Nat.eqb].
  assert (G : forall sub args, exists c, (c = In_sub \/ exists i, c = In_argument i None) /\ context_of alphabetic alphanumeric (S (length ws)) pre prev sub args true = c).
  { intros sub args. eexists. split; [|reflexivity]. unfold context_of. rewrite (not_inline pre Op), (not_long pre Op), Op, Np. cbn [andb negb]. rewrite andb_false_r.
    destruct (is_redirect prev); [right; eexists; reflexivity|]. destruct (is_redirect pre); [right; eexists; reflexivity|]. destruct (path_like pre); [right; eexists; reflexivity|].
    destruct (match sub with [] => true | _ => _ end); [left; reflexivity|right; eexists; reflexivity]. }
  destruct L as [L | (-> & L)]; rewrite L.
  - destruct (classify false (ws2 ++ [pre])) as [o a]. destruct (G ws1 a) as (c & Hc & Ec). exists ws1, ws2, o, a, c. split; [exact E|]. split; [exact Hc|]. left. rewrite Ec, (not_inline pre Op). destruct c; reflexivity.
  - destruct (classify false []) as [o a]. destruct (G (ws ++ [pre]) a) as (c & Hc & Ec). exists ws1, [], o, a, c. split; [exact E|]. split; [exact Hc|]. right. split; [reflexivity|]. rewrite app_nil_r in E. subst ws1. rewrite Ec, (not_inline pre Op). destruct c; reflexivity.
Qed.

(** after a command and some of its subcommands, the subcommands that can follow and that start
    with what was typed are offered: each of them, and, behind the first subcommand, nothing else.
    Nothing but that is looked at and nothing is run. *)
Theorem C107_subcommands_offered_partial : forall cmd c d ws names subs pre depth,
  word cmd -> ascii cmd -> is_option cmd = false -> resolve cmd = c -> db c = Some d -> dashed d ->
  Forall (fun w => word w /\ ascii w /\ is_option w = false) ws -> plain pre -> ascii pre -> is_option pre = false ->
  follows (d_subs d) ws names subs ->
  (* what was typed is the start of a subcommand, but not one *)
  existsb (sub_starts pre) subs = true -> find_sub subs pre = None ->
  (* no word is used twice *)
  Forall (fun w => w <> pre /\ find_sub subs w = None) ws ->
  let line := line_of (cmd :: ws) pre in
  exists l ran, complete_at (S depth) line (length line) = Some (Found l ran) /\
    (forall s, In s subs -> starts_with pre (s_name s) = true -> exists k, In k l /\ what k = K_sub /\ text k = s_name s) /\
    (forall s, In s subs -> sub_starts pre s = true -> exists k, In k l /\ what k = K_sub /\ names_sub pre s (text k)) /\
    (ws <> [] -> ran = [] /\ forall k, In k l -> what k = K_sub /\ exists s, In s subs /\ names_sub pre s (text k)).
Proof.
  intros cmd c d ws names subs pre depth Wc Ac Oc Rc Dc Ds Hw Pp Ap Op F St Nf Nd line.
  assert (Ww : Forall word ws) by (eapply Forall_impl; [|exact Hw]; cbn; tauto).
  assert (Ow : Forall (fun w => is_option w = false) ws) by (eapply Forall_impl; [|exact Hw]; cbn; tauto).
  assert (Al : ascii line).
  { unfold line, line_of. apply Forall_app. split; [|exact Ap]. apply Forall_flat_map. constructor.
    - apply Forall_app. split; [exact Ac|constructor; [lia|constructor]].
    - eapply Forall_impl; [|exact Hw]. intros w (_ & A & _). apply Forall_app. split; [exact A|constructor; [lia|constructor]]. }
  unfold Comp_Model.complete_at, collect. rewrite <- (ascii_blen line Al).
  destruct (parse_subs cmd ws pre Wc Oc Ww Pp Ow Op) as (ws1 & ws2 & o & a & cx & E & Cx & P). subst ws.
  assert (Cv : exists raw, convert line (blen line) = Parsed c names raw pre (Some pre) In_sub o a /\ (raw = ws2 ++ [pre] \/ (ws2 = [] /\ raw = []))).
  { apply Forall_app in Ow as [_ Ow2]. apply Forall_app in Nd as [_ Nd2]. assert (Ne : Forall (fun w => w <> pre) ws2) by (eapply Forall_impl; [|exact Nd2]; cbn; tauto).
    unfold Comp_Model.convert, correct, with_command. fold line in P. destruct P as [P | (-> & P)]; rewrite P; cbn [command]; rewrite Rc, Dc.
    - exists (ws2 ++ [pre]). split; [|left; reflexivity]. match goal with |- correct1 d ?q = _ => rewrite (correct_subs d q ws1 ws2 names subs Ds F Op Ow2 Nf St Ne Cx) end; [reflexivity|]. left. split; reflexivity.
    - exists []. split; [|right; split; reflexivity]. match goal with |- correct1 d ?q = _ => rewrite (correct_subs d q ws1 [] names subs Ds F Op Ow2 Nf St Ne Cx) end; [reflexivity|]. right. repeat split; reflexivity. }
  destruct Cv as (raw & Cv & Hr). rewrite Cv. cbn [ctx generate]. 
  assert (Cr : correct db (Parsed c names raw pre (Some pre) In_sub o a) = Parsed c names raw pre (Some pre) In_sub o a).
  { unfold correct. cbn [command]. rewrite Dc. match goal with |- correct1 d ?q = _ => apply (correct_subs_again d q ws2 names subs Ds (follows_names _ _ _ _ F) Op) end; try assumption; try reflexivity.
    - apply Forall_app in Ow as [_ Ow2]. exact Ow2.
    - apply Forall_app in Nd as [_ Nd2]. exact Nd2. }
  rewrite Cr. cbn [ctx command]. rewrite Dc. unfold gen_sub. cbn [path current sargs].
  destruct (sub_candidates_names pre subs) as (S1 & S2 & S3).
  destruct names as [|n names].
  - assert (Hl : ws1 ++ ws2 = [] /\ subs = d_subs d) by (inversion F; split; reflexivity). destruct Hl as (Hl & ->). cbn [current_sub].
    set (ex := match nth_error (d_arguments d) (length a) with Some x => _ | None => _ end).
    assert (Ex : exists m ran, ex = (sub_candidates pre (d_subs d) ++ m, ran)).
    { unfold ex. destruct (nth_error (d_arguments d) (length a)) as [x|]; [|exists [], []; rewrite app_nil_r; reflexivity].
      destruct (a_type x) as [t|]; [|exists [], []; rewrite app_nil_r; reflexivity]. destruct (of_type _ _ _ _ t _) as [m ran]. exists m, ran. reflexivity. }
    destruct Ex as (m & ran & ->). apply existsb_exists in St as (s0 & I0 & H0). destruct (S1 s0 I0 H0) as (c0 & Ic & _).
    assert (Ne : match sub_candidates pre (d_subs d) ++ m with [] => files pre | _ => sub_candidates pre (d_subs d) ++ m end = sub_candidates pre (d_subs d) ++ m).
    { destruct (sub_candidates pre (d_subs d)); [destruct Ic|reflexivity]. }
    rewrite Ne. exists (sub_candidates pre (d_subs d) ++ m), ran. split; [reflexivity|]. split; [|split].
    + intros s I H. destruct (S2 s I H) as (k & Ik & Hk). exists k. split; [apply in_app_iff; left; exact Ik|exact Hk].
    + intros s I H. destruct (S1 s I H) as (k & Ik & Hk). exists k. split; [apply in_app_iff; left; exact Ik|exact Hk].
    + intros N. congruence.
  - destruct (current_follows _ _ _ _ (follows_names _ _ _ _ F)) as (s & Cs & Ss); [discriminate|]. rewrite Cs, Ss.
    apply existsb_exists in St as (s0 & I0 & H0). destruct (S1 s0 I0 H0) as (c0 & Ic & _).
    assert (Ne : match sub_candidates pre subs with [] => files pre | _ => sub_candidates pre subs end = sub_candidates pre subs) by (destruct (sub_candidates pre subs); [destruct Ic|reflexivity]).
    rewrite Ne. exists (sub_candidates pre subs), []. split; [reflexivity|]. split; [exact S2|]. split; [exact S1|]. intros _. split; [reflexivity|exact S3].
Qed.

Lemma convert_line cmd ws pre : word cmd -> Forall word ws -> plain pre -> let line := line_of (cmd :: ws) pre in
  convert line (blen line) = correct db (with_command (resolve cmd) (analyze alphabetic alphanumeric (cmd :: ws ++ [pre]) (S (length ws)) line)).
Proof.
  intros Wc Ww Pp line. unfold Comp_Model.convert, line. rewrite (parse_words _ _ cmd ws pre Wc Ww Pp).
  destruct (analyze_parts alphabetic alphanumeric (cmd :: ws ++ [pre]) (S (length ws)) (line_of (cmd :: ws) pre)) as (E & _).
  - cbn [length]. rewrite app_length. cbn. lia.
  - apply (f_equal (hd [])) in E. cbn [hd] in E. rewrite E. reflexivity.
Qed.
(** behind an option, the subcommands of the command itself are offered instead of those of the
    subcommand the option is followed by *)
Theorem C107_after_option_refuted : forall cmd c d o w s depth,
  word cmd -> resolve cmd = c -> db c = Some d -> dashed d -> d_arguments d = [] ->
  word o -> is_option o = true -> split_inline o = None -> find_sub (d_subs d) o = None ->
  word w -> is_option w = false -> is_redirect w = false -> find_sub (d_subs d) w = Some s ->
  let line := line_of [cmd; o; w] [] in
  exists l, complete_at (S depth) line (blen line) = Some (Found l []) /\ map text l = map s_name (d_subs d).
Proof.
  intros cmd c d o w s depth Wc Rc Dc Ds Da Wo Oo Io No Ww Ow Rw Fw line. destruct (classify false [o; w; []]) as [oo aa] eqn:Ecl.
  assert (Ce : convert line (blen line) = Parsed c [] [o; w; []] [] (Some []) In_sub oo aa
    /\ correct db (Parsed c [] [o; w; []] [] (Some []) In_sub oo aa) =
       Parsed c [] [o; w; []] [] (Some []) In_sub oo aa).
  { set (p := Parsed c [] [o; w; []] [] (Some []) In_sub oo aa).
    assert (Vn : value_of_option d p = None).
    { unfold value_of_option, raw_token, raw_previous, raw_index. cbn [raw_args current p]. cbn [rposition]. rewrite Io, (not_inline w Ow).
      change (split_inline []) with (@None (str * str)). cbn [str_eqb]. cbn [nth_error]. change (split_inline []) with (@None (str * str)). cbn [attached_value is_option starts_with lit andb option_map].
      change (is_option []) with false. cbn [andb option_map]. rewrite find_nothing; [reflexivity|]. intros x I. destruct (matches_name x w) eqn:M; [|reflexivity]. specialize (Ds _ _ _ I M). congruence. }
    assert (Cr : correct db p = p).
    { unfold correct. cbn [command p]. rewrite Dc. unfold correct1. cbn [path walk p]. fold p. rewrite Vn. cbn [ctx p]. destruct (d_subs d) as [|s0 l0] eqn:Es; [discriminate Fw|]. rewrite <- Es in *.
      fold p. cbn [raw_args current p more_subs]. fold p. rewrite No. destruct o as [|c0 o]; [destruct Wo; congruence|]. cbn [str_eqb andb Nat.eqb]. rewrite Vn. reflexivity. }
    split; [|exact Cr]. unfold line. rewrite (convert_line cmd [o; w] []); [|exact Wc|constructor; [exact Wo|constructor; [exact Ww|constructor]]|constructor].
    rewrite <- Cr. f_equal. unfold analyze. rewrite (space_words cmd [o; w] [] Wc). cbn [app leading]. assert (looks_like_sub alphabetic alphanumeric o = false) as -> by (unfold looks_like_sub; rewrite Oo; reflexivity).
    match goal with |- context [classify false ?l] => change (classify false l) with (classify false [o; w; []]) end. rewrite Ecl. unfold p. cbn [length Nat.eqb nth Nat.sub fst snd]. unfold context_of. change (split_inline []) with (@None (str * str)). cbn [is_long is_option starts_with lit]. change (is_long []) with false. change (is_option []) with false. cbn [Nat.eqb andb].
    rewrite Ow, Rw. unfold with_command. cbn. rewrite Rc. reflexivity. }
  destruct Ce as (Ce & Cr). unfold Comp_Model.complete_at, collect. rewrite Ce. cbn [ctx generate]. rewrite Cr. cbn [ctx command]. rewrite Dc. unfold gen_sub. cbn [path current_sub current sargs].
  rewrite Da. replace (nth_error [] _) with (@None argument) by (destruct (length _); reflexivity).
  assert (Sc : map text (sub_candidates [] (d_subs d)) = map s_name (d_subs d)).
  { clear. induction (d_subs d) as [|s l IH]; [reflexivity|]. unfold sub_candidates in *. cbn [flat_map map]. unfold matched_text at 1. cbn [starts_with app map text]. f_equal. exact IH. }
  assert (Ne : match sub_candidates [] (d_subs d) with [] => files [] | _ => sub_candidates [] (d_subs d) end = sub_candidates [] (d_subs d)).
  { destruct (sub_candidates [] (d_subs d)); [|reflexivity]. destruct (d_subs d); [discriminate Fw|discriminate Sc]. }
  rewrite Ne. exists (sub_candidates [] (d_subs d)). split; [reflexivity|exact Sc].
Qed.
(** a subcommand that is the start of another one hides it: directly behind it, files are offered *)
Theorem C107_complete_name_refuted : forall cmd c d w s depth,
  word cmd -> is_option cmd = false -> is_redirect cmd = false -> resolve cmd = c -> db c = Some d -> dashed d ->
  word w -> looks_like_sub alphabetic alphanumeric w = true -> is_redirect w = false -> path_like w = false ->
  find_sub (d_subs d) w = Some s -> s_subs s = [] -> s_arguments s = [] ->
  let line := line_of [cmd] w in
  complete_at (S depth) line (blen line) = Some (Found (files w) []).
Proof.
  intros cmd c d w s depth Wc Oc Xc Rc Dc Ds Ww Lw Xw Pw Fw Ss Sa line.
  assert (Ow : is_option w = false) by (unfold looks_like_sub in Lw; destruct (is_option w); [discriminate Lw|reflexivity]).
  set (p0 := Parsed c [w] [] w (Some w) In_sub [] []). set (p := Parsed c [w] [] w (Some w) (In_argument 0 None) [] []).
  assert (V : forall x, value_of_option d (with_context x p0) = None) by (intros x; apply value_none; [exact Ds|constructor|exact Ow]).
  assert (C0 : correct db p0 = p).
  { unfold correct. cbn [command p0]. rewrite Dc. unfold correct1. cbn [path p0 walk]. rewrite Fw, Ss. fold p0. change p0 with (with_context In_sub p0). rewrite V. reflexivity. }
  assert (C1 : correct db p = p).
  { unfold correct. cbn [command p]. rewrite Dc. unfold correct1. cbn [path p walk]. rewrite Fw, Ss. fold p. change p with (with_context (In_argument 0 None) p0) at 1. rewrite V. cbn [ctx p]. fold p.
    assert (combined d p = None) as -> by (unfold combined; cbn [raw_args p length current]; destruct w; reflexivity).
    cbn [existsb]. fold p. cbn [raw_args more_subs p Nat.eqb]. fold p. change p with (with_context (In_argument 0 None) p0) at 1. rewrite V. reflexivity. }
  assert (Cv : convert line (blen line) = p).
  { unfold line. rewrite (convert_line cmd [] w); [|exact Wc|constructor|apply Ww]. rewrite <- C0. f_equal. unfold analyze. rewrite (space_words cmd [] w Wc). cbn [app leading]. rewrite Lw.
    cbn [classify length Nat.eqb nth Nat.sub]. unfold context_of. rewrite (not_inline w Ow), (not_long w Ow), Ow, Oc, Xc, Xw, Pw, Lw. cbn. unfold with_command. cbn. rewrite Rc. reflexivity. }
  unfold Comp_Model.complete_at, collect. rewrite Cv. cbn [ctx p generate]. fold p. rewrite C1. cbn [ctx p]. fold p. unfold gen_argument. cbn [command p]. rewrite Dc. cbn [path p arguments_of]. rewrite Fw, Sa, ?Ss. cbn.
  destruct (command_argument db p) as [[? ?]|]; reflexivity.
Qed.
(** an alias with arguments has no definition: nothing can be offered *)
Theorem C107_alias_refuted : forall cmd ws pre, word cmd -> Forall word ws -> plain pre -> db (resolve cmd) = None ->
  let line := line_of (cmd :: ws) pre in
  forall depth, ctx (parse line (blen line)) = In_sub -> complete_at (S depth) line (blen line) = Some (Missing (resolve cmd)).
Proof.
  intros cmd ws pre Wc Ww Pp Nd line depth Cx. unfold Comp_Model.complete_at, collect. unfold line. rewrite (convert_line cmd ws pre Wc Ww Pp).
  rewrite <- (parse_words _ _ cmd ws pre Wc Ww Pp). fold line. unfold correct at 1 2. cbn [with_command command]. rewrite Nd. cbn [with_command ctx]. rewrite Cx.
  cbn [generate]. unfold correct. cbn [with_command command]. rewrite Nd. cbn [with_command ctx command]. rewrite Cx, Nd. reflexivity.
Qed.
End C107.

(** a small definition that meets the hypotheses *)
Definition demo_opt (n : string) : coption := Coption None (Some (lit n)) false None None.
Definition demo : definition :=
  Definition_
    [Sub (lit "image") [lit "img"] [demo_opt "--all"] [] [Sub (lit "ls") [] [] [] []; Sub (lit "list") [] [] [] []; Sub (lit "rm") [] [] [] []];
     Sub (lit "images") [] [] [] []; Sub (lit "node") [] [] [] [Sub (lit "update") [] [] [] []]]
    [demo_opt "--host"] [].
Definition demo_db (c : str) : option definition := if str_eqb c (lit "docker") then Some demo else None.
Definition demo_complete (line : string) : option outcome :=
  complete_at (fun _ => true) (fun _ => true) demo_db (fun _ => true) (fun _ => []) (fun _ => []) (fun _ => []) (fun _ _ => [])
    (fun _ _ => true) (fun s => s) (fun c => c) 3 (lit line) (String.length line).
Example C107_example :
  demo_complete "docker img l" = Some (Found [Candidate (lit "ls") K_sub 100; Candidate (lit "list") K_sub 100] []) /\
  demo_complete "docker node " = Some (Found [Candidate (lit "update") K_sub 100] []) /\
  demo_complete "docker --host img " = Some (Found [Candidate (lit "image") K_sub 100; Candidate (lit "images") K_sub 100; Candidate (lit "node") K_sub 100] []) /\
  demo_complete "docker images" = Some (Found [] []).
Proof. vm_compute. auto. Qed.
Example C107_example_hypotheses :
  follows (d_subs demo) [lit "img"] [lit "image"] [Sub (lit "ls") [] [] [] []; Sub (lit "list") [] [] [] []; Sub (lit "rm") [] [] [] []] /\
  dashed demo /\ word (lit "img") /\ line_of [lit "docker"; lit "img"] (lit "l") = lit "docker img l".
Proof.
  split; [|split; [|split]].
  - apply (f_step (d_subs demo) (lit "img") (hd (Sub [] [] [] [] []) (d_subs demo)) [] []); [reflexivity|reflexivity|constructor].
  - assert (G : forall l o, In o (path_options (d_subs demo) l) -> o = demo_opt "--all").
    { intros [|n l] o I; [destruct I|]. cbn [path_options d_subs demo] in I. unfold find_sub in I. cbn [find] in I.
      destruct (sub_matches n (Sub (lit "image") _ _ _ _)).
      - apply in_app_iff in I as [[<- | []]|I]; [reflexivity|]. exfalso. cbn [s_subs] in I. destruct l as [|m l]; [destruct I|]. cbn [path_options] in I. unfold find_sub in I. cbn [find] in I.
        repeat (destruct (sub_matches m _) in I; [destruct l; destruct I|]). destruct I.
      - exfalso. destruct (sub_matches n (Sub (lit "images") _ _ _ _)); [destruct l; destruct I|].
        destruct (sub_matches n (Sub (lit "node") _ _ _ _)); [|destruct I]. cbn [s_options app s_subs] in I. destruct l as [|m l]; [destruct I|]. cbn [path_options] in I. unfold find_sub in I. cbn [find] in I.
        destruct (sub_matches m _) in I; [destruct l; destruct I|destruct I]. }
    intros p o n I M. apply in_app_iff in I as [[<- | []]|I]; [|apply G in I; subst o]; cbn in M; unfold is_name in M; apply str_eqb_eq in M; subst n; reflexivity.
  - split; [repeat (constructor; [split; [cbn; intuition discriminate|reflexivity]|]); constructor|discriminate].
  - reflexivity.
Qed.
Print Assumptions C106_word_in_bytes.
Print Assumptions C106_word_at_cursor_partial.
Print Assumptions C106_word_at_cursor_refuted.
Print Assumptions C106_command_refuted.
Print Assumptions C107_subcommands_offered_partial.
Print Assumptions C107_after_option_refuted.
Print Assumptions C107_complete_name_refuted.
Print Assumptions C107_alias_refuted.
