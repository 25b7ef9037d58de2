(** Reading command lines: C10, C11, C59-C62. *)
From Verif Require Import Base Peg_Model Grammar_Model Parse_Model Parse_Spec Grammar_Proofs Parse_Proofs Highlight_Model.

(** ** C10: every line parses; spans are nested, in order, inside the part that was read, and
    every node's text is the slice of the line at its span *)
Theorem C10_parsing_total_and_faithful : forall line,
  exists read rest kids, parse line = Ok [Node commands 0 read kids] read rest /\ line = read ++ rest /\
    faithful line 0 (length read) [Node commands 0 read kids].
Proof.
  intros line. destruct (parse_total line) as (kids & c & r & E & Q). exists c, r, kids. split; [exact E|]. split; [exact Q|].
  exact (proj1 (peg_faithful gram line _ _ 0 line _ _ _ eq_refl E)).
Qed.
Print Assumptions C10_parsing_total_and_faithful.

Example C10_example : match parse (lit "ls -l | wc > out)x") with
  | Ok [n] read rest => height n = 8 /\ read = lit "ls -l | wc > out" /\ rest = lit ")x" | _ => False end.
Proof. vm_compute. repeat split. Qed.

(** ** C11: nothing typed is dropped *)
Section C11.
Variable resolve : str -> found.
Variable substitute : subshell_type -> list job -> list str.

(** For every well-formed line, whatever its blanks, quotes, escapes and length: the jobs
    are exactly those the line stands for, with every command and every argument. *)
Theorem C11_wellformed_lines_run_whole_partial : forall l, valid_line l -> Forall (known resolve) (all_commands l) ->
  (exists kids, parse (typed_line l) = Ok [Node commands 0 (typed_line l) kids] (typed_line l) []) /\
  exists js, jobs_of resolve substitute (typed_line l) = Some js /\ map shape_of js = line_jobs resolve l /\
    forall j, In j js -> sub j = SubNone /\ capture j = false /\ disable_pty j = false /\ struct_exprs j = [].
Proof.
  intros l V K. pose proof (jobs_of_line resolve substitute l [] V (or_introl eq_refl) K) as (js & E & P & M). rewrite app_nil_r in E.
  split; [|exists js; split; [exact E|split; [exact M|]]].
  - destruct (parse_total (typed_line l)) as (kids & c & r & Ep & _). rewrite parse_run in *.
    destruct (y_line l [] V (or_introl eq_refl) 0) as (ns & E' & _). rewrite app_nil_r in E'. rewrite E' in Ep. injection Ep as -> <- <-. eauto.
  - intros j Hj. rewrite Forall_forall in P. exact (P j Hj).
Qed.

(** The full statement is false, for every line and in four ways: what follows a newline, a
    closing parenthesis, a backquote or a double-quoted text that begins with a dollar sign
    is dropped, and the commands before it run as if it had not been typed. *)
Theorem C11_rest_of_line_dropped : forall l rest, valid_line l -> Forall (known resolve) (all_commands l) ->
  (exists u, rest = 10%N :: u \/ rest = 41%N :: u \/ rest = 96%N :: u \/ rest = 34%N :: 36%N :: u) ->
  option_map (map shape_of) (jobs_of resolve substitute (typed_line l ++ rest)) = Some (line_jobs resolve l).
Proof.
  intros l rest V K D. destruct (jobs_of_line resolve substitute l rest V (or_intror D) K) as (js & E & P & M). rewrite E. cbn [option_map]. rewrite M. reflexivity.
Qed.
End C11.
Print Assumptions C11_wellformed_lines_run_whole_partial.
Print Assumptions C11_rest_of_line_dropped.

(** programs live in /bin *)
Definition in_bin (s : str) : found := IsProgram (lit "/bin/" ++ s).
Definition no_subst (_ : subshell_type) (_ : list job) : list str := [].
Definition runs (s : string) : option (list shape) := option_map (map shape_of) (jobs_of in_bin no_subst (lit s)).
Definition prog (l : list string) : process := Program (match l with x :: _ => lit "/bin/" ++ lit x | [] => [] end) (map lit l).
Definition dq : string := String (Ascii.ascii_of_nat 34) EmptyString.
Definition nl : string := String (Ascii.ascii_of_nat 10) EmptyString.

(** rm -rf "$DIR" runs rm -rf with no operand; the stage after 2>&1 does not run and 2 is
    passed as an argument; a second line is ignored; an unterminated quote is ignored, as
    is one that ends in a backslash *)
Theorem C11_nothing_dropped_refuted :
  runs ("rm -rf " ++ dq ++ "$DIR" ++ dq ++ " && echo done")%string = Some [([prog ["rm"; "-rf"]%string], true, None, OpNone)] /\
  runs "make 2>&1 | tee log" = Some [([prog ["make"; "2"]%string], true, None, OpNone)] /\
  runs ("cd a" ++ nl ++ "ls")%string = Some [([prog ["cd"; "a"]%string], true, None, OpNone)] /\
  runs "rm 'a b" = Some [([prog ["rm"]%string], true, None, OpNone)] /\
  runs "rm 'a\' b" = Some [([prog ["rm"]%string], true, None, OpNone)] /\
  runs "echo `date` ; reboot" = Some [([prog ["echo"]%string], true, None, OpNone)].
Proof. repeat split; vm_compute; reflexivity. Qed.
Print Assumptions C11_nothing_dropped_refuted.

(** the hypotheses are met by a line with every construct *)
Definition W (s : string) : word := Bare (map (fun c => (false, c)) (lit s)).
Definition sample : line :=
  (Segment [] [CmdLine [] (W "ls") [Arg (lit " ") (W "-l"); Arg (lit "  ") (Single (lit "a $b;c")); Redir (lit " ") ErrAppend (lit " ") (lit "err")] (lit " ");
               CmdLine (lit " ") (W "wc") [Redir (lit " ") OutTrunc [] (lit "out")] (lit " ")],
   [(AndIf, Segment [CmdLine (lit " ") (W "sleep") [Arg (lit " ") (W "5")] (lit " ")]
                    [CmdLine (lit " ") (W "echo") [Arg (lit " ") (Double (lit "x  y")); Arg [] (Single (lit "z")); Arg (lit " ") (Bare [(false, 97%N); (true, 59%N)])] []]);
    (OrIf, Segment [] [CmdLine [] (W "b") [] []])]).
Example sample_text : typed_line sample = lit ("ls -l  'a $b;c' 2>> err | wc >out && sleep 5 & echo " ++ dq ++ "x  y" ++ dq ++ "'z' a\;||b")%string.
Proof. vm_compute. reflexivity. Qed.
Example sample_valid : valid_line sample /\ Forall (known in_bin) (all_commands sample).
Proof.
  assert (Wd : forall s, match lit s with [] => false | _ => forallb ordinary (lit s) end = true -> valid_word (W s)).
  { intros s H. unfold W, valid_word. destruct (lit s) as [|c l] eqn:E; [discriminate|]. split; [discriminate|].
    intros b d Hin _. apply in_map_iff in Hin as (x & [= _ <-] & Hx). rewrite forallb_forall in H. apply H, Hx. }
  assert (M : forall c l, mem_char c l = false -> ~ In c l) by (intros c l H I; apply mem_char_iff in I; congruence).
  assert (Dq : forall t l, forallb (fun c => negb (mem_char c l)) t = true -> forall c, In c t -> ~ In c l).
  { intros t l H c Hc. apply M. rewrite forallb_forall in H. specialize (H c Hc). apply negb_true_iff in H. exact H. }
  split.
  - unfold valid_line, sample. cbn [fst snd]. unfold valid_rest, valid_segment, valid_cmd. cbn [bgs pipe app tl].
    repeat match goal with
           | |- valid_word (W _) => apply Wd; reflexivity
           | |- gap _ => reflexivity
           | |- _ /\ _ => split
           | |- Forall _ _ => constructor
           | |- True => exact I
           | |- valid_item _ => unfold valid_item
           | |- ~ In _ _ => apply M; reflexivity
           | |- _ = true => reflexivity
           | |- ends_with _ _ = false => reflexivity
           | |- _ <> _ => discriminate
           | |- _ = [] -> _ => discriminate
           | |- _ \/ _ => first [left; discriminate|right; exact I]
           | |- valid_word (Single _) => split
           | _ => progress cbn [lead name items trail]
           end.
    + exact (Dq (lit "x  y") [34; 92; 96; 36]%N eq_refl).
    + split; [discriminate|]. intros b c [[= <- <-] | [[= <- <-] | []]]; [reflexivity|discriminate].
  - repeat constructor; try (vm_compute; discriminate).
Qed.
Example sample_jobs : line_jobs in_bin sample =
  [([prog ["ls"; "-l"; "a $b;c"]%string; prog ["wc"]%string], true, Some (StdoutOutput (lit "out")), OpAnd);
   ([prog ["sleep"; "5"]%string], false, None, OpNone);
   ([prog ["echo"; "x  y"; "z"; "a;"]%string], true, None, OpOr);
   ([prog ["b"]%string], true, None, OpNone)].
Proof. vm_compute. reflexivity. Qed.

(** ** C59: arguments reach the program as quoted *)
(** one command: its arguments are the meanings of the words, whatever they contain *)
Theorem C59_arguments_arrive_partial : forall resolve substitute c, valid_cmd c -> known resolve c ->
  exists j, jobs_of resolve substitute (typed_cmd c) = Some [j] /\ procs j = [process_for resolve c] /\ foreground j = true.
Proof.
  intros resolve substitute c V K.
  assert (VL : valid_line (Segment [] [c], [])) by (split; [|exact I]; repeat split; cbn; [constructor; [exact V|constructor]|discriminate|constructor]).
  assert (KL : Forall (known resolve) (all_commands (Segment [] [c], []))) by (cbn; repeat constructor; apply K).
  destruct (C11_wellformed_lines_run_whole_partial resolve substitute _ VL KL) as [_ (js & E & M & _)].
  assert (T : typed_line (Segment [] [c], []) = typed_cmd c) by (unfold typed_line, typed_segment; cbn; apply app_nil_r).
  rewrite T in E. cbn in M. destruct js as [|j [|? ?]]; try discriminate. injection M as Hp Hf _ _. eauto.
Qed.
Print Assumptions C59_arguments_arrive_partial.
Example C59_example : valid_cmd (CmdLine [] (W "grep") [Arg (lit " ") (Single (lit "a  b|c")); Arg (lit " ") (Bare [(true, 32%N)])] []) /\
  argv (CmdLine [] (W "grep") [Arg (lit " ") (Single (lit "a  b|c")); Arg (lit " ") (Bare [(true, 32%N)])] []) = [lit "grep"; lit "a  b|c"; lit " "].
Proof.
  split; [|reflexivity]. repeat split; try (vm_compute; reflexivity); try discriminate.
  - intros b c H _. vm_compute in H. repeat (destruct H as [[= <- <-] | H]; [reflexivity|]). contradiction.
  - repeat constructor; try (vm_compute; reflexivity); try discriminate.
    + intros H. cbn in H. repeat (destruct H as [H | H]; [discriminate|]). contradiction.
    + intros b c H E. cbn in H. destruct H as [[= <- <-] | []]. discriminate.
Qed.
(** a part in quotes never joins what stands before it: for every command and every two
    parts, [w pq] passes the meanings of p and of q as two arguments, and not their
    concatenation as one; a backslash inside double quotes stays *)
Theorem C59_adjacent_parts_join_refuted : forall resolve substitute w p q, valid_word w -> valid_word p -> in_quotes q -> valid_word q ->
  let c := CmdLine [] w [Arg (lit " ") p; Arg [] q] [] in known resolve c ->
  exists j, jobs_of resolve substitute (typed_word w ++ lit " " ++ typed_word p ++ typed_word q) = Some [j] /\ procs j = [process_for resolve c] /\
    argv c = [meaning w; meaning p; meaning q] /\ argv c <> [meaning w; meaning p ++ meaning q].
Proof.
  intros resolve substitute w p q Vw Vp Q Vq c K.
  assert (V : valid_cmd c).
  { split; [reflexivity|]. split; [reflexivity|]. split; [exact Vw|]. constructor; [|constructor; [|constructor]].
    - split; [reflexivity|]. split; [left; discriminate|exact Vp].
    - split; [reflexivity|]. split; [right; exact Q|exact Vq]. }
  destruct (C59_arguments_arrive_partial resolve substitute c V K) as (j & E & P & _). exists j.
  assert (T : typed_cmd c = typed_word w ++ lit " " ++ typed_word p ++ typed_word q) by (unfold typed_cmd; cbn; rewrite !app_nil_r; reflexivity).
  rewrite T in E. split; [exact E|]. split; [exact P|]. split; [reflexivity|discriminate].
Qed.
Example C59_adjacent_examples :
  runs ("cp a" ++ dq ++ " b" ++ dq ++ " c")%string = Some [([prog ["cp"; "a"; " b"; "c"]%string], true, None, OpNone)] /\
  runs "cp --to='x y'" = Some [([prog ["cp"; "--to="; "x y"]%string], true, None, OpNone)].
Proof. split; vm_compute; reflexivity. Qed.
Theorem C59_escaped_quote_refuted :
  runs ("echo " ++ dq ++ "a\" ++ dq ++ "b" ++ dq)%string = Some [([prog ["echo"; ("a\" ++ dq ++ "b")%string]], true, None, OpNone)].
Proof. vm_compute. reflexivity. Qed.
Print Assumptions C59_adjacent_parts_join_refuted.
Print Assumptions C59_escaped_quote_refuted.

(** ** C60: redirections *)
(** of all the redirections of a pipeline only the last one typed takes effect *)
Theorem C60_last_redirection_wins : forall resolve substitute cs, valid_segment (Segment [] cs) -> Forall (known resolve) cs ->
  exists j, jobs_of resolve substitute (typed_line (Segment [] cs, [])) = Some [j] /\
    redirection_of j = last_redirection (flat_map redirections cs).
Proof.
  intros resolve substitute cs V K.
  assert (KL : Forall (known resolve) (all_commands (Segment [] cs, []))) by (cbn; rewrite app_nil_r; exact K).
  destruct (C11_wellformed_lines_run_whole_partial resolve substitute (Segment [] cs, []) (conj V I) KL) as [_ (js & E & M & _)].
  cbn in M. destruct cs as [|c cs]; [destruct V as (_ & N & _); exfalso; apply N; reflexivity|].
  destruct js as [|j [|? ?]]; try discriminate. injection M as _ _ Hr _. exists j. split; [exact E|exact Hr].
Qed.
Print Assumptions C60_last_redirection_wins.
Theorem C60_every_redirection_applies_refuted :
  runs "sort < in > out" = Some [([prog ["sort"]%string], true, Some (StdoutOutput (lit "out")), OpNone)] /\
  runs "make > log 2> err" = Some [([prog ["make"]%string], true, Some (StderrOutput (lit "err")), OpNone)] /\
  runs "a < in | b" = runs "a | b < in" /\
  runs ("a > " ++ dq ++ "b c" ++ dq)%string = Some [([prog ["a"]%string], true, Some (StdoutOutput (lit (dq ++ "b c" ++ dq))), OpNone)].
Proof. repeat split; vm_compute; reflexivity. Qed.
Print Assumptions C60_every_redirection_applies_refuted.

(** ** C61: & puts in the background the command it follows, and only that *)
(** well-formed lines (a background mark after a single command) do that: [segment_jobs] in
    [C11_wellformed_lines_run_whole_partial].  A background pipeline does not: the next
    command of the line goes to the background as well, while the pipeline counts as a
    background job only when its last stage is an external program. *)
Definition only_builtin_cd (s : str) : found := if str_eqb s (lit "cd") then IsBuiltin else in_bin s.
Theorem C61_background_is_local_refuted :
  runs "a | b & ; c" = Some [([prog ["a"]%string; prog ["b"]%string], false, None, OpNone); ([prog ["c"]%string], false, None, OpNone)] /\
  option_map (map shape_of) (jobs_of only_builtin_cd no_subst (lit "a | cd &")) =
    Some [([prog ["a"]%string; Builtin (lit "cd") [lit "cd"]], true, None, OpNone)].
Proof. split; vm_compute; reflexivity. Qed.
Theorem C61_background_commands_partial : forall resolve substitute bs c, Forall valid_cmd bs -> valid_cmd c -> Forall (known resolve) (bs ++ [c]) ->
  exists js j, jobs_of resolve substitute (flat_map (fun b => typed_cmd b ++ lit "&") bs ++ typed_cmd c) = Some (js ++ [j]) /\
    map (fun j => (procs j, foreground j)) js = map (fun b => ([process_for resolve b], false)) bs /\
    procs j = [process_for resolve c] /\ foreground j = true.
Proof.
  intros resolve substitute bs c Vb Vc K.
  assert (V : valid_line (Segment bs [c], [])).
  { split; [|exact I]. repeat split; cbn.
    - apply Forall_app. split; [exact Vb|constructor; [exact Vc|constructor]].
    - destruct bs; discriminate.
    - constructor. }
  assert (KL : Forall (known resolve) (all_commands (Segment bs [c], []))) by (unfold all_commands; cbn; exact K).
  destruct (C11_wellformed_lines_run_whole_partial resolve substitute _ V KL) as [_ (js & E & M & _)].
  assert (T : typed_line (Segment bs [c], []) = flat_map (fun b => typed_cmd b ++ lit "&") bs ++ typed_cmd c).
  { unfold typed_line, typed_segment. cbn. rewrite app_nil_r. reflexivity. }
  rewrite T in E. cbn [line_jobs rest_jobs fst snd segment_jobs bgs pipe] in M. unfold line_jobs, segment_jobs in M. cbn [fst snd rest_jobs bgs pipe] in M.
  destruct js as [|j0 js0] using rev_ind; [symmetry in M; apply app_eq_nil in M as [_ M]; discriminate|].
  clear IHjs0. rewrite map_app in M. cbn [map] in M. apply app_inj_tail in M as [M1 M2].
  exists js0, j0. split; [exact E|]. unfold shape_of in M2. injection M2 as -> -> _ _. split; [|split; reflexivity].
  clear - M1. revert bs M1. induction js0 as [|x js IH]; intros [|b bs] M; try discriminate; [reflexivity|]. cbn [map] in *. unfold shape_of in M at 1.
  injection M as M' Mf _ _ M2. f_equal; [|apply IH, M2]. rewrite M', Mf. reflexivity.
Qed.
Print Assumptions C61_background_is_local_refuted.
Print Assumptions C61_background_commands_partial.

(** ** C62: colouring *)
(** tokens are non-empty, in order, do not overlap and lie in the line *)
Inductive tiles : nat -> nat -> list token -> Prop :=
| tiles_nil lo hi : lo <= hi -> tiles lo hi []
| tiles_cons lo hi s e k l : lo <= s -> s < e -> tiles e hi l -> tiles lo hi (Token s e k :: l).
Lemma tiles_widen lo hi l : tiles lo hi l -> forall lo' hi', lo' <= lo -> hi <= hi' -> tiles lo' hi' l.
Proof. induction 1; intros lo' hi' L1 L2; constructor; try lia. apply IHtiles; lia. Qed.
Lemma tiles_app lo mid hi a b : tiles lo mid a -> tiles mid hi b -> tiles lo hi (a ++ b).
Proof. intros H. revert b. induction H; intros b Hb; cbn [app]; [eapply tiles_widen; [exact Hb| |]; lia|constructor; auto]. Qed.
Lemma faithful_bounds {R} line lo hi (l : list (node R)) : faithful line lo hi l -> lo <= hi.
Proof. induction 1; lia. Qed.
Lemma collect_all line lo hi (ps : list pair_) : faithful line lo hi ps -> forall c, tiles lo hi (flat_map (collect c) ps).
Proof.
  induction 1 as [lo hi L|lo hi r s t inner ns L T Hi IHi Hn IHn]; intros c; [constructor; exact L|].
  cbn [flat_map]. eapply tiles_app; [|apply IHn]. eapply tiles_widen; [|exact L|apply Nat.le_refl].
  assert (A : forall c, (fix go l := match l with [] => [] | q :: l' => collect c q ++ go l' end) inner = flat_map (collect c) inner).
  { intros c'. clear. induction inner as [|q l IH]; [reflexivity|]. cbn [flat_map]. rewrite <- IH. reflexivity. }
  assert (P : forall k, tiles s (s + length t) (push (Node r s t inner) k)).
  { intros k. unfold push, end_of. cbn [start_of text_of]. destruct (Nat.eqb_spec s (s + length t)); [constructor; lia|].
    constructor; [lia|lia|constructor; lia]. }
  cbn [collect]. rewrite !A. destruct r; auto.
Qed.
Theorem C62_highlight_tokens_tile : forall line, tiles 0 (length line) (highlight line).
Proof.
  intros line. destruct (C10_parsing_total_and_faithful line) as (c & r & k & E & Q & F). unfold highlight. rewrite E.
  eapply tiles_widen; [apply (collect_all line 0 (length c)); exact F|lia|rewrite Q, app_length; lia].
Qed.
Print Assumptions C62_highlight_tokens_tile.
Example C62_example : highlight (lit "ls -l 'a b' | wc > out &") =
  [Token 0 2 KCommand; Token 3 5 KArgument; Token 6 11 KSingle; Token 12 13 KPipe; Token 14 16 KCommand; Token 17 18 KRedirect; Token 19 22 KArgument; Token 23 24 KBackground].
Proof. vm_compute. reflexivity. Qed.
