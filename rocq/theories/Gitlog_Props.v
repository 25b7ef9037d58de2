(** C147 glog: the commit checked out is the one on the selected line, after a yes. *)
From Verif Require Import Base Numerals Direnv_Model Git_Model Git_Spec Git_Props Answer_Props.
From Coq Require Import Lia Bool.

(** ** colour codes *)
Lemma letter_iff c : ascii_letter c = true <-> ascii_alpha c.
Proof. unfold ascii_letter, ascii_alpha. rewrite orb_true_iff, !andb_true_iff, !N.leb_le. tauto. Qed.
Lemma strip_plain (s r : str) : ~ In 27%N s -> strip_ansi false (s ++ r) = s ++ strip_ansi false r.
Proof.
  induction s as [|c s IH]; intros H; [reflexivity|]. cbn [app strip_ansi]. destruct (N.eqb_spec c 27) as [->|]; [destruct H; left; reflexivity|].
  f_equal. apply IH. intros I. apply H. right. exact I.
Qed.
Lemma strip_code (inner : str) f r : Forall (fun c => ~ ascii_alpha c) inner -> ascii_alpha f -> strip_ansi true (inner ++ f :: r) = strip_ansi false r.
Proof.
  intros H F. induction H as [|c s N _ IH]; cbn [app strip_ansi]; [apply letter_iff in F; rewrite F; reflexivity|].
  destruct (ascii_letter c) eqn:E; [apply letter_iff in E; destruct (N E)|]. exact IH.
Qed.
Theorem C147_colour ps : Forall piece_ok ps -> strip_ansi false (coloured ps) = plain ps.
Proof.
  induction 1 as [|p ps P _ IH]; [reflexivity|]. unfold coloured, plain in *. cbn [flat_map]. destruct p as [s|inner f]; cbn [piece_text piece_plain piece_ok] in *.
  - rewrite strip_plain by exact P. f_equal. exact IH.
  - destruct P as [A B]. cbn [app]. rewrite <- app_assoc. cbn [app]. cbn [strip_ansi]. change (27 =? 27)%N with true. change (91 =? 91)%N with true. cbn iota.
    rewrite strip_code by assumption. exact IH.
Qed.

(** ** words *)
Lemma ws_app h (c : char) s : is_whitespace c = true -> forall cur, split_ws_aux cur (h ++ c :: s) = split_ws_aux cur h ++ split_ws_aux [] s.
Proof.
  intros W. induction h as [|d h IH]; intros cur; cbn [app split_ws_aux].
  - rewrite W. destruct cur; reflexivity.
  - destruct (is_whitespace d); [|apply IH]. destruct cur; rewrite IH; reflexivity.
Qed.
Lemma ws_in h w : forall cur, In w (split_ws_aux cur h) -> forall c, In c w -> In c cur \/ In c h.
Proof.
  induction h as [|d h IH]; intros cur I c J; cbn [split_ws_aux] in I.
  - destruct cur as [|e cur]; [destruct I|]. destruct I as [<-|[]]. left. apply in_rev. exact J.
  - destruct (is_whitespace d).
    + destruct cur as [|e cur].
      * destruct (IH [] I c J) as [[]|K]. right. right. exact K.
      * destruct I as [<-|I]; [left; apply in_rev; exact J|]. destruct (IH [] I c J) as [[]|K]. right. right. exact K.
    + destruct (IH _ I c J) as [[<-|K]|K]; [right; left; reflexivity|left; exact K|right; right; exact K].
Qed.
Lemma hex_iff c : hexdigit c = true <-> hex c.
Proof. unfold hexdigit, hex. rewrite !orb_true_iff, !andb_true_iff, !N.leb_le. tauto. Qed.
Lemma hex_word c : hex c -> is_whitespace c = false /\ graph_char c = false /\ c <> 27%N.
Proof.
  intros H. split; [|split; [|unfold hex in H; lia]].
  - unfold is_whitespace. assert (K : (48 <= c <= 102)%N) by (unfold hex in H; lia).
    rewrite !orb_false_iff, ?andb_false_iff, ?N.leb_gt, ?N.eqb_neq. repeat split; lia.
  - unfold graph_char. destruct (mem_char c (lit "*|\/- ")) eqn:E; [|reflexivity]. apply mem_char_iff in E. unfold hex in H. cbn in E. repeat (destruct E as [<-|E]; [vm_compute in H; intuition congruence|]). destruct E.
Qed.
Lemma drop_graph_in w c : In c (drop_graph w) -> In c w.
Proof. induction w as [|d w IH]; [auto|]. cbn [drop_graph]. destruct (graph_char d); [intros I; right; apply IH, I|auto]. Qed.
Definition looks (w : str) : bool := (7 <=? blen w) && forallb hexdigit w.
Lemma not_looks w : (forall c, In c w -> ~ hex c) -> looks (drop_graph w) = false.
Proof.
  intros H. unfold looks. destruct (drop_graph w) as [|c r] eqn:E; [reflexivity|]. cbn [forallb]. destruct (hexdigit c) eqn:X; [|cbn; rewrite andb_false_r; reflexivity].
  apply hex_iff in X. destruct (H c (drop_graph_in w c ltac:(rewrite E; left; reflexivity)) X).
Qed.
Lemma find_skip {A} (f : A -> bool) a b : (forall x, In x a -> f x = false) -> find f (a ++ b) = find f b.
Proof. induction a as [|x a IH]; intros H; [reflexivity|]. cbn. rewrite (H x (or_introl eq_refl)). apply IH. intros y I. apply H. right. exact I. Qed.
Lemma drawing_words g s : drawing g -> find looks (map drop_graph (split_whitespace (g ++ s))) = find looks (map drop_graph (split_whitespace s)).
Proof.
  intros [F [->|(h & ->)]]; [reflexivity|]. rewrite Forall_forall in F. rewrite <- app_assoc. cbn [app]. unfold split_whitespace. rewrite ws_app by reflexivity. rewrite map_app. apply find_skip.
  intros x I. apply in_map_iff in I as (w & <- & I). apply not_looks. intros c J. destruct (ws_in h w [] I c J) as [[]|K]. apply F. apply in_or_app. left. exact K.
Qed.
Lemma first_word w s : w <> [] -> (forall c, In c w -> is_whitespace c = false) -> ends_word s -> split_whitespace (w ++ s) = w :: split_whitespace s.
Proof. intros N W E. apply Words_split. apply (Words_word [] w s); try assumption; [intros c []|apply Words_iff; reflexivity]. Qed.
Lemma hex_looks h : h <> [] -> Forall hex h -> drop_graph h = h /\ forallb hexdigit h = true /\ blen h = length h.
Proof.
  intros N F. split; [inversion F as [E|c h' X _ E]; [congruence|]; cbn [drop_graph]; rewrite (proj1 (proj2 (hex_word c X))); reflexivity|].
  split; [apply forallb_forall; rewrite Forall_forall in F; intros c I; apply hex_iff, F, I|].
  clear N. induction F as [|c h X _ IH]; [reflexivity|]. cbn [blen length]. rewrite IH. unfold utf8_len. unfold hex in X. replace (c <? 128)%N with true by (symmetry; apply N.ltb_lt; lia). reflexivity.
Qed.
Lemma extract_eq l : extract_commit_hash l = find looks (map drop_graph (split_whitespace (strip_ansi false l))).
Proof. reflexivity. Qed.

(** The line of a commit: a drawing, the hash, and anything.  With or without colour, the hash is
    what is checked out, after y or yes; any other answer runs nothing. *)
Theorem C147_checkout_partial ps g h rest answer :
  Forall piece_ok ps -> plain ps = g ++ h ++ rest -> drawing g -> Forall hex h -> 7 <= length h -> ends_word rest ->
  extract_commit_hash (coloured ps) = Some h /\
  glog (Some (coloured ps)) answer = if str_eqb (lower (trim answer)) (lit "y") || str_eqb (lower (trim answer)) (lit "yes") then [[lit "checkout"; h]] else [].
Proof.
  intros P E D H L W. assert (N : h <> []) by (destruct h; [cbn in L; lia|discriminate]). destruct (hex_looks h N H) as (A & B & C).
  assert (K : extract_commit_hash (coloured ps) = Some h).
  { rewrite extract_eq, (C147_colour ps P), E, (drawing_words g _ D), first_word; [|exact N| |exact W].
    - cbn [map find]. rewrite A. unfold looks. rewrite B, C. replace (7 <=? length h) with true by (symmetry; apply Nat.leb_le; exact L). reflexivity.
    - rewrite Forall_forall in H. intros c I. apply (hex_word c (H c I)). }
  split; [exact K|]. cbn [glog]. rewrite K. reflexivity.
Qed.
(** A line with only the drawing has no commit: nothing is run. *)
Theorem C147_drawing ps answer :
  Forall piece_ok ps -> Forall (fun c => ~ hex c) (plain ps) -> glog (Some (coloured ps)) answer = [].
Proof.
  intros P H. cbn [glog]. rewrite extract_eq, (C147_colour ps P). rewrite Forall_forall in H.
  replace (map drop_graph (split_whitespace (plain ps))) with (map drop_graph (split_whitespace (plain ps)) ++ []) by apply app_nil_r.
  rewrite find_skip; [reflexivity|]. intros x I. apply in_map_iff in I as (w & <- & I). apply not_looks. intros c J. destruct (ws_in _ w [] I c J) as [[]|K]. exact (H c K).
Qed.
(** Whatever the line, at most a checkout of a word of seven or more hex digits is run, and only
    after y or yes in either case. *)
Theorem C147_only line answer cmd :
  In cmd (glog line answer) ->
  exists h, cmd = [lit "checkout"; h] /\ 7 <= length h /\ Forall hex h /\ (lower (trim answer) = lit "y" \/ lower (trim answer) = lit "yes").
Proof.
  destruct line as [l|]; [|intros []]. cbn [glog]. rewrite extract_eq. destruct (find looks _) as [h|] eqn:E; [|intros []]. unfold checkout_commit. intros I.
  apply find_some in E as [_ E]. unfold looks in E. apply andb_true_iff in E as [A B]. apply Nat.leb_le in A. rewrite forallb_forall in B.
  assert (H : Forall hex h) by (apply Forall_forall; intros c J; apply hex_iff, B, J).
  destruct (str_eqb_spec (lower (trim answer)) (lit "y")) as [Y|Y]; cbn [orb] in I.
  - destruct I as [<-|[]]. exists h. split; [reflexivity|]. split; [|auto]. destruct h; [cbn in A; lia|]. destruct (hex_looks (c :: h)) as (_ & _ & C); [discriminate|exact H|]. rewrite <- C. exact A.
  - destruct (str_eqb_spec (lower (trim answer)) (lit "yes")) as [Z|Z]; [|destruct I]. destruct I as [<-|[]]. exists h. split; [reflexivity|]. split; [|auto]. destruct h; [cbn in A; lia|]. destruct (hex_looks (c :: h)) as (_ & _ & C); [discriminate|exact H|]. rewrite <- C. exact A.
Qed.
(** A shorter hash (core.abbrev below seven) is passed over, and a word of the date, the author or the
    message that looks like a hash is checked out in its place. *)
Theorem C147_short_refuted (g h w rest answer : str) :
  drawing g -> ~ In 27%N (g ++ h ++ [32%N] ++ w ++ rest) -> h <> [] -> Forall hex h -> length h < 7 ->
  Forall hex w -> 7 <= length w -> ends_word rest -> lower (trim answer) = lit "y" ->
  glog (Some (g ++ h ++ [32%N] ++ w ++ rest)) answer = [[lit "checkout"; w]].
Proof.
  intros D Esc N H L Hw Lw E Y. cbn [glog]. rewrite extract_eq.
  assert (S1 : strip_ansi false (g ++ h ++ [32%N] ++ w ++ rest) = g ++ h ++ [32%N] ++ w ++ rest).
  { rewrite <- (app_nil_r (g ++ h ++ [32%N] ++ w ++ rest)) at 1. rewrite strip_plain by exact Esc. cbn [strip_ansi]. apply app_nil_r. }
  rewrite S1, (drawing_words g _ D). rewrite first_word; [|exact N|rewrite Forall_forall in H; intros c I; apply (hex_word c (H c I))|right; exists 32%N, (w ++ rest); split; reflexivity].
  destruct (hex_looks h N H) as (A & B & C). cbn [map find]. rewrite A. unfold looks at 1. rewrite C. replace (7 <=? length h) with false by (symmetry; apply Nat.leb_gt; exact L). cbn [andb].
  assert (Nw : w <> []) by (destruct w; [cbn in Lw; lia|discriminate]). destruct (hex_looks w Nw Hw) as (A' & B' & C').
  replace (split_whitespace ([32%N] ++ w ++ rest)) with (w :: split_whitespace rest).
  - cbn [map find]. rewrite A'. unfold looks at 1. rewrite B', C'. replace (7 <=? length w) with true by (symmetry; apply Nat.leb_le; exact Lw). cbn [andb]. unfold checkout_commit. rewrite Y. reflexivity.
  - symmetry. apply Words_split. apply (Words_word [32%N] w rest); try assumption; [intros c [<-|[]]; reflexivity|rewrite Forall_forall in Hw; intros c I; apply (hex_word c (Hw c I))|apply Words_iff; reflexivity].
Qed.
(** Choosing by number: the line with that number, counted from one, and nothing else. *)
Theorem C147_number entries input l :
  numbered entries input = Some l <->
  exists n, parse_usize (trim input) = Some n /\ (1 <= n)%N /\ nth_error entries (N.to_nat n - 1) = Some l.
Proof.
  unfold numbered. assert (Q : forall n, parse_usize (trim input) = Some n -> str_eqb (trim input) (lit "q") || str_eqb (trim input) (lit "quit") = false).
  { intros n P. destruct (str_eqb_spec (trim input) (lit "q")) as [E|_]; [rewrite E in P; discriminate|]. destruct (str_eqb_spec (trim input) (lit "quit")) as [E|_]; [rewrite E in P; discriminate|reflexivity]. }
  split.
  - destruct (str_eqb (trim input) (lit "q") || str_eqb (trim input) (lit "quit")); [discriminate|]. destruct (parse_usize (trim input)) as [n|]; [|discriminate].
    destruct (N.ltb_spec 0 n); [|discriminate]. destruct (n <=? N.of_nat (length entries))%N; [|discriminate]. intros E. exists n. split; [reflexivity|]. split; [lia|exact E].
  - intros (n & P & A & E). rewrite (Q n P), P. replace (0 <? n)%N with true by (symmetry; apply N.ltb_lt; lia).
    replace (n <=? N.of_nat (length entries))%N with true; [exact E|]. symmetry. apply N.leb_le. assert (X : N.to_nat n - 1 < length entries) by (apply nth_error_Some; congruence). lia.
Qed.
(** ** the arguments: each switch does its own thing wherever it stands; a number is read only after
    -n or --number, and the last one counts *)
Definition number_option (a : str) : Prop := a = lit "-n" \/ a = lit "--number".
(** reading the arguments one after the other: [Takes l o o'] says what [l] makes of [o] *)
Inductive Takes : list str -> log_options -> log_options -> Prop :=
| Takes_end o : Takes [] o o
| Takes_number a v n r o o' : number_option a -> parse_usize v = Some n -> Takes r (LogOptions n (graph o) (all_branches o) (oneline o)) o' -> Takes (a :: v :: r) o o'
| Takes_no_number a r o o' : number_option a -> (forall v r', r = v :: r' -> parse_usize v = None) -> Takes r o o' -> Takes (a :: r) o o'
| Takes_graph r o o' : Takes r (LogOptions (limit o) false (all_branches o) (oneline o)) o' -> Takes (lit "--no-graph" :: r) o o'
| Takes_all a r o o' : a = lit "-a" \/ a = lit "--all" -> Takes r (LogOptions (limit o) (graph o) true (oneline o)) o' -> Takes (a :: r) o o'
| Takes_oneline r o o' : Takes r (LogOptions (limit o) (graph o) (all_branches o) true) o' -> Takes (lit "--oneline" :: r) o o'
| Takes_other a r o o' : ~ number_option a -> ~ In a [lit "--no-graph"; lit "-a"; lit "--all"; lit "--oneline"] -> Takes r o o' -> Takes (a :: r) o o'.
Lemma number_iff a : str_eqb a (lit "-n") || str_eqb a (lit "--number") = true <-> number_option a.
Proof. unfold number_option. rewrite orb_true_iff, !str_eqb_eq. tauto. Qed.
Theorem C147_arguments l : forall o o', log_loop l o = o' <-> Takes l o o'.
Proof.
  intros o o'. split.
  - intros <-. revert o. assert (K : forall k l, length l <= k -> forall o, Takes l o (log_loop l o)).
    { induction k as [|k IH]; intros [|a r] Lk o; cbn [length] in Lk; try lia; try apply Takes_end. cbn [log_loop].
      destruct (str_eqb a (lit "-n") || str_eqb a (lit "--number")) eqn:E.
      - apply number_iff in E. destruct r as [|v r]; [apply Takes_no_number; [exact E|intros; discriminate|apply Takes_end]|].
        destruct (parse_usize v) as [n|] eqn:P.
        + eapply Takes_number; [exact E|exact P|]. apply IH. cbn [length] in Lk. lia.
        + apply Takes_no_number; [exact E|intros v' r' X; inversion X; subst; exact P|apply IH; lia].
      - assert (Nn : ~ number_option a) by (intros X; apply number_iff in X; congruence).
        destruct (str_eqb_spec a (lit "--no-graph")) as [->|N1]; [apply Takes_graph, IH; lia|].
        destruct (str_eqb_spec a (lit "-a")) as [->|N2]; [apply Takes_all; [auto|apply IH; lia]|].
        destruct (str_eqb_spec a (lit "--all")) as [->|N3]; [apply Takes_all; [auto|apply IH; lia]|]. cbn [orb].
        destruct (str_eqb_spec a (lit "--oneline")) as [->|N4]; [apply Takes_oneline, IH; lia|].
        apply Takes_other; [exact Nn| |apply IH; lia]. intros [X|[X|[X|[X|[]]]]]; congruence. }
    intros o. apply (K (length l) l (le_n _)).
  - induction 1 as [o|a v n r o o' A P _ IH|a r o o' A P _ IH|r o o' _ IH|a r o o' A _ IH|r o o' _ IH|a r o o' A B _ IH].
    + reflexivity.
    + cbn [log_loop]. apply number_iff in A. rewrite A, P. exact IH.
    + cbn [log_loop]. apply number_iff in A. rewrite A. destruct r as [|v r]; [exact IH|]. rewrite (P v r eq_refl). exact IH.
    + exact IH.
    + destruct A as [-> | ->]; exact IH.
    + exact IH.
    + cbn [log_loop]. destruct (str_eqb a (lit "-n") || str_eqb a (lit "--number")) eqn:E; [apply number_iff in E; destruct (A E)|].
      assert (X : forall s, In s [lit "--no-graph"; lit "-a"; lit "--all"; lit "--oneline"] -> str_eqb a s = false) by (intros s J; apply str_eqb_neq; intros ->; exact (B J)).
      rewrite (X (lit "--no-graph")), (X (lit "-a")), (X (lit "--all")), (X (lit "--oneline")) by (cbn; auto). exact IH.
Qed.
Example C147_case :
  glog (Some (lit "| * " ++ [27; 91; 51; 51; 109]%N ++ lit "1a2b3c4" ++ [27; 91; 109]%N ++ lit " 2024-01-02 A. Nother deadbeef")) (lit " Y " ++ [10%N]) = [[lit "checkout"; lit "1a2b3c4"]] /\
  glog (Some (lit "* 1a2b3 2024-01-02 A. Nother revert deadbeef")) (lit "y") = [[lit "checkout"; lit "deadbeef"]] /\
  glog (Some (lit "| |/  ")) (lit "y") = [] /\ glog (Some (lit "* 1a2b3c4 x")) (lit "") = [] /\
  numbered [lit "a"; lit "b"] (lit " 2 ") = Some (lit "b") /\ numbered [lit "a"; lit "b"] (lit "3") = None /\
  parse_arguments [lit "glog"; lit "-n"; lit "7"; lit "--all"; lit "-n"] = LogOptions 7 true true false.
Proof. vm_compute. repeat (split; [reflexivity|]). reflexivity. Qed.

Print Assumptions C147_colour.
Print Assumptions C147_checkout_partial.
Print Assumptions C147_drawing.
Print Assumptions C147_only.
Print Assumptions C147_short_refuted.
Print Assumptions C147_number.
Print Assumptions C147_arguments.
