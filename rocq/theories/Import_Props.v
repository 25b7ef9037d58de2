(** C104: importing the history of fish. *)
From Verif Require Import Base Import_Model Import_Spec.

Lemma not_in_app (a b : str) c : ~ In c a -> ~ In c b -> ~ In c (a ++ b).
Proof. rewrite in_app_iff. tauto. Qed.
Section Proofs.
Variable parse : str -> option Z.
Variable now : Z.
Definition value (t : str) : Z := match parse t with Some z => z | None => now end.

Lemma pieces_line (l s cur : str) : ~ In 10%N l -> pieces cur (l ++ 10%N :: s) = (rev cur ++ l ++ nl) :: pieces [] s.
Proof.
  revert cur. induction l as [|c l IH]; intros cur H; cbn [app pieces].
  - reflexivity.
  - destruct (N.eqb_spec c 10) as [->|Hc]; [exfalso; apply H; now left|].
    rewrite IH by (intros Hi; apply H; now right). cbn [rev]. now rewrite <- app_assoc.
Qed.
Lemma trim_start_all s t : (forall c, In c s -> is_whitespace c = true) -> trim_start (s ++ t) = trim_start t.
Proof.
  induction s as [|c s IH]; intros H; [reflexivity|]. cbn. rewrite (H c) by now left. apply IH. intros d Hd. apply H. now right.
Qed.
Lemma trim_body a v b : (forall c, In c a -> is_whitespace c = true) -> (forall c, In c b -> is_whitespace c = true) ->
  v <> [] -> trimmed v -> trim (a ++ v ++ b) = v.
Proof.
  intros Ha Hb Hv [H1 H2]. unfold trim, trim_end. rewrite trim_start_all by exact Ha.
  assert (E : trim_start (v ++ b) = v ++ b) by (destruct v as [|c v]; [congruence|]; cbn; now rewrite H1).
  rewrite E, rev_app_distr, trim_start_all by (intros c Hc; apply Hb; now apply in_rev).
  assert (E2 : trim_start (rev v) = rev v).
  { destruct (rev v) as [|c r]; [reflexivity|]. cbn. now rewrite H2. }
  rewrite E2. apply rev_involutive.
Qed.
Lemma escape_plain s : plain s -> escape s = s.
Proof.
  intros [H1 H2]. unfold escape. induction s as [|c s IH]; [reflexivity|]. cbn [flat_map]. unfold escape1 at 1.
  destruct (N.eqb_spec c 10) as [->|_]; [exfalso; apply H1; now left|].
  destruct (N.eqb_spec c (chr "\")) as [->|_]; [exfalso; apply H2; now left|].
  cbn. f_equal. apply IH; intros Hi; [apply H1|apply H2]; now right.
Qed.
Lemma escape_line s : ~ In 10%N (escape s).
Proof.
  unfold escape. rewrite in_flat_map. intros (c & Hin & H). clear Hin. unfold escape1 in H.
  destruct (c =? 10)%N eqn:E1; [vm_compute in H; intuition discriminate|].
  destruct (c =? chr "\")%N; [vm_compute in H; intuition discriminate|].
  destruct H as [E|[]]. rewrite E in E1. discriminate E1.
Qed.

(** one line at a time *)
Lemma lit_free s c : In c (lit s) -> existsb (N.eqb c) (lit s) = true.
Proof. intros H. apply existsb_exists. exists c. split; [exact H|apply N.eqb_refl]. Qed.
Ltac no_char := let H := fresh in intros H; apply lit_free in H; vm_compute in H; discriminate H.
Ltac blank := let c := fresh in let H := fresh in intros c H; vm_compute in H; intuition (subst; reflexivity).

Lemma trimmed_app p v : p <> [] -> match p with c :: _ => is_whitespace c = false | [] => True end -> v <> [] -> trimmed v -> trimmed (p ++ v).
Proof.
  intros Hp H1 Hv [_ H2]. split.
  - destruct p; [congruence|exact H1].
  - rewrite rev_app_distr. destruct (rev v) as [|c r] eqn:E; [|exact H2].
    apply (f_equal (@rev _)) in E. rewrite rev_involutive in E. contradiction.
Qed.
Lemma cmd_line block (cur c rest : str) : c <> [] -> trimmed c -> ~ In 10%N c ->
  scan parse now block cur (pieces [] (lit "- cmd: " ++ c ++ nl ++ rest)) =
  (if block && negb (str_eqb cur []) then [(cur, now)] else []) ++ scan parse now true c (pieces [] rest).
Proof.
  intros Hc Ht Hn.
  replace (lit "- cmd: " ++ c ++ nl ++ rest) with ((lit "- cmd: " ++ c) ++ 10%N :: rest) by (unfold nl; now rewrite <- app_assoc).
  rewrite pieces_line by (apply not_in_app; [no_char|exact Hn]). cbn [rev app scan].
  assert (E : trim ((lit "- cmd: " ++ c) ++ nl) = lit "- cmd: " ++ c).
  { apply (trim_body [] (lit "- cmd: " ++ c) nl); [intros d []|intros d [<-|[]]; reflexivity|discriminate|].
    apply trimmed_app; [discriminate|reflexivity|exact Hc|exact Ht]. }
  rewrite E. change (starts_with (lit "- cmd:") (lit "- cmd: " ++ c)) with true. cbv iota.
  change (strip (lit "- cmd:") (lit "- cmd: " ++ c)) with (lit " " ++ c).
  assert (E2 : trim (lit " " ++ c) = c).
  { rewrite <- (app_nil_r c) at 1. apply trim_body; [blank|intros d []|exact Hc|exact Ht]. }
  now rewrite E2.
Qed.
Lemma when_line (c t rest : str) : c <> [] -> number parse t ->
  scan parse now true c (pieces [] (lit "  when: " ++ t ++ nl ++ rest)) = (c, value t) :: scan parse now false [] (pieces [] rest).
Proof.
  intros Hc (Ht & Hw & Hp).
  assert (Tt : trimmed t).
  { split; [destruct t as [|x t]; [exact I|]; apply Hw; now left|]. destruct (rev t) as [|x r] eqn:E; [exact I|]. apply Hw. apply in_rev. unfold str in *. rewrite E. now left. }
  assert (Hn : ~ In 10%N t) by (intros Hi; specialize (Hw _ Hi); discriminate Hw).
  replace (lit "  when: " ++ t ++ nl ++ rest) with ((lit "  when: " ++ t) ++ 10%N :: rest) by (unfold nl; now rewrite <- app_assoc).
  rewrite pieces_line by (apply not_in_app; [no_char|exact Hn]). cbn [rev app scan].
  assert (E : trim ((lit "  when: " ++ t) ++ nl) = lit "when: " ++ t).
  { change ((lit "  when: " ++ t) ++ nl) with (lit "  " ++ (lit "when: " ++ t) ++ nl).
    apply trim_body; [blank|intros d [<-|[]]; reflexivity|discriminate|]. apply trimmed_app; [discriminate|reflexivity|exact Ht|exact Tt]. }
  rewrite E. change (starts_with (lit "- cmd:") (lit "when: " ++ t)) with false. cbv iota.
  change (starts_with (lit "when:") (lit "when: " ++ t)) with true. cbn [andb]. cbv iota.
  change (strip (lit "when:") (lit "when: " ++ t)) with (lit " " ++ t).
  assert (E2 : trim (lit " " ++ t) = t).
  { rewrite <- (app_nil_r t) at 1. apply trim_body; [blank|intros d []|exact Ht|exact Tt]. }
  rewrite E2. unfold value. destruct c; [congruence|reflexivity].
Qed.
(** a line that is neither a command nor read inside an entry *)
Lemma other_line (l rest : str) : ~ In 10%N l -> starts_with (lit "- cmd:") (trim (l ++ nl)) = false ->
  scan parse now false [] (pieces [] (l ++ nl ++ rest)) = scan parse now false [] (pieces [] rest).
Proof.
  intros Hn Hs. change (l ++ nl ++ rest) with (l ++ 10%N :: rest). rewrite pieces_line by exact Hn. cbn [rev app scan].
  rewrite Hs. now rewrite andb_false_r.
Qed.
Lemma starts_nl (p a : str) : ~ In 10%N p -> starts_with p (a ++ nl) = true -> starts_with p a = true.
Proof.
  revert p. induction a as [|c a IH]; intros [|x p] Hp H; try reflexivity.
  - cbn in H. destruct (N.eqb_spec x 10) as [->|_]; [exfalso; apply Hp; now left|discriminate H].
  - cbn in *. destruct (x =? c)%N; [|discriminate H]. apply IH; [intros Hi; apply Hp; now right|exact H].
Qed.
(** a path that does not look like a command *)
Definition harmless (p : str) : Prop := starts_with (lit "cmd:") (escape p) = false.
Lemma paths_lines ps rest : Forall harmless ps ->
  scan parse now false [] (pieces [] (flat_map path_line ps ++ rest)) = scan parse now false [] (pieces [] rest).
Proof.
  induction 1 as [|p ps Hp _ IH]; [reflexivity|]. cbn [flat_map]. rewrite <- app_assoc. unfold path_line at 1. rewrite <- !app_assoc.
  rewrite (app_assoc (lit "    - ") (escape p)). rewrite other_line; [exact IH|apply not_in_app; [no_char|apply escape_line]|].
  destruct (starts_with (lit "- cmd:") (trim ((lit "    - " ++ escape p) ++ nl))) eqn:E; [|reflexivity]. exfalso.
  apply starts_with_iff in E as [t E]. unfold harmless in Hp.
  assert (E1 : trim_start ((lit "    - " ++ escape p) ++ nl) = lit "- " ++ escape p ++ nl) by (cbn; now rewrite <- app_assoc).
  unfold trim in E. rewrite E1 in E.
  assert (Pre : exists u, lit "- " ++ escape p ++ nl = trim_end (lit "- " ++ escape p ++ nl) ++ u).
  { clear. unfold trim_end. set (x := lit "- " ++ escape p ++ nl). assert (G : forall y, exists u, rev y = rev (trim_start y) ++ u).
    { induction y as [|c y [u IH]]; [exists []; reflexivity|]. cbn. destruct (is_whitespace c); [exists (u ++ [c]); now rewrite IH, <- app_assoc|exists []; cbn; now rewrite app_nil_r]. }
    destruct (G (rev x)) as [u Hu]. rewrite rev_involutive in Hu. exists u. exact Hu. }
  destruct Pre as [u Hu]. rewrite E in Hu. cbn in Hu. injection Hu as Hu.
  assert (S : starts_with (lit "cmd:") (escape p ++ nl) = true) by (rewrite Hu; reflexivity).
  rewrite starts_nl in Hp; [discriminate Hp|no_char|exact S].
Qed.

Lemma item_scan i rest : escape (cmd i) <> [] -> trimmed (escape (cmd i)) -> number parse (when i) -> Forall harmless (paths i) ->
  scan parse now false [] (pieces [] (item_text i ++ rest)) = (escape (cmd i), value (when i)) :: scan parse now false [] (pieces [] rest).
Proof.
  intros H1 H2 H3 H4. unfold item_text. rewrite <- !app_assoc. rewrite cmd_line by (assumption || apply escape_line).
  cbn [andb app]. rewrite when_line by assumption. f_equal. destruct (paths i) as [|p ps] eqn:E; [reflexivity|].
  rewrite <- !app_assoc. rewrite other_line by (no_char || reflexivity). now apply paths_lines.
Qed.
End Proofs.

(** * C104 *)
(** Commands of one line without backslashes and blanks at the ends arrive, each once, in
    order and with their times. *)
Theorem C104_commands_are_imported_partial : forall parse now items,
  Forall (fun i => cmd i <> [] /\ trimmed (cmd i) /\ plain (cmd i) /\ number parse (when i) /\ Forall harmless (paths i)) items ->
  map fst (import_fish parse now (fish_history items)) = map cmd items /\
  map (fun e => Some (snd e)) (import_fish parse now (fish_history items)) = map (fun i => parse (when i)) items.
Proof.
  intros parse now items H.
  assert (E : import_fish parse now (fish_history items) = map (fun i => (cmd i, value parse now (when i))) items).
  { unfold import_fish, fish_history. induction H as [|i items (H1 & H2 & H3 & H4 & H5) _ IH]; [reflexivity|]. cbn [flat_map map].
    rewrite item_scan; rewrite ?(escape_plain _ H3); try assumption. now rewrite IH. }
  rewrite E. rewrite !map_map. split; [reflexivity|]. apply map_ext_in. intros i Hi. rewrite Forall_forall in H.
  destruct (H i Hi) as (_ & _ & _ & (_ & _ & Hp) & _). unfold value. cbn [snd]. destruct (parse (when i)); [reflexivity|congruence].
Qed.
Print Assumptions C104_commands_are_imported_partial.

(** A command with a backslash or of several lines arrives as fish escaped it, which is
    another command. *)
Theorem C104_escapes_refuted : forall parse now i, ~ plain (cmd i) -> trimmed (escape (cmd i)) -> number parse (when i) -> Forall harmless (paths i) ->
  exists c t, import_fish parse now (fish_history [i]) = [(c, t)] /\ c = escape (cmd i) /\ c <> cmd i.
Proof.
  intros parse now i Hp Ht Hn Hs. exists (escape (cmd i)), (value parse now (when i)).
  assert (L : forall s, ~ plain s -> length s < length (escape s)).
  { assert (O : forall c, 1 <= length (escape1 c)) by (intros c; unfold escape1; destruct (c =? 10)%N; [repeat constructor|]; destruct (c =? chr "\")%N; repeat constructor).
    assert (G : forall s, length s <= length (escape s)).
    { unfold escape. induction s as [|c s IH]; [constructor|]. cbn [flat_map]. rewrite app_length. specialize (O c). cbn [length]. lia. }
    induction s as [|c s IH]; intros H; [exfalso; apply H; split; intros []|]. unfold escape in *. cbn [flat_map]. rewrite app_length.
    specialize (G s). specialize (O c). cbn [length].
    destruct (N.eqb_spec c 10) as [E1|H1]; [subst c; change (length (escape1 10%N)) with 2; lia|].
    destruct (N.eqb_spec c (chr "\")) as [E2|H2]; [subst c; change (length (escape1 (chr "\"))) with 2; lia|].
    assert (H3 : ~ plain s). { intros [P1 P2]. apply H. split; intros [E|Hi]; auto. } specialize (IH H3). lia. }
  assert (Hl := L _ Hp). split; [|split; [reflexivity|intros E; rewrite E in Hl; lia]].
  unfold import_fish, fish_history. cbn [flat_map]. rewrite item_scan; try assumption.
  - reflexivity.
  - intros E. rewrite E in Hl. cbn in Hl. lia.
Qed.
Print Assumptions C104_escapes_refuted.

(** A path that looks like a command is imported as one, with the present time. *)
Theorem C104_paths_refuted : forall parse now (c t x : str), c <> [] -> trimmed c -> plain c -> number parse t ->
  x <> [] -> trimmed x -> plain x ->
  import_fish parse now (fish_history [Item c t [lit "cmd: " ++ x]]) = [(c, value parse now t); (x, now)].
Proof.
  intros parse now c t x H1 H2 H3 H4 H5 H6 H7. unfold import_fish, fish_history. cbn [flat_map]. unfold item_text. cbn [cmd when paths].
  rewrite <- !app_assoc, (escape_plain c H3). rewrite cmd_line by (assumption || exact (proj1 H3)). cbn [andb app].
  rewrite when_line by assumption. f_equal. rewrite other_line by ((let H := fresh in intros H; apply lit_free in H; vm_compute in H; discriminate H) || reflexivity).
  assert (Ex : escape (lit "cmd: " ++ x) = lit "cmd: " ++ x).
  { unfold escape. rewrite flat_map_app. change (flat_map escape1 (lit "cmd: ")) with (lit "cmd: "). f_equal. exact (escape_plain x H7). }
  assert (Ep : flat_map path_line [lit "cmd: " ++ x] ++ [] = (lit "    - cmd: " ++ x) ++ 10%N :: []).
  { cbn [flat_map]. unfold path_line. rewrite Ex, !app_nil_r. unfold nl. rewrite <- !app_assoc. reflexivity. }
  assert (Nx : ~ In 10%N (lit "    - cmd: " ++ x)).
  { apply not_in_app; [|exact (proj1 H7)]. intros Hi. apply lit_free in Hi. vm_compute in Hi. discriminate Hi. }
  assert (P : pieces [] (flat_map path_line [lit "cmd: " ++ x] ++ []) = [(lit "    - cmd: " ++ x) ++ nl]).
  { etransitivity; [exact (f_equal (pieces []) Ep)|]. exact (pieces_line (lit "    - cmd: " ++ x) [] [] Nx). }
  etransitivity; [exact (f_equal (scan parse now false []) P)|].
  cbn [rev app pieces scan].
  assert (E : trim ((lit "    - cmd: " ++ x) ++ nl) = lit "- cmd: " ++ x).
  { change ((lit "    - cmd: " ++ x) ++ nl) with (lit "    " ++ (lit "- cmd: " ++ x) ++ nl).
    apply trim_body; [let c := fresh in let H := fresh in intros c H; vm_compute in H; intuition (subst; reflexivity)|intros d [<-|[]]; reflexivity|discriminate|].
    apply trimmed_app; [discriminate|reflexivity|exact H5|exact H6]. }
  rewrite E. change (starts_with (lit "- cmd:") (lit "- cmd: " ++ x)) with true. cbv iota. cbn [andb app].
  change (strip (lit "- cmd:") (lit "- cmd: " ++ x)) with (lit " " ++ x).
  assert (E2 : trim (lit " " ++ x) = x).
  { rewrite <- (app_nil_r x) at 1. apply trim_body; [let c := fresh in let H := fresh in intros c H; vm_compute in H; intuition (subst; reflexivity)|intros d []|exact H5|exact H6]. }
  rewrite E2. destruct x as [|y x]; [congruence|reflexivity].
Qed.
Print Assumptions C104_paths_refuted.

Example C104_example :
  let parse t := if str_eqb t (lit "160") then Some 160%Z else if str_eqb t (lit "161") then Some 161%Z else None in
  import_fish parse 999 (fish_history [Item (lit "ls -la") (lit "160") []; Item (lit "cd /tmp; ls") (lit "161") [lit "/tmp"; lit "x y"]])
  = [(lit "ls -la", 160%Z); (lit "cd /tmp; ls", 161%Z)]
  /\ import_fish parse 999 (fish_history [Item (lit "sed s/\./x/" ++ [10%N] ++ lit "ls") (lit "160") []]) = [(lit "sed s/\\./x/\nls", 160%Z)].
Proof. split; vm_compute; reflexivity. Qed.
