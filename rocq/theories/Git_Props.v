(** C144 ga, C145 gco: the git commands run for what was selected. *)
From Verif Require Import Base Direnv_Model Direnv_Proofs Answer_Props Git_Model Git_Spec.
From Coq Require Import Lia.

(** ** lines *)
Lemma strip_cr_keeps (s : str) : (~ exists t, s = t ++ [13%N]) -> strip_cr s = s.
Proof.
  intros H. unfold strip_cr. destruct (rev s) as [|c r] eqn:E; [reflexivity|]. destruct (N.eqb_spec c 13) as [->|]; [|reflexivity].
  destruct H. exists (rev r). rewrite <- (rev_involutive s), E. reflexivity.
Qed.
Lemma lines_text ls : (forall l, In l ls -> one_line l) -> lines (text ls) = ls.
Proof.
  induction ls as [|l ls IH]; intros H; [reflexivity|]. unfold text. cbn [flat_map]. rewrite <- app_assoc. cbn [app].
  destruct (H l (or_introl eq_refl)) as [A B]. rewrite lines_nl by exact A. rewrite strip_cr_keeps by exact B. f_equal. apply IH. intros x X. apply H. right. exact X.
Qed.
Lemma no_lf_one l : (forall c, In c l -> c <> 10%N /\ c <> 13%N) -> one_line l.
Proof. intros H. split; [intros I; destruct (proj1 (H _ I) eq_refl)|]. intros (t & ->). destruct (H 13%N) as [_ N]; [apply in_or_app; right; left; reflexivity|exact (N eq_refl)]. Qed.

(** ** ga *)
Lemma letter_len c : letter c -> utf8_len c = 1.
Proof. unfold letter, utf8_len. intros H. replace (c <? 128)%N with true by (symmetry; apply N.ltb_lt; lia). reflexivity. Qed.
Lemma status_item c n r : change_ok c -> n <> [] -> status_items (status_line c n :: r) = match status_items r with Some es => Some ((n, status_line c n) :: es) | None => None end.
Proof.
  intros [A B] N. cbn [status_items]. unfold status_line.
  assert (L : blen [fst (code c); snd (code c); 32%N] = 3) by (cbn; rewrite (letter_len _ A), (letter_len _ B); reflexivity).
  change (fst (code c) :: snd (code c) :: 32%N :: n) with ([fst (code c); snd (code c); 32%N] ++ n).
  assert (M : 1 <= blen n) by (destruct n as [|x n]; [congruence|cbn; generalize (utf8_len_pos x); lia]).
  rewrite blen_app, L. replace (3 + blen n <? 4) with false by (symmetry; apply Nat.ltb_ge; lia).
  pose proof (split_byte_app [fst (code c); snd (code c); 32%N] n) as E. rewrite L in E. rewrite E. reflexivity.
Qed.
Definition item (shown : str -> str) (c : change) : str * str := (shown (file c), status_line c (shown (file c))).
Definition status_text (shown : str -> str) (cs : list change) : str := text (map (fun c => status_line c (shown (file c))) cs).
Lemma status_items_of shown cs : (forall c, In c cs -> change_ok c /\ shown (file c) <> []) ->
  status_items (map (fun c => status_line c (shown (file c))) cs) = Some (map (item shown) cs).
Proof.
  induction cs as [|c cs IH]; intros H; [reflexivity|]. cbn [map]. destruct (H c (or_introl eq_refl)) as [A B].
  rewrite status_item by assumption. rewrite IH by (intros x X; apply H; right; exact X). reflexivity.
Qed.
Lemma status_one c n : change_ok c -> Forall (fun x => visible x \/ x = 32%N) n -> one_line (status_line c n).
Proof.
  intros [A B] F. rewrite Forall_forall in F. unfold letter in *. apply no_lf_one. intros x [<-|[<-|[<-|I]]]; [split; lia|split; lia|split; discriminate|].
  destruct (F x I) as [[V _]| ->]; [split; lia|split; discriminate].
Qed.

(** What is added is what was selected, in the menu's order: every name plain, every entry an addition,
    change or deletion (no renaming). *)
Theorem C144_adds_partial cs menu abort chosen :
  (forall c, In c cs -> change_ok c /\ plain_name (file c)) ->
  menu (map (fun c => (file c, status_line c (file c))) cs) = Some (Picked abort (map (fun c => (file c, status_line c (file c))) chosen)) ->
  ga (text (map (fun c => status_line c (file c)) cs)) menu =
  Some (match cs, chosen with [], _ | _, [] => [] | _, _ => [lit "add" :: map file chosen] end).
Proof.
  intros H M. unfold ga. rewrite lines_text.
  2:{ intros l I. apply in_map_iff in I as (c & <- & I). destruct (H c I) as [A [_ B]]. apply status_one; [exact A|]. eapply Forall_impl; [|exact B]. intros x X. left. exact X. }
  assert (E := status_items_of (fun n => n) cs). cbn beta in E. rewrite E by (intros c I; destruct (H c I) as [A [B _]]; split; assumption).
  destruct cs as [|c cs]; [reflexivity|]. cbn [map]. unfold item at 1. cbn beta iota. cbn [map] in M. change (map (item (fun n => n)) cs) with (map (fun c0 => (file c0, status_line c0 (file c0))) cs).
  rewrite M. cbn [selected]. destruct chosen as [|d chosen]; [reflexivity|]. cbn [map fst]. rewrite map_map. reflexivity.
Qed.
(** and nothing panics whatever the names, because git's letters are ASCII *)
Theorem C144_no_panic ls menu :
  (forall l, In l ls -> one_line l /\ exists x y n, l = status_line (Change (x, y) []) n /\ letter x /\ letter y) ->
  ga (text ls) menu <> None.
Proof.
  intros H. unfold ga. rewrite lines_text by (intros l I; apply H, I).
  assert (E : exists es, status_items ls = Some es).
  { induction ls as [|l ls IH]; [exists []; reflexivity|]. destruct IH as [es Es]; [intros x X; apply H; right; exact X|].
    destruct (H l (or_introl eq_refl)) as (_ & x & y & n & -> & A & B). destruct n as [|c n].
    - exists es. cbn [status_items]. unfold status_line. cbn [fst snd code]. cbn [blen]. rewrite (letter_len _ A), (letter_len _ B). cbn. exact Es.
    - exists ((c :: n, status_line (Change (x, y) []) (c :: n)) :: es). rewrite status_item; [rewrite Es; reflexivity|split; assumption|discriminate]. }
  destruct E as [es ->]. destruct es as [|e es]; [discriminate|].
  destruct (menu (e :: es)) as [p|]; [|discriminate]. destruct (selected p); discriminate.
Qed.
(** and git is run only for a menu that came back with a selection *)
Theorem C144_only_when_selected stdout menu runs :
  ga stdout menu = Some runs -> runs <> [] -> exists es p, menu es = Some p /\ selected p <> [] /\ runs = [lit "add" :: map fst (selected p)].
Proof.
  unfold ga. destruct (status_items (lines stdout)) as [[|e es]|]; [intros [= <-] X; contradiction| |discriminate].
  destruct (menu (e :: es)) as [p|] eqn:M; [|intros [= <-] X; contradiction]. destruct (selected p) as [|x xs] eqn:P; [intros [= <-] X; contradiction|].
  intros [= <-] _. exists (e :: es), p. rewrite P. repeat split; [exact M|discriminate].
Qed.
(** A name with a blank is handed to git with the quotes git printed round it: another name. *)
Theorem C144_quoted_refuted x y n abort rest :
  letter x -> letter y -> blank_name n ->
  ga (text [status_line (Change (x, y) n) (quoted n)]) (fun items => Some (Picked abort (firstn 1 items ++ rest))) = Some [lit "add" :: quoted n :: map fst rest] /\
  quoted n <> n.
Proof.
  intros A B [I F]. split.
  - unfold ga. rewrite lines_text.
    + rewrite status_item; [reflexivity|split; assumption|discriminate].
    + intros l [<-|[]]. apply no_lf_one. rewrite Forall_forall in F. unfold letter in *. intros c [<-|[<-|[<-|[<-|J]]]]; [split; cbn; lia|split; cbn; lia|split; discriminate|split; discriminate|].
      apply in_app_or in J as [J|[<-|[]]]; [|split; discriminate]. destruct (F c J) as [[V _]| ->]; [split; lia|split; discriminate].
  - intros E. apply (f_equal (@length _)) in E. unfold quoted in E. cbn in E. rewrite app_length in E. cbn in E. lia.
Qed.
(** A renamed file: git prints both names, and both are handed over as one. *)
Theorem C144_renamed_refuted y old new abort :
  letter y -> plain_name old -> plain_name new ->
  ga (text [status_line (Change (chr "R", y) new) (old ++ lit " -> " ++ new)]) (fun items => Some (Picked abort items)) = Some [[lit "add"; old ++ lit " -> " ++ new]] /\
  old ++ lit " -> " ++ new <> new.
Proof.
  intros A [No Fo] [Nn Fn]. split.
  - unfold ga. rewrite lines_text.
    + rewrite status_item; [reflexivity|split; [unfold letter; split; vm_compute; discriminate|exact A]|destruct old; discriminate].
    + intros l [<-|[]]. apply status_one; [split; [unfold letter; split; vm_compute; discriminate|exact A]|]. apply Forall_app. split; [eapply Forall_impl; [|exact Fo]; intros c C; left; exact C|].
      apply Forall_app. split; [|eapply Forall_impl; [|exact Fn]; intros c C; left; exact C].
      unfold visible. repeat (apply Forall_cons; [first [right; reflexivity | left; split; [split; vm_compute; discriminate|split; discriminate]]|]). apply Forall_nil.
  - intros E. apply (f_equal (@length _)) in E. rewrite !app_length in E. change (length (lit " -> ")) with 4 in E. lia.
Qed.
(** No -- stands before the names: a file named like an option is taken for it. *)
Theorem C144_option_refuted :
  exists cs, (forall c, In c cs -> change_ok c /\ plain_name (file c)) /\ length cs = 1 /\
  ga (text (map (fun c => status_line c (file c)) cs)) (fun items => Some (Picked false items)) = Some [[lit "add"; lit "--all"]].
Proof.
  exists [Change (chr "?", chr "?") (lit "--all")]. split; [|split; [reflexivity|vm_compute; reflexivity]].
  intros c [<-|[]]. split; [split; unfold letter; split; vm_compute; discriminate|]. split; [discriminate|]. cbn. unfold visible. repeat (apply Forall_cons; [split; [split; vm_compute; discriminate|split; discriminate]|]). apply Forall_nil.
Qed.
(** The menu left with Esc: what was marked is added all the same. *)
Theorem C144_abort_refuted stdout f : ga stdout (fun items => Some (Picked true (f items))) = ga stdout (fun items => Some (Picked false (f items))).
Proof. reflexivity. Qed.
Example C144_case :
  ga (text [lit " M src/a.rs"; lit "?? b"; lit "D  c"]) (fun l => Some (Picked false (skipn 1 l))) = Some [[lit "add"; lit "b"; lit "c"]] /\
  ga (text [lit " M src/a.rs"; lit "?? b"]) (fun l => Some (Picked true (firstn 1 l))) = Some [[lit "add"; lit "src/a.rs"]] /\
  ga [] (fun l => Some (Picked false l)) = Some [].
Proof. vm_compute. auto. Qed.

(** ** gco *)
Lemma name_first n : name_ok n -> (forall c r, n = c :: r -> is_whitespace c = false).
Proof. intros [_ H] c r ->. apply (H c (or_introl eq_refl)). Qed.
Lemma name_last n : name_ok n -> (forall b c, n = b ++ [c] -> is_whitespace c = false).
Proof. intros [_ H] b c ->. apply (H c). apply in_or_app. right. left. reflexivity. Qed.
Lemma name_one n : name_ok n -> forall c, In c n -> c <> 10%N /\ c <> 13%N.
Proof. intros [_ H] c I. destruct (H c I) as [W _]. split; intros ->; discriminate. Qed.
Definition no_star (s : str) : str := filter (fun c => negb (c =? 42)%N) s.
Lemma no_star_app a b : no_star (a ++ b) = no_star a ++ no_star b.
Proof. apply filter_app. Qed.
Lemma name_no_star n : name_ok n -> no_star n = n.
Proof. unfold no_star. intros [_ H]. induction n as [|c n IH]; [reflexivity|]. cbn. destruct (N.eqb_spec c 42) as [->|]; [destruct (H 42%N (or_introl eq_refl)) as [_ N]; destruct (N eq_refl)|]. cbn. f_equal. apply IH. intros d D. apply H. right. exact D. Qed.
(** the line as it is offered: its text without the two leading characters *)
Definition offered (b : branch) : str := match b with Local _ n => n | _ => skipn 2 (branch_line b) end.
Lemma trim_name a n b : (forall c, In c a -> is_whitespace c = true) -> name_ok n -> name_ok b -> forall m, trim (a ++ (n ++ m ++ b)) = n ++ m ++ b.
Proof.
  intros A N B m. rewrite <- (app_nil_r (n ++ m ++ b)) at 1. rewrite trim_exact; [reflexivity|exact A|intros c []|destruct N as [N _]; destruct n; [congruence|discriminate]| |].
  - intros c r E. destruct n as [|d n]; [destruct N; congruence|]. inversion E; subst. exact (name_first _ N c n eq_refl).
  - intros x c E. destruct (exists_last (proj1 B)) as (y & d & ->). rewrite !app_assoc in E. apply app_inj_tail in E as [_ <-]. exact (name_last _ B y d eq_refl).
Qed.
Lemma trim_name1 a n : (forall c, In c a -> is_whitespace c = true) -> name_ok n -> trim (a ++ n) = n.
Proof. intros A N. rewrite <- (app_nil_r n) at 1. rewrite trim_exact; [reflexivity|exact A|intros c []|exact (proj1 N)|apply name_first, N|apply name_last, N]. Qed.
Lemma remotes_ok : name_ok (lit "remotes/").
Proof. split; [discriminate|]. intros c I. cbn in I. repeat (destruct I as [<-|I]; [split; [reflexivity|discriminate]|]). destruct I. Qed.
Lemma two_white : forall c, In c (lit "  ") -> is_whitespace c = true.
Proof. intros c [<-|[<-|[]]]; reflexivity. Qed.
Lemma one_white : forall c, In c (lit " ") -> is_whitespace c = true.
Proof. intros c [<-|[]]; reflexivity. Qed.
Lemma offered_of b : branch_ok b -> trim (no_star (branch_line b)) = offered b /\ offered b <> [].
Proof.
  destruct b as [cur n|r n|r t n]; cbn [branch_ok branch_line offered].
  - intros [N _]. split; [|exact (proj1 N)]. destruct cur; rewrite no_star_app, (name_no_star n N); [apply (trim_name1 (lit " ") n one_white N)|apply (trim_name1 (lit "  ") n two_white N)].
  - intros (R & _ & N). split; [|discriminate]. rewrite !no_star_app, (name_no_star r R), (name_no_star n N).
    replace (no_star (lit "  remotes/")) with (lit "  " ++ lit "remotes/") by reflexivity.
    replace (no_star (lit "/")) with (lit "/") by reflexivity.
    transitivity (lit "remotes/" ++ (r ++ lit "/") ++ n); [|rewrite <- !app_assoc; reflexivity].
    rewrite <- (trim_name (lit "  ") (lit "remotes/") n two_white remotes_ok N). f_equal. rewrite <- !app_assoc. reflexivity.
  - intros (R & _ & T & _ & N). split; [|discriminate]. rewrite !no_star_app, (name_no_star r R), (name_no_star t T), (name_no_star n N).
    replace (no_star (lit "  remotes/")) with (lit "  " ++ lit "remotes/") by reflexivity.
    replace (no_star (lit "/")) with (lit "/") by reflexivity.
    replace (no_star (lit "/HEAD -> ")) with (lit "/HEAD -> ") by reflexivity.
    transitivity (lit "remotes/" ++ (r ++ lit "/HEAD -> " ++ t ++ lit "/") ++ n); [|rewrite <- !app_assoc; reflexivity].
    rewrite <- (trim_name (lit "  ") (lit "remotes/") n two_white remotes_ok N). f_equal. rewrite <- !app_assoc. reflexivity.
Qed.
Lemma branch_one b : branch_ok b -> one_line (branch_line b).
Proof.
  intros H. apply no_lf_one. intros c I.
  assert (L : forall s, Forall (fun c => c <> 10 /\ c <> 13)%N (lit s) -> In c (lit s) -> (c <> 10 /\ c <> 13)%N) by (intros s F J; rewrite Forall_forall in F; exact (F c J)).
  destruct b as [cur n|r n|r t n]; cbn [branch_ok branch_line] in *.
  - destruct H as [N _]. destruct cur; apply in_app_or in I as [I|I]; try (exact (name_one n N c I)); (eapply L; [|exact I]; repeat (apply Forall_cons; [split; discriminate|]); apply Forall_nil).
  - destruct H as (R & _ & N). repeat (apply in_app_or in I as [I|I]); try (exact (name_one _ R c I)); try (exact (name_one _ N c I)); (eapply L; [|exact I]; repeat (apply Forall_cons; [split; discriminate|]); apply Forall_nil).
  - destruct H as (R & _ & T & _ & N). repeat (apply in_app_or in I as [I|I]); try (exact (name_one _ R c I)); try (exact (name_one _ T c I)); try (exact (name_one _ N c I)); (eapply L; [|exact I]; repeat (apply Forall_cons; [split; discriminate|]); apply Forall_nil).
Qed.
Lemma branch_items_of bs : (forall b, In b bs -> branch_ok b) -> branch_items (text (map branch_line bs)) = map offered bs.
Proof.
  intros H. unfold branch_items. rewrite lines_text by (intros l I; apply in_map_iff in I as (b & <- & I); apply branch_one, H, I).
  induction bs as [|b bs IH]; [reflexivity|]. cbn [map filter]. destruct (offered_of b (H b (or_introl eq_refl))) as [E N]. unfold no_star in E. rewrite E.
  destruct (offered b) as [|c r]; [congruence|]. f_equal. apply IH. intros x X. apply H. right. exact X.
Qed.
Lemma cut_sub_none sub s : (~ exists a b, s = a ++ sub ++ b) -> cut_sub sub s = None.
Proof.
  induction s as [|c s IH]; intros H; cbn [cut_sub].
  - destruct (starts_with sub []) eqn:E; [|reflexivity]. apply starts_with_iff in E as [t E]. destruct H. exists [], t. exact E.
  - destruct (starts_with sub (c :: s)) eqn:E; [apply starts_with_iff in E as [t E]; destruct H; exists [], t; exact E|].
    rewrite IH; [reflexivity|]. intros (a & b & ->). apply H. exists (c :: a), b. reflexivity.
Qed.
Lemma cut_sub_at (d : char) sub a b : ~ In d a -> cut_sub (d :: sub) (a ++ (d :: sub) ++ b) = Some (a, b).
Proof.
  induction a as [|c a IH]; intros H.
  - assert (E : starts_with (d :: sub) ((d :: sub) ++ b) = true) by (apply starts_with_iff; exists b; reflexivity).
    cbn [app] in *. cbn [cut_sub]. rewrite E. f_equal. f_equal. cbn [length skipn]. rewrite skipn_app, skipn_all, Nat.sub_diag. reflexivity.
  - cbn [app cut_sub]. destruct (starts_with (d :: sub) (c :: a ++ d :: sub ++ b)) eqn:E.
    + apply starts_with_iff in E as [t E]. inversion E; subst. destruct H. left. reflexivity.
    + change (a ++ d :: sub ++ b) with (a ++ (d :: sub) ++ b). rewrite IH by (intros I; apply H; right; exact I). reflexivity.
Qed.
Lemma arrow_none n : (forall c, In c n -> is_whitespace c = false) -> cut_sub (lit " -> ") n = None.
Proof. intros H. apply cut_sub_none. intros (a & b & ->). assert (F := H 32%N). discriminate F. apply in_or_app. right. left. reflexivity. Qed.
Lemma clean_app a b : (forall c : char, In c a -> is_whitespace c = false) -> (forall c, In c b -> is_whitespace c = false) -> forall c, In c (a ++ b) -> is_whitespace c = false.
Proof. intros A B c I. apply in_app_or in I as [I|I]; auto. Qed.
Lemma clean_name n : name_ok n -> forall c, In c n -> is_whitespace c = false.
Proof. intros [_ H] c I. apply (H c I). Qed.
Lemma slash_clean : forall c, In c (lit "/") -> is_whitespace c = false.
Proof. intros c [<-|[]]. reflexivity. Qed.
Lemma name_of b : branch_ok b -> extract_branch_name (offered b) = branch_name b.
Proof.
  destruct b as [cur n|r n|r t n]; cbn [branch_ok offered branch_name]; unfold extract_branch_name.
  - intros [N P]. assert (T : trim n = n) by (apply (trim_name1 [] n); [intros c []|exact N]). rewrite T. rewrite arrow_none by (apply clean_name, N).
    destruct (starts_with (lit "remotes/") n) eqn:E; [|reflexivity]. destruct P. apply starts_with_iff, E.
  - intros (R & S & N). change (skipn 2 (branch_line (Remote r n))) with (lit "remotes/" ++ r ++ lit "/" ++ n).
    assert (T : trim (lit "remotes/" ++ r ++ lit "/" ++ n) = lit "remotes/" ++ r ++ lit "/" ++ n).
    { rewrite (app_assoc r). apply (trim_name [] (lit "remotes/") n); [intros c []|apply remotes_ok|exact N]. }
    rewrite T. rewrite arrow_none.
    2:{ apply clean_app; [apply clean_name, remotes_ok|]. apply clean_app; [apply clean_name, R|]. apply clean_app; [apply slash_clean|apply clean_name, N]. }
    replace (starts_with (lit "remotes/") (lit "remotes/" ++ r ++ lit "/" ++ n)) with true by (symmetry; apply starts_with_iff; eexists; reflexivity).
    change (skipn 8 (lit "remotes/" ++ r ++ lit "/" ++ n)) with (r ++ 47%N :: n). rewrite splitn2_at by exact S. reflexivity.
  - intros (R & S & T & U & N). change (skipn 2 (branch_line (Head r t n))) with (lit "remotes/" ++ r ++ lit "/HEAD -> " ++ t ++ lit "/" ++ n).
    assert (E : trim (lit "remotes/" ++ r ++ lit "/HEAD -> " ++ t ++ lit "/" ++ n) = lit "remotes/" ++ r ++ lit "/HEAD -> " ++ t ++ lit "/" ++ n).
    { transitivity (trim ([] ++ lit "remotes/" ++ (r ++ lit "/HEAD -> " ++ t ++ lit "/") ++ n)); [f_equal; cbn [app]; rewrite <- !app_assoc; reflexivity|].
      rewrite trim_name; [rewrite <- !app_assoc; reflexivity|intros c []|apply remotes_ok|exact N]. }
    rewrite E. replace (lit "remotes/" ++ r ++ lit "/HEAD -> " ++ t ++ lit "/" ++ n) with ((lit "remotes/" ++ r ++ lit "/HEAD") ++ (lit " -> ") ++ (t ++ lit "/" ++ n)) by (rewrite <- !app_assoc; reflexivity).
    change (lit " -> ") with (32%N :: lit "-> "). rewrite cut_sub_at.
    + change (t ++ lit "/" ++ n) with (t ++ 47%N :: n). rewrite splitn2_at by exact U. reflexivity.
    + intros I. assert (F : is_whitespace 32%N = false); [|discriminate F]. revert I. apply clean_app; [apply clean_name, remotes_ok|]. apply clean_app; [apply clean_name, R|].
      intros c J. cbn in J. repeat (destruct J as [<-|J]; [reflexivity|]). destruct J.
Qed.

(** The branch of the selected line is checked out, and no other command is run. *)
Theorem C145_checkout_partial bs menu b rest :
  (forall x, In x bs -> branch_ok x) -> 2 <= length bs -> In b bs ->
  menu (map offered bs) = Some (Picked false (offered b :: rest)) ->
  gco (text (map branch_line bs)) menu = [[lit "checkout"; branch_name b]].
Proof.
  intros H L I M. unfold gco. rewrite branch_items_of by exact H. destruct bs as [|x [|y bs]]; cbn [length] in L; [lia|lia|].
  cbn [map] in *. rewrite M. cbn [is_abort selected]. rewrite name_of by (apply H, I). reflexivity.
Qed.
(** With only one branch there is no menu. *)
Theorem C145_single b menu : branch_ok b -> gco (text [branch_line b]) menu = [[lit "checkout"; branch_name b]].
Proof. intros H. unfold gco. assert (E := branch_items_of [b]). cbn [map] in E. rewrite E by (intros x [<-|[]]; exact H). rewrite name_of by exact H. reflexivity. Qed.
(** Left with Esc, or nothing selected, or no menu: nothing is run. *)
Theorem C145_abort stdout menu :
  length (branch_items stdout) <> 1 ->
  (forall l, match menu l with Some p => is_abort p = true \/ selected p = [] | None => True end) ->
  gco stdout menu = [].
Proof.
  intros L M. unfold gco. destruct (branch_items stdout) as [|x [|y l]]; [reflexivity|cbn in L; congruence|].
  generalize (M (x :: y :: l)). destruct (menu (x :: y :: l)) as [p|]; [|reflexivity]. destruct (is_abort p); [reflexivity|]. intros [F|E]; [discriminate|]. rewrite E. reflexivity.
Qed.
(** git marks a branch checked out in another worktree with a plus, and the plus is kept. *)
Theorem C145_plus_refuted n menu : name_ok n -> gco (text [lit "+ " ++ n]) menu = [[lit "checkout"; lit "+ " ++ n]].
Proof.
  intros N.
  assert (P : name_ok (lit "+")) by (split; [discriminate|intros c [<-|[]]; split; [reflexivity|discriminate]]).
  assert (T : trim (lit "+ " ++ n) = lit "+ " ++ n) by (apply (trim_name [] (lit "+") n (fun c (F : In c []) => match F with end) P N (lit " "))).
  unfold gco, branch_items. rewrite lines_text.
  - cbn [map]. match goal with |- context [trim ?X] => change X with (no_star (lit "+ " ++ n)) end. rewrite no_star_app, (name_no_star n N). change (no_star (lit "+ ")) with (lit "+ "). cbn [filter]. rewrite T.
    change ([[lit "checkout"; extract_branch_name (lit "+ " ++ n)]] = [[lit "checkout"; lit "+ " ++ n]]). f_equal. f_equal. f_equal.
    unfold extract_branch_name. rewrite T. rewrite cut_sub_none; [reflexivity|].
    intros (a & b & E). change (lit "+ " ++ n) with (43%N :: 32%N :: n) in E. destruct a as [|c [|d a]]; [discriminate|inversion E as [[E1 E2]]|inversion E as [[E1 E2 E3]]].
    + assert (F := clean_name n N 32%N). destruct n as [|m [|k [|q n]]]; try discriminate. inversion E2; subst. assert (G := F (or_intror (or_intror (or_introl eq_refl)))). discriminate G.
    + assert (F := clean_name n N 32%N). rewrite E3 in F. assert (G : is_whitespace 32%N = false) by (apply F, in_or_app; right; left; reflexivity). discriminate G.
  - intros l [<-|[]]. apply no_lf_one. intros c [<-|[<-|I]]; [split; discriminate|split; discriminate|exact (name_one n N c I)].
Qed.
(** Two remotes with a branch of one name: the lines differ, the command does not. *)
Theorem C145_same_refuted r1 r2 n : branch_ok (Remote r1 n) -> branch_ok (Remote r2 n) ->
  extract_branch_name (offered (Remote r1 n)) = extract_branch_name (offered (Remote r2 n)).
Proof. intros A B. rewrite !name_of by assumption. reflexivity. Qed.
(** A remote whose name has a slash: the rest of its name becomes a part of the branch's. *)
Theorem C145_slash_refuted r1 r2 n menu :
  name_ok r1 -> ~ In (chr "/") r1 -> name_ok r2 -> name_ok n ->
  gco (text [branch_line (Remote (r1 ++ lit "/" ++ r2) n)]) menu = [[lit "checkout"; r2 ++ lit "/" ++ n]].
Proof.
  intros A B C D. assert (N2 : name_ok (r2 ++ lit "/" ++ n)).
  { split; [destruct r2; [destruct C; congruence|discriminate]|]. intros c I. apply in_app_or in I as [I|[<-|I]]; [apply C, I|split; [reflexivity|discriminate]|apply D, I]. }
  replace (branch_line (Remote (r1 ++ lit "/" ++ r2) n)) with (branch_line (Remote r1 (r2 ++ lit "/" ++ n))) by (cbn [branch_line]; rewrite <- !app_assoc; reflexivity).
  rewrite C145_single; [reflexivity|]. split; [exact A|]. split; [exact B|exact N2].
Qed.
(** A local branch whose name begins with remotes/ is taken for a remote one. *)
Theorem C145_local_refuted cur r n menu :
  name_ok r -> ~ In (chr "/") r -> name_ok n ->
  gco (text [branch_line (Local cur (lit "remotes/" ++ r ++ lit "/" ++ n))]) menu = [[lit "checkout"; n]].
Proof.
  intros A B C. set (m := lit "remotes/" ++ r ++ lit "/" ++ n).
  assert (M : name_ok m). { split; [discriminate|]. intros c I. unfold m in I. apply in_app_or in I as [I|I]; [apply remotes_ok, I|]. apply in_app_or in I as [I|[<-|I]]; [apply A, I|split; [reflexivity|discriminate]|apply C, I]. }
  assert (E : branch_items (text [branch_line (Local cur m)]) = [m]).
  { unfold branch_items. rewrite lines_text.
    - cbn [map]. replace (trim (filter (fun c => negb (c =? 42)%N) (branch_line (Local cur m)))) with m; [reflexivity|]. symmetry.
      destruct cur; cbn [branch_line]; match goal with |- trim ?X = _ => change X with (no_star (lit "* " ++ m)) || change X with (no_star (lit "  " ++ m)) end; rewrite no_star_app, (name_no_star m M); [apply (trim_name1 (lit " ") m one_white M)|apply (trim_name1 (lit "  ") m two_white M)].
    - intros l [<-|[]]. apply no_lf_one. intros c I. destruct cur; destruct I as [<-|[<-|I]]; try (split; discriminate); exact (name_one m M c I). }
  unfold gco. rewrite E. assert (O : m = offered (Remote r n)) by reflexivity. rewrite O, name_of by (split; [exact A|split; [exact B|exact C]]). reflexivity.
Qed.
(** A detached HEAD is offered as if it were a branch. *)
Theorem C145_detached_refuted menu : gco (text [lit "* (HEAD detached at abc1234)"]) menu = [[lit "checkout"; lit "(HEAD detached at abc1234)"]].
Proof. vm_compute. reflexivity. Qed.
Example C145_case :
  gco (text [lit "* main"; lit "  feature/x"; lit "  remotes/origin/HEAD -> origin/main"; lit "  remotes/origin/dev"])
      (fun l => Some (Picked false (skipn 3 l))) = [[lit "checkout"; lit "dev"]] /\
  branch_ok (Local false (lit "feature/x")).
Proof.
  split; [vm_compute; reflexivity|]. split; [|intros (t & E); discriminate E]. split; [discriminate|]. intros c I. cbn in I. repeat (destruct I as [<-|I]; [split; [reflexivity|discriminate]|]). destruct I.
Qed.

Print Assumptions C144_adds_partial.
Print Assumptions C144_no_panic.
Print Assumptions C144_only_when_selected.
Print Assumptions C144_quoted_refuted.
Print Assumptions C144_renamed_refuted.
Print Assumptions C144_option_refuted.
Print Assumptions C144_abort_refuted.
Print Assumptions C145_checkout_partial.
Print Assumptions C145_single.
Print Assumptions C145_abort.
Print Assumptions C145_plus_refuted.
Print Assumptions C145_same_refuted.
Print Assumptions C145_slash_refuted.
Print Assumptions C145_local_refuted.
Print Assumptions C145_detached_refuted.
