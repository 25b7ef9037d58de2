(** Theorems about recorded macros. *)
From Coq Require Import Lia.
From Verif Require Import Base Numerals Lread_Model Lread_Spec Lread_Proofs Lread_Props Macro_Model Macro_Spec.

Ltac flat := repeat (progress (rewrite <- ?app_assoc; cbn [app])); try reflexivity.

(** ** Escaping *)
Definition twice (c : str) : str := flat_map (fun x => if (x =? 92)%N then [92; 92]%N else [x]) c.

Lemma escape_no_quote : forall c, ~ In 34%N c -> escape c = twice c.
Proof.
  intros c H. unfold escape. fold (twice c).
  assert (Q : ~ In 34%N (twice c)).
  { unfold twice. rewrite in_flat_map. intros (x & I & J). destruct (N.eqb_spec x 92) as [->|_]; cbn in J.
    - destruct J as [J|[J|[]]]; discriminate.
    - destruct J as [->|[]]. now apply H. }
  induction (twice c) as [|x t IH]; [reflexivity|]. cbn [flat_map].
  destruct (N.eqb_spec x 34) as [->|_]; [exfalso; apply Q; now left|].
  cbn [app]. f_equal. apply IH. intro I. apply Q. now right.
Qed.

Lemma twice_no_quote : forall c, ~ In 34%N c -> ~ In 34%N (twice c).
Proof.
  intros c H I. unfold twice in I. apply in_flat_map in I as (x & I & J).
  destruct (N.eqb_spec x 92) as [->|_]; cbn in J; [destruct J as [J|[J|[]]]; discriminate|].
  destruct J as [->|[]]. now apply H.
Qed.

Lemma twice_cons : forall x c, twice (x :: c) = (if (x =? 92)%N then [92; 92]%N else [x]) ++ twice c.
Proof. reflexivity. Qed.

Lemma twice_len : forall c, length (twice c) = length c + count_occ N.eq_dec c 92%N.
Proof.
  induction c as [|x c IH]; [reflexivity|]. rewrite twice_cons. unfold char in *. rewrite app_length, IH.
  destruct (N.eqb_spec x 92) as [->|D]; cbn [length].
  - rewrite count_occ_cons_eq by reflexivity. lia.
  - rewrite count_occ_cons_neq by congruence. lia.
Qed.

Lemma twice_id : forall c, twice c = c <-> ~ In 92%N c.
Proof.
  intro c. split.
  - intros E I. pose proof (twice_len c) as L. rewrite E in L.
    apply (count_occ_In N.eq_dec) in I. lia.
  - intro H. unfold twice. induction c as [|x c IH]; [reflexivity|]. cbn [flat_map].
    destruct (N.eqb_spec x 92) as [->|_]; [exfalso; apply H; now left|].
    cbn [app]. f_equal. apply IH. intro I. apply H. now right.
Qed.

Lemma twice_last : forall c, last_ascii c -> last_ascii (twice c).
Proof.
  intros c (a & z & -> & A). unfold twice. rewrite flat_map_app. cbn [flat_map]. rewrite app_nil_r.
  destruct (N.eqb_spec z 92) as [->|_].
  - exists (flat_map (fun x => if (x =? 92)%N then [92; 92]%N else [x]) a ++ [92%N]), 92%N.
    rewrite <- app_assoc. now split.
  - eexists _, z. split; [reflexivity|exact A].
Qed.

Section Reading.
  Variable unum : char -> bool.

  (** the commands the reader can take: not empty, without quotes, ending in ASCII *)
  Definition fine (c : str) : Prop := last_ascii c /\ ~ In 34%N c.

  Definition call (c : str) : str := lit "(sh " ++ 34%N :: escape c ++ 34%N :: lit ")".

  Lemma entry_call : forall c, entry c = lit "  " ++ call c ++ [10%N].
  Proof.
    intro c. unfold entry, call. change (lit "  (sh ") with (lit "  " ++ lit "(sh ").
    flat.
  Qed.

  Lemma name_of_letters : forall s, s <> [] -> Forall (fun c => (97 <= c <= 122)%N) s ->
    ~ In s [lit "nil"; lit "t"; lit "f"] -> Name unum s.
  Proof.
    intros s NE L X. split; [|split; [|split; [|split]]].
    - destruct (split_last s NE) as (a & z & ->). exists a, z. split; [reflexivity|].
      apply Forall_app in L as [_ L]. inversion L as [|? ? Hz _]. unfold ascii. lia.
    - eapply Forall_impl; [|exact L]. intros c Hc B. cbv beta in Hc. apply (Break_range unum) in B. lia.
    - intros c r ->. inversion L as [|? ? Hc _]; subst. split; [|lia].
      unfold is_numeric. replace (c <? 128)%N with true by (symmetry; apply N.ltb_lt; lia).
      unfold is_digit. apply andb_false_iff. right. apply N.leb_gt. lia.
    - intros c r ->. inversion L as [|? ? Hc _]; subst. change (chr "-") with 45%N in Hc. lia.
    - intro I. apply X. assert (E : lower s = s).
      { clear X I NE. unfold lower. induction L as [|c s Hc _ IH]; [reflexivity|]. cbn [map]. f_equal; [|exact IH].
        unfold lower_char. destruct (((65 <=? c) && (c <=? 90))%N) eqn:E; [|reflexivity].
        rewrite andb_true_iff, !N.leb_le in E. lia. }
      now rewrite E in I.
  Qed.

  Lemma Name_sh : Name unum (lit "sh").
  Proof.
    apply name_of_letters; [discriminate| |vm_compute; intuition discriminate].
    apply Forall_forall. intros c I. vm_compute in I. destruct I as [<-|[<-|[]]]; lia.
  Qed.
  Lemma Name_defun : Name unum (lit "defun").
  Proof.
    apply name_of_letters; [discriminate| |vm_compute; intuition discriminate].
    apply Forall_forall. intros c I. vm_compute in I.
    repeat (destruct I as [<-|I]; [lia|]). destruct I.
  Qed.

  Lemma Gap_blank : Gap (lit " ").
  Proof. apply G_blank; [reflexivity|reflexivity|constructor]. Qed.
  Lemma Gap_lf : Gap [10%N].
  Proof. apply G_blank; [reflexivity|reflexivity|constructor]. Qed.
  Lemma Gap_two : Gap (lit "  ").
  Proof. apply G_blank; [reflexivity|reflexivity|apply Gap_blank]. Qed.

  Lemma call_written : forall c, fine c -> Writes unum (runs (twice c)) (call c).
  Proof.
    intros c [A Q]. unfold call. rewrite escape_no_quote by exact Q.
    assert (E : lit "(sh " ++ 34%N :: twice c ++ 34%N :: lit ")" =
                chr "(" :: [] ++ (lit "sh" ++ lit " " ++ (34%N :: twice c ++ [34%N])) ++ [chr ")"]).
    { change (lit "(sh ") with (chr "(" :: lit "sh" ++ lit " "). flat. }
    rewrite E. apply W_list; [constructor|].
    apply I_cons; [constructor; exact Name_sh|apply Gap_blank|discriminate|].
    rewrite <- (app_nil_r (34%N :: _)). apply I_last; [|constructor].
    apply W_string; [now apply twice_last|now apply twice_no_quote].
  Qed.

  Lemma body_items : forall cs, Forall fine cs ->
    exists g s, Gap g /\ flat_map entry cs ++ [10%N] = g ++ s /\ Items unum (map runs (map twice cs)) s.
  Proof.
    induction 1 as [|c cs F _ (g & s & G & E & It)].
    - exists [10%N], []. repeat split; [apply Gap_lf|constructor].
    - exists (lit "  "), (call c ++ ([10%N] ++ g) ++ s). split; [apply Gap_two|]. split.
      + cbn [flat_map]. rewrite entry_call, <- !app_assoc, E. reflexivity.
      + cbn [map]. apply I_cons; [now apply call_written|apply Gap_app; [apply Gap_lf|exact G]|discriminate|exact It].
  Qed.

  (** the code without the newlines around it *)
  Definition core (name : str) (cs : list str) : str :=
    lit "(defun " ++ name ++ lit " ()" ++ 10%N :: flat_map entry cs ++ 10%N :: lit ")".
  Lemma generate_core : forall name cs, generate name cs = 10%N :: core name cs ++ [10%N].
  Proof.
    intros name cs. unfold generate, core. f_equal. flat.
  Qed.

  Lemma core_written : forall name cs, Name unum name -> Forall fine cs ->
    Writes unum (macro name (map twice cs)) (core name cs).
  Proof.
    intros name cs N F. destruct (body_items cs F) as (g & s & G & E & It).
    assert (K : core name cs = chr "(" :: [] ++ (lit "defun" ++ lit " " ++ (name ++ lit " " ++ (lit "()" ++ ([10%N] ++ g) ++ s))) ++ [chr ")"]).
    { unfold core. change (lit "(defun ") with (chr "(" :: lit "defun" ++ lit " ").
      change (lit " ()") with (lit " " ++ lit "()"). flat.
      do 6 f_equal. rewrite (app_assoc g), <- E. flat. }
    rewrite K. unfold macro. apply W_list; [constructor|].
    apply I_cons; [constructor; exact Name_defun|apply Gap_blank|discriminate|].
    apply I_cons; [now constructor|apply Gap_blank|discriminate|].
    apply I_cons; [|apply Gap_app; [apply Gap_lf|exact G]|discriminate|exact It].
    exact (W_list unum [] [] [] G_nil (I_nil unum)).
  Qed.

  (** C177: the macro recorded is read as the function that runs the commands chosen, if each
      of them ends in an ASCII character and holds neither a quote nor a backslash, and the
      name is one *)
  Theorem C177_macro_runs_the_commands_partial : forall name cs,
    Name unum name -> Forall (fun c => last_ascii c /\ ~ In 34%N c /\ ~ In 92%N c) cs ->
    exists j, first unum (generate name cs) = Some (Good (macro name cs) j).
  Proof.
    intros name cs N F. rewrite generate_core.
    pose proof (core_written name cs N) as W.
    assert (E : map twice cs = cs).
    { clear W. induction F as [|c cs (_ & _ & B) _ IH]; [reflexivity|]. cbn [map]. rewrite IH. f_equal. now apply twice_id. }
    rewrite E in W. eexists. change (10%N :: core name cs ++ [10%N]) with ([10%N] ++ core name cs ++ [10%N]).
    apply C38_written_text_is_read; [apply Gap_lf| |now left].
    apply W. eapply Forall_impl; [|exact F]. intros c (A & B & _). now split.
  Qed.

  (** C177 is false of a command with a backslash: the reader knows no escapes, and so the
      macro runs the command with every backslash doubled *)
  Theorem C177_backslash_refuted : forall name cs,
    Name unum name -> Forall fine cs -> (exists c, In c cs /\ In 92%N c) ->
    (exists j, first unum (generate name cs) = Some (Good (macro name (map twice cs)) j)) /\
    macro name (map twice cs) <> macro name cs.
  Proof.
    intros name cs N F (c & I & B). split.
    - rewrite generate_core. eexists. change (10%N :: core name cs ++ [10%N]) with ([10%N] ++ core name cs ++ [10%N]).
      apply C38_written_text_is_read; [apply Gap_lf|now apply core_written|now left].
    - intro E. unfold macro in E. injection E as E.
      assert (M : map twice cs = cs).
      { clear -E. induction cs as [|x cs IH]; [reflexivity|]. cbn [map] in *. injection E as E1 E2.
        f_equal; [exact E1|now apply IH]. }
      apply in_split in I as (l1 & l2 & ->). rewrite map_app in M. cbn [map] in M.
      apply (f_equal (@length _)) in M as L. 
      assert (X : twice c = c).
      { clear -M. revert M. generalize (map twice l2) as m2. intro m2. revert l2 m2.
        induction l1 as [|x l1 IH]; intros l2 m2 M; cbn in M; injection M as M1 M2; [exact M1|].
        eapply IH. exact M2. }
      apply twice_id in X. contradiction.
  Qed.

  (** ** No string that is read holds a quote *)
  Lemma while_sound : forall (p : nat -> char -> bool) s off last o z,
    while_last (stateless p) tt off s last = Some (o, z) ->
    last = Some (o, z) \/
    exists a q, s = a ++ z :: q /\ o = off + blen a /\
      forall a1 c a2, a ++ [z] = a1 ++ c :: a2 -> p (off + blen a1) c = true.
  Proof.
    intros p s. induction s as [|c s IH]; intros off last o z H; cbn in H; [now left|].
    unfold stateless at 1 in H. destruct (p off c) eqn:P; [|now left]. right.
    destruct (IH _ _ _ _ H) as [E|(a & q & -> & -> & A)].
    - injection E as <- <-. exists [], s. cbn. rewrite Nat.add_0_r. repeat split.
      intros [|x a1] d a2 E; cbn in E; injection E as <- E; [cbn; now rewrite Nat.add_0_r|destruct a1; discriminate].
    - exists (c :: a), q. cbn. split; [reflexivity|]. split; [lia|].
      intros [|x a1] d a2 E; cbn in E; injection E as <- E; [cbn; now rewrite Nat.add_0_r|].
      cbn. rewrite Nat.add_assoc. eapply A. exact E.
  Qed.

  Lemma slice_quoted : forall (x a q : str) z,
    slice (x ++ (34%N :: a) ++ z :: q) (blen x + 1) (blen x + blen (34%N :: a) + 1) =
    if utf8_len z =? 1 then a ++ [z] else [].
  Proof.
    intros x a q z. unfold slice.
    replace (blen x + 1) with (blen (x ++ [34%N])) by (rewrite blen_app; reflexivity).
    replace (x ++ (34%N :: a) ++ z :: q) with ((x ++ [34%N]) ++ a ++ z :: q) by (rewrite <- app_assoc; reflexivity).
    rewrite split_byte_app, blen_app. cbn [blen]. change (utf8_len 34%N) with 1.
    replace (blen x + (1 + blen a) + 1 - (blen x + (1 + 0))) with (blen a + 1) by lia.
    destruct (Nat.eqb_spec (utf8_len z) 1) as [U|U].
    - replace (blen a + 1) with (blen (a ++ [z])) by (rewrite blen_app; cbn; lia).
      replace (a ++ z :: q) with ((a ++ [z]) ++ q) by (rewrite <- app_assoc; reflexivity).
      now rewrite split_byte_app.
    - rewrite split_inside; [reflexivity| |lia]. pose proof (utf8_len_pos z). lia.
  Qed.

  Lemma string_plain : forall code i v j, string_atom code i = Good v j -> ~ Mentions v.
  Proof.
    intros code i v j H. unfold string_atom in H.
    match type of H with context[consume_while ?p _ _ _] => set (pr := p) in H end.
    unfold consume_while in H. destruct (while_last pr tt 0 (from code i) None) as [[o z]|] eqn:E; [|discriminate].
    destruct (Nat.ltb_spec i (i + o)) as [L|_]; [|discriminate]. destruct (byte_is code (i + o + 1) quote_char); [|discriminate].
    injection H as <- _. cbn [Mentions]. intro Q.
    unfold from in E. destruct (split_byte code i) as [[x s]|] eqn:Sp; [|discriminate].
    apply split_byte_sound in Sp as [-> <-].
    destruct (while_sound _ _ _ _ _ _ E) as [X|(a & q & -> & O & A)]; [discriminate|]. cbn in O. subst o.
    destruct a as [|c0 a]; [cbn in L; lia|].
    assert (C0 : c0 = 34%N).
    { specialize (A [] c0 (a ++ [z]) eq_refl). cbn in A. rewrite orb_false_r in A. now apply N.eqb_eq in A. }
    subst c0. assert (NQ : ~ In 34%N (a ++ [z])).
    { intro I. apply in_split in I as (l1 & l2 & E2). specialize (A (34%N :: l1) 34%N l2).
      cbn [app] in A. rewrite E2 in A. specialize (A eq_refl). cbn in A. discriminate. }
    pose proof (slice_quoted x a q z) as S3.
    match type of S3 with ?l = _ => assert (Q' : In 34%N l) by exact Q end. rewrite S3 in Q'.
    destruct (utf8_len z =? 1); [now apply NQ|destruct Q'].
  Qed.

  Lemma Mentions_list : forall l, Mentions (VList l) <-> exists x, In x l /\ Mentions x.
  Proof.
    induction l as [|x l IH]; [split; [intros []|intros (? & [] & _)]|].
    change (Mentions (VList (x :: l))) with (Mentions x \/ Mentions (VList l)). rewrite IH. split.
    - intros [H|(y & I & H)]; [exists x; split; [now left|exact H]|exists y; split; [now right|exact H]].
    - intros (y & [->|I] & H); [now left|right; eauto].
  Qed.

  Lemma keyword_value : forall code i w v v' j, keyword code i w v = Good v' j -> v' = v.
  Proof.
    intros code i w v v' j. unfold keyword. destruct (consume code i w); [|discriminate].
    destruct (next_is_break _ _); [|discriminate]. congruence.
  Qed.
  Lemma number_plain : forall code i v j, number unum code i = Good v j -> ~ Mentions v.
  Proof.
    intros code i v j. unfold number. destruct (consume_while _ _ code i) as [[l c]|]; [|discriminate].
    destruct (is_numeric unum c); [|discriminate]. cbv zeta.
    set (int := if next_is_break code (S l) then _ else _).
    assert (Hi : int = Good v j -> ~ Mentions v).
    { unfold int. destruct (next_is_break _ _); [|discriminate]. destruct (parse_i64 _); [|discriminate].
      intros [= <- _]. intros []. }
    clearbody int. destruct (consume_while _ _ code (S l)) as [[b d]|]; [|exact Hi].
    destruct (S l + 2 <=? S b).
    - destruct (next_is_break _ _); [|exact Hi]. destruct (parse_float _); [|exact Hi]. intros [= <- _]. intros [].
    - destruct (byte_is _ _ _); [discriminate|exact Hi].
  Qed.

  Lemma atoms_plain : forall code i v j, atoms unum code i = Good v j -> ~ Mentions v.
  Proof.
    intros code i v j H. unfold atoms in H.
    repeat (apply orelse_good in H as [H|H]);
      try (apply keyword_value in H as ->; cbn; tauto).
    - now apply number_plain in H.
    - now apply string_plain in H.
    - unfold symbol in H. destruct (consume_while _ _ code i) as [[l c]|]; [|discriminate].
      injection H as <- _. intros [].
  Qed.

  Lemma read_plain : forall code f,
    (forall i v j, expr unum f code i = Good v j -> ~ Mentions v) /\
    (forall i acc v j, Forall (fun x => ~ Mentions x) acc -> members unum f code i acc = Good v j -> ~ Mentions v).
  Proof.
    intros code f. induction f as [|f [IHe IHm]]; [split; discriminate|]. split.
    - intros i v j. rewrite expr_S. destruct (consume code i (lit "(")) as [k|].
      + intro H. eapply IHm; [|exact H]. constructor.
      + assert (Wr : forall w k v j, wrap w (expr unum f code k) = Good v j -> ~ Mentions v).
        { intros w k v' j' H. destruct (expr unum f code k) as [| |u m|] eqn:E; try discriminate.
          injection H as <- _. rewrite Mentions_list. intros (x & [<-|[<-|[]]] & M); [exact M|]. now apply IHe in E. }
        intro H. apply orelse_good in H as [H|H].
        { destruct (consume code i (lit "'")); [|discriminate]. eapply Wr; exact H. }
        apply orelse_good in H as [H|H]; [|now apply atoms_plain in H].
        destruct (consume code i (lit ",")); [|discriminate]. eapply Wr; exact H.
    - intros i acc v j A. rewrite members_S. destruct (expr unum f code i) as [| |w k|] eqn:E; try discriminate.
      + destruct (consume code i (lit ")")); [|discriminate]. intros [= <- _]. rewrite Mentions_list.
        intros (x & I & M). apply (proj1 (Forall_forall _ _) A x); [|exact M]. now apply in_rev.
      + intro H. eapply IHm; [|exact H]. constructor; [eapply IHe; exact E|exact A].
  Qed.

  (** C177 is false of a command with a quote: whatever the reader makes of the code, it is
      never the macro that runs the commands chosen *)
  Theorem C177_quote_refuted : forall name cs code j,
    (exists c, In c cs /\ In 34%N c) -> first unum code <> Some (Good (macro name cs) j).
  Proof.
    intros name cs code j (c & I & Q) H. unfold first in H.
    destruct (expr unum (enough code) code (skip_gap code 0)) as [| |v k|] eqn:E; try discriminate.
    - destruct (_ <? _); discriminate.
    - injection H as -> _. apply (proj1 (read_plain code (enough code))) in E. apply E.
      unfold macro. apply Mentions_list. exists (runs c). split.
      + right. right. right. now apply in_map.
      + right. left. exact Q.
  Qed.

  (** ** What makes the reader fail *)
  Definition Fails (s : str) : Prop := starts s /\
    forall (x : str) f, 2 * blen s + 1 <= f -> expr unum f (x ++ s) (blen x) = Bad.

  (** [pre] lists values in front of [rest] *)
  Inductive Leads : str -> str -> Prop :=
  | L_nil rest : Leads [] rest
  | L_cons v s g t rest : Writes unum v s -> Gap g -> ends_word (g ++ t ++ rest) \/ closed s ->
      Leads t rest -> Leads (s ++ g ++ t) rest.

  Lemma leads_starts : forall pre rest, Leads pre rest -> starts rest -> starts (pre ++ rest).
  Proof.
    intros pre rest [r|v s g t r W G O L] H; [exact H|].
    destruct (Writes_starts unum v s W) as (c & q & -> & A). cbn. exists c. eexists. split; [reflexivity|exact A].
  Qed.

  Lemma leads_fail : forall pre rest, Leads pre rest -> Fails rest ->
    forall (x : str) f acc, 2 * blen (pre ++ rest) + 2 <= f ->
    members unum f (x ++ pre ++ rest) (blen x) acc = Bad.
  Proof.
    intros pre rest L [St F]. induction L as [rest|v s g t rest W G O L IH]; intros x f acc B.
    - destruct f as [|f]; [lia|]. cbn [app]. rewrite members_S.
      rewrite (F x f); [reflexivity|]. cbn [app] in B. lia.
    - destruct f as [|f]; [lia|]. rewrite members_S.
      replace ((s ++ g ++ t) ++ rest) with (s ++ g ++ t ++ rest) in * by (rewrite <- !app_assoc; reflexivity).
      rewrite (proj1 (Writes_read unum) v s W x (g ++ t ++ rest) f O) by (rewrite !blen_app in B; lia).
      replace (blen x + blen s) with (blen (x ++ s)) by (rewrite blen_app; lia).
      replace (x ++ s ++ g ++ t ++ rest) with ((x ++ s) ++ g ++ t ++ rest) by (rewrite <- !app_assoc; reflexivity).
      rewrite skip_gap_app; [|exact G|].
      + replace ((x ++ s) ++ g ++ t ++ rest) with (((x ++ s) ++ g) ++ t ++ rest) by (rewrite <- !app_assoc; reflexivity).
        apply IH; [exact St|exact F|]. pose proof (starts_len s (Writes_starts unum v s W)).
        rewrite !blen_app in *. lia.
      + rewrite <- (app_nil_r (t ++ rest)). apply starts_no_gap. now apply leads_starts.
  Qed.

  Lemma list_fails : forall g pre rest, Gap g -> Leads pre rest -> Fails rest ->
    Fails (chr "(" :: g ++ pre ++ rest).
  Proof.
    intros g pre rest G L F. split.
    - exists (chr "("). eexists. split; [reflexivity|]. repeat split; discriminate.
    - intros x f B. destruct f as [|f]; [lia|]. rewrite expr_S, consume_at.
      replace (prefix_ci (lit "(") (chr "(" :: g ++ pre ++ rest)) with true by reflexivity.
      change (blen (lit "(")) with 1.
      replace (blen x + 1) with (blen (x ++ [chr "("])) by (rewrite blen_app; reflexivity).
      replace (x ++ chr "(" :: g ++ pre ++ rest) with ((x ++ [chr "("]) ++ g ++ pre ++ rest) by (rewrite <- !app_assoc; reflexivity).
      rewrite skip_gap_app; [|exact G|rewrite <- (app_nil_r (pre ++ rest)); apply starts_no_gap; now apply leads_starts; destruct F].
      replace ((x ++ [chr "("]) ++ g ++ pre ++ rest) with (((x ++ [chr "("]) ++ g) ++ pre ++ rest) by (rewrite <- !app_assoc; reflexivity).
      apply leads_fail; [exact L|exact F|].
      cbn [blen] in B. change (utf8_len (chr "(")) with 1 in B. rewrite !blen_app in *. lia.
  Qed.

  (** a string whose last character is not ASCII *)
  Lemma string_fails : forall (a q : str) z, ~ ascii z -> ~ In 34%N (a ++ [z]) ->
    Fails (34%N :: a ++ z :: 34%N :: q).
  Proof.
    intros a q z Hz Hs. split.
    - exists 34%N. eexists. split; [reflexivity|]. repeat split; discriminate.
    - intros x f B. destruct f as [|f]; [lia|]. rewrite expr_string. unfold string_atom.
      pose proof (string_take x a (34%N :: q) z Hs eq_refl) as X. cbn [app] in X.
      match type of X with ?l = _ => match goal with |- context [consume_while ?p ?s ?c ?i] => change (consume_while p s c i) with l end end.
      rewrite X. cbv iota beta. clear X.
      replace (blen x <? blen x + S (blen a)) with true by (symmetry; apply Nat.ltb_lt; lia).
      assert (byte_is (x ++ 34%N :: a ++ z :: 34%N :: q) (blen x + S (blen a) + 1) quote_char = false) as ->; [|reflexivity].
      unfold byte_is. pose proof (split_inside (x ++ 34%N :: a) (34%N :: q) z 1) as X. rewrite <- app_assoc in X. cbn [app] in X.
      rewrite blen_app in X. cbn [blen] in X. change (utf8_len 34%N) with 1 in X.
      change (S (blen a)) with (1 + blen a).
      match type of X with _ -> _ -> ?l = _ => match goal with |- context [split_byte ?c ?i] => change (split_byte c i) with l end end.
      rewrite X; [reflexivity| |lia]. pose proof (wide_len z Hz). lia.
  Qed.

  Lemma gap_ends : forall g (r : str), Gap g -> g <> [] -> ends_word (g ++ r).
  Proof.
    intros g r [|c g' Hc _ _|t g' _ _] H; [congruence|now left|right].
    change (lit ";;" ++ t ++ 10%N :: g') with (chr ";" :: chr ";" :: t ++ 10%N :: g'). apply special_iff. reflexivity.
  Qed.

  (** what the calls of a macro make of a failing rest *)
  Lemma calls_lead : forall cs rest, Forall fine cs ->
    exists g pre, Gap g /\ g <> [] /\ 10%N :: flat_map entry cs ++ lit "  " ++ rest = g ++ pre ++ rest /\ Leads pre rest.
  Proof.
    intros cs rest F. induction F as [|c cs F _ (g & pre & G & NE & E & L)].
    - exists ([10%N] ++ lit "  "), []. repeat split; [apply Gap_app; [apply Gap_lf|apply Gap_two]|discriminate|constructor].
    - exists ([10%N] ++ lit "  "), (call c ++ g ++ pre). split; [apply Gap_app; [apply Gap_lf|apply Gap_two]|].
      split; [discriminate|]. split.
      + cbn [flat_map]. rewrite entry_call. rewrite <- !app_assoc.
        change ([10%N] ++ flat_map entry cs ++ lit "  " ++ rest) with (10%N :: flat_map entry cs ++ lit "  " ++ rest).
        rewrite E. reflexivity.
      + eapply L_cons; [now apply call_written|exact G| |exact L]. left. now apply gap_ends.
  Qed.

  (** the code of a macro one of whose commands ends in a character that is not ASCII *)
  Lemma core_fails : forall name cs a z cs2 q, Name unum name -> Forall fine cs ->
    ~ ascii z -> ~ In 34%N (a ++ [z]) ->
    Fails (core name (cs ++ (a ++ [z]) :: cs2) ++ q).
  Proof.
    intros name cs a z cs2 q N F Z Q.
    set (c := a ++ [z]).
    assert (TW : twice c = twice a ++ [z]).
    { unfold c, twice. rewrite flat_map_app. cbn [flat_map]. destruct (N.eqb_spec z 92) as [->|_]; [|now rewrite app_nil_r].
      exfalso. apply Z. reflexivity. }
    set (rest := lit "(sh " ++ 34%N :: escape c ++ 34%N :: lit ")" ++ 10%N :: flat_map entry cs2 ++ 10%N :: lit ")" ++ q).
    assert (R : Fails rest).
    { unfold rest. unfold c in Q |- *. rewrite escape_no_quote by exact Q. fold c. rewrite TW.
      set (q' := lit ")" ++ 10%N :: flat_map entry cs2 ++ 10%N :: lit ")" ++ q).
      assert (E : lit "(sh " ++ 34%N :: (twice a ++ [z]) ++ 34%N :: q' =
                  chr "(" :: [] ++ (lit "sh" ++ lit " " ++ []) ++ (34%N :: twice a ++ z :: 34%N :: q')).
      { change (lit "(sh ") with (chr "(" :: lit "sh" ++ lit " "). flat. }
      rewrite E. apply list_fails; [constructor| |].
      - eapply L_cons; [constructor; exact Name_sh|apply Gap_blank| |constructor]. left. now left.
      - apply string_fails; [exact Z|]. rewrite <- TW. now apply twice_no_quote. }
    destruct (calls_lead cs rest F) as (g & pre & G & NE & E & L).
    assert (K : core name (cs ++ c :: cs2) ++ q =
                chr "(" :: [] ++ (lit "defun" ++ lit " " ++ (name ++ lit " " ++ (lit "()" ++ g ++ pre))) ++ rest).
    { unfold core. rewrite flat_map_app. cbn [flat_map].
      change (lit "(defun ") with (chr "(" :: lit "defun" ++ lit " "). change (lit " ()") with (lit " " ++ lit "()").
      flat. do 6 f_equal.
      match type of E with ?l = _ => transitivity l; [|rewrite E; flat] end. cbn [app]. f_equal. flat. f_equal.
      rewrite entry_call. unfold call, rest. flat. }
    rewrite K. apply list_fails; [constructor| |exact R].
    eapply L_cons; [constructor; exact Name_defun|apply Gap_blank|left; now left|].
    eapply L_cons; [now constructor|apply Gap_blank|left; now left|].
    eapply L_cons; [exact (W_list unum [] [] [] G_nil (I_nil unum))|exact G|left; now apply gap_ends|exact L].
  Qed.

  (** C177 is false of a command that ends in a character that is not ASCII: the macro is not
      read at all *)
  Theorem C177_accent_refuted : forall name cs a z cs2, Name unum name -> Forall fine cs ->
    ~ ascii z -> ~ In 34%N (a ++ [z]) ->
    first unum (generate name (cs ++ (a ++ [z]) :: cs2)) = Some Bad.
  Proof.
    intros name cs a z cs2 N F Z Q. rewrite generate_core.
    destruct (core_fails name cs a z cs2 [10%N] N F Z Q) as [St H].
    set (t := core name (cs ++ (a ++ [z]) :: cs2) ++ [10%N]) in *. unfold first.
    assert (K : skip_gap (10%N :: t) 0 = blen [10%N]).
    { change (10%N :: t) with ([] ++ [10%N] ++ t). change 0 with (blen []). rewrite skip_gap_app; [reflexivity|apply Gap_lf|].
      rewrite <- (app_nil_r t). now apply starts_no_gap. }
    rewrite K. change (10%N :: t) with ([10%N] ++ t). rewrite H; [reflexivity|].
    unfold enough. rewrite blen_app. lia.
  Qed.

  (** ** The configuration *)
  Lemma items_lead : forall l s, Items unum l s -> forall rest g, Gap g -> g <> [] ->
    l = [] \/ exists t, s ++ g = t /\ Leads t rest.
  Proof.
    intros l s It rest g0 G0 NE. induction It as [|v s g W G|v s g l t W G C It IH].
    - now left.
    - right. eexists. split; [reflexivity|]. rewrite <- app_assoc. rewrite <- (app_nil_r (g ++ g0)).
      eapply L_cons; [exact W|now apply Gap_app| |constructor]. left. rewrite <- app_assoc.
      destruct g as [|c g]; [cbn [app]; now apply (gap_ends g0)|]. now apply (gap_ends (c :: g)).
    - right. eexists. split; [reflexivity|]. destruct IH as [->|(t' & E & L)].
      + inversion It; subst. rewrite app_nil_r. rewrite <- app_assoc. rewrite <- (app_nil_r (g ++ g0)).
        eapply L_cons; [exact W|now apply Gap_app| |constructor]. left. rewrite <- app_assoc.
        destruct g as [|c g]; [cbn [app]; now apply (gap_ends g0)|]. now apply (gap_ends (c :: g)).
      + rewrite <- !app_assoc, E. eapply L_cons; [exact W|exact G| |exact L].
        destruct g as [|c g]; [|left; now apply (gap_ends (c :: g))].
        destruct (C eq_refl) as [Cl|(c & r & -> & I)]; [now right|left].
        assert (B : Break c) by (right; vm_compute in I |- *; intuition).
        rewrite <- E. cbn [app]. exact B.
  Qed.

  Lemma items_snoc : forall l s, Items unum l s -> forall v t g1 g2,
    Writes unum v t -> Gap g1 -> g1 <> [] -> Gap g2 ->
    exists g s', Gap g /\ s ++ g1 ++ t ++ g2 = g ++ s' /\ Items unum (l ++ [v]) s' /\ (l <> [] -> g = []).
  Proof.
    induction 1 as [|v0 s g W G|v0 s g l t0 W G C It IH]; intros v t g1 g2 Wv G1 NE G2.
    - exists g1, (t ++ g2). repeat split; [exact G1|now apply I_last|congruence].
    - exists [], (s ++ (g ++ g1) ++ (t ++ g2)). split; [constructor|]. split; [flat|]. split; [|reflexivity].
      cbn [app]. apply I_cons; [exact W|now apply Gap_app| |now apply I_last].
      intro E. apply app_eq_nil in E as [_ E]. congruence.
    - destruct (IH v t g1 g2 Wv G1 NE G2) as (h & s' & Gh & E & It' & H).
      exists [], (s ++ (g ++ h) ++ s'). split; [constructor|]. split.
      { cbn [app]. rewrite <- !app_assoc. rewrite E. reflexivity. }
      split; [|reflexivity]. cbn [app]. apply I_cons; [exact W|now apply Gap_app| |exact It'].
      intro Z. apply app_eq_nil in Z as [Z1 Z2]. destruct (C Z1) as [Cl|(c & r & -> & I)]; [now left|right].
      subst h. cbn [app] in E. exists c. subst s'. eexists. split; [reflexivity|exact I].
  Qed.

  Lemma trim_config : forall (c : char) (r t : str) (d : char),
    is_whitespace c = false -> is_whitespace d = false ->
    trim ((c :: r) ++ (10%N :: (t ++ [d]) ++ [10%N]) ++ [10%N]) = (c :: r) ++ 10%N :: t ++ [d].
  Proof.
    intros c r t d C D.
    set (m := r ++ 10%N :: t).
    replace ((c :: r) ++ (10%N :: (t ++ [d]) ++ [10%N]) ++ [10%N]) with (c :: m ++ [d; 10%N; 10%N]) by (unfold m; flat).
    replace ((c :: r) ++ 10%N :: t ++ [d]) with (c :: m ++ [d]) by (unfold m; flat).
    unfold trim, trim_end. cbn [trim_start]. rewrite C.
    change (c :: m ++ [d; 10%N; 10%N]) with ((c :: m) ++ [d; 10%N; 10%N]).
    rewrite rev_app_distr. change (rev [d; 10%N; 10%N] ++ rev (c :: m)) with (10%N :: 10%N :: d :: rev (c :: m)).
    cbn [trim_start]. change (is_whitespace 10%N) with true. cbn iota. rewrite D.
    change (rev (d :: rev (c :: m))) with (rev (rev (c :: m)) ++ [d]). now rewrite rev_involutive.
  Qed.

  Lemma core_end : forall name cs, exists t, core name cs = t ++ [chr ")"].
  Proof.
    intros name cs. unfold core. exists (lit "(defun " ++ name ++ lit " ()" ++ 10%N :: flat_map entry cs ++ [10%N]).
    flat.
  Qed.

  (** [config] holds the expressions [vs], and begins with one of them or a comment *)
  Definition Holds (vs : list value) (config : str) : Prop :=
    (exists c r, config = c :: r /\ is_whitespace c = false) /\
    exists g s, config = g ++ s /\ Gap g /\ Items unum vs s.

  Lemma recorded : forall config typed cs, cs <> [] -> trim typed <> [] ->
    record config typed cs = Some (generate (trim typed) cs, config ++ generate (trim typed) cs ++ [10%N]).
  Proof.
    intros config typed cs C T. unfold record. destruct cs; [congruence|]. now destruct (trim typed).
  Qed.

  Lemma read_at_start : forall vs config name cs, Holds vs config ->
    trim (config ++ generate name cs ++ [10%N]) = config ++ 10%N :: core name cs.
  Proof.
    intros vs config name cs [(c & r & -> & C) _]. rewrite generate_core.
    destruct (core_end name cs) as [t ->]. now apply trim_config.
  Qed.

  (** C178: after a macro of fine commands was recorded, config.lisp is read as before, with
      the macro behind all that it held *)
  Theorem C178_configuration_is_kept_partial : forall vs config typed cs code config',
    Holds vs config -> Name unum (trim typed) -> Forall fine cs -> cs <> [] ->
    record config typed cs = Some (code, config') ->
    exists j, start_reading unum config' =
      Some (Good (VList (VSymbol (lit "begin") :: vs ++ [macro (trim typed) (map twice cs)])) j).
  Proof.
    intros vs config typed cs code config' H N F NE R.
    assert (TN : trim typed <> []).
    { intro E. rewrite E in N. destruct N as ((a & z & X & _) & _). now destruct a. }
    rewrite recorded in R by assumption.
    assert (RA : trim config' = config ++ 10%N :: core (trim typed) cs).
    { rewrite <- (read_at_start vs config (trim typed) cs H). congruence. }
    clear R. unfold start_reading. rewrite RA. clear RA. destruct H as [_ (g & s & -> & G & It)].
    destruct (items_snoc vs s It _ _ [10%N] [10%N] (core_written (trim typed) cs N F) Gap_lf (fun X => ltac:(discriminate X)) Gap_lf)
      as (h & s' & Gh & E & It' & _).
    eexists. apply (C81_configuration_is_read unum (vs ++ [macro (trim typed) (map twice cs)]) _ (g ++ h) s').
    - rewrite <- (app_assoc g h s'), <- E. flat.
    - now apply Gap_app.
    - exact It'.
  Qed.

  (** C178 is false of a command that ends in a character that is not ASCII: once it is recorded
      in a macro, nothing of config.lisp is read any more *)
  Theorem C178_configuration_lost_refuted : forall vs config typed cs a z cs2 code config',
    Holds vs config -> Name unum (trim typed) -> Forall fine cs ->
    ~ ascii z -> ~ In 34%N (a ++ [z]) ->
    record config typed (cs ++ (a ++ [z]) :: cs2) = Some (code, config') ->
    start_reading unum config' = Some Bad.
  Proof.
    intros vs config typed cs a z cs2 code config' H N F Z Q R.
    assert (TN : trim typed <> []).
    { intro E. rewrite E in N. destruct N as ((a1 & z1 & X & _) & _). now destruct a1. }
    rewrite recorded in R by (assumption || (intro X; apply app_eq_nil in X as [_ X]; discriminate)).
    assert (RA : trim config' = config ++ 10%N :: core (trim typed) (cs ++ (a ++ [z]) :: cs2)).
    { rewrite <- (read_at_start vs config (trim typed) (cs ++ (a ++ [z]) :: cs2) H). congruence. }
    clear R. unfold start_reading. rewrite RA. clear RA. destruct H as [_ (g & s & -> & G & It)].
    set (k := core (trim typed) (cs ++ (a ++ [z]) :: cs2)).
    pose proof (core_fails (trim typed) cs a z cs2 (10%N :: lit ")") N F Z Q) as K. fold k in K.
    set (rest := k ++ 10%N :: lit ")") in *.
    assert (W : exists g' pre, Gap g' /\ Leads pre rest /\
                wrapped ((g ++ s) ++ 10%N :: k) = chr "(" :: g' ++ pre ++ rest).
    { assert (E : wrapped ((g ++ s) ++ 10%N :: k) = chr "(" :: lit "begin" ++ ((lit " " ++ g) ++ s ++ [10%N]) ++ rest).
      { unfold wrapped, rest. change (lit "(begin ") with (chr "(" :: lit "begin" ++ lit " "). flat. }
      assert (Gb : Gap (lit " " ++ g)) by (apply Gap_app; [apply Gap_blank|exact G]).
      exists []. destruct (items_lead vs s It rest [10%N] Gap_lf (fun X => ltac:(discriminate X))) as [->|(t & Et & L)].
      - inversion It; subst. exists (lit "begin" ++ ((lit " " ++ g) ++ [10%N]) ++ []). split; [constructor|]. split.
        + eapply L_cons; [constructor; exact (Name_begin unum)|apply Gap_app; [exact Gb|apply Gap_lf]| |constructor].
          left. now left.
        + rewrite E. flat.
      - exists (lit "begin" ++ (lit " " ++ g) ++ t). split; [constructor|]. split.
        + eapply L_cons; [constructor; exact (Name_begin unum)|exact Gb| |exact L]. left. now left.
        + rewrite E, Et. flat. }
    destruct W as (g' & pre & G' & L & E). rewrite E.
    destruct (list_fails g' pre rest G' L K) as [St X]. unfold first.
    set (t := chr "(" :: g' ++ pre ++ rest) in *.
    assert (Sk : skip_gap t 0 = 0).
    { change t with ([] ++ [] ++ t) at 1. change 0 with (blen []) at 1. rewrite skip_gap_app; [reflexivity|constructor|].
      rewrite <- (app_nil_r t). now apply starts_no_gap. }
    rewrite Sk. specialize (X [] (enough t)). cbn [app blen] in X. rewrite X; [reflexivity|]. unfold enough. lia.
  Qed.
End Reading.

(** ** The hypotheses can be met *)
Section Examples.
  Let no : char -> bool := fun _ => false.

  Lemma lit_ascii : forall s, s <> [] -> forallb (fun c => c <? 128)%N s = true -> last_ascii s.
  Proof.
    intros s H A. destruct (split_last s H) as (a & z & ->). exists a, z. split; [reflexivity|].
    rewrite forallb_app in A. apply andb_true_iff in A as [_ A]. cbn in A. rewrite andb_true_r in A. now apply N.ltb_lt in A.
  Qed.

  Example fine_hyp : Forall (fun c => last_ascii c /\ ~ In 34%N c /\ ~ In 92%N c) [lit "git pull"; lit "make 'a b'"] /\
    Name no (lit "up").
  Proof.
    split.
    - repeat constructor; try (apply lit_ascii; [discriminate|reflexivity]);
        rewrite <- mem_char_iff; vm_compute; discriminate.
    - apply name_of_letters; [discriminate| |vm_compute; intuition discriminate].
      apply Forall_forall. intros c I. vm_compute in I. destruct I as [<-|[<-|[]]]; lia.
  Qed.

  Example read_back : exists j, first no (generate (lit "up") [lit "git pull"; lit "make 'a b'"]) =
    Some (Good (macro (lit "up") [lit "git pull"; lit "make 'a b'"]) j).
  Proof. eexists. vm_compute. reflexivity. Qed.

  (** echo a\b: the macro runs echo a\\b *)
  Example doubled : exists j, first no (generate (lit "m") [lit "echo a\b"]) =
    Some (Good (macro (lit "m") [lit "echo a\\b"]) j).
  Proof. eexists. vm_compute. reflexivity. Qed.

  (** one quote in the command: nothing of the configuration is read any more *)
  Let say : str := lit "echo it" ++ [34%N].
  Example one_quote : option_map (fun p => start_reading no (snd p))
      (record (lit "(setq a 1)") (lit " m ") [say]) = Some (Some Bad).
  Proof. vm_compute. reflexivity. Qed.

  (** two quotes: the macro is another one *)
  Let say2 : str := lit "echo " ++ 34%N :: lit "it" ++ [34%N].
  Example two_quotes : exists j, first no (generate (lit "m") [say2]) =
    Some (Good (VList [VSymbol (lit "defun"); VSymbol (lit "m"); VList [];
                       VList [VSymbol (lit "sh"); VString (lit "echo \"); VSymbol (lit "it\" ++ [34; 34]%N)]]) j).
  Proof. eexists. vm_compute. reflexivity. Qed.

  Example holds_hyp : Holds no [VList [VSymbol (lit "a")]] (lit "(a)").
  Proof.
    split; [exists (chr "("), (lit "a)"); now split|].
    exists [], (lit "(a)"). split; [reflexivity|]. split; [constructor|].
    change (lit "(a)") with ((chr "(" :: [] ++ (lit "a" ++ []) ++ [chr ")"]) ++ []).
    apply I_last; [|constructor]. apply W_list; [constructor|]. apply I_last; [|constructor]. constructor.
    apply name_of_letters; [discriminate| |vm_compute; intuition discriminate].
    apply Forall_forall. intros c I. vm_compute in I. destruct I as [<-|[]]; lia.
  Qed.

  (** ls caf(e with an accent) *)
  Let cafe : str := lit "ls caf" ++ [233%N].
  Example accent_hyp : ~ ascii 233%N /\ ~ In 34%N cafe /\
    option_map (fun p => start_reading no (snd p)) (record (lit "(a)") (lit "m") [cafe]) = Some (Some Bad).
  Proof.
    split; [unfold ascii; lia|]. split; [|vm_compute; reflexivity].
    rewrite <- mem_char_iff. vm_compute. discriminate.
  Qed.
End Examples.

Print Assumptions C177_macro_runs_the_commands_partial.
Print Assumptions C177_backslash_refuted.
Print Assumptions C177_quote_refuted.
Print Assumptions C177_accent_refuted.
Print Assumptions C178_configuration_is_kept_partial.
Print Assumptions C178_configuration_lost_refuted.
