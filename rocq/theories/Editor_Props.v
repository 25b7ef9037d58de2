(** Property theorems about the line editor: C01 - C04, C42, C43.
    [cw] (the display width of a character) is arbitrary throughout. *)
From Verif Require Import Base Editor_Model Editor_Spec Editor_Proofs.

(** C01: every edit history behaves like the pair (text before the cursor, text
    after it) of Editor_Spec; the calls' return values agree too, and so do the
    read accessors. *)
Theorem C01_editor_is_text_with_cursor :
  forall (cw : char -> nat) (os : list op),
  let (z, outs) := s_run cw (Zip [] []) os in
  exists e, run cw new os = Some (e, outs)
    /\ as_str e = before z ++ after z
    /\ cursor e = length (before z)
    /\ len e = length (as_str e)
    /\ (forall i, char_at e i = Some (nth_error (as_str e) i))
    /\ split_current_pos e =
         Some (match after z with [] => None | a => Some (before z, a) end).
Proof.
  intros cw os. pose proof (run_ok cw os (Zip [] [])) as H.
  destruct (s_run cw (Zip [] []) os) as [z outs].
  exists (ed_of cw z). repeat split.
  - exact H.
  - apply len_ed_of.
  - intros i. apply char_at_ok.
  - apply split_current_pos_ok.
Qed.
Print Assumptions C01_editor_is_text_with_cursor.

(** a history with 1-, 2-, 3- and 4-byte characters *)
Definition demo_ops : list op :=
  [OInsertStr [233; 98; 32; 26085; 26412; 128512]%N; OMoveBy (-2); OBackspace; OInsert 120%N;
   OMoveWordLeft; ODeleteChar; OReplaceRange 1 2 (lit "QQ"); OMoveToEnd; OReplaceWord (lit "z w");
   OClick 3; ODeleteToBeginning].
Example C01_example :
  exists e, run (fun c => if (c <? 128)%N then 1 else 2) new demo_ops
    = Some (e, [true; true; true; true; true; true; true; true; true; true; true])
  /\ as_str e = [81; 32; 122; 32; 119]%N /\ cursor e = 0.
Proof. eexists. vm_compute. repeat split; reflexivity. Qed.

(** C02: no edit history panics, the cursor stays inside the text, the byte
    offset used for slicing is a character boundary (the text splits there into
    the characters left and right of the cursor), and the cached width is exact. *)
Theorem C02_editor_never_panics :
  forall (cw : char -> nat) (os : list op),
  exists e outs, run cw new os = Some (e, outs)
    /\ cursor e <= length (as_str e)
    /\ (exists b, byte_index e = Some b
          /\ split_byte (as_str e) b
             = Some (firstn (cursor e) (as_str e), skipn (cursor e) (as_str e)))
    /\ display_width e = list_sum (map cw (as_str e))
    /\ (forall columns pw, exists p, cursor_pos cw e columns pw = Some p)
    /\ (exists w, get_current_word_for_abbr e = Some w).
Proof.
  intros cw os. destruct (run_total cw os) as (e & outs & H). exists e, outs.
  destruct (reachable_ed_of cw os e outs H) as [z ->].
  split; [exact H|]. split; [apply before_le_whole|]. split; [|split; [|split]].
  - exists (blen (before z)). split; [apply byte_index_ed_of|].
    unfold as_str, cursor, ed_of; simpl. unfold whole.
    rewrite firstn_app, skipn_app, Nat.sub_diag, firstn_all, skipn_all. simpl.
    rewrite app_nil_r. apply split_byte_app.
  - apply sw_list_sum.
  - intros columns pw. eexists. apply cursor_pos_ok.
  - eexists. apply get_word_ok.
Qed.
Print Assumptions C02_editor_never_panics.
Example C02_example :
  exists e, run (fun _ => 2) new (removelast demo_ops) = Some (e, repeat true 10)
  /\ cursor e <> 0 /\ byte_index e <> Some (cursor e).
Proof. eexists. vm_compute. repeat split; discriminate. Qed.

(** C03: in every reachable state the text around the cursor decomposes into
    [pre ++ w ++ sp] before and [w' ++ sp' ++ rest] after it, where [sp], [sp']
    are blanks, [w], [w'] are words, [pre] is empty or ends in a blank, [rest] is
    empty or starts a word; move_word_left goes to the end of [pre],
    delete_word_backward removes exactly [w ++ sp], move_word_right goes to the
    start of [rest]. *)
Theorem C03_word_motions :
  forall (cw : char -> nat) (os : list op) e outs,
  run cw new os = Some (e, outs) ->
  exists pre w sp w' sp' rest,
    as_str e = (pre ++ w ++ sp) ++ (w' ++ sp' ++ rest)
    /\ cursor e = length (pre ++ w ++ sp)
    /\ Forall (fun c => is_whitespace c = true) (sp ++ sp')
    /\ Forall (fun c => is_whitespace c = false) (w ++ w')
    /\ (pre = [] \/ exists t c, pre = t ++ [c] /\ is_whitespace c = true)
    /\ (w = [] -> pre = [])
    /\ (rest = [] \/ exists c t, rest = c :: t /\ is_whitespace c = false)
    /\ (sp' = [] -> rest = [] \/ w' = [])
    /\ (exists e1, move_word_left e = Some e1 /\ as_str e1 = as_str e /\ cursor e1 = length pre)
    /\ (exists e2, delete_word_backward cw e = Some e2
          /\ as_str e2 = pre ++ w' ++ sp' ++ rest /\ cursor e2 = length pre)
    /\ as_str (move_word_right e) = as_str e
    /\ cursor (move_word_right e) = cursor e + length (w' ++ sp').
Proof.
  intros cw os e outs H. destruct (reachable_ed_of cw os e outs H) as [z ->].
  destruct (word_split (before z)) as (w & sp & Hb & Hsp & Hw & Hpre & Hwe).
  set (w' := take_while nonblank (after z)).
  set (sp' := take_while blank (drop_while nonblank (after z))).
  set (rest := drop_while blank (drop_while nonblank (after z))).
  assert (Ha : after z = w' ++ sp' ++ rest).
  { unfold w', sp', rest. rewrite <- drop_take. apply drop_take. }
  exists (before_word (before z)), w, sp, w', sp', rest.
  rewrite <- Hb, <- Ha.
  split; [reflexivity|]. split; [reflexivity|].
  split; [apply Forall_app; split; [exact Hsp | apply take_while_Forall]|].
  split.
  { apply Forall_app; split; [exact Hw|]. eapply Forall_impl; [|apply take_while_Forall].
    intros c. unfold nonblank. rewrite negb_true_iff. auto. }
  split; [exact Hpre|]. split; [exact Hwe|].
  split.
  { unfold rest. destruct (drop_while_hd blank (drop_while nonblank (after z))) as [->|(c & t & -> & Hc)];
      [left; reflexivity | right; eauto]. }
  split.
  { intros Hsp'. left. unfold rest, sp' in *.
    destruct (drop_while_hd nonblank (after z)) as [E|(c & t & E & Hc)].
    - rewrite E. reflexivity.
    - exfalso. rewrite E in Hsp'. simpl in Hsp'. unfold nonblank in Hc. rewrite negb_false_iff in Hc.
      unfold blank in Hsp'. rewrite Hc in Hsp'. discriminate. }
  split.
  { eexists. split; [apply move_word_left_ok|]. unfold s_word_left.
    rewrite <- (goto_ed cw).
    - split; reflexivity.
    - pose proof (before_word_le (before z)). pose proof (before_le_whole z). lia. }
  split.
  { eexists. split; [apply delete_word_backward_ok|]. split; reflexivity. }
  rewrite move_word_right_ok. unfold s_word_right. fold w' sp'.
  rewrite <- (goto_ed cw).
  - split; [reflexivity|]. simpl. rewrite app_length. lia.
  - unfold whole. rewrite app_length, Ha, !app_length. lia.
Qed.
Print Assumptions C03_word_motions.
Example C03_example :
  exists e outs, run (fun _ => 1) new [OInsertStr (lit "git  commit  -m x"); OMoveBy (-5)] = Some (e, outs)
  /\ exists e2, delete_word_backward (fun _ => 1) e = Some e2 /\ as_str e2 = lit "git   -m x".
Proof. do 2 eexists; split; [vm_compute; reflexivity|]. vm_compute. repeat eexists. Qed.

(** C04: with [w] the longest run of abbreviation characters that ends at the
    cursor, replace_current_word replaces exactly [w] and puts the cursor after
    the expansion; without such a word it reports false and changes nothing. *)
Theorem C04_abbreviation_replaces_only_word :
  forall (cw : char -> nat) (os : list op) e outs (expansion : str),
  run cw new os = Some (e, outs) ->
  exists pre w post,
    as_str e = pre ++ w ++ post
    /\ cursor e = length (pre ++ w)
    /\ Forall (fun c => abbr_char c = true) w
    /\ (pre = [] \/ exists t c, pre = t ++ [c] /\ abbr_char c = false)
    /\ get_current_word_for_abbr e = Some (match w with [] => None | _ => Some w end)
    /\ exists e', replace_current_word cw e expansion
                  = Some (e', match w with [] => false | _ => true end)
        /\ (w = [] -> e' = e)
        /\ (w <> [] -> as_str e' = pre ++ expansion ++ post
                       /\ cursor e' = length (pre ++ expansion)).
Proof.
  intros cw os e outs x H. destruct (reachable_ed_of cw os e outs H) as [z ->].
  pose proof (strip_suffix_split abbr_char (before z)) as Hb.
  exists (strip_suffix abbr_char (before z)), (suffix_while abbr_char (before z)), (after z).
  rewrite app_assoc, <- Hb.
  split; [reflexivity|]. split; [reflexivity|]. split; [apply suffix_while_all|].
  split; [apply strip_suffix_last|].
  rewrite get_word_ok, replace_word_ok. unfold s_replace_word.
  destruct (suffix_while abbr_char (before z)) as [|c w].
  - split; [reflexivity|]. eexists. split; [reflexivity|]. split; [reflexivity | congruence].
  - split; [reflexivity|]. eexists. split; [reflexivity|]. split; [discriminate|].
    intros _. unfold as_str, cursor, ed_of, whole. simpl. rewrite <- app_assoc. split; reflexivity.
Qed.
Print Assumptions C04_abbreviation_replaces_only_word.
Example C04_example :
  exists e outs, run (fun _ => 1) new [OInsertStr (lit "ls|gs --all"); OMoveBy (-6)] = Some (e, outs)
  /\ exists e', replace_current_word (fun _ => 1) e (lit "git status") = Some (e', true)
     /\ as_str e' = lit "ls|git status --all" /\ cursor e' = 13.
Proof. do 2 eexists; split; [vm_compute; reflexivity|]. vm_compute. repeat eexists. Qed.

(** C42: the visual line of the cursor is one of the lines the renderer counts,
    for every cursor position and terminal width, and the column fits the
    terminal whenever the prompt and every character do. *)
Theorem C42_cursor_within_rendered_lines :
  forall (cw : char -> nat) (os : list op) e outs columns prompt_width col line,
  run cw new os = Some (e, outs) ->
  cursor_pos cw e columns prompt_width = Some (col, line) ->
  line < line_count cw e columns prompt_width
  /\ (0 < columns -> prompt_width <= columns -> (forall c, In c (as_str e) -> cw c <= columns) ->
      col <= columns)
  /\ (columns = 0 -> ~ In 10%N (as_str e) ->
      line = 0 /\ col = prompt_width + list_sum (map cw (firstn (cursor e) (as_str e)))).
Proof.
  intros cw os e outs columns pw col line H Hp. destruct (reachable_ed_of cw os e outs H) as [z ->].
  split; [eapply cursor_line_lt; exact Hp|]. rewrite cursor_pos_ok in Hp. injection Hp as E.
  split.
  - intros H0 Hpw Hc.
    pose proof (wrap_col cw columns (before z) pw 0 H0 Hpw) as Hw. rewrite E in Hw. apply Hw.
    intros c Hin. apply Hc. unfold as_str, ed_of, whole. simpl. apply in_or_app. left. exact Hin.
  - intros -> Hnl.
    assert (Hf : firstn (cursor (ed_of cw z)) (as_str (ed_of cw z)) = before z).
    { unfold cursor, as_str, ed_of, whole. simpl. rewrite firstn_app, Nat.sub_diag, firstn_all.
      simpl. apply app_nil_r. }
    rewrite Hf. assert (Hnb : ~ In 10%N (before z)).
    { intros Hin. apply Hnl. unfold as_str, ed_of, whole. simpl. apply in_or_app. left. exact Hin. }
    rewrite wrap_unbounded in E by exact Hnb. injection E as <- <-. split; reflexivity.
Qed.
Print Assumptions C42_cursor_within_rendered_lines.
Example C42_example :
  exists e outs, run (fun _ => 2) new [OInsertStr (lit "abcdef"); OMoveBy (-1)] = Some (e, outs)
  /\ cursor_pos (fun _ => 2) e 5 3 = Some (4, 2) /\ line_count (fun _ => 2) e 5 3 = 4.
Proof. do 2 eexists; split; [vm_compute; reflexivity|]. vm_compute. repeat eexists. Qed.

(** C43: a mouse click puts the cursor at a character boundary nearest to the
    clicked column, and changes nothing else. *)
Theorem C43_click_selects_nearest_boundary :
  forall (cw : char -> nat) (os : list op) e outs t,
  run cw new os = Some (e, outs) ->
  exists e', step cw e (OClick t) = Some (e', true)
    /\ as_str e' = as_str e
    /\ cursor e' <= length (as_str e)
    /\ forall j, j <= length (as_str e) ->
         dist t (column cw (as_str e) (cursor e')) <= dist t (column cw (as_str e) j).
Proof.
  intros cw os e outs t H. destruct (reachable_ed_of cw os e outs H) as [z ->].
  eexists. split; [reflexivity|]. split; [reflexivity|]. split.
  - rewrite click_ok. unfold s_click. rewrite <- (goto_ed cw).
    + simpl. etransitivity; [apply filter_length_le|]. rewrite seq_length. unfold as_str. simpl. lia.
    + etransitivity; [apply filter_length_le|]. rewrite seq_length. lia.
  - intros j Hj. apply click_nearest. exact Hj.
Qed.
Print Assumptions C43_click_selects_nearest_boundary.
Example C43_example :
  exists e outs, run (fun _ => 2) new [OInsertStr (lit "abcdef")] = Some (e, outs)
  /\ cursor (set_cursor_from_display_width (fun _ => 2) e 5) = 3.
Proof. do 2 eexists; split; [vm_compute; reflexivity|]. vm_compute. repeat eexists. Qed.
