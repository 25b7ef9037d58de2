(** Secrets and the history: C33. *)
From Verif Require Import Base Secrets_Model Secrets_Spec Secrets_Proofs.

(** ** Names *)
Lemma upper_of_lower a b : lower_char a = lower_char b -> upper_char a = upper_char b.
Proof.
  unfold upper_char, lower_letter. intros H. destruct (lower_char_cases a) as [[A1 A2]|[A1 A2]], (lower_char_cases b) as [[B1 B2]|[B1 B2]]; rewrite A1, B1 in H.
  - rewrite H. reflexivity.
  - destruct (N.leb_spec 97 a), (N.leb_spec a 122), (N.leb_spec 97 b), (N.leb_spec b 122); cbn [andb]; lia.
  - destruct (N.leb_spec 97 a), (N.leb_spec a 122), (N.leb_spec 97 b), (N.leb_spec b 122); cbn [andb]; lia.
  - destruct (N.leb_spec 97 a), (N.leb_spec a 122), (N.leb_spec 97 b), (N.leb_spec b 122); cbn [andb]; try lia.
Qed.
Lemma sensitive_name_key mg n : sensitive_name n -> is_sensitive_key mg n = true.
Proof.
  intros (k & I & a & w & b & -> & E). unfold is_sensitive_key. rewrite !orb_true_iff. left. left. apply existsb_exists. exists k.
  assert (U : map upper_char w = map upper_char k).
  { revert k I E. clear. intros k _. revert k. induction w as [|c w IH]; intros [|d k] E; try discriminate; [reflexivity|]. injection E as E1 E2. cbn. rewrite (upper_of_lower _ _ E1), (IH k E2). reflexivity. }
  assert (K : map upper_char k = k /\ In k default_keywords).
  { cbn [map In] in I. repeat (destruct I as [<-|I]; [split; [reflexivity|unfold default_keywords; cbn [map In]; tauto]|]). destruct I. }
  split; [apply K|]. apply contains_iff. unfold upper. rewrite !map_app, U, (proj1 K). exists (map upper_char a), (map upper_char b). reflexivity.
Qed.

Section P.
Variable uword : char -> bool.
Variable mg : manager.
Notation scan := (scan uword).

(** ** The first stage *)
Definition out1 (x : piece) : str :=
  match x with Plain c => [c] | Found h => if is_sensitive_key mg (h1 h) then h1 h ++ 61%N :: stars else hit_text h end.
Definition stage1 (prev : option char) (s : str) : str := flat_map out1 (scan assignment 0 prev s).
Definition out2 (x : piece) : str := match x with Plain c => [c] | Found h => mask h end.
Lemma stage1_eq s : redact_assignments uword mg s = stage1 None s. Proof. reflexivity. Qed.
Lemma plain_out1 s : flat_map out1 (map Plain s) = s.
Proof. induction s as [|c s IH]; [reflexivity|]. cbn in *. rewrite IH. reflexivity. Qed.
Lemma plain_out2 s : flat_map out2 (map Plain s) = s.
Proof. induction s as [|c s IH]; [reflexivity|]. cbn in *. rewrite IH. reflexivity. Qed.
Lemma blank_word c : is_whitespace c = true -> is_word uword c = false.
Proof.
  intros W. unfold is_word. destruct (blank_not_name uword c W) as (A & _). unfold name_char in A. rewrite A, W. cbn [negb orb]. rewrite andb_false_r. reflexivity.
Qed.
Lemma ends_blank_word s : ends_blank s -> wordb uword (last_of None s) = false.
Proof. intros [->|(c & t & -> & W)]; [reflexivity|]. unfold last_of. rewrite rev_app_distr. cbn. apply blank_word, W. Qed.
Lemma scan_blank_first c w prev : is_whitespace c = true -> scan assignment 0 prev (c :: w) = Plain c :: scan assignment 0 (Some c) w.
Proof.
  intros W. apply scan_miss. rewrite match_assignment. cbn [assign_at]. destruct (blank_not_name uword c W) as (_ & B & _). rewrite B, andb_false_r. reflexivity.
Qed.
Lemma scan_after_blank a w prev : ends_blank a -> scan assignment 0 prev (a ++ w) = scan assignment 0 prev a ++ scan assignment 0 (last_of prev a) w.
Proof.
  intros [->|(c & t & -> & W)]; [reflexivity|]. rewrite <- app_assoc. cbn [app].
  assert (S : forall x, stops nonblank (c :: x)) by (intros x; cbn; unfold nonblank, blank; rewrite W; reflexivity).
  rewrite (scan_split uword t (c :: w) 0 prev), (scan_split uword t [c] 0 prev) by (try lia; apply S). rewrite !scan_blank_first by exact W.
  cbn [Secrets_Model.scan]. rewrite <- app_assoc. cbn [app]. rewrite last_of_app. reflexivity.
Qed.
Lemma scan_blanks b w prev : blanks b -> scan assignment 0 prev (b ++ w) = map Plain b ++ scan assignment 0 (last_of prev b) w.
Proof.
  intros B. revert prev. induction B as [|c b W B IH]; intros prev; [reflexivity|]. cbn [app map]. rewrite scan_blank_first by exact W. rewrite IH, last_of_cons. reflexivity.
Qed.
Lemma assign_shape prev c t h : assign_at uword prev (c :: t) = Some h -> exists n v, h = Hit (c :: n) [61%N] v /\ v <> [] /\ Forall (fun d => name_char d = true) (c :: n).
Proof.
  cbn [assign_at]. destruct (_ && name_start c) eqn:G; [|discriminate]. apply andb_true_iff in G. destruct G as [_ G].
  destruct (snd (span name_char t)) as [|d r]; [discriminate|]. destruct (61 =? d)%N; [|discriminate]. destruct (fst (span nonblank r)) as [|v0 v]; [discriminate|]. intros [= <-].
  do 2 eexists. split; [reflexivity|]. split; [discriminate|]. constructor; [apply name_start_char, G|apply span_all].
Qed.
Lemma stage1_step prev c t : stage1 prev (c :: t) = c :: stage1 (Some c) t \/
  exists n v r p, c :: t = (c :: n) ++ 61%N :: v ++ r /\ v <> [] /\ Forall (fun d => name_char d = true) (c :: n) /\ stops nonblank r /\
    stage1 prev (c :: t) = (if is_sensitive_key mg (c :: n) then (c :: n) ++ 61%N :: stars else (c :: n) ++ 61%N :: v) ++ stage1 p r.
Proof.
  unfold stage1. destruct (assign_at uword prev (c :: t)) as [h|] eqn:A.
  - right. destruct (assign_shape _ _ _ _ A) as (n & v & -> & NV & F). destruct (assign_prefix _ _ _ _ A) as (_ & r & E & S).
    exists n, v, r, (last_of prev (hit_text (Hit (c :: n) [61%N] v))). split; [rewrite E; unfold hit_text; cbn [h1 hmid h2]; rewrite <- !app_assoc; reflexivity|]. split; [exact NV|]. split; [exact F|]. split; [exact S|].
    rewrite E. rewrite scan_hit; [|discriminate|rewrite match_assignment, <- E; exact A]. cbn [flat_map]. reflexivity.
  - left. rewrite scan_miss by (rewrite match_assignment; exact A). reflexivity.
Qed.
Lemma stage1_nil prev : stage1 prev [] = []. Proof. reflexivity. Qed.
Lemma stage1_head prev s : hd_error (stage1 prev s) = hd_error s.
Proof. destruct s as [|c t]; [reflexivity|]. destruct (stage1_step prev c t) as [->|(n & v & r & p & _ & _ & _ & _ & ->)]; [reflexivity|]. destruct (is_sensitive_key mg (c :: n)); reflexivity. Qed.
Lemma stage1_ind (P : str -> str -> Prop) :
  P [] [] -> (forall c t o, P t o -> hd_error o = hd_error t -> P (c :: t) (c :: o)) ->
  (forall n v r o, P r o -> hd_error o = hd_error r -> n <> [] -> v <> [] -> Forall (fun d => name_char d = true) n -> P (n ++ 61%N :: v ++ r) (n ++ 61%N :: stars ++ o) /\ P (n ++ 61%N :: v ++ r) (n ++ 61%N :: v ++ o)) ->
  forall s prev, P s (stage1 prev s).
Proof.
  intros H0 H1 H2 s. remember (length s) as k eqn:K. assert (L : length s <= k) by lia. clear K. revert s L. induction k as [|k IH]; intros s L prev.
  - destruct s; [exact H0|cbn in L; lia].
  - destruct s as [|c t]; [exact H0|]. destruct (stage1_step prev c t) as [->|(n & v & r & p & E & NV & F & _ & ->)].
    + apply H1; [apply IH; cbn in L; lia|apply stage1_head].
    + rewrite E. assert (LR : length r <= k). { apply (f_equal (@length char)) in E. rewrite app_length in E. cbn [length] in E, L. rewrite app_length in E. lia. }
      destruct (H2 (c :: n) v r (stage1 p r)) as [A B]; [apply IH, LR|apply stage1_head|discriminate|exact NV|exact F|].
      destruct (is_sensitive_key mg (c :: n)); rewrite <- app_assoc; [exact A|exact B].
Qed.
Lemma no_option_app x y y' : no_option (x ++ y) -> no_option y' -> hd_error y' = hd_error y -> no_option (x ++ y').
Proof.
  intros N N' H. induction x as [|c x IH]; [exact N'|]. cbn [app no_option] in *. destruct N as [A N]. split; [|exact (IH N)].
  intros E. specialize (A E). destruct x as [|d x]; [|exact A]. cbn [app] in *. destruct y as [|d y]; [destruct A|]. destruct y'; [discriminate|]. injection H as ->. exact A.
Qed.
Lemma no_option_app2 x y : no_option x -> no_option y -> no_option (x ++ y).
Proof.
  intros X Y. induction x as [|c x IH]; [exact Y|]. destruct X as [A X]. cbn [app no_option]. split; [|exact (IH X)]. intros E. specialize (A E). destruct x; [destruct A|exact A].
Qed.
Lemma no_option_tail x y : no_option (x ++ y) -> no_option y.
Proof. induction x as [|c x IH]; [tauto|]. intros [_ H]. exact (IH H). Qed.
Lemma no_dash_option s : ~ In 45%N s -> no_option s.
Proof. induction s as [|c s IH]; intros N; [exact I|]. cbn. split; [intros ->; exfalso; apply N; left; reflexivity|]. apply IH. intros H. apply N. right. exact H. Qed.
Lemma no_option_prefix x y : ~ In 45%N x -> no_option y -> no_option (x ++ y).
Proof.
  intros N Y. induction x as [|c x IH]; [exact Y|]. cbn. split; [intros ->; exfalso; apply N; left; reflexivity|]. apply IH. intros H. apply N. right. exact H.
Qed.
Lemma stage1_no_option s prev : no_option s -> no_option (stage1 prev s).
Proof.
  apply (stage1_ind (fun s o => no_option s -> no_option o)); [tauto| |].
  - intros c t o IH H [A N]. apply (no_option_app [c] t o); [split; assumption|exact (IH N)|exact H].
  - intros n v r o IH H _ _ F. assert (D : ~ In 45%N n) by (intros I; rewrite Forall_forall in F; specialize (F _ I); discriminate).
    split; intros N.
    + replace (n ++ 61%N :: stars ++ o) with ((n ++ 61%N :: stars) ++ o) by (rewrite <- app_assoc; reflexivity).
      apply no_option_prefix; [|apply IH; replace (n ++ 61%N :: v ++ r) with ((n ++ 61%N :: v) ++ r) in N by (rewrite <- app_assoc; reflexivity); apply no_option_tail in N; exact N].
      rewrite in_app_iff. intros [I|I]; [exact (D I)|]. vm_compute in I. repeat (destruct I as [I|I]; [discriminate|]). destruct I.
    + replace (n ++ 61%N :: v ++ o) with ((n ++ 61%N :: v) ++ o) by (rewrite <- app_assoc; reflexivity).
      replace (n ++ 61%N :: v ++ r) with ((n ++ 61%N :: v) ++ r) in N by (rewrite <- app_assoc; reflexivity).
      apply (no_option_app _ r o N); [|exact H]. apply IH. apply no_option_tail in N. exact N.
Qed.
Lemma stage1_forall (Q : char -> Prop) s prev : Q 42%N -> Forall Q s -> Forall Q (stage1 prev s).
Proof.
  intros QS. apply (stage1_ind (fun s o => Forall Q s -> Forall Q o)); [tauto| |].
  - intros c t o IH _ F. inversion F; subst. constructor; [assumption|apply IH; assumption].
  - intros n v r o IH _ _ _ _. rewrite !Forall_app, !Forall_cons_iff, !Forall_app. split; intros (A & B & C & D); (split; [exact A|]; split; [exact B|]; split; [|exact (IH D)]); [|exact C].
    repeat constructor; exact QS.
Qed.
Lemma stage1_plain v prev : plain_value v -> plain_value (stage1 prev v).
Proof.
  intros [N F]. split; [intros E; pose proof (stage1_head prev v) as H; rewrite E in H; destruct v; [congruence|discriminate]|]. apply stage1_forall; [split; [reflexivity|split; discriminate]|exact F].
Qed.

(** ** Assignments *)
Lemma scan_assignment before pre n v after : ends_blank before -> before_name uword pre -> identifier n -> v <> [] -> no_blank v -> starts_blank after ->
  scan assignment 0 None (before ++ pre ++ n ++ 61%N :: v ++ after) =
  scan assignment 0 None before ++ map Plain pre ++ Found (Hit n [61%N] v) :: scan assignment 0 None after.
Proof.
  intros EB BN IN NV BV SB. rewrite scan_after_blank by exact EB. f_equal.
  replace (pre ++ n ++ 61%N :: v ++ after) with ((pre ++ n ++ 61%N :: v) ++ after) by (rewrite <- !app_assoc; reflexivity).
  apply stops_nonblank in SB. rewrite scan_split by (try lia; exact SB). rewrite (assign_word uword) by (try assumption; left; apply ends_blank_word, EB).
  rewrite <- app_assoc. cbn [app]. f_equal. f_equal. apply scan_blank_prev, SB.
Qed.
End P.

(** The value of a secret variable: a command with [NAME=value] in it is not recorded in skip
    mode, and what redact mode records is the same whatever the value is.  The assignment is a
    word or the end of one ([--NAME=value], [url?NAME=value]) with no earlier equals sign in it,
    and the value has no blanks.  Missing: values with blanks, a second equals sign. *)
Theorem C33_assignment_hidden_partial : forall uword mg before pre n after,
  ends_blank before -> before_name uword pre -> identifier n -> sensitive_name n -> starts_blank after ->
  (mode mg = Skip -> forall v, v <> [] -> no_blank v -> recorded_by_running uword mg (before ++ pre ++ n ++ 61%N :: v ++ after) = None) /\
  (mode mg = Redact -> exists text, forall v, v <> [] -> no_blank v -> recorded_by_running uword mg (before ++ pre ++ n ++ 61%N :: v ++ after) = Some text).
Proof.
  intros uword mg before pre n after EB BN IN SN SB. apply (sensitive_name_key mg) in SN.
  assert (S : forall v, v <> [] -> no_blank v -> is_sensitive_command uword mg (before ++ pre ++ n ++ 61%N :: v ++ after) = true).
  { intros v NV BV. unfold is_sensitive_command. rewrite !orb_true_iff. do 4 left. apply existsb_exists. exists (Hit n [61%N] v). split; [|exact SN].
    unfold pieces. rewrite scan_assignment by assumption. unfold hits. rewrite !flat_map_app, !in_app_iff. right. right. left. reflexivity. }
  unfold recorded_by_running, process_for_history. split; intros M; rewrite M.
  - intros v NV BV. rewrite S by assumption. reflexivity.
  - eexists. intros v NV BV. rewrite S by assumption. unfold redact_command. f_equal. f_equal. f_equal. f_equal.
    rewrite stage1_eq. unfold stage1. rewrite scan_assignment by assumption. rewrite !flat_map_app. cbn [flat_map out1 h1]. rewrite SN. reflexivity.
Qed.

(** ** Options *)
Lemma option_split opt : In opt secret_options -> exists pre n, opt = pre ++ n /\ identifier n /\ (forall uword, before_name uword pre) /\ ~ In 61%N opt.
Proof.
  intros I. unfold secret_options in I. cbn [map In] in I.
  assert (ID : forall c t, (ascii_letter c \/ c = 95%N) -> forallb (fun d => ((65 <=? d) && (d <=? 90) || (97 <=? d) && (d <=? 122) || (48 <=? d) && (d <=? 57) || (d =? 95))%N) t = true -> identifier (c :: t)).
  { intros c t H F. constructor; [exact H|]. apply Forall_forall. intros d D. rewrite forallb_forall in F. specialize (F d D). unfold ascii_letter, ascii_digit.
    rewrite !orb_true_iff, !andb_true_iff, !N.leb_le, N.eqb_eq in F. tauto. }
  assert (IDL : forall w, match lit w with c :: t => ((97 <=? c) && (c <=? 122))%N && forallb (fun d => ((65 <=? d) && (d <=? 90) || (97 <=? d) && (d <=? 122) || (48 <=? d) && (d <=? 57) || (d =? 95))%N) t | [] => false end = true -> identifier (lit w)).
  { intros w H. destruct (lit w) as [|c t]; [discriminate|]. apply andb_true_iff in H. destruct H as [A B]. apply ID; [|exact B]. rewrite andb_true_iff, !N.leb_le in A. left. right. exact A. }
  assert (BN : forall w, forallb (fun c => negb (is_whitespace c) && negb (c =? 61)%N) (lit w) = true -> (exists t, lit w = t ++ [45%N]) -> forall uword, before_name uword (lit w)).
  { intros w F (t & E) uw. split; [|split].
    - apply Forall_forall. intros c C. rewrite forallb_forall in F. specialize (F c C). apply andb_true_iff in F. destruct F as [F _]. apply negb_true_iff in F. exact F.
    - intros C. rewrite forallb_forall in F. specialize (F _ C). discriminate.
    - right. exists 45%N, t. split; [exact E|reflexivity]. }
  assert (G : forall p w o, lit o = lit p ++ lit w -> match lit w with c :: t => ((97 <=? c) && (c <=? 122))%N && forallb (fun d => ((65 <=? d) && (d <=? 90) || (97 <=? d) && (d <=? 122) || (48 <=? d) && (d <=? 57) || (d =? 95))%N) t | [] => false end = true ->
      forallb (fun c => negb (is_whitespace c) && negb (c =? 61)%N) (lit p) = true -> (exists t, lit p = t ++ [45%N]) -> mem_char 61%N (lit o) = false ->
      exists pre n, lit o = pre ++ n /\ identifier n /\ (forall uword, before_name uword pre) /\ ~ In 61%N (lit o)).
  { intros p w o E A B C D. exists (lit p), (lit w). split; [exact E|]. split; [apply IDL, A|]. split; [apply BN; assumption|]. intros H. apply mem_char_iff in H. congruence. }
  repeat (destruct I as [<-|I];
    [first [ (apply (G "--"%string "password"%string); [reflexivity|reflexivity|reflexivity|exists [45%N]; reflexivity|reflexivity])
           | (apply (G "--"%string "passwd"%string); [reflexivity|reflexivity|reflexivity|exists [45%N]; reflexivity|reflexivity])
           | (apply (G "--"%string "passphrase"%string); [reflexivity|reflexivity|reflexivity|exists [45%N]; reflexivity|reflexivity])
           | (apply (G "--"%string "token"%string); [reflexivity|reflexivity|reflexivity|exists [45%N]; reflexivity|reflexivity])
           | (apply (G "--"%string "secret"%string); [reflexivity|reflexivity|reflexivity|exists [45%N]; reflexivity|reflexivity])
           | (apply (G "--"%string "apikey"%string); [reflexivity|reflexivity|reflexivity|exists [45%N]; reflexivity|reflexivity])
           | (apply (G "--api-"%string "key"%string); [reflexivity|reflexivity|reflexivity|exists (lit "--api"); reflexivity|reflexivity])
           | (apply (G "--"%string "api_key"%string); [reflexivity|reflexivity|reflexivity|exists [45%N]; reflexivity|reflexivity])
           | (apply (G "--"%string "accesstoken"%string); [reflexivity|reflexivity|reflexivity|exists [45%N]; reflexivity|reflexivity])
           | (apply (G "--access-"%string "token"%string); [reflexivity|reflexivity|reflexivity|exists (lit "--access"); reflexivity|reflexivity])
           | (apply (G "--"%string "access_token"%string); [reflexivity|reflexivity|reflexivity|exists [45%N]; reflexivity|reflexivity])
           | (apply (G "-"%string "password"%string); [reflexivity|reflexivity|reflexivity|exists []; reflexivity|reflexivity])
           | (apply (G "-"%string "passwd"%string); [reflexivity|reflexivity|reflexivity|exists []; reflexivity|reflexivity])
           | (apply (G "-"%string "passphrase"%string); [reflexivity|reflexivity|reflexivity|exists []; reflexivity|reflexivity])
           | (apply (G "-"%string "token"%string); [reflexivity|reflexivity|reflexivity|exists []; reflexivity|reflexivity])
           | (apply (G "-"%string "secret"%string); [reflexivity|reflexivity|reflexivity|exists []; reflexivity|reflexivity])
           | (apply (G "-"%string "apikey"%string); [reflexivity|reflexivity|reflexivity|exists []; reflexivity|reflexivity])
           | (apply (G "-api-"%string "key"%string); [reflexivity|reflexivity|reflexivity|exists (lit "-api"); reflexivity|reflexivity])
           | (apply (G "-"%string "api_key"%string); [reflexivity|reflexivity|reflexivity|exists []; reflexivity|reflexivity])
           | (apply (G "-"%string "accesstoken"%string); [reflexivity|reflexivity|reflexivity|exists []; reflexivity|reflexivity])
           | (apply (G "-access-"%string "token"%string); [reflexivity|reflexivity|reflexivity|exists (lit "-access"); reflexivity|reflexivity])
           | (apply (G "-"%string "access_token"%string); [reflexivity|reflexivity|reflexivity|exists []; reflexivity|reflexivity]) ] |]).
  destruct I.
Qed.
Section Q.
Variable uword : char -> bool.
Variable mg : manager.
Notation stage1 := (stage1 uword mg).
Lemma stage1_after_blank a w prev : ends_blank a -> stage1 prev (a ++ w) = stage1 prev a ++ stage1 (last_of prev a) w.
Proof. intros H. unfold Secrets_Props.stage1. rewrite scan_after_blank by exact H. apply flat_map_app. Qed.
Lemma stage1_before_blank a w prev : starts_blank w -> stage1 prev (a ++ w) = stage1 prev a ++ stage1 None w.
Proof.
  intros H. apply stops_nonblank in H. unfold Secrets_Props.stage1. rewrite scan_split by (try lia; exact H). rewrite flat_map_app. f_equal. f_equal. apply scan_blank_prev, H.
Qed.
Lemma stage1_no_eq a prev : ~ In 61%N a -> stage1 prev a = a.
Proof. intros H. unfold Secrets_Props.stage1. rewrite assign_no_eq by exact H. apply plain_out1. Qed.
Lemma plain_no_blank v : plain_value v -> no_blank v.
Proof. intros [_ F]. eapply Forall_impl; [|exact F]. intros c H. apply H. Qed.
Lemma starts_blank_stops post : starts_blank post -> stops unquoted post.
Proof. intros [->|(c & t & -> & W)]; [exact I|]. cbn. unfold unquoted, nonblank, blank. rewrite W. reflexivity. Qed.
(** the option stays where it is, and some value follows it *)
Lemma stage1_option pre opt sep v post : ends_blank pre -> carries_secret opt sep -> plain_value v -> starts_blank post ->
  exists V, plain_value V /\ stage1 None (pre ++ opt ++ sep ++ v ++ post) = stage1 None pre ++ opt ++ sep ++ V ++ stage1 None post.
Proof.
  intros EB CS PV SB. assert (EQ : sep = [61%N] /\ In opt secret_options \/ (~ In 61%N opt /\ sep <> [] /\ blanks sep)).
  { destruct CS as [[IO [->|[NS BS]]]|(-> & NS & BS)]; [left; tauto|right|right].
    - destruct (option_split opt IO) as (_ & _ & _ & _ & _ & NE). tauto.
    - split; [|tauto]. intros [H|[H|[]]]; discriminate. }
  destruct EQ as [[-> IO]|(NE & NS & BS)]; [destruct (option_split opt IO) as (p0 & n & EO & IN & BN & _)|].
  - exists (if is_sensitive_key mg n then stars else v). split.
    { destruct (is_sensitive_key mg n); [|exact PV]. split; [discriminate|]. repeat constructor; try discriminate. }
    rewrite EO, <- !app_assoc. transitivity (flat_map (out1 mg) (scan uword assignment 0 None (pre ++ p0 ++ n ++ 61%N :: v ++ post))); [reflexivity|].
    rewrite (scan_assignment uword pre p0 n v post) by (try assumption; solve [apply BN|apply PV|apply plain_no_blank, PV]). rewrite !flat_map_app. rewrite plain_out1. cbn [flat_map out1 h1].
    unfold hit_text. cbn [h1 hmid h2]. destruct (is_sensitive_key mg n); rewrite <- !app_assoc; reflexivity.
  - exists (stage1 (last_of (last_of (last_of None pre) opt) sep) v). split; [apply stage1_plain, PV|].
    rewrite stage1_after_blank by exact EB. f_equal.
    assert (SS : stops nonblank (sep ++ v ++ post)). { destruct sep as [|c sep]; [congruence|]. inversion BS as [|? ? W ?]; subst. cbn. unfold nonblank, blank. rewrite W. reflexivity. }
    transitivity (flat_map (out1 mg) (scan uword assignment 0 (last_of None pre) (opt ++ sep ++ v ++ post))); [reflexivity|]. rewrite scan_split by (try lia; exact SS). rewrite (scan_blanks uword sep) by exact BS. rewrite assign_no_eq by exact NE.
    rewrite !flat_map_app, !plain_out1. f_equal. f_equal. exact (stage1_before_blank v post _ SB).
Qed.
Lemma starts_blank_stage1 post : starts_blank post -> starts_blank (stage1 None post).
Proof.
  intros [->|(c & t & -> & W)]; [left; reflexivity|]. right. pose proof (stage1_head uword mg None (c :: t)) as H. destruct (stage1 None (c :: t)) as [|d u]; [discriminate|]. injection H as ->. eauto.
Qed.
Lemma option_stage pre opt sep v post : no_option pre -> carries_secret opt sep -> plain_value v -> starts_blank post ->
  pieces uword option_secret (pre ++ opt ++ sep ++ v ++ post) = map Plain pre ++ Found (Hit (opt ++ sep) [] v) :: pieces uword option_secret post.
Proof.
  intros NO CS PV SB. unfold pieces. rewrite option_through by exact NO. f_equal.
  replace (opt ++ sep ++ v ++ post) with (hit_text (Hit (opt ++ sep) [] v) ++ post) by (unfold hit_text; cbn [h1 hmid h2 app]; rewrite <- !app_assoc; reflexivity).
  rewrite scan_hit.
  - f_equal. apply scan_no_look. reflexivity.
  - unfold hit_text. cbn [h1 hmid h2 app]. intros E. apply app_eq_nil in E. destruct PV as [NV _]. apply NV, E.
  - unfold hit_text. cbn [h1 hmid h2 app]. rewrite <- !app_assoc. apply option_at; try assumption. apply starts_blank_stops, SB.
Qed.
End Q.
(** The value of a secret option, after blanks or an equals sign: the same two claims.  Missing:
    values with blanks or quotation marks, a secret option before this one. *)
Theorem C33_option_hidden_partial : forall uword mg pre opt sep post,
  ends_blank pre -> no_option pre -> carries_secret opt sep -> starts_blank post ->
  (mode mg = Skip -> forall v, plain_value v -> recorded_by_running uword mg (pre ++ opt ++ sep ++ v ++ post) = None) /\
  (mode mg = Redact -> exists text, forall v, plain_value v -> recorded_by_running uword mg (pre ++ opt ++ sep ++ v ++ post) = Some text).
Proof.
  intros uword mg pre opt sep post EB NO CS SB.
  assert (S : forall v, plain_value v -> is_sensitive_command uword mg (pre ++ opt ++ sep ++ v ++ post) = true).
  { intros v PV. unfold is_sensitive_command. rewrite !orb_true_iff. left. left. right. unfold is_match. rewrite (option_stage uword) by assumption. unfold hits. rewrite flat_map_app. cbn [flat_map]. destruct (flat_map _ (map Plain pre)); reflexivity. }
  unfold recorded_by_running, process_for_history. split; intros M; rewrite M.
  - intros v PV. rewrite S by exact PV. reflexivity.
  - eexists. intros v PV. rewrite S by exact PV. unfold redact_command. f_equal. f_equal. f_equal.
    rewrite stage1_eq. destruct (stage1_option uword mg pre opt sep v post EB CS PV SB) as (V & PVV & ->). unfold replace_all.
    rewrite (option_stage uword) by (try assumption; solve [apply stage1_no_option, NO|apply starts_blank_stage1, SB]). rewrite flat_map_app. cbn [flat_map]. change (mask (Hit (opt ++ sep) [] V)) with ((opt ++ sep) ++ stars). reflexivity.
Qed.

(** ** Headers *)
Lemma alnum_facts v : alphanumeric v -> v <> [] /\ Forall (fun c => bearer_char c = true) v /\ ~ In 61%N v /\ ~ In 45%N v /\ no_blank v.
Proof.
  intros [N F]. assert (A : forall c, ascii_letter c \/ ascii_digit c -> bearer_char c = true /\ c <> 61%N /\ c <> 45%N /\ is_whitespace c = false).
  { intros c H. split; [|split; [|split]].
    - unfold bearer_char, letter_ci, upper_letter, lower_letter, digit. rewrite !orb_true_iff, !andb_true_iff, !N.leb_le. unfold ascii_letter, ascii_digit in H. tauto.
    - intros ->. unfold ascii_letter, ascii_digit in H. lia.
    - intros ->. unfold ascii_letter, ascii_digit in H. lia.
    - destruct (is_whitespace c) eqn:W; [|reflexivity]. exfalso. unfold is_whitespace in W. repeat (rewrite ?orb_true_iff, ?andb_true_iff, ?N.leb_le, ?N.eqb_eq in W). unfold ascii_letter, ascii_digit in H. lia. }
  rewrite Forall_forall in F. split; [exact N|]. split; [apply Forall_forall; intros c I; apply A, F, I|]. split; [intros I; apply F, A in I; tauto|]. split; [intros I; apply F, A in I; tauto|]. apply Forall_forall. intros c I. apply A, F, I.
Qed.
Lemma header_facts h : bearer_header h -> ~ In 61%N h /\ ~ In 45%N h.
Proof.
  intros [a w1 w2 b w3 IA B1 B2 IB _ B3].
  assert (W : forall w, blanks w -> Forall (fun c => c <> 61%N /\ c <> 45%N) w).
  { intros w B. eapply Forall_impl; [|exact B]. intros c W. destruct (blank_not_name (fun _ => false) c W) as (_ & _ & H1 & _ & _ & H2 & _). split; assumption. }
  assert (FA : Forall (fun c => c <> 61%N /\ c <> 45%N) a) by (cbn [map In] in IA; destruct IA as [<-|[<-|[]]]; vm_compute; repeat constructor; discriminate).
  assert (FB : Forall (fun c => c <> 61%N /\ c <> 45%N) b) by (cbn [map In] in IB; destruct IB as [<-|[<-|[]]]; vm_compute; repeat constructor; discriminate).
  assert (F : Forall (fun c => c <> 61%N /\ c <> 45%N) (a ++ w1 ++ 58%N :: w2 ++ b ++ w3)).
  { apply Forall_app. split; [exact FA|]. apply Forall_app. split; [apply W, B1|]. constructor; [split; discriminate|]. apply Forall_app. split; [apply W, B2|]. apply Forall_app. split; [exact FB|apply W, B3]. }
  rewrite Forall_forall in F. split; intros I; apply F in I; tauto.
Qed.
Section R.
Variable uword : char -> bool.
Lemma bearer_stage (pre hdr v post : str) : (forall c, In c pre -> c <> 97%N /\ c <> 65%N) -> bearer_header hdr -> v <> [] -> Forall (fun c => bearer_char c = true) v -> stops bearer_char post ->
  pieces uword auth_bearer (pre ++ hdr ++ v ++ post) = map Plain pre ++ Found (Hit hdr [] v) :: pieces uword auth_bearer post.
Proof.
  intros NP H NV FV SP. unfold pieces. rewrite scan_through.
  - f_equal. change (hdr ++ v ++ post) with (hdr ++ [] ++ v ++ post). replace (hdr ++ [] ++ v ++ post) with (hit_text (Hit hdr [] v) ++ post) by (unfold hit_text; cbn [h1 hmid h2 app]; rewrite <- app_assoc; reflexivity).
    rewrite scan_hit; [f_equal; apply scan_no_look; reflexivity| |].
    + unfold hit_text. cbn [h1 hmid h2 app]. intros E. apply app_eq_nil in E. apply NV, E.
    + unfold hit_text. cbn [h1 hmid h2 app]. rewrite <- app_assoc. apply bearer_at; assumption.
  - intros x c y q E. apply bearer_not_a; apply (NP c); rewrite E; apply in_app_iff; right; left; reflexivity.
Qed.
Lemma query_stage (pre : str) (m : char) (n v post : str) : (forall c, In c pre -> c <> 63%N /\ c <> 38%N) -> m = 63%N \/ m = 38%N -> In n secret_parameters -> v <> [] -> Forall (fun c => query_char c = true) v -> stops query_char post ->
  pieces uword query_secret (pre ++ (m :: n ++ [61%N]) ++ v ++ post) = map Plain pre ++ Found (Hit (m :: n ++ [61%N]) [] v) :: pieces uword query_secret post.
Proof.
  intros NP M IN NV FV SP. unfold pieces. rewrite scan_through.
  - f_equal. replace ((m :: n ++ [61%N]) ++ v ++ post) with (hit_text (Hit (m :: n ++ [61%N]) [] v) ++ post) by (unfold hit_text; cbn [h1 hmid h2]; rewrite <- app_assoc; reflexivity).
    rewrite scan_hit; [f_equal; apply scan_no_look; reflexivity|unfold hit_text; discriminate|]. unfold hit_text. cbn [h1 hmid h2]. rewrite <- app_assoc. apply query_at; assumption.
  - intros x c y q E. apply query_not_mark; apply (NP c); rewrite E; apply in_app_iff; right; left; reflexivity.
Qed.
Lemma redact_bearer (pre hdr v post : str) : (forall c, In c pre -> c <> 97%N /\ c <> 65%N) -> bearer_header hdr -> v <> [] -> Forall (fun c => bearer_char c = true) v -> stops bearer_char post ->
  replace_all uword auth_bearer mask (pre ++ hdr ++ v ++ post) = pre ++ (hdr ++ stars) ++ replace_all uword auth_bearer mask post.
Proof. intros. unfold replace_all. rewrite bearer_stage by assumption. rewrite flat_map_app. apply f_equal2; [exact (plain_out2 pre)|reflexivity]. Qed.
End R.
(** The token of an authorization header: the same two claims, for tokens of letters and digits,
    when no letter a comes before the header. *)
Theorem C33_bearer_hidden_partial : forall uword mg (pre hdr close post : str),
  no_option pre -> ~ In 61%N pre -> (forall c, In c pre -> c <> 97%N /\ c <> 65%N) -> bearer_header hdr ->
  close = [] \/ close = [34%N] \/ close = [39%N] -> starts_blank post ->
  (mode mg = Skip -> forall v, alphanumeric v -> recorded_by_running uword mg (pre ++ hdr ++ v ++ close ++ post) = None) /\
  (mode mg = Redact -> exists text, forall v, alphanumeric v -> recorded_by_running uword mg (pre ++ hdr ++ v ++ close ++ post) = Some text).
Proof.
  intros uword mg pre hdr close post NO NE NA H CL SB. destruct (header_facts hdr H) as [HE HD].
  assert (SC : forall p, starts_blank p -> stops bearer_char (close ++ p)).
  { intros p S. destruct CL as [->|[->| ->]]; try reflexivity. destruct S as [->|(c & t & -> & W)]; [exact I|]. cbn. 
    destruct (blank_not_name uword c W) as (NC & _). unfold bearer_char. unfold name_char in NC. rewrite !orb_false_iff in NC. destruct NC as [[NC1 NC2] _]. rewrite NC1, NC2. cbn [orb].
    destruct (mem_char c (lit "._~+/=-")) eqn:E; [|reflexivity]. apply mem_char_iff in E. vm_compute in E. repeat (destruct E as [<-|E]; [discriminate|]). destruct E. }
  assert (CE : ~ In 61%N close /\ ~ In 45%N close) by (destruct CL as [->|[->| ->]]; split; cbn; intros X; repeat (destruct X as [X|X]; [discriminate|]); exact X).
  assert (S : forall v, alphanumeric v -> is_sensitive_command uword mg (pre ++ hdr ++ v ++ close ++ post) = true).
  { intros v AV. destruct (alnum_facts v AV) as (NV & FV & _). unfold is_sensitive_command. rewrite !orb_true_iff. left. right. unfold is_match.
    rewrite bearer_stage by (try assumption; apply SC, SB). unfold hits. rewrite flat_map_app. cbn [flat_map]. destruct (flat_map _ (map Plain pre)); reflexivity. }
  unfold recorded_by_running, process_for_history. split; intros M; rewrite M.
  - intros v AV. rewrite S by exact AV. reflexivity.
  - eexists. intros v AV. rewrite S by exact AV. destruct (alnum_facts v AV) as (NV & FV & VE & VD & _). unfold redact_command. rewrite stage1_eq.
    replace (pre ++ hdr ++ v ++ close ++ post) with ((pre ++ hdr ++ v ++ close) ++ post) by (rewrite <- !app_assoc; reflexivity). rewrite stage1_before_blank by exact SB.
    rewrite stage1_no_eq by (rewrite !in_app_iff; tauto).
    replace (replace_all uword option_secret mask ((pre ++ hdr ++ v ++ close) ++ stage1 uword mg None post)) with ((pre ++ hdr ++ v ++ close) ++ replace_all uword option_secret mask (stage1 uword mg None post)).
    + set (p2 := replace_all uword option_secret mask (stage1 uword mg None post)).
      assert (SP2 : starts_blank p2).
      { destruct (starts_blank_stage1 uword mg post SB) as [E|(c & t & E & W)]; unfold p2; rewrite E; [left; reflexivity|]. right. exists c. unfold replace_all, pieces. rewrite scan_miss; [cbn [flat_map app]; eauto|].
        apply option_not_dash. apply (blank_not_name uword c W). }
      match goal with |- context [replace_all uword auth_bearer mask ?t] => replace t with (pre ++ hdr ++ v ++ close ++ p2) by (rewrite <- ?app_assoc; reflexivity) end.
      rewrite (redact_bearer uword pre hdr v (close ++ p2)) by (try assumption; apply SC, SP2). reflexivity.
    + unfold replace_all, pieces. rewrite option_through.
      * rewrite flat_map_app. apply f_equal2; [symmetry; exact (plain_out2 (pre ++ hdr ++ v ++ close))|]. f_equal. apply scan_no_look. reflexivity.
      * apply no_option_app2; [exact NO|]. apply no_dash_option. rewrite !in_app_iff. tauto.
Qed.
(** A secret parameter of a URL: a command with one is not recorded in skip mode, and the stage
    of redaction made for it removes the value.  (When the name is also a sensitive variable
    name, C33_assignment_hidden_partial says more.) *)
Theorem C33_parameter_hidden_partial : forall uword mg (pre : str) m n post,
  (forall c, In c pre -> c <> 63%N /\ c <> 38%N) -> m = 63%N \/ m = 38%N -> In n secret_parameters -> (starts_blank post \/ exists t, post = 38%N :: t) ->
  forall v, v <> [] -> Forall (fun c => is_whitespace c = false /\ c <> 38%N) v ->
  (mode mg = Skip -> recorded_by_running uword mg (pre ++ (m :: n ++ [61%N]) ++ v ++ post) = None) /\
  replace_all uword query_secret mask (pre ++ (m :: n ++ [61%N]) ++ v ++ post) = pre ++ (m :: n ++ [61%N]) ++ stars ++ replace_all uword query_secret mask post.
Proof.
  intros uword mg pre m n post NP M IN SP v NV FV.
  assert (FQ : Forall (fun c => query_char c = true) v).
  { eapply Forall_impl; [|exact FV]. intros c [A B]. unfold query_char, nonblank, blank. rewrite A. destruct (N.eqb_spec c 38); [congruence|reflexivity]. }
  assert (SQ : stops query_char post).
  { destruct SP as [[->|(c & t & -> & W)]|[t ->]]; [exact I| |reflexivity]. cbn. unfold query_char, nonblank, blank. rewrite W. reflexivity. }
  split.
  - intros MS. unfold recorded_by_running, process_for_history. rewrite MS. replace (is_sensitive_command uword mg (pre ++ (m :: n ++ [61%N]) ++ v ++ post)) with true; [reflexivity|]. symmetry.
    unfold is_sensitive_command. rewrite !orb_true_iff. right. unfold is_match. rewrite query_stage by assumption. unfold hits. rewrite flat_map_app. cbn [flat_map]. destruct (flat_map _ (map Plain pre)); reflexivity.
  - unfold replace_all. rewrite query_stage by assumption. rewrite flat_map_app. apply f_equal2; [exact (plain_out2 pre)|]. cbn [flat_map]. unfold mask. cbn [h1]. rewrite <- app_assoc. reflexivity.
Qed.
(** Everything else is recorded as it is. *)
Theorem C33_recorded_as_typed : forall uword mg cmd, mode mg = NoFilter \/ is_sensitive_command uword mg cmd = false -> recorded_by_running uword mg cmd = Some cmd.
Proof. intros uword mg cmd [H|H]; unfold recorded_by_running, process_for_history; rewrite H; [reflexivity|]. destruct (mode mg); reflexivity. Qed.

(** ** What is not hidden *)
Lemma hits_none uword p s k prev : hits (scan uword p k prev s) = [] -> scan uword p k prev s = map Plain (skipn k s).
Proof.
  revert k prev. induction s as [|c s IH]; intros k prev H; [destruct k; reflexivity|]. destruct k as [|k]; cbn [Secrets_Model.scan skipn] in *; [|exact (IH _ _ H)].
  destruct (match_pat uword p prev (c :: s)); cbn [hits flat_map] in H; [discriminate|]. cbn [map]. f_equal. exact (IH 0 (Some c) H).
Qed.
Lemma replace_none uword p f s : hits (pieces uword p s) = [] -> replace_all uword p f s = s.
Proof. intros H. unfold replace_all, pieces. rewrite hits_none by exact H. cbn [skipn]. clear H. induction s as [|c s IH]; [reflexivity|]. cbn in *. rewrite IH. reflexivity. Qed.
(** A command found only by a pattern of the user's is recorded with its secret in redact mode. *)
Theorem C33_custom_pattern_refuted : forall uword mg cmd, mode mg = Redact -> existsb (fun q => q cmd) (custom mg) = true ->
  hits (pieces uword assignment cmd) = [] -> hits (pieces uword option_secret cmd) = [] -> hits (pieces uword auth_bearer cmd) = [] -> hits (pieces uword query_secret cmd) = [] ->
  is_sensitive_command uword mg cmd = true /\ recorded_by_running uword mg cmd = Some cmd.
Proof.
  intros uword mg cmd M C A O B Q. assert (S : is_sensitive_command uword mg cmd = true) by (unfold is_sensitive_command; rewrite C, orb_true_r; reflexivity). split; [exact S|].
  unfold recorded_by_running, process_for_history. rewrite M, S. f_equal. unfold redact_command, redact_assignments. rewrite (replace_none _ _ _ cmd A), (replace_none _ _ _ cmd O), (replace_none _ _ _ cmd B). apply replace_none, Q.
Qed.
Lemma plain_hits s : hits (map Plain s) = [].
Proof. induction s; [reflexivity|exact IHs]. Qed.
Lemma pieces_no_dash uword s : no_option s -> pieces uword option_secret s = map Plain s.
Proof.
  intros H. transitivity (scan uword option_secret 0 None (s ++ [])); [unfold pieces; f_equal; symmetry; exact (app_nil_r s)|]. rewrite (option_through uword s [] None H). exact (app_nil_r (map Plain s)).
Qed.
Lemma hits_no_dash uword s : no_option s -> hits (pieces uword option_secret s) = [].
Proof. intros H. rewrite pieces_no_dash by exact H. apply plain_hits. Qed.
Lemma hits_no_colon uword s : ~ In 58%N s -> hits (pieces uword auth_bearer s) = [].
Proof.
  intros N. unfold pieces. rewrite scan_none; [apply plain_hits|]. intros x c y q ->. apply bearer_needs_colon. intros I. apply N. apply in_app_iff. right. exact I.
Qed.
Lemma hits_no_mark uword s : ~ In 63%N s -> ~ In 38%N s -> hits (pieces uword query_secret s) = [].
Proof.
  intros N M. unfold pieces. rewrite scan_none; [apply plain_hits|]. intros x c y q ->.
  apply query_not_mark; intros ->; [apply N|apply M]; apply in_app_iff; right; left; reflexivity.
Qed.
(** letters, digits, underscores and a few harmless marks *)
Definition calm (c : char) : bool := negb (mem_char c (lit "-:?&")).
Lemma calm_hits uword s : forallb calm s = true -> hits (pieces uword option_secret s) = [] /\ hits (pieces uword auth_bearer s) = [] /\ hits (pieces uword query_secret s) = [].
Proof.
  intros F. rewrite forallb_forall in F. assert (N : forall c, calm c = false -> ~ In c s) by (intros c C I; apply F in I; congruence).
  split; [apply hits_no_dash, no_dash_option, N; reflexivity|]. split; [apply hits_no_colon, N; reflexivity|]. apply hits_no_mark; apply N; reflexivity.
Qed.
Lemma calm_word c : (ascii_letter c \/ ascii_digit c \/ c = 95%N) -> calm c = true.
Proof.
  intros H. unfold calm. apply negb_true_iff. destruct (mem_char c (lit "-:?&")) eqn:E; [|reflexivity]. apply mem_char_iff in E. vm_compute in E. unfold ascii_letter, ascii_digit in H.
  exfalso. repeat (destruct E as [<-|E]; [lia|]). destruct E.
Qed.
Lemma calm_identifier n : identifier n -> forallb calm n = true.
Proof.
  intros [c t H F]. cbn [forallb]. rewrite calm_word by tauto. apply forallb_forall. intros d D. rewrite Forall_forall in F. apply calm_word, F, D.
Qed.
Lemma calm_alnum v : alphanumeric v -> forallb calm v = true.
Proof. intros [_ F]. apply forallb_forall. intros d D. rewrite Forall_forall in F. apply calm_word. specialize (F d D). tauto. Qed.
Lemma redact_calm uword s : forallb calm s = true ->
  replace_all uword query_secret mask (replace_all uword auth_bearer mask (replace_all uword option_secret mask s)) = s.
Proof. intros F. destruct (calm_hits uword s F) as (A & B & C). rewrite (replace_none _ _ _ s A), (replace_none _ _ _ s B). apply replace_none, C. Qed.
Lemma alnum_no_eq v : alphanumeric v -> ~ In 61%N v.
Proof. intros H. apply (alnum_facts v H). Qed.
(** A quoted value with a blank: all behind the blank is recorded. *)
Theorem C33_quoted_value_refuted : forall uword mg n a b, mode mg = Redact -> identifier n -> sensitive_name n -> alphanumeric a -> alphanumeric b ->
  recorded_by_running uword mg (n ++ 61%N :: (34%N :: a) ++ 32%N :: b ++ [34%N]) = Some (n ++ 61%N :: stars ++ 32%N :: b ++ [34%N]).
Proof.
  intros uword mg n a b M IN SN AA AB. pose proof (sensitive_name_key mg n SN) as SK. destruct (alnum_facts a AA) as (_ & _ & _ & _ & BA). destruct (alnum_facts b AB) as (_ & _ & EB & _ & _).
  assert (SC : scan uword assignment 0 None ([] ++ [] ++ n ++ 61%N :: (34%N :: a) ++ 32%N :: b ++ [34%N]) = [] ++ [] ++ Found (Hit n [61%N] (34%N :: a)) :: map Plain (32%N :: b ++ [34%N])).
  { etransitivity; [apply (scan_assignment uword [] [] n (34%N :: a) (32%N :: b ++ [34%N]))|].
    - left. reflexivity.
    - split; [constructor|]. split; [intros []|left; reflexivity].
    - exact IN.
    - discriminate.
    - constructor; [reflexivity|exact BA].
    - right. do 2 eexists. split; reflexivity.
    - assert (X : forall q, scan uword assignment 0 q (32%N :: b ++ [34%N]) = map Plain (32%N :: b ++ [34%N])).
      { intros q. apply assign_no_eq. intros [I|I]; [discriminate|]. apply in_app_iff in I. destruct I as [I|[I|[]]]; [exact (EB I)|discriminate]. }
      rewrite X. reflexivity. }
  cbn [app] in SC. unfold recorded_by_running, process_for_history. rewrite M. replace (is_sensitive_command uword mg _) with true.
  - f_equal. unfold redact_command. replace (redact_assignments uword mg (n ++ 61%N :: (34%N :: a) ++ 32%N :: b ++ [34%N])) with (n ++ 61%N :: stars ++ 32%N :: b ++ [34%N]).
    + apply redact_calm. rewrite forallb_app. rewrite (calm_identifier n IN). change (forallb calm (61%N :: stars ++ 32%N :: b ++ [34%N])) with (forallb calm (b ++ [34%N])). rewrite forallb_app, (calm_alnum b AB). reflexivity.
    + rewrite stage1_eq. unfold stage1. cbn [app]. rewrite SC. cbn [flat_map out1 h1]. rewrite SK. rewrite plain_out1. rewrite <- app_assoc. reflexivity.
  - symmetry. unfold is_sensitive_command. rewrite !orb_true_iff. do 4 left. unfold pieces. cbn [app]. rewrite SC. cbn [hits flat_map app existsb h1]. rewrite SK. reflexivity.
Qed.
Ltac harmless_text := vm_compute; repeat (split; [intros; try discriminate; match goal with H : _ \/ _ |- False => repeat (destruct H as [H|H]; [discriminate|]); destruct H end|]); exact I.
(** A second equals sign in a word hides the assignment: it is recorded in every mode. *)
Theorem C33_nested_assignment_refuted : forall uword m n v, identifier n -> sensitive_name n -> alphanumeric v ->
  let cmd := lit "docker run --env=" ++ n ++ 61%N :: v in recorded_by_running uword (Manager [] [] m []) cmd = Some cmd.
Proof.
  intros uword m n v IN SN AV cmd. apply C33_recorded_as_typed. right. destruct (alnum_facts v AV) as (NV & _ & _ & DV & BV).
  assert (CN := calm_identifier n IN). assert (CV := calm_alnum v AV). rewrite forallb_forall in CN, CV.
  assert (BN : no_blank n). { destruct IN as [c t H F]. rewrite Forall_forall in F. apply Forall_forall. intros d D. destruct (is_whitespace d) eqn:W; [|reflexivity]. exfalso.
    assert (X : ascii_letter d \/ ascii_digit d \/ d = 95%N) by (destruct D as [<-|D]; [tauto|apply F, D]). clear - X W. unfold is_whitespace in W. repeat (rewrite ?orb_true_iff, ?andb_true_iff, ?N.leb_le, ?N.eqb_eq in W). unfold ascii_letter, ascii_digit in X. lia. }
  assert (E : cmd = lit "docker run " ++ lit "--" ++ lit "env" ++ 61%N :: (n ++ 61%N :: v) ++ []) by (unfold cmd; rewrite app_nil_r; reflexivity).
  assert (A : hits (pieces uword assignment cmd) = [Hit (lit "env") [61%N] (n ++ 61%N :: v)]).
  { unfold pieces. rewrite E. etransitivity; [apply f_equal, (scan_assignment uword (lit "docker run ") (lit "--") (lit "env") (n ++ 61%N :: v) [])|].
    - right. exists 32%N, (lit "docker run"). split; reflexivity.
    - split; [repeat constructor|]. split; [intros [H|[H|[]]]; discriminate|]. right. exists 45%N, [45%N]. split; reflexivity.
    - change (lit "env") with ([101; 110; 118]%N). constructor; [left; right; lia|]. constructor; [left; right; lia|]. constructor; [left; right; lia|]. constructor.
    - destruct n; discriminate.
    - apply Forall_app. split; [exact BN|]. constructor; [reflexivity|exact BV].
    - left. reflexivity.
    - unfold hits. rewrite !flat_map_app. rewrite (assign_no_eq uword (lit "docker run ")) by (intros H; vm_compute in H; repeat (destruct H as [H|H]; [discriminate|]); destruct H). reflexivity. }
  unfold is_sensitive_command. rewrite A. cbn [existsb custom h1]. replace (is_sensitive_key (Manager [] [] m []) (lit "env")) with false by reflexivity. cbn [orb]. unfold is_match.
  rewrite (hits_no_dash uword cmd), (hits_no_colon uword cmd), (hits_no_mark uword cmd); [reflexivity| | | |]; unfold cmd.
  - rewrite !in_app_iff. intros [H|[H|[H|H]]]; [vm_compute in H; repeat (destruct H as [H|H]; [discriminate|]); destruct H|apply CN in H; discriminate|discriminate|apply CV in H; discriminate].
  - rewrite !in_app_iff. intros [H|[H|[H|H]]]; [vm_compute in H; repeat (destruct H as [H|H]; [discriminate|]); destruct H|apply CN in H; discriminate|discriminate|apply CV in H; discriminate].
  - rewrite !in_app_iff. intros [H|[H|[H|H]]]; [vm_compute in H; repeat (destruct H as [H|H]; [discriminate|]); destruct H|apply CN in H; discriminate|discriminate|apply CV in H; discriminate].
  - apply no_option_app2.
    + harmless_text.
    + apply no_dash_option. rewrite in_app_iff. intros [H|[H|H]]; [apply CN in H; discriminate|discriminate|exact (DV H)].
Qed.
(** An option that needs no value makes the next option its value: the password is recorded. *)
Theorem C33_two_options_refuted : forall uword mg v, mode mg = Redact -> alphanumeric v ->
  recorded_by_running uword mg (lit "mysql -p --password " ++ v) = Some (lit "mysql -p *** " ++ v).
Proof.
  intros uword mg v M AV. destruct (alnum_facts v AV) as (NV & _ & EV & DV & BV). pose proof (calm_alnum v AV) as CV.
  assert (P : pieces uword option_secret (lit "mysql " ++ lit "-p" ++ lit " " ++ lit "--password" ++ 32%N :: v) = map Plain (lit "mysql ") ++ Found (Hit (lit "-p" ++ lit " ") [] (lit "--password")) :: pieces uword option_secret (32%N :: v)).
  { apply option_stage.
    - apply no_dash_option. intros H. vm_compute in H. repeat (destruct H as [H|H]; [discriminate|]). destruct H.
    - right. split; [reflexivity|]. split; [discriminate|]. constructor; [reflexivity|constructor].
    - split; [discriminate|]. repeat (constructor; [split; [reflexivity|split; discriminate]|]). constructor.
    - right. do 2 eexists. split; reflexivity. }
  assert (Q : pieces uword option_secret (32%N :: v) = map Plain (32%N :: v)).
  { apply pieces_no_dash, no_dash_option. intros [H|H]; [discriminate|exact (DV H)]. }
  change (lit "mysql -p --password " ++ v) with (lit "mysql " ++ lit "-p" ++ lit " " ++ lit "--password" ++ 32%N :: v).
  unfold recorded_by_running, process_for_history. rewrite M. replace (is_sensitive_command uword mg _) with true.
  - f_equal. unfold redact_command. rewrite stage1_eq, stage1_no_eq.
    + assert (RO : replace_all uword option_secret mask (lit "mysql " ++ lit "-p" ++ lit " " ++ lit "--password" ++ 32%N :: v) = lit "mysql -p *** " ++ v).
      { unfold replace_all. rewrite P, Q, flat_map_app. cbn [flat_map]. rewrite (plain_out2 (32%N :: v) : flat_map (fun x => match x with Plain c => [c] | Found h => mask h end) _ = _). reflexivity. }
      rewrite RO. assert (CC : hits (pieces uword auth_bearer (lit "mysql -p *** " ++ v)) = [] /\ hits (pieces uword query_secret (lit "mysql -p *** " ++ v)) = []).
      { rewrite forallb_forall in CV. split; [apply hits_no_colon|apply hits_no_mark]; rewrite in_app_iff; intros [H|H]; try (apply CV in H; discriminate); vm_compute in H; repeat (destruct H as [H|H]; [discriminate|]); destruct H. }
      rewrite (replace_none _ _ _ _ (proj1 CC)). apply replace_none, CC.
    + rewrite !in_app_iff. intros [H|[H|[H|[H|H]]]]; try (vm_compute in H; repeat (destruct H as [H|H]; [discriminate|]); destruct H). destruct H as [H|H]; [discriminate|exact (EV H)].
  - symmetry. unfold is_sensitive_command. rewrite !orb_true_iff. left. left. right. unfold is_match. rewrite P. reflexivity.
Qed.
(** Accepting a whole suggestion writes it to the history in every mode, before it is run. *)
Theorem C33_accepted_suggestion_refuted : forall uword mg s, mode mg = Skip -> is_sensitive_command uword mg s = true ->
  recorded_by_running uword mg s = None /\ recorded_by_accepting mg s = Some s.
Proof. intros uword mg s M S. unfold recorded_by_running, process_for_history. rewrite M, S. split; reflexivity. Qed.
(** The log of the Lisp side hides fewer names than the history does. *)
Theorem C33_lisp_names_partial : forall mg key, lisp_sensitive_key key = true -> is_sensitive_key mg key = true.
Proof.
  intros mg key H. unfold lisp_sensitive_key in H. cbv zeta in H. unfold is_sensitive_key. rewrite !orb_true_iff. left. left. unfold default_keywords.
  rewrite !orb_true_iff in H. destruct H as [[H|H]|H].
  - apply existsb_exists. exists (lit "API_KEY"). split; [left; reflexivity|exact H].
  - apply existsb_exists. exists (lit "_KEY"). split; [right; left; reflexivity|]. apply ends_with_iff in H. destruct H as [t ->]. apply contains_iff. exists t, []. rewrite app_nil_r. reflexivity.
  - apply existsb_exists in H. destruct H as (k & I & C). apply existsb_exists. exists k. split; [|exact C]. cbn [map In] in *. tauto.
Qed.
Theorem C33_lisp_names_refuted : lisp_sensitive_key (lit "AWS_ACCESS_KEY_ID") = false /\ forall mg, is_sensitive_key mg (lit "AWS_ACCESS_KEY_ID") = true.
Proof. split; [vm_compute; reflexivity|]. intros mg. unfold is_sensitive_key. replace (existsb _ default_keywords) with true by (vm_compute; reflexivity). reflexivity. Qed.

(** ** Concrete cases *)
Definition redacting : manager := Manager [contains (lit "hunter")] [] Redact [].
Definition none (_ : char) : bool := false.
Example C33_met : recorded_by_running none redacting (lit "export API_KEY=abc DB_password=x run") = Some (lit "export API_KEY=*** DB_password=*** run") /\
  recorded_by_running none redacting (lit "curl --token 'a b' -H 'Authorization: Bearer xyz' 'https://a?x=1&token=qwe'") = Some (lit "curl --token *** -H 'Authorization: Bearer ***' 'https://a?x=1&token=***") /\
  recorded_by_running none redacting (lit "ls -la") = Some (lit "ls -la").
Proof. split; [|split]; vm_compute; reflexivity. Qed.
Example C33_custom_met : let cmd := lit "echo hunter2" in existsb (fun q => q cmd) (custom redacting) = true /\ hits (pieces none assignment cmd) = [] /\ hits (pieces none option_secret cmd) = [] /\ hits (pieces none auth_bearer cmd) = [] /\ hits (pieces none query_secret cmd) = [].
Proof. split; [vm_compute; reflexivity|]. split; [vm_compute; reflexivity|]. split; [vm_compute; reflexivity|]. split; vm_compute; reflexivity. Qed.
Example C33_names_met : identifier (lit "DB_PASSWORD") /\ sensitive_name (lit "db_password") /\ before_name none (lit "--") /\ bearer_header (lit "Authorization: Bearer ") /\ no_option (lit "curl -X GET --data x ").
Proof.
  split; [|split; [|split; [|split]]].
  - change (lit "DB_PASSWORD") with ([68; 66; 95; 80; 65; 83; 83; 87; 79; 82; 68]%N). constructor; [left; left; lia|]. repeat (constructor; [unfold ascii_letter; lia|]). constructor.
  - exists (lit "PASSWORD"). split; [cbn; tauto|]. exists (lit "db_"), (lit "password"), []. split; reflexivity.
  - split; [repeat constructor|]. split; [intros [H|[H|[]]]; discriminate|]. right. exists 45%N, [45%N]. split; reflexivity.
  - change (lit "Authorization: Bearer ") with (lit "Authorization" ++ [] ++ 58%N :: [32%N] ++ lit "Bearer" ++ [32%N]). constructor; [left; reflexivity|constructor|repeat constructor|left; reflexivity|discriminate|repeat constructor].
  - harmless_text.
Qed.

Print Assumptions C33_assignment_hidden_partial.
Print Assumptions C33_option_hidden_partial.
Print Assumptions C33_bearer_hidden_partial.
Print Assumptions C33_parameter_hidden_partial.
Print Assumptions C33_recorded_as_typed.
Print Assumptions C33_custom_pattern_refuted.
Print Assumptions C33_quoted_value_refuted.
Print Assumptions C33_nested_assignment_refuted.
Print Assumptions C33_two_options_refuted.
Print Assumptions C33_accepted_suggestion_refuted.
Print Assumptions C33_lisp_names_partial.
Print Assumptions C33_lisp_names_refuted.
