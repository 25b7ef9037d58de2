(** C112: completion ends. *)
From Verif Require Import Base Token_Model Comp_Model Comp_Spec Comp_Proofs.

Section Ends.
Variable alphabetic alphanumeric : char -> bool.
Variable db : str -> option definition.
Variable printable : char -> bool.
Variable escape_name : char -> str.
Variable files commands : str -> list candidate.
Variable other : nat -> str -> list candidate.
Variable fuzzy : str -> str -> bool.
Variable shell resolve : str -> str.
Notation parse := (parse alphabetic alphanumeric).
Notation analyze := (analyze alphabetic alphanumeric).
Notation debug := (debug printable escape_name).
Notation correct := (correct db).
Notation inner_line := (inner_line printable escape_name).
Notation inner := (inner alphabetic alphanumeric printable escape_name).
Notation generate := (generate alphabetic alphanumeric db printable escape_name files commands other fuzzy shell).
Notation complete_at := (complete_at alphabetic alphanumeric db printable escape_name files commands other fuzzy shell resolve).

Definition silent (c : char) : bool := (c =? 34)%N || (c =? 92)%N || (c =? 32)%N.
Hypothesis blank_printable : printable 32%N = true.
Hypothesis escape_names : forall c, Forall (fun x => printable x = true /\ silent x = false) (escape_name c).

(** characters that quoting neither adds nor drops *)
Definition weight (c : char) : nat := if silent c then 0 else if printable c then 1 else length (escape_name c).
Fixpoint mass (s : str) : nat := match s with [] => 0 | c :: r => weight c + mass r end.
Fixpoint total (l : list str) : nat := match l with [] => 0 | s :: r => mass s + total r end.

Lemma mass_app a b : mass (a ++ b) = mass a + mass b.
Proof. induction a as [|c a IH]; [reflexivity|]. cbn [app mass]. rewrite IH. lia. Qed.
Lemma total_app a b : total (a ++ b) = total a + total b.
Proof. induction a as [|c a IH]; [reflexivity|]. cbn [app total]. rewrite IH. lia. Qed.
Lemma mass_escape c : mass (escape_name c) = length (escape_name c).
Proof. induction (escape_names c) as [|x l (P & S) _ IH]; [reflexivity|]. cbn [mass length]. unfold weight at 1. rewrite S, P, IH. reflexivity. Qed.
Lemma mass_debug s : mass (debug s) = mass s.
Proof.
  unfold Comp_Model.debug. rewrite !mass_app. change (mass [34%N]) with 0. rewrite Nat.add_0_r. cbn [Nat.add].
  induction s as [|c s IH]; [reflexivity|]. cbn [flat_map mass]. rewrite mass_app, IH. f_equal.
  destruct ((c =? 34)%N || (c =? 92)%N) eqn:Q.
  - cbn [mass]. change (weight 92%N) with 0. rewrite Nat.add_0_r. reflexivity.
  - unfold weight, silent. rewrite Q. cbn [orb]. destruct (printable c) eqn:P.
    + cbn [mass]. rewrite Nat.add_0_r. unfold weight, silent. rewrite Q, P. reflexivity.
    + destruct (N.eqb_spec c 32) as [-> |]; [congruence|]. cbn [mass]. change (weight 92%N) with 0. rewrite mass_escape. reflexivity.
Qed.

(** the tokens of a line *)
Definition span_total (ss : list span) : nat := total (map raw ss).
Lemma push_total s b i : span_total (spans (push_current s b i)) + mass (Token_Model.current (push_current s b i)) <= span_total (spans s) + mass (Token_Model.current s).
Proof.
  unfold push_current. destruct (token_start s) as [[bs cs]|]; [|lia]. destruct (Token_Model.current s) as [|c r] eqn:E; cbn [spans Token_Model.current].
  - rewrite ?E. lia.
  - unfold span_total. rewrite map_app, total_app. cbn [map raw total]. change (mass []) with 0. lia.
Qed.
Lemma scan1_total m b i c s : span_total (spans (scan1 m b i c s)) + mass (Token_Model.current (scan1 m b i c s)) <= span_total (spans s) + mass (Token_Model.current s) + weight c.
Proof.
  assert (X : mass (Token_Model.current s ++ [c]) = mass (Token_Model.current s) + weight c) by (rewrite mass_app; cbn [mass]; lia).
  unfold scan1. destruct (escaped s); [|destruct (quote s); [destruct (is_separator c m)| |]]; cbn [spans Token_Model.current]; rewrite ?X; try lia.
  pose proof (push_total s b i). lia.
Qed.
Lemma scan_total m l : forall b i s, span_total (spans (scan_from m b i l s)) <= span_total (spans s) + mass (Token_Model.current s) + mass l.
Proof.
  induction l as [|c l IH]; intros b i s; cbn [scan_from mass].
  - pose proof (push_total s b i). lia.
  - pose proof (IH (b + utf8_len c) (S i) (scan1 m b i c s)). pose proof (scan1_total m b i c s). lia.
Qed.
Lemma tokens_total line m : total (map raw (tokenize line m)) <= mass line.
Proof. pose proof (scan_total m line 0 0 (Scan [] [] None Unquoted false)) as H. cbn in H. exact H. Qed.
Lemma take_mass (s : str) : forall n, mass (take_bytes n s) <= mass s.
Proof. induction s as [|c s IH]; intros n; cbn [take_bytes mass]; [lia|]. destruct (_ <=? _); cbn [mass]; [specialize (IH (n - utf8_len c)); lia|lia]. Qed.
Lemma cursor_total line pos : total (fst (cursor_tokens line pos)) <= mass line.
Proof.
  unfold cursor_tokens. pose proof (tokens_total line Parser) as T. set (ss := tokenize line Parser) in *. destruct (cursor_token 0 ss pos) as [i inside]. destruct inside.
  - destruct (nth_error ss i) as [s|] eqn:E; cbn [fst]; [|exact T]. destruct (_ <? _); [|exact T].
    rewrite <- (firstn_skipn_nth (map raw ss) i (raw s) (map_nth_error raw i ss E)) in T. rewrite total_app in *. cbn [total] in *. pose proof (take_mass (raw s) (pos - byte_start s)). lia.
  - cbn [fst]. rewrite total_app. cbn [total mass]. rewrite <- (firstn_skipn i (map raw ss)), total_app in T. lia.
Qed.
Lemma classify_incl l : forall k, incl (snd (classify k l)) l.
Proof.
  induction l as [|t l IH]; intros k; [apply incl_refl|]. cbn [classify]. destruct k; [apply incl_tl, IH|]. destruct (is_redirect t); [apply incl_tl, IH|]. destruct (is_option t).
  - destruct (split_inline t) as [[n v]|].
    + specialize (IH false). destruct (classify false l). apply incl_tl, IH.
    + set (k := match l with [] => false | _ => _ end). specialize (IH k). destruct (classify k l). apply incl_tl, IH.
  - specialize (IH false). destruct (classify false l). cbn [snd] in *. apply incl_cons; [left; reflexivity|apply incl_tl, IH].
Qed.
Lemma analyze_total ts i input : let p := analyze ts i input in
  mass (command p) + total (path p) + total (raw_args p) <= total ts /\ incl (sargs p) (raw_args p).
Proof.
  unfold Comp_Model.analyze. destruct ts as [|cmd rest]; [split; [cbn; lia|apply incl_refl]|].
  pose proof (leading_app alphabetic alphanumeric rest) as L. destruct (leading alphabetic alphanumeric rest) as [sub args]. cbn [fst snd] in L.
  pose proof (classify_incl args false) as C. destruct (classify false args) as [o a]. cbn [snd] in C.
  match goal with |- context [let '(cur, c) := ?x in _] => destruct x as [cur c] end. cbn [command path raw_args sargs]. split; [|exact C]. cbn [total]. rewrite <- L, total_app. lia.
Qed.
Lemma parse_total line pos : let p := parse line pos in
  mass (command p) + total (path p) + total (raw_args p) <= mass line /\ incl (sargs p) (raw_args p).
Proof.
  unfold Comp_Model.parse. pose proof (cursor_total line pos) as T. destruct (cursor_tokens line pos) as [ts i]. cbn [fst] in T.
  destruct (analyze_total ts i line) as (A & B). split; [lia|exact B].
Qed.

(** correcting *)
Lemma walk_suffix subs names : exists a, names = a ++ snd (walk subs names).
Proof.
  revert subs. induction names as [|n names IH]; intros subs; [exists []; reflexivity|]. cbn [walk]. destruct (find_sub subs n) as [s|]; [|exists []; reflexivity].
  destruct (IH (s_subs s)) as (a & E). destruct (walk (s_subs s) names) as [[v l] b]. cbn [snd] in *. exists (n :: a). cbn [app]. rewrite <- E. reflexivity.
Qed.
Lemma value_keeps d p q : value_of_option d p = Some q -> command q = command p /\ raw_args q = raw_args p /\ incl (sargs q) (sargs p).
Proof.
  assert (W : incl (without_value (current p) (sargs p)) (sargs p)).
  { unfold without_value. destruct (current p); [apply incl_refl|]. destruct (rposition _ _) as [i|]; [|apply incl_refl]. unfold remove_nth. intros x I. rewrite <- (firstn_skipn i (sargs p)). apply in_app_iff in I as [I|I]; apply in_app_iff; [left; exact I|right].
    assert (G : forall (l : list str) n, incl (skipn (S n) l) (skipn n l)) by (clear; induction l as [|y l IH]; intros [|n]; cbn; [apply incl_refl|apply incl_refl|apply incl_tl, incl_refl|apply IH]).
    apply (G (sargs p) i), I. }
  unfold value_of_option. set (os := available d (path p)).
  set (A := match raw_token p with Some raw => match split_inline raw with Some (name, v) => _ | None => _ end | None => _ end).
  destruct A as [q'|] eqn:EA.
  - intros [= <-]. unfold A in EA. destruct (raw_token p) as [t|]; [|discriminate]. destruct (split_inline t) as [[n v]|]; [|discriminate]. destruct (find _ os) as [o|]; [|discriminate].
    destruct (expects_value o); injection EA as <-; repeat split; apply incl_refl.
  - clear A EA. assert (P : (if is_option (current p) then None else match raw_previous p with Some prev => match find (fun o => matches_name o prev && expects_value o) os with
        | Some o => Some (Parsed (command p) (path p) (raw_args p) (current p) (current_arg p) (In_value prev (o_type o)) (opts p) (without_value (current p) (sargs p))) | None => None end | None => None end) = Some q ->
      command q = command p /\ raw_args q = raw_args p /\ incl (sargs q) (sargs p)).
    { destruct (is_option (current p)); [discriminate|]. destruct (raw_previous p) as [t|]; [|discriminate]. destruct (find _ os) as [o|]; [|discriminate]. intros [= <-]. repeat split. exact W. }
    destruct (raw_token p) as [t|]; [|exact P]. cbn [option_map]. destruct (attached_value t os) as [[[n ty] v]|]; cbn [option_map]; [intros [= <-]; repeat split; apply incl_refl|exact P].
Qed.
Lemma correct_total p : incl (sargs p) (raw_args p) ->
  command (correct p) = command p /\ total (raw_args (correct p)) <= total (path p) + total (raw_args p) /\ incl (sargs (correct p)) (raw_args (correct p)).
Proof.
  intros I. unfold Comp_Model.correct. destruct (db (command p)) as [d|]; [|repeat split; [lia|exact I]].
  unfold correct1. destruct (walk_suffix (d_subs d) (path p)) as (a & E). destruct (walk (d_subs d) (path p)) as [[valid subs] bad]. cbn [snd] in E.
  assert (V : forall q q', command q = command p -> raw_args q = raw_args p -> sargs q = sargs p -> value_of_option d q = Some q' ->
    command q' = command p /\ total (raw_args q') <= total (path p) + total (raw_args p) /\ incl (sargs q') (raw_args q')).
  { intros q q' Q1 Q2 Q3 H. apply value_keeps in H as (H1 & H2 & H3). rewrite H1, H2, Q1, Q2 in *. split; [reflexivity|]. split; [lia|]. rewrite Q3 in H3. eapply incl_tran; eassumption. }
  assert (U : forall q, command q = command p -> raw_args q = raw_args p -> sargs q = sargs p ->
    command q = command p /\ total (raw_args q) <= total (path p) + total (raw_args p) /\ incl (sargs q) (raw_args q)).
  { intros q Q1 Q2 Q3. rewrite Q1, Q2, Q3. split; [reflexivity|]. split; [lia|exact I]. }
  assert (Bd : forall cx, let q := Parsed (command p) valid (bad ++ raw_args p) (current p) (current_arg p) cx (opts p) (bad ++ sargs p) in
    command q = command p /\ total (raw_args q) <= total (path p) + total (raw_args p) /\ incl (sargs q) (raw_args q)).
  { intros cx. cbn [command raw_args sargs]. split; [reflexivity|]. split; [rewrite total_app; rewrite E at 1; rewrite total_app; lia|]. apply incl_app; [apply incl_appl, incl_refl|apply incl_appr, I]. }
  destruct bad as [|first more].
  - destruct (value_of_option d p) as [q|] eqn:Vo; [apply (V p q eq_refl eq_refl eq_refl Vo)|].
    assert (K : forall m : list str + list str * list subcommand * nat,
      let p1 := match ctx p with In_argument _ _ => if existsb (sub_starts (current p)) subs then with_context In_sub p else p | _ => p end in
      let r := match m with
               | inl v => with_context In_sub (with_path (valid ++ v) p1)
               | inr (v, subs', n) =>
                   let p2 := if n =? 0 then p1 else
                     with_context (let c := if n <? length (raw_args p) then
                                     if (length (raw_args p) =? n + 1) && str_eqb (nth n (raw_args p) []) (current p)
                                     then In_argument 0 None else In_argument (length (sargs p)) None
                                   else In_argument 0 None in
                          if is_option (current p) && negb (existsb (sub_matches (current p)) subs')
                                   then match ctx p with In_short => In_short | In_long => In_long | _ => c end else c) (with_path (valid ++ v) p1) in
                   match value_of_option d p2 with Some q => q | None => p2 end
               end in
      command r = command p /\ total (raw_args r) <= total (path p) + total (raw_args p) /\ incl (sargs r) (raw_args r)).
    { intros m p1. assert (P1 : command p1 = command p /\ raw_args p1 = raw_args p /\ sargs p1 = sargs p).
      { unfold p1. destruct (ctx p); try (repeat split; fail). destruct (existsb _ subs); repeat split. }
      destruct P1 as (P1 & P2 & P3). destruct m as [v|[[v subs'] n]]; [apply U; assumption|].
      cbn zeta. match goal with |- context [value_of_option d ?x] => set (p2 := x) end.
      assert (X : command p2 = command p /\ raw_args p2 = raw_args p /\ sargs p2 = sargs p) by (unfold p2; destruct (n =? 0); repeat split; assumption). destruct X as (X1 & X2 & X3).
      destruct (value_of_option d p2) as [q|] eqn:Vq; [apply (V p2 q X1 X2 X3 Vq)|apply U; assumption]. }
    specialize (K (more_subs (current p) subs (raw_args p))). cbn zeta in K.
    destruct (ctx p) eqn:Cx; try exact K.
    + destruct subs; [apply U; reflexivity|exact K].
    + destruct (combined d p); [apply U; reflexivity|exact K].
  - cbn zeta. destruct more as [|m more]; [|apply Bd]. destruct (str_eqb first (current p)); [|apply Bd].
    destruct (existsb (sub_starts first) subs && negb (is_option first)); [apply U; reflexivity|]. destruct (is_option first); [apply U; reflexivity|apply Bd].
Qed.

(** the line of the inner command *)
Lemma join_mass l : mass (join_with [32%N] l) = total l.
Proof. induction l as [|s [|s' l] IH]; [reflexivity|cbn; lia|]. change (join_with [32%N] (s :: s' :: l)) with (s ++ [32%N] ++ join_with [32%N] (s' :: l)). rewrite !mass_app, IH. change (mass [32%N]) with 0. cbn [total]. lia. Qed.
Lemma behind_total n l : In n l -> mass n + total (behind n l) <= total l.
Proof.
  induction l as [|x l IH]; [intros []|]. intros I. cbn [behind total]. destruct (str_eqb_spec x n) as [-> |N]; [lia|]. destruct I as [-> | I]; [congruence|]. specialize (IH I). lia.
Qed.
Lemma inner_mass p n : In n (raw_args p) -> mass (inner_line p n) <= total (raw_args p).
Proof.
  intros I. unfold Comp_Model.inner_line. rewrite join_mass. cbn [total]. rewrite total_app.
  assert (E : total (match current p with [] => [[]] | _ => [] end) = 0) by (destruct (current p); reflexivity). rewrite E. pose proof (behind_total n (raw_args p) I) as B.
  set (f := fun a => if mem_char 32%N a || mem_char 9%N a then debug a else a).
  assert (F : forall l, total (map f l) = total l).
  { induction l as [|s l IH]; [reflexivity|]. cbn [map total]. rewrite IH. f_equal. unfold f. destruct (_ || _); [apply mass_debug|reflexivity]. }
  rewrite F. lia.
Qed.

Definition wraps (c : str) : Prop := exists d a, db c = Some d /\ In a (d_arguments d) /\ a_type a = Some Command_with_args.
Hypothesis wrappers_have_names : forall c, wraps c -> 0 < mass c.

Lemma first_command_In : forall defs args i j n, first_command i defs args = Some (j, n) ->
  In n args /\ exists a, In a defs /\ a_type a = Some Command_with_args.
Proof.
  induction defs as [|d defs IH]; intros args i j n H; [discriminate|]. destruct args as [|x args]; [discriminate|]. cbn [first_command] in H.
  assert (R : first_command (S i) defs args = Some (j, n) -> In n (x :: args) /\ exists a, In a (d :: defs) /\ a_type a = Some Command_with_args).
  { intros H'. apply IH in H' as (A & a & B & C). split; [right; exact A|]. exists a. split; [right; exact B|exact C]. }
  destruct (a_type d) as [[]|] eqn:T; try (exact (R H)). injection H as _ ->. split; [left; reflexivity|]. exists d. split; [left; reflexivity|exact T].
Qed.
Lemma command_argument_In p j n : command_argument db p = Some (j, n) -> In n (sargs p) /\ wraps (command p).
Proof.
  unfold command_argument. destruct (db (command p)) as [d|] eqn:D; [|discriminate]. intros H. apply first_command_In in H as (A & a & B & C). split; [exact A|]. exists d, a. repeat split; assumption.
Qed.
(** one call, when the inner one ends *)
Lemma generate_step n p : (forall j name, command_argument db (correct p) = Some (j, name) -> generate n (inner (correct p) name) <> None) -> generate (S n) p <> None.
Proof.
  intros H. cbn [Comp_Model.generate]. set (q := correct p) in *.
  assert (O : forall f, match command_argument db q with
        | Some (_, name) => match generate n (inner q name) with
            | Some (Found m ran) => Some (Found (match db (command q) with Some d => f d q | None => [] end ++ m) ran) | r => r end
        | None => Some (match db (command q) with Some d => Found (f d q) [] | None => Missing (command q) end) end <> None).
  { intros f. destruct (command_argument db q) as [[j name]|]; [|discriminate]. specialize (H j name eq_refl). destruct (generate n (inner q name)) as [[]|]; [discriminate|discriminate|congruence]. }
  destruct (ctx q) as [| | | |name ty|index ty]; try discriminate; try apply O.
  - match goal with |- context [gen_value ?a ?b ?c ?d ?e ?f ?g ?h] => destruct (gen_value a b c d e f g h) end. discriminate.
  - destruct (gen_argument _ _ _ _ _ _ index ty q) as [l ran]. destruct (command_argument db q) as [[j name]|]; [|discriminate]. destruct (j <? index); [|discriminate].
    specialize (H j name eq_refl). destruct (generate n (inner q name)) as [[]|]; [discriminate|discriminate|congruence].
Qed.
Lemma generate_ends : forall n p, incl (sargs p) (raw_args p) -> total (path p) + total (raw_args p) <= n -> generate (S (S n)) p <> None.
Proof.
  induction n as [n IH] using lt_wf_ind. intros p I L. destruct (correct_total p I) as (C & T & I').
  apply generate_step. intros j name A. apply command_argument_In in A as (A & _). apply I' in A.
  set (q := inner (correct p) name). pose proof (inner_mass (correct p) name A) as M. unfold inner in q. destruct (parse_total (inner_line (correct p) name) (blen (inner_line (correct p) name))) as (P & Pi). fold q in P, Pi.
  destruct (mass (command q)) as [|m] eqn:Mq.
  - apply generate_step. intros j' name' A'. apply command_argument_In in A' as (_ & W). destruct (correct_total q Pi) as (Cq & _). rewrite Cq in W. apply wrappers_have_names in W. lia.
  - destruct n as [|n]; [lia|]. apply IH; [lia|exact Pi|lia].
Qed.

(** completing ends for every line and cursor *)
Lemma complete_ends line pos : exists bound, forall depth, bound <= depth -> complete_at depth line pos <> None.
Proof.
  unfold Comp_Model.complete_at, collect. set (p := convert alphabetic alphanumeric db resolve line pos).
  assert (I : incl (sargs p) (raw_args p)).
  { unfold p, convert. set (q := with_command _ _). assert (Iq : incl (sargs q) (raw_args q)) by (apply parse_total). apply (correct_total q Iq). }
  exists (S (S (total (path p) + total (raw_args p)))). intros depth D.
  assert (G : generate depth p <> None).
  { destruct depth as [|[|n]]; try lia. apply generate_ends; [exact I|lia]. }
  destruct (ctx p); try exact G. discriminate.
Qed.
(** more room changes nothing *)
Lemma generate_more : forall n p r, generate n p = Some r -> generate (S n) p = Some r.
Proof.
  induction n as [|n IH]; intros p r H; [discriminate|]. cbn [Comp_Model.generate] in H. set (q := correct p) in *.
  remember (S n) as m eqn:Em. cbn [Comp_Model.generate]. fold q.
  assert (O : forall f, match command_argument db q with
        | Some (_, name) => match generate n (inner q name) with
            | Some (Found m ran) => Some (Found (match db (command q) with Some d => f d q | None => [] end ++ m) ran) | r => r end
        | None => Some (match db (command q) with Some d => Found (f d q) [] | None => Missing (command q) end) end = Some r ->
      match command_argument db q with
        | Some (_, name) => match generate m (inner q name) with
            | Some (Found m ran) => Some (Found (match db (command q) with Some d => f d q | None => [] end ++ m) ran) | r => r end
        | None => Some (match db (command q) with Some d => Found (f d q) [] | None => Missing (command q) end) end = Some r).
  { intros f. destruct (command_argument db q) as [[j name]|]; [|trivial]. subst m. intros X. destruct (generate n (inner q name)) as [x|] eqn:G; [|discriminate]. rewrite (IH _ _ G). exact X. }
  destruct (ctx q) as [| | | |name ty|index ty]; try exact H; try (apply O; exact H).
  destruct (gen_argument _ _ _ _ _ _ index ty q) as [l ran]. destruct (command_argument db q) as [[j name]|]; [|exact H]. destruct (j <? index); [|exact H].
  subst m. destruct (generate n (inner q name)) as [x|] eqn:G; [|discriminate]. rewrite (IH _ _ G). exact H.
Qed.
Lemma complete_more line pos n r : complete_at n line pos = Some r -> complete_at (S n) line pos = Some r.
Proof. unfold Comp_Model.complete_at, collect. destruct (ctx _); try apply generate_more. trivial. Qed.
End Ends.
