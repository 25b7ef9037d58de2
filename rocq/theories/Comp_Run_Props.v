(** C109: what completing runs.  C112: completing ends. *)
From Verif Require Import Base Token_Model Comp_Model Comp_Spec Comp_Proofs Comp_Words Comp_Subs Comp_Ends Comp_Props.
From Verif Require Dmv_Model Dmv_Props.

(** ** Specification *)
(** [s] is a subcommand somewhere below [l] *)
Inductive within : list subcommand -> subcommand -> Prop :=
| w_here l s : In s l -> within l s
| w_below l s s' : In s l -> within (s_subs s) s' -> within l s'.
(** [t] is the type of an argument or of the value of an option somewhere in a definition *)
Definition type_in (d : definition) (t : arg_type) : Prop :=
  (exists a, (In a (d_arguments d) \/ exists s, within (d_subs d) s /\ In a (s_arguments s)) /\ a_type a = Some t) \/
  (exists o, (In o (d_globals d) \/ exists s, within (d_subs d) s /\ In o (s_options s)) /\
             (value_type o = Some t \/ exists a, o_argument o = Some a /\ a_type a = Some t)).
Definition dollar : char := 36%N.
Definition placeholder (h : str) : Prop :=
  h = lit "$COMMAND" \/ h = lit "$CURRENT_TOKEN" \/ h = lit "$SUBCOMMAND" \/ exists i, h = lit "$ARG_" ++ Dmv_Model.show i.
(** [s] is [t] with texts in the place of placeholders *)
Inductive fills (t : str) : str -> Prop :=
| fills_same : fills t t
| fills_one a h x b : fills t (a ++ h ++ b) -> placeholder h -> fills t (a ++ x ++ b).

(** ** C109 *)
Lemma placeholder_dollar h : placeholder h -> exists r, h = dollar :: r.
Proof. intros [-> | [-> | [-> | (i & ->)]]]; eexists; reflexivity. Qed.
Lemma fills_plain t s : fills t s -> ~ In dollar t -> s = t.
Proof.
  intros F N. induction F as [|a h x b _ IH P]; [reflexivity|]. exfalso. apply N. rewrite <- IH. destruct (placeholder_dollar h P) as (r & ->).
  apply in_app_iff. right. left. reflexivity.
Qed.
Lemma fills_replace t h x : placeholder h -> forall s done, fills t (done ++ s) -> fills t (done ++ Dmv_Model.replace h x s).
Proof.
  intros P. destruct (placeholder_dollar h P) as (r & Eh).
  assert (G : forall n s done, length s <= n -> fills t (done ++ s) -> fills t (done ++ Dmv_Model.replace h x s)).
  { induction n as [|n IH]; intros s done L F.
    - destruct s; [exact F|cbn in L; lia].
    - destruct s as [|c s]; [exact F|]. destruct (starts_with h (c :: s)) eqn:S.
      + apply starts_with_iff in S as (rest & E). rewrite E, Dmv_Props.replace_hit by (rewrite Eh; discriminate). rewrite app_assoc. apply IH.
        * rewrite E, app_length, Eh in L. cbn in L. lia.
        * rewrite <- app_assoc. apply (fills_one t done h x rest); [rewrite <- E; exact F|exact P].
      + unfold Dmv_Model.replace. cbn [Dmv_Model.replace_from]. rewrite S. change (c :: Dmv_Model.replace_from h x 0 s) with ([c] ++ Dmv_Model.replace h x s).
        rewrite app_assoc. apply IH; [cbn in L; lia|]. rewrite <- app_assoc. exact F. }
  intros s done. apply (G (length s)). lia.
Qed.
Lemma fills_args t args : forall i s, fills t s -> fills t (replace_args i args s).
Proof.
  induction args as [|a args IH]; intros i s F; [exact F|]. cbn [replace_args]. apply IH. apply (fills_replace t _ a) with (done := []); [|exact F]. right. right. right. exists i. reflexivity.
Qed.
Lemma fills_script t p : fills t (script_text t p).
Proof.
  unfold script_text. apply fills_args. apply (fills_replace t (lit "$SUBCOMMAND") _) with (done := []); [right; right; left; reflexivity|].
  apply (fills_replace t (lit "$CURRENT_TOKEN") _) with (done := []); [right; left; reflexivity|].
  apply (fills_replace t (lit "$COMMAND") _) with (done := []); [left; reflexivity|]. constructor.
Qed.
Lemma o_type_in o t : o_type o = Some t -> value_type o = Some t \/ exists a, o_argument o = Some a /\ a_type a = Some t.
Proof. unfold o_type. destruct (o_argument o) as [a|]; [|left; assumption]. destruct (a_type a) eqn:T; [|left; assumption]. intros E. right. exists a. split; [reflexivity|congruence]. Qed.
Lemma path_options_within names : forall l o, In o (path_options l names) -> exists s, within l s /\ In o (s_options s).
Proof.
  induction names as [|n names IH]; intros l o I; [destruct I|]. cbn [path_options] in I. destruct (find_sub l n) as [s|] eqn:F; [|destruct I].
  apply find_some in F as (F & _). apply in_app_iff in I as [I|I].
  - exists s. split; [constructor; exact F|exact I].
  - destruct (IH _ _ I) as (s' & W & J). exists s'. split; [eapply w_below; eassumption|exact J].
Qed.
Lemma available_in d names o : In o (available d names) -> In o (d_globals d) \/ exists s, within (d_subs d) s /\ In o (s_options s).
Proof. intros I. apply in_app_iff in I as [I|I]; [left; exact I|right]. apply path_options_within in I. exact I. Qed.
Lemma available_type d names o t : In o (available d names) -> o_type o = Some t -> type_in d t.
Proof. intros I T. right. exists o. split; [apply (available_in d names o I)|apply o_type_in, T]. Qed.
Lemma arguments_within names : forall args l a, In a (arguments_of args l names) -> In a args \/ exists s, within l s /\ In a (s_arguments s).
Proof.
  induction names as [|n names IH]; intros args l a I; [left; exact I|]. cbn [arguments_of] in I. destruct (find_sub l n) as [s|] eqn:F; [|left; exact I].
  apply find_some in F as (F & _). right. destruct (IH _ _ _ I) as [J|(s' & W & J)].
  - exists s. split; [constructor; exact F|exact J].
  - exists s'. split; [eapply w_below; eassumption|exact J].
Qed.
Lemma argument_definition_In l i a : argument_definition l i = Some a -> In a l.
Proof.
  unfold argument_definition. destruct (nth_error l i) eqn:E; [intros [= <-]; apply nth_error_In in E; exact E|]. destruct (rev l) as [|x r] eqn:R; [discriminate|]. destruct (multiple x); [|discriminate]. intros [= <-].
  apply in_rev. rewrite R. left. reflexivity.
Qed.

Lemma replace_missing h x s : contains h s = false -> Dmv_Model.replace h x s = s.
Proof.
  unfold Dmv_Model.replace. induction s as [|c s IH]; intros C; [reflexivity|]. cbn [Dmv_Model.replace_from]. destruct (starts_with h (c :: s)) eqn:S.
  - exfalso. apply starts_with_iff in S as (r & E). assert (contains h (c :: s) = true) by (apply contains_iff; exists [], r; exact E). congruence.
  - f_equal. apply IH. destruct (contains h s) eqn:Cs; [|reflexivity]. apply contains_iff in Cs as (a & b & ->). assert (contains h (c :: a ++ h ++ b) = true) by (apply contains_iff; exists (c :: a), b; reflexivity). congruence.
Qed.

Section C109.
Variable alphabetic alphanumeric : char -> bool.
Variable db : str -> option definition.
Variable printable : char -> bool.
Variable escape_name : char -> str.
Variable files commands : str -> list candidate.
Variable other : nat -> str -> list candidate.
Variable fuzzy : str -> str -> bool.
Variable shell resolve : str -> str.
Notation complete_at := (complete_at alphabetic alphanumeric db printable escape_name files commands other fuzzy shell resolve).
Notation generate := (generate alphabetic alphanumeric db printable escape_name files commands other fuzzy shell).
Notation of_type := (of_type commands other fuzzy shell).
Notation parse := (parse alphabetic alphanumeric).

(** the types in a context come from the definition of the command *)
Definition typed (p : parsed) : Prop :=
  match ctx p with
  | In_value _ (Some t) => exists d, db (command p) = Some d /\ type_in d t
  | In_argument _ (Some _) => False
  | _ => True
  end.
Lemma analyze_typed ts i l c : typed (with_command c (analyze alphabetic alphanumeric ts i l)).
Proof.
  unfold typed, analyze. destruct ts as [|cmd rest]; [exact I|]. destruct (leading _ _ rest) as [sub args]. destruct (classify false args) as [o a]. destruct (i =? 0); [exact I|].
  cbn [with_command ctx]. unfold context_of. destruct (split_inline _) as [[n v]|]; [exact I|].
  repeat match goal with |- match (if ?b then _ else _) with _ => _ end => destruct b; try exact I end.
Qed.
Lemma with_command_same p : with_command (command p) p = p. Proof. destruct p; reflexivity. Qed.
Lemma value_typed d p q : value_of_option d p = Some q -> db (command p) = Some d -> typed q.
Proof.
  unfold value_of_option. intros H D. set (os := available d (path p)) in *.
  assert (P : (if is_option (current p) then None else match raw_previous p with Some prev => match find (fun o => matches_name o prev && expects_value o) os with
        | Some o => Some (Parsed (command p) (path p) (raw_args p) (current p) (current_arg p) (In_value prev (o_type o)) (opts p) (without_value (current p) (sargs p))) | None => None end | None => None end) = Some q -> typed q).
  { destruct (is_option (current p)); [discriminate|]. destruct (raw_previous p) as [t|]; [|discriminate]. destruct (find _ os) as [o|] eqn:F; [|discriminate]. intros [= <-]. unfold typed. cbn [ctx command].
    destruct (o_type o) as [ty|] eqn:T; [|exact I]. exists d. split; [exact D|]. apply find_some in F as (F & _). apply (available_type d (path p) o ty F T). }
  destruct (raw_token p) as [t|]; [|exact (P H)].
  assert (A : match option_map (fun x => (t, x)) (attached_value t os) with
    | Some (raw, (name, ty, v)) => Some (Parsed (command p) (path p) (raw_args p) v (Some v) (In_value name ty) (normalize_option (opts p) raw name) (sargs p))
    | None => if is_option (current p) then None else match raw_previous p with Some prev => match find (fun o => matches_name o prev && expects_value o) os with
        | Some o => Some (Parsed (command p) (path p) (raw_args p) (current p) (current_arg p) (In_value prev (o_type o)) (opts p) (without_value (current p) (sargs p))) | None => None end | None => None end end = Some q -> typed q).
  { destruct (attached_value t os) as [[[n ty] v]|] eqn:E; cbn [option_map]; [|exact P]. intros [= <-]. unfold typed. cbn [ctx command].
    destruct ty as [ty|]; [|exact I]. exists d. split; [exact D|]. unfold attached_value in E. destruct (_ && _); [|discriminate]. 
    assert (G : forall l, incl l os -> attached t l = Some (n, Some ty, v) -> type_in d ty).
    { induction l as [|o l IH]; intros J X; [discriminate|]. cbn [attached] in X. assert (Jl : incl l os) by (intros y Y; apply J; right; exact Y).
      destruct (short o) as [s|]; [|exact (IH Jl X)]. destruct (_ && _); [|exact (IH Jl X)]. destruct (skipn _ t) as [|c w]; [exact (IH Jl X)|]. destruct (_ =? _)%N; [exact (IH Jl X)|].
      injection X as _ X _. apply (available_type d (path p) o ty); [apply J; left; reflexivity|exact X]. }
    apply (G os); [apply incl_refl|exact E]. }
  destruct (split_inline t) as [[n v]|]; [|exact (A H)]. destruct (find _ os) as [o|] eqn:F; [|exact (A H)].
  destruct (expects_value o); injection H as <-; unfold typed; cbn [ctx command]; [|exact I].
  destruct (o_type o) as [ty|] eqn:T; [|exact I]. exists d. split; [exact D|]. apply find_some in F as (F & _). apply (available_type d (path p) o ty F T).
Qed.
Lemma correct_typed p : typed p -> typed (correct db p).
Proof.
  intros T. unfold correct. destruct (db (command p)) as [d|] eqn:D; [|exact T]. unfold correct1. destruct (walk (d_subs d) (path p)) as [[valid subs] bad].
  assert (Bd : forall x, typed (Parsed (command p) valid x (current p) (current_arg p)
     (match ctx p with In_short | In_long => ctx p | _ => In_argument (argument_index (bad ++ sargs p) (current p)) None end) (opts p) (bad ++ sargs p))).
  { intros x. unfold typed. cbn [ctx]. destruct (ctx p); exact I. }
  destruct bad as [|first more].
  - destruct (value_of_option d p) as [q|] eqn:V; [apply (value_typed d p q V D)|].
    assert (K : forall m : list str + list str * list subcommand * nat,
      let p1 := match ctx p with In_argument _ _ => if existsb (sub_starts (current p)) subs then with_context In_sub p else p | _ => p end in
      typed (match m with
               | inl v => with_context In_sub (with_path (valid ++ v) p1)
               | inr (v, subs', n) =>
                   let p2 := if n =? 0 then p1 else
                     with_context (let c := if n <? length (raw_args p) then
                                     if (length (raw_args p) =? n + 1) && str_eqb (nth n (raw_args p) []) (current p)
                                     then In_argument 0 None else In_argument (length (sargs p)) None
                                   else In_argument 0 None in
                          if is_option (current p) && negb (existsb (sub_matches (current p)) subs')
                                   then match ctx p with In_short => In_short | In_long => In_long | _ => c end else c) (with_path (valid ++ v) p1) in
                   match value_of_option d p2 with Some q => q | None => p2 end
               end)).
    { intros m p1. assert (T1 : typed p1 /\ command p1 = command p).
      { unfold p1. destruct (ctx p) eqn:C; try (split; [exact T|reflexivity]). destruct (existsb _ subs); (split; [|reflexivity]); [exact I|exact T]. }
      destruct T1 as (T1 & C1). destruct m as [v|[[v subs'] n]]; [exact I|].
      cbn zeta. match goal with |- context [value_of_option d ?x] => set (p2 := x) end.
      assert (X : typed p2 /\ command p2 = command p).
      { unfold p2. destruct (n =? 0); [exact (conj T1 C1)|]. split; [|exact C1]. unfold typed. cbn [ctx with_context]. destruct (_ && negb _); [destruct (ctx p)|]; try exact I; (destruct (n <? _); [destruct (_ && _)|]; exact I). }
      destruct X as (X & Cx). destruct (value_of_option d p2) as [q|] eqn:Vq; [apply (value_typed d p2 q Vq); rewrite Cx; exact D|exact X]. }
    specialize (K (more_subs (current p) subs (raw_args p))). cbn zeta in K.
    destruct (ctx p) eqn:Cx; try exact K.
    + destruct subs; [exact I|exact K].
    + destruct (combined d p); [exact I|exact K].
  - cbn zeta. destruct more as [|m more]; [|apply Bd]. destruct (str_eqb first (current p)); [|apply Bd].
    destruct (existsb (sub_starts first) subs && negb (is_option first)); [exact I|]. destruct (is_option first); [destruct (ctx p); exact I|apply Bd].
Qed.
Lemma correct_command p : command (correct db p) = command p.
Proof.
  unfold correct. destruct (db (command p)) as [d|]; [|reflexivity]. unfold correct1. destruct (walk (d_subs d) (path p)) as [[valid subs] bad].
  assert (V : forall p q, value_of_option d p = Some q -> command q = command p) by (intros x q H; apply value_keeps in H; tauto).
  destruct bad as [|first more].
  - destruct (value_of_option d p) as [q|] eqn:Vo; [apply (V p q Vo)|]. 
    set (p1 := match ctx p with In_argument _ _ => if existsb (sub_starts (current p)) subs then with_context In_sub p else p | _ => p end).
    assert (C1 : command p1 = command p) by (unfold p1; destruct (ctx p); try reflexivity; destruct (existsb _ subs); reflexivity).
    assert (K : forall m : list str + list str * list subcommand * nat, forall c : list subcommand -> nat -> context,
      command (match m with
               | inl v => with_context In_sub (with_path (valid ++ v) p1)
               | inr (v, subs', n) =>
                   let p2 := if n =? 0 then p1 else with_context (c subs' n) (with_path (valid ++ v) p1) in
                   match value_of_option d p2 with Some q => q | None => p2 end
               end) = command p).
    { intros [v|[[v subs'] n]] c; [exact C1|]. cbn zeta. match goal with |- context [value_of_option d ?x] => set (p2 := x) end.
      assert (C2 : command p2 = command p) by (unfold p2; destruct (n =? 0); exact C1). destruct (value_of_option d p2) eqn:E; [rewrite (V p2 _ E)|]; exact C2. }
    assert (M : command match more_subs (current p) subs (raw_args p) with
               | inl v => with_context In_sub (with_path (valid ++ v) p1)
               | inr (v, subs', n) =>
                   let p2 := if n =? 0 then p1 else
                     with_context (let c := if n <? length (raw_args p) then
                                     if (length (raw_args p) =? n + 1) && str_eqb (nth n (raw_args p) []) (current p)
                                     then In_argument 0 None else In_argument (length (sargs p)) None
                                   else In_argument 0 None in
                          if is_option (current p) && negb (existsb (sub_matches (current p)) subs')
                                   then match ctx p with In_short => In_short | In_long => In_long | _ => c end else c) (with_path (valid ++ v) p1) in
                   match value_of_option d p2 with Some q => q | None => p2 end
               end = command p).
    { apply (K _ (fun subs' n => let c := if n <? length (raw_args p) then
                                     if (length (raw_args p) =? n + 1) && str_eqb (nth n (raw_args p) []) (current p)
                                     then In_argument 0 None else In_argument (length (sargs p)) None
                                   else In_argument 0 None in
                          if is_option (current p) && negb (existsb (sub_matches (current p)) subs')
                                   then match ctx p with In_short => In_short | In_long => In_long | _ => c end else c)). }
    unfold p1 in M. destruct (ctx p) eqn:Cx; try exact M.
    + destruct subs; [reflexivity|exact M].
    + destruct (combined d p); [reflexivity|exact M].
  - cbn zeta. destruct more as [|m more]; [|reflexivity]. destruct (str_eqb first (current p)); [|reflexivity].
    destruct (existsb (sub_starts first) subs && negb (is_option first)); [reflexivity|]. destruct (is_option first); reflexivity.
Qed.

Definition from_definitions (s : str) : Prop := exists c d t, db c = Some d /\ type_in d (Script t) /\ fills t s.
Lemma of_type_ran c d t p s : db c = Some d -> type_in d t -> In s (snd (of_type t p)) -> from_definitions s.
Proof.
  intros D T I. destruct t; cbn [Comp_Model.of_type snd] in I; try destruct I as [].  
  - subst s. exists c, d, template. split; [exact D|]. split; [exact T|apply fills_script].
  - destruct H.
Qed.
Lemma gen_argument_ran n p s ty : typed p -> ctx p = In_argument n ty -> In s (snd (gen_argument db files commands other fuzzy shell n ty p)) -> from_definitions s.
Proof.
  intros T C I. unfold typed in T. rewrite C in T. unfold gen_argument in I. destruct ty; [destruct T|]. destruct (db (command p)) as [d|] eqn:D; [|destruct I].
  destruct (argument_definition _ n) as [a|] eqn:A; [|destruct I]. destruct (a_type a) as [t|] eqn:Ta; [|destruct I].
  assert (Ti : type_in d t).
  { left. exists a. split; [|exact Ta]. apply argument_definition_In in A. apply arguments_within in A. exact A. }
  pose proof (of_type_ran (command p) d t p s D Ti) as G. destruct (of_type t p) as [l ran]. apply G. exact I.
Qed.
Lemma gen_value_ran n p s ty : typed p -> ctx p = In_value n ty -> In s (snd (gen_value db files commands other fuzzy shell n ty p)) -> from_definitions s.
Proof.
  intros T C I. unfold typed in T. rewrite C in T. unfold gen_value in I.
  assert (G : forall d t, db (command p) = Some d -> type_in d t -> In s (snd (of_type t p)) -> from_definitions s) by (intros d t; apply of_type_ran).
  destruct ty as [t|].
  - destruct T as (d & D & Ti). specialize (G d t D Ti). destruct (of_type t p) as [l ran]. apply G, I.
  - destruct (db (command p)) as [d|] eqn:D; [|destruct I]. destruct (find _ _) as [o|] eqn:F; [|destruct I]. destruct (o_type o) as [t|] eqn:To; [|destruct I].
    apply find_some in F as (F & _). specialize (G d t eq_refl (available_type d (path p) o t F To)). destruct (of_type t p) as [l ran]. apply G, I.
Qed.
Lemma gen_sub_ran d p l ran s : db (command p) = Some d -> gen_sub files commands other fuzzy shell d p = Found l ran -> In s ran -> from_definitions s.
Proof.
  intros D G I. unfold gen_sub in G. destruct (current_sub (d_subs d) (path p)); [injection G as <- <-; destruct I|].
  destruct (nth_error (d_arguments d) (length (sargs p))) as [a|] eqn:A; [|injection G as <- <-; destruct I]. destruct (a_type a) as [t|] eqn:Ta; [|injection G as <- <-; destruct I].
  pose proof (of_type_ran (command p) d t p s D) as H. destruct (of_type t p) as [m r]. injection G as _ <-. apply H; [|exact I].
  left. exists a. split; [left; apply nth_error_In in A; exact A|exact Ta].
Qed.
Lemma generate_ran : forall n p l ran, typed p -> generate n p = Some (Found l ran) -> forall s, In s ran -> from_definitions s.
Proof.
  induction n as [|n IH]; intros p0 l ran T G s I; [discriminate|]. cbn [Comp_Model.generate] in G. apply correct_typed in T. set (p := correct db p0) in *.
  assert (In_ : forall name l ran, generate n (inner alphabetic alphanumeric printable escape_name p name) = Some (Found l ran) -> forall s, In s ran -> from_definitions s).
  { intros name l' ran' G'. apply (IH (inner alphabetic alphanumeric printable escape_name p name) l' ran'); [|exact G']. unfold inner, Comp_Model.parse. destruct (cursor_tokens _ _) as [ts i]. rewrite <- with_command_same. apply analyze_typed. }
  assert (O : forall f : definition -> parsed -> list candidate, match command_argument db p with
        | Some (_, name) => match generate n (inner alphabetic alphanumeric printable escape_name p name) with
            | Some (Found m ran) => Some (Found (match db (command p) with Some d => f d p | None => [] end ++ m) ran) | r => r end
        | None => Some (match db (command p) with Some d => Found (f d p) [] | None => Missing (command p) end) end = Some (Found l ran) -> from_definitions s).
  { intros f X. destruct (command_argument db p) as [[j name]|].
    - destruct (generate n _) as [[c|m r]|] eqn:Gi; try discriminate. injection X as _ ->. apply (In_ name m ran Gi s I).
    - destruct (db (command p)); [|discriminate]. injection X as _ <-. destruct I. }
  destruct (ctx p) as [| | | |name ty|index ty] eqn:C.
  - injection G as _ <-. destruct I.
  - destruct (db (command p)) as [d|] eqn:D; [|discriminate]. injection G as G. apply (gen_sub_ran d p l ran s D G I).
  - apply (O _ G).
  - apply (O _ G).
  - pose proof (gen_value_ran name p s ty T C) as H. destruct (gen_value _ _ _ _ _ _ name ty p) as [l' r]. injection G as _ ->. apply H, I.
  - pose proof (gen_argument_ran index p s ty T C) as H. destruct (gen_argument _ _ _ _ _ _ index ty p) as [l' r]. cbn [snd] in H.
    destruct (command_argument db p) as [[j name]|]; [|injection G as _ ->; apply H, I]. destruct (j <? index); [|injection G as _ ->; apply H, I].
    destruct (generate n _) as [[c|m r']|] eqn:Gi; try discriminate. injection G as _ <-. apply in_app_iff in I as [I|I]; [apply H, I|apply (In_ name m r' Gi s I)].
Qed.

(** completing runs only the commands that are written in the definitions of completions, with
    texts in the place of their placeholders *)
Theorem C109_only_definitions_run : forall depth line pos l ran, complete_at depth line pos = Some (Found l ran) ->
  forall s, In s ran -> exists c d t, db c = Some d /\ type_in d (Script t) /\ fills t s.
Proof.
  intros depth line pos l ran H s I. unfold Comp_Model.complete_at, collect in H.
  assert (T : typed (convert alphabetic alphanumeric db resolve line pos)).
  { unfold convert. apply correct_typed. unfold Comp_Model.parse. destruct (cursor_tokens line pos) as [ts i]. apply analyze_typed. }
  destruct (ctx _) in H; try (apply (generate_ran _ _ _ _ T H s I)). injection H as _ <-. destruct I.
Qed.
(** so nothing that was typed is run when no command that is written there has a placeholder *)
Theorem C109_nothing_typed_runs_partial : 
  (forall c d t, db c = Some d -> type_in d (Script t) -> ~ In dollar t) ->
  forall depth line pos l ran, complete_at depth line pos = Some (Found l ran) ->
  forall s, In s ran -> exists c d, db c = Some d /\ type_in d (Script s).
Proof.
  intros N depth line pos l ran H s I. destruct (C109_only_definitions_run depth line pos l ran H s I) as (c & d & t & D & T & F).
  apply fills_plain in F; [|apply (N c d t D T)]. subst t. exists c, d. split; assumption.
Qed.
(** with a placeholder, what was typed is run: behind [cmd w a ] the words of [a] are given to sh
    where [$ARG_0] stands, whatever they are *)
Theorem C109_nothing_typed_runs_refuted : forall cmd c d w s a b r ty depth,
  word cmd -> resolve cmd = c -> db c = Some d -> dashed d -> d_arguments d = [] ->
  word w -> looks_like_sub alphabetic alphanumeric w = true -> is_redirect w = false -> find_sub (d_subs d) w = Some s -> s_subs s = [] ->
  word a -> looks_like_sub alphabetic alphanumeric a = false -> is_option a = false -> is_redirect a = false ->
  nth_error (s_arguments s) 1 = Some (Argument ty (Some (Script (b ++ lit "$ARG_0" ++ r)))) -> ~ In dollar b -> ~ In dollar r ->
  contains (lit "$ARG_1") (a ++ r) = false ->
  let line := line_of [cmd; w; a] [] in
  exists l, complete_at (S depth) line (blen line) = Some (Found l [b ++ a ++ r]).
Proof.
  intros cmd c d w s a b r ty depth Wc Rc Dc Ds Da Ww Lw Xw Fw Ss Wa La Oa Xa Na Nb Nr Nc line.
  set (p := Parsed c [w] [a; []] [] (Some []) (In_argument 1 None) [] [a; []]).
  assert (Cr : correct db p = p).
  { unfold correct. cbn [command p]. rewrite Dc. unfold correct1. cbn [path p walk]. rewrite Fw, Ss. fold p.
    assert (V : value_of_option d p = None) by (apply value_none; [exact Ds|cbn [raw_args p]; constructor; [exact Oa|constructor; [reflexivity|constructor]]|reflexivity]).
    rewrite V. cbn [ctx p]. fold p. assert (combined d p = None) as -> by reflexivity. cbn [existsb]. fold p. cbn [raw_args current p more_subs find_sub find]. fold p.
    cbn [existsb]. rewrite andb_false_r. cbn [Nat.eqb]. rewrite V. reflexivity. }
  assert (Cv : convert alphabetic alphanumeric db resolve line (blen line) = p).
  { unfold line. rewrite (convert_line alphabetic alphanumeric db resolve cmd [w; a] []); [|exact Wc|constructor; [exact Ww|constructor; [exact Wa|constructor]]|constructor].
    rewrite <- Cr. f_equal. unfold analyze. rewrite (space_words cmd [w; a] [] Wc). cbn [app leading]. rewrite Lw, La.
    assert (Ec : classify false [a; []] = ([], [a; []])) by (cbn [classify]; rewrite Xa, Oa; reflexivity).
    match goal with |- context [classify false ?l] => change (classify false l) with (classify false [a; []]) end. rewrite Ec. cbn [length Nat.eqb nth Nat.sub]. unfold context_of.
    change (split_inline []) with (@None (str * str)). change (is_long []) with false. change (is_option []) with false. rewrite Oa, Xa. cbn [andb Nat.eqb].
    assert (Mm : mem_str [] [a; []] = true) by (apply mem_str_iff; right; left; reflexivity).
    assert (Ai : argument_index [a; []] [] = 1) by (unfold argument_index; rewrite Mm; reflexivity). 
    change (is_redirect []) with false. change (path_like []) with false. assert (looks_like_sub alphabetic alphanumeric [] = false) as -> by reflexivity.
    match goal with |- context [argument_index ?x ?y] => change (argument_index x y) with (argument_index [a; []] []) end. rewrite Ai. unfold with_command, p. cbn. rewrite Rc. reflexivity. }
  unfold Comp_Model.complete_at, collect. rewrite Cv. cbn [ctx p Comp_Model.generate]. fold p. rewrite Cr. cbn [ctx p]. fold p. unfold gen_argument. cbn [command p]. rewrite Dc. cbn [path p arguments_of]. rewrite Fw. cbn [arguments_of].
  unfold argument_definition. rewrite Na. cbn [a_type Comp_Model.of_type]. fold p.
  assert (command_argument db p = None) as -> by (unfold command_argument; cbn [command p]; rewrite Dc, Da; reflexivity).
  assert (E : script_text (b ++ lit "$ARG_0" ++ r) p = b ++ a ++ r).
  { unfold script_text. cbn [command p current_arg path hd sargs].
    assert (P : forall h x, placeholder h -> starts_with h (lit "$ARG_0" ++ r) = false -> Dmv_Model.replace h x (b ++ lit "$ARG_0" ++ r) = b ++ lit "$ARG_0" ++ r).
    { intros h x Hh Hs. destruct (placeholder_dollar h Hh) as (q & Eq). rewrite (Dmv_Props.replace_pass h x dollar q b _ Eq Nb). f_equal.
      change (lit "$ARG_0" ++ r) with (dollar :: (lit "ARG_0" ++ r)) in Hs |- *. unfold Dmv_Model.replace. cbn [Dmv_Model.replace_from]. rewrite Hs. f_equal.
      assert (Nd : ~ In dollar (lit "ARG_0" ++ r)).
      { intros I. apply in_app_iff in I as [I|I]; [|exact (Nr I)]. apply mem_char_iff in I. discriminate I. }
      apply (Dmv_Props.replace_absent h x dollar q _ Eq Nd). }
    rewrite (P (lit "$COMMAND")), (P (lit "$CURRENT_TOKEN")), (P (lit "$SUBCOMMAND")); try reflexivity; try (unfold placeholder; tauto).
    cbn [replace_args]. change (Dmv_Model.show 0) with (lit "0"). change (Dmv_Model.show 1) with (lit "1"). change (lit "$ARG_" ++ lit "0") with (lit "$ARG_0"). change (lit "$ARG_" ++ lit "1") with (lit "$ARG_1").
    rewrite (Dmv_Props.replace_pass (lit "$ARG_0") a dollar (lit "ARG_0") b _ eq_refl Nb), Dmv_Props.replace_hit by discriminate.
    rewrite (Dmv_Props.replace_absent (lit "$ARG_0") a dollar (lit "ARG_0") r eq_refl Nr).
    rewrite (Dmv_Props.replace_pass (lit "$ARG_1") [] dollar (lit "ARG_1") b _ eq_refl Nb). f_equal. apply replace_missing, Nc. }
  rewrite E. eexists. reflexivity.
Qed.
End C109.

(** ** C112 *)
(** completing ends, for every line and cursor: there is a depth of calls that suffices, and more
    of it changes nothing.  The commands that run other commands are called by a name of which
    something is left when quotes, backslashes and blanks are dropped. *)
Theorem C112_completion_ends : forall alphabetic alphanumeric db printable escape_name files commands other fuzzy shell resolve,
  printable 32%N = true ->
  (forall c, escape_name c <> [] /\ forall x, In x (escape_name c) -> printable x = true /\ ~ In x [34; 92; 32]%N) ->
  (forall c d a, db c = Some d -> In a (d_arguments d) -> a_type a = Some Command_with_args -> exists x, In x c /\ ~ In x [34; 92; 32]%N) ->
  forall line pos, exists bound r, forall depth, bound <= depth ->
  complete_at alphabetic alphanumeric db printable escape_name files commands other fuzzy shell resolve depth line pos = Some r.
Proof.
  intros al an db pr en files commands other fuzzy shell resolve Bp En Wn line pos.
  assert (S : forall x, silent x = false <-> ~ In x [34; 92; 32]%N).
  { intros x. unfold silent. cbn [In]. destruct (N.eqb_spec x 34) as [-> |]; [split; [discriminate|tauto]|]. destruct (N.eqb_spec x 92) as [-> |]; [split; [discriminate|tauto]|].
    destruct (N.eqb_spec x 32) as [-> |]; [split; [discriminate|tauto]|]. split; [|reflexivity]. intros _ [H|[H|[H|[]]]]; congruence. }
  destruct (complete_ends al an db pr en files commands other fuzzy shell resolve Bp) with (line := line) (pos := pos) as (bound & B).
  - intros c. destruct (En c) as (_ & E). apply Forall_forall. intros x I. destruct (E x I) as (P & N). split; [exact P|apply S, N].
  - intros c (d & a & D & I & T). destruct (Wn c d a D I T) as (x & Ix & Nx). apply S in Nx.
    assert (G : forall s, In x s -> 0 < mass pr en s).
    { induction s as [|y s IH]; [intros []|]. intros [-> | J]; cbn [mass]; [|specialize (IH J); lia]. unfold weight. rewrite Nx. destruct (pr x); [lia|]. destruct (En x) as (E & _). destruct (en x); [congruence|cbn; lia]. }
    apply G, Ix.
  - destruct (complete_at al an db pr en files commands other fuzzy shell resolve bound line pos) as [r|] eqn:E; [|exfalso; exact (B bound (le_n _) E)].
    exists bound, r. intros depth L. induction L as [|m _ IH]; [exact E|]. apply complete_more, IH.
Qed.

(** ** Examples *)
Definition remotes : definition :=
  Definition_ [Sub (lit "push") [] [] [Argument false (Some (Script (lit "git remote"))); Argument false (Some (Script (lit "git branch -r --list $ARG_0/*")))] []] [] [].
Definition sudo : definition := Definition_ [] [] [Argument true (Some Command_with_args)].
Definition remotes_db (c : str) : option definition :=
  if str_eqb c (lit "git") then Some remotes else if str_eqb c (lit "sudo") then Some sudo else None.
Definition ascii_letter (c : char) : bool := ((65 <=? c)%N && (c <=? 90)%N) || ((97 <=? c)%N && (c <=? 122)%N).
Definition remotes_complete (line : string) : option outcome :=
  complete_at ascii_letter (fun c => ascii_letter c || is_digit c) remotes_db (fun _ => true) (fun _ => lit "n") (fun _ => []) (fun _ => []) (fun _ _ => [])
    (fun _ _ => true) (fun s => s) (fun c => c) 5 (lit line) (String.length line).
Definition ran_of (o : option outcome) : option (list str) := match o with Some (Found _ ran) => Some ran | _ => None end.
Example C109_example : ran_of (remotes_complete "git push ") = Some [lit "git remote"] /\
  ran_of (remotes_complete "git push $(reboot) ") = Some [lit "git branch -r --list $(reboot)/*"].
Proof. vm_compute. auto. Qed.
Example C109_example_hypotheses : word (lit "$(reboot)") /\ dashed remotes /\
  looks_like_sub ascii_letter (fun c => ascii_letter c || is_digit c) (lit "$(reboot)") = false /\
  looks_like_sub ascii_letter (fun c => ascii_letter c || is_digit c) (lit "push") = true /\
  contains (lit "$ARG_1") (lit "$(reboot)/*") = false.
Proof.
  split; [|split; [|split; [|split]]]; try reflexivity.
  - split; [repeat (constructor; [split; [cbn; intuition discriminate|reflexivity]|]); constructor|discriminate].
  - intros p o n I. exfalso. destruct p as [|x p]; [destruct I|]. unfold available in I. cbn [path_options remotes d_subs d_globals app] in I. unfold find_sub in I. cbn [find] in I.
    destruct (sub_matches x _) in I; [|destruct I]. cbn [s_options s_subs app] in I. destruct p; destruct I.
Qed.
(** nested commands *)
Example C112_example : remotes_complete "sudo git p" = Some (Found [Candidate (lit "push") K_sub 100] []).
Proof. vm_compute. reflexivity. Qed.
Print Assumptions C109_only_definitions_run.
Print Assumptions C109_nothing_typed_runs_partial.
Print Assumptions C109_nothing_typed_runs_refuted.
Print Assumptions C112_completion_ends.
