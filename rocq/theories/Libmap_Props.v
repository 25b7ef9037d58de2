(** C151 printing Lisp values, C152 hash maps. *)
From Verif Require Import Base Lread_Model Lisp_Model Library_Model Library_Spec Library_Props.
From Coq Require Import ZArith Lia.

(** ** C151 *)
Lemma show_lambda c ns body : show (LLambda c ns body) =
  match show (LList body) with
  | Some b => match cut_body b with Some u => Some (lit "<func:(lambda " ++ (lit "(" ++ join_with [32%N] ns ++ lit ") " ++ u) ++ lit ")>") | None => None end
  | None => None
  end.
Proof. cbn [show]. destruct body as [|x body]; [reflexivity|]. destruct (show x); [|reflexivity]. match goal with |- context [match ?E body with Some _ => _ | None => _ end] => destruct (E body) as [t|]; [|reflexivity] end. destruct (cut_body _); reflexivity. Qed.
Lemma show_macro c ns body : show (LMacro c ns body) =
  match show (LList body) with
  | Some b => match cut_body b with Some u => Some (lit "(macro " ++ (lit "(" ++ join_with [32%N] ns ++ lit ") " ++ u) ++ lit ")") | None => None end
  | None => None
  end.
Proof. cbn [show]. destruct body as [|x body]; [reflexivity|]. destruct (show x); [|reflexivity]. match goal with |- context [match ?E body with Some _ => _ | None => _ end] => destruct (E body) as [t|]; [|reflexivity] end. destruct (cut_body _); reflexivity. Qed.
Inductive Shown : list lv -> list str -> Prop :=
| Shown_nil : Shown [] []
| Shown_cons v l s ts : show v = Some s -> Shown l ts -> Shown (v :: l) (s :: ts).
Lemma show_list l ts : Shown l ts -> l <> [] -> show (LList l) = Some (lit "(" ++ join_with [32%N] ts ++ lit ")").
Proof.
  intros H N. assert (E : forall l ts, Shown l ts -> (fix each (l : list lv) : option (list str) := match l with [] => Some [] | x :: r => match show x with Some s => match each r with Some t => Some (s :: t) | None => None end | None => None end end) l = Some ts).
  { clear. intros l ts H. induction H as [|v m s ts E _ IH]; [reflexivity|]. rewrite E, IH. reflexivity. }
  destruct H as [|x l s ts Es Hs]; [contradiction|]. cbn [show]. rewrite Es, (E l ts Hs). reflexivity.
Qed.
Lemma ascii_app a b : ascii a -> ascii b -> ascii (a ++ b).
Proof. intros A B. apply Forall_app. split; assumption. Qed.
Lemma ascii_blen s : ascii s -> blen s = length s.
Proof.
  induction 1 as [|c s C _ IH]; [reflexivity|]. change (utf8_len c + blen s = S (length s)). rewrite IH. unfold utf8_len.
  destruct (N.ltb_spec c 128); [reflexivity|lia].
Qed.
Lemma ascii_join ts : Forall ascii ts -> ascii (join_with [32%N] ts).
Proof.
  induction 1 as [|t ts T F IH]; [constructor|]. cbn [join_with]. destruct ts as [|u ts]; [exact T|].
  apply ascii_app; [exact T|]. apply ascii_app; [|exact IH]. constructor; [lia|constructor].
Qed.
(** the text between the brackets is kept, when it is ASCII *)
Lemma cut_ascii t : ascii t -> cut_body (lit "(" ++ t ++ lit ")") = Some t.
Proof.
  intros A. unfold cut_body. replace (length (lit "(" ++ t ++ lit ")")) with (S (S (length t))) by (rewrite !app_length; change (length (lit "(")) with 1; change (length (lit ")")) with 1; lia).
  replace (split_byte (lit "(" ++ t ++ lit ")") 1) with (Some (lit "(", t ++ lit ")")) by (symmetry; apply (split_byte_app (lit "("))). cbn [Nat.ltb Nat.leb]. replace (S (length t) - 1) with (blen t) by (rewrite ascii_blen by exact A; lia).
  rewrite split_byte_app. reflexivity.
Qed.
Lemma lit_ascii s : forallb (fun c => (c <? 128)%N) s = true -> ascii s.
Proof. intros H. apply Forall_forall. intros c I. rewrite forallb_forall in H. apply N.ltb_lt, H, I. Qed.
Lemma digits_ascii f : forall n, ascii (digits f n).
Proof.
  induction f as [|f IH]; intros n; [constructor|]. cbn [digits]. destruct (N.ltb_spec n 10).
  - constructor; [lia|constructor].
  - apply ascii_app; [apply IH|]. pose proof (N.mod_lt n 10). constructor; [lia|constructor].
Qed.
Lemma int_ascii z : ascii (show_int z).
Proof. unfold show_int. destruct (z <? 0)%Z; [constructor; [vm_compute; reflexivity|]|]; apply digits_ascii. Qed.
Lemma shown_ascii v : Ascii v -> exists s, show v = Some s /\ ascii s.
Proof.
  revert v. fix IH 2. intros v A.
  assert (L : forall l, Forall Ascii l -> exists s, show (LList l) = Some s /\ ascii s /\ (l = [] \/ exists t, s = lit "(" ++ t ++ lit ")" /\ ascii t)).
  { intros l F. assert (S : exists ts, Shown l ts /\ Forall ascii ts).
    { revert l F. fix IHl 2. intros l F. destruct F as [|x l Px F]; [exists []; split; constructor|].
      destruct (IHl l F) as (ts & Hs & Ha). destruct (IH x Px) as (s & Es & As). exists (s :: ts). split; constructor; assumption. }
    destruct S as (ts & Hs & Ha). destruct l as [|x l]; [exists (lit "NIL"); split; [reflexivity|split; [apply lit_ascii; reflexivity|left; reflexivity]]|].
    exists (lit "(" ++ join_with [32%N] ts ++ lit ")"). split; [apply show_list; [exact Hs|discriminate]|].
    pose proof (ascii_join ts Ha) as J. split; [repeat apply ascii_app; try exact J; apply lit_ascii; reflexivity|]. right. exists (join_with [32%N] ts). split; [reflexivity|exact J]. }
  assert (B : forall l, Forall Ascii l -> exists s u, show (LList l) = Some s /\ cut_body s = Some u /\ ascii u).
  { intros l F. destruct (L l F) as (s & E & _ & [-> |(t & -> & T)]); [exists (lit "NIL"), (lit "I"); split; [reflexivity|split; [reflexivity|apply lit_ascii; reflexivity]]|].
    eexists _, t. split; [exact E|]. split; [apply cut_ascii, T|exact T]. }
  destruct A as [| |z|s As|s As|s As|n|l F|c ns body Fn F|c ns body Fn F|f l].
  - exists (lit "T"). split; [reflexivity|apply lit_ascii; reflexivity].
  - exists (lit "F"). split; [reflexivity|apply lit_ascii; reflexivity].
  - exists (show_int z). split; [reflexivity|apply int_ascii].
  - exists s. split; [reflexivity|exact As].
  - exists s. split; [reflexivity|exact As].
  - exists s. split; [reflexivity|exact As].
  - eexists. split; [reflexivity|apply lit_ascii; reflexivity].
  - destruct (L l F) as (s & E & As & _). exists s. split; assumption.
  - destruct (B body F) as (s & u & E & C & U). rewrite show_lambda, E, C. eexists. split; [reflexivity|].
    pose proof (ascii_join ns Fn). repeat apply ascii_app; try assumption; apply lit_ascii; reflexivity.
  - destruct (B body F) as (s & u & E & C & U). rewrite show_macro, E, C. eexists. split; [reflexivity|].
    pose proof (ascii_join ns Fn). repeat apply ascii_app; try assumption; apply lit_ascii; reflexivity.
  - eexists. split; [reflexivity|apply lit_ascii; reflexivity].
Qed.
(** Every value whose texts are ASCII is printed. *)
Theorem C151_ascii_partial v : Ascii v -> show v <> None.
Proof. intros A. destruct (shown_ascii v A) as (s & E & _). congruence. Qed.
(** So is every value without functions, whatever its texts. *)
Theorem C151_data_partial v : NoLambda v -> show v <> None.
Proof.
  intros H. cut (exists s, show v = Some s); [intros [s ->]; discriminate|]. revert v H. fix IH 2. intros v H. destruct H as [v L F|l F].
  - destruct v as [| |z|s|s|l|s|n|c ns b|c ns b|f l]; try (eexists; reflexivity); [destruct (L l eq_refl)|destruct (proj1 (F c ns b) eq_refl)|destruct (proj2 (F c ns b) eq_refl)].
  - assert (S : exists ts, Shown l ts).
    { revert l F. fix IHl 2. intros l F. destruct F as [|x l Px F]; [exists []; constructor|]. destruct (IHl l F) as [ts Hs]. destruct (IH x Px) as [s Es]. exists (s :: ts). constructor; assumption. }
    destruct S as [ts Hs]. destruct l as [|x l]; [eexists; reflexivity|]. eexists. apply show_list; [exact Hs|discriminate].
Qed.
(** A list is its elements, one space between each. *)
Theorem C151_list l ts : Shown l ts -> l <> [] -> show (LList l) = Some (lit "(" ++ join_with (lit " ") ts ++ lit ")").
Proof. apply show_list. Qed.
(** A function is its arguments and its body, when what is printed of the body is ASCII. *)
Theorem C151_function_partial c ns body t : show (LList body) = Some (lit "(" ++ t ++ lit ")") -> ascii t ->
  show (LLambda c ns body) = Some (lit "<func:(lambda (" ++ join_with (lit " ") ns ++ lit ") " ++ t ++ lit ")>").
Proof. intros E A. rewrite show_lambda, E, (cut_ascii t A). f_equal. rewrite <- !app_assoc. reflexivity. Qed.
Lemma wide_blen t : ~ ascii t -> length t < blen t.
Proof.
  induction t as [|c t IH]; intros H; [destruct H; constructor|]. change (S (length t) < utf8_len c + blen t).
  destruct (N.ltb_spec c 128) as [L|L].
  - assert (X : ~ ascii t) by (intros X; apply H; constructor; assumption). specialize (IH X). pose proof (utf8_len_pos c). lia.
  - pose proof (length_le_blen t). assert (2 <= utf8_len c); [|lia]. unfold utf8_len. destruct (N.ltb_spec c 128); [lia|]. destruct (_ <? _)%N; [|destruct (_ <? _)%N]; lia.
Qed.
(** Else the body is cut short, or the shell panics. *)
Theorem C151_function_refuted c ns body t : show (LList body) = Some (lit "(" ++ t ++ lit ")") -> ~ ascii t ->
  show (LLambda c ns body) = None \/
  exists u w, t = u ++ w /\ w <> [] /\ show (LLambda c ns body) = Some (lit "<func:(lambda (" ++ join_with (lit " ") ns ++ lit ") " ++ u ++ lit ")>").
Proof.
  intros E A. rewrite show_lambda, E. unfold cut_body. replace (length (lit "(" ++ t ++ lit ")")) with (S (S (length t))) by (rewrite !app_length; change (length (lit "(")) with 1; change (length (lit ")")) with 1; lia).
  replace (split_byte (lit "(" ++ t ++ lit ")") 1) with (Some (lit "(", t ++ lit ")")) by (symmetry; apply (split_byte_app (lit "("))). cbn [Nat.ltb Nat.leb]. replace (S (length t) - 1) with (length t) by lia.
  destruct (split_byte (t ++ lit ")") (length t)) as [[u w]|] eqn:X; [right|left; reflexivity].
  apply split_byte_sound in X as [X Y]. pose proof (wide_blen t A) as L.
  assert (P : exists w', t = u ++ w').
  { clear -X Y L. revert X L Y. generalize (length t) as k. intros k X L Y. revert t X k L Y. induction u as [|c u IH]; intros t X k L Y; [exists t; reflexivity|].
    destruct t as [|d t]; [cbn in L; lia|]. cbn [app] in X. injection X as Ed X'. subst d. change (utf8_len c + blen u = k) in Y. change (k < utf8_len c + blen t) in L.
    destruct (IH t X' (blen u)) as [w' ->]; [lia|reflexivity|]. exists w'. reflexivity. }
  destruct P as [w' ->]. exists u, w'. split; [reflexivity|]. split; [intros ->; rewrite app_nil_r in L, Y; lia|]. f_equal. rewrite <- !app_assoc. reflexivity.
Qed.
(** the panic: a function that returns one character, not ASCII *)
Theorem C151_panic_refuted c ns x : (128 <= x)%N -> show (LLambda c ns [LStr [x]]) = None.
Proof.
  intros H. assert (E : show (LList [LStr [x]]) = Some (lit "(" ++ [x] ++ lit ")")) by reflexivity.
  rewrite show_lambda, E. unfold cut_body. change (length (lit "(" ++ [x] ++ lit ")")) with 3. cbn iota. replace (split_byte (lit "(" ++ [x] ++ lit ")") 1) with (Some (lit "(", [x] ++ lit ")")) by (symmetry; apply (split_byte_app (lit "("))).
  cbn [Nat.ltb Nat.leb]. change (2 - 1) with 1. cbn [app split_byte]. assert (U : 2 <= utf8_len x) by (unfold utf8_len; destruct (N.ltb_spec x 128); [lia|]; destruct (_ <? _)%N; [|destruct (_ <? _)%N]; lia).
  destruct (Nat.leb_spec (utf8_len x) 1); [lia|]. reflexivity.
Qed.
(** a function without a body is printed as one with the body I *)
Theorem C151_empty_refuted c ns : show (LLambda c ns []) = Some (lit "<func:(lambda (" ++ join_with (lit " ") ns ++ lit ") " ++ lit "I" ++ lit ")>").
Proof.
  rewrite show_lambda. change (Some (lit "<func:(lambda " ++ (lit "(" ++ join_with [32%N] ns ++ lit ") " ++ lit "I") ++ lit ")>") = Some (lit "<func:(lambda (" ++ join_with (lit " ") ns ++ lit ") " ++ lit "I" ++ lit ")>")).
  rewrite <- !app_assoc. reflexivity.
Qed.

(** ** C152 *)
Section Maps.
Variable other_eq : str -> str -> bool.
Notation find_key := (find_key other_eq).
Notation put_key := (put_key other_eq).
Notation hash := (hash other_eq).
Notation hash_get := (hash_get other_eq).
Notation hash_set := (hash_set other_eq).
Lemma veq_same k : Plain k -> veq other_eq k k = true.
Proof. intros P. apply veq_iff; [exact P|reflexivity]. Qed.
Lemma find_put k v t : Plain k -> find_key k (put_key k v t) = Some v.
Proof.
  intros P. induction t as [|[x w] t IH]; cbn [Library_Model.put_key Library_Model.find_key]; [rewrite veq_same by exact P; reflexivity|].
  destruct (veq other_eq k x) eqn:E; cbn [Library_Model.find_key]; rewrite E; [reflexivity|exact IH].
Qed.
Lemma find_put_other k k' v t : Plain k -> Plain k' -> k <> k' -> find_key k' (put_key k v t) = find_key k' t.
Proof.
  intros P P' N. assert (F : veq other_eq k' k = false) by (destruct (veq other_eq k' k) eqn:E; [apply veq_iff in E; congruence|reflexivity]).
  induction t as [|[x w] t IH]; cbn [Library_Model.put_key Library_Model.find_key]; [rewrite F; reflexivity|].
  destruct (veq other_eq k x) eqn:E; cbn [Library_Model.find_key].
  - apply veq_iff in E; [subst x|exact P]. rewrite F. reflexivity.
  - rewrite IH. reflexivity.
Qed.
Lemma nth_update f : forall maps m i, nth_error (update m f maps) i = if i =? m then option_map f (nth_error maps i) else nth_error maps i.
Proof.
  induction maps as [|t maps IH]; intros m i; [destruct m, i; cbn; try destruct (_ =? _); reflexivity|].
  destruct m as [|m], i as [|i]; try reflexivity. cbn [update nth_error Nat.eqb]. apply IH.
Qed.
(** What is put under a key is found under it, by everyone who holds the map; nothing else changes. *)
Theorem C152_set_get_partial m k v maps : Plain k -> m < length maps ->
  hash_get m k (hash_set m k v maps) = v /\
  (forall k', Plain k' -> k <> k' -> hash_get m k' (hash_set m k v maps) = hash_get m k' maps) /\
  (forall m' k', m <> m' -> hash_get m' k' (hash_set m k v maps) = hash_get m' k' maps) /\
  length (hash_set m k v maps) = length maps.
Proof.
  intros P L. unfold Library_Model.hash_get, Library_Model.hash_set. apply nth_error_Some in L. destruct (nth_error maps m) as [t|] eqn:E; [|contradiction].
  split; [rewrite nth_update, Nat.eqb_refl, E; cbn [option_map]; rewrite find_put by exact P; reflexivity|].
  split; [intros k' P' N; rewrite nth_update, Nat.eqb_refl, E; cbn [option_map]; rewrite find_put_other by assumption; reflexivity|].
  split; [intros m' k' N; rewrite nth_update; destruct (Nat.eqb_spec m' m); [congruence|reflexivity]|].
  clear. revert m. induction maps as [|t maps IH]; intros [|m]; try reflexivity. cbn [update length]. f_equal. apply IH.
Qed.
Lemma pairs_flat ps : forall t, pairs other_eq (flat ps) t = Some (fold_left (fun t p => put_key (fst p) (snd p) t) ps t).
Proof. induction ps as [|[k v] ps IH]; intros t; [reflexivity|]. change (pairs other_eq (k :: v :: flat ps) t = Some (fold_left (fun t p => put_key (fst p) (snd p) t) ps (put_key k v t))). cbn [pairs]. apply IH. Qed.
Lemma fold_other ps k : forall t, Plain k -> Forall (fun p => Plain (fst p)) ps -> ~ In k (map fst ps) ->
  find_key k (fold_left (fun t p => put_key (fst p) (snd p) t) ps t) = find_key k t.
Proof.
  induction ps as [|[x w] ps IH]; intros t P F N; [reflexivity|]. cbn [fold_left fst snd]. inversion F as [|? ? Px Fp]; subst. cbn [fst] in Px. cbn [map fst In] in N.
  rewrite IH by tauto. apply find_put_other; [exact Px|exact P|intros ->; apply N; left; reflexivity].
Qed.
(** A new map, known to no one else, holds the last value given for each key. *)
Theorem C152_new_partial ps maps : Forall (fun p => Plain (fst p)) ps ->
  exists maps', hash (flat ps) maps = Some (length maps, maps') /\ length maps' = S (length maps) /\
  (forall k v, holds ps k v -> hash_get (length maps) k maps' = v) /\
  (forall k, Plain k -> ~ In k (map fst ps) -> hash_get (length maps) k maps' = LList []) /\
  (forall m k, m < length maps -> hash_get m k maps' = hash_get m k maps).
Proof.
  intros F. unfold Library_Model.hash. rewrite pairs_flat. eexists. split; [reflexivity|]. split; [rewrite app_length; cbn; lia|].
  unfold Library_Model.hash_get. rewrite nth_error_app2, Nat.sub_diag by lia. cbn [nth_error].
  split; [|split].
  - intros k v (a & b & -> & N). apply Forall_app in F as [_ F]. inversion F as [|? ? Pk Fb]; subst. cbn [fst] in Pk.
    rewrite fold_left_app. cbn [fold_left fst snd]. rewrite fold_other by assumption. rewrite find_put by exact Pk. reflexivity.
  - intros k P N. rewrite fold_other by assumption. reflexivity.
  - intros m k L. rewrite nth_error_app1 by exact L. reflexivity.
Qed.
(** An odd number of arguments makes no map. *)
Theorem C152_odd ps k maps : hash (flat ps ++ [k]) maps = None.
Proof.
  unfold Library_Model.hash. assert (E : forall t, pairs other_eq (flat ps ++ [k]) t = None).
  { induction ps as [|[x w] ps IH]; intros t; [reflexivity|]. change (flat ((x, w) :: ps) ++ [k]) with (x :: w :: (flat ps ++ [k])). cbn [pairs]. apply IH. }
  rewrite E. reflexivity.
Qed.
(** What is put under a native function is never found. *)
Theorem C152_native_refuted m n v maps : hash_get m (LNative n) (hash_set m (LNative n) v maps) = LList [].
Proof.
  unfold Library_Model.hash_get. destruct (nth_error _ m) as [t|]; [|reflexivity]. assert (E : find_key (LNative n) t = None); [|rewrite E; reflexivity].
  induction t as [|[x w] t IH]; [reflexivity|]. cbn [Library_Model.find_key]. exact IH.
Qed.
End Maps.

(** ** examples *)
Example C151_case :
  show (LList [LInt 1; LStr (lit "a b"); LList []]) = Some (lit "(1 a b NIL)") /\
  show (LLambda 0 [lit "x"] [LSym (lit "+"); LSym (lit "x"); LInt 1]) = Some (lit "<func:(lambda (x) + x 1)>") /\
  show (LLambda 0 [] [LStr [233%N]]) = None /\
  show (LLambda 0 [] [LStr [233%N]; LStr [233%N]; LSym (lit "a")]) = Some (lit "<func:(lambda () " ++ [233%N; 32%N; 233%N] ++ lit ")>").
Proof. vm_compute. repeat (split; [reflexivity|]). reflexivity. Qed.
Example C152_case :
  exists maps, hash str_eqb [LStr (lit "a"); LInt 1; LStr (lit "b"); LInt 2; LStr (lit "a"); LInt 3] [[]] = Some (1, maps) /\
  hash_get str_eqb 1 (LStr (lit "a")) maps = LInt 3 /\ hash_get str_eqb 1 (LStr (lit "a")) (hash_set str_eqb 1 (LStr (lit "a")) LTrue maps) = LTrue.
Proof. eexists. split; [reflexivity|]. split; reflexivity. Qed.

Print Assumptions C151_ascii_partial.
Print Assumptions C151_data_partial.
Print Assumptions C151_list.
Print Assumptions C151_function_partial.
Print Assumptions C151_function_refuted.
Print Assumptions C151_panic_refuted.
Print Assumptions C151_empty_refuted.
Print Assumptions C152_set_get_partial.
Print Assumptions C152_new_partial.
Print Assumptions C152_odd.
Print Assumptions C152_native_refuted.
