From Verif Require Import Base Lread_Model Lisp_Model Lisp_Spec.

Section Proofs.
Variable W : Type.
Variable native : nat -> str -> list lv -> M W lv.
Variable set_variable : W -> str -> lv -> W.
Variable add_autocomplete : W -> list lv -> W.
Hypothesis Hnat : good_native native.
Notation state := (state W).
Notation M := (M W).
Notation Ok := (Ok W _).
Notation Err := (Err W _).
Notation Fuel := (Fuel W _).
Notation good := (@good W).
Notation call := (call W native).
Notation settle := (settle W native).
Notation step := (step W native set_variable add_autocomplete).
Notation eval := (eval W native set_variable add_autocomplete).

(** ** the heap *)
Lemma get_plain h : good_heap h -> forall i k v, get h i k = Some v -> Data v.
Proof.
  induction h as [|fr h IH]; intros H i k v; [discriminate|]. inversion H as [|? ? H1 H2]; subst. cbn [get]. destruct (i =? length h).
  - destruct (assoc k (entries fr)) as [w|] eqn:E.
    + intros [= <-]. clear -H1 E. induction (entries fr) as [|[x u] l IHl]; [discriminate|]. cbn [assoc] in E. inversion H1; subst.
      destruct (str_eqb x k); [injection E as <-; assumption|auto].
    + destruct (parent fr); [eauto|discriminate].
  - eauto.
Qed.
Lemma put_plain k v l : Data v -> Forall (fun p : str * lv => Data (snd p)) l -> Forall (fun p => Data (snd p)) (put k v l).
Proof. intros Hv. induction 1 as [|[x u] l H1 H2 IH]; cbn [put]; [repeat constructor; exact Hv|]. destruct (str_eqb x k); constructor; auto. Qed.
Lemma define_good h i k v : good_heap h -> Data v -> good_heap (define h i k v).
Proof.
  intros H Hv. induction H as [|fr h H1 H2 IH]; cbn [define]; [constructor|]. destruct (i =? length h); constructor; auto. cbn. now apply put_plain.
Qed.
Lemma set_good h k v : good_heap h -> Data v -> forall i h', set h i k v = Some h' -> good_heap h'.
Proof.
  intros H Hv. induction H as [|fr h H1 H2 IH]; intros i h'; cbn [set]; [discriminate|]. destruct (i =? length h).
  - destruct (assoc k (entries fr)); [intros [= <-]; constructor; [now apply put_plain|exact H2]|].
    destruct (parent fr); [|discriminate]. destruct (set h n k v) eqn:E; [|discriminate]. intros [= <-]. constructor; [exact H1|eapply IH; exact E].
  - destruct (set h i k v) eqn:E; [|discriminate]. intros [= <-]. constructor; [exact H1|eapply IH; exact E].
Qed.

(** ** simulation: [m2] gives the same as [m1] from some fuel on *)
Definition post {A} (P : A -> Prop) (r : res W A) : Prop := match r with Lisp_Model.Ok _ _ a s => P a /\ good s | Lisp_Model.Err _ _ s => good s | _ => True end.
Definition SimE {A} (m1 : M A) (m2 : nat -> M A) (P : A -> Prop) : Prop :=
  forall s, good s -> m1 s <> Fuel -> post P (m1 s) /\ exists f0, forall f, f0 <= f -> m2 f s = m1 s.

Lemma bindE {A B} (m1 : M A) m2 (P : A -> Prop) (k1 : A -> M B) k2 (Q : B -> Prop) :
  SimE m1 m2 P -> (forall a, P a -> SimE (k1 a) (fun f => k2 f a) Q) -> SimE (bind W m1 k1) (fun f => bind W (m2 f) (k2 f)) Q.
Proof.
  intros H K s Hs Hf. unfold bind in *. destruct (H s Hs) as (Hp & f0 & E); [intros E; apply Hf; now rewrite E|].
  destruct (m1 s) as [a s'|s'|] eqn:E1; [|split; [exact Hp|exists f0; intros f Hff; now rewrite (E f Hff)]|congruence].
  destruct Hp as [Ha Hs']. destruct (K a Ha s' Hs' Hf) as (Hp2 & f1 & E2). split; [exact Hp2|]. exists (Nat.max f0 f1). intros f Hff. rewrite E by lia. apply E2. lia.
Qed.
Lemma constE {A} (m : M A) (P : A -> Prop) : (forall s, good s -> post P (m s)) -> SimE m (fun _ => m) P.
Proof. intros H s Hs Hf. split; [now apply H|]. exists 0. reflexivity. Qed.
Lemma retE {A} (a : A) (P : A -> Prop) : P a -> SimE (ret W a) (fun _ => ret W a) P.
Proof. intros H. apply constE. intros s Hs. now split. Qed.
Lemma failE {A} (P : A -> Prop) : SimE (fail W) (fun _ => fail W) P.
Proof. apply constE. intros s Hs. exact Hs. Qed.
Lemma getE i k : SimE (m_get W i k) (fun _ => m_get W i k) Data.
Proof. apply constE. intros s Hs. unfold m_get. destruct (get (hp W s) i k) eqn:E; [split; [eapply get_plain; [exact Hs|exact E]|exact Hs]|exact Hs]. Qed.
Lemma defineE i k v : Data v -> SimE (m_define W i k v) (fun _ => m_define W i k v) (fun _ => True).
Proof. intros H. apply constE. intros s Hs. split; [exact I|]. now apply define_good. Qed.
Lemma setE i k v : Data v -> SimE (m_set W i k v) (fun _ => m_set W i k v) (fun _ => True).
Proof. intros H. apply constE. intros s Hs. unfold m_set. destruct (set (hp W s) i k v) eqn:E; [|exact Hs]. split; [exact I|]. eapply set_good; [exact Hs|exact H|exact E]. Qed.
Lemma extendE p : SimE (m_extend W p) (fun _ => m_extend W p) (fun _ => True).
Proof. apply constE. intros s Hs. split; [exact I|]. constructor; [constructor|exact Hs]. Qed.
Lemma worldE f : SimE (m_world W f) (fun _ => m_world W f) (fun _ => True).
Proof. apply constE. intros s Hs. split; [exact I|exact Hs]. Qed.
Lemma weakE {A} (m1 : M A) m2 (P Q : A -> Prop) : (forall a, P a -> Q a) -> SimE m1 m2 P -> SimE m1 m2 Q.
Proof. intros H S s Hs Hf. destruct (S s Hs Hf) as (Hp & E). split; [|exact E]. destruct (m1 s); cbn in *; intuition. Qed.

Lemma map_mE (g1 : lv -> M lv) (g2 : nat -> lv -> M lv) (P : lv -> lv -> Prop) l :
  Forall (fun x => SimE (g1 x) (fun f => g2 f x) (P x)) l -> SimE (map_m W g1 l) (fun f => map_m W (g2 f) l) (Forall2 P l).
Proof.
  induction 1 as [|x l H1 H2 IH]; cbn [map_m]; [apply retE; constructor|].
  eapply bindE; [exact H1|]. intros a Ha. eapply bindE; [exact IH|]. intros vs Hvs. apply retE. now constructor.
Qed.

(** where the code never leaves a pending call *)
Definition exact_ctx (c : ctx) : Prop := quoting c = true \/ found_tail c = true \/ in_func c = false.
Definition adm (c : ctx) (e : lv) : Prop := if quoting c then Template e else Code e.
Lemma exact_not_tail c : exact_ctx (not_tail c).
Proof. right. now left. Qed.

Lemma data_cons h t : Data (LList (h :: t)) -> Data h /\ Forall Data t.
Proof. intros H. inversion H as [| | | | | | | | |l H1]; subst. inversion H1; now subst. Qed.
Lemma data_tail h t : Data (LList (h :: t)) -> Forall Data t.
Proof. intros H. now apply data_cons in H. Qed.
Lemma data_code e : Data e -> Code e.
Proof. apply C_data. Qed.
Lemma datas_code l : Forall Data l -> Forall Code l.
Proof. intros H. eapply Forall_impl; [|exact H]. apply data_code. Qed.
Lemma data_adm c e : Data e -> adm c e.
Proof. intros H. unfold adm. destruct (quoting c); now constructor. Qed.
Lemma code_adm c e : quoting c = false -> Code e -> adm c e.
Proof. intros Q H. unfold adm. now rewrite Q. Qed.
Lemma plain_nil : Data nil_v.
Proof. constructor. constructor. Qed.
Lemma plain_bool b : Data (of_bool b).
Proof. destruct b; constructor. Qed.
Lemma Forall2_right (l v : list lv) : Forall2 (fun _ => Data) l v -> Forall Data v.
Proof. induction 1; constructor; assumption. Qed.
Lemma form_comma h : form_of h = Some FComma -> h = LSym (lit "comma").
Proof.
  destruct h as [| | | |s| | | | | |]; try discriminate. unfold form_of, forms. cbn [find fst].
  destruct (str_eqb (lit "comma") s) eqn:E; [intros _; apply str_eqb_eq in E; now subst|].
  repeat match goal with |- context [if ?b then _ else _] => destruct b; [discriminate|] end. discriminate.
Qed.
Lemma form_defmacro h : form_of h = Some FDefmacro -> h = LSym (lit "defmacro").
Proof.
  destruct h as [| | | |s| | | | | |]; try discriminate. unfold form_of, forms. cbn [find fst].
  repeat match goal with
  | |- context [if str_eqb (lit "defmacro") ?b then _ else _] => destruct (str_eqb (lit "defmacro") b) eqn:E; [intros _; apply str_eqb_eq in E; now subst|]
  | |- context [if ?b then _ else _] => destruct b; [discriminate|] end. discriminate.
Qed.

Section Param.
Variable r1 : ctx -> nat -> lv -> M lv.
Variable r2 : nat -> ctx -> nat -> lv -> M lv.
Hypothesis HE : forall c env e, adm c e -> exact_ctx c \/ quiet e -> SimE (r1 c env e) (fun f => r2 f c env e) (Data).

Hypothesis Hsym : forall c env s, quoting c = false -> SimE (r1 c env (LSym s)) (fun f => r2 f c env (LSym s)) Data.
Lemma HEn c env e : adm c e -> SimE (r1 (not_tail c) env e) (fun f => r2 f (not_tail c) env e) Data.
Proof. intros H. apply HE; [|left; apply exact_not_tail]. exact H. Qed.

Lemma bind_argsE i ns args : Forall Data args -> SimE (bind_args W i ns args) (fun _ => bind_args W i ns args) (fun _ => True).
Proof.
  revert args. induction ns as [|n ns IH]; intros args H; cbn [bind_args]; [now apply retE|].
  destruct (str_eqb n (lit "...")); [apply defineE; now constructor|]. destruct H as [|v args H1 H2]; [apply IH; constructor|].
  apply (bindE _ _ (fun _ => True) _ (fun _ _ => bind_args W i ns args)); [now apply defineE|]. intros _ _. now apply IH.
Qed.
Lemma declsE after c env l : quoting c = false -> Forall Decl l -> (forall k v, SimE (after k v) (fun _ => after k v) (fun _ => True)) ->
  SimE (decls W r1 after c env l) (fun f => decls W (r2 f) after c env l) (fun _ => True).
Proof.
  intros Q H HA. induction H as [|d l H1 H2 IH]; [now apply retE|]. destruct H1 as [k e H1]. cbn [decls].
  eapply bindE; [apply HEn; now apply code_adm|]. intros v Hv.
  eapply (bindE _ _ _ _ (fun f _ => bind W (m_define W env k v) (fun _ => decls W (r2 f) after c env l))); [apply HA|]. intros _ _.
  eapply (bindE _ _ _ _ (fun f _ => decls W (r2 f) after c env l)); [now apply defineE|]. intros _ _. exact IH.
Qed.
(** declarations made of data can be malformed *)
Lemma decls_dataE after c env l : quoting c = false -> Forall Data l -> (forall k v, SimE (after k v) (fun _ => after k v) (fun _ => True)) ->
  SimE (decls W r1 after c env l) (fun f => decls W (r2 f) after c env l) (fun _ => True).
Proof.
  intros Q H HA. induction H as [|d l H1 H2 IH]; cbn [decls]; [now apply retE|].
  destruct d as [| | | | |[|[| | | |k| | | | | |] [|e r]]| | | | |]; try apply failE.
  apply data_tail in H1. inversion H1 as [|? ? H3 _]; subst.
  eapply bindE; [apply HEn; now apply data_adm|]. intros v Hv.
  eapply (bindE _ _ _ _ (fun f _ => bind W (m_define W env k v) (fun _ => decls W (r2 f) after c env l))); [apply HA|]. intros _ _.
  eapply (bindE _ _ _ _ (fun f _ => decls W (r2 f) after c env l)); [now apply defineE|]. intros _ _. exact IH.
Qed.
Lemma and_orE b c env l : quoting c = false -> Forall Code l -> forall last, Data last -> SimE (and_or W r1 b c env last l) (fun f => and_or W (r2 f) b c env last l) Data.
Proof.
  intros Q. induction 1 as [|e l H1 H2 IH]; intros last HL; cbn [and_or]; [now apply retE|].
  eapply bindE; [apply HEn; now apply code_adm|]. intros v Hv. cbn. destruct (eqb b (truthy v)); [now apply retE|now apply IH].
Qed.
Lemma block_quiet c env l : quoting c = false -> Forall Code l -> quiet_end l -> SimE (block W r1 c env l) (fun f => block W (r2 f) c env l) Data.
Proof.
  intros Qc. induction 1 as [|e l H1 H2 IH]; intros Q; cbn [block]; [apply retE, plain_nil|].
  destruct l as [|e' l]; [apply HE; [now apply code_adm|now right]|].
  apply (bindE _ _ Data _ (fun f _ => block W (r2 f) c env (e' :: l))); [apply HEn; now apply code_adm|]. intros _ _. apply IH.
  unfold quiet_end in *. cbn [rev] in *. destruct (rev l ++ [e']) eqn:E; [destruct (rev l); discriminate|]. rewrite <- app_comm_cons in Q. exact Q.
Qed.

(** forms whose last expression is in tail position, for either notion *)
Section Tail.
Variable c : ctx.
Hypothesis Q : quoting c = false.
Variable SX : M lv -> (nat -> M lv) -> Prop.
Hypothesis X_bind : forall A (m1 : M A) m2 (P : A -> Prop) k1 k2, SimE m1 m2 P -> (forall a, P a -> SX (k1 a) (fun f => k2 f a)) -> SX (bind W m1 k1) (fun f => bind W (m2 f) (k2 f)).
Hypothesis X_of_E : forall m1 m2, SimE m1 m2 Data -> SX m1 m2.
Hypothesis HX : forall env e, Code e -> SX (r1 c env e) (fun f => r2 f c env e).
Lemma HEc env e : Code e -> SimE (r1 (not_tail c) env e) (fun f => r2 f (not_tail c) env e) Data.
Proof. intros H. apply HEn. now apply code_adm. Qed.

Lemma blockX env l : Forall Code l -> SX (block W r1 c env l) (fun f => block W (r2 f) c env l).
Proof.
  induction 1 as [|e l H1 H2 IH]; cbn [block]; [apply X_of_E, retE, plain_nil|].
  destruct l as [|e' l]; [now apply HX|]. apply (X_bind _ _ _ Data _ (fun f _ => block W (r2 f) c env (e' :: l))); [now apply HEc|]. intros _ _. exact IH.
Qed.
Lemma condX env l : Forall (fun d => Clause d \/ Data d) l -> SX (cond W r1 c env l) (fun f => cond W (r2 f) c env l).
Proof.
  induction 1 as [|e l H1 H2 IH]; cbn [cond]; [apply X_of_E, retE, plain_nil|].
  destruct e as [| | | | |[|t [|a r]]| | | | |]; try (apply X_of_E, failE).
  assert (Code t /\ Code a) as [Ht Ha].
  { destruct H1 as [H1|H1]; [inversion H1; now subst|]. apply data_cons in H1 as [H3 H4]. inversion H4; subst. split; now apply data_code. }
  apply (X_bind _ _ _ Data _ (fun f v => if truthy v then r2 f c env a else cond W (r2 f) c env l)); [now apply HEc|].
  intros v _. destruct (truthy v); [now apply HX|exact IH].
Qed.
Lemma whenX env x body : Code x -> Forall Code body ->
  SX (bind W (r1 (not_tail c) env x) (fun v => if truthy v then block W r1 c env body else ret W nil_v))
     (fun f => bind W (r2 f (not_tail c) env x) (fun v => if truthy v then block W (r2 f) c env body else ret W nil_v)).
Proof.
  intros Hx Hb. apply (X_bind _ _ _ Data _ (fun f v => if truthy v then block W (r2 f) c env body else ret W nil_v)); [now apply HEc|].
  intros v _. destruct (truthy v); [now apply blockX|apply X_of_E, retE, plain_nil].
Qed.
Lemma ifX env x a r : Code x -> Code a -> Forall Code r ->
  SX (bind W (r1 (not_tail c) env x) (fun v => if truthy v then r1 c env a else match r with b :: _ => r1 c env b | [] => ret W nil_v end))
     (fun f => bind W (r2 f (not_tail c) env x) (fun v => if truthy v then r2 f c env a else match r with b :: _ => r2 f c env b | [] => ret W nil_v end)).
Proof.
  intros Hx Ha Hr. apply (X_bind _ _ _ Data _ (fun f v => if truthy v then r2 f c env a else match r with b :: _ => r2 f c env b | [] => ret W nil_v end)); [now apply HEc|].
  intros v _. destruct (truthy v); [now apply HX|]. destruct Hr as [|b r Hb Hr]; [apply X_of_E, retE, plain_nil|now apply HX].
Qed.
Lemma letX after env ds body : Forall Decl ds \/ Forall Data ds -> Forall Code body -> (forall k v, SimE (after k v) (fun _ => after k v) (fun _ => True)) ->
  SX (bind W (m_extend W env) (fun i => bind W (decls W r1 after c i ds) (fun _ => block W r1 c i body)))
     (fun f => bind W (m_extend W env) (fun i => bind W (decls W (r2 f) after c i ds) (fun _ => block W (r2 f) c i body))).
Proof.
  intros Hd Hb HA. apply (X_bind _ _ _ (fun _ => True) _ (fun f i => bind W (decls W (r2 f) after c i ds) (fun _ => block W (r2 f) c i body))); [apply extendE|]. intros i _.
  apply (X_bind _ _ _ (fun _ => True) _ (fun f _ => block W (r2 f) c i body)); [destruct Hd; [now apply declsE|now apply decls_dataE]|]. intros _ _. now apply blockX.
Qed.
Lemma assignE (m : str -> lv -> M unit) env k x : (forall k v, Data v -> SimE (m k v) (fun _ => m k v) (fun _ => True)) -> Code x ->
  SimE (bind W (r1 (not_tail c) env x) (fun v => bind W (m k v) (fun _ => ret W v))) (fun f => bind W (r2 f (not_tail c) env x) (fun v => bind W (m k v) (fun _ => ret W v))) Data.
Proof.
  intros HM Hx. eapply (bindE _ _ _ _ (fun _ v => bind W (m k v) (fun _ => ret W v))); [now apply HEc|]. intros v Hv.
  eapply (bindE _ _ _ _ (fun _ _ => ret W v)); [now apply HM|]. intros _ _. now apply retE.
Qed.
Lemma defE env k v : Data v -> SimE (bind W (m_define W env k v) (fun _ => ret W nil_v)) (fun _ => bind W (m_define W env k v) (fun _ => ret W nil_v)) Data.
Proof. intros Hv. eapply (bindE _ _ _ _ (fun _ _ => ret W nil_v)); [now apply defineE|]. intros _ _. apply retE, plain_nil. Qed.

(** the call at the end of eval_inner *)
Variable n1 : nat.
Variables tco1 tco2 : bool.
Definition site (tco : bool) (r : ctx -> nat -> lv -> M lv) (n : nat) (env : nat) (fn : lv) (args : list lv) : M lv :=
  if tco && negb (found_tail c) && in_func c then ret W (LTail fn args) else settle r n env (call r env fn args).
Hypothesis HC : forall env fn args, Data fn -> Forall Data args -> SX (site tco1 r1 n1 env fn args) (fun f => site tco2 (r2 f) f env fn args).

Lemma macroE env cl ns body args : Forall Code body -> quiet_end body -> Forall Data args ->
  SimE (call r1 env (LMacro cl ns body) args) (fun f => call (r2 f) env (LMacro cl ns body) args) Data.
Proof.
  intros H1 H2 H3. cbn [Lisp_Model.call].
  apply (bindE _ _ (fun _ => True) _ (fun f i => bind W (bind_args W i ns args) (fun _ => block W (r2 f) body_ctx i body))); [apply extendE|]. intros i _.
  apply (bindE _ _ (fun _ => True) _ (fun f _ => block W (r2 f) body_ctx i body)); [now apply bind_argsE|]. intros _ _. now apply block_quiet.
Qed.

Ltac bad := apply X_of_E, failE.
Lemma dataX env h t : Data (LList (h :: t)) -> SX (step r1 tco1 n1 c env (LList (h :: t))) (fun f => step (r2 f) tco2 f c env (LList (h :: t))).
Proof.
  intros HP. cbn [Lisp_Model.step]. rewrite Q. cbn [andb]. destruct (data_cons _ _ HP) as [Hh Ht]. pose proof (datas_code _ Ht) as Hc.
  destruct (form_of h) as [fm|] eqn:EF.
  - destruct fm.
    + apply form_comma in EF. subst h. inversion Hh; subst. congruence.
    + destruct Ht as [|x t Hx Ht]; [bad|]. apply X_of_E. apply HE; [now apply data_adm|left; now left].
    + destruct Ht as [|k t Hk Ht]; [bad|]. destruct k; try bad. destruct Ht as [|x t Hx Ht]; [bad|]. apply X_of_E. apply assignE; [intros; now apply defineE|now apply data_code].
    + destruct Ht as [|k t Hk Ht]; [bad|]. destruct k; try bad. destruct Ht as [|x t Hx Ht]; [bad|]. apply X_of_E. apply assignE; [intros; now apply setE|now apply data_code].
    + apply form_defmacro in EF. subst h. inversion Hh; subst. congruence.
    + destruct Ht as [|k t Hk Ht]; [bad|]. destruct k; try bad. destruct Ht as [|x body Hx Hb]; [bad|]. destruct x; try bad.
      destruct (argnames l) as [ns|]; [|bad]. apply X_of_E. apply defE. constructor. now apply datas_code.
    + destruct Ht as [|k t Hk Ht]; [bad|]. destruct k; try bad. destruct Ht as [|x body Hx Hb]; [bad|].
      apply X_of_E. eapply (bindE _ _ _ _ (fun _ _ => ret W nil_v)); [apply worldE|]. intros _ _. apply retE, plain_nil.
    + destruct Ht as [|x body Hx Hb]; [bad|]. destruct x; try bad. destruct (argnames l) as [ns|]; [|bad]. apply X_of_E, retE. constructor. now apply datas_code.
    + destruct Ht as [|x body Hx Hb]; [bad|]. destruct x; try bad. apply letX; [right; now inversion Hx|now apply datas_code|intros; now apply retE].
    + destruct Ht as [|x body Hx Hb]; [bad|]. destruct x; try bad. apply (letX (fun k v => m_world W (fun w => set_variable w k v))); [right; now inversion Hx|now apply datas_code|intros; apply worldE].
    + now apply blockX.
    + apply condX. eapply Forall_impl; [|exact Ht]. intros x Hx. now right.
    + destruct Ht as [|x body Hx Hb]; [bad|]. inversion Hc; subst. now apply whenX.
    + destruct Ht as [|x t Hx Ht]; [bad|]. destruct Ht as [|a r Ha Hr]; [bad|]. apply ifX; try (now apply data_code). now apply datas_code.
    + apply X_of_E. apply and_orE; [exact Q|exact Hc|apply plain_bool].
    + apply X_of_E. apply and_orE; [exact Q|exact Hc|apply plain_bool].
  - apply (X_bind _ _ _ Data _ (fun f fn => if is_macro fn then bind W (call (r2 f) env fn t) (fun x => r2 f top env x)
       else bind W (map_m W (r2 f (not_tail c) env) t) (fun args => site tco2 (r2 f) f env fn args))); [apply HEn; now apply data_adm|].
    intros fn Hfn. destruct fn; cbn [is_macro].
    10: { apply X_of_E. inversion Hfn; subst. eapply (bindE _ _ Data _ (fun f x => r2 f top env x)); [now apply macroE|]. intros x Hx. apply HE; [now apply data_adm|left; right; now right]. }
    all: eapply (X_bind _ _ _ (Forall2 (fun _ => Data) t) _ (fun f args => site tco2 (r2 f) f env _ args)); [|intros vs Ha; apply HC; [exact Hfn|eapply Forall2_right; exact Ha]].
    all: apply map_mE; eapply Forall_impl; [|exact Ht]; intros x Hx; apply HEn; now apply data_adm.
Qed.
Ltac kw := match goal with H : In ?k _ |- _ => cbn [In] in H; repeat destruct H as [H|H]; [subst k..|destruct H] end.
Lemma codeX env h t : Code (LList (h :: t)) -> SX (step r1 tco1 n1 c env (LList (h :: t))) (fun f => step (r2 f) tco2 f c env (LList (h :: t))).
Proof.
  intros HP. inversion HP as [e HD|x Hx|kw k x Hk Hx|kw k args body Hk Hb|k args body Hb Hq|args body Hb|kw ds body Hk Hd Hb|kw l Hk Hl|l Hl]; subst; [now apply dataX|..];
    cbn [Lisp_Model.step]; rewrite Q; cbn [andb].
  - change (form_of (LSym (lit "quote"))) with (Some FQuote). cbv iota. apply X_of_E. apply HE; [exact Hx|left; now left].
  - kw.
    + change (form_of (LSym (lit "define"))) with (Some FDefine). cbv iota. apply X_of_E. apply assignE; [intros; now apply defineE|exact Hx].
    + change (form_of (LSym (lit "set"))) with (Some FSet). cbv iota. apply X_of_E. apply assignE; [intros; now apply setE|exact Hx].
  - assert (form_of (LSym kw) = Some FDefun) as -> by (kw; reflexivity). destruct (argnames args); [|bad]. apply X_of_E, defE. now constructor.
  - change (form_of (LSym (lit "defmacro"))) with (Some FDefmacro). cbv iota. destruct (argnames args); [|bad]. apply X_of_E, defE. now constructor.
  - change (form_of (LSym (lit "lambda"))) with (Some FLambda). cbv iota. destruct (argnames args); [|bad]. apply X_of_E, retE. now constructor.
  - assert (form_of (LSym kw) = Some FLet \/ form_of (LSym kw) = Some FVlet) as [-> | ->] by (kw; auto).
    + apply letX; [now left|exact Hb|intros; now apply retE].
    + apply (letX (fun k v => m_world W (fun w => set_variable w k v))); [now left|exact Hb|intros; apply worldE].
  - kw.
    + change (form_of (LSym (lit "begin"))) with (Some FBegin). cbv iota. now apply blockX.
    + change (form_of (LSym (lit "when"))) with (Some FWhen). cbv iota. destruct Hl; [bad|]. now apply whenX.
    + change (form_of (LSym (lit "if"))) with (Some FIf). cbv iota. destruct Hl as [|x l Hx Hl]; [bad|]. destruct Hl; [bad|]. now apply ifX.
    + change (form_of (LSym (lit "and"))) with (Some FAnd). cbv iota. apply X_of_E. apply and_orE; [exact Q|exact Hl|apply plain_bool].
    + change (form_of (LSym (lit "or"))) with (Some FOr). cbv iota. apply X_of_E. apply and_orE; [exact Q|exact Hl|apply plain_bool].
  - change (form_of (LSym (lit "cond"))) with (Some FCond). cbv iota. apply condX. eapply Forall_impl; [|exact Hl]. intros x Hx. now left.
Qed.
End Tail.

Lemma quotedE c env h t tco1 tco2 n1 : quoting c = true -> Template (LList (h :: t)) ->
  SimE (step r1 tco1 n1 c env (LList (h :: t))) (fun f => step (r2 f) tco2 f c env (LList (h :: t))) Data.
Proof.
  intros Q HP. cbn [Lisp_Model.step]. rewrite Q. cbn [andb].
  assert ((h <> LSym (lit "comma") /\ Forall Template (h :: t)) \/ exists x, h = LSym (lit "comma") /\ t = [LSym x]) as [[Hh Ht]|(x & -> & ->)].
  { inversion HP as [v HD|x|? ? H1 H2]; subst; [|right; now exists x|now left]. left. destruct (data_cons _ _ HD) as [H1 H2]. split.
    - intros ->. inversion H1; subst. congruence.
    - constructor; [now constructor|]. eapply Forall_impl; [|exact H2]. apply T_data. }
  - replace (match h with LSym k => str_eqb k (lit "comma") | _ => false end) with false.
    2: { destruct h as [| | | |s| | | | | |]; try reflexivity. symmetry. destruct (str_eqb s (lit "comma")) eqn:E; [|reflexivity]. apply str_eqb_eq in E. now subst s. }
    cbn [negb]. eapply (bindE _ _ _ _ (fun _ vs => ret W (LList vs))).
    + apply (map_mE (r1 c env) (fun f => r2 f c env) (fun _ => Data)). eapply Forall_impl; [|exact Ht]. intros x Hx. apply HE; [|left; now left]. unfold adm. now rewrite Q.
    + intros vs Hvs. apply retE. constructor. eapply Forall2_right. exact Hvs.
  - replace (str_eqb (lit "comma") (lit "comma")) with true by reflexivity. cbn [negb].
    change (form_of (LSym (lit "comma"))) with (Some FComma). cbv iota. apply Hsym. reflexivity.
Qed.

Lemma atomE c env e tco1 tco2 n1 : adm c e -> (forall h t, e <> LList (h :: t)) ->
  SimE (step r1 tco1 n1 c env e) (fun f => step (r2 f) tco2 f c env e) Data.
Proof.
  intros Ha Hn. assert (Data e -> SimE (ret W e) (fun _ => ret W e) Data) as HR by (intros H; now apply retE).
  assert (Data e) as HD.
  { unfold adm in Ha. destruct (quoting c).
    - inversion Ha; subst; [assumption|exfalso; eapply Hn; reflexivity..].
    - inversion Ha; subst; [assumption|exfalso; eapply Hn; reflexivity..]. }
  destruct e as [| | | |s|[|h t]| | | | |]; cbn [Lisp_Model.step]; try (now apply HR).
  - destruct (quoting c) eqn:Q; [now apply HR|apply getE].
  - exfalso. now apply (Hn h t).
Qed.

Variable SimT : M lv -> (nat -> M lv) -> Prop.
Hypothesis T_bind : forall A (m1 : M A) m2 (P : A -> Prop) k1 k2, SimE m1 m2 P -> (forall a, P a -> SimT (k1 a) (fun f => k2 f a)) -> SimT (bind W m1 k1) (fun f => bind W (m2 f) (k2 f)).
Hypothesis T_of_E : forall m1 m2, SimE m1 m2 Data -> SimT m1 m2.
Hypothesis HT : forall c env e, adm c e -> SimT (r1 c env e) (fun f => r2 f c env e).

Lemma callT env fn args : Data fn -> Forall Data args -> SimT (call r1 env fn args) (fun f => call (r2 f) env fn args).
Proof.
  intros H1 H2. destruct H1 as [| | | | | |n Hn|cl ns body Hb|cl ns body Hb Hq|]; cbn [Lisp_Model.call]; try (apply T_of_E, failE).
  - unfold reflective in Hn. cbn [In] in Hn.
    assert (forall x, In x [lit "eval"; lit "apply"; lit "map"; lit "filter"] -> str_eqb n x = false) as HF.
    { intros x Hi. destruct (str_eqb n x) eqn:E; [|reflexivity]. apply str_eqb_eq in E. subst x. exfalso. exact (Hn Hi). }
    rewrite !HF by (cbn [In]; tauto).
    apply T_of_E, constE. intros s Hs. destruct Hnat as [_ HN]. specialize (HN env n args s H2 Hs). destruct (native env n args s); cbn; auto.
  - apply (T_bind _ _ _ (fun _ => True) _ (fun f i => bind W (bind_args W i ns args) (fun _ => block W (r2 f) body_ctx i body))); [apply extendE|]. intros i _.
    apply (T_bind _ _ _ (fun _ => True) _ (fun f _ => block W (r2 f) body_ctx i body)); [now apply bind_argsE|]. intros _ _.
    apply blockX with (SX := SimT); auto.
  - apply T_of_E. now apply macroE with (env := env).
Qed.

Variable n1 : nat.
Variables tco1 tco2 : bool.
Hypothesis HCE : forall env fn args, Data fn -> Forall Data args -> SimE (settle r1 n1 env (call r1 env fn args)) (fun f => settle (r2 f) f env (call (r2 f) env fn args)) Data.
Hypothesis HCT : forall env fn args, Data fn -> Forall Data args ->
  SimT (if tco1 then ret W (LTail fn args) else settle r1 n1 env (call r1 env fn args)) (fun f => if tco2 then ret W (LTail fn args) else settle (r2 f) f env (call (r2 f) env fn args)).

Theorem step_simE c env e : adm c e -> exact_ctx c \/ quiet e -> SimE (step r1 tco1 n1 c env e) (fun f => step (r2 f) tco2 f c env e) Data.
Proof.
  intros Ha Hx. assert ((exists h t, e = LList (h :: t)) \/ (forall h t, e <> LList (h :: t))) as [(h & t & ->)|Hn].
  { destruct e as [| | | | |[|h t]| | | | |]; try (right; intros; discriminate). left. now exists h, t. }
  2: now apply atomE.
  unfold adm in Ha. destruct (quoting c) eqn:Q; [now apply quotedE|]. destruct Hx as [Hx|Hx].
  - assert (found_tail c = true \/ in_func c = false) as Hc by (destruct Hx as [Hx|Hx]; [congruence|exact Hx]).
    apply (codeX c Q (fun m1 m2 => SimE m1 m2 Data)); [intros; eapply bindE; eassumption|auto| |intros env' fn args H1 H2|exact Ha].
    + intros. apply HE; [now apply code_adm|now left].
    + unfold site. replace (tco1 && negb (found_tail c) && in_func c) with false by (destruct Hc as [-> | ->]; destruct tco1; cbn; now rewrite ?andb_false_r).
      replace (tco2 && negb (found_tail c) && in_func c) with false by (destruct Hc as [-> | ->]; destruct tco2; cbn; now rewrite ?andb_false_r). now apply HCE.
  - cbn in Hx. subst h. cbn [Lisp_Model.step]. rewrite Q. cbn [andb].
    change (form_of (LSym (lit "quote"))) with (Some FQuote). cbv iota.
    assert (match t with x :: _ => Template x | [] => True end) as Ht.
    { inversion Ha as [e HD|x Hx|kw k x Hk Hx|kw k args body Hk Hb|k args body Hb Hq|args body Hb|kw ds body Hk Hd Hb|kw l Hk Hl|l Hl]; subst; try exact Hx.
      - apply data_tail in HD. destruct HD; [exact I|now constructor].
      - exfalso. vm_compute in Hk. intuition discriminate.
      - exfalso. vm_compute in Hk. intuition discriminate.
      - exfalso. vm_compute in Hk. intuition discriminate.
      - exfalso. vm_compute in Hk. intuition discriminate. }
    destruct t as [|x t]; [apply failE|]. apply HE; [exact Ht|left; now left].
Qed.
Theorem step_simT c env e : adm c e -> SimT (step r1 tco1 n1 c env e) (fun f => step (r2 f) tco2 f c env e).
Proof.
  intros Ha. assert (exact_ctx c \/ quoting c = false /\ found_tail c = false /\ in_func c = true) as [Hx|(Q & F & I)].
  { unfold exact_ctx. destruct (quoting c), (found_tail c), (in_func c); tauto. }
  { apply T_of_E. apply step_simE; [exact Ha|now left]. }
  assert ((exists h t, e = LList (h :: t)) \/ (forall h t, e <> LList (h :: t))) as [(h & t & ->)|Hn].
  { destruct e as [| | | | |[|h t]| | | | |]; try (right; intros; discriminate). left. now exists h, t. }
  2: { apply T_of_E. now apply atomE. }
  unfold adm in Ha. rewrite Q in Ha.
  apply (codeX c Q SimT); [exact T_bind|exact T_of_E|intros; apply HT; now apply code_adm| |exact Ha].
  intros env' fn args H1 H2. unfold site. rewrite F, I. specialize (HCT env' fn args H1 H2). destruct tco1, tco2; exact HCT.
Qed.
End Param.

(** ** both directions *)
Lemma shiftE {A} (m1 : M A) m2 (P : A -> Prop) : SimE m1 (fun f => m2 (S f)) P -> SimE m1 m2 P.
Proof.
  intros H s Hs Hf. destruct (H s Hs Hf) as (Hp & f0 & E). split; [exact Hp|]. exists (S f0). intros [|f] Hff; [lia|]. apply E. lia.
Qed.
Lemma symE b b' n c env s : quoting c = false -> SimE (eval b n c env (LSym s)) (fun f => eval b' f c env (LSym s)) Data.
Proof.
  intros Q. destruct n as [|n]; [intros st Hs Hf; now destruct Hf|]. apply shiftE. cbn [Lisp_Model.eval Lisp_Model.step]. rewrite Q. apply getE.
Qed.
Lemma call_env r env env' fn args : Data fn -> call r env fn args = call r env' fn args.
Proof.
  intros H. destruct H as [| | | | | |n Hn| | |]; try reflexivity. cbn [Lisp_Model.call].
  assert (forall x, In x [lit "eval"; lit "apply"; lit "map"; lit "filter"] -> str_eqb n x = false) as HF.
  { intros x Hi. destruct (str_eqb n x) eqn:E; [|reflexivity]. apply str_eqb_eq in E. subst x. exfalso. exact (Hn Hi). }
  rewrite !HF by (cbn [In]; tauto). apply Hnat.
Qed.
Lemma plain_not_tail fn args : ~ Data (LTail fn args).
Proof. intros H. inversion H. Qed.
Lemma settle_plain r h env (m : M lv) s : post Data (m s) -> settle r h env m s = m s.
Proof.
  intros H. destruct h; cbn [Lisp_Model.settle]; destruct (m s) as [[]| |]; try reflexivity; destruct H as [H _]; now apply plain_not_tail in H.
Qed.
Lemma settle_fuel r h env (m : M lv) s : settle r h env m s <> Fuel -> m s <> Fuel.
Proof. intros H E. apply H. destruct h; cbn [Lisp_Model.settle]; now rewrite E. Qed.

Definition settled (b : bool) fn args (s : state) (r : res W lv) : Prop :=
  exists f1, forall g h env, f1 <= g -> f1 <= h -> settle (eval b g) h env (call (eval b g) env fn args) s = r.

(** *** the direct evaluator gives a result: so does the code *)
Definition SimF (m1 : M lv) (m2 : nat -> M lv) : Prop := forall s, good s -> m1 s <> Fuel ->
  post Data (m1 s) /\ exists r f0, (forall f, f0 <= f -> m2 f s = r) /\
    (r = m1 s \/ exists fn args s1, r = Ok (LTail fn args) s1 /\ Data fn /\ settled true fn args s1 (m1 s)).
Lemma F_bind A (m1 : M A) m2 (P : A -> Prop) k1 k2 : SimE m1 m2 P -> (forall a, P a -> SimF (k1 a) (fun f => k2 f a)) -> SimF (bind W m1 k1) (fun f => bind W (m2 f) (k2 f)).
Proof.
  intros H K s Hs Hf. unfold bind in *. destruct (H s Hs) as (Hp & f0 & E); [intros E; apply Hf; now rewrite E|].
  destruct (m1 s) as [a s'|s'|] eqn:E1; [|split; [exact Hp|exists (Err s'), f0; split; [intros f Hff; now rewrite (E f Hff)|now left]]|congruence].
  destruct Hp as [Ha Hs']. destruct (K a Ha s' Hs' Hf) as (Hp2 & r & f1 & E2 & Hr). split; [exact Hp2|]. exists r, (Nat.max f0 f1). split; [|exact Hr].
  intros f Hff. rewrite E by lia. apply E2. lia.
Qed.
Lemma F_of_E m1 m2 : SimE m1 m2 Data -> SimF m1 m2.
Proof. intros H s Hs Hf. destruct (H s Hs Hf) as (Hp & f0 & E). split; [exact Hp|]. exists (m1 s), f0. split; [exact E|now left]. Qed.
Lemma F_shift m1 m2 : SimF m1 (fun f => m2 (S f)) -> SimF m1 m2.
Proof.
  intros H s Hs Hf. destruct (H s Hs Hf) as (Hp & r & f0 & E & Hr). split; [exact Hp|]. exists r, (S f0). split; [|exact Hr]. intros [|f] Hff; [lia|]. apply E. lia.
Qed.
Lemma F_call n : (forall c env e, adm c e -> exact_ctx c \/ quiet e -> SimE (eval false n c env e) (fun f => eval true f c env e) (Data)) ->
  (forall c env e, adm c e -> SimF (eval false n c env e) (fun f => eval true f c env e)) ->
  forall h env fn args s, Data fn -> Forall Data args -> good s ->
  let r := settle (eval false n) h env (call (eval false n) env fn args) s in r <> Fuel -> post Data r /\ settled true fn args s r.
Proof.
  intros HE HT h env fn args s H1 H2 Hs r Hr.
  destruct (callT (eval false n) (fun f => eval true f) HE SimF F_bind F_of_E HT env fn args H1 H2 s Hs) as (Hp & r' & f0 & E & Hc).
  { apply settle_fuel in Hr. exact Hr. }
  assert (r = call (eval false n) env fn args s) as Er by (now apply settle_plain). rewrite Er. split; [exact Hp|].
  destruct Hc as [->|(fn' & args' & s1 & -> & Hfn & f1 & E1)].
  - exists f0. intros g h' env' Hg Hh. rewrite (call_env _ env' env) by exact H1. rewrite settle_plain; rewrite (E g Hg); [reflexivity|exact Hp].
  - exists (S (Nat.max f0 f1)). intros g h' env' Hg Hh. rewrite (call_env _ env' env) by exact H1. destruct h' as [|h']; [lia|]. cbn [Lisp_Model.settle].
    rewrite (E g) by lia. apply E1; lia.
Qed.
Lemma forward n : (forall c env e, adm c e -> exact_ctx c \/ quiet e -> SimE (eval false n c env e) (fun f => eval true f c env e) (Data)) /\
  (forall c env e, adm c e -> SimF (eval false n c env e) (fun f => eval true f c env e)).
Proof.
  induction n as [|n [HE HT]]; [split; intros; intros s Hs Hf; now destruct Hf|].
  pose proof (F_call n HE HT) as HC.
  assert (forall env fn args, Data fn -> Forall Data args -> SimE (settle (eval false n) n env (call (eval false n) env fn args)) (fun f => settle (eval true f) f env (call (eval true f) env fn args)) Data) as HCE.
  { intros env fn args H1 H2 s Hs Hf. destruct (HC n env fn args s H1 H2 Hs Hf) as (Hp & f1 & E). split; [exact Hp|]. exists f1. intros f Hff. now apply E. }
  assert (forall env fn args, Data fn -> Forall Data args -> SimF (settle (eval false n) n env (call (eval false n) env fn args)) (fun f => ret W (LTail fn args))) as HCT.
  { intros env fn args H1 H2 s Hs Hf. destruct (HC n env fn args s H1 H2 Hs Hf) as (Hp & HS). split; [exact Hp|]. exists (Ok (LTail fn args) s), 0. split; [reflexivity|]. right. now exists fn, args, s. }
  split.
  - intros c env e Ha Hx. apply shiftE. cbn [Lisp_Model.eval].
    apply (step_simE (eval false n) (fun f => eval true f)) with (SimT := SimF); auto using symE.
  - intros c env e Ha. apply F_shift. cbn [Lisp_Model.eval].
    apply (step_simT (eval false n) (fun f => eval true f)); auto using symE, F_of_E.
    exact F_bind.
Qed.

(** *** the code gives a result: so does the direct evaluator *)
Definition SimB (m1 : M lv) (m2 : nat -> M lv) : Prop := forall s, good s -> m1 s <> Fuel ->
  (post Data (m1 s) /\ exists f0, forall f, f0 <= f -> m2 f s = m1 s) \/
  (exists fn args s1, m1 s = Ok (LTail fn args) s1 /\ Data fn /\ Forall Data args /\ good s1 /\
     forall r, r <> Fuel -> settled false fn args s1 r -> exists f0, forall f, f0 <= f -> m2 f s = r).
Lemma B_bind A (m1 : M A) m2 (P : A -> Prop) k1 k2 : SimE m1 m2 P -> (forall a, P a -> SimB (k1 a) (fun f => k2 f a)) -> SimB (bind W m1 k1) (fun f => bind W (m2 f) (k2 f)).
Proof.
  intros H K s Hs Hf. unfold bind in *. destruct (H s Hs) as (Hp & f0 & E); [intros E; apply Hf; now rewrite E|].
  destruct (m1 s) as [a s'|s'|] eqn:E1; [|left; split; [exact Hp|exists f0; intros f Hff; now rewrite (E f Hff)]|congruence].
  destruct Hp as [Ha Hs']. destruct (K a Ha s' Hs' Hf) as [(Hp2 & f1 & E2)|(fn & args & s1 & E2 & H1 & H2 & H3 & H4)].
  - left. split; [exact Hp2|]. exists (Nat.max f0 f1). intros f Hff. rewrite E by lia. apply E2. lia.
  - right. exists fn, args, s1. repeat (split; [assumption|]). intros r Hr HS. destruct (H4 r Hr HS) as [f1 E3]. exists (Nat.max f0 f1). intros f Hff. rewrite E by lia. apply E3. lia.
Qed.
Lemma B_of_E m1 m2 : SimE m1 m2 Data -> SimB m1 m2.
Proof. intros H s Hs Hf. left. exact (H s Hs Hf). Qed.
Lemma B_shift m1 m2 : SimB m1 (fun f => m2 (S f)) -> SimB m1 m2.
Proof.
  intros H s Hs Hf. destruct (H s Hs Hf) as [(Hp & f1 & E2)|(fn & args & s1 & E2 & H1 & H2 & H3 & H4)].
  - left. split; [exact Hp|]. exists (S f1). intros [|f] Hff; [lia|]. apply E2. lia.
  - right. exists fn, args, s1. repeat (split; [assumption|]). intros r Hr HS. destruct (H4 r Hr HS) as [f1 E3]. exists (S f1). intros [|f] Hff; [lia|]. apply E3. lia.
Qed.
Lemma B_call n : (forall c env e, adm c e -> exact_ctx c \/ quiet e -> SimE (eval true n c env e) (fun f => eval false f c env e) (Data)) ->
  (forall c env e, adm c e -> SimB (eval true n c env e) (fun f => eval false f c env e)) ->
  forall h env fn args s, Data fn -> Forall Data args -> good s ->
  let r := settle (eval true n) h env (call (eval true n) env fn args) s in r <> Fuel -> post Data r /\ settled false fn args s r.
Proof.
  intros HE HT h. induction h as [h IHh] using lt_wf_ind. intros env fn args s H1 H2 Hs r Hr.
  destruct (callT (eval true n) (fun f => eval false f) HE SimB B_bind B_of_E HT env fn args H1 H2 s Hs) as [(Hp & f0 & E)|(fn' & args' & s1 & E & H3 & H4 & H5 & H6)].
  { apply settle_fuel in Hr. exact Hr. }
  - assert (r = call (eval true n) env fn args s) as Er by (now apply settle_plain). rewrite Er. split; [exact Hp|].
    exists f0. intros g h' env' Hg Hh. rewrite (call_env _ env' env) by exact H1. rewrite settle_plain; rewrite (E g Hg); [reflexivity|exact Hp].
  - assert (exists h', h = S h' /\ r = settle (eval true n) h' env (call (eval true n) env fn' args') s1) as (h' & -> & Er).
    { subst r. destruct h as [|h']; cbn [Lisp_Model.settle] in *; rewrite E in *; [congruence|]. now exists h'. }
    rewrite Er in Hr |- *. destruct (IHh h' (Nat.lt_succ_diag_r h') env fn' args' s1 H3 H4 H5 Hr) as [Hp HS]. split; [exact Hp|].
    destruct (H6 _ Hr HS) as [f0 E0]. exists f0. intros g h'' env' Hg Hh. rewrite (call_env _ env' env) by exact H1.
    rewrite settle_plain; rewrite (E0 g Hg); [reflexivity|exact Hp].
Qed.
Lemma backward n : (forall c env e, adm c e -> exact_ctx c \/ quiet e -> SimE (eval true n c env e) (fun f => eval false f c env e) (Data)) /\
  (forall c env e, adm c e -> SimB (eval true n c env e) (fun f => eval false f c env e)).
Proof.
  induction n as [|n [HE HT]]; [split; intros; intros s Hs Hf; now destruct Hf|].
  pose proof (B_call n HE HT) as HC.
  assert (forall env fn args, Data fn -> Forall Data args -> SimE (settle (eval true n) n env (call (eval true n) env fn args)) (fun f => settle (eval false f) f env (call (eval false f) env fn args)) Data) as HCE.
  { intros env fn args H1 H2 s Hs Hf. destruct (HC n env fn args s H1 H2 Hs Hf) as (Hp & f1 & E). split; [exact Hp|]. exists f1. intros f Hff. now apply E. }
  assert (forall env fn args, Data fn -> Forall Data args -> SimB (ret W (LTail fn args)) (fun f => settle (eval false f) f env (call (eval false f) env fn args))) as HCT.
  { intros env fn args H1 H2 s Hs Hf. right. exists fn, args, s. repeat (split; [assumption || reflexivity|]). intros r Hr [f1 E]. exists f1. intros f Hff. now apply E. }
  split.
  - intros c env e Ha Hx. apply shiftE. cbn [Lisp_Model.eval].
    apply (step_simE (eval true n) (fun f => eval false f)) with (SimT := SimB); auto using symE.
  - intros c env e Ha. apply B_shift. cbn [Lisp_Model.eval].
    apply (step_simT (eval true n) (fun f => eval false f)); auto using symE, B_of_E.
    exact B_bind.
Qed.

Theorem tail_calls env e s r : Code e -> good s -> r <> Fuel ->
  (exists n, eval true n top env e s = r) <-> (exists n, eval false n top env e s = r).
Proof.
  intros He Hs Hr. split; intros [n <-].
  - destruct (proj1 (backward n) top env e He (or_introl (or_intror (or_intror eq_refl))) s Hs Hr) as (_ & f0 & E). exists f0. now apply E.
  - destruct (proj1 (forward n) top env e He (or_introl (or_intror (or_intror eq_refl))) s Hs Hr) as (_ & f0 & E). exists f0. now apply E.
Qed.
(** the answer does not depend on the fuel *)
Lemma stays_good b n env e s : Code e -> good s -> post Data (eval b n top env e s).
Proof.
  intros He Hs. destruct (eval b n top env e s) eqn:E; [| |exact I]; rewrite <- E; destruct b.
  1,3: apply (proj1 (backward n) top env e He (or_introl (or_intror (or_intror eq_refl))) s Hs); congruence.
  all: apply (proj1 (forward n) top env e He (or_introl (or_intror (or_intror eq_refl))) s Hs); congruence.
Qed.
End Proofs.
