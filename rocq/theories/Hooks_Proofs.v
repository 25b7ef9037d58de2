From Coq Require Import Lia.
From Verif Require Import Base Numerals Lread_Model Lread_Spec Lread_Proofs Lread_Props Lisp_Model Lisp_Spec Lisp_Props Hooks_Model Hooks_Spec.

(** ** reading names *)
Inductive atomic : value -> Prop :=
| A_true : atomic VTrue
| A_false : atomic VFalse
| A_int z : atomic (VInt z)
| A_float t : atomic (VFloat t)
| A_string s : atomic (VString s)
| A_symbol s : atomic (VSymbol s)
| A_nil : atomic (VList [])
| A_comma v : atomic v -> atomic (VList [VSymbol (lit "comma"); v]).

Section Read.
Variable unum : char -> bool.
Lemma from_next code i c r : from code i = c :: r -> from code (i + utf8_len c) = r.
Proof.
  unfold from. destruct (split_byte code i) as [[p q]|] eqn:E; [|discriminate]. intros ->.
  apply split_byte_sound in E as [-> <-].
  replace (p ++ c :: r) with ((p ++ [c]) ++ r) by (now rewrite <- app_assoc).
  replace (blen p + utf8_len c) with (blen (p ++ [c])) by (rewrite blen_app; cbn [blen]; lia).
  now rewrite split_byte_app.
Qed.
Lemma keyword_value code i w v r j : keyword code i w v = Good r j -> r = v.
Proof. unfold keyword. destruct (consume code i w); [|discriminate]. destruct (next_is_break code n); [|discriminate]. now intros [= <- _]. Qed.
Lemma number_kind code i v j : number unum code i = Good v j -> (exists z, v = VInt z) \/ exists t, v = VFloat t.
Proof.
  unfold number. destruct (consume_while _ _ _ _) as [[l c]|]; [|discriminate]. destruct (is_numeric unum c); [|discriminate].
  set (int := if next_is_break code (S l) then _ else NoParse). intros H.
  assert (forall w k, int = Good w k -> (exists z, w = VInt z) \/ exists t, w = VFloat t) as HI.
  { intros w k E. unfold int in E. destruct (next_is_break _ _); [|discriminate]. destruct (parse_i64 _); [|discriminate]. injection E as <- _. eauto. }
  clearbody int.
  destruct (consume_while _ _ _ _) as [[b d]|]; [|eauto].
  destruct (S l + 2 <=? S b).
  - destruct (next_is_break _ _); [|eauto]. destruct (parse_float _); [|eauto]. injection H as <- _. eauto.
  - destruct (byte_is _ _ _); [discriminate|eauto].
Qed.
Lemma number_value code i v j : number unum code i = Good v j -> atomic v.
Proof. intros H. apply number_kind in H as [[z ->]|[t ->]]; constructor. Qed.
Lemma string_value code i v j : string_atom code i = Good v j -> atomic v.
Proof.
  unfold string_atom. destruct (consume_while _ _ _ _) as [[l c]|]; [|discriminate]. destruct (i <? l); [|discriminate].
  destruct (byte_is _ _ _); [|discriminate]. intros [= <- _]. constructor.
Qed.
Lemma symbol_value code i v j : symbol unum code i = Good v j -> atomic v.
Proof. unfold symbol. destruct (consume_while _ _ _ _) as [[l c]|]; [|discriminate]. intros [= <- _]. constructor. Qed.

Lemma bare_expr f : forall code i v j, bare_name (from code i) -> expr unum f code i = Good v j -> atomic v.
Proof.
  induction f as [|f IH]; intros code i v j B H; [discriminate|]. rewrite expr_S in H.
  assert (forall w, w = 40%N \/ w = 39%N -> consume code i [w] = None) as NC.
  { intros w Hw. unfold consume. destruct (from code i) as [|c r] eqn:E; [reflexivity|].
    rewrite prefix1 by lia. replace (w =? c)%N with false; [reflexivity|]. symmetry. apply N.eqb_neq. intros ->.
    inversion B as [|c' r' _ E'|c' r' Hc _ E']; subst; [destruct Hw as [?|?]; discriminate|].
    apply Hc. destruct Hw as [->| ->]; cbn [In]; tauto. }
  change (lit "(") with [40%N] in H. change (lit "'") with [39%N] in H. rewrite (NC 40%N), (NC 39%N) in H by tauto.
  change (orelse NoParse ?x) with x in H. apply orelse_good in H as [H|H].
  - destruct (consume code i (lit ",")) as [k|] eqn:E; [|discriminate].
    unfold consume in E. destruct (from code i) as [|c r] eqn:F; [discriminate|]. change (lit ",") with [44%N] in E.
    rewrite prefix1 in E by lia. destruct (N.eqb_spec 44 c) as [<-|]; [|discriminate]. injection E as <-.
    destruct (expr unum f code (i + 1)) as [| |w k|] eqn:X; cbn [wrap] in H; try discriminate.
    injection H as <- _. constructor. apply (IH _ _ _ _) in X; [exact X|].
    change 1 with (utf8_len 44%N). rewrite (from_next _ _ _ _ F).
    inversion B as [|c' r' _ E'|c' r' Hc Br E']; subst. exact Br.
  - repeat (apply orelse_good in H as [H|H]; [apply keyword_value in H as ->; constructor|]).
    apply orelse_good in H as [H|H]; [now apply number_value in H|].
    apply orelse_good in H as [H|H]; [now apply string_value in H|now apply symbol_value in H].
Qed.

Lemma bare_gap t : bare_name t -> forall off last, exists g r, t = g ++ r /\ bare_name r /\
  while_last gap_pred 0 off t last = match rev g with [] => last | z :: g' => Some (off + blen (rev g'), z) end.
Proof.
  induction 1 as [|c r B IH|c r Hc B IH]; intros off last.
  - exists [], []. split; [reflexivity|]. split; [constructor|reflexivity].
  - exists [], (92%N :: c :: r). split; [reflexivity|]. split; [now constructor|reflexivity].
  - cbn [while_last]. unfold gap_pred at 1. destruct (N.eqb_spec c (chr ";")) as [E|E].
    { exfalso. apply Hc. rewrite E. cbn [In]. change (chr ";") with 59%N. tauto. }
    cbn [Nat.ltb Nat.leb orb]. rewrite !orb_false_r. destruct (is_whitespace c).
    + destruct (IH (off + utf8_len c) (Some (off, c))) as (g & r' & -> & Br & W).
      exists (c :: g), r'. split; [reflexivity|]. split; [exact Br|]. etransitivity; [exact W|]. cbn [rev].
      destruct (rev g) as [|z g'] eqn:E'; cbn [app].
      * cbn [rev blen]. f_equal. f_equal. lia.
      * f_equal. f_equal. rewrite rev_app_distr. cbn [rev app blen]. lia.
    + exists [], (c :: r). split; [reflexivity|]. split; [now constructor|reflexivity].
Qed.
Lemma bare_skip t : bare_name t -> bare_name (from t (skip_gap t 0)).
Proof.
  intros B. destruct (bare_gap t B 0 None) as (g & r & E & Br & Wl).
  unfold skip_gap, consume_while. change (from t 0) with (from ([] ++ t) (blen [])). rewrite from_app, Wl.
  destruct (rev g) as [|z g'] eqn:R.
  - change (from t 0) with (from ([] ++ t) (blen [])). now rewrite from_app.
  - assert (g = rev g' ++ [z]) as -> by (rewrite <- (rev_involutive g), R; reflexivity).
    cbn [Nat.add]. destruct (Nat.eq_dec (utf8_len z) 1) as [L|L].
    + replace (S (blen (rev g'))) with (blen (rev g' ++ [z])) by (rewrite blen_app; cbn [blen]; lia).
      rewrite E, from_app. exact Br.
    + unfold from. rewrite E, <- app_assoc. cbn [app]. replace (S (blen (rev g'))) with (blen (rev g') + 1) by lia.
      rewrite split_inside; [constructor| |lia]. pose proof (utf8_len_pos z). lia.
Qed.
Lemma bare_first t : bare_name t -> match first unum t with Some (Good v _) => atomic v | _ => True end.
Proof.
  intros B. unfold first. destruct (expr _ _ _ _) as [| |v j|] eqn:E; [destruct (_ <? _); exact I|exact I| |exact I].
  eapply bare_expr; [|exact E]. now apply bare_skip.
Qed.
End Read.

Section Run.
Variable unum : char -> bool.
Variable W : Type.
Variable native : nat -> str -> list lv -> M W lv.
Variable sv : W -> str -> lv -> W.
Variable aa : W -> list lv -> W.
Notation ev := (eval W native sv aa true).
Lemma atomic_eval v : atomic v -> forall n c env s, quoting c = false -> no_effect s (ev n c env (embed v) s).
Proof.
  induction 1 as [| |z|t|t|t| |v A IH]; intros n c env s Q; destruct n as [|n]; try exact I; cbn [eval]; try reflexivity.
  - cbn [embed step]. rewrite Q. unfold m_get. destruct (get _ _ _); reflexivity.
  - cbn [embed step map]. rewrite Q. cbn [andb]. change (form_of (LSym (lit "comma"))) with (Some FComma). cbv iota.
    apply IH. reflexivity.
Qed.
Lemma bare_run t n s : bare_name t -> no_effect s (run unum W native sv aa n t s).
Proof.
  intros B. unfold run. pose proof (bare_first unum t B) as H. destruct (first unum t) as [[| |v j|]|]; try reflexivity.
  now apply atomic_eval.
Qed.
End Run.

(** ** reading the program made for hooks *)
Definition hook_form (vs : list value) (name : str) : value :=
  VList [VSymbol (lit "map"); VList [VSymbol (lit "lambda"); VList [VSymbol (lit "hook")]; VList (VSymbol (lit "hook") :: vs)]; VSymbol name].
Section Code.
Variable unum : char -> bool.
Lemma Name_text s : last_ascii s -> forallb is_symbolic s = true -> (exists c r, s = c :: r /\ (c < 128)%N /\ c <> 34%N /\ c <> 45%N /\ ~ (48 <= c <= 57)%N) ->
  mem_str (lower s) [lit "nil"; lit "t"; lit "f"] = false -> Name unum s.
Proof.
  intros H1 H2 (c & r & -> & Ha & H3 & H4 & H5) H6. split; [exact H1|]. split; [|split; [|split; [|now apply mem_str_false]]].
  - rewrite forallb_forall in H2. apply Forall_forall. intros d Hd. apply (proj2 (not_Break unum d)). now apply H2.
  - intros d t [= <- _]. split; [|exact H3]. unfold is_numeric. replace (c <? 128)%N with true by (symmetry; now apply N.ltb_lt).
    unfold is_digit. apply andb_false_iff. destruct (N.leb_spec 48 c); [right|now left]. apply N.leb_gt. lia.
  - intros d t [= -> _]. exfalso. apply H4. reflexivity.
Qed.
Lemma last_ascii_text (s : str) : match rev s with c :: _ => (c < 128)%N | [] => False end -> last_ascii s.
Proof. destruct (rev s) as [|c r] eqn:E; [contradiction|]. intros H. exists (rev r), c. split; [|exact H]. rewrite <- (rev_involutive s), E. reflexivity. Qed.
Ltac name := apply Name_text; [apply last_ascii_text; reflexivity|reflexivity|eexists _, _; split; [reflexivity|]; split; [reflexivity|]; split; [discriminate|]; split; [discriminate|]; intros [? ?]; match goal with H : (_ <= _)%N, K : (_ <= _)%N |- _ => vm_compute in H, K; congruence end|reflexivity].
Lemma Name_map : Name unum (lit "map"). Proof. name. Qed.
Lemma Name_lambda : Name unum (lit "lambda"). Proof. name. Qed.
Lemma Name_hook : Name unum (lit "hook"). Proof. name. Qed.
Lemma Name_hooks name : hook_name name -> Name unum name.
Proof. intros [<-|[<-|[<-|[]]]]; name. Qed.

Lemma Items_snoc l s : Items unum l s -> l <> [] -> forall v t, Writes unum v t -> Items unum (l ++ [v]) (s ++ chr " " :: t).
Proof.
  induction 1 as [|w s h Hw Hh|w s h l u Hw Hh Hs Hl IH]; intros Hn v t Hv; [congruence| |].
  - change (chr " " :: t) with ([chr " "] ++ t). rewrite <- (app_nil_r t). rewrite <- app_assoc, (app_assoc h). apply I_cons; [exact Hw| | |].
    + apply Gap_app; [exact Hh|]. repeat constructor.
    + intros E. destruct h; discriminate.
    + apply I_last; [exact Hv|constructor].
  - destruct l as [|x l].
    + inversion Hl; subst. rewrite app_nil_r. cbn [app]. change (chr " " :: t) with ([chr " "] ++ t). rewrite <- (app_nil_r t). rewrite <- app_assoc, (app_assoc h). apply I_cons; [exact Hw| | |].
      * apply Gap_app; [exact Hh|]. repeat constructor.
      * intros E. destruct h; discriminate.
      * apply I_last; [exact Hv|constructor].
    + cbn [app]. rewrite <- !app_assoc. apply I_cons; [exact Hw|exact Hh| |apply IH; [discriminate|exact Hv]].
      intros E. destruct (Hs E) as [Hcl|(c & r & -> & Hc)]; [now left|]. right. exists c, (r ++ chr " " :: t). now split.
Qed.
Definition extras (extra : list Z) : str := flat_map (fun z => chr " " :: show_int z) extra.
Lemma Items_extra extra : Forall i64 extra -> forall l s, Items unum l s -> l <> [] -> Items unum (l ++ map VInt extra) (s ++ extras extra).
Proof.
  induction 1 as [|z extra Hz H IH]; intros l s Hl Hn; [cbn [map extras flat_map]; now rewrite !app_nil_r|].
  cbn [map]. change (extras (z :: extra)) with ((chr " " :: show_int z) ++ extras extra).
  replace (l ++ VInt z :: map VInt extra) with ((l ++ [VInt z]) ++ map VInt extra) by (now rewrite <- app_assoc).
  rewrite app_assoc. apply IH; [|destruct l; discriminate]. apply Items_snoc; [exact Hl|exact Hn|].
  apply (print_Writes unum (VInt z)). now constructor.
Qed.
Definition in_hook (name body : str) : str := hook_front ++ body ++ lit ")) " ++ name ++ lit ")".
Lemma form_Writes name vs body : hook_name name -> Items unum vs body -> vs <> [] -> Writes unum (hook_form vs name) (in_hook name body).
Proof.
  intros Hn Hi Hv.
  assert (Items unum (VSymbol (lit "hook") :: vs) (lit "hook" ++ [chr " "] ++ body)) as H1.
  { apply I_cons; [constructor; apply Name_hook|repeat constructor|discriminate|exact Hi]. }
  pose proof (W_list unum _ [] _ G_nil H1) as H2.
  assert (Writes unum (VList [VSymbol (lit "hook")]) (lit "(hook)")) as H3.
  { apply (W_list unum _ [] (lit "hook")); [constructor|]. rewrite <- (app_nil_r (lit "hook")). apply I_last; [constructor; apply Name_hook|constructor]. }
  pose proof (I_last unum _ _ [] H2 G_nil) as H4. pose proof (I_cons unum _ _ [chr " "] _ _ H3 ltac:(repeat constructor) ltac:(discriminate) H4) as H5.
  pose proof (I_cons unum _ _ [chr " "] _ _ (W_name unum _ Name_lambda) ltac:(repeat constructor) ltac:(discriminate) H5) as H6.
  pose proof (W_list unum _ [] _ G_nil H6) as H7.
  pose proof (I_last unum _ _ [] (W_name unum _ (Name_hooks name Hn)) G_nil) as H8.
  pose proof (I_cons unum _ _ [chr " "] _ _ H7 ltac:(repeat constructor) ltac:(discriminate) H8) as H9.
  pose proof (I_cons unum _ _ [chr " "] _ _ (W_name unum _ Name_map) ltac:(repeat constructor) ltac:(discriminate) H9) as H10.
  pose proof (W_list unum _ [] _ G_nil H10) as H11.
  unfold hook_form. match type of H11 with Writes _ _ ?t => replace (in_hook name body) with t; [exact H11|] end.
  unfold in_hook, hook_front. rewrite !app_nil_r. repeat (progress (rewrite <- ?app_assoc; cbn [app])). reflexivity.
Qed.
Lemma form_read name vs body : hook_name name -> Items unum vs body -> vs <> [] ->
  first unum (in_hook name body) = Some (Good (hook_form vs name) (blen (in_hook name body))).
Proof.
  intros Hn Hi Hv. pose proof (C38_written_text_is_read unum _ [] _ [] G_nil (form_Writes name vs body Hn Hi Hv) I) as R.
  cbn [app] in R. rewrite app_nil_r in R. exact R.
Qed.
Lemma code_shape name text extra : hook_code name text extra = in_hook name ((34%N :: escape text ++ [34%N]) ++ extras extra).
Proof. unfold hook_code, in_hook. cbn [app]. rewrite <- !app_assoc. reflexivity. Qed.
Lemma escape_plain s : ~ In 34%N s -> escape s = s.
Proof.
  induction s as [|c s IH]; intros H; [reflexivity|]. unfold escape in *. cbn [flat_map]. rewrite IH by (intros K; apply H; now right).
  destruct (N.eqb_spec c quote_mark) as [->|_]; [|reflexivity]. exfalso. apply H. now left.
Qed.
Lemma escape_app a b : escape (a ++ b) = escape a ++ escape b.
Proof. apply flat_map_app. Qed.
Lemma plain_read name text extra : hook_name name -> plain_text text -> Forall i64 extra ->
  first unum (hook_code name text extra) = Some (Good (hook_form (VString text :: map VInt extra) name) (blen (hook_code name text extra))).
Proof.
  intros Hn [Hq Hl] He. rewrite code_shape. apply form_read; [exact Hn| |discriminate].
  rewrite escape_plain by exact Hq. apply (Items_extra extra He [VString text]); [|discriminate].
  rewrite <- (app_nil_r (34%N :: _)). apply I_last; [|constructor]. constructor; [|exact Hq]. exact Hl.
Qed.
(** a double quote in the text ends the string, and the rest is read as program *)
Lemma quoted_read name (a x g t : str) vs extra : hook_name name -> ~ In 34%N a -> escape x ++ [34%N] = g ++ t -> Gap g -> Items unum vs t ->
  Forall i64 extra ->
  let code := hook_code name (a ++ 34%N :: x) extra in
  first unum code = Some (Good (hook_form (VString (a ++ [92%N]) :: vs ++ map VInt extra) name) (blen code)).
Proof.
  intros Hn Ha E Hg Hi He code. unfold code. rewrite code_shape. apply form_read; [exact Hn| |discriminate].
  apply (Items_extra extra He (VString (a ++ [92%N]) :: vs)); [|discriminate].
  replace (34%N :: escape (a ++ 34%N :: x) ++ [34%N]) with ((34%N :: (a ++ [92%N]) ++ [34%N]) ++ g ++ t).
  - apply I_cons; [|exact Hg|intros _; left; right; now eexists|exact Hi]. constructor; [exists a, 92%N; now split|].
    intros H. apply in_app_or in H as [H|[H|[]]]; [now apply Ha|discriminate].
  - rewrite escape_app, escape_plain by exact Ha. change (escape (34%N :: x)) with ([92; 34]%N ++ escape x). cbn [app]. f_equal. rewrite <- !app_assoc. cbn [app]. do 3 f_equal. now rewrite E.
Qed.
End Code.

(** ** evaluating it *)
Section EvalForm.
Variable W : Type.
Variable native : nat -> str -> list lv -> M W lv.
Variable sv : W -> str -> lv -> W.
Variable aa : W -> list lv -> W.
Notation ev n := (eval W native sv aa true n).
(** the arguments are evaluated in the frame of the hook, then the hook is called *)
Definition call_hook (n : nat) (args : list lv) (f : lv) : M W lv := fun s =>
  bind W (map_m W (ev (S n) (not_tail body_ctx) (length (hp W s))) args)
    (fun vs => settle W native (ev (S (S n))) (S n) 0 (call W native (ev (S (S n))) 0 f vs)) (in_hook_frame W f s).
Lemma settle_S rec k env (m : M W lv) s : settle W native rec (S k) env m s =
  match m s with Ok _ _ (LTail fn args) s' => settle W native rec k env (call W native rec env fn args) s' | r => r end.
Proof. reflexivity. Qed.
Definition body_of (args : list lv) : lv := LList (LSym (lit "hook") :: args).
(** what is no list and no macro is handed on as it is *)
Definition direct (f : lv) : Prop := match f with LList _ | LMacro _ _ _ => False | _ => True end.
Lemma function_direct f : function f -> direct f.
Proof. destruct f; intros H; try exact I; destruct H. Qed.
Lemma call_closure n args f (s : state W) : direct f ->
  ev (S (S (S n))) top 0 (LList [LLambda 0 [lit "hook"] [body_of args]; quoted f]) s = call_hook n args f s.
Proof.
  intros Hf. change (ev (S (S (S n)))) with (step W native sv aa (ev (S (S n))) true (S (S n))). cbn [step top quoting andb].
  change (form_of (LLambda 0 [lit "hook"] [body_of args])) with (@None form). cbv iota. unfold bind at 1. rewrite eval_self by exact I. cbn [is_macro]. cbv iota.
  unfold bind at 1. cbn [map_m]. unfold bind at 1 2.
  assert (ev (S (S n)) (not_tail top) 0 (quoted f) s = Ok _ _ f s) as ->.
  { change (ev (S (S n))) with (step W native sv aa (ev (S n)) true (S n)). cbn [quoted step not_tail top quoting andb].
    change (form_of (LSym (lit "quote"))) with (Some FQuote). cbv iota. destruct f; try reflexivity; destruct Hf. }
  unfold ret at 1 2. cbv iota beta. replace (negb (found_tail top) && in_func top) with false by reflexivity. cbv iota. rewrite settle_S.
  assert (call W native (ev (S (S n))) 0 (LLambda 0 [lit "hook"] [body_of args]) [f] s = ev (S (S n)) body_ctx (length (hp W s)) (body_of args) (in_hook_frame W f s)) as ->.
  { cbn [call]. unfold bind, m_extend, extend. cbn [bind_args]. replace (str_eqb (lit "hook") (lit "...")) with false by reflexivity.
    unfold bind, m_define, ret. cbn [hp world define]. rewrite Nat.eqb_refl. cbn [parent entries put block]. reflexivity. }
  assert (ev (S (S n)) body_ctx (length (hp W s)) (body_of args) (in_hook_frame W f s) =
    bind W (map_m W (ev (S n) (not_tail body_ctx) (length (hp W s))) args) (fun vs => ret W (LTail f vs)) (in_hook_frame W f s)) as ->.
  { change (ev (S (S n))) with (step W native sv aa (ev (S n)) true (S n)). unfold body_of. cbn [step body_ctx quoting andb].
    change (form_of (LSym (lit "hook"))) with (@None form). cbv iota. unfold bind at 1.
    assert (ev (S n) (not_tail body_ctx) (length (hp W s)) (LSym (lit "hook")) (in_hook_frame W f s) = Ok _ _ f (in_hook_frame W f s)) as ->.
    { cbn [eval step not_tail body_ctx quoting]. unfold m_get, in_hook_frame. cbn [hp get entries assoc]. rewrite Nat.eqb_refl. reflexivity. }
    replace (is_macro f) with false by (destruct f; try reflexivity; destruct Hf). reflexivity. }
  unfold call_hook. unfold bind. destruct (map_m W _ args (in_hook_frame W f s)) as [vs s'|s'|]; reflexivity.
Qed.
Lemma settle_list rec fuel env (m : M W (list lv)) (s : state W) :
  settle W native rec fuel env (bind W m (fun vs => ret W (LList vs))) s = bind W m (fun vs => ret W (LList vs)) s.
Proof. destruct fuel; cbn [settle]; unfold bind, ret; destruct (m s); reflexivity. Qed.
Lemma map_call_each (g : lv -> M W lv) (h : lv -> M W lv) l : Forall (fun f => forall s, g f s = h f s) l -> forall s, map_m W g l s = call_each W h l s.
Proof.
  induction 1 as [|f l E H IH]; intros s; [reflexivity|]. cbn [map_m call_each]. unfold bind. rewrite E. destruct (h f s) as [v s'|s'|]; [|reflexivity|reflexivity].
  rewrite IH. reflexivity.
Qed.
Lemma form_eval n vs name hooks (s : state W) : form_of (LSym name) = None -> hooks_are W name hooks s -> Forall direct hooks ->
  ev (S (S (S (S n)))) top 0 (embed (hook_form vs name)) s =
  bind W (call_each W (call_hook n (map embed vs)) hooks) (fun r => ret W (LList r)) s.
Proof.
  intros _ [H1 H2] Hf. set (m := S (S (S n))). change (ev (S m)) with (step W native sv aa (ev m) true m). cbn [hook_form embed map step top quoting andb].
  change (form_of (LSym (lit "map"))) with (@None form). cbv iota. unfold bind at 1.
  assert (ev m (not_tail top) 0 (LSym (lit "map")) s = Ok _ _ (LNative (lit "map")) s) as ->.
  { unfold m. cbn [eval step not_tail top quoting]. unfold m_get. rewrite H2. reflexivity. }
  cbn [is_macro]. unfold bind at 1. cbn [map_m]. unfold bind at 1 2 3.
  assert (ev m (not_tail top) 0 (LList [LSym (lit "lambda"); LList [LSym (lit "hook")]; LList (LSym (lit "hook") :: map embed vs)]) s =
    Ok _ _ (LLambda 0 [lit "hook"] [body_of (map embed vs)]) s) as -> by reflexivity.
  assert (ev m (not_tail top) 0 (LSym name) s = Ok _ _ (LList hooks) s) as ->.
  { unfold m. cbn [eval step not_tail top quoting]. unfold m_get. rewrite H1. reflexivity. }
  unfold ret at 1 2 3. cbv iota beta. replace (negb (found_tail top) && in_func top) with false by reflexivity.
  cbn [call]. replace (str_eqb (lit "map") (lit "eval")) with false by reflexivity. replace (str_eqb (lit "map") (lit "apply")) with false by reflexivity.
  replace (str_eqb (lit "map") (lit "map")) with true by reflexivity. cbv iota.
  match goal with |- match ?X with Ok _ _ _ _ => _ | _ => _ end = _ => change X with (Ok W (list lv) [LLambda 0 [lit "hook"] [body_of (map embed vs)]; LList hooks] s) end. cbv iota beta.
  rewrite settle_list. unfold bind. rewrite (map_call_each _ (call_hook n (map embed vs))); [reflexivity|].
  eapply Forall_impl; [|exact Hf]. intros f F s'. cbv beta. unfold m. now apply call_closure.
Qed.
Lemma plain_args n env text extra (s : state W) :
  map_m W (ev (S n) (not_tail body_ctx) env) (map embed (VString text :: map VInt extra)) s = Ok _ _ (LStr text :: map LInt extra) s.
Proof.
  cbn [map embed]. rewrite map_map. cbn [embed]. apply map_self. constructor; [intros s'; now apply eval_self|].
  apply Forall_forall. intros v Hv s'. apply in_map_iff in Hv as (z & <- & _). now apply eval_self.
Qed.
End EvalForm.

(** ** the strings that are read have no double quote in them *)
Inductive clean : value -> Prop :=
| K_true : clean VTrue
| K_false : clean VFalse
| K_int z : clean (VInt z)
| K_float t : clean (VFloat t)
| K_string s : ~ In 34%N s -> clean (VString s)
| K_symbol s : clean (VSymbol s)
| K_list l : Forall clean l -> clean (VList l).
Section Clean.
Variable unum : char -> bool.
Lemma upto_quote (r : str) : exists p q, r = p ++ q /\ ~ In 34%N p /\ match q with [] => True | c :: _ => c = 34%N end.
Proof.
  induction r as [|c r (p & q & -> & Hp & Hq)]; [exists [], []; cbn; tauto|].
  destruct (N.eq_dec c 34) as [->|Hc]; [exists [], (34%N :: p ++ q); cbn; tauto|].
  exists (c :: p), q. split; [reflexivity|]. split; [|exact Hq]. intros [H|H]; [now apply Hc|now apply Hp].
Qed.
Lemma from_split code i c r : from code i = c :: r -> exists x, code = x ++ c :: r /\ i = blen x.
Proof.
  unfold from. destruct (split_byte code i) as [[p q]|] eqn:E; [|discriminate]. intros ->. apply split_byte_sound in E as [-> <-]. now exists p.
Qed.
Lemma string_clean code i v j : string_atom code i = Good v j -> clean v.
Proof.
  destruct (from code i) as [|c r] eqn:F.
  { unfold string_atom, consume_while. rewrite F. discriminate. }
  apply from_split in F as (x & -> & ->). destruct (N.eq_dec c 34) as [->|Hc]; [|rewrite string_no by exact Hc; discriminate].
  destruct (upto_quote r) as (p & q & -> & Hp & Hq). destruct p as [|c0 p0].
  - unfold string_atom. cbn [app]. rewrite (consume_take _ x [] q 34%N).
    + cbn [blen]. rewrite Nat.add_0_r, Nat.ltb_irrefl. discriminate.
    + intros [|b a1] d a2 E; [injection E as <- <-; reflexivity|destruct a1; discriminate].
    + destruct q as [|d q]; [exact I|]. subst d. reflexivity.
  - destruct (split_last (c0 :: p0) ltac:(discriminate)) as (a & z & E). rewrite E in *. clear c0 p0 E.
    unfold string_atom. pose proof (string_take x a q z Hp Hq) as X. replace ((a ++ [z]) ++ q) with (a ++ z :: q) by (now rewrite <- app_assoc).
    match type of X with ?l = _ => match goal with |- context [consume_while ?p ?s ?c ?i] => change (consume_while p s c i) with l end end. rewrite X. cbv iota beta. clear X.
    destruct (_ <? _); [|discriminate]. destruct (byte_is _ _ _) eqn:B; [|discriminate]. intros [= <- _]. constructor.
    assert (utf8_len z = 1) as L.
    { destruct (Nat.eq_dec (utf8_len z) 1) as [L|L]; [exact L|]. exfalso. revert B. unfold byte_is.
      pose proof (split_inside (x ++ 34%N :: a) q z 1) as X. rewrite <- app_assoc in X. cbn [app] in X. rewrite blen_app in X. cbn [blen] in X. change (utf8_len 34%N) with 1 in X.
      change (S (blen a)) with (1 + blen a). match type of X with _ -> _ -> ?l = _ => match goal with |- context [split_byte ?c ?i] => change (split_byte c i) with l end end.
      rewrite X; [discriminate| |lia]. pose proof (utf8_len_pos z). lia. }
    assert (slice ((x ++ [34%N]) ++ (a ++ [z]) ++ q) (blen (x ++ [34%N])) (blen x + S (blen a) + 1) = a ++ [z]) as SL.
    { apply slice_mid. rewrite !blen_app. cbn [blen]. change (utf8_len 34%N) with 1. lia. }
    rewrite <- !app_assoc in SL. rewrite blen_app in SL. match goal with |- ~ In _ ?t => enough (t = a ++ [z]) as -> by exact Hp end. exact SL.
Qed.
Lemma atoms_clean code i v j : atoms unum code i = Good v j -> clean v.
Proof.
  unfold atoms. intros H. repeat (apply orelse_good in H as [H|H]; [apply keyword_value in H as ->; repeat constructor|]).
  apply orelse_good in H as [H|H].
  { apply number_kind in H as [[z ->]|[t ->]]; constructor. }
  apply orelse_good in H as [H|H]; [now apply string_clean in H|].
  unfold symbol in H. destruct (consume_while _ _ _ _) as [[l c]|]; [|discriminate]. injection H as <- _. constructor.
Qed.
Lemma read_clean f : (forall code i v j, expr unum f code i = Good v j -> clean v) /\
  (forall code i acc v j, Forall clean acc -> members unum f code i acc = Good v j -> clean v).
Proof.
  induction f as [|f [IHe IHm]]; [split; discriminate|]. split.
  - intros code i v j. rewrite expr_S. destruct (consume code i (lit "(")) as [k|].
    + apply IHm. constructor.
    + intros H. apply orelse_good in H as [H|H]; [|apply orelse_good in H as [H|H]; [|now apply atoms_clean in H]].
      * destruct (consume _ _ _); [|discriminate]. destruct (expr _ _ _ _) eqn:E; try discriminate. injection H as <- _. apply IHe in E. repeat constructor; assumption.
      * destruct (consume _ _ _); [|discriminate]. destruct (expr _ _ _ _) eqn:E; try discriminate. injection H as <- _. apply IHe in E. repeat constructor; assumption.
  - intros code i acc v j Ha. rewrite members_S. destruct (expr _ _ _ _) as [| |w k|] eqn:E; try discriminate.
    + destruct (consume _ _ _); [|discriminate]. intros [= <- _]. constructor. now apply Forall_rev.
    + apply IHm. constructor; [now apply IHe in E|exact Ha].
Qed.
Lemma first_clean code v j : first unum code = Some (Good v j) -> clean v.
Proof.
  unfold first. destruct (expr _ _ _ _) eqn:E; try discriminate; [destruct (_ <? _); discriminate|]. intros [= <- _]. now apply (proj1 (read_clean _)) in E.
Qed.

(** ** texts that are not read as they are *)
Lemma member_item f (x s g r : str) v acc : expr unum f (x ++ s ++ g ++ r) (blen x) = Good v (blen x + blen s) -> Gap g -> no_gap r ->
  members unum (S f) (x ++ s ++ g ++ r) (blen x) acc = members unum f (x ++ s ++ g ++ r) (blen (x ++ s ++ g)) (v :: acc).
Proof.
  intros E Hg Hr. rewrite members_S, E, <- blen_app.
  replace (x ++ s ++ g ++ r) with ((x ++ s) ++ g ++ r) by (now rewrite <- !app_assoc). rewrite skip_gap_app by assumption. rewrite <- !app_assoc. reflexivity.
Qed.
(** up to the text, the program is read in the same way whatever comes *)
Lemma front_step (x s g : str) f v acc r : Writes unum v s -> Gap g -> ends_word (g ++ r) -> no_gap r -> 2 * blen s + 1 <= f ->
  members unum (S f) (x ++ s ++ g ++ r) (blen x) acc = members unum f (x ++ s ++ g ++ r) (blen (x ++ s ++ g)) (v :: acc).
Proof. intros Hw Hg He Hr Hf. apply member_item; [|exact Hg|exact Hr]. apply (proj1 (Writes_read unum)); [exact Hw|now left|exact Hf]. Qed.
Lemma open_step (x r : str) f : no_gap r -> expr unum (S f) (x ++ chr "(" :: r) (blen x) = members unum f (x ++ chr "(" :: r) (blen (x ++ [chr "("])) [].
Proof.
  intros Hr. rewrite expr_S, consume_at. change (lit "(") with [40%N]. change (chr "(") with 40%N. rewrite prefix1 by lia. rewrite N.eqb_refl.
  f_equal. change (40%N :: r) with ([40%N] ++ [] ++ r). rewrite app_assoc. replace (blen x + blen [40%N]) with (blen (x ++ [40%N])) by apply blen_app.
  rewrite skip_gap_app; [now rewrite app_nil_r|constructor|exact Hr].
Qed.
Lemma front_read f r : 20 <= f -> no_gap r ->
  let code := hook_front ++ r in
  expr unum (9 + f) code 0 =
  match match members unum f code (blen hook_front) [VSymbol (lit "hook")] with
        | Good v j => members unum (2 + f) code (skip_gap code j) [v; VList [VSymbol (lit "hook")]; VSymbol (lit "lambda")]
        | NoParse => match consume code 20 (lit ")") with Some j => Good (VList [VSymbol (lit "lambda"); VList [VSymbol (lit "hook")]]) j | None => Bad end
        | x => x
        end with
  | Good v j => members unum (6 + f) code (skip_gap code j) [v; VSymbol (lit "map")]
  | NoParse => match consume code 5 (lit ")") with Some j => Good (VList [VSymbol (lit "map")]) j | None => Bad end
  | x => x
  end.
Proof.
  intros Hf Hr code.
  assert (forall c (t : str), is_whitespace c = false -> c <> 59%N -> no_gap (c :: t)) as NG by (intros; split; assumption).
  assert (Gap (lit " ")) as Hg by repeat constructor. assert (forall t : str, ends_word (lit " " ++ t)) as He by (intros t; left; reflexivity).
  assert (Writes unum (VList [VSymbol (lit "hook")]) (lit "(hook)")) as Hh.
  { apply (W_list unum _ [] (lit "hook")); [constructor|]. rewrite <- (app_nil_r (lit "hook")). apply I_last; [constructor; apply Name_hook|constructor]. }
  pose proof (open_step [] (lit "map (lambda (hook) (hook " ++ r) (8 + f) ltac:(split; [reflexivity|discriminate])) as E1.
  pose proof (front_step (lit "(") (lit "map") (lit " ") (7 + f) _ [] (lit "(lambda (hook) (hook " ++ r) (W_name unum _ (Name_map unum)) Hg (He _) ltac:(split; [reflexivity|discriminate]) ltac:(change (blen (lit "map")) with 3; lia)) as E2.
  pose proof (open_step (lit "(map ") (lit "lambda (hook) (hook " ++ r) (5 + f) ltac:(split; [reflexivity|discriminate])) as E3.
  pose proof (front_step (lit "(map (") (lit "lambda") (lit " ") (4 + f) _ [] (lit "(hook) (hook " ++ r) (W_name unum _ (Name_lambda unum)) Hg (He _) ltac:(split; [reflexivity|discriminate]) ltac:(change (blen (lit "lambda")) with 6; lia)) as E4.
  pose proof (front_step (lit "(map (lambda ") (lit "(hook)") (lit " ") (3 + f) _ [VSymbol (lit "lambda")] (lit "(hook " ++ r) Hh Hg (He _) ltac:(split; [reflexivity|discriminate]) ltac:(change (blen (lit "(hook)")) with 6; lia)) as E5.
  pose proof (open_step (lit "(map (lambda (hook) ") (lit "hook " ++ r) (1 + f) ltac:(split; [reflexivity|discriminate])) as E6.
  pose proof (front_step (lit "(map (lambda (hook) (") (lit "hook") (lit " ") f _ [] r (W_name unum _ (Name_hook unum)) Hg (He _) Hr ltac:(change (blen (lit "hook")) with 4; lia)) as E7.
  change (expr unum (9 + f) code 0 = members unum (8 + f) code 1 []) in E1.
  change (members unum (8 + f) code 1 [] = members unum (7 + f) code 5 [VSymbol (lit "map")]) in E2.
  change (expr unum (6 + f) code 5 = members unum (5 + f) code 6 []) in E3.
  change (members unum (5 + f) code 6 [] = members unum (4 + f) code 13 [VSymbol (lit "lambda")]) in E4.
  change (members unum (4 + f) code 13 [VSymbol (lit "lambda")] = members unum (3 + f) code 20 [VList [VSymbol (lit "hook")]; VSymbol (lit "lambda")]) in E5.
  change (expr unum (2 + f) code 20 = members unum (1 + f) code 21 []) in E6.
  change (members unum (1 + f) code 21 [] = members unum f code (blen hook_front) [VSymbol (lit "hook")]) in E7.
  rewrite E1, E2. change (7 + f) with (S (6 + f)). rewrite members_S, E3, E4, E5. change (3 + f) with (S (2 + f)). rewrite members_S, E6, E7. reflexivity.
Qed.
Lemma first_front f r : 20 <= f -> 9 + f = enough (hook_front ++ r) -> first unum (hook_front ++ r) =
  match expr unum (9 + f) (hook_front ++ r) 0 with NoParse => Some Bad | x => Some x end.
Proof.
  intros Hf E. unfold first. rewrite <- E. change (skip_gap (hook_front ++ r) 0) with 0. destruct (expr _ _ _ _); try reflexivity.
Qed.
(** a character beyond ASCII at the end of the text *)
Lemma string_wide (x a q : str) z : ~ ascii z -> ~ In 34%N (a ++ [z]) -> string_atom (x ++ 34%N :: a ++ z :: 34%N :: q) (blen x) = Bad.
Proof.
  intros Hz Hs. unfold string_atom.
  pose proof (string_take x a (34%N :: q) z Hs eq_refl) as X. cbn [app] in X. match type of X with ?l = _ => match goal with |- context [consume_while ?p ?s ?c ?i] => change (consume_while p s c i) with l end end. rewrite X. cbv iota beta. clear X.
  replace (blen x <? blen x + S (blen a)) with true by (symmetry; apply Nat.ltb_lt; lia).
  assert (byte_is (x ++ 34%N :: a ++ z :: 34%N :: q) (blen x + S (blen a) + 1) quote_char = false) as ->; [|reflexivity].
  unfold byte_is. pose proof (split_inside (x ++ 34%N :: a) (34%N :: q) z 1) as X. rewrite <- app_assoc in X. cbn [app] in X. rewrite blen_app in X. cbn [blen] in X. change (utf8_len 34%N) with 1 in X.
  change (S (blen a)) with (1 + blen a). match type of X with _ -> _ -> ?l = _ => match goal with |- context [split_byte ?c ?i] => change (split_byte c i) with l end end. rewrite X; [reflexivity| |lia]. pose proof (wide_len z Hz). lia.
Qed.
Lemma wide_read name a z extra : ~ ascii z -> ~ In 34%N (a ++ [z]) -> first unum (hook_code name (a ++ [z]) extra) = Some Bad.
Proof.
  intros Hz Hs. rewrite code_shape. unfold in_hook. rewrite (escape_plain _ Hs).
  match goal with |- first _ (_ ++ ?t) = _ => set (r := t) end.
  assert (r = 34%N :: a ++ z :: 34%N :: extras extra ++ lit ")) " ++ name ++ lit ")") as Er by (unfold r; cbn [app]; rewrite <- !app_assoc; reflexivity).
  assert (exists f, 20 <= f /\ 9 + f = enough (hook_front ++ r)) as (f & Hf & E).
  { unfold enough. rewrite blen_app. change (blen hook_front) with 26. exists (2 * (26 + blen r) + 3 - 9). lia. }
  rewrite (first_front f r Hf E). rewrite front_read; [|exact Hf|rewrite Er; split; [reflexivity|discriminate]].
  destruct f as [|[|f]]; [lia|lia|]. rewrite members_S. rewrite Er. rewrite expr_string, string_wide by assumption. reflexivity.
Qed.
(** the empty text *)
Lemma empty_expr (x q : str) f : ends_word q -> expr unum (S f) (x ++ [34; 34]%N ++ q) (blen x) = Good (VSymbol [34; 34]%N) (blen x + blen [34; 34]%N).
Proof.
  intros Hq. cbn [app]. rewrite expr_string. replace (string_atom (x ++ 34%N :: 34%N :: q) (blen x)) with NoParse.
  - cbn [orelse]. apply (symbol_read unum x [34;34]%N q); [| | |exact Hq].
    + exists [34%N], 34%N. now split.
    + now intros c r [= <- _].
    + constructor; [apply (proj2 (not_Break unum _)); reflexivity|]. constructor; [apply (proj2 (not_Break unum _)); reflexivity|constructor].
  - symmetry. unfold string_atom. rewrite (consume_take _ x [] (34%N :: q) 34%N).
    + cbn [blen]. rewrite Nat.add_0_r, Nat.ltb_irrefl. reflexivity.
    + intros [|b a1] d a2 E; [injection E as <- <-; reflexivity|destruct a1; discriminate].
    + reflexivity.
Qed.
Lemma extras_Items extra : Forall i64 extra -> exists g t, extras extra = g ++ t /\ Gap g /\ Items unum (map VInt extra) t /\ (t = [] \/ starts t) /\ forall q, ends_word (extras extra ++ chr ")" :: q).
Proof.
  intros He. destruct extra as [|z extra].
  - exists [], []. split; [reflexivity|]. split; [constructor|]. split; [constructor|]. split; [now left|]. intros q. right. vm_compute. tauto.
  - inversion He as [|? ? Hz He']; subst.
    assert (Items unum (map VInt (z :: extra)) (show_int z ++ extras extra)) as Hi.
    { apply (Items_extra unum extra He' [VInt z]); [|discriminate]. rewrite <- (app_nil_r (show_int z)). apply I_last; [|constructor].
      apply (print_Writes unum (VInt z)). now constructor. }
    exists [chr " "], (show_int z ++ extras extra). split; [reflexivity|]. split; [repeat constructor|]. split; [exact Hi|].
    split; [exact (proj1 (proj2 (Writes_read unum) _ _ Hi))|]. intros q. left. reflexivity.
Qed.
Lemma front_good name vs body f : hook_name name -> 20 <= f -> 9 + f = enough (in_hook name body) -> no_gap body -> body <> [] ->
  members unum f (in_hook name body) (blen hook_front) [VSymbol (lit "hook")] = Good (VList (VSymbol (lit "hook") :: vs)) (blen (hook_front ++ body) + 1) ->
  first unum (in_hook name body) = Some (Good (hook_form vs name) (blen (in_hook name body))).
Proof.
  intros Hn Hf E Hb Hne H. unfold in_hook in *. set (r := body ++ lit ")) " ++ name ++ lit ")") in *.
  assert (no_gap r) as Hr by (unfold r; destruct body; [congruence|exact Hb]).
  rewrite (first_front f r Hf E). rewrite (front_read f r Hf Hr). rewrite H.
  set (code := hook_front ++ r) in *.
  assert (code = (hook_front ++ body ++ lit ")") ++ [] ++ lit ") " ++ name ++ lit ")") as C1 by (unfold code, r; rewrite <- !app_assoc; reflexivity).
  assert (blen (hook_front ++ body) + 1 = blen (hook_front ++ body ++ lit ")")) as B1 by (rewrite !blen_app; change (blen (lit ")")) with 1; lia).
  assert (skip_gap code (blen (hook_front ++ body) + 1) = blen (hook_front ++ body ++ lit ")")) as ->.
  { rewrite B1. rewrite C1 at 1. rewrite skip_gap_app; [now rewrite app_nil_r|constructor|split; [reflexivity|discriminate]]. }
  destruct (proj2 (Writes_read unum) [] [] (I_nil unum)) as [_ R1].
  specialize (R1 (hook_front ++ body ++ lit ")") (lit " " ++ name ++ lit ")") (2 + f) [VList (VSymbol (lit "hook") :: vs); VList [VSymbol (lit "hook")]; VSymbol (lit "lambda")] ltac:(cbn [blen]; lia)).
  change (chr ")" :: lit " " ++ name ++ lit ")") with (lit ") " ++ name ++ lit ")") in R1. rewrite <- C1 in R1. rewrite R1. cbn [rev app].
  assert (code = (hook_front ++ body ++ lit "))") ++ lit " " ++ name ++ lit ")") as C2 by (unfold code, r; rewrite <- !app_assoc; reflexivity).
  assert (Items unum [VSymbol name] name) as Hi.
  { rewrite <- (app_nil_r name) at 2. apply I_last; [constructor; now apply Name_hooks|constructor]. }
  destruct (proj2 (Writes_read unum) _ _ Hi) as [Hs R2].
  assert (skip_gap code (blen (hook_front ++ body ++ lit ")") + blen [] + 1) = blen (hook_front ++ body ++ lit ")) ")) as ->.
  { replace (blen (hook_front ++ body ++ lit ")") + blen [] + 1) with (blen (hook_front ++ body ++ lit "))")) by (rewrite !blen_app; change (blen (lit "))")) with 2; change (blen (lit ")")) with 1; cbn [blen]; lia).
    rewrite C2, skip_gap_app; [rewrite <- !app_assoc; reflexivity|repeat constructor|]. destruct Hs as [->|Hs]; [split; [reflexivity|discriminate]|now apply starts_no_gap]. }
  assert (code = (hook_front ++ body ++ lit ")) ") ++ name ++ chr ")" :: []) as C3 by (unfold code, r; rewrite <- !app_assoc; reflexivity).
  specialize (R2 (hook_front ++ body ++ lit ")) ") [] (6 + f) [VList [VSymbol (lit "lambda"); VList [VSymbol (lit "hook")]; VList (VSymbol (lit "hook") :: vs)]; VSymbol (lit "map")]).
  rewrite <- C3 in R2. rewrite R2.
  - cbn [rev app]. unfold hook_form. do 2 f_equal. rewrite C3, !blen_app. cbn [blen]. change (utf8_len (chr ")")) with 1. lia.
  - assert (9 + f = 2 * blen code + 3) as E2 by exact E. rewrite C3, !blen_app in E2. change (blen hook_front) with 26 in E2. lia.
Qed.
Lemma empty_read name extra : hook_name name -> Forall i64 extra ->
  first unum (hook_code name [] extra) = Some (Good (hook_form (VSymbol [34; 34]%N :: map VInt extra) name) (blen (hook_code name [] extra))).
Proof.
  intros Hn He. rewrite code_shape. change (34%N :: escape [] ++ [34%N]) with [34; 34]%N. destruct (extras_Items extra He) as (g & t & Et & Hg & Hi & Ht & Hq).
  assert (exists f, 20 <= f /\ 9 + f = enough (in_hook name ([34; 34]%N ++ extras extra))) as (f & Hf & E).
  { unfold enough. exists (2 * blen (in_hook name ([34; 34]%N ++ extras extra)) + 3 - 9). unfold in_hook. rewrite !blen_app. change (blen hook_front) with 26. lia. }
  apply (front_good name _ _ f); auto; [split; [reflexivity|discriminate]|discriminate|].
  destruct (proj2 (Writes_read unum) _ _ Hi) as [_ R].
  set (rest := lit ") " ++ name ++ lit ")").
  assert (in_hook name ([34; 34]%N ++ extras extra) = hook_front ++ [34; 34]%N ++ g ++ t ++ chr ")" :: rest) as C.
  { unfold in_hook. rewrite Et, <- !app_assoc. reflexivity. }
  assert (ends_word (g ++ t ++ chr ")" :: rest)) as Hw by (rewrite app_assoc, <- Et; apply Hq).
  destruct f as [|[|f]]; [lia|lia|]. rewrite C. rewrite (member_item (S f) hook_front [34; 34]%N g (t ++ chr ")" :: rest) (VSymbol [34; 34]%N)); [|now apply empty_expr|exact Hg|destruct Ht as [->|Ht]; [split; [reflexivity|discriminate]|now apply starts_no_gap]].
  specialize (R (hook_front ++ [34; 34]%N ++ g) rest (S f) [VSymbol [34; 34]%N; VSymbol (lit "hook")]).
  rewrite <- (app_assoc hook_front), <- (app_assoc [34; 34]%N) in R. etransitivity; [apply R|].
  - unfold enough in E. unfold in_hook in E. rewrite Et, !blen_app in E. change (blen hook_front) with 26 in E. change (blen [34; 34]%N) with 2 in E. lia.
  - cbn [rev app]. f_equal. rewrite Et, !blen_app. cbn [blen]. rewrite !blen_app. lia.
Qed.
End Clean.
