(** C170-C172: where requests to the AI service go, with which settings, and what they hold. *)
From Verif Require Import Base Env_Model Chat_Model Chat_Spec Client_Model Client_Spec.
From Verif Require Env_Props Answer_Props.

Lemma allowed_iff process : http_allowed process = true <-> opted_in process.
Proof.
  unfold http_allowed, opted_in, ALLOW_HTTP. destruct (assoc _ process) as [v|].
  - rewrite mem_str_iff. split; [intros I; exists v; auto|intros (w & [= <-] & I); exact I].
  - split; [discriminate|intros (w & E & _); discriminate].
Qed.
Lemma drop_slashes_app a b : slashes a -> (forall c r, b = c :: r -> c <> 47%N) -> drop_slashes (a ++ b) = b.
Proof.
  intros A B. induction a as [|c a IH]; cbn [app].
  - destruct b as [|c b]; [reflexivity|]. cbn [drop_slashes]. destruct (N.eqb_spec c slash) as [E|_]; [exfalso; exact (B c b eq_refl E)|reflexivity].
  - cbn [drop_slashes]. rewrite (A c (or_introl eq_refl)). apply IH. intros x I. apply A. right. exact I.
Qed.
Lemma trim_slashes_app t sl : slashes sl -> (forall b c, t = b ++ [c] -> c <> 47%N) -> trim_slashes (t ++ sl) = t.
Proof.
  intros S T. unfold trim_slashes. rewrite rev_app_distr, drop_slashes_app.
  - apply rev_involutive.
  - intros c I. apply S. apply in_rev. exact I.
  - intros c r E. apply (T (rev r) c). rewrite <- (rev_involutive t), E. reflexivity.
Qed.
Lemma trim_slashes_prefix s : exists sl, s = trim_slashes s ++ sl /\ slashes sl.
Proof.
  unfold trim_slashes. assert (G : forall r, exists a, r = a ++ drop_slashes r /\ slashes a).
  { induction r as [|c r (a & E & A)]; [exists []; split; [reflexivity|intros c []]|]. cbn [drop_slashes]. destruct (N.eqb_spec c slash) as [Ec|Ec].
    - exists (c :: a). split; [cbn [app]; f_equal; exact E|]. intros x [<- |I]; [exact Ec|exact (A x I)].
    - exists []. split; [reflexivity|intros x []]. }
  destruct (G (rev s)) as (a & E & A). exists (rev a). split; [rewrite <- rev_app_distr, <- E, rev_involutive; reflexivity|]. intros c I. apply A. apply in_rev. exact I.
Qed.
Lemma trim_slashes_end s b c : trim_slashes s = b ++ [c] -> c <> 47%N.
Proof.
  unfold trim_slashes. assert (G : forall r c x, drop_slashes r = c :: x -> c <> 47%N).
  { induction r as [|y r IH]; intros c' x E; [discriminate|]. cbn [drop_slashes] in E. destruct (N.eqb_spec y slash) as [_|Ey]; [exact (IH _ _ E)|]. injection E as <- _. exact Ey. }
  intros E. apply (G (rev s) c (rev b)). rewrite <- (rev_involutive (drop_slashes (rev s))), E, rev_app_distr. reflexivity.
Qed.
Lemma https_cut s : starts_with (lit "https://") s = false -> starts_with (lit "https://") (trim_slashes s) = false.
Proof.
  intros H. destruct (starts_with (lit "https://") (trim_slashes s)) eqn:E; [|reflexivity]. apply starts_with_iff in E as (r & E). destruct (trim_slashes_prefix s) as (sl & S & _). rewrite E, <- app_assoc in S.
  assert (X : starts_with (lit "https://") s = true) by (apply starts_with_iff; exists (r ++ sl); exact S). congruence.
Qed.

(** ** C170 *)
Lemma build_some s ms t m tools r : build s ms t m tools = Some r -> url r = endpoint s /\ key s = Some (bearer r).
Proof. unfold build. destruct (key s) as [k|]; [|discriminate]. intros [= <-]. auto. Qed.
(** Unless the user allowed it, nothing is sent but over an encrypted connection. *)
Theorem C170_encrypted e process ms t m tools r : ~ opted_in process -> build (load_config e process) ms t m tools = Some r -> starts_with (lit "https://") (url r) = true.
Proof.
  intros N B. apply build_some in B as [-> _]. unfold load_config, from_getter, endpoint. cbn [base configure]. set (u := or_else _ (variable e process (lit "OPENAI_BASE_URL"))).
  unfold sanitize. replace (http_allowed process) with false by (symmetry; destruct (http_allowed process) eqn:E; [apply allowed_iff in E; contradiction|reflexivity]). cbn [orb].
  assert (D : starts_with (lit "https://") (let t := trim_slashes default_base in if ends_with path t then t else t ++ [slash] ++ path) = true) by reflexivity.
  set (s := match u with Some v => _ | None => default_base end). assert (S : s = default_base \/ exists x, s = trim_slashes x). { unfold s. destruct u as [v|]; [|left; reflexivity]. destruct (trim v); [left; reflexivity|]. right. eexists. reflexivity. }
  clearbody s. destruct (starts_with (lit "https://") s) eqn:H; [|exact D]. destruct S as [-> |(x & Sx)]; [exact D|].
  assert (I : trim_slashes s = s). { rewrite <- (app_nil_r s) at 1. apply trim_slashes_app; [intros c []|]. intros b c E. rewrite Sx in E. exact (trim_slashes_end x b c E). }
  cbv zeta. rewrite I. destruct (ends_with path s); [exact H|]. apply starts_with_iff in H as (y & ->). apply starts_with_iff. eexists. rewrite <- app_assoc. reflexivity.
Qed.
(** Everything is sent to the configured address: the path of the interface is added to it unless it has it. *)
Lemma sanitize_address process a t sl b : white a -> white b -> slashes sl -> address t -> starts_with (lit "https://") t = true \/ opted_in process ->
  sanitize process (Some (a ++ (t ++ sl) ++ b)) = t.
Proof.
  intros A B S (N & F & L) H. unfold sanitize. assert (E : trim (a ++ (t ++ sl) ++ b) = t ++ sl).
  { apply Answer_Props.trim_exact; [exact A|exact B|destruct t; [contradiction|discriminate]| |].
    - intros c r E. destruct t as [|c' t]; [contradiction|]. injection E as <- _. exact (F c' t eq_refl).
    - intros x c E. destruct (rev sl) as [|y sl'] eqn:R.
      + assert (sl = []) by (rewrite <- (rev_involutive sl), R; reflexivity). subst sl. rewrite app_nil_r in E. apply (L x c E).
      + assert (R' : sl = rev sl' ++ [y]) by (rewrite <- (rev_involutive sl), R; reflexivity). rewrite R', app_assoc in E. apply app_inj_tail in E as [_ <-]. rewrite (S y); [reflexivity|]. rewrite R'. apply in_app_iff. right. left. reflexivity. }
  rewrite E. assert (T : trim_slashes (t ++ sl) = t) by (apply trim_slashes_app; [exact S|intros x c X; apply (L x c X)]).
  destruct (t ++ sl) as [|c r] eqn:Z; [destruct t; [contradiction|discriminate]|]. rewrite T. destruct H as [-> |O]; [rewrite orb_true_r; reflexivity|]. apply allowed_iff in O. rewrite O. reflexivity.
Qed.
Lemma endpoint_of s : (forall b c, base s = b ++ [c] -> c <> 47%N) -> endpoint s = if ends_with path (base s) then base s else base s ++ [slash] ++ path.
Proof. intros L. unfold endpoint. assert (T : trim_slashes (base s) = base s) by (rewrite <- (app_nil_r (base s)) at 1; apply trim_slashes_app; [intros c []|exact L]). rewrite T. reflexivity. Qed.
Theorem C170_address_partial e process ms te m tools r a t sl b : build (load_config e process) ms te m tools = Some r ->
  first_set (variable e process) [lit "AI_CHAT_BASE_URL"; lit "OPENAI_BASE_URL"] (Some (a ++ (t ++ sl) ++ b)) ->
  white a -> white b -> slashes sl -> address t -> starts_with (lit "https://") t = true \/ opted_in process ->
  (forall x, t = x ++ lit "/chat/completions" -> url r = t) /\ ((forall x, t <> x ++ lit "chat/completions") -> url r = t ++ lit "/chat/completions").
Proof.
  intros Bd F A B S T H. apply build_some in Bd as [-> _]. unfold load_config, from_getter.
  assert (U : or_else (variable e process (lit "AI_CHAT_BASE_URL")) (variable e process (lit "OPENAI_BASE_URL")) = Some (a ++ (t ++ sl) ++ b)).
  { inversion F as [|n ns v G|n ns o G F']; subst; [rewrite G; reflexivity|]. rewrite G. inversion F' as [|n2 ns2 v2 G2|n2 ns2 o2 G2 F2]; subst; [rewrite G2; reflexivity|]. inversion F2. }
  rewrite U. rewrite endpoint_of; cbn [base configure]; rewrite (sanitize_address process a t sl b A B S T H); [|intros x c E; apply (proj2 (proj2 T) x c E)].
  split.
  - intros x E. replace (ends_with path t) with true; [reflexivity|]. symmetry. apply ends_with_iff. exists (x ++ [slash]). rewrite E, <- app_assoc. reflexivity.
  - intros Nx. destruct (ends_with path t) eqn:E; [|reflexivity]. apply ends_with_iff in E as (x & E). exfalso. exact (Nx x E).
Qed.
(** But an address that is not encrypted, as that of a server on this machine, is replaced by that of OpenAI: the whole request and
    the key meant for the configured server are sent there, without a word. *)
Theorem C170_elsewhere_refuted e process ms te m tools r u : ~ opted_in process -> build (load_config e process) ms te m tools = Some r ->
  first_set (variable e process) [lit "AI_CHAT_BASE_URL"; lit "OPENAI_BASE_URL"] (Some u) -> starts_with (lit "https://") (trim u) = false ->
  url r = lit "https://api.openai.com/v1/chat/completions" /\
  first_set (variable e process) [lit "AI_CHAT_API_KEY"; lit "OPENAI_API_KEY"; lit "OPEN_AI_API_KEY"] (Some (bearer r)) /\ field "messages" (body r) = Some (Arr ms).
Proof.
  intros N Bd F H. assert (Bm : field "messages" (body r) = Some (Arr ms)). { unfold build in Bd. destruct (key _); [|discriminate]. injection Bd as <-. reflexivity. }
  apply build_some in Bd as [-> K]. split; [|split; [|exact Bm]].
  - unfold load_config, from_getter, endpoint. cbn [base configure].
    assert (U : or_else (variable e process (lit "AI_CHAT_BASE_URL")) (variable e process (lit "OPENAI_BASE_URL")) = Some u).
    { inversion F as [|n ns v G|n ns o G F']; subst; [rewrite G; reflexivity|]. rewrite G. inversion F' as [|n2 ns2 v2 G2|n2 ns2 o2 G2 F2]; subst; [rewrite G2; reflexivity|]. inversion F2. }
    rewrite U. unfold sanitize. replace (http_allowed process) with false by (symmetry; destruct (http_allowed process) eqn:E; [apply allowed_iff in E; contradiction|reflexivity]). cbn [orb].
    destruct (trim u) as [|c x] eqn:T; [reflexivity|]. rewrite (https_cut _ H). reflexivity.
  - unfold load_config, from_getter in K. cbn [key configure] in K. unfold or_else in K. destruct (variable e process (lit "AI_CHAT_API_KEY")) eqn:E1; [rewrite <- K; apply here_set; exact E1|]. apply later_set; [exact E1|].
    destruct (variable e process (lit "OPENAI_API_KEY")) eqn:E2; [rewrite <- K; apply here_set; exact E2|]. apply later_set; [exact E2|]. apply here_set. exact K.
Qed.
(** An address whose last part only ends like the path is taken for one that has it. *)
Theorem C170_path_refuted process k m (x y : str) : starts_with (lit "https://") x = true -> (forall b c, x ++ y = b ++ [c] -> c <> 47%N) ->
  let t := x ++ y ++ lit "chat/completions" in endpoint (configure process k (Some t) m) = t /\ forall z, t <> z ++ lit "/chat/completions".
Proof.
  intros H Ny t. split.
  2:{ intros z E. unfold t in E. change (lit "/chat/completions") with (lit "/" ++ lit "chat/completions") in E. rewrite !app_assoc in E. apply app_inv_tail in E. change (lit "/") with [47%N] in E. exact (Ny z _ E eq_refl). }
  assert (Et : t = (x ++ y ++ lit "chat/completion") ++ lit "s") by (unfold t; rewrite <- !app_assoc; reflexivity).
  assert (Last : forall b c, t = b ++ [c] -> c = 115%N). { intros b c E. rewrite Et in E. change (lit "s") with [115%N] in E. apply app_inj_tail in E as [_ <-]. reflexivity. }
  assert (At : address t). { apply starts_with_iff in H as (z & E). split; [unfold t; rewrite E; discriminate|]. split.
    - intros c r R. unfold t in R. rewrite E in R. cbn in R. injection R as <- _. reflexivity.
    - intros b c R. rewrite (Last b c R). split; [reflexivity|discriminate]. }
  assert (S : sanitize process (Some t) = t). { pose proof (sanitize_address process [] t [] []) as G. rewrite !app_nil_r in G. cbn [app] in G. apply G; try (intros c []); [exact At|]. left. apply starts_with_iff in H as (z & E). apply starts_with_iff. unfold t. rewrite E. eexists. rewrite <- app_assoc. reflexivity. }
  rewrite endpoint_of; cbn [base configure]; rewrite S; [|intros b c E; rewrite (Last b c E); discriminate].
  replace (ends_with path t) with true; [reflexivity|]. symmetry. apply ends_with_iff. exists (x ++ y). unfold t, path. rewrite <- !app_assoc. reflexivity.
Qed.

(** ** C171 *)
Theorem C171_settings_partial e process : let s := load_config e process in
  first_set (variable e process) [lit "AI_CHAT_API_KEY"; lit "OPENAI_API_KEY"; lit "OPEN_AI_API_KEY"] (key s) /\
  (forall m, first_set (variable e process) [lit "AI_CHAT_MODEL"; lit "OPENAI_MODEL"] (Some m) -> trim m <> [] -> model s = m) /\
  (first_set (variable e process) [lit "AI_CHAT_MODEL"; lit "OPENAI_MODEL"] None -> model s = lit "gpt-5-mini").
Proof.
  cbv zeta. unfold load_config, from_getter. cbn [key model configure]. set (g := variable e process). split; [|split].
  - unfold or_else. destruct (g (lit "AI_CHAT_API_KEY")) eqn:E1; [apply here_set; exact E1|]. apply later_set; [exact E1|].
    destruct (g (lit "OPENAI_API_KEY")) eqn:E2; [apply here_set; exact E2|]. apply later_set; [exact E2|].
    destruct (g (lit "OPEN_AI_API_KEY")) eqn:E3; [apply here_set; exact E3|]. apply later_set; [exact E3|]. constructor.
  - intros m F T. assert (U : or_else (g (lit "AI_CHAT_MODEL")) (g (lit "OPENAI_MODEL")) = Some m).
    { inversion F as [|n ns v G|n ns o G F']; subst; [rewrite G; reflexivity|]. rewrite G. inversion F' as [|n2 ns2 v2 G2|n2 ns2 o2 G2 F2]; subst; [rewrite G2; reflexivity|]. inversion F2. }
    rewrite U. destruct (trim m); [contradiction|reflexivity].
  - intros F. inversion F as [| |n ns o G F']; subst. inversion F' as [| |n2 ns2 o2 G2 F2]; subst. rewrite G, G2. reflexivity.
Qed.
(** a variable set to nothing hides the next one *)
Theorem C171_blank_refuted e process v k : (trim v = [] -> variable e process (lit "AI_CHAT_MODEL") = Some v -> model (load_config e process) = lit "gpt-5-mini") /\
  (variable e process (lit "AI_CHAT_API_KEY") = Some [] -> variable e process (lit "OPENAI_API_KEY") = Some k -> key (load_config e process) = Some []).
Proof.
  unfold load_config, from_getter. cbn [key model configure]. split.
  - intros T ->. cbn [or_else]. rewrite T. reflexivity.
  - intros -> _. reflexivity.
Qed.
Definition chat_names : list str := [lit "AI_CHAT_MODEL"; lit "CHAT_PROMPT"; lit "AI_CHAT_API_KEY"; lit "OPENAI_API_KEY"; lit "OPEN_AI_API_KEY"; lit "AI_CHAT_BASE_URL"; lit "OPENAI_BASE_URL"; lit "OPENAI_MODEL"; lit "AI_MESSAGE_LANG"].
Lemma get_set k k' v e : In k chat_names -> get_var (set_var k' v e) k = if str_eq_dec k k' then Some v else get_var e k.
Proof.
  intros I. assert (G : forall e, get_var e k = match assoc k (variables e) with Some v => Some v | None => assoc k (system e) end).
  { intros f. unfold chat_names in I. cbn [In] in I. repeat (destruct I as [<- |I]; [reflexivity|]). destruct I. }
  rewrite !G. unfold set_var. cbn [variables system set_variables]. rewrite Env_Props.assoc_insert. destruct (str_eq_dec k k'); reflexivity.
Qed.
(** After chat_model the next requests go to this model, and it is the one shown; nothing else changes. *)
Theorem C171_model m e process : trim m <> [] -> let e' := snd (chat_model [m] e process) in
  fst (chat_model [] e' process) = Out (lit "Current OpenAI model: " ++ m) /\ snd (chat_model [] e' process) = e' /\
  load_config e' process = Settings (key (load_config e process)) (base (load_config e process)) m.
Proof.
  intros T. cbn [chat_model snd fst]. assert (V : forall k, In k chat_names -> variable (set_var (lit "AI_CHAT_MODEL") m e) process k = if str_eq_dec k (lit "AI_CHAT_MODEL") then Some m else variable e process k).
  { intros k I. unfold variable. rewrite (get_set k _ m e I). destruct (str_eq_dec k _); reflexivity. }
  assert (L : load_config (set_var (lit "AI_CHAT_MODEL") m e) process = Settings (key (load_config e process)) (base (load_config e process)) m).
  { unfold load_config, from_getter. cbn [key base configure]. rewrite !V by (cbn; tauto).
    assert (D : forall k, str_eqb k (lit "AI_CHAT_MODEL") = false -> forall A (a b : A), (if str_eq_dec k (lit "AI_CHAT_MODEL") then a else b) = b).
    { intros k E A a b. destruct (str_eq_dec k _) as [->|_]; [rewrite str_eqb_refl in E; discriminate|reflexivity]. }
    rewrite !(D (lit "AI_CHAT_API_KEY")), !(D (lit "OPENAI_API_KEY")), !(D (lit "OPEN_AI_API_KEY")), !(D (lit "AI_CHAT_BASE_URL")), !(D (lit "OPENAI_BASE_URL")) by reflexivity.
    destruct (str_eq_dec (lit "AI_CHAT_MODEL") (lit "AI_CHAT_MODEL")) as [_|X]; [|contradiction]. cbn [or_else]. unfold configure. destruct (trim m); [contradiction|reflexivity]. }
  rewrite L. auto.
Qed.
(** it says so of a blank name too, which is not used *)
Theorem C171_blank_model_refuted m e process : trim m = [] -> fst (chat_model [m] e process) = Out (lit "OpenAI model set to: " ++ m) /\ model (load_config (snd (chat_model [m] e process)) process) = lit "gpt-5-mini".
Proof.
  intros T. split; [reflexivity|]. cbn [chat_model snd]. apply (C171_blank_refuted _ process m []); [exact T|]. unfold variable. rewrite get_set by (cbn; tauto). destruct (str_eq_dec _ _) as [_|X]; [reflexivity|contradiction].
Qed.
(** After chat_prompt its text is the last instruction but for the language; further words are ignored. *)
Theorem C171_prompt p rest e process b servers msg : trim p <> [] -> trim msg <> [] -> key (load_config e process) <> None -> get_var e (lit "AI_MESSAGE_LANG") = None ->
  exists s pre, begin (snd (chat_prompt (p :: rest) e)) process b servers msg = Some (s, b ++ pre ++ lit "Additional operator instructions:" ++ 10%N :: trim p, msg).
Proof.
  intros T M K L. cbn [chat_prompt snd]. unfold begin. assert (K' : key (load_config (set_var (lit "CHAT_PROMPT") p e) process) = key (load_config e process)).
  { unfold load_config, from_getter. cbn [key configure]. unfold variable. rewrite !get_set by (cbn; tauto).
    assert (D : forall k, str_eqb k (lit "CHAT_PROMPT") = false -> forall A (a b : A), (if str_eq_dec k (lit "CHAT_PROMPT") then a else b) = b).
    { intros k E A a c. destruct (str_eq_dec k _) as [->|_]; [rewrite str_eqb_refl in E; discriminate|reflexivity]. }
    rewrite !D by reflexivity. reflexivity. }
  destruct (trim msg); [contradiction|]. cbv zeta. rewrite K'. destruct (key (load_config e process)) as [k|]; [|contradiction]. rewrite !get_set by (cbn; tauto).
  destruct (str_eq_dec (lit "CHAT_PROMPT") (lit "CHAT_PROMPT")) as [_|X]; [|contradiction]. destruct (str_eq_dec (lit "AI_MESSAGE_LANG") (lit "CHAT_PROMPT")) as [X|_]; [discriminate|]. rewrite L.
  eexists. exists (match servers with Some f => [10; 10]%N ++ lit "MCP access:" ++ 10%N :: f | None => [] end ++ [10; 10]%N). unfold instructions. destruct (trim p) as [|c0 t0]; [contradiction|]. rewrite !app_nil_r, <- !app_assoc. reflexivity.
Qed.
Theorem C171_words_refuted p rest e : snd (chat_prompt (p :: rest) e) = snd (chat_prompt [p] e) /\ fst (chat_prompt (p :: rest) e) = Out (lit "Chat prompt set to: " ++ p).
Proof. split; reflexivity. Qed.

(** ** C172 *)
Theorem C172_request s ms te m tools r : build s ms te m tools = Some r ->
  field "model" (body r) = Some (Str (match m with Some x => x | None => model s end)) /\ field "messages" (body r) = Some (Arr ms) /\
  field "tools" (body r) = option_map Arr tools /\
  field "temperature" (body r) = (if str_eqb (match m with Some x => x | None => model s end) (lit "gpt-5-mini") then Some (Scalar (lit "1.0")) else option_map Scalar te).
Proof.
  unfold build. destruct (key s) as [k|]; [|discriminate]. cbv zeta. intros [= <-]. cbn [body]. destruct (str_eqb _ _); destruct te as [t|]; destruct tools as [l|]; repeat split; reflexivity.
Qed.
Theorem C172_no_key s ms te m tools : build s ms te m tools = None <-> key s = None.
Proof. unfold build. destruct (key s); split; congruence. Qed.
(** A question without tools: the instructions, if they are not blank, and the question as it is. *)
Theorem C172_messages q p : build_messages q None = [says "user" q] /\
  (trim p = [] -> build_messages q (Some p) = [says "user" q]) /\ (trim p <> [] -> build_messages q (Some p) = [says "system" (trim p); says "user" q]).
Proof. unfold build_messages. split; [reflexivity|]. destruct (trim p); split; intros H; try contradiction; try discriminate; reflexivity. Qed.
(** Its answer is the text of the message; but an answer in parts, which a chat shows, is an error here. *)
Theorem C172_answer data m s : message_of data = Some m -> field "content" m = Some (Str s) -> text_of data = Some s.
Proof. intros M F. unfold text_of. rewrite M, F. reflexivity. Qed.
Theorem C172_parts_refuted data m ss : message_of data = Some m -> field "content" m = Some (Arr (map text_part ss)) -> text_of data = None.
Proof. intros M F. unfold text_of. rewrite M, F. reflexivity. Qed.

Print Assumptions C170_encrypted.
Print Assumptions C170_address_partial.
Print Assumptions C170_elsewhere_refuted.
Print Assumptions C170_path_refuted.
Print Assumptions C171_settings_partial.
Print Assumptions C171_blank_refuted.
Print Assumptions C171_model.
Print Assumptions C171_blank_model_refuted.
Print Assumptions C171_prompt.
Print Assumptions C171_words_refuted.
Print Assumptions C172_request.
Print Assumptions C172_no_key.
Print Assumptions C172_messages.
Print Assumptions C172_answer.
Print Assumptions C172_parts_refuted.

Definition shell (vars : map_) : env := Env vars [] [] [] [] (Output_Model.with_capacity 0 0 0) (fun _ => None).
Example C170_example : option_map url (build (load_config (shell [(lit "AI_CHAT_BASE_URL", lit " https://ai.example/v1// "); (lit "OPENAI_API_KEY", lit "k")]) []) [] None None None) = Some (lit "https://ai.example/v1/chat/completions").
Proof. vm_compute. reflexivity. Qed.
Example C170_local : option_map (fun r => (url r, bearer r)) (build (load_config (shell [(lit "AI_CHAT_BASE_URL", lit "http://localhost:8080/v1"); (lit "AI_CHAT_API_KEY", lit "local")]) []) [] None None None) = Some (lit "https://api.openai.com/v1/chat/completions", lit "local").
Proof. vm_compute. reflexivity. Qed.
Example C170_local_allowed : option_map url (build (load_config (shell [(lit "AI_CHAT_BASE_URL", lit "http://localhost:8080/v1"); (lit "AI_CHAT_API_KEY", lit "local")]) [(lit "AI_CHAT_ALLOW_INSECURE_HTTP", lit " Yes")]) [] None None None) = Some (lit "http://localhost:8080/v1/chat/completions").
Proof. vm_compute. reflexivity. Qed.
Example C171_example : option_map (fun x => snd (fst x)) (begin (snd (chat_prompt [lit " be brief "; lit "please"] (shell [(lit "AI_CHAT_API_KEY", lit "k"); (lit "AI_MESSAGE_LANG", lit "Japanese")]))) [] (lit "base") None (lit "hi")) =
  Some (lit "base" ++ [10; 10]%N ++ lit "Additional operator instructions:" ++ 10%N :: lit "be brief" ++ [10; 10]%N ++ lit "IMPORTANT: You MUST respond in Japanese.").
Proof. vm_compute. reflexivity. Qed.
