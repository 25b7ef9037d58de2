(** C219: the services of a compose file.  C220: which compose file. *)
From Verif Require Import Base Dynamic_Model Dynamic_Spec.
From Verif Require Answer_Props Suggest_Spec Client_Spec Direnv_Model Runtime_Model Runtime_Props.

Lemma idle_line_iff t : idle_line t = true <-> t = [] \/ exists r, t = chr "#" :: r.
Proof.
  destruct t as [|c t]; [cbn; tauto|]. cbn [idle_line]. rewrite starts_with_iff. split.
  - intros [r E]. right. exists r. exact E.
  - intros [X|[r X]]; [discriminate|]. exists r. exact X.
Qed.
Lemma quiet_iff l : quiet l <-> idle_line (trim l) = true.
Proof. unfold quiet. rewrite idle_line_iff. reflexivity. Qed.
Lemma loud_iff l : ~ quiet l <-> idle_line (trim l) = false.
Proof. rewrite quiet_iff. destruct (idle_line (trim l)); split; congruence. Qed.
Lemma indent_gap sp c r : blanks sp -> is_whitespace c = false -> indent (sp ++ c :: r) = length sp.
Proof. intros B W. induction B as [|x sp X _ IH]; cbn [app indent]; [rewrite W; reflexivity|]. rewrite X, IH. reflexivity. Qed.
Lemma blanks_white sp : blanks sp -> Suggest_Spec.white sp.
Proof. intros B c I. unfold blanks in B. rewrite Forall_forall in B. exact (B c I). Qed.
Lemma drop_colons_stop c r : c <> chr ":" -> drop_colons (c :: r) = c :: r.
Proof. intros N. cbn [drop_colons]. destruct (N.eqb_spec c (chr ":")); [contradiction|reflexivity]. Qed.
Lemma key_trim n : key_name n -> trim n = n.
Proof.
  intros (N & F & _). rewrite Forall_forall in F. replace n with ([] ++ n ++ []) at 1 by (cbn; rewrite app_nil_r; reflexivity).
  apply Answer_Props.trim_exact; [intros c []|intros c []|exact N| |].
  - intros c r ->. apply F. left. reflexivity.
  - intros b c ->. apply F. rewrite in_app_iff. right. left. reflexivity.
Qed.
Lemma key_line sp n tail : blanks sp -> key_name n -> blanks tail -> trim (sp ++ n ++ chr ":" :: tail) = n ++ [chr ":"].
Proof.
  intros B K T. destruct K as (N & F & _). rewrite Forall_forall in F.
  replace (n ++ chr ":" :: tail) with ((n ++ [chr ":"]) ++ tail) by (rewrite <- app_assoc; reflexivity).
  apply Answer_Props.trim_exact; [apply blanks_white; exact B|apply blanks_white; exact T|destruct n; discriminate| |].
  - intros c r E. destruct n as [|x n]; [congruence|]. cbn in E. injection E as <- _. apply F. left. reflexivity.
  - intros b c E. apply app_inj_tail in E. destruct E as [_ <-]. reflexivity.
Qed.
Lemma key_text_of n : key_name n -> key_text (n ++ [chr ":"]) = n.
Proof.
  intros K. unfold key_text. rewrite rev_app_distr. change (rev [chr ":"]) with [chr ":"]. cbn [app drop_colons]. rewrite N.eqb_refl.
  assert (D : drop_colons (rev n) = rev n).
  { destruct K as (N & _ & L & _). destruct (exists_last N) as (m & c & ->). rewrite rev_app_distr. cbn [rev app]. apply drop_colons_stop. rewrite last_last in L. exact L. }
  rewrite D, rev_involutive. apply key_trim. exact K.
Qed.
Lemma key_loud n t : key_name n -> idle_line (n ++ t) = false /\ starts_with (lit "-") (n ++ t) = false.
Proof.
  intros (N & _ & _ & D & H). destruct n as [|c n]; [congruence|]. cbn [hd] in D, H. cbn [app idle_line]. split.
  - destruct (starts_with (lit "#") (c :: n ++ t)) eqn:E; [|reflexivity]. apply starts_with_iff in E. destruct E as [r E]. exfalso. apply H. injection E as -> _. reflexivity.
  - destruct (starts_with (lit "-") (c :: n ++ t)) eqn:E; [|reflexivity]. apply starts_with_iff in E. destruct E as [r E]. exfalso. apply D. injection E as -> _. reflexivity.
Qed.
Lemma key_no_space n : key_name n -> match n with [] => true | _ => mem_char 32%N n end = false.
Proof.
  intros (N & F & _). destruct n as [|c n]; [congruence|]. destruct (mem_char 32%N (c :: n)) eqn:M; [|reflexivity]. apply mem_char_iff in M. rewrite Forall_forall in F. specialize (F _ M). discriminate.
Qed.
Lemma key_indent sp n t : blanks sp -> key_name n -> indent (sp ++ n ++ t) = length sp.
Proof.
  intros B (N & F & _). destruct n as [|c n]; [congruence|]. cbn [app]. apply indent_gap; [exact B|]. rewrite Forall_forall in F. apply F. left. reflexivity.
Qed.
Lemma rest_ends outer at_ rest : (rest = [] \/ exists l r, rest = l :: r /\ flush_left l) -> service_lines outer at_ rest = [].
Proof.
  intros [->|(l & r & -> & Q & c & t & -> & W)]; [reflexivity|]. cbn [service_lines]. apply loud_iff in Q. rewrite Q. cbn [indent]. rewrite W. reflexivity.
Qed.
Lemma block_lines k ls rest ns begun : 0 < k -> Services k begun ls ns -> (rest = [] \/ exists l r, rest = l :: r /\ flush_left l) ->
  service_lines 0 (if begun then Some k else None) (ls ++ rest) = ns.
Proof.
  intros K V R. induction V as [b|b l ls ns Q V IH|b sp n tail ls ns B L N T V IH|sp c r ls ns B L W V IH]; cbn [app].
  - apply rest_ends. exact R.
  - cbn [service_lines]. apply quiet_iff in Q. rewrite Q. exact IH.
  - cbn [service_lines]. rewrite (key_line sp n tail B N T). destruct (key_loud n [chr ":"] N) as [-> ->]. rewrite (key_indent sp n _ B N), L.
    destruct (Nat.leb_spec k 0); [lia|]. assert (E : ends_with (lit ":") (n ++ [chr ":"]) = true) by (apply ends_with_iff; exists n; reflexivity). rewrite E. cbn [negb].
    rewrite (key_text_of n N), (key_no_space n N). destruct b; [rewrite Nat.eqb_refl|]; rewrite IH; reflexivity.
  - cbn [service_lines]. rewrite (indent_gap sp c r B W). destruct (idle_line _); [exact IH|]. destruct (Nat.leb_spec (length sp) 0); [lia|]. destruct (starts_with _ _); [exact IH|]. destruct (negb _); [exact IH|].
    destruct (match key_text _ with [] => true | _ => _ end); [exact IH|]. destruct (Nat.eqb_spec (length sp) k); [lia|]. exact IH.
Qed.
Lemma once_in x l : forall seen, In x (once seen l) <-> In x l /\ ~ In x seen.
Proof.
  induction l as [|y l IH]; intros seen; cbn [once]; [cbn; tauto|]. destruct (mem_str y seen) eqn:M.
  - rewrite IH. apply mem_str_iff in M. cbn [In]. split; [tauto|]. intros [[->|H] Nx]; [contradiction|tauto].
  - cbn [In]. rewrite IH. apply mem_str_false in M. cbn [In]. destruct (str_eq_dec y x) as [->|D]; [tauto|]. tauto.
Qed.
Lemma once_nodup l : forall seen, NoDup (once seen l).
Proof. induction l as [|y l IH]; intros seen; cbn [once]; [constructor|]. destruct (mem_str y seen); [apply IH|]. constructor; [|apply IH]. rewrite once_in. cbn. tauto. Qed.
Lemma once_id l : forall seen, NoDup l -> (forall x, In x l -> ~ In x seen) -> once seen l = l.
Proof.
  induction l as [|y l IH]; intros seen D S; cbn [once]; [reflexivity|]. assert (M : mem_str y seen = false) by (apply mem_str_false, S; left; reflexivity). rewrite M. inversion D as [|? ? X Y]; subst.
  f_equal. apply IH; [exact Y|]. intros x I [->|J]; [contradiction|]. exact (S x (or_intror I) J).
Qed.
Lemma block_at pre head body : Forall (fun l => trim l <> lit "services:") pre -> trim head = lit "services:" ->
  services_block (pre ++ head :: body) = Some (indent head, body).
Proof.
  intros P H. induction P as [|l pre L _ IH]; cbn [app services_block].
  - rewrite H. reflexivity.
  - destruct (str_eqb (trim l) (lit "services:")) eqn:E; [apply str_eqb_eq in E; contradiction|exact IH].
Qed.
Lemma head_trim tail : blanks tail -> trim (lit "services:" ++ tail) = lit "services:".
Proof.
  intros T. change (lit "services:" ++ tail) with ([] ++ lit "services:" ++ tail). apply Answer_Props.trim_exact; [intros c []|apply blanks_white; exact T|discriminate| |].
  - intros c r E. cbn in E. injection E as <- _. reflexivity.
  - intros b c E. change (lit "services:") with (lit "services" ++ [chr ":"]) in E. apply app_inj_tail in E. destruct E as [_ <-]. reflexivity.
Qed.

(** ** C219 *)
(** in a file laid out with each service's name on a line of its own, exactly the services are
    offered, in the order of the file *)
Theorem C219_offered_partial : forall s pre tail body rest k ns,
  Direnv_Model.lines s = pre ++ (lit "services:" ++ tail) :: body ++ rest ->
  Forall (fun l => trim l <> lit "services:") pre -> blanks tail ->
  0 < k -> Services k false body ns -> NoDup ns -> (rest = [] \/ exists l r, rest = l :: r /\ flush_left l) ->
  service_names s = ns.
Proof.
  intros s pre tail body rest k ns E P T K V D R. unfold service_names. rewrite E, (block_at pre _ _ P (head_trim tail T)).
  change (once [] (service_lines 0 None (body ++ rest)) = ns). pose proof (block_lines k body rest ns false K V R) as Q. etransitivity; [exact (f_equal (once []) Q)|]. apply once_id; [exact D|]. intros x _ [].
Qed.
(** in every file: nothing is offered twice, and whatever is offered is a line of the file up to its
    colons, without a space in it *)
Lemma drop_colons_split r : exists n, r = repeat (chr ":") n ++ drop_colons r.
Proof.
  induction r as [|c r [n IH]]; [exists 0; reflexivity|]. cbn [drop_colons]. destruct (N.eqb_spec c (chr ":")) as [->|D].
  - exists (S n). cbn [repeat app]. f_equal. exact IH.
  - exists 0. reflexivity.
Qed.
Lemma lines_key outer ls n : forall at_, In n (service_lines outer at_ ls) ->
  exists l, In l ls /\ outer < indent l /\ n = key_text (trim l) /\ n <> [] /\ ~ In 32%N n /\ (exists t, trim l = t ++ [chr ":"]) /\ ~ quiet l.
Proof.
  induction ls as [|l ls IH]; intros at_ I; [destruct I|]. cbn [service_lines] in I.
  assert (Go : forall a, In n (service_lines outer a ls) -> exists l0, In l0 (l :: ls) /\ outer < indent l0 /\ n = key_text (trim l0) /\ n <> [] /\ ~ In 32%N n /\ (exists t, trim l0 = t ++ [chr ":"]) /\ ~ quiet l0).
  { intros a J. destruct (IH a J) as (l0 & A & B). exists l0. split; [right; exact A|exact B]. }
  destruct (idle_line (trim l)) eqn:Q; [exact (Go _ I)|]. destruct (Nat.leb_spec (indent l) outer) as [|Lt]; [destruct I|]. destruct (starts_with _ _); [exact (Go _ I)|].
  destruct (ends_with (lit ":") (trim l)) eqn:En; cbn [negb] in I; [|exact (Go _ I)]. destruct (match key_text (trim l) with [] => true | _ => mem_char 32%N (key_text (trim l)) end) eqn:M; [exact (Go _ I)|].
  assert (Here : n = key_text (trim l) -> exists l0, In l0 (l :: ls) /\ outer < indent l0 /\ n = key_text (trim l0) /\ n <> [] /\ ~ In 32%N n /\ (exists t, trim l0 = t ++ [chr ":"]) /\ ~ quiet l0).
  { intros ->. exists l. split; [left; reflexivity|]. split; [exact Lt|]. split; [reflexivity|]. destruct (key_text (trim l)) as [|c k] eqn:Ek; [discriminate|]. split; [discriminate|].
    split; [intros J; apply mem_char_iff in J; congruence|]. split; [apply ends_with_iff in En; exact En|]. apply loud_iff. exact Q. }
  destruct at_ as [i|]; [destruct (indent l =? i)|]; try (destruct I as [<-|I]; [exact (Here eq_refl)|]); exact (Go _ I).
Qed.
Theorem C219_from_the_file : forall s n, NoDup (service_names s) /\
  (In n (service_names s) -> n <> [] /\ ~ In 32%N n /\ exists l a x, In l (Direnv_Model.lines s) /\ trim l = a ++ repeat (chr ":") (S x) /\ n = trim a).
Proof.
  intros s n. unfold service_names. split; [destruct (services_block _) as [[i r]|]; [apply once_nodup|constructor]|].
  destruct (services_block (Direnv_Model.lines s)) as [[i r]|] eqn:B; [|intros []]. intros I. apply once_in in I. destruct I as [I _]. apply lines_key in I. destruct I as (l & Il & _ & En & Nn & Ns & (t & Et) & _).
  split; [exact Nn|]. split; [exact Ns|]. destruct (drop_colons_split (rev t)) as (x & Ex). exists l, (rev (drop_colons (rev t))), x.
  assert (Rt : t = rev (drop_colons (rev t)) ++ repeat (chr ":") x).
  { rewrite <- (rev_involutive t) at 1. rewrite Ex at 1. rewrite rev_app_distr. f_equal. clear. induction x as [|x IH]; [reflexivity|]. cbn [repeat rev]. rewrite IH. clear. induction x as [|x IH]; [reflexivity|]. cbn [repeat app]. rewrite IH. reflexivity. }
  split; [|split].
  - clear -B Il. revert B. generalize (Direnv_Model.lines s) as ls. induction ls as [|y ls IH]; [discriminate|]. cbn [services_block]. destruct (str_eqb _ _); intros B; [injection B as _ <-; right; exact Il|right; exact (IH B)].
  - rewrite Et, Rt at 1. rewrite <- app_assoc. f_equal. clear. induction x as [|x IH]; [reflexivity|]. cbn [repeat app]. f_equal. exact IH.
  - rewrite En, Et. unfold key_text. rewrite rev_app_distr. change (rev [chr ":"]) with [chr ":"]. cbn [app drop_colons]. rewrite N.eqb_refl. reflexivity.
Qed.
(** a remark behind the name of the first service hides all services, and a part of it is offered as one *)
Definition remark_text : str := lit "services:" ++ 10%N :: lit "  web: # front" ++ 10%N :: lit "    build:" ++ 10%N :: lit "      context: ." ++ 10%N :: lit "  db:" ++ 10%N :: lit "    image: pg" ++ [10%N].
Theorem C219_remark_refuted : service_names remark_text = [lit "build"].
Proof. vm_compute. reflexivity. Qed.
(** a line that says services with a remark, or services written in braces, are not seen at all *)
Theorem C219_not_seen_refuted : service_names (lit "services: # all of them" ++ 10%N :: lit "  web:" ++ 10%N :: lit "    image: nginx" ++ [10%N]) = []
  /\ service_names (lit "services:" ++ 10%N :: lit "  web: {image: nginx}" ++ 10%N :: lit "  db: {image: pg}" ++ [10%N]) = [].
Proof. split; vm_compute; reflexivity. Qed.
(** any other key named services, however deep, is taken for it *)
Theorem C219_elsewhere_refuted : service_names (lit "x-common:" ++ 10%N :: lit "  services:" ++ 10%N :: lit "    note:" ++ 10%N :: lit "services:" ++ 10%N :: lit "  web:" ++ [10%N]) = [lit "note"].
Proof. vm_compute. reflexivity. Qed.
(** a quoted name is offered with its quotes *)
Theorem C219_quoted_refuted : service_names (lit "services:" ++ 10%N :: lit "  'web':" ++ [10%N]) = [lit "'web'"].
Proof. vm_compute. reflexivity. Qed.
Example C219_example : service_names (lit "version: '3'" ++ 10%N :: lit "services:" ++ 10%N :: lit "  # front" ++ 10%N :: lit "  web:" ++ 10%N :: lit "    ports:" ++ 10%N :: lit "      - 80:80" ++ 10%N :: 10%N :: lit "  db:" ++ 10%N :: lit "    image: pg" ++ 10%N :: lit "volumes:" ++ 10%N :: lit "  data:" ++ [10%N])
  = [lit "web"; lit "db"].
Proof.
  apply (C219_offered_partial _ [lit "version: '3'"] [] [lit "  # front"; lit "  web:"; lit "    ports:"; lit "      - 80:80"; []; lit "  db:"; lit "    image: pg"] [lit "volumes:"; lit "  data:"] 2).
  - vm_compute. reflexivity.
  - constructor; [vm_compute; discriminate|constructor].
  - constructor.
  - lia.
  - apply Sv_quiet; [right; eexists; vm_compute; reflexivity|].
    apply (Sv_service 2 false (lit "  ") (lit "web") []); [repeat constructor|reflexivity| |constructor|].
    { repeat split; try discriminate. repeat (apply Forall_cons; [reflexivity|]); apply Forall_nil. }
    apply (Sv_inside 2 (lit "    ") (chr "p") (lit "orts:")); [repeat (apply Forall_cons; [reflexivity|]); apply Forall_nil|vm_compute; lia|reflexivity|].
    apply (Sv_inside 2 (lit "      ") (chr "-") (lit " 80:80")); [repeat (apply Forall_cons; [reflexivity|]); apply Forall_nil|vm_compute; lia|reflexivity|].
    apply Sv_quiet; [left; reflexivity|].
    apply (Sv_service 2 true (lit "  ") (lit "db") []); [repeat (apply Forall_cons; [reflexivity|]); apply Forall_nil|reflexivity| |apply Forall_nil|].
    { repeat split; try discriminate. repeat (apply Forall_cons; [reflexivity|]); apply Forall_nil. }
    apply (Sv_inside 2 (lit "    ") (chr "i") (lit "mage: pg")); [repeat (apply Forall_cons; [reflexivity|]); apply Forall_nil|vm_compute; lia|reflexivity|]. constructor.
  - repeat constructor; cbn; intuition discriminate.
  - right. exists (lit "volumes:"), [lit "  data:"]. split; [reflexivity|]. split; [|exists (chr "v"), (lit "olumes:"); split; reflexivity]. intros [X|[r X]]; vm_compute in X; discriminate.
Qed.

(** ** C220: the nearest compose file *)
Lemma there_some d p : Runtime_Model.there d p = true <-> d p <> None.
Proof. apply Runtime_Props.there_iff. Qed.
Lemma find_split {A} (f : A -> bool) l x : find f l = Some x -> exists a b, l = a ++ x :: b /\ f x = true /\ forall y, In y a -> f y = false.
Proof.
  induction l as [|y l IH]; [discriminate|]. cbn [find]. destruct (f y) eqn:F; intros H.
  - injection H as <-. exists [], l. split; [reflexivity|]. split; [exact F|]. intros z [].
  - destruct (IH H) as (a & b & -> & X & N). exists (y :: a), b. split; [reflexivity|]. split; [exact X|]. intros z [<-|I]; [exact F|exact (N z I)].
Qed.
Lemma above_some d up p : compose_above d up = Some p -> Nearest_of d (rev up) compose_names p.
Proof.
  unfold Nearest_of. induction up as [|x up IH]; cbn [compose_above]; destruct (find _ compose_names) as [n|] eqn:F; intros H; try discriminate.
  1, 2: injection H as <-; apply find_split in F; destruct F as (pre & post & E & T & N).
  - exists [], [], pre, n, post. split; [reflexivity|]. split; [exact E|]. split; [reflexivity|]. split; [apply there_some; exact T|]. split; [intros m I; apply Runtime_Props.there_false; exact (N m I)|].
    intros a' b' m Ec L _. cbn in Ec. symmetry in Ec. apply app_eq_nil in Ec. destruct Ec as [-> _]. cbn in L. lia.
  - exists (rev (x :: up)), [], pre, n, post. split; [rewrite app_nil_r; reflexivity|]. split; [exact E|]. split; [reflexivity|]. split; [apply there_some; exact T|]. split; [intros m I; apply Runtime_Props.there_false; exact (N m I)|].
    intros a' b' m Ec L _. rewrite Ec, app_length in L. lia.
  - destruct (IH H) as (a & b & pre & n & post & Ec & E & P & X & N & Far). exists a, (b ++ [x]), pre, n, post. split; [cbn [rev]; rewrite Ec, <- app_assoc; reflexivity|]. split; [exact E|]. split; [exact P|]. split; [exact X|]. split; [exact N|].
    intros a' b' m E' L I. destruct (rev b') as [|y z] eqn:B; apply (f_equal (@rev str)) in B; rewrite rev_involutive in B; cbn in B; subst b'.
    + rewrite app_nil_r in E'. rewrite <- E'. apply Runtime_Props.there_false. exact (find_none _ _ F m I).
    + cbn [rev] in E'. rewrite app_assoc in E'. apply app_inj_tail in E'. destruct E' as [E' _]. exact (Far a' (rev z) m E' L I).
Qed.
Lemma above_none d up : compose_above d up = None -> forall a b m, rev up = a ++ b -> In m compose_names -> d (a ++ [m]) = None.
Proof.
  induction up as [|x up IH]; cbn [compose_above]; destruct (find _ compose_names) eqn:F; intros H; try discriminate; intros a b m E I.
  - cbn in E. symmetry in E. apply app_eq_nil in E. destruct E as [-> _]. apply Runtime_Props.there_false. exact (find_none _ _ F m I).
  - destruct (rev b) as [|y z] eqn:B; apply (f_equal (@rev str)) in B; rewrite rev_involutive in B; cbn in B; subst b.
    + rewrite app_nil_r in E. rewrite <- E. apply Runtime_Props.there_false. exact (find_none _ _ F m I).
    + cbn [rev] in E. rewrite app_assoc in E. apply app_inj_tail in E. exact (IH H a (rev z) m (proj1 E) I).
Qed.
Lemma nearest_of_unique d cwd names p q : NoDup names -> Nearest_of d cwd names p -> Nearest_of d cwd names q -> p = q.
Proof.
  intros Nd (a & b & pre & n & post & E & En & P & X & N & F) (a' & b' & pre' & n' & post' & E' & En' & P' & X' & N' & F').
  assert (In1 : In n names) by (rewrite En, in_app_iff; right; left; reflexivity). assert (In2 : In n' names) by (rewrite En', in_app_iff; right; left; reflexivity).
  destruct (Nat.lt_trichotomy (length a) (length a')) as [L|[L|L]].
  - exfalso. apply X'. rewrite P'. exact (F a' b' n' E' L In2).
  - assert (A : a = a').
    { rewrite E in E'. clear -E' L. revert a' E' L. induction a as [|x a IH]; intros [|y a'] Q L; try discriminate; [reflexivity|]. injection Q as <- Q. f_equal. apply (IH a' Q). injection L as L. exact L. }
    subst a'. rewrite P, P'. do 2 f_equal. destruct (in_dec str_eq_dec n' pre) as [I|I]; [exfalso; apply X'; rewrite P'; exact (N n' I)|]. destruct (in_dec str_eq_dec n pre') as [J|J]; [exfalso; apply X; rewrite P; exact (N' n J)|].
    rewrite En in En'. clear -En' I J. revert pre' En' J. induction pre as [|z pre IH]; intros [|w pre'] Q J; cbn in Q; injection Q as Q1 Q2.
    + exact Q1.
    + exfalso. apply J. left. symmetry. exact Q1.
    + exfalso. apply I. left. exact Q1.
    + subst w. apply (IH (fun K => I (or_intror K)) pre' Q2). intros K. apply J. right. exact K.
  - exfalso. apply X. rewrite P. exact (F' a b n E L In1).
Qed.
Theorem C220_nearest : forall d cwd p, compose_file d cwd = Some p <-> Nearest_of d cwd (map lit ["compose.yaml"; "compose.yml"; "docker-compose.yaml"; "docker-compose.yml"]%string) p.
Proof.
  intros d cwd p. change (map lit _) with compose_names. assert (A : forall q, compose_file d cwd = Some q -> Nearest_of d cwd compose_names q).
  { intros q H. apply above_some in H. rewrite rev_involutive in H. exact H. }
  split; [apply A|]. intros H. destruct (compose_file d cwd) as [q|] eqn:F.
  - f_equal. apply (nearest_of_unique d cwd compose_names); [|apply A; reflexivity|exact H]. repeat constructor; cbn; intuition discriminate.
  - destruct H as (a & b & pre & n & post & E & En & P & X & _). exfalso. apply X. rewrite P. apply (above_none d (rev cwd) F a b n); [rewrite rev_involutive; exact E|]. rewrite En, in_app_iff. right. left. reflexivity.
Qed.
Theorem C220_none : forall d cwd, compose_file d cwd = None <-> forall a b m, cwd = a ++ b -> In m (map lit ["compose.yaml"; "compose.yml"; "docker-compose.yaml"; "docker-compose.yml"]%string) -> d (a ++ [m]) = None.
Proof.
  intros d cwd. change (map lit _) with compose_names. split.
  - intros F a b m E I. apply (above_none d (rev cwd) F a b m); [rewrite rev_involutive; exact E|exact I].
  - intros H. destruct (compose_file d cwd) as [q|] eqn:F; [|reflexivity]. apply C220_nearest in F. change (map lit _) with compose_names in F. destruct F as (a & b & pre & n & post & E & En & P & X & _). exfalso. apply X. rewrite P. apply (H a b n E). rewrite En, in_app_iff. right. left. reflexivity.
Qed.
Example C220_example : compose_file (fun p => if path_eqb p [lit "a"; lit "docker-compose.yml"] then Some (Runtime_Model.Text (Some [])) else if path_eqb p [lit "compose.yaml"] then Some (Runtime_Model.Text (Some [])) else None) [lit "a"; lit "b"]
  = Some [lit "a"; lit "docker-compose.yml"].
Proof. vm_compute. reflexivity. Qed.
