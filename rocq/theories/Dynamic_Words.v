(** C224: where remotes, branches, services and namespaces are offered. *)
From Verif Require Import Base Dynamic_Model.
From Verif Require Import Token_Model Token_Spec Comp_Model Comp_Spec Comp_Proofs Comp_Words Comp_Subs.
From Verif Require Comp_Props.

Section C224.
Variable alphabetic alphanumeric : char -> bool.
Variable db : str -> option definition.
Variable resolve : str -> str.
Notation convert := (convert alphabetic alphanumeric db resolve).
Notation subcommand_like := (looks_like_sub alphabetic alphanumeric).

Lemma leading_all ws b : Forall (fun w => subcommand_like w = true) ws -> leading alphabetic alphanumeric (ws ++ b) = (ws ++ fst (leading alphabetic alphanumeric b), snd (leading alphabetic alphanumeric b)).
Proof.
  induction 1 as [|w ws W _ IH]; cbn [app leading]; [destruct (leading _ _ b); reflexivity|]. rewrite W, IH. reflexivity.
Qed.
Lemma like_no_option t : subcommand_like t = true -> is_option t = false.
Proof. unfold looks_like_sub. destruct (is_option t); [discriminate|reflexivity]. Qed.
Lemma index_last l (x : str) : argument_index (l ++ [x]) x = length l.
Proof. unfold argument_index. assert (M : mem_str x (l ++ [x]) = true) by (apply mem_str_iff, in_app_iff; right; left; reflexivity). rewrite M, app_length. cbn. lia. Qed.
Lemma last_word (cmd : str) ws (pre : str) : nth (S (length ws) - 1) (cmd :: ws ++ [pre]) [] = last (cmd :: ws) [].
Proof.
  cbn [Nat.sub]. rewrite Nat.sub_0_r. change (cmd :: ws ++ [pre]) with ((cmd :: ws) ++ [pre]). rewrite app_nth1 by (cbn; lia).
  destruct (exists_last (l := cmd :: ws) ltac:(discriminate)) as (m & x & E). rewrite E, last_last. assert (L : length ws = length m) by (apply (f_equal (@length _)) in E; rewrite app_length in E; cbn in E; lia).
  rewrite L, app_nth2, Nat.sub_diag by lia. reflexivity.
Qed.
Lemma here_word (cmd : str) ws (pre : str) : nth (S (length ws)) (cmd :: ws ++ [pre]) [] = pre.
Proof. cbn [nth]. rewrite app_nth2, Nat.sub_diag by lia. reflexivity. Qed.
Lemma analyzed cmd ws pre sub args o a : word cmd -> is_option pre = false -> leading alphabetic alphanumeric (ws ++ [pre]) = (sub, args) -> classify false args = (o, a) ->
  analyze alphabetic alphanumeric (cmd :: ws ++ [pre]) (S (length ws)) (line_of (cmd :: ws) pre) =
  Parsed cmd sub args pre (Some pre) (context_of alphabetic alphanumeric (S (length ws)) pre (last (cmd :: ws) []) sub a true) o a.
Proof.
  intros W O L C. unfold analyze. rewrite L, C, (space_words cmd ws pre W). cbn [Nat.eqb]. rewrite last_word, here_word, (not_inline pre O). destruct (context_of _ _ _ _ _ _ _ _); reflexivity.
Qed.
Lemma plain_context n pre prev sub args : is_option pre = false -> is_option prev = false ->
  context_of alphabetic alphanumeric n pre prev sub args true = In_sub \/ exists i, context_of alphabetic alphanumeric n pre prev sub args true = In_argument i None.
Proof.
  intros O P. unfold context_of. rewrite (not_inline pre O), (not_long pre O), O, P. cbn [andb negb]. rewrite andb_false_r.
  destruct (is_redirect prev); [right; eexists; reflexivity|]. destruct (is_redirect pre); [right; eexists; reflexivity|]. destruct (path_like pre); [right; eexists; reflexivity|].
  destruct (match sub with [] => true | _ => _ end); [left; reflexivity|right; eexists; reflexivity].
Qed.
Lemma last_in (ws : list str) x : In (last (x :: ws) []) (x :: ws).
Proof. destruct (exists_last (l := x :: ws) ltac:(discriminate)) as (m & y & ->). rewrite last_last, in_app_iff. right. left. reflexivity. Qed.
Lemma stray (d : definition) p valid first more : walk (d_subs d) (path p) = (valid, [], first :: more) -> is_option (current p) = false -> (ctx p = In_sub \/ exists i, ctx p = In_argument i None) ->
  correct1 d p = Parsed (command p) valid (first :: more ++ raw_args p) (current p) (current_arg p) (In_argument (argument_index (first :: more ++ sargs p) (current p)) None) (opts p) (first :: more ++ sargs p).
Proof.
  intros W O C. unfold correct1. rewrite W. cbn [app existsb andb].
  assert (K : forall x, match ctx p with In_short | In_long => ctx p | _ => x end = x) by (intros x; destruct C as [-> | [i ->]]; reflexivity). rewrite K.
  destruct more as [|m more]; [|reflexivity]. destruct (str_eqb first (current p)) eqn:E; [|reflexivity]. apply str_eqb_eq in E. subst first. rewrite O. reflexivity.
Qed.
Lemma combined_none d p : Forall (fun t => is_option t = false) (raw_args p) -> combined d p = None.
Proof.
  intros RO. unfold combined. set (i := match current p with [] => _ | _ => _ end). destruct (match i with Some j => nth_error (raw_args p) j | None => None end) as [t|] eqn:E; [|reflexivity].
  destruct i as [j|]; [|discriminate]. apply nth_error_In in E. rewrite Forall_forall in RO. rewrite (RO t E). reflexivity.
Qed.
Definition transfers : list str := map lit ["push"; "pull"; "fetch"]%string.
Lemma transfer_words sub rest i : In sub transfers -> git_words (sub :: rest) i = Some (if i =? 0 then Remotes else Branches).
Proof. intros [<-|[<-|[<-|[]]]]; reflexivity. Qed.
Lemma transfer_plain sub : In sub transfers -> is_option sub = false /\ is_redirect sub = false.
Proof. intros [<-|[<-|[<-|[]]]]; split; vm_compute; reflexivity. Qed.
Lemma wants_git p : command p = lit "git" -> wants p = git_wants p.
Proof. intros E. unfold wants. rewrite E. reflexivity. Qed.

(** behind words of the definition that no other subcommand can follow, every plain word is an argument, counted from 0 *)
Lemma behind cmd d ps rs pre :
  word cmd -> db (resolve cmd) = Some d -> dashed d -> ps <> [] -> (forall b, walk (d_subs d) (ps ++ b) = (ps, [], b)) ->
  Forall (fun r => word r /\ subcommand_like r = true) ps -> is_redirect (last ps []) = false ->
  Forall (fun r => word r /\ subcommand_like r = true) rs -> plain pre -> is_option pre = false -> is_redirect pre = false ->
  let line := line_of (cmd :: ps ++ rs) pre in
  command (convert line (blen line)) = resolve cmd /\ path (convert line (blen line)) = ps /\ ctx (convert line (blen line)) = In_argument (length rs) None.
Proof.
  intros Wc Dd Ds Np Wk Fp Xs Fr Pp Op Xp line.
  assert (Fa : Forall (fun r => word r /\ subcommand_like r = true) (ps ++ rs)) by (apply Forall_app; split; assumption).
  assert (Ww : Forall word (ps ++ rs)) by (eapply Forall_impl; [|exact Fa]; intros r H; exact (proj1 H)).
  unfold line. rewrite (Comp_Props.convert_line alphabetic alphanumeric db resolve cmd (ps ++ rs) pre Wc Ww Pp).
  assert (Lr : Forall (fun w => subcommand_like w = true) (ps ++ rs)) by (eapply Forall_impl; [|exact Fa]; intros r H; exact (proj2 H)).
  assert (La : leading alphabetic alphanumeric ((ps ++ rs) ++ [pre]) = (if subcommand_like pre then (ps ++ (rs ++ [pre]), []) else (ps ++ rs, [pre]))).
  { rewrite (leading_all (ps ++ rs) [pre]) by exact Lr. cbn [leading]. destruct (subcommand_like pre); cbn [fst snd]; rewrite ?app_nil_r, <- ?app_assoc; reflexivity. }
  assert (Lc : last (cmd :: ps ++ rs) [] = last (ps ++ rs) []) by (destruct ps; [congruence|reflexivity]).
  assert (Oprev : is_option (last (cmd :: ps ++ rs) []) = false).
  { rewrite Lc. destruct ps as [|x ps]; [congruence|]. cbn [app]. pose proof (last_in (ps ++ rs) x) as I. rewrite Forall_forall in Lr. apply like_no_option, Lr, I. }
  assert (Cl : classify false [pre] = ([], [pre])) by (cbn [classify]; rewrite Xp, Op; reflexivity).
  unfold correct. destruct (subcommand_like pre) eqn:Lp.
  - rewrite (analyzed cmd (ps ++ rs) pre _ _ [] [] Wc Op La eq_refl). unfold with_command. cbn [command path raw_args current current_arg ctx opts sargs]. rewrite Dd.
    destruct (rs ++ [pre]) as [|b0 bs] eqn:Eb; [destruct rs; discriminate|].
    rewrite (stray d _ ps b0 bs); [|cbn [path]; apply Wk|exact Op|cbn [ctx]; apply plain_context; [exact Op|exact Oprev]].
    cbn [command path raw_args current current_arg ctx opts sargs]. rewrite app_nil_r, <- Eb, index_last. repeat split.
  - rewrite (analyzed cmd (ps ++ rs) pre _ _ _ _ Wc Op La Cl). unfold with_command. cbn [command path raw_args current current_arg ctx opts sargs]. rewrite Dd. destruct rs as [|r rs].
    + rewrite app_nil_r in *.
      assert (Cx : context_of alphabetic alphanumeric (S (length ps)) pre (last (cmd :: ps) []) ps [pre] true = In_argument 0 None).
      { unfold context_of. rewrite (not_inline pre Op), (not_long pre Op), Op, Oprev, Lc, Xs, Xp, Lp. cbn [andb negb]. rewrite andb_false_r. rewrite (index_last [] pre : argument_index [pre] pre = 0). destruct (path_like pre); [reflexivity|]. destruct ps; [congruence|reflexivity]. }
      rewrite Cx. set (p := Parsed (resolve cmd) ps [pre] pre (Some pre) (In_argument 0 None) [] [pre]). assert (RO : Forall (fun t => is_option t = false) (raw_args p)) by (constructor; [exact Op|constructor]).
      assert (C1 : correct1 d p = p).
      { unfold correct1. cbn [path p]. pose proof (Wk []) as W0. rewrite app_nil_r in W0. rewrite W0. fold p. rewrite (value_none d p Ds RO Op). cbn [ctx p]. fold p. rewrite (combined_none d p RO). cbn [existsb raw_args current p more_subs find_sub find]. rewrite andb_false_r. cbn [Nat.eqb]. fold p. rewrite (value_none d p Ds RO Op). reflexivity. }
      rewrite C1. repeat split.
    + rewrite (stray d _ ps r rs); [|cbn [path]; apply Wk|exact Op|cbn [ctx]; apply plain_context; [exact Op|exact Oprev]].
      cbn [command path raw_args current current_arg ctx opts sargs]. change (r :: rs ++ [pre]) with ((r :: rs) ++ [pre]). rewrite index_last. repeat split.
Qed.
Lemma walk_none b : walk [] b = ([], [], b). Proof. destruct b; reflexivity. Qed.
Ltac a_word := split; [repeat (apply Forall_cons; [split; [vm_compute; intuition discriminate|reflexivity]|]); apply Forall_nil|discriminate].
(** behind git push, pull or fetch: the remotes as the first argument and the branches as any later one,
    when the words so far look like words and no option stands between them *)
Theorem C224_transfer_partial : forall cmd d sub s rs pre,
  word cmd -> resolve cmd = lit "git" -> db (lit "git") = Some d -> dashed d ->
  In sub transfers -> subcommand_like sub = true -> find_sub (d_subs d) sub = Some s -> s_name s = sub -> s_subs s = [] ->
  Forall (fun r => word r /\ subcommand_like r = true) rs -> plain pre -> is_option pre = false -> is_redirect pre = false ->
  let line := line_of (cmd :: sub :: rs) pre in
  wants (convert line (blen line)) = Some (match rs with [] => Remotes | _ => Branches end).
Proof.
  intros cmd d sub s rs pre Wc Rc Dd Ds Is Ls Fs Ns Ss Fr Pp Op Xp line.
  destruct (transfer_plain sub Is) as [Os Xs]. assert (Ws : word sub) by (destruct Is as [<-|[<-|[<-|[]]]]; a_word). rewrite <- Rc in Dd.
  assert (Wk : forall b, walk (d_subs d) ([sub] ++ b) = ([sub], [], b)) by (intros b; cbn [app walk]; rewrite Fs, Ss, Ns, walk_none; reflexivity).
  assert (Fp : Forall (fun r => word r /\ subcommand_like r = true) [sub]) by (constructor; [split; assumption|constructor]).
  destruct (behind cmd d [sub] rs pre Wc Dd Ds ltac:(discriminate) Wk Fp Xs Fr Pp Op Xp) as (C & P & X). fold line in C, P, X. cbn [app] in C, P, X. fold line in C, P, X.
  rewrite wants_git by (rewrite C; exact Rc). unfold git_wants. rewrite X, P, (transfer_words sub [] _ Is). destruct rs; reflexivity.
Qed.
(** behind git checkout, switch, merge or rebase: the branches, at every argument *)
Theorem C224_branches_partial : forall cmd d sub s rs pre,
  word cmd -> resolve cmd = lit "git" -> db (lit "git") = Some d -> dashed d ->
  In sub (map lit ["checkout"; "switch"; "merge"; "rebase"]%string) -> subcommand_like sub = true -> find_sub (d_subs d) sub = Some s -> s_name s = sub -> s_subs s = [] ->
  Forall (fun r => word r /\ subcommand_like r = true) rs -> plain pre -> is_option pre = false -> is_redirect pre = false ->
  let line := line_of (cmd :: sub :: rs) pre in
  wants (convert line (blen line)) = Some Branches.
Proof.
  intros cmd d sub s rs pre Wc Rc Dd Ds Is Ls Fs Ns Ss Fr Pp Op Xp line.
  assert (Xs : is_redirect sub = false) by (destruct Is as [<-|[<-|[<-|[<-|[]]]]]; reflexivity). assert (Ws : word sub) by (destruct Is as [<-|[<-|[<-|[<-|[]]]]]; a_word). rewrite <- Rc in Dd.
  assert (Wk : forall b, walk (d_subs d) ([sub] ++ b) = ([sub], [], b)) by (intros b; cbn [app walk]; rewrite Fs, Ss, Ns, walk_none; reflexivity).
  assert (Fp : Forall (fun r => word r /\ subcommand_like r = true) [sub]) by (constructor; [split; assumption|constructor]).
  destruct (behind cmd d [sub] rs pre Wc Dd Ds ltac:(discriminate) Wk Fp Xs Fr Pp Op Xp) as (C & P & X). cbn [app] in C, P, X. fold line in C, P, X.
  rewrite wants_git by (rewrite C; exact Rc). unfold git_wants. rewrite X, P. destruct Is as [<-|[<-|[<-|[<-|[]]]]]; reflexivity.
Qed.
(** behind docker compose and a command that takes services: the services, at every argument *)
Theorem C224_services_partial : forall cmd d c n s rs pre,
  word cmd -> resolve cmd = lit "docker" -> db (lit "docker") = Some d -> dashed d ->
  find_sub (d_subs d) (lit "compose") = Some c -> s_name c = lit "compose" ->
  In n (map lit ["build"; "cp"; "create"; "down"; "exec"; "kill"; "logs"; "pause"; "port"; "ps"; "pull"; "push"; "restart"; "rm"; "run"; "scale"; "start"; "stop"; "top"; "unpause"; "up"; "wait"]%string) ->
  subcommand_like (lit "compose") = true -> subcommand_like n = true -> find_sub (s_subs c) n = Some s -> s_name s = n -> s_subs s = [] ->
  Forall (fun r => word r /\ subcommand_like r = true) rs -> plain pre -> is_option pre = false -> is_redirect pre = false ->
  let line := line_of (cmd :: lit "compose" :: n :: rs) pre in
  wants (convert line (blen line)) = Some Dynamic_Model.Services.
Proof.
  intros cmd d c n s rs pre Wc Rc Dd Ds Fc Nc In_ Lc Ls Fs Ns Ss Fr Pp Op Xp line.
  assert (A : word n /\ is_redirect n = false /\ mem_str n service_commands = true) by (repeat (destruct In_ as [<-|In_]; [split; [a_word|split; reflexivity]|]); destruct In_).
  destruct A as (Wn & Xs & M). rewrite <- Rc in Dd.
  assert (Wk : forall b, walk (d_subs d) ([lit "compose"; n] ++ b) = ([lit "compose"; n], [], b)) by (intros b; cbn [app walk]; rewrite Fc, Nc; cbn [walk]; rewrite Fs, Ss, Ns, walk_none; reflexivity).
  assert (Fp : Forall (fun r => word r /\ subcommand_like r = true) [lit "compose"; n]) by (constructor; [split; [a_word|exact Lc]|]; constructor; [split; assumption|constructor]).
  destruct (behind cmd d [lit "compose"; n] rs pre Wc Dd Ds ltac:(discriminate) Wk Fp Xs Fr Pp Op Xp) as (C & P & X). cbn [app] in C, P, X. fold line in C, P, X.
  unfold wants. rewrite C, Rc. change (str_eqb (lit "docker") (lit "git")) with false. change (str_eqb (lit "docker") (lit "docker")) with true. cbv iota. unfold docker_wants. rewrite P, X. cbn [str_eqb]. rewrite str_eqb_refl, M. reflexivity.
Qed.
(** behind a remote that does not look like a word (an address, a path, a name like repo), the remotes
    are offered again for a branch that has been begun *)
Theorem C224_address_refuted : forall cmd d sub s r pre,
  word cmd -> resolve cmd = lit "git" -> db (lit "git") = Some d -> dashed d ->
  In sub transfers -> subcommand_like sub = true -> find_sub (d_subs d) sub = Some s -> s_name s = sub -> s_subs s = [] ->
  word r -> subcommand_like r = false -> is_option r = false -> is_redirect r = false ->
  plain pre -> subcommand_like pre = true -> is_redirect pre = false -> path_like pre = false ->
  let line := line_of [cmd; sub; r] pre in
  wants (convert line (blen line)) = Some Remotes.
Proof.
  intros cmd d sub s r pre Wc Rc Dd Ds Is Ls Fs Ns Ss Wr Lr Or Xr Pp Lp Xp Tp line.
  destruct (transfer_plain sub Is) as [Os Xs]. assert (Op : is_option pre = false) by (apply like_no_option; exact Lp).
  assert (Ws : word sub) by (destruct Is as [<-|[<-|[<-|[]]]]; (split; [repeat (apply Forall_cons; [split; [vm_compute; intuition discriminate|reflexivity]|]); apply Forall_nil|discriminate])).
  assert (Ww : Forall word [sub; r]) by (repeat constructor; try apply Ws; apply Wr).
  unfold line. rewrite (Comp_Props.convert_line alphabetic alphanumeric db resolve cmd [sub; r] pre Wc Ww Pp), Rc.
  assert (La : leading alphabetic alphanumeric ([sub; r] ++ [pre]) = ([sub], [r; pre])) by (cbn [app leading]; rewrite Ls, Lr; reflexivity).
  assert (Cl : classify false [r; pre] = ([], [r; pre])) by (cbn [classify]; rewrite Xr, Or, Xp, Op; reflexivity).
  rewrite (analyzed cmd [sub; r] pre _ _ _ _ Wc Op La Cl).
  assert (Cx : context_of alphabetic alphanumeric (S (length [sub; r])) pre (last [cmd; sub; r] []) [sub] [r; pre] true = In_sub).
  { unfold context_of. cbn [last]. rewrite (not_inline pre Op), (not_long pre Op), Op, Or, Xr, Xp, Tp, Lp. reflexivity. }
  rewrite Cx. unfold with_command, correct. cbn [command path raw_args current current_arg ctx opts sargs]. rewrite Dd.
  unfold correct1. cbn [path walk]. rewrite Fs, Ss, Ns. rewrite value_none; [|exact Ds|cbn [raw_args]; repeat constructor; assumption|exact Op].
  cbn [ctx]. rewrite wants_git by reflexivity. unfold git_wants. cbn [ctx path with_context]. exact (transfer_words sub [] 0 Is).
Qed.
(** git push -u remote: the remote is taken for the value of the option, and the remotes are offered
    again where the branch stands *)
Theorem C224_option_refuted : forall cmd d sub s r,
  word cmd -> resolve cmd = lit "git" -> db (lit "git") = Some d -> dashed d ->
  In sub transfers -> subcommand_like sub = true -> find_sub (d_subs d) sub = Some s -> s_name s = sub -> s_subs s = [] ->
  word r -> is_option r = false -> is_redirect r = false ->
  let line := line_of [cmd; sub; lit "-u"; r] [] in
  wants (convert line (blen line)) = Some Remotes.
Proof.
  intros cmd d sub s r Wc Rc Dd Ds Is Ls Fs Ns Ss Wr Or Xr line.
  destruct (transfer_plain sub Is) as [Os Xs].
  assert (Ws : word sub) by (destruct Is as [<-|[<-|[<-|[]]]]; (split; [repeat (apply Forall_cons; [split; [vm_compute; intuition discriminate|reflexivity]|]); apply Forall_nil|discriminate])).
  assert (Wu : word (lit "-u")) by (split; [repeat (apply Forall_cons; [split; [vm_compute; intuition discriminate|reflexivity]|]); apply Forall_nil|discriminate]).
  assert (Ww : Forall word [sub; lit "-u"; r]) by (constructor; [exact Ws|constructor; [exact Wu|constructor; [exact Wr|constructor]]]).
  unfold line. rewrite (Comp_Props.convert_line alphabetic alphanumeric db resolve cmd [sub; lit "-u"; r] [] Wc Ww (Forall_nil _)), Rc.
  assert (La : leading alphabetic alphanumeric ([sub; lit "-u"; r] ++ [[]]) = ([sub], [lit "-u"; r; []])).
  { cbn [app leading]. rewrite Ls. assert (X : subcommand_like (lit "-u") = false) by reflexivity. rewrite X. reflexivity. }
  assert (Cl : classify false [lit "-u"; r; []] = ([lit "-u"], [[]])).
  { assert (Q : classify false [lit "-u"; r; []] = let (o, a) := classify (negb (is_option r) && option_takes_value (lit "-u")) [r; []] in (lit "-u" :: o, a)) by reflexivity. rewrite Q, Or. reflexivity. }
  rewrite (analyzed cmd [sub; lit "-u"; r] [] _ _ _ _ Wc eq_refl La Cl).
  assert (Cx : context_of alphabetic alphanumeric (S (length [sub; lit "-u"; r])) [] (last [cmd; sub; lit "-u"; r] []) [sub] [[]] true = In_argument 0 None).
  { unfold context_of. change (last [cmd; sub; lit "-u"; r] []) with r. rewrite Or, Xr. reflexivity. }
  rewrite Cx. unfold with_command, correct. cbn [command path raw_args current current_arg ctx opts sargs]. rewrite Dd. set (p := Parsed (lit "git") [sub] [lit "-u"; r; []] [] (Some []) (In_argument 0 None) [lit "-u"] [[]]).
  assert (Ne : r <> []) by apply Wr.
  assert (Vn : value_of_option d p = None).
  { unfold value_of_option, raw_token, raw_previous, raw_index. cbn [raw_args current p rposition]. rewrite (not_inline r Or). change (split_inline []) with (@None (str * str)). change (split_inline (lit "-u")) with (@None (str * str)). cbn [str_eqb nth_error]. change (split_inline []) with (@None (str * str)).
    cbn [attached_value option_map]. change (attached_value [] (available d (path p))) with (@None (str * option arg_type * str)). cbn [option_map]. change (is_option []) with false. cbn iota. rewrite find_nothing; [reflexivity|]. intros o I. destruct (matches_name o r) eqn:M; [|reflexivity]. specialize (Ds _ _ _ I M). congruence. }
  assert (C1 : correct1 d p = p).
  { unfold correct1. cbn [path p walk]. rewrite Fs, Ss, Ns. fold p. rewrite Vn. cbn [ctx p]. fold p. assert (Co : combined d p = None) by reflexivity. rewrite Co. cbn [existsb raw_args current p more_subs find_sub find]. rewrite andb_false_r. cbn [Nat.eqb]. fold p. rewrite Vn. reflexivity. }
  refine (eq_trans (f_equal wants C1) _). rewrite wants_git by reflexivity. unfold git_wants. cbn [ctx path p]. exact (transfer_words sub [] 0 Is).
Qed.
(** a correction keeps the command *)
Lemma value_command d p q : value_of_option d p = Some q -> command q = command p /\ path q = path p.
Proof.
  unfold value_of_option. destruct (raw_token p) as [raw|].
  - destruct (split_inline raw) as [[n v]|].
    + destruct (find _ _) as [o|].
      * destruct (expects_value o); intros H; injection H as <-; split; reflexivity.
      * destruct (option_map _ _) as [[? [[? ?] ?]]|]; [intros H; injection H as <-; split; reflexivity|]. destruct (is_option (current p)); [discriminate|]. destruct (raw_previous p); [|discriminate]. destruct (find _ _); [|discriminate]. intros H; injection H as <-; split; reflexivity.
    + destruct (option_map _ _) as [[? [[? ?] ?]]|]; [intros H; injection H as <-; split; reflexivity|]. destruct (is_option (current p)); [discriminate|]. destruct (raw_previous p); [|discriminate]. destruct (find _ _); [|discriminate]. intros H; injection H as <-; split; reflexivity.
  - destruct (is_option (current p)); [discriminate|]. destruct (raw_previous p); [|discriminate]. destruct (find _ _); [|discriminate]. intros H; injection H as <-; split; reflexivity.
Qed.
(** a first word the definition of git or docker does not know: nothing of the repository or of the
    compose file is offered anywhere behind it *)
Theorem C224_unlisted_refuted : forall cmd c d w ws pre,
  word cmd -> is_option cmd = false -> resolve cmd = c -> In c [lit "git"; lit "docker"] -> db c = Some d -> dashed d -> find_sub (d_subs d) w = None ->
  Forall (fun x => word x /\ is_option x = false) (w :: ws) -> plain pre -> is_option pre = false ->
  let line := line_of (cmd :: w :: ws) pre in
  wants (convert line (blen line)) = None.
Proof.
  intros cmd c d w ws pre Wc Oc Rc Ic Dd Ds Fw Fx Pp Op line.
  assert (Ww : Forall word (w :: ws)) by (eapply Forall_impl; [|exact Fx]; intros x H; exact (proj1 H)). assert (Ow : Forall (fun x => is_option x = false) (w :: ws)) by (eapply Forall_impl; [|exact Fx]; intros x H; exact (proj2 H)).
  assert (Go : forall q, command q = c /\ path q = [] -> wants q = None).
  { intros q [Cq Pq]. unfold wants, git_wants, docker_wants. rewrite Cq, Pq. destruct Ic as [<-|[<-|[]]]; destruct (ctx q); reflexivity. }
  destruct (Comp_Props.parse_subs alphabetic alphanumeric cmd (w :: ws) pre Wc Oc Ww Pp Ow Op) as (ws1 & ws2 & o & a & cx & E & Hc & P).
  unfold line, Comp_Model.convert. apply Go.
  assert (K : forall ps ra, (ps = [] /\ Forall (fun t => is_option t = false) ra /\ (exists rest, ra = w :: rest) \/ exists rest, ps = w :: rest) ->
    command (correct db (with_command c (Parsed cmd ps ra pre (Some pre) cx o a))) = c /\ path (correct db (with_command c (Parsed cmd ps ra pre (Some pre) cx o a))) = []).
  { intros ps ra H. unfold correct, with_command. cbn [command path raw_args current current_arg ctx opts sargs]. rewrite Dd. set (p := Parsed c ps ra pre (Some pre) cx o a). unfold correct1. cbn [path p]. destruct H as [(-> & RO & rest & Er)|[rest ->]].
    - cbn [walk]. fold p. rewrite (value_none d p Ds RO Op). cbn [ctx p]. fold p. rewrite (combined_none d p RO).
      set (p1 := match cx with In_argument _ _ => if existsb (sub_starts (current p)) (d_subs d) then with_context In_sub p else p | _ => p end).
      assert (P1 : command p1 = c /\ path p1 = []) by (unfold p1; destruct cx; try (split; reflexivity); destruct (existsb _ _); split; reflexivity).
      assert (M : (exists v, v = [] /\ more_subs (current p) (d_subs d) (raw_args p) = inl v) \/ more_subs (current p) (d_subs d) (raw_args p) = inr ([], d_subs d, 0)).
      { cbn [raw_args p]. rewrite Er. cbn [more_subs]. rewrite Fw. destruct (str_eqb w _ && _); [left; exists []; split; reflexivity|right; reflexivity]. }
      assert (F : command (match more_subs (current p) (d_subs d) (raw_args p) with inl v => with_context In_sub (with_path ([] ++ v) p1) | inr (v, subs', n) =>
        let p2 := if n =? 0 then p1 else with_context (let c0 := if n <? length (raw_args p) then if (length (raw_args p) =? n + 1) && str_eqb (nth n (raw_args p) []) (current p) then In_argument 0 None else In_argument (length (sargs p)) None else In_argument 0 None in if is_option (current p) && negb (existsb (sub_matches (current p)) subs') then match ctx p with In_short => In_short | In_long => In_long | _ => c0 end else c0) (with_path ([] ++ v) p1) in
        match value_of_option d p2 with Some q => q | None => p2 end end) = c /\ path (match more_subs (current p) (d_subs d) (raw_args p) with inl v => with_context In_sub (with_path ([] ++ v) p1) | inr (v, subs', n) =>
        let p2 := if n =? 0 then p1 else with_context (let c0 := if n <? length (raw_args p) then if (length (raw_args p) =? n + 1) && str_eqb (nth n (raw_args p) []) (current p) then In_argument 0 None else In_argument (length (sargs p)) None else In_argument 0 None in if is_option (current p) && negb (existsb (sub_matches (current p)) subs') then match ctx p with In_short => In_short | In_long => In_long | _ => c0 end else c0) (with_path ([] ++ v) p1) in
        match value_of_option d p2 with Some q => q | None => p2 end end) = []).
      { destruct M as [(v & -> & ->)| ->]; [split; [exact (proj1 P1)|reflexivity]|]. cbv zeta. cbn [Nat.eqb]. destruct (value_of_option d p1) as [q|] eqn:V; [|exact P1]. apply value_command in V. destruct V as [-> ->]. exact P1. }
      destruct Hc as [-> | [i ->]]; [destruct (d_subs d) eqn:Sd; [split; reflexivity|]|]; exact F.
    - cbn [walk]. rewrite Fw. cbn [app]. destruct rest as [|m more]; [|split; reflexivity]. destruct (str_eqb w (current p)); [|split; reflexivity]. destruct (existsb _ _ && _); [split; reflexivity|]. destruct (is_option w); split; reflexivity. }
  destruct P as [P|[-> P]]; rewrite P; cbn [command]; rewrite Rc; apply K.
  - destruct ws1 as [|x ws1].
    + left. split; [reflexivity|]. cbn [app] in E. subst ws2. split; [apply Forall_app; split; [exact Ow|constructor; [exact Op|constructor]]|]. exists (ws ++ [pre]). reflexivity.
    + right. cbn [app] in E. injection E as <- _. exists ws1. reflexivity.
  - right. rewrite app_nil_r in E. subst ws1. exists (ws ++ [pre]). reflexivity.
Qed.
(** the namespaces are offered as the value of -n right behind a subcommand of kubectl *)
Theorem C224_namespace_partial : forall cmd d sub s o pre,
  word cmd -> resolve cmd = lit "kubectl" -> db (lit "kubectl") = Some d -> dashed d ->
  word sub -> subcommand_like sub = true -> find_sub (d_subs d) sub = Some s -> s_name s = sub -> s_subs s = [] ->
  In o [lit "-n"; lit "--namespace"] -> plain pre -> is_option pre = false ->
  let line := line_of [cmd; sub; o] pre in
  wants (convert line (blen line)) = Some Namespaces.
Proof.
  intros cmd d sub s o pre Wc Rc Dd Ds Ws Ls Fs Ns Ss Io Pp Op line.
  assert (Wo : word o) by (destruct Io as [<-|[<-|[]]]; (split; [repeat (apply Forall_cons; [split; [vm_compute; intuition discriminate|reflexivity]|]); apply Forall_nil|discriminate])).
  assert (Oo : is_option o = true /\ split_inline o = None /\ option_takes_value o = true /\ is_redirect o = false /\ subcommand_like o = false) by (destruct Io as [<-|[<-|[]]]; repeat split; reflexivity).
  destruct Oo as (Oo & Io' & Vo & Xo & Lo). assert (Ww : Forall word [sub; o]) by (constructor; [exact Ws|constructor; [exact Wo|constructor]]).
  unfold line. rewrite (Comp_Props.convert_line alphabetic alphanumeric db resolve cmd [sub; o] pre Wc Ww Pp), Rc.
  assert (La : leading alphabetic alphanumeric ([sub; o] ++ [pre]) = ([sub], [o; pre])) by (cbn [app leading]; rewrite Ls, Lo; reflexivity).
  destruct (classify false [o; pre]) as [oo a] eqn:Cl. rewrite (analyzed cmd [sub; o] pre _ _ _ _ Wc Op La Cl).
  assert (Cx : context_of alphabetic alphanumeric (S (length [sub; o])) pre (last [cmd; sub; o] []) [sub] a true = In_value o None).
  { unfold context_of. cbn [last]. rewrite (not_inline pre Op), (not_long pre Op), Op, Oo, Vo. reflexivity. }
  rewrite Cx. unfold with_command, correct. cbn [command path raw_args current current_arg ctx opts sargs]. rewrite Dd. set (p := Parsed (lit "kubectl") [sub] [o; pre] pre (Some pre) (In_value o None) oo a).
  assert (Good : forall q, command q = lit "kubectl" -> (exists ty, ctx q = In_value o ty) -> wants q = Some Namespaces).
  { intros q Cq [ty Tq]. unfold wants. rewrite Cq. change (kubectl_wants q = Some Namespaces). unfold kubectl_wants. rewrite Tq. destruct Io as [<-|[<-|[]]]; reflexivity. }
  assert (V : value_of_option d p = None \/ exists q ty, value_of_option d p = Some q /\ command q = lit "kubectl" /\ ctx q = In_value o ty).
  { assert (Ri : raw_index p = Some 1).
    { unfold raw_index. cbn [raw_args current p]. destruct pre as [|x pre].
      - cbn [rposition]. rewrite Io'. change (split_inline []) with (@None (str * str)). reflexivity.
      - cbn [rposition]. rewrite str_eqb_refl. reflexivity. }
    unfold value_of_option, raw_token, raw_previous. rewrite Ri. cbn [raw_args p nth_error]. rewrite (not_inline pre Op). unfold attached_value. rewrite Op. cbn [andb option_map current p]. rewrite Op.
    destruct (find _ _) as [op|]; [right; eexists; eexists; split; [reflexivity|split; reflexivity]|left; reflexivity]. }
  assert (X : wants (correct1 d p) = Some Namespaces).
  { unfold correct1. cbn [path p walk]. rewrite Fs, Ss, Ns. fold p. destruct V as [V|(q & ty & V & Cq & Tq)]; rewrite V; [|apply Good; [exact Cq|exists ty; exact Tq]].
    cbn [ctx p]. fold p. cbn [raw_args current p more_subs find_sub find existsb]. rewrite andb_false_r. cbn [Nat.eqb]. fold p. rewrite V. apply Good; [reflexivity|exists None; reflexivity]. }
  exact X.
Qed.
(** with a word between them, as in kubectl get pods -n, nothing is offered *)
Theorem C224_namespace_refuted : forall cmd d sub s w o,
  word cmd -> resolve cmd = lit "kubectl" -> db (lit "kubectl") = Some d -> 
  word sub -> subcommand_like sub = true -> find_sub (d_subs d) sub = Some s -> s_name s = sub -> s_subs s = [] ->
  word w -> subcommand_like w = true -> In o [lit "-n"; lit "--namespace"; lit "--context"] ->
  let line := line_of [cmd; sub; w; o] [] in
  wants (convert line (blen line)) = None.
Proof.
  intros cmd d sub s w o Wc Rc Dd Ws Ls Fs Ns Ss Ww0 Lw Io line.
  assert (Wo : word o) by (destruct Io as [<-|[<-|[<-|[]]]]; (split; [repeat (apply Forall_cons; [split; [vm_compute; intuition discriminate|reflexivity]|]); apply Forall_nil|discriminate])).
  assert (Oo : is_option o = true /\ option_takes_value o = true /\ subcommand_like o = false) by (destruct Io as [<-|[<-|[<-|[]]]]; repeat split; reflexivity).
  destruct Oo as (Oo & Vo & Lo). assert (Ww : Forall word [sub; w; o]) by (constructor; [exact Ws|constructor; [exact Ww0|constructor; [exact Wo|constructor]]]).
  unfold line. rewrite (Comp_Props.convert_line alphabetic alphanumeric db resolve cmd [sub; w; o] [] Wc Ww (Forall_nil _)), Rc.
  assert (La : leading alphabetic alphanumeric ([sub; w; o] ++ [[]]) = ([sub; w], [o; []])) by (cbn [app leading]; rewrite Ls, Lw, Lo; reflexivity).
  destruct (classify false [o; []]) as [oo a] eqn:Cl. rewrite (analyzed cmd [sub; w; o] [] _ _ _ _ Wc eq_refl La Cl).
  assert (Cx : context_of alphabetic alphanumeric (S (length [sub; w; o])) [] (last [cmd; sub; w; o] []) [sub; w] a true = In_value o None).
  { unfold context_of. change (last [cmd; sub; w; o] []) with o. rewrite Oo, Vo. reflexivity. }
  rewrite Cx. unfold with_command, correct. cbn [command path raw_args current current_arg ctx opts sargs]. rewrite Dd. unfold correct1. cbn [path walk]. rewrite Fs, Ss, Ns. cbn [find_sub find current ctx].
  assert (Ne : str_eqb w [] = false) by (apply str_eqb_neq; apply Ww0). rewrite Ne. reflexivity.
Qed.
End C224.
Definition every : char -> bool := fun _ => true.
Definition git_def : definition := Definition_ [Sub (lit "push") [] [] [] []; Sub (lit "switch") [] [] [] []] [] [].
Definition docker_def : definition := Definition_ [Sub (lit "compose") [] [] [] [Sub (lit "up") [] [] [] []]] [] [].
Definition kubectl_def : definition := Definition_ [Sub (lit "get") [] [] [] []] [] [].
Definition defs (c : str) : option definition := if str_eqb c (lit "git") then Some git_def else if str_eqb c (lit "kubectl") then Some kubectl_def else if str_eqb c (lit "docker") then Some docker_def else None.
Definition asked (line : str) : option wanted := wants (convert every every defs (fun c => c) line (blen line)).
Example C224_example :
  asked (lit "git push ") = Some Remotes /\ asked (lit "git push origin ma") = Some Branches /\ asked (lit "git push repo ma") = Some Remotes
  /\ asked (lit "git push -u origin ") = Some Remotes /\ asked (lit "git worktree remove ") = None /\ asked (lit "git switch ma") = Some Branches /\ asked (lit "docker compose up web d") = Some Dynamic_Model.Services
  /\ asked (lit "kubectl get -n ") = Some Namespaces /\ asked (lit "kubectl get pods -n ") = None.
Proof. repeat split; vm_compute; reflexivity. Qed.
