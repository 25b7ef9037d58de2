(** C148 Lisp arithmetic, C149 comparison and equality, C150 lists. *)
From Verif Require Import Base Lread_Model Lisp_Model Lisp_Props Library_Model Library_Spec.
From Coq Require Import ZArith Lia.

Lemma fits_iff z : fits z = true <-> i64 z.
Proof. unfold fits, i64, min_int, max_int. rewrite andb_true_iff, !Z.leb_le. change (2 ^ 63)%Z with 9223372036854775808%Z. lia. Qed.
Lemma unfit z : ~ i64 z -> fits z = false.
Proof. intros H. destruct (fits z) eqn:E; [apply fits_iff in E; destruct (H E)|reflexivity]. Qed.

Section Library.
Variables (checked : bool) (float_zero : str -> option lv) (float_op : char -> lv -> lv -> option lv) (other_eq : str -> str -> bool) (debug : lv -> str).
Notation call := (call checked float_zero float_op other_eq debug).
Notation fold := Library_Model.fold.

Lemma int_fits z : i64 z -> int_result checked z = Val (LInt z).
Proof. intros H. unfold int_result. apply fits_iff in H. rewrite H. reflexivity. Qed.
Lemma fold_ints (f : Z -> Z -> Z) (g : lv -> lv -> outcome) l : forall acc,
  (forall x y, i64 (f x y) -> g (LInt x) (LInt y) = Val (LInt (f x y))) ->
  (forall k, 1 <= k -> k <= length l -> i64 (fold_left f (firstn k l) acc)) ->
  fold g (LInt acc) (map LInt l) = Val (LInt (fold_left f l acc)).
Proof.
  induction l as [|x l IH]; intros acc G H; [reflexivity|]. cbn [map Library_Model.fold fold_left]. rewrite G by (apply (H 1); cbn; lia).
  apply IH; [exact G|]. intros k K L. apply (H (S k)); cbn; lia.
Qed.
Lemma sum_left l : forall a, fold_left Z.add l a = (a + sum l)%Z.
Proof. induction l as [|x l IH]; intros a; cbn [fold_left sum fold_right]; [lia|]. rewrite IH. unfold sum. lia. Qed.
Lemma product_left l : forall a, fold_left Z.mul l a = (a * product l)%Z.
Proof. induction l as [|x l IH]; intros a; cbn [fold_left product fold_right]; [lia|]. rewrite IH. unfold product. ring. Qed.

(** ** C148 *)
(** Two or more integers are added, as long as every partial sum is an i64. *)
Theorem C148_add_partial fuel l : 2 <= length l -> sums_fit l -> call fuel (lit "+") (map LInt l) = Val (LInt (sum l)).
Proof.
  intros L H. change (plus checked float_zero float_op (map LInt l) = Val (LInt (sum l))). destruct l as [|x [|y l]]; cbn [length] in L; try lia.
  unfold plus, arg. cbn [map nth_error]. change (LInt x :: LInt y :: map LInt l) with (map LInt (x :: y :: l)).
  rewrite (fold_ints Z.add) by (try (intros a b F; cbn [add2]; apply int_fits, F); intros k _ _; rewrite sum_left; apply H).
  rewrite sum_left. reflexivity.
Qed.
Theorem C148_multiply_partial fuel l : products_fit l -> call fuel (lit "*") (map LInt l) = Val (LInt (product l)).
Proof.
  intros H. change (times checked float_op (map LInt l) = Val (LInt (product l))). unfold times.
  rewrite (fold_ints Z.mul) by (try (intros a b F; unfold mul2; cbn [arith2]; apply int_fits, F); intros k _ _; rewrite product_left, Z.mul_1_l; apply H).
  rewrite product_left, Z.mul_1_l. reflexivity.
Qed.
Theorem C148_subtract_partial fuel x y : i64 (x - y) -> call fuel (lit "-") [LInt x; LInt y] = Val (LInt (x - y)).
Proof. intros H. change (int_result checked (x - y) = Val (LInt (x - y))). apply int_fits, H. Qed.
Lemma quot_cut x y : y <> 0%Z -> cut_quotient x y (Z.quot x y).
Proof. intros H. exists (Z.rem x y). split; [apply Z.quot_rem, H|]. split; [apply Z.rem_bound_abs, H|apply Z.rem_sign_mul, H]. Qed.
Theorem C148_divide_partial fuel name x y : name = lit "/" \/ name = lit "truncate" -> i64 x -> y <> 0%Z -> ~ (x = - 2 ^ 63 /\ y = -1)%Z ->
  exists q, call fuel name [LInt x; LInt y] = Val (LInt q) /\ cut_quotient x y q.
Proof.
  intros N X Y M. exists (Z.quot x y). split; [|apply quot_cut, Y].
  assert (E : call fuel name [LInt x; LInt y] = quotient x y) by (destruct N as [-> | ->]; reflexivity). rewrite E. unfold quotient.
  destruct (Z.eqb_spec y 0) as [|_]; [contradiction|]. assert (F : i64 (Z.quot x y)); [|apply fits_iff in F; rewrite F; reflexivity].
  unfold i64 in *. change (2 ^ 63)%Z with 9223372036854775808%Z in *.
  destruct (Z.eq_dec y (-1)) as [->|Ny].
  - replace (Z.quot x (-1)) with (- x)%Z; [lia|]. change (-1)%Z with (- (1))%Z. rewrite Z.quot_opp_r by lia. rewrite Z.quot_1_r. reflexivity.
  - assert (B : (Z.abs (Z.quot x y) <= Z.abs x)%Z).
    { rewrite <- Z.quot_abs by exact Y. apply Z.quot_le_upper_bound; [lia|]. nia. }
    destruct (Z.eq_dec (Z.abs (Z.quot x y)) 9223372036854775808) as [Ex|Nx]; [|lia].
    destruct (Z.eq_dec y 1) as [->|Ny1]; [rewrite Z.quot_1_r in *; lia|].
    assert (C : (Z.abs (Z.quot x y) <= 4611686018427387904)%Z); [|lia].
    rewrite <- Z.quot_abs by exact Y. apply Z.quot_le_upper_bound; [lia|]. assert (2 <= Z.abs y)%Z by lia. nia.
Qed.
(** Texts are joined; a number after the first text is written out. *)
Definition piece (v : lv) : option str := match v with LStr s => Some s | LInt z => Some (show_int z) | _ => None end.
Theorem C148_join_partial fuel a s l ts :
  map piece (a :: LStr s :: l) = map Some ts -> call fuel (lit "+") (a :: LStr s :: l) = Val (LStr (concat ts)).
Proof.
  intros H. change (plus checked float_zero float_op (a :: LStr s :: l) = Val (LStr (concat ts))). unfold plus, arg. cbn [nth_error].
  assert (G : forall l ts acc, map piece l = map Some ts -> fold (add2 checked float_op) (LStr acc) l = Val (LStr (acc ++ concat ts))).
  { clear. induction l as [|x l IH]; intros [|t ts] acc H; cbn [map] in H; try discriminate; [cbn; rewrite app_nil_r; reflexivity|].
    inversion H as [[H1 H2]]. cbn [Library_Model.fold concat]. destruct x; try discriminate H1; cbn [piece] in H1; injection H1 as <-; cbn [add2]; rewrite (IH ts _ H2), <- app_assoc; reflexivity. }
  apply (G _ _ [] H).
Qed.
(** The neutral value is chosen by the second argument: a text followed by a number has a 0 put before it. *)
Theorem C148_text_number_refuted fuel s n : call fuel (lit "+") [LStr s; LInt n] = Val (LStr (lit "0" ++ s ++ show_int n)).
Proof. reflexivity. Qed.
(** One argument is an error, and - and / drop every argument after the second. *)
Theorem C148_one_refuted fuel x : call fuel (lit "+") [x] = Error /\ call fuel (lit "-") [x] = Error /\ call fuel (lit "/") [x] = Error.
Proof. repeat (split; [reflexivity|]). reflexivity. Qed.
Theorem C148_dropped_refuted fuel name a b l : name = lit "-" \/ name = lit "/" \/ name = lit "truncate" -> call fuel name (a :: b :: l) = call fuel name [a; b].
Proof. intros [->|[->| ->]]; reflexivity. Qed.
(** Dividing by zero is a panic: the shell ends. *)
Theorem C148_zero_refuted fuel name x : name = lit "/" \/ name = lit "truncate" -> call fuel name [LInt x; LInt 0] = Panic.
Proof. intros [-> | ->]; reflexivity. Qed.
(** A sum outside of the range ends the shell (debug build) or is another number (release build). *)
Theorem C148_overflow_refuted fuel x y : i64 x -> i64 y -> ~ i64 (x + y) ->
  call fuel (lit "+") [LInt x; LInt y] = (if checked then Panic else Val (LInt (if (0 <? x)%Z then x + y - 2 ^ 64 else x + y + 2 ^ 64))) .
Proof.
  intros X Y N. change (plus checked float_zero float_op [LInt x; LInt y] = (if checked then Panic else Val (LInt (if (0 <? x)%Z then x + y - 2 ^ 64 else x + y + 2 ^ 64)))).
  unfold plus, arg. cbn [nth_error Library_Model.fold add2]. rewrite Z.add_0_l, int_fits by exact X. cbn [add2]. unfold int_result. rewrite (unfit _ N). destruct checked; [reflexivity|]. do 2 f_equal.
  unfold wrap, i64, min_int in *. change (2 ^ 63)%Z with 9223372036854775808%Z in *. change (2 ^ 64)%Z with 18446744073709551616%Z.
  destruct (Z.ltb_spec 0 x).
  - assert (E : (((x + y - -9223372036854775808) mod 18446744073709551616 = x + y - -9223372036854775808 - 18446744073709551616))%Z) by (symmetry; apply Z.mod_unique with (q := 1%Z); lia). lia.
  - assert (E : (((x + y - -9223372036854775808) mod 18446744073709551616 = x + y - -9223372036854775808 + 18446744073709551616))%Z) by (symmetry; apply Z.mod_unique with (q := (-1)%Z); lia). lia.
Qed.

(** ** C149 *)
(** No comparison ever comes back: the two functions call each other for ever. *)
Lemma no_order fuel : forall a b, partial_cmp debug fuel a b = None /\ cmp debug fuel a b = None.
Proof. induction fuel as [|f IH]; intros a b; [split; reflexivity|]. destruct (IH a b) as [P C]. split; [change (match cmp debug f a b with Some o => Some (Some o) | None => None end = None); rewrite C; reflexivity|].
  change (match partial_cmp debug f a b with None => None | Some (Some o) => Some o | Some None => Some (if str_eqb (debug a) (debug b) then Eq else Lt) end = None). rewrite P. reflexivity. Qed.
Definition order_name (n : str) : Prop := In n [lit "<"; lit "<="; lit ">"; lit ">="].
Theorem C149_compare_refuted fuel name a b l : order_name name -> call fuel name (a :: b :: l) = Unfinished.
Proof.
  intros H. assert (E : exists t, call fuel name (a :: b :: l) = compare debug fuel t (a :: b :: l)) by (destruct H as [<-|[<-|[<-|[<-|[]]]]]; eexists; reflexivity).
  destruct E as [t ->]. unfold compare, arg. cbn [nth_error]. rewrite (proj1 (no_order fuel a b)). reflexivity.
Qed.
Lemma sorted_none fuel l : 2 <= length l -> sorted debug fuel l = None.
Proof.
  induction l as [|x l IH]; cbn [length]; intros H; [lia|]. cbn [sorted]. destruct l as [|y l]; [cbn in H; lia|].
  destruct l as [|z l].
  - cbn [sorted insert]. rewrite (proj2 (no_order fuel x y)). reflexivity.
  - rewrite IH by (cbn; lia). reflexivity.
Qed.
Theorem C149_sort_refuted fuel l r : 2 <= length l -> call fuel (lit "sort") (LList l :: r) = Unfinished.
Proof. intros H. change (sort debug fuel (LList l :: r) = Unfinished). unfold sort, list_arg, arg. cbn [nth_error]. rewrite sorted_none by exact H. reflexivity. Qed.
(** the lists that are sorted: those of at most one element *)
Theorem C149_sort_partial fuel l r : length l <= 1 -> call fuel (lit "sort") (LList l :: r) = Val (LList l).
Proof. intros H. destruct l as [|x [|y l]]; cbn [length] in H; try lia; reflexivity. Qed.
(** Equality is equality, on data without functions, floats and tables. *)
Lemma veq_iff a : Plain a -> forall b, veq other_eq a b = true <-> a = b.
Proof.
  revert a. fix IH 2. intros a P. destruct P as [| |z|s|s|l F]; intros b.
  - destruct b; split; intros H; try discriminate; reflexivity.
  - destruct b; split; intros H; try discriminate; reflexivity.
  - destruct b; split; intros H; try discriminate; cbn [veq] in *; [apply Z.eqb_eq in H; subst; reflexivity|inversion H; apply Z.eqb_refl].
  - destruct b; split; intros H; try discriminate; cbn [veq] in *; [apply str_eqb_eq in H; subst; reflexivity|inversion H; apply str_eqb_refl].
  - destruct b; split; intros H; try discriminate; cbn [veq] in *; [apply str_eqb_eq in H; subst; reflexivity|inversion H; apply str_eqb_refl].
  - destruct b as [| | | | |m| | | | |]; try (split; intros H; discriminate). cbn [veq].
    assert (K : forall m, (fix all (x y : list lv) : bool := match x, y with [], [] => true | v :: x', w :: y' => veq other_eq v w && all x' y' | _, _ => false end) l m = true <-> l = m).
    { clear m. revert l F. fix IHl 2. intros l F. destruct F as [|x l Px Fl]; intros m.
      - destruct m; split; intros H; try discriminate; reflexivity.
      - destruct m as [|y m]; [split; intros H; discriminate|]. rewrite andb_true_iff, (IH x Px y), (IHl l Fl m). split; [intros [-> ->]; reflexivity|intros H; inversion H; split; reflexivity]. }
    rewrite (K m). split; [intros ->; reflexivity|intros H; inversion H; reflexivity].
Qed.
Theorem C149_equal_partial fuel a b : Plain a ->
  (a = b /\ call fuel (lit "==") [a; b] = Val LTrue /\ call fuel (lit "!=") [a; b] = Val LFalse) \/
  (a <> b /\ call fuel (lit "==") [a; b] = Val LFalse /\ call fuel (lit "!=") [a; b] = Val LTrue).
Proof.
  intros P. assert (E : call fuel (lit "==") [a; b] = Val (of_bool (veq other_eq a b)) /\ call fuel (lit "!=") [a; b] = Val (of_bool (negb (veq other_eq a b)))) by (split; reflexivity).
  destruct E as [-> ->]. destruct (veq other_eq a b) eqn:V; [left; apply veq_iff in V; auto|right]. split; [|auto]. intros X. apply veq_iff in X; [congruence|exact P].
Qed.
(** a native function is not equal to itself *)
Theorem C149_native_refuted fuel n : call fuel (lit "==") [LNative n; LNative n] = Val LFalse.
Proof. reflexivity. Qed.

(** ** C150 *)
Theorem C150_lists fuel v l :
  call fuel (lit "cons") [v; LList l] = Val (LList (v :: l)) /\
  call fuel (lit "car") [LList (v :: l)] = Val v /\
  call fuel (lit "cdr") [LList (v :: l)] = Val (LList l) /\
  call fuel (lit "car") [LList []] = Error /\
  call fuel (lit "cdr") [LList []] = Val (LList []) /\
  call fuel (lit "list") l = Val (LList l) /\
  call fuel (lit "length") [LList l] = Val (LInt (Z.of_nat (length l))) /\
  call fuel (lit "reverse") [LList l] = Val (LList (rev l)) /\
  call fuel (lit "is_null") [LList (v :: l)] = Val LFalse /\ call fuel (lit "is_null") [LList []] = Val LTrue.
Proof. repeat (split; [reflexivity|]). reflexivity. Qed.
(** the element at a place counted from zero, and nil behind the end *)
Theorem C150_nth fuel i l :
  (forall v, (0 <= i)%Z -> nth_error l (Z.to_nat i) = Some v -> call fuel (lit "nth") [LInt i; LList l] = Val v) /\
  ((Z.of_nat (length l) <= i)%Z -> call fuel (lit "nth") [LInt i; LList l] = Val (LList [])) /\
  ((i < 0)%Z -> call fuel (lit "nth") [LInt i; LList l] = Error).
Proof.
  assert (E : call fuel (lit "nth") [LInt i; LList l] = if (i <? 0)%Z then Error else Val (nth (Z.to_nat i) l nil_v)) by reflexivity. rewrite E.
  destruct (Z.ltb_spec i 0); split; [intros; lia| |intros v _ N; rewrite (nth_error_nth l _ nil_v N); reflexivity|]; (split; [intros L|intros L; try lia; reflexivity]); [lia|].
  rewrite nth_overflow by lia. reflexivity.
Qed.
(** a range has the numbers from the first up to, without, the last *)
Lemma range_up k : forall fuel a acc, k <= fuel -> i64 a -> i64 (a + Z.of_nat k) ->
  range_loop checked fuel a (a + Z.of_nat k) acc = Val (LList (rev acc ++ map (fun i => LInt (a + Z.of_nat i)) (seq 0 k))).
Proof.
  induction k as [|k IH]; intros fuel a acc F A B.
  - replace (a + Z.of_nat 0)%Z with a by lia. cbn [seq map]. rewrite app_nil_r. destruct fuel; cbn [range_loop]; rewrite Z.eqb_refl; reflexivity.
  - destruct fuel as [|fuel]; [lia|]. cbn [range_loop]. destruct (Z.eqb_spec a (a + Z.of_nat (S k))); [lia|].
    rewrite int_fits by (unfold i64 in *; lia). replace (a + Z.of_nat (S k))%Z with ((a + 1) + Z.of_nat k)%Z by lia.
    rewrite IH by (unfold i64 in *; lia). cbn [rev]. rewrite <- app_assoc. cbn [seq map app]. do 4 f_equal; [f_equal; lia|].
    rewrite <- seq_shift, map_map. apply map_ext. intros i. f_equal. lia.
Qed.
Theorem C150_range_partial fuel a k : k <= fuel -> i64 a -> i64 (a + Z.of_nat k) ->
  call fuel (lit "range") [LInt a; LInt (a + Z.of_nat k)] = Val (LList (map (fun i => LInt (a + Z.of_nat i)) (seq 0 k))).
Proof. intros F A B. change (range_loop checked fuel a (a + Z.of_nat k) [] = Val (LList (map (fun i => LInt (a + Z.of_nat i)) (seq 0 k)))). rewrite range_up by assumption. reflexivity. Qed.
(** With the last below the first, the numbers go up to the greatest: a debug build panics there, a
    release build goes on from the least, and the list has almost two to the sixty-four elements. *)
Definition wraps (z : Z) : Z := if (z =? max_int)%Z then min_int else (z + 1)%Z.
Lemma range_never fuel : forall a b acc, i64 a -> i64 b ->
  (Z.of_nat fuel < (b - a) mod 2 ^ 64)%Z -> range_loop checked fuel a b acc = Unfinished \/ range_loop checked fuel a b acc = Panic.
Proof.
  induction fuel as [|f IH]; intros a b acc A B L; cbn [range_loop].
  - destruct (Z.eqb_spec a b) as [->|_]; [rewrite Z.sub_diag in L; cbn in L; lia|]. left. reflexivity.
  - destruct (Z.eqb_spec a b) as [->|N]; [rewrite Z.sub_diag in L; rewrite Z.mod_0_l in L; lia|].
    unfold i64 in *. change (2 ^ 63)%Z with 9223372036854775808%Z in *. change (2 ^ 64)%Z with 18446744073709551616%Z in *.
    destruct (Z.eq_dec a max_int) as [->|M].
    + unfold int_result. change (fits (max_int + 1)) with false. cbn iota. destruct checked; [right; reflexivity|]. change (wrap (max_int + 1)) with min_int. apply IH; [unfold min_int; lia|exact B|].
      unfold min_int, max_int in *. replace (b - -9223372036854775808)%Z with ((b - 9223372036854775807) + (1) * 18446744073709551616 - 1)%Z by lia.
      assert (E : ((b - 9223372036854775807) mod 18446744073709551616 = b - 9223372036854775807 + 18446744073709551616)%Z) by (symmetry; apply Z.mod_unique with (q := (-1)%Z); lia).
      assert (E2 : ((b - 9223372036854775807 + 1 * 18446744073709551616 - 1) mod 18446744073709551616 = b - 9223372036854775807 + 1 * 18446744073709551616 - 1)%Z) by (apply Z.mod_small; lia). lia.
    + rewrite int_fits by (unfold i64, max_int in *; change (2 ^ 63)%Z with 9223372036854775808%Z; lia). apply IH; [unfold max_int in M; lia|exact B|].
      destruct (Z_lt_le_dec a b).
      * rewrite Z.mod_small in * by lia. lia.
      * assert (E : ((b - a) mod 18446744073709551616 = b - a + 18446744073709551616)%Z) by (symmetry; apply Z.mod_unique with (q := (-1)%Z); lia).
        assert (E2 : ((b - (a + 1)) mod 18446744073709551616 = b - (a + 1) + 18446744073709551616)%Z) by (symmetry; apply Z.mod_unique with (q := (-1)%Z); unfold max_int in *; lia). lia.
Qed.
Theorem C150_range_refuted fuel a b : i64 a -> i64 b -> (b < a)%Z -> (Z.of_nat fuel < 2 ^ 64 - (a - b))%Z ->
  call fuel (lit "range") [LInt a; LInt b] = Unfinished \/ call fuel (lit "range") [LInt a; LInt b] = Panic.
Proof.
  intros A B L F. change (call fuel (lit "range") [LInt a; LInt b]) with (range_loop checked fuel a b []). apply range_never; [exact A|exact B|].
  unfold i64 in *. replace ((b - a) mod 2 ^ 64)%Z with (2 ^ 64 - (a - b))%Z; [exact F|]. apply Z.mod_unique with (q := (-1)%Z); lia.
Qed.
(** nil counts as a pair *)
Theorem C150_pair_refuted fuel : call fuel (lit "is_pair") [LList []] = Val LTrue.
Proof. reflexivity. Qed.
End Library.

(** ** in the interpreter: the library as the evaluator's native functions *)
Definition as_native {W} (lib : nat -> str -> list lv -> outcome) (fuel : nat) (_ : nat) (name : str) (args : list lv) : M W lv :=
  fun s => match lib fuel name args with Val v => Ok _ _ v s | Error => Err _ _ s | _ => Fuel _ _ end.
(** A comparison of two evaluated arguments, anywhere in a program, has no result however long one waits. *)
Theorem C149_evaluated_refuted {W} checked fz fo oe dbg sv aa fuel n c env name e1 e2 v1 v2 (s s1 s2 : state W) :
  let native := as_native (call checked fz fo oe dbg) fuel in
  let ev := eval W native sv aa true in
  order_name name -> quoting c = false -> found_tail c = true \/ in_func c = false ->
  get (hp _ s) env name = Some (LNative name) -> 0 < n ->
  ev n (not_tail c) env e1 s = Ok _ _ v1 s1 -> ev n (not_tail c) env e2 s1 = Ok _ _ v2 s2 ->
  ev (S n) c env (LList [LSym name; e1; e2]) s = Fuel _ _.
Proof.
  intros native ev H Q T G N E1 E2.
  assert (F : form_of (LSym name) = None) by (destruct H as [<-|[<-|[<-|[<-|[]]]]]; reflexivity).
  unfold ev. rewrite (C85_call_evaluates_arguments_in_order W native sv aa n c env Q (LSym name) [e1; e2] (LNative name) [v1; v2] s s s2 F T).
  - assert (K : Lisp_Model.call W native (eval W native sv aa true n) env (LNative name) [v1; v2] s2 = Fuel _ _).
    { cbn [Lisp_Model.call].
      assert (X : existsb (str_eqb name) [lit "eval"; lit "apply"; lit "map"; lit "filter"] = false) by (destruct H as [<-|[<-|[<-|[<-|[]]]]]; reflexivity).
      cbn [existsb] in X. rewrite !orb_false_iff in X. destruct X as (X1 & X2 & X3 & X4 & _). rewrite X1, X2, X3, X4.
      unfold native, as_native. rewrite C149_compare_refuted by exact H. reflexivity. }
    destruct n; cbn [settle]; rewrite K; reflexivity.
  - destruct n as [|n]; [lia|]. cbn [eval step]. replace (quoting (not_tail c)) with false by (symmetry; exact Q). unfold m_get. rewrite G. reflexivity.
  - reflexivity.
  - apply Runs_cons with (s1 := s1); [exact E1|]. apply Runs_cons with (s1 := s2); [exact E2|]. apply Runs_nil.
Qed.

(** ** examples *)
Definition no_floats := call true (fun _ => None) (fun _ _ _ => None) str_eqb (fun _ => []).
Example C148_case :
  no_floats 5 (lit "+") [LInt 1; LInt 2; LInt (-5)] = Val (LInt (-2)) /\ sums_fit [1; 2; -5]%Z /\
  no_floats 5 (lit "*") [LInt 6; LInt 7] = Val (LInt 42) /\ no_floats 5 (lit "/") [LInt (-7); LInt 2] = Val (LInt (-3)) /\
  no_floats 5 (lit "+") [LStr (lit "a"); LInt 1] = Val (LStr (lit "0a1")) /\ no_floats 5 (lit "+") [LInt 1; LStr (lit "a")] = Val (LStr (lit "1a")) /\
  no_floats 5 (lit "range") [LInt 2; LInt 5] = Val (LList [LInt 2; LInt 3; LInt 4]) /\
  no_floats 100 (lit "<") [LInt 1; LInt 2] = Unfinished.
Proof.
  split; [reflexivity|]. split; [|vm_compute; repeat (split; [reflexivity|]); reflexivity].
  intros k. unfold i64. change (2 ^ 63)%Z with 9223372036854775808%Z. destruct k as [|[|[|[|k]]]]; cbn; lia.
Qed.

Print Assumptions C148_add_partial.
Print Assumptions C148_multiply_partial.
Print Assumptions C148_subtract_partial.
Print Assumptions C148_divide_partial.
Print Assumptions C148_join_partial.
Print Assumptions C148_text_number_refuted.
Print Assumptions C148_one_refuted.
Print Assumptions C148_dropped_refuted.
Print Assumptions C148_zero_refuted.
Print Assumptions C148_overflow_refuted.
Print Assumptions C149_compare_refuted.
Print Assumptions C149_sort_refuted.
Print Assumptions C149_sort_partial.
Print Assumptions C149_equal_partial.
Print Assumptions C149_native_refuted.
Print Assumptions C149_evaluated_refuted.
Print Assumptions C150_lists.
Print Assumptions C150_nth.
Print Assumptions C150_range_partial.
Print Assumptions C150_range_refuted.
Print Assumptions C150_pair_refuted.
