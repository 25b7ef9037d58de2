(** The directory history: dsh-frecency/src/{store,stats}.rs and
    dsh/src/history/frecency_history.rs.

    Scores are an arbitrary type with the operations the store applies to them; the
    floating-point arithmetic of stats.rs is modelled at the end with the binary32
    operations of the standard library (Coq.Floats.SpecFloat). *)
From Verif Require Import Base.
From Coq Require Import SpecFloat.

(** Ord for str: lexicographic on bytes, which for UTF-8 is lexicographic on characters *)
Fixpoint str_cmp (a b : str) : comparison :=
  match a, b with
  | [], [] => Eq
  | [], _ => Lt
  | _, [] => Gt
  | x :: a', y :: b' => match (x ?= y)%N with Eq => str_cmp a' b' | r => r end
  end.

(** core::slice::binary_search_by: [inl i] = Ok(i), [inr i] = Err(i); [f] compares an
    element with the target *)
Fixpoint bs_loop {A} (fuel : nat) (f : A -> comparison) (l : list A) (base size : nat) : nat :=
  match fuel with
  | 0 => base
  | S fu =>
      if size <=? 1 then base
      else
        let half := size / 2 in
        let mid := base + half in
        match nth_error l mid with
        | None => base
        | Some x => bs_loop fu f l (match f x with Gt => base | _ => mid end) (size - half)
        end
  end.
Definition binary_search {A} (f : A -> comparison) (l : list A) : nat + nat :=
  match l with
  | [] => inr 0
  | _ =>
      let base := bs_loop (length l) f l 0 (length l) in
      match nth_error l base with
      | None => inr base
      | Some x => match f x with Eq => inl base | Lt => inr (S base) | Gt => inr base end
      end
  end.
(** core::slice::partition_point *)
Definition partition_point {A} (p : A -> bool) (l : list A) : nat :=
  match binary_search (fun x => if p x then Lt else Gt) l with inl i => i | inr i => i end.

Definition insert_at {A} (i : nat) (x : A) (l : list A) : list A := firstn i l ++ x :: skipn i l.
Fixpoint update_at {A} (i : nat) (f : A -> A) (l : list A) : list A :=
  match i, l with
  | _, [] => []
  | 0, x :: r => f x :: r
  | S j, x :: r => x :: update_at j f r
  end.

(** slice::sort_by (stable): [leb a b] = "a may stay before b" *)
Fixpoint insert_sorted {A} (leb : A -> A -> bool) (x : A) (l : list A) : list A :=
  match l with [] => [x] | y :: r => if leb x y then x :: l else y :: insert_sorted leb x r end.
Definition sort {A} (leb : A -> A -> bool) (l : list A) : list A := fold_right (insert_sorted leb) [] l.

Section Store.
Variable score : Type.
(** ItemStats::new, the updates of add and adjust, and "scores at least as high" for a
    sort method *)
Variable fresh : score.
Variable visit : score -> score.
Variable weigh : score -> score.
Variable at_least : score -> score -> bool.

Record item := Item { name : str; stats : score; ctx : option str }.

(** store.rs l.148-169 get, followed by an update of the statistics *)
Definition get_update (upd : score -> score) (n : str) (c : option str) (items : list item) : list item :=
  match binary_search (fun i => str_cmp (name i) n) items with
  | inl idx => update_at idx (fun i => Item (name i) (upd (stats i)) (match c with Some _ => c | None => ctx i end)) items
  | inr idx => insert_at idx (Item n (upd fresh) c) items
  end.
(** l.67-76 add, l.87-92 adjust *)
Definition add (n : str) (c : option str) (items : list item) : list item := get_update visit n c items.
Definition adjust (n : str) (items : list item) : list item := get_update weigh n None items.
(** l.95-100 delete *)
Fixpoint delete (n : str) (items : list item) : list item :=
  match items with [] => [] | i :: r => if str_eqb (name i) n then r else i :: delete n r end.
(** l.102-105 prune; [exists_] is the file system *)
Definition prune (exists_ : str -> bool) (items : list item) : list item := filter (fun i => exists_ (name i)) items.
(** l.30-38 truncate, l.108-113 sorted *)
Definition truncate (keep : nat) (items : list item) : list item :=
  let by_score := sort (fun a b => at_least (stats a) (stats b)) items in
  sort (fun a b => match str_cmp (name a) (name b) with Gt => false | _ => true end) (firstn keep by_score).
(** l.138-146 search_prefix_range *)
Definition search_prefix_range (p : str) (items : list item) : nat * nat :=
  let start := partition_point (fun i => match str_cmp (name i) p with Lt => true | _ => false end) items in
  (start, start + partition_point (fun i => starts_with p (name i)) (skipn start items)).
Definition prefix_items (p : str) (items : list item) : list item :=
  let (i, j) := search_prefix_range p items in firstn (j - i) (skipn i items).

(** core::iter::Iterator::max_by: the last of the maximal elements *)
Definition max_by {A} (cmp : A -> A -> comparison) (l : list A) : option A :=
  match l with
  | [] => None
  | x :: r => Some (fold_left (fun best y => match cmp best y with Gt => best | _ => y end) r x)
  end.
(** frecency_history.rs l.348-360 search_recent_prefix, l.370-386
    search_prefix_with_context; [cmp] compares two items *)
Definition search_prefix (cmp : item -> item -> comparison) (p : str) (items : list item) : option str :=
  option_map name (max_by cmp (prefix_items p items)).

Inductive fop := FAdd (n : str) (c : option str) | FAdjust (n : str) | FDelete (n : str)
               | FPrune (exists_ : str -> bool) | FTruncate (keep : nat).
Definition fstep (items : list item) (o : fop) : list item :=
  match o with
  | FAdd n c => add n c items
  | FAdjust n => adjust n items
  | FDelete n => delete n items
  | FPrune e => prune e items
  | FTruncate k => truncate k items
  end.
Definition frun (items : list item) (ops : list fop) : list item := fold_left fstep ops items.

(** ** the table directory_snapshot, rows in rowid order.  The column last_accessed has
    INTEGER affinity: a whole number of seconds is stored as an integer, any other
    value as a real ([whole] = false). *)
Record row := Row { path : str; rscore : score; whole : bool; rctx : option str }.

(** frecency_history.rs l.203-239 save (and save_sync l.147-172): INSERT OR REPLACE of every item in turn; the
    replaced row is deleted and the new one gets the next rowid *)
Definition replace_row (r : row) (rows : list row) : list row :=
  filter (fun x => negb (str_eqb (path x) (path r))) rows ++ [r].
Definition save (is_whole : score -> bool) (items : list item) (rows : list row) : list row :=
  fold_left (fun rows i => replace_row (Row (name i) (stats i) (is_whole (stats i)) (ctx i)) rows) items rows.

(** l.72-113 from_file: SELECT without ORDER BY; reading last_accessed as i64 fails on a
    real and [iter.flatten()] drops the row.  [loaded] is new + set_frecency. *)
Definition from_file (loaded : score -> score) (rows : list row) : list item :=
  map (fun r => Item (path r) (loaded (rscore r)) (rctx r)) (filter whole rows).

(** l.242-288 reload: rows not found by binary search are inserted *)
Definition reload_row (loaded : score -> score) (items : list item) (r : row) : list item :=
  match binary_search (fun i => str_cmp (name i) (path r)) items with
  | inl _ => items
  | inr idx => insert_at idx (Item (path r) (loaded (rscore r)) (rctx r)) items
  end.
Definition reload (loaded : score -> score) (rows : list row) (items : list item) : list item :=
  fold_left (reload_row loaded) rows items.
End Store.
Arguments Item {score}. Arguments name {score}. Arguments stats {score}. Arguments ctx {score}.
Arguments Row {score}. Arguments path {score}. Arguments rscore {score}. Arguments whole {score}. Arguments rctx {score}.

(** ** stats.rs in binary32.  [growth t] is
    2.0f32.powf(secs_elapsed(reference_time) / half_life) at time [t]. *)
Definition f32 := spec_float.
Definition mul : f32 -> f32 -> f32 := SFmul 24 128.
Definition div : f32 -> f32 -> f32 := SFdiv 24 128.
Definition fadd : f32 -> f32 -> f32 := SFadd 24 128.
Definition one : f32 := S754_finite false 8388608 (-23).
(** l.131-137 get_frecency, set_frecency, l.140-143 update_frecency by 1.0, where [g]
    is the current growth *)
Definition get_frecency (g f : f32) : f32 := div f g.
Definition set_frecency (g new : f32) : f32 := mul new g.
Definition update_frecency (g f : f32) : f32 := set_frecency g (fadd (get_frecency g f) one).
(** what SQLite stores for a value bound to a REAL NOT NULL column: NaN is NULL, which
    the column refuses (no default), and the whole transaction is rolled back *)
Definition storable (f : f32) : bool := match f with S754_nan => false | _ => true end.
(** l.117-121 cmp_frecent / l.59-68 cmp_frecent_with_context on two scores: partial_cmp
    with unordered read as Less *)
Definition cmp_scores (a b : f32) : comparison :=
  match SFcompare a b with Some c => c | None => Lt end.
