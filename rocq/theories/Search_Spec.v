(** What the theorems about the chat's file tools say, without the functions of the model. *)
From Verif Require Import Base.
From Verif Require Lread_Model Frecency_Model.
From Verif Require Import Search_Model.

(** the last rule that says anything about the path says to ignore it *)
Definition Told_to_ignore (rs : list rule) (p : path) (dir : bool) : Prop :=
  exists a r b, rs = a ++ r :: b /\ r p dir = Some true /\ forall r', In r' b -> r' p dir = None.
(** [p] itself or a folder between [base] and [p] is to be ignored *)
Definition Ignored (rs : list rule) (is_dir : path -> bool) (base p : path) : Prop :=
  Told_to_ignore rs p (is_dir p) \/
  exists m r, p = base ++ m ++ r /\ m <> [] /\ r <> [] /\ Told_to_ignore rs (base ++ m) true.

(** what a walk reaches *)
Inductive Reached (repository : bool) (rs : list rule) (root : path) (n : node) : path -> node -> Prop :=
| At_root : Reached repository rs root n root n
| Down : forall p l nm m, Reached repository rs root n p (Folder l) -> In (nm, m) l ->
    (forall r, nm <> chr "." :: r) -> (repository = true -> ~ Told_to_ignore rs (p ++ [nm]) (is_folder m)) ->
    Reached repository rs root n (p ++ [nm]) m.
(** the line shown for a file: its path from the current folder, the number and the text of the first line with the query *)
Definition First_with (query : str) (cwd p : path) (n : node) (x : str) : Prop :=
  exists ls i l r, n = File (Some ls) /\ nth_error ls i = Some (Some l) /\ (exists a b, l = a ++ query ++ b)
    /\ (forall j l', j < i -> nth_error ls j = Some (Some l') -> ~ exists a b, l' = a ++ query ++ b)
    /\ p = cwd ++ r /\ x = join_with (lit "/") r ++ lit ":" ++ Lread_Model.show_nat (N.of_nat (i + 1)) ++ lit ": " ++ trim l.

(** a star fits any text, a question mark any character, another character itself *)
Inductive Fits : str -> str -> Prop :=
| Fit_end : Fits [] []
| Fit_star : forall q a b, Fits q b -> Fits (chr "*" :: q) (a ++ b)
| Fit_any : forall q x s, Fits q s -> Fits (chr "?" :: q) (x :: s)
| Fit_char : forall q c s, c <> chr "*" -> c <> chr "?" -> Fits q s -> Fits (c :: q) (c :: s).
