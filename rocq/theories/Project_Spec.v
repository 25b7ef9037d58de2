(** What the project manager promises, in its own words. *)
From Verif Require Import Base Offer_Spec.

(** the directory [a] is [b] or above it *)
Definition above (a b : list str) : Prop := exists r, b = a ++ r.
(** [a] is above [b] and no other place in [l] that is above [b] is deeper *)
Definition nearest (l : list (list str)) (b a : list str) : Prop :=
  In a l /\ above a b /\ forall x, In x l -> above x b -> above x a.

(** name of a variable *)
Definition letter (c : char) : Prop := (65 <= c <= 90 \/ 97 <= c <= 122)%N.
Definition digit (c : char) : Prop := (48 <= c <= 57)%N.
Definition variable_name (k : str) : Prop :=
  exists c r, k = c :: r /\ (c = 95%N \/ letter c) /\ forall d, In d r -> d = 95%N \/ letter d \/ digit d.

(** [a] says that [k] shall be [v]: k = v with blanks around both and one pair of quotes around v *)
Definition says (a k v : str) : Prop :=
  exists l r w, a = l ++ 61%N :: r /\ ~ In 61%N l /\ trimmed l k /\ variable_name k /\ trimmed r w /\ unquoted w v.
(** a line of .env: an assignment, with or without the word export before it *)
Definition dotenv_says (l k v : str) : Prop :=
  exists t, trimmed l t /\ t <> [] /\ (forall u, t <> 35%N :: u) /\
    ((exists a b, t = lit "export " ++ a /\ trimmed a b /\ says b k v) \/
     ((forall a, t <> lit "export " ++ a) /\ says t k v)).

(** the value the last pair for [k] gives *)
Definition last_for (vs : list (str * str)) (k v : str) : Prop :=
  exists a b, vs = a ++ (k, v) :: b /\ forall w, ~ In (k, w) b.

(** the first word of a text and what follows, without the blanks between and at the end *)
Definition first_word (t w r : str) : Prop :=
  (forall c, In c w -> is_whitespace c = false) /\
  ((t = w /\ r = []) \/ exists c u, t = w ++ c :: u /\ is_whitespace c = true /\ trimmed u r).
(** [w] is the word [x] with small or capital letters *)
Definition any_case (w x : str) : Prop := Forall2 (fun c d => (c = d /\ ~ (65 <= c <= 90)%N) \/ ((65 <= c <= 90)%N /\ d = (c + 32)%N)) w x.
Definition command_line (l x r : str) : Prop :=
  exists t w, trimmed l t /\ t <> [] /\ (forall u, t <> 35%N :: u) /\ first_word t w r /\ any_case w x.
(** a line of .envrc: export k=v, or path_add d *)
Definition envrc_says (l k v : str) : Prop := exists r, command_line l (lit "export") r /\ says r k v.
Definition envrc_adds (l d : str) : Prop := exists r, command_line l (lit "path_add") r /\ unquoted r d /\ d <> [].

(** the lines that say something, in order *)
Inductive collected {A} (say : str -> A -> Prop) : list str -> list A -> Prop :=
| c_nil : collected say [] []
| c_say l ls x xs : say l x -> collected say ls xs -> collected say (l :: ls) (x :: xs)
| c_skip l ls xs : (forall x, ~ say l x) -> collected say ls xs -> collected say (l :: ls) xs.
