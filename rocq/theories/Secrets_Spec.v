(** Secrets in a command line, in a reader's terms. *)
From Verif Require Import Base Secrets_Model.

Definition blanks (s : str) : Prop := Forall (fun c => is_whitespace c = true) s.
Definition no_blank (s : str) : Prop := Forall (fun c => is_whitespace c = false) s.
(** nothing, or a blank first / last *)
Definition starts_blank (s : str) : Prop := s = [] \/ exists c t, s = c :: t /\ is_whitespace c = true.
Definition ends_blank (s : str) : Prop := s = [] \/ exists c t, s = t ++ [c] /\ is_whitespace c = true.
Definition ascii_letter (c : char) : Prop := (65 <= c <= 90)%N \/ (97 <= c <= 122)%N.
Definition ascii_digit (c : char) : Prop := (48 <= c <= 57)%N.
(** a variable name *)
Inductive identifier : str -> Prop :=
| identifier_intro c t : ascii_letter c \/ c = 95%N -> Forall (fun d => ascii_letter d \/ ascii_digit d \/ d = 95%N) t -> identifier (c :: t).
(** the text before a name in its word: nothing, or something ending in a character that cannot
    be part of a name (of word characters beyond ASCII, [uword] knows), with no equals sign *)
Definition before_name (uword : char -> bool) (s : str) : Prop :=
  no_blank s /\ ~ In 61%N s /\ (s = [] \/ exists c t, s = t ++ [c] /\ is_word uword c = false).
(** a name that calls its value a secret: contains a known word in any case *)
Definition sensitive_name (n : str) : Prop :=
  exists k, In k (map lit ["_KEY"; "TOKEN"; "SECRET"; "PASSWORD"; "PASSWD"; "PASSPHRASE"; "AUTH"; "COOKIE"; "SESSION"; "CREDENTIAL"; "PRIVATE"; "API_KEY"]%string) /\
            exists a w b, n = a ++ w ++ b /\ map lower_char w = map lower_char k.
(** options that carry a secret *)
Definition secret_options : list str :=
  map lit ["--password"; "--passwd"; "--passphrase"; "--token"; "--secret"; "--apikey"; "--api-key"; "--api_key"; "--accesstoken"; "--access-token"; "--access_token";
           "-password"; "-passwd"; "-passphrase"; "-token"; "-secret"; "-apikey"; "-api-key"; "-api_key"; "-accesstoken"; "-access-token"; "-access_token"]%string.
(** a value without blanks and quotation marks *)
Definition plain_value (v : str) : Prop := v <> [] /\ Forall (fun c => is_whitespace c = false /\ c <> 34%N /\ c <> 39%N) v.
(** text in which no secret option begins: every dash is followed by another dash or by a
    character that starts none of them *)
Definition harmless (d : char) : Prop := ~ In d ([112; 80; 116; 84; 115; 83; 97; 65; 383]%N).
Fixpoint no_option (s : str) : Prop :=
  match s with
  | [] => True
  | c :: t => (c = 45%N -> match t with d :: _ => harmless d | [] => False end) /\ no_option t
  end.
(** what stands between an option and its value; [-p] needs a blank *)
Definition separates (sep : str) : Prop := sep = [61%N] \/ (sep <> [] /\ blanks sep).
Definition carries_secret (opt sep : str) : Prop := (In opt secret_options /\ separates sep) \/ (opt = lit "-p" /\ sep <> [] /\ blanks sep).
(** an authorization header up to the token *)
Inductive bearer_header : str -> Prop :=
| bearer_intro a w1 w2 b w3 : In a (map lit ["Authorization"; "authorization"]%string) -> blanks w1 -> blanks w2 -> In b (map lit ["Bearer"; "bearer"]%string) -> w3 <> [] -> blanks w3 ->
    bearer_header (a ++ w1 ++ 58%N :: w2 ++ b ++ w3).
Definition alphanumeric (v : str) : Prop := v <> [] /\ Forall (fun c => ascii_letter c \/ ascii_digit c) v.
(** parameters of a URL that carry a secret *)
Definition secret_parameters : list str := map lit ["token"; "access_token"; "api_key"; "apikey"; "auth"; "password"]%string.
