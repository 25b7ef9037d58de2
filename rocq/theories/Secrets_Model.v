(** Secrets and the history: dsh/src/secrets.rs. *)
From Verif Require Import Base.

(** ** Regular expressions (the regex crate, leftmost-first) *)
(** [match_re r prev s] lists the matches of [r] at the start of [s], as (text, rest), in the
    order in which a backtracking matcher finds them; the crate reports the first one.  [prev] is
    the character before [s].  Greedy repetition only; look-around is the word boundary only *)
Inductive re :=
| Eps
| Cls (p : char -> bool)
| Seq (a b : re)
| Alt (a b : re)
| Star (a : re)
| WordB.
Definition last_of (prev : option char) (x : str) : option char := match rev x with c :: _ => Some c | [] => prev end.

Section Words.
(** which characters beyond ASCII are word characters (\w); the two that case folding adds to
    the letters are, and blanks are not *)
Variable uword : char -> bool.
Definition upper_letter (c : char) : bool := (65 <=? c)%N && (c <=? 90)%N.
Definition lower_letter (c : char) : bool := (97 <=? c)%N && (c <=? 122)%N.
Definition digit (c : char) : bool := (48 <=? c)%N && (c <=? 57)%N.
(** U+017F folds to s and U+212A folds to k: (?i)[A-Z] matches them *)
Definition letter_ci (c : char) : bool := upper_letter c || lower_letter c || (c =? 383)%N || (c =? 8490)%N.
Definition is_word (c : char) : bool := letter_ci c || digit c || (c =? 95)%N || ((128 <=? c)%N && negb (is_whitespace c) && uword c).
Definition wordb (o : option char) : bool := match o with Some c => is_word c | None => false end.

Section Repeat.
Variable m : option char -> str -> list (str * str).
Fixpoint star (fuel : nat) (prev : option char) (s : str) : list (str * str) :=
  match fuel with
  | 0 => [([], s)]
  | S f =>
      flat_map (fun xt => match fst xt with
                          | [] => []
                          | _ => map (fun yu => (fst xt ++ fst yu, snd yu)) (star f (last_of prev (fst xt)) (snd xt))
                          end) (m prev s) ++ [([], s)]
  end.
End Repeat.
Fixpoint match_re (r : re) (prev : option char) (s : str) : list (str * str) :=
  match r with
  | Eps => [([], s)]
  | Cls p => match s with c :: t => if p c then [([c], t)] else [] | [] => [] end
  | Seq a b => flat_map (fun xt => map (fun yu => (fst xt ++ fst yu, snd yu)) (match_re b (last_of prev (fst xt)) (snd xt))) (match_re a prev s)
  | Alt a b => match_re a prev s ++ match_re b prev s
  | Star a => star (match_re a) (length s) prev s
  | WordB => if xorb (wordb prev) (wordb (hd_error s)) then [([], s)] else []
  end.
Definition Plus (a : re) : re := Seq a (Star a).
Definition Opt (a : re) : re := Alt a Eps.

(** (?i) and one letter *)
Definition ci (a c : char) : bool :=
  (lower_char c =? a)%N || ((a =? 115)%N && (c =? 383)%N) || ((a =? 107)%N && (c =? 8490)%N).
Definition is (a : char) : re := Cls (N.eqb a).
Fixpoint word_ci (w : str) : re :=
  match w with [] => Eps | [c] => Cls (ci c) | c :: t => Seq (Cls (ci c)) (word_ci t) end.
Fixpoint one_of (rs : list re) : re := match rs with [] => Eps | [r] => r | r :: t => Alt r (one_of t) end.
Definition blank : char -> bool := is_whitespace.

(** a pattern with two groups and something between them *)
Record pat := Pat { g1 : re; mid : re; g2 : re }.
Record hit := Hit { h1 : str; hmid : str; h2 : str }.
Definition match_pat (p : pat) (prev : option char) (s : str) : option hit :=
  match flat_map (fun a => flat_map (fun b => map (fun c => Hit (fst a) (fst b) (fst c))
           (match_re (g2 p) (last_of (last_of prev (fst a)) (fst b)) (snd b)))
           (match_re (mid p) (last_of prev (fst a)) (snd a))) (match_re (g1 p) prev s)
  with h :: _ => Some h | [] => None end.

(** secrets.rs l.61-62: at a word boundary a name, an equals sign and all up to the next blank *)
Definition name_start (c : char) : bool := letter_ci c || (c =? 95)%N.
Definition name_char (c : char) : bool := letter_ci c || digit c || (c =? 95)%N.
Definition nonblank (c : char) : bool := negb (blank c).
Definition assignment : pat := Pat (Seq WordB (Seq (Cls name_start) (Star (Cls name_char)))) (is 61%N) (Plus (Cls nonblank)).
(** l.65-70 *)
Definition dash_under (c : char) : bool := (c =? 45)%N || (c =? 95)%N.
Definition option_word : re :=
  one_of [word_ci (lit "password"); word_ci (lit "passwd"); word_ci (lit "passphrase"); word_ci (lit "token"); word_ci (lit "secret");
          Seq (word_ci (lit "api")) (Seq (Opt (Cls dash_under)) (word_ci (lit "key")));
          Seq (word_ci (lit "access")) (Seq (Opt (Cls dash_under)) (word_ci (lit "token")))].
Definition option_head : re :=
  Alt (Seq (is 45%N) (Seq (Opt (is 45%N)) (Seq option_word (Alt (Plus (Cls blank)) (is 61%N)))))
      (Seq (is 45%N) (Seq (word_ci (lit "p")) (Plus (Cls blank)))).
Definition unquoted (c : char) : bool := nonblank c && negb (c =? 34)%N && negb (c =? 39)%N.
Definition option_value : re :=
  one_of [Plus (Cls unquoted);
          Seq (is 34%N) (Seq (Star (Cls (fun c => negb (c =? 34)%N))) (is 34%N));
          Seq (is 39%N) (Seq (Star (Cls (fun c => negb (c =? 39)%N))) (is 39%N))].
Definition option_secret : pat := Pat option_head Eps option_value.
(** l.73-74 *)
Definition bearer_char (c : char) : bool := letter_ci c || digit c || mem_char c (lit "._~+/=-").
Definition auth_bearer : pat :=
  Pat (Seq (word_ci (lit "authorization")) (Seq (Star (Cls blank)) (Seq (is 58%N) (Seq (Star (Cls blank)) (Seq (word_ci (lit "bearer")) (Plus (Cls blank)))))))
      Eps (Plus (Cls bearer_char)).
(** l.77-79 *)
Definition query_char (c : char) : bool := nonblank c && negb (c =? 38)%N.
Definition query_secret : pat :=
  Pat (Seq (Cls (fun c => (c =? 63)%N || (c =? 38)%N))
           (Seq (one_of [word_ci (lit "token"); word_ci (lit "access_token"); word_ci (lit "api_key"); word_ci (lit "apikey"); word_ci (lit "auth"); word_ci (lit "password")]) (is 61%N)))
      Eps (Plus (Cls query_char)).

(** Regex::captures_iter and the text between: non-overlapping matches from the left (none of
    the patterns matches the empty text).  [skip] counts the characters of a match still to pass *)
Inductive piece := Plain (c : char) | Found (h : hit).
Definition hit_text (h : hit) : str := h1 h ++ hmid h ++ h2 h.
Fixpoint scan (p : pat) (skip : nat) (prev : option char) (s : str) : list piece :=
  match s with
  | [] => []
  | c :: t =>
      match skip with
      | S k => scan p k (Some c) t
      | 0 => match match_pat p prev s with
             | Some h => Found h :: scan p (length (hit_text h) - 1) (Some c) t
             | None => Plain c :: scan p 0 (Some c) t
             end
      end
  end.
Definition pieces (p : pat) (s : str) : list piece := scan p 0 None s.
Definition hits (l : list piece) : list hit := flat_map (fun x => match x with Found h => [h] | Plain _ => [] end) l.
Definition is_match (p : pat) (s : str) : bool := match hits (pieces p s) with [] => false | _ => true end.
Definition replace_all (p : pat) (f : hit -> str) (s : str) : str :=
  flat_map (fun x => match x with Plain c => [c] | Found h => f h end) (pieces p s).

(** ** The manager *)
Inductive history_mode := Skip | Redact | NoFilter.
(** str::to_ascii_uppercase *)
Definition upper_char (c : char) : char := if lower_letter c then (c - 32)%N else c.
Definition upper (s : str) : str := map upper_char s.
(** l.39-57 *)
Definition default_keywords : list str :=
  map lit ["API_KEY"; "_KEY"; "TOKEN"; "SECRET"; "PASSWORD"; "PASSWD"; "PASSPHRASE"; "AUTH"; "COOKIE"; "SESSION"; "CREDENTIAL"; "PRIVATE"; "ACCESS_KEY"; "SECRET_KEY"]%string.
(** l.83-92; a user's own pattern is the predicate "it matches this text" *)
Record manager := Manager { custom : list (str -> bool); keywords : list str; mode : history_mode; session : list (str * str) }.
(** l.119-146 *)
Definition is_sensitive_key (mg : manager) (key : str) : bool :=
  existsb (fun k => contains k (upper key)) default_keywords || existsb (fun k => contains (upper k) (upper key)) (keywords mg) || existsb (fun q => q key) (custom mg).
(** l.149-178 *)
Definition is_sensitive_command (mg : manager) (cmd : str) : bool :=
  existsb (fun h => is_sensitive_key mg (h1 h)) (hits (pieces assignment cmd)) || existsb (fun q => q cmd) (custom mg) ||
  is_match option_secret cmd || is_match auth_bearer cmd || is_match query_secret cmd.
(** l.181-227 *)
Definition stars : str := lit "***".
Definition mask (h : hit) : str := h1 h ++ stars.
Definition redact_assignments (mg : manager) : str -> str :=
  replace_all assignment (fun h => if is_sensitive_key mg (h1 h) then h1 h ++ 61%N :: stars else hit_text h).
Definition redact_command (mg : manager) (cmd : str) : str :=
  replace_all query_secret mask (replace_all auth_bearer mask (replace_all option_secret mask (redact_assignments mg cmd))).
(** l.230-251 *)
Definition process_for_history (mg : manager) (cmd : str) : option str :=
  match mode mg with
  | NoFilter => Some cmd
  | Skip => if is_sensitive_command mg cmd then None else Some cmd
  | Redact => if is_sensitive_command mg cmd then Some (redact_command mg cmd) else Some cmd
  end.
(** dsh/src/shell/eval.rs l.49-68 and dsh/src/shell/mod.rs l.224-260: what running a command
    writes to the history.  Once as the command, and its outcome again under the same text *)
Definition recorded_by_running (mg : manager) (cmd : str) : option str := process_for_history mg cmd.
(** dsh/src/repl/mod.rs l.586-600 learn_suggestion: accepting a whole suggestion writes it *)
Definition recorded_by_accepting (mg : manager) (suggestion : str) : option str := Some suggestion.
(** dsh/src/lisp/builtin.rs l.18-40: whether the value of a variable set from Lisp is hidden in the log *)
Definition lisp_sensitive_key (key : str) : bool :=
  let k := upper key in
  contains (lit "API_KEY") k || ends_with (lit "_KEY") k ||
  existsb (fun w => contains w k) (map lit ["TOKEN"; "SECRET"; "PASSWORD"; "PASSWD"; "PASSPHRASE"; "AUTH"; "COOKIE"; "SESSION"]%string).
End Words.
