(** The Lisp reader and printer (dsh/src/lisp/parser.rs and the Display of dsh/src/lisp/model). *)
From Verif Require Import Base Numerals.

(** The values the reader makes.  A floating point number is kept as its text. *)
Inductive value := VTrue | VFalse | VInt (z : Z) | VFloat (t : str) | VString (s : str) | VSymbol (s : str) | VList (l : list value).

Section Numeric.
(** char::is_numeric beyond ASCII; no white space is numeric *)
Variable unum : char -> bool.
Definition is_numeric (c : char) : bool := if (c <? 128)%N then is_digit c else negb (is_whitespace c) && unum c.

(** code.get(i..).unwrap_or(empty): also empty when [i] is inside a character *)
Definition from (code : str) (i : nat) : str := match split_byte code i with Some (_, q) => q | None => [] end.
(** l.364 *)
Definition special (c : char) : bool := mem_char c (lit "()',;").
(** l.347-362 *)
Definition is_symbolic (c : char) : bool := negb (is_whitespace c) && negb (special c).
Definition is_symbol_start (c : char) : bool := negb (is_numeric c) && is_symbolic c.
Definition next_is_break (code : str) (i : nat) : bool :=
  match from code i with c :: _ => is_whitespace c || special c | [] => true end.
(** l.335-346 consume_while: byte offset and value of the last character accepted; the
    predicate sees the offset from the start and may keep a state *)
Fixpoint while_last {A} (pred : A -> nat -> char -> bool * A) (st : A) (off : nat) (s : str) (last : option (nat * char)) : option (nat * char) :=
  match s with
  | [] => last
  | c :: t => match pred st off c with
              | (true, st') => while_last pred st' (off + utf8_len c) t (Some (off, c))
              | (false, _) => last
              end
  end.
Definition consume_while {A} (pred : A -> nat -> char -> bool * A) (st : A) (code : str) (i : nat) : option (nat * char) :=
  match while_last pred st 0 (from code i) None with Some (o, c) => Some (i + o, c) | None => None end.
Definition stateless (p : nat -> char -> bool) (_ : unit) (o : nat) (c : char) : bool * unit := (p o c, tt).
(** l.308-321 consume: a keyword of ASCII letters in any case *)
Definition lower1 (c : char) : char := if ((65 <=? c) && (c <=? 90))%N then (c + 32)%N else c.
Fixpoint prefix_ci (p s : str) : bool :=
  match p, s with
  | [], _ => true
  | x :: p', y :: s' => (lower1 x =? lower1 y)%N && prefix_ci p' s'
  | _ :: _, [] => false
  end.
Definition consume (code : str) (i : nat) (w : str) : option nat := if prefix_ci w (from code i) then Some (i + blen w) else None.
(** l.323-333 *)
Definition gap_pred (semis : nat) (_ : nat) (c : char) : bool * nat :=
  let semis := if (c =? chr ";")%N then S semis else if (semis <? 2) || (c =? 10)%N then 0 else semis in
  (is_whitespace c || (c =? chr ";")%N || (2 <=? semis), semis).
Definition skip_gap (code : str) (i : nat) : nat := match consume_while gap_pred 0 code i with Some (j, _) => S j | None => i end.

(** <i64 as FromStr>::from_str; the first character is a minus sign or numeric here *)
Definition all_digits (s : str) : bool := forallb is_digit s && negb (match s with [] => true | _ => false end).
Fixpoint dec_value (acc : Z) (s : str) : Z := match s with [] => acc | c :: r => dec_value (acc * 10 + Z.of_N (c - 48)) r end.
Definition in_i64 (z : Z) : bool := ((-9223372036854775808 <=? z) && (z <=? 9223372036854775807))%Z.
Definition parse_i64 (s : str) : option Z :=
  let (neg, d) := match s with c :: r => if (c =? chr "-")%N then (true, r) else (false, s) | [] => (false, s) end in
  if all_digits d then let z := (if neg then - dec_value 0 d else dec_value 0 d)%Z in if in_i64 z then Some z else None else None.
(** <f64 as FromStr>::from_str on an optional minus sign, digits, a dot and digits *)
Definition parse_float (s : str) : option str := if forallb (fun c => is_digit c || mem_char c (lit "-.")) s then Some s else None.
(** &code[i..j], empty when one of the two is inside a character *)
Definition slice (code : str) (i j : nat) : str :=
  match split_byte code i with Some (_, q) => match split_byte q (j - i) with Some (p, _) => p | None => [] end | None => [] end.
(** code.as_bytes().get(i) == Some(c) for an ASCII [c]: the byte starts the character [c] *)
Definition byte_is (code : str) (i : nat) (c : char) : bool :=
  match split_byte code i with Some (_, d :: _) => (d =? c)%N | _ => false end.

(** ** Parsing one expression *)
(** [NoParse]: not one of these; [Bad]: an error; [Good]: the value and the index behind it *)
Inductive res := NoParse | Bad | Good (v : value) (i : nat) | OutOfFuel.
Definition orelse (a b : res) : res := match a with NoParse => b | _ => a end.
(** l.174-212 *)
Definition keyword (code : str) (i : nat) (w : str) (v : value) : res :=
  match consume code i w with Some j => if next_is_break code j then Good v j else NoParse | None => NoParse end.
(** l.214-265 *)
Definition number (code : str) (i : nat) : res :=
  match consume_while (stateless (fun o c => ((o =? 0) && (c =? chr "-")%N) || is_numeric c)) tt code i with
  | None => NoParse
  | Some (l, c) =>
      if is_numeric c then
        let front := S l in
        let int := if next_is_break code front then match parse_i64 (slice code i front) with Some z => Good (VInt z) front | None => NoParse end else NoParse in
        match consume_while (stateless (fun o c => ((o =? 0) && (c =? chr ".")%N) || is_numeric c)) tt code front with
        | Some (b, _) =>
            let back := S b in
            if front + 2 <=? back then
              if next_is_break code back then match parse_float (slice code i back) with Some t => Good (VFloat t) back | None => int end else int
            else if byte_is code (back - 1) (chr ".") then Bad else int
        | None => int
        end
      else NoParse
  end.
(** l.267-288 *)
Definition quote_char : char := 34%N.
Definition string_atom (code : str) (i : nat) : res :=
  match consume_while (stateless (fun o c => ((o =? 0) && (c =? quote_char)%N) || ((0 <? o) && negb (c =? quote_char)%N))) tt code i with
  | None => NoParse
  | Some (l, _) => if i <? l then if byte_is code (l + 1) quote_char then Good (VString (slice code (i + 1) (l + 1))) (l + 2) else Bad else NoParse
  end.
(** l.290-306 *)
Definition symbol (code : str) (i : nat) : res :=
  match consume_while (stateless (fun o c => ((o =? 0) && is_symbol_start c) || ((0 <? o) && is_symbolic c))) tt code i with
  | None => NoParse
  | Some (l, _) => Good (VSymbol (slice code i (S l))) (S l)
  end.
(** l.84-172; the recursion of parse_expression, parse_list, parse_quoted and parse_comma *)
Definition wrap (w : str) (r : res) : res := match r with Good v j => Good (VList [VSymbol w; v]) j | _ => r end.
Fixpoint expr (fuel : nat) (code : str) (i : nat) : res :=
  match fuel with
  | 0 => OutOfFuel
  | S f =>
      match consume code i (lit "(") with
      | Some j => members f code (skip_gap code j) []
      | None =>
          orelse (match consume code i (lit "'") with Some j => wrap (lit "quote") (expr f code j) | None => NoParse end)
         (orelse (match consume code i (lit ",") with Some j => wrap (lit "comma") (expr f code j) | None => NoParse end)
         (orelse (keyword code i (lit "nil") (VList []))
         (orelse (keyword code i (lit "f") VFalse)
         (orelse (keyword code i (lit "t") VTrue)
         (orelse (number code i)
         (orelse (string_atom code i) (symbol code i)))))))
      end
  end
(** l.104-112 *)
with members (fuel : nat) (code : str) (i : nat) (acc : list value) : res :=
  match fuel with
  | 0 => OutOfFuel
  | S f =>
      match expr f code i with
      | Good v j => members f code (skip_gap code j) (v :: acc)
      | NoParse => match consume code i (lit ")") with Some j => Good (VList (rev acc)) j | None => Bad end
      | r => r
      end
  end.
(** l.11-35: the first item of the iterator; [mod.rs] l.166-183 takes no other.  [None]: there
    is no expression *)
Definition enough (code : str) : nat := 2 * blen code + 3.
Definition first (code : str) : option res :=
  let i := skip_gap code 0 in
  match expr (enough code) code i with
  | NoParse => if i <? blen code then Some Bad else None
  | r => Some r
  end.
(** dsh/src/lisp/mod.rs l.95-119 run_config_lisp: the text that is read; [cfg] is trimmed *)
Definition wrapped (cfg : str) : str := lit "(begin " ++ cfg ++ 10%N :: lit ")".
End Numeric.

(** ** Printing: Display of Value and List *)
Fixpoint digits (fuel : nat) (n : N) : str :=
  match fuel with
  | 0 => []
  | S f => if (n <? 10)%N then [(48 + n)%N] else digits f (n / 10)%N ++ [(48 + n mod 10)%N]
  end.
Definition show_nat (n : N) : str := digits (S (N.size_nat n)) n.
Definition show_int (z : Z) : str := if (z <? 0)%Z then chr "-" :: show_nat (Z.abs_N z) else show_nat (Z.abs_N z).
Fixpoint print (v : value) : str :=
  match v with
  | VTrue => lit "T"
  | VFalse => lit "F"
  | VInt z => show_int z
  | VFloat t => t
  | VString s => s
  | VSymbol s => s
  | VList [] => lit "NIL"
  | VList (x :: l) => chr "(" :: print x ++ flat_map (fun y => chr " " :: print y) l ++ [chr ")"]
  end.
