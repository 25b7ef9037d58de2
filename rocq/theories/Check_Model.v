(** Is the typed text complete?  dsh/src/parser/check.rs, and what Enter does with it:
    dsh/src/repl/key_handlers/execution.rs. *)
From Verif Require Import Base.

(** check.rs l.9-11: the variables of the loop *)
Record st := St { quote_char : option char; in_backslash : bool; braces : list char (* innermost first *) }.
(** check.rs l.32-52: a closing bracket removes the innermost open one if that is its partner *)
Definition close (b : char) (l : list char) : list char := match l with x :: l' => if (x =? b)%N then l' else l | [] => l end.
(** check.rs l.13-56: one character *)
Definition step (s : st) (c : char) : st :=
  if in_backslash s then St (quote_char s) false (braces s)
  else match quote_char s with
       | Some q =>
           if (c =? 92)%N && (q =? 34)%N then St (Some q) true (braces s)
           else if (c =? q)%N then St None false (braces s)
           else s
       | None =>
           if (c =? 92)%N then St None true (braces s)
           else if (c =? 39)%N || (c =? 34)%N then St (Some c) false (braces s)
           else if (c =? 40)%N || (c =? 91)%N || (c =? 123)%N then St None false (c :: braces s)
           else if (c =? 41)%N then St None false (close 40%N (braces s))
           else if (c =? 93)%N then St None false (close 91%N (braces s))
           else if (c =? 125)%N then St None false (close 123%N (braces s))
           else s
       end.
Definition scan (input : str) : st := fold_left step input (St None false []).
(** check.rs l.7-99 *)
Definition is_incomplete_input (input : str) : bool :=
  let s := scan input in
  (match quote_char s with Some _ => true | None => false end)
  || (match braces s with [] => false | _ => true end)
  || in_backslash s
  || (let t := trim_end input in ends_with (lit "|") t || ends_with (lit "&&") t || ends_with (lit "||") t).

(** ** execution.rs l.21-47: the multi-line buffer *)
(** [Wait b]: the buffer is now [b] and the next line is read; [Run t]: the text [t] is run
    and the buffer is empty.  The lines 49-63 after it (the AI pipe and abbreviations) are
    not part of this model. *)
Inductive outcome := Wait (buffer : str) | Run (text : str).
Definition enter (buffer input : str) : outcome :=
  let combined := match buffer with [] => input | _ => buffer ++ input end in
  if is_incomplete_input combined then Wait (buffer ++ input ++ [10%N]) else Run combined.
(** the lines typed one after another, from the given buffer: the texts run, in order, and
    the buffer left *)
Fixpoint session (buffer : str) (lines : list str) : list str * str :=
  match lines with
  | [] => ([], buffer)
  | l :: r => match enter buffer l with
              | Wait b => session b r
              | Run t => let (ts, b) := session [] r in (t :: ts, b)
              end
  end.
