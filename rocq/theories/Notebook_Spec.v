(** What a Markdown file holds. *)
From Verif Require Import Base Notebook_Model.

(** a file as text, a code block, text, a code block ..., and the rest *)
Definition piece := (str * str * str)%type.   (* the text before, the language, the block *)
Definition text_of (ps : list piece) (rest : str) : str := flat_map (fun p => fst (fst p) ++ snd p) ps ++ rest.
(** the parser's events describe such a file; [at_] bytes have been described *)
Inductive describes : nat -> list event -> list piece -> Prop :=
| D_done at_ : describes at_ [] []
| D_other at_ es ps : describes at_ es ps -> describes at_ (Other :: es) ps
| D_code at_ t lang c inner es ps :
    Forall (eq Other) inner ->
    describes (at_ + blen t + blen c) es ps ->
    describes at_ (Start lang (at_ + blen t) :: inner ++ End_ (at_ + blen t + blen c) :: es) ((t, lang, c) :: ps).

(** the block of a piece: its text, and output exactly for the language "text" *)
Inductive holds : piece -> block -> Prop :=
| H_output t c : holds (t, lit "text", c) (Block c Output)
| H_code t lang c : lang <> lit "text" -> holds (t, lang, c) (Block c (Code lang)).

(** ** Fenced code blocks (CommonMark 4.5), for files without lists, quotes and other code *)
Fixpoint after_spaces (n : nat) (l : str) : option str :=
  match l with
  | 32%N :: r => match n with S n => after_spaces n r | 0 => None end
  | _ => Some l
  end.
Fixpoint backticks (l : str) : nat := match l with 96%N :: r => S (backticks r) | _ => 0 end.
(** the line opens a block: number of backticks and language *)
Definition opens (l : str) : option (nat * str) :=
  match after_spaces 3 l with
  | Some r => let n := backticks r in
              if (3 <=? n) && negb (existsb (N.eqb 96) (skipn n r)) then Some (n, trim (skipn n r)) else None
  | None => None
  end.
(** the line closes a block of [n] backticks *)
Definition closes (n : nat) (l : str) : bool :=
  match after_spaces 3 l with
  | Some r => (n <=? backticks r) && match trim (skipn (backticks r) r) with [] => true | _ => false end
  | None => false
  end.
Fixpoint fenced (inside : option (nat * str * list str)) (ls : list str) : list (str * list str) :=
  match ls with
  | [] => match inside with Some (_, lang, body) => [(lang, rev body)] | None => [] end
  | l :: r =>
      match inside with
      | None => match opens l with Some (n, lang) => fenced (Some (n, lang, [])) r | None => fenced None r end
      | Some (n, lang, body) => if closes n l then (lang, rev body) :: fenced None r else fenced (Some (n, lang, l :: body)) r
      end
  end.
Definition code_blocks (text : str) : list (str * list str) := fenced None (split_on 10%N text).
(** no line of the text closes a block opened by three backticks *)
Definition no_fence (s : str) : Prop := forall l, In l (split_on 10%N s) -> closes 3 l = false.
