(** What a typed line stands for once its aliases, tildes and variables are replaced: the
    same commands, in the same order, with the same redirections and operators, each word
    replaced by its value and each alias by the command it names. *)
From Verif Require Import Base Env_Model Parse_Model Parse_Spec.

Section Expand.
Variable home : option str.
Variable alias : map_.
(** the value of a name such as $HOME *)
Variable var : str -> option str.

(** a word that means exactly [v] *)
Definition literal (v : str) : word := Bare (map (fun c => (true, c)) v).
(** a word typed without any quoting *)
Definition plain_word (f : str) : word := Bare (map (fun c => (false, c)) f).

(** what follows an unescaped tilde at the start of a word, alone or before a slash *)
Definition tilde_word (l : list (bool * char)) : option (list (bool * char)) :=
  match l with
  | (false, c) :: r =>
      if (c =? 126)%N then match r with [] => Some r | (b, d) :: _ => if negb b && (d =? 47)%N then Some r else None end else None
  | _ => None
  end.
(** the argument a word stands for *)
Definition value (w : word) : str :=
  match w with
  | Bare l => match tilde_word l, home with Some r, Some h => h ++ map snd r | _, _ => map snd l end
  | Single t | Double t => t
  | Var n => match var (36%N :: n) with Some v => v | None => 36%N :: n end
  end.
Definition item_value (i : item) : item :=
  match i with
  | Arg g w => Arg g (literal (value w))
  | Redir g d h f => Redir g d h (value (plain_word f))
  end.
(** the alias a command name stands for, if it is typed without any quoting *)
Definition alias_of (w : word) : option str :=
  match w with
  | Bare l => if forallb (fun bc : bool * char => negb (fst bc)) l then assoc (value w) alias else None
  | _ => None
  end.
(** the text of an alias is a command; its own words are not expanded again *)
Inductive cmd_value (c : cmdline) : cmdline -> Prop :=
| plain_value : alias_of (name c) = None ->
    cmd_value c (CmdLine (lead c) (literal (value (name c))) (map item_value (items c)) (trail c))
| alias_value a w its : alias_of (name c) = Some a -> trim a = typed_word w ++ flat_map typed_item its ->
    valid_word w -> Forall valid_item its ->
    cmd_value c (CmdLine (lead c) w (its ++ map item_value (items c)) (trail c)).
Definition seg_value (g g' : segment) : Prop := Forall2 cmd_value (bgs g) (bgs g') /\ Forall2 cmd_value (pipe g) (pipe g').
Definition line_value (l l' : line) : Prop :=
  seg_value (fst l) (fst l') /\
  Forall2 (fun sg sg' : separator * segment => fst sg = fst sg' /\ seg_value (snd sg) (snd sg')) (snd l) (snd l').

(** ** when this is what runs *)
(** values that survive being read again: nothing; ordinary characters; or, with blanks
    inside, no quote, backslash, backquote or dollar sign *)
Definition tame (v : str) : Prop :=
  v = [] \/
  (forallb ordinary v = true /\ trim v = v) \/
  ((exists c, In c v /\ In c [10; 32; 9]%N) /\ forall c, In c v -> ~ In c [34; 92; 96; 36]%N).
(** the text of a word after its tilde is replaced *)
Definition tilde_text (w : word) : str :=
  match w with
  | Bare l => match tilde_word l, home with Some r, Some h => h ++ typed_word (Bare r) | _, _ => typed_word w end
  | _ => typed_word w
  end.
Definition tame_word (w : word) : Prop :=
  match w with
  | Var n => match var (36%N :: n) with Some v => tame v | None => True end
  | Bare l => var (tilde_text w) = None (* not the name of a variable *) /\
              match tilde_word l, home with Some _, Some h => h <> [] /\ forallb ordinary h = true | _, _ => True end
  | _ => var (typed_word w) = None
  end.
(** no alias has a quoted name, a command name has no blanks at its ends, and no
    variable is named like the text of an alias *)
Definition tame_name (w : word) : Prop :=
  match alias_of w with
  | Some a => var (trim a) = None
  | None => tame_word w /\ assoc (tilde_text w) alias = None /\ trim (tilde_text w) = tilde_text w
  end.
Definition tame_item (i : item) : Prop :=
  match i with Arg _ w => tame_word w | Redir _ _ _ f => tame_word (plain_word f) end.
Definition tame_cmd (c : cmdline) : Prop := tame_name (name c) /\ Forall tame_item (items c).
(** no variable is named like an operator *)
Definition operators : list str := map lit [">"; ">>"; "2>"; "2>>"; "&>"; "&>>"; "<"]%string.
(** only the last segment may be without a pipeline, and background commands have no redirection *)
Fixpoint regular (g : segment) (r : list (separator * segment)) : Prop :=
  Forall (fun c => redirections c = []) (bgs g) /\
  match r with [] => True | (_, g') :: r' => pipe g <> [] /\ regular g' r' end.
Definition tame_line (l : line) : Prop :=
  Forall tame_cmd (all_commands l) /\ regular (fst l) (snd l) /\ forall o, In o operators -> var o = None.
End Expand.

(** ** words with brace groups *)
(** characters, characters after a backslash, and groups of alternatives *)
Inductive bword := BEnd | BChr (c : char) (w : bword) | BEsc (c : char) (w : bword) | BGroup (a : balts) (w : bword)
with balts := BOne (w : bword) | BMore (w : bword) (a : balts).
Fixpoint btext (w : bword) : str :=
  match w with
  | BEnd => []
  | BChr c w => c :: btext w
  | BEsc c w => 92%N :: c :: btext w
  | BGroup a w => lit "{" ++ atext a ++ lit "}" ++ btext w
  end
with atext (a : balts) : str :=
  match a with BOne w => btext w | BMore w a => btext w ++ lit "," ++ atext a end.
(** one word for each choice of one alternative from each group, the leftmost choice
    varying slowest *)
Fixpoint choices (w : bword) : list str :=
  match w with
  | BEnd => [[]]
  | BChr c w => map (cons c) (choices w)
  | BEsc c w => map (fun x => 92%N :: c :: x) (choices w)
  | BGroup a w => flat_map (fun x => map (app x) (choices w)) (achoices a)
  end
with achoices (a : balts) : list str :=
  match a with BOne w => choices w | BMore w a => choices w ++ achoices a end.
(** inside a group the characters with a meaning are escaped; outside, a comma or a
    closing brace is an ordinary character *)
Fixpoint alt_ok (w : bword) : Prop :=
  match w with
  | BEnd => True
  | BChr c w => ~ In c (lit "{},\") /\ alt_ok w
  | BEsc c w => c <> 92%N /\ alt_ok w
  | BGroup a w => alts_ok a /\ alt_ok w
  end
with alts_ok (a : balts) : Prop :=
  match a with BOne w => alt_ok w | BMore w a => alt_ok w /\ alts_ok a end.
Fixpoint word_ok (w : bword) : Prop :=
  match w with
  | BEnd => True
  | BChr c w => ~ In c (lit "{\") /\ word_ok w
  | BEsc c w => c <> 92%N /\ word_ok w
  | BGroup a w => alts_ok a /\ word_ok w
  end.

(** ** the strings looked up among the aliases *)
From Verif Require Import Peg_Model Grammar_Model Expand_Model.
Inductive within (n : pair_) : pair_ -> Prop :=
| within_here : within n n
| within_below r p t inner q : In q inner -> within n q -> within n (Node r p t inner).
(** the name of a command of the line, as typed without its quotes, or as it is once
    tildes and patterns are replaced *)
Definition name_in (home : option str) (glob : str -> list str) (alias : map_) (tree : pair_) (k : str) : Prop :=
  exists n q, within n tree /\ rule_of n = argv0 /\ In q (inner_of n) /\
    (k = get_string q \/ hd_error (expand_tree home glob alias q) = Some k).
