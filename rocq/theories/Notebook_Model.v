(** Notebooks: dsh-types/src/notebook.rs, and dsh/src/shell/mod.rs l.131-149 (recording).

    The Markdown parser (pulldown-cmark) is an oracle: the list of its events, with byte
    offsets.  The file is its text; appending and writing do not fail. *)
From Verif Require Import Base Direnv_Model.

(** l.7-18 *)
Inductive kind := Code (lang : str) | Markdown | Output.
Record block := Block { content : str; what : kind }.
(** l.71: the events of the parser with their ranges, as far as they are looked at; an
    indented block has the language "" *)
Inductive event := Start (lang : str) (start : nat) | End_ (end_ : nat) | Other.
(** &text[a..b]; [None] is a panic *)
Definition slice (text : str) (a b : nat) : option str :=
  match split_byte text a with
  | Some (_, r) => if b <? a then None else option_map fst (split_byte r (b - a))
  | None => None
  end.
(** l.96-122 *)
Definition kind_of (lang : str) : kind := if str_eqb lang (lit "text") then Output else Code lang.
(** l.62-139 load_from_file: [last] is last_offset, [code] is the language while inside a
    code block *)
Fixpoint load_from (text : str) (last : nat) (code : option str) (es : list event) : option (list block) :=
  match es with
  | [] =>
      if last <? blen text
      then match slice text last (blen text) with Some t => Some [Block t Markdown] | None => None end
      else Some []
  | Start lang start :: r =>
      match (if last <? start
             then match slice text last start with Some t => Some [Block t Markdown] | None => None end
             else Some []) with
      | Some before => match load_from text start (Some lang) r with Some bs => Some (before ++ bs) | None => None end
      | None => None
      end
  | End_ e :: r =>
      match code with
      | Some lang =>
          match slice text last e with
          | Some t => match load_from text e None r with Some bs => Some (Block t (kind_of lang) :: bs) | None => None end
          | None => None
          end
      | None => load_from text last code r
      end
  | Other :: r => load_from text last code r
  end.
Definition load (text : str) (es : list event) : option (list block) := load_from text 0 None es.
(** l.180-187 save_to_file *)
Definition save (bs : list block) : str := flat_map content bs.

(** l.142-157 append_code: what is added to the file and to the blocks *)
Definition nl : str := [10%N].
Definition recorded (code : str) : str := nl ++ lit "```bash" ++ nl ++ trim code ++ nl ++ lit "```" ++ nl.
Definition append_code (code : str) (text : str) : str := text ++ recorded code.
(** shell/mod.rs l.138-146 *)
Definition record (input text : str) : str := match trim input with [] => text | _ => append_code input text end.

(** l.21-37 raw_content *)
Definition raw_content (b : block) : str :=
  match what b with
  | Markdown => content b
  | _ =>
      let ls := lines (trim (content b)) in
      if (2 <=? length ls) && starts_with (lit "```") (hd [] ls) && starts_with (lit "```") (last ls [])
      then join_with nl (removelast (tl ls))
      else content b
  end.
