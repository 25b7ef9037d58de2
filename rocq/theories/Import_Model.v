(** Importing the history of fish: dsh/src/history_import.rs l.44-125.

    The text is what from_utf8_lossy makes of the file's bytes; reading an integer is an
    oracle, and so is the present time. *)
From Verif Require Import Base.

Section Import.
Variable parse : str -> option Z.
Variable now : Z.

(** str::strip_prefix, of a text that has the prefix *)
Definition strip (p s : str) : str := skipn (length p) s.
(** reader.read_until: the text split after each newline; the last piece may have none *)
Fixpoint pieces (cur s : str) : list str :=
  match s with
  | [] => match cur with [] => [] | _ => [rev cur] end
  | c :: r => if (c =? 10)%N then rev (c :: cur) :: pieces [] r else pieces (c :: cur) r
  end.
(** l.70-108: the loop; [block] is in_cmd_block, [cur] is current_cmd *)
Fixpoint scan (block : bool) (cur : str) (ls : list str) : list (str * Z) :=
  match ls with
  | [] => if block && negb (str_eqb cur []) then [(cur, now)] else []   (* l.110-113 *)
  | line :: r =>
      let trimmed := trim line in
      if starts_with (lit "- cmd:") trimmed then
        (if block && negb (str_eqb cur []) then [(cur, now)] else []) ++
        scan true (trim (strip (lit "- cmd:") trimmed)) r
      else if starts_with (lit "when:") trimmed && block then
        let t := match parse (trim (strip (lit "when:") trimmed)) with Some z => z | None => now end in
        match cur with
        | [] => scan false cur r
        | _ => (cur, t) :: scan false [] r
        end
      else scan block cur r
  end.
Definition import_fish (text : str) : list (str * Z) := scan false [] (pieces [] text).
End Import.
