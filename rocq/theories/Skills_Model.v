(** The skills offered to the assistant: dsh-builtin/src/chatgpt/skills.rs.

    The folder of skills is the list of its entries in the order in which it is read.  A text is [None] when it
    cannot be read as UTF-8.  Times are in milliseconds.  Entries that cannot be read at all are left out. *)
From Verif Require Import Base Frecency_Model.
From Verif Require Import Direnv_Model.

(** ** The summary *)
Definition nl : char := 10%N.
Definition dashes : str := lit "---".
(** str::split_inclusive('\n') *)
Fixpoint inclusive_aux (cur s : str) : list str :=
  match s with
  | [] => match cur with [] => [] | _ => [rev cur] end
  | c :: r => if (c =? nl)%N then rev (c :: cur) :: inclusive_aux [] r else inclusive_aux (c :: cur) r
  end.
Definition inclusive (s : str) : list str := inclusive_aux [] s.
(** l.92-116 split_frontmatter *)
Fixpoint until_dashes (acc ls : list str) : option (str * str) :=
  match ls with
  | [] => None
  | l :: r => if str_eqb (trim l) dashes then Some (concat (rev acc), concat r) else until_dashes (l :: acc) r
  end.
Definition split_frontmatter (content : str) : option str * str :=
  match inclusive content with
  | [] => (None, content)
  | first :: rest =>
      if str_eqb (trim first) dashes then
        match until_dashes [] rest with Some (f, b) => (Some f, b) | None => (None, content) end
      else (None, content)
  end.
(** l.142-153 strip_matching_quotes *)
Definition strip_quotes (v : str) : str :=
  match v with
  | c :: r => match rev r with
              | d :: m => if ((c =? 34) && (d =? 34) || (c =? 39) && (d =? 39))%N then rev m else v
              | [] => v
              end
  | [] => v
  end.
(** l.118-140 frontmatter_field *)
Definition comment (t : str) : bool := match t with [] => true | c :: _ => (c =? 35)%N end.
Fixpoint field (key : str) (ls : list str) : option str :=
  match ls with
  | [] => None
  | l :: r =>
      let t := trim l in
      if comment t then field key r
      else match splitn2 58%N t with
           | (_, None) => field key r
           | (f, Some v) =>
               if str_eqb (trim f) key then match trim v with [] => None | x => Some (strip_quotes x) end
               else field key r
           end
  end.
(** l.155-157 collapse_whitespace *)
Definition collapse (s : str) : str := join_with (lit " ") (split_whitespace s).
(** l.161-173 truncate_chars *)
Definition most : nat := 140.
Definition truncate (s : str) : str := if length s <=? most then s else firstn most s ++ lit "...".
(** l.77-90 extract_skill_summary *)
Definition first_line (ls : list str) : str :=
  match find (fun l => negb (comment l)) (map trim ls) with Some l => l | None => lit "No description available." end.
Definition summary (content : str) : str :=
  let (fm, body) := split_frontmatter content in
  match match fm with Some f => field (lit "description") (lines f) | None => None end with
  | Some d => truncate (collapse d)
  | None => truncate (collapse (first_line (lines body)))
  end.

(** ** The folder *)
Inductive body :=
| Folder (skill_md : option (N * option str))   (* its SKILL.md: when it was changed, and its text *)
| File (changed : N) (text : option str).
Record entry := Entry { e_name : str; e_body : body }.
(** l.14-48, l.202-216: the name and the summary; Path::extension and Path::file_stem *)
Definition skill_of (e : entry) : option (str * str) :=
  match e_body e with
  | Folder (Some (_, Some t)) => Some (e_name e, summary t)
  | Folder _ => None
  | File _ (Some t) => if ends_with (lit ".md") (e_name e) && (4 <=? length (e_name e))
                       then Some (firstn (length (e_name e) - 3) (e_name e), summary t) else None
  | File _ None => None
  end.
Fixpoint skills (es : list entry) : list (str * str) :=
  match es with [] => [] | e :: r => match skill_of e with Some s => s :: skills r | None => skills r end end.
(** l.221 *)
Definition by_name (a b : str * str) : bool := match str_cmp (fst a) (fst b) with Gt => false | _ => true end.
Definition load (es : list entry) : list (str * str) := sort by_name (skills es).
(** l.236-256 *)
Definition row (s : str * str) : str := lit "- `" ++ fst s ++ lit "`: " ++ snd s ++ [nl].
Definition head_text : str := [nl; nl] ++ lit "## Agent Skills" ++ [nl] ++ lit "Available runtime skills from `~/.config/dsh/skills/`:" ++ [nl].
Definition foot_text : str :=
  [nl] ++ lit "Read a skill only when needed with `read_file(path=" ++ [34%N] ++ lit "~/.config/dsh/skills/<skill>/SKILL.md" ++ [34%N] ++ lit ")`." ++ [nl]
  ++ lit "Use files in that skill directory only after you know the skill is relevant." ++ [nl].
Definition fragment (es : list entry) : str :=
  match load es with [] => [] | l => head_text ++ concat (map row l) ++ foot_text end.

(** ** The copy kept in memory: l.225-235, l.258-266, l.269-312.  [None]: there is no folder *)
Definition changed_at (e : entry) : N := match e_body e with Folder (Some (t, _)) => t | Folder None => 0%N | File t _ => t end.
Definition newest (es : list entry) : N := fold_left (fun m e => N.max m (changed_at e)) es 0%N.
Definition signature := option (nat * N).
Definition signature_of (d : option (list entry)) : signature :=
  match d with None => None | Some es => Some (length es, newest es) end.
Definition same_signature (a b : signature) : bool :=
  match a, b with
  | None, None => true
  | Some (n, t), Some (m, u) => (n =? m) && (t =? u)%N
  | _, _ => false
  end.
Definition text_of (d : option (list entry)) : str := match d with None => [] | Some es => fragment es end.
Definition cache := option (signature * str).
Definition ask (d : option (list entry)) (c : cache) : str * cache :=
  match c with
  | Some (s, f) => if same_signature s (signature_of d) then (f, c) else (text_of d, Some (signature_of d, text_of d))
  | None => (text_of d, Some (signature_of d, text_of d))
  end.
