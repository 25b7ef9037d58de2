(** What the user of the file server relies on. *)
From Verif Require Import Base Fs_Model Serve_Model.

(** [p] lies in or below the directory [root] *)
Definition below (root p : path) : Prop := exists rest, p = root ++ rest.

(** text that an HTML parser reads as text, also inside a quoted attribute *)
Definition markup (c : char) : bool := (c =? 60)%N || (c =? 62)%N || (c =? 34)%N || (c =? 39)%N.
Definition inert (s : str) : Prop := forall c, In c s -> markup c = false.
Definition count (c : char) (s : str) : nat := length (filter (fun x => (x =? c)%N) s).

(** the reading of character references by a browser, restricted to the five references
    used; any other ampersand is ordinary text *)
Fixpoint read_html (s : str) : str :=
  match s with
  | 38%N :: 97%N :: 109%N :: 112%N :: 59%N :: r => 38%N :: read_html r
  | 38%N :: 108%N :: 116%N :: 59%N :: r => 60%N :: read_html r
  | 38%N :: 103%N :: 116%N :: 59%N :: r => 62%N :: read_html r
  | 38%N :: 113%N :: 117%N :: 111%N :: 116%N :: 59%N :: r => 34%N :: read_html r
  | 38%N :: 35%N :: 120%N :: 50%N :: 55%N :: 59%N :: r => 39%N :: read_html r
  | c :: r => c :: read_html r
  | [] => []
  end.

(** following a link (RFC 3986, references without scheme or authority): the request path
    a browser on page [base] sends for [href] *)
Definition resolve_ref (base href : str) : str :=
  match href with
  | c :: _ => if (c =? slash)%N then href else (match up_to_slash base with Some d => d | None => [slash] end) ++ href
  | [] => base
  end.
Fixpoint url_path (s : str) : str :=
  match s with
  | [] => []
  | c :: r => if (c =? 63)%N || (c =? 35)%N then []            (** "?" and "#" end the path *)
              else if (c =? 32)%N then lit "%20" ++ url_path r
              else c :: url_path r
  end.
Definition follow (base href : str) : str := url_path (resolve_ref base href).

(** the components the server looks up below its directory *)
Definition looked_up (request : str) : list str := comps (parse_path (strip_slash request)).
