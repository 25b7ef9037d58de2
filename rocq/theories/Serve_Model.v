(** The file server of the [serve] builtin: dsh-builtin/src/serve/{handlers,scanner}.rs.
    Not modelled: MIME types, caching and CORS headers, the sort order of listings. *)
From Verif Require Import Base Fs_Model.

Inductive response :=
| Content (file : path) (body : str)      (** 200 with the bytes of [file] *)
| Listing (dir : path)                    (** 200 with an HTML page for [dir] *)
| Status (code : nat).

Definition canonical (p : path) : upath := UPath true p false.
Definition index_html : upath := UPath false [lit "index.html"] false.

(** handlers.rs l.560-588 serve_file *)
Definition serve_file (f : fs) (p : upath) : response :=
  match read_file f p with Some (q, c) => Content q c | None => Status 500 end.

Definition strip_slash (s : str) : str := match s with c :: r => if (c =? slash)%N then r else s | [] => [] end.

(** handlers.rs l.495-557 serve_file_handler; [uri_path] is uri.path(), which is not
    percent-decoded *)
Definition serve_file_handler (f : fs) (serve_dir : upath) (serve_index : bool) (uri_path : str) : response :=
  let file_path := join serve_dir (parse_path (strip_slash uri_path)) in
  match canonicalize f file_path with
  | None => Status 404
  | Some cp =>
      match canonicalize f serve_dir with
      | None => Status 500
      | Some root =>
          if negb (path_starts_with root cp) then Status 403
          else if is_file f (canonical cp) then serve_file f (canonical cp)
          else if is_dir f (canonical cp) then
            let index_path := join (canonical cp) index_html in
            if serve_index && (exists_path f index_path && is_file f index_path) then serve_file f index_path
            else Listing cp
          else Status 404
      end
  end.

(** handlers.rs l.479-492 serve_root_handler, for the request "/" *)
Definition serve_root_handler (f : fs) (serve_dir : upath) (serve_index : bool) : response :=
  let index_path := join serve_dir index_html in
  if serve_index && (exists_path f index_path && is_file f index_path) then serve_file f index_path
  else match canonicalize f serve_dir with Some d => if is_dir_at f d then Listing d else Status 500 | None => Status 500 end.

(** handlers.rs l.430-449 is_safe_path, l.452-465 resolve_file_path: trim_start_matches
    drops every leading slash *)
Fixpoint trim_slashes (s : str) : str :=
  match s with c :: r => if (c =? slash)%N then trim_slashes r else s | [] => [] end.
Fixpoint contains (w s : str) : bool :=
  starts_with w s || match s with [] => false | _ :: r => contains w r end.
Definition is_safe_path (f : fs) (base : upath) (requested : str) : bool :=
  let clean := trim_slashes requested in
  if contains dotdot clean || contains [slash; slash] clean then false
  else match canonicalize f base with
       | None => false
       | Some root =>
           match canonicalize f (join base (parse_path clean)) with
           | Some cp => path_starts_with root cp
           | None => false
           end
       end.
Definition resolve_file_path (f : fs) (base : upath) (url : str) : option upath :=
  if negb (is_safe_path f base url) then None
  else let p := join base (parse_path (trim_slashes url)) in
       if exists_path f p then Some p else None.

(** ** HTML *)
Definition quot : char := 34%N.
Definition apos : char := 39%N.
(** str::replace of one character *)
Definition replace (c : char) (by_ : str) (s : str) : str := flat_map (fun x => if (x =? c)%N then by_ else [x]) s.
(** scanner.rs l.522-529 html_escape *)
Definition html_escape (s : str) : str :=
  replace apos (lit "&#x27;")
    (replace quot (lit "&quot;")
      (replace 62%N (lit "&gt;")
        (replace 60%N (lit "&lt;")
          (replace 38%N (lit "&amp;") s)))).

(** handlers.rs l.644-653: an item of the page made by serve_directory *)
Definition folder_icon : char := 128193%N.
Definition page_icon : char := 128196%N.
Definition li_item (is_directory : bool) (name : str) : str :=
  if is_directory
  then lit "<li><a href=" ++ [quot] ++ name ++ [quot] ++ lit " class=" ++ [quot] ++ lit "dir" ++ [quot] ++ lit ">" ++ [folder_icon] ++ lit " " ++ name ++ lit "/</a></li>"
  else lit "<li><a href=" ++ [quot] ++ name ++ [quot] ++ lit " class=" ++ [quot] ++ lit "file" ++ [quot] ++ lit ">" ++ [page_icon] ++ lit " " ++ name ++ lit "</a></li>".
(** the link of that item *)
Definition li_href (name : str) : str := name.

Definition ends_with_slash (s : str) : bool := match rev s with c :: _ => (c =? slash)%N | [] => false end.
(** scanner.rs l.324-339 build_entry_url *)
Definition entry_base (request_path : str) : str :=
  if ends_with_slash request_path then request_path else request_path ++ [slash].
Definition build_entry_url (request_path name : str) (is_directory : bool) : str :=
  let url := entry_base request_path ++ name in
  if is_directory && negb (ends_with_slash url) then url ++ [slash] else url.
(** scanner.rs l.267-294: the cell of generate_entries_html that carries the name *)
Definition name_cell (request_path name : str) (is_directory : bool) : str :=
  lit "<a href=" ++ [quot] ++ html_escape (build_entry_url request_path name is_directory) ++ [quot]
    ++ lit " class=" ++ [quot] ++ lit "entry-link" ++ [quot] ++ lit ">" ++ html_escape name ++ lit "</a>".

(** str::rfind + slicing: the text up to and including the last slash *)
Definition up_to_slash (s : str) : option str :=
  (fix go (r : str) := match r with [] => None | c :: r' => if (c =? slash)%N then Some (rev r) else go r' end) (rev s).
Fixpoint trim_end_slashes_rev (r : str) : str := match r with c :: r' => if (c =? slash)%N then trim_end_slashes_rev r' else r | [] => [] end.
(** scanner.rs l.297-315: the target of generate_parent_link *)
Definition parent_href (request_path : str) : option str :=
  if str_eqb request_path [slash] then None
  else Some (match up_to_slash (if ends_with_slash request_path then rev (trim_end_slashes_rev (rev request_path)) else request_path) with
             | Some p => p
             | None => [slash]
             end).
