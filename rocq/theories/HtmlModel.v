(** Model of the HTML backend: dr-html-backend/src/asciidoctor_html.rs, with backend/src/html/{backend,htmlbuf,open_tag,table,video,util,list}.rs. It receives the
    calls of EvalModel. What a node's attributes and other details are is a function of the label of the node ([details]). *)
From Verif Require Import Base AttrsModel EvalModel EscapeModel.
Open Scope string_scope.
Open Scope nat_scope.
Open Scope list_scope.

(** ** What is written *)
(** [HtmlBuf::push_str] and the like (htmlbuf.rs:8-60), told apart by what is pushed: literals of the code, numbers, strings of the document as they are (in text
    and in attribute values) and strings of the document with special characters escaped: in text, in
    attribute values with quotes escaped as well, and in attribute values with quotes left as they are. *)
Inductive piece := Lit (s : string) | Num (n : nat) | Raw (s : string) | RawVal (s : string) | Esc (s : string) | EscVal (s : string) | EscHref (s : string).
Definition pieces := list piece.
Definition bytes_of_piece (p : piece) : bytes :=
  match p with
  | Lit s | Raw s | RawVal s => b s
  | Num n => b (dec n)
  | Esc s | EscHref s => push_escaped false (b s)
  | EscVal s => push_escaped true (b s)
  end.
Definition bytes_of (ps : pieces) : bytes := flat_map bytes_of_piece ps.

(** ** Details of nodes *)
Inductive special := SpAbstract | SpAppendix | SpGlossary | SpBibliography | SpOther.
(** ast/src/table.rs: CellContent *)
Inductive cell_style := CsDefault | CsEmphasis | CsHeader | CsMonospace | CsStrong | CsLiteral | CsAsciiDoc.
(** The attributes of the node with a label: named ones with a single text, plain text of named ones, options, positional ones with a single text, whether there is a
    certain positional one, id, roles; then the other details that are used: whether a block has a title, the context of a block, the content of a cell, the position
    of a table of contents, the name and value of an attribute declaration, the attributes of a document when it has been parsed, and texts, optional texts, lists,
    flags and numbers by name. [n_href], [n_missing] and [n_biblio] stand for utils::xref::href (backend/src/utils.rs:1-105), render_missing_xref (backend.rs:332-351)
    and the text of an anchor of a bibliography. *)
Record details := Details
  { n_named : nat -> string -> option string; n_nodes : nat -> string -> option string; n_option : nat -> string -> bool; n_pos : nat -> nat -> option string;
    n_has_pos : nat -> string -> bool; n_id : nat -> option string; n_roles : nat -> list string; n_special : nat -> option special;
    n_title : nat -> bool; n_context : nat -> context; n_cell : nat -> cell_style; n_position : nat -> toc_position; n_decl : nat -> string * attr_value; n_meta : nat -> meta;
    n_text : nat -> string -> string; n_opt : nat -> string -> option string; n_list : nat -> string -> list string; n_flag : nat -> string -> bool; n_num : nat -> string -> nat;
    n_href : nat -> meta -> string; n_missing : string -> meta -> string; n_biblio : string -> option string }.

(** ** State *)
(** asciidoctor_html.rs:1803-1808 *)
Inductive newlines := JoinWithBreak | JoinWithSpace | Preserve.
(** EphemeralState, backend.rs:876-886: the set as one boolean for each member *)
Record flags := Flags { f_term : bool; f_toc : bool; f_horizontal : bool; f_qanda : bool; f_source : bool; f_bibliography : bool; f_glossary : bool; f_appendix : bool }.
(** asciidoctor_html.rs:14-27, backend.rs:15-28. Simplified: [xref_depth] and the counters do not overflow; caption numbers are one counter for each context; of
    the section numbers only the counter of appendices is kept, the numbers themselves are text (SectNumModel has them). *)
Record hst := Hst
  { html : pieces; alt : pieces; dm : meta; default_nl : newlines; nl : newlines; conum : nat; captions : list (string * nat); fl : flags;
    appendix_num : nat; interactive : list bool; desc_depth : nat; in_cell : bool; xref_depth : nat; notes : list (option string * pieces) }.
Definition no_flags : flags := Flags false false false false false false false false.
Definition empty_meta : meta := meta_new Secure [].
(** [Self::default()] *)
Definition fresh : hst := Hst [] [] empty_meta JoinWithSpace JoinWithSpace 0 [] no_flags 0 [] 0 false 0 [].
Definition set_html (h : pieces) (s : hst) : hst := Hst h (alt s) (dm s) (default_nl s) (nl s) (conum s) (captions s) (fl s) (appendix_num s) (interactive s) (desc_depth s) (in_cell s) (xref_depth s) (notes s).
Definition set_bufs (h a : pieces) (s : hst) : hst := Hst h a (dm s) (default_nl s) (nl s) (conum s) (captions s) (fl s) (appendix_num s) (interactive s) (desc_depth s) (in_cell s) (xref_depth s) (notes s).
Definition set_dm (m : meta) (s : hst) : hst := Hst (html s) (alt s) m (default_nl s) (nl s) (conum s) (captions s) (fl s) (appendix_num s) (interactive s) (desc_depth s) (in_cell s) (xref_depth s) (notes s).
Definition set_nls (d n : newlines) (s : hst) : hst := Hst (html s) (alt s) (dm s) d n (conum s) (captions s) (fl s) (appendix_num s) (interactive s) (desc_depth s) (in_cell s) (xref_depth s) (notes s).
Definition set_conum (n : nat) (s : hst) : hst := Hst (html s) (alt s) (dm s) (default_nl s) (nl s) n (captions s) (fl s) (appendix_num s) (interactive s) (desc_depth s) (in_cell s) (xref_depth s) (notes s).
Definition set_captions (c : list (string * nat)) (s : hst) : hst := Hst (html s) (alt s) (dm s) (default_nl s) (nl s) (conum s) c (fl s) (appendix_num s) (interactive s) (desc_depth s) (in_cell s) (xref_depth s) (notes s).
Definition set_fl (f : flags) (s : hst) : hst := Hst (html s) (alt s) (dm s) (default_nl s) (nl s) (conum s) (captions s) f (appendix_num s) (interactive s) (desc_depth s) (in_cell s) (xref_depth s) (notes s).
Definition set_appendix (n : nat) (s : hst) : hst := Hst (html s) (alt s) (dm s) (default_nl s) (nl s) (conum s) (captions s) (fl s) n (interactive s) (desc_depth s) (in_cell s) (xref_depth s) (notes s).
Definition set_interactive (l : list bool) (s : hst) : hst := Hst (html s) (alt s) (dm s) (default_nl s) (nl s) (conum s) (captions s) (fl s) (appendix_num s) l (desc_depth s) (in_cell s) (xref_depth s) (notes s).
Definition set_desc (n : nat) (s : hst) : hst := Hst (html s) (alt s) (dm s) (default_nl s) (nl s) (conum s) (captions s) (fl s) (appendix_num s) (interactive s) n (in_cell s) (xref_depth s) (notes s).
Definition set_cell (c : bool) (s : hst) : hst := Hst (html s) (alt s) (dm s) (default_nl s) (nl s) (conum s) (captions s) (fl s) (appendix_num s) (interactive s) (desc_depth s) c (xref_depth s) (notes s).
Definition set_depth (n : nat) (s : hst) : hst := Hst (html s) (alt s) (dm s) (default_nl s) (nl s) (conum s) (captions s) (fl s) (appendix_num s) (interactive s) (desc_depth s) (in_cell s) n (notes s).
Definition set_notes (l : list (option string * pieces)) (s : hst) : hst := Hst (html s) (alt s) (dm s) (default_nl s) (nl s) (conum s) (captions s) (fl s) (appendix_num s) (interactive s) (desc_depth s) (in_cell s) (xref_depth s) l.
Definition with_term (v : bool) (f : flags) := Flags v (f_toc f) (f_horizontal f) (f_qanda f) (f_source f) (f_bibliography f) (f_glossary f) (f_appendix f).
Definition with_toc (v : bool) (f : flags) := Flags (f_term f) v (f_horizontal f) (f_qanda f) (f_source f) (f_bibliography f) (f_glossary f) (f_appendix f).
Definition with_horizontal (v : bool) (f : flags) := Flags (f_term f) (f_toc f) v (f_qanda f) (f_source f) (f_bibliography f) (f_glossary f) (f_appendix f).
Definition with_qanda (v : bool) (f : flags) := Flags (f_term f) (f_toc f) (f_horizontal f) v (f_source f) (f_bibliography f) (f_glossary f) (f_appendix f).
Definition with_source (v : bool) (f : flags) := Flags (f_term f) (f_toc f) (f_horizontal f) (f_qanda f) v (f_bibliography f) (f_glossary f) (f_appendix f).
Definition with_bibliography (v : bool) (f : flags) := Flags (f_term f) (f_toc f) (f_horizontal f) (f_qanda f) (f_source f) v (f_glossary f) (f_appendix f).
Definition with_glossary (v : bool) (f : flags) := Flags (f_term f) (f_toc f) (f_horizontal f) (f_qanda f) (f_source f) (f_bibliography f) v (f_appendix f).
Definition with_appendix (v : bool) (f : flags) := Flags (f_term f) (f_toc f) (f_horizontal f) (f_qanda f) (f_source f) (f_bibliography f) (f_glossary f) v.

(** ** Commands *)
Definition cmd := hst -> outcome hst.
Definition ok (f : hst -> hst) : cmd := fun s => Ret (f s).
Definition bind (f g : cmd) : cmd := fun s => match f s with Ret s' => g s' | Panic => Panic end.
Fixpoint all (l : list cmd) : cmd := match l with [] => Ret | f :: l => bind f (all l) end.
(** what is done depends on the state *)
Definition look (f : hst -> cmd) : cmd := fun s => f s s.
Definition put (ps : pieces) : cmd := ok (fun s => set_html (html s ++ ps) s).
Definition nothing : cmd := Ret.
Definition change_flags (f : flags -> flags) : cmd := ok (fun s => set_fl (f (fl s)) s).

(** ** Buffers: htmlbuf.rs:105-148 *)
Definition swap_buffers : cmd := ok (fun s => set_bufs (alt s) (html s) s).
Definition discard_alt_buffer : cmd := ok (fun s => set_bufs (html s) [] s).
Definition swap_discard_alt_buffer : cmd := ok (fun s => set_bufs (alt s) [] s).
(** 135-138; the assertion is checked in debug builds *)
Definition start_buffering (debug : bool) : cmd := look (fun s => if debug && negb (match bytes_of (alt s) with [] => true | _ => false end) then fun _ => Panic else swap_buffers).
(** [String::pop], for a character of one byte *)
Definition pop_byte (ps : pieces) : pieces :=
  match rev ps with
  | Lit s :: r => rev r ++ [Lit (substring 0 (String.length s - 1) s)]
  | Raw s :: r => rev r ++ [Raw (substring 0 (String.length s - 1) s)]
  | p :: r => rev (p :: r)
  | [] => []
  end.
Fixpoint last_is_space (x : bytes) : bool := match x with [] => false | [c] => Ascii.eqb c " " | _ :: x => last_is_space x end.
Definition ends_with_space (ps : pieces) : bool := last_is_space (bytes_of ps).

(** ** Attributes of documents: core/src/attrs.rs:36-96, document_meta.rs:200-210 *)
Definition m_str (m : meta) (k : string) : option string := match get m k with Some v => av_str v | None => None end.
Definition str_or (m : meta) (k d : string) : string := match m_str m k with Some s => s | None => d end.
Definition is_set (m : meta) (k : string) : bool := some (get m k).
Inductive icon_mode_t := IconText | IconImage | IconFont.
Definition icon_mode (m : meta) : icon_mode_t :=
  match get m "icons" with
  | Some (AStr s) => if (s =? "font")%string then IconFont else if (s =? "image")%string || (s =? "")%string then IconImage else IconText
  | Some (ABool true) => IconImage
  | _ => IconText
  end.
Definition text_icons (m : meta) : bool := match icon_mode m with IconText => true | _ => false end.

Section Html.
  Context (D : details) (debug : bool).
  Definition opt_pieces (o : option string) (f : string -> pieces) : pieces := match o with Some s => f s | None => [] end.
  Definition if_pieces (c : bool) (ps : pieces) : pieces := if c then ps else [].

  (** ** htmlbuf.rs:38-60, 88-102 *)
  Definition html_attr (name : string) (value : string) : pieces := [Lit (" " ++ name ++ "="""); EscVal value; Lit """"].
  Definition named_attr (name : string) (d : nat) : pieces := opt_pieces (n_nodes D d name) (html_attr name).
  Definition or_else {A} (a c : option A) : option A := match a with Some _ => a | None => c end.
  Definition named_or_pos_attr (name : string) (pos d : nat) : pieces := opt_pieces (or_else (n_named D d name) (n_pos D d pos)) (html_attr name).
  Definition link_constraint_attrs (d : nat) : pieces :=
    match n_named D d "window" with
    | Some window =>
        [Lit " target="""; RawVal window] ++ if_pieces ((window =? "_blank")%string || n_option D d "noopener") [Lit """ rel=""noopener"] ++
        (if n_option D d "nofollow" then [Lit " nofollow"""] else [Lit """"])
    | None => if_pieces (n_option D d "nofollow") [Lit " rel=""nofollow"""]
    end.

  (** ** Opening tags: open_tag.rs *)
  Record otag := Otag { o_buf : pieces; o_open : bool; o_append : option string; o_styles : option string }.
  Definition o_put (ps : pieces) (t : otag) : otag := Otag (o_buf t ++ ps) (o_open t) (o_append t) (o_styles t).
  Definition no_attrs (elem : string) : otag := Otag [Lit ("<" ++ elem)%string] false None None.
  (** 34-60; [id]: whether the id is wanted *)
  Definition o_new_with_id (id : bool) (elem : string) (i : option string) (roles : list string) : otag :=
    let t := no_attrs elem in
    let t := if id then o_put (opt_pieces i (html_attr "id")) t else t in
    match filter (fun r => negb (r =? "")%string) roles with
    | [] => t
    | l => Otag (o_buf t) (o_open t) (Some (String.concat " " l)) (o_styles t)
    end.
  Definition o_new (elem : string) (d : nat) : otag := o_new_with_id true elem (n_id D d) (n_roles D d).
  (** 90-101 *)
  Definition o_open_classes (t : otag) : otag := if o_open t then o_put [Lit " "] t else Otag (o_buf t ++ [Lit " class="""]) true (o_append t) (o_styles t).
  Definition o_class (prefix class : string) (t : otag) : otag := o_put [RawVal prefix; RawVal class] (o_open_classes t).
  Definition o_opt_class (prefix : string) (class : option string) (t : otag) : otag := match class with Some c => o_class prefix c t | None => t end.
  Definition o_classes (l : list string) (t : otag) : otag := fold_left (fun t c => o_class "" c t) l t.
  (** 103-128 *)
  Definition o_resolved_class (name doc_name prefix : string) (default : option string) (d : nat) (m : meta) (t : otag) : otag :=
    let norm v := if (v =? "topbot")%string && (name =? "frame")%string then "ends" else v in
    o_opt_class prefix (match n_named D d name with Some v => Some (norm v) | None => match get m doc_name with Some (AStr s) => Some (norm s) | _ => default end end) t.
  (** 130-137 *)
  Definition o_style (s : string) (t : otag) : otag := Otag (o_buf t) (o_open t) (o_append t) (Some (match o_styles t with None => s | Some st => (st ++ "; " ++ s)%string end)).
  (** 159-173 *)
  Definition o_finish_classes (t : otag) : otag :=
    let t := match o_append t with
             | Some a => let t := o_put [RawVal a] (o_open_classes t) in Otag (o_buf t) (o_open t) None (o_styles t)
             | None => t
             end in
    let t := if o_open t then o_put [Lit """"] t else t in
    Otag (o_buf t) false (o_append t) (o_styles t).
  (** 175-182 *)
  Definition o_finish (t : otag) : pieces :=
    let t := o_finish_classes t in
    let t := o_put (opt_pieces (o_styles t) (html_attr "style")) t in
    o_buf t ++ [Lit ">"].
  (** 139-157 *)
  Definition o_link_attrs (d : nat) (has_text blank : bool) (t : otag) : otag :=
    let t := if has_text then t else o_class "" "bare" t in
    let t := o_finish_classes t in
    let t := o_put (opt_pieces (n_named D d "title") (html_attr "title")) t in
    o_put (if blank then [Lit " target=""_blank"" rel=""noopener"""] else link_constraint_attrs d) t.
  (** htmlbuf.rs:62-86 *)
  Definition open_element (elem : string) (classes : list string) (d : nat) : pieces := o_finish (o_classes classes (o_new elem d)).
  Definition open_element_opt (elem : string) (d : nat) : pieces := if n_flag D d "attrs" then open_element elem [] d else [Lit ("<" ++ elem ++ ">")].

  (** ** The document: asciidoctor_html.rs:36-147, backend.rs:40-83, 761-823 *)
  Definition standalone (s : hst) : bool := negb (doctype_eqb (m_doctype (dm s)) Inline) && negb (in_cell s) && negb (m_embedded (dm s)).
  Definition doc_head (d : nat) (m : meta) (cell_dm : meta) : pieces :=
    [Lit "<!DOCTYPE html><html"] ++ if_pieces (negb (get_is_true m "nolang")) [Lit " lang="""; RawVal (str_or m "lang" "en"); Lit """"] ++ [Lit "><head>"] ++
    [Lit "<meta charset="""; RawVal (str_or m "encoding" "UTF-8"); Lit """>"; Lit "<meta http-equiv=""X-UA-Compatible"" content=""IE=edge"">";
     Lit "<meta name=""viewport"" content=""width=device-width, initial-scale=1.0"">"] ++
    if_pieces (negb (get_is_true m "reproducible")) [Lit "<meta name=""generator"" content=""Asciidork"">"] ++
    opt_pieces (m_str m "app-name") (fun x => [Lit "<meta name=""application-name"" content="""; RawVal x; Lit """>"]) ++
    opt_pieces (m_str m "description") (fun x => [Lit "<meta name=""description"" content="""; RawVal x; Lit """>"]) ++
    opt_pieces (m_str m "keywords") (fun x => [Lit "<meta name=""keywords"" content="""; RawVal x; Lit """>"]) ++
    opt_pieces (m_str m "copyright") (fun x => [Lit "<meta name=""copyright"" content="""; RawVal x; Lit """>"]) ++
    (match get m "favicon" with
     | Some (AStr path) => [Lit "<link rel=""icon"" type=""image/"; RawVal (n_text D d "favicon-ext"); Lit """ href="""; RawVal path; Lit """>"]
     | Some (ABool true) => [Lit "<link rel=""icon"" type=""image/x-icon"" href=""favicon.ico"">"]
     | _ => []
     end) ++
    if_pieces (negb (match m_authors m with [] => true | _ => false end))
      [Lit "<meta name=""author"" content="""; RawVal (String.concat ", " (map fullname (m_authors m))); Lit """>"] ++
    [Lit "<title>"; Raw (match m_str m "title" with Some t => t | None => match n_opt D d "plain-title" with Some t => t | None => "Untitled" end end); Lit "</title>"] ++
    if_pieces (match m_str m "stylesheet" with Some s => (s =? "")%string | None => false end)
      [Lit "<link rel=""stylesheet"" href=""https://fonts.googleapis.com/css?family="; RawVal (n_text D d "webfonts"); Lit """ />"] ++
    (match m_str cell_dm "stylesheet", m_str cell_dm "_asciidork_resolved_custom_css" with
     | Some "", _ => [Lit "<style>"; Raw (n_text D d "default-css"); Lit "</style>"]
     | _, Some css => [Lit "<style>"; Raw css; Lit "</style>"]
     | _, None => []
     end).
  Definition enter_document (d : nat) : cmd :=
    all [ok (set_dm (fst (insert_doc_attr (n_meta D d) "outfilesuffix" (AStr ".html"))));
         ok (fun s => if get_is_true (n_meta D d) "hardbreaks-option" then set_nls JoinWithBreak (nl s) s else s);
         look (fun s => if standalone s then put (doc_head d (n_meta D d) (dm s)) else nothing)].
  Definition enter_body (d : nat) : cmd :=
    look (fun s => if standalone s then
      put ([Lit "</head>"; Lit "<body"] ++ opt_pieces (m_str (n_meta D d) "css-signature") (fun x => [Lit " id="""; RawVal x; Lit """"]) ++
           [Lit " class="""; Lit (doctype_str (m_doctype (n_meta D d))); RawVal (n_text D d "toc-classes"); Lit """>"]) else nothing).
  Definition exit_body : cmd := look (fun s => if standalone s then put [Lit "</body></html>"] else nothing).
  (** 1664-1672 *)
  Definition division_start (id : string) (m : meta) : pieces :=
    [Lit ("<div id=""" ++ id ++ """")] ++ match m_str m "max-width" with Some w => [Lit " style=""max-width: "; RawVal w; Lit ";"">"] | None => [Lit ">"] end.
  (** 1705-1729 *)
  Definition author_number (i : nat) : pieces := if_pieces (0 <? i) [Num (i + 1)].
  Definition author_detail (i : nat) (a : author) : pieces :=
    [Lit "<span id=""author"] ++ author_number i ++ [Lit """ class=""author"">"; Raw (fullname a); Lit "</span><br>"] ++
    opt_pieces (email a) (fun e => [Lit "<span id=""email"] ++ author_number i ++ [Lit """ class=""email""><a href=""mailto:"; RawVal e; Lit """>"; Raw e; Lit "</a></span><br>"]).
  Fixpoint author_details (i : nat) (l : list author) : pieces := match l with [] => [] | a :: l => author_detail i a ++ author_details (S i) l end.
  (** 1680-1703 *)
  Definition header_details (m : meta) : pieces :=
    [Lit "<div class=""details"">"] ++ author_details 0 (m_authors m) ++
    opt_pieces (m_str m "revnumber") (fun r => [Lit "<span id=""revnumber"">"; Raw (str_or m "version-label" ""); Raw " "; Raw r; if is_set m "revdate" then Lit ",</span>" else Lit "</span>"]) ++
    opt_pieces (m_str m "revdate") (fun r => [Lit "<span id=""revdate"">"; Raw r; Lit "</span>"]) ++
    opt_pieces (m_str m "revremark") (fun r => [Lit "<br><span id=""revremark"">"; Raw r; Lit "</span>"]) ++ [Lit "</div>"].
  Definition has_header (m : meta) : bool := negb (m_embedded m) && negb (get_is_true m "noheader").
  Definition has_footer (m : meta) : bool := negb (m_embedded m) && negb (get_is_true m "nofooter").
  Definition enter_header : cmd := look (fun s => if has_header (dm s) then put (division_start "header" (dm s)) else nothing).
  Definition exit_header : cmd :=
    look (fun s => if has_header (dm s) then
      put (if_pieces (negb (match m_authors (dm s) with [] => true | _ => false end) || is_set (dm s) "revnumber" || is_set (dm s) "revdate" || is_set (dm s) "revremark") (header_details (dm s)) ++
           [Lit "</div>"]) else nothing).
  Definition enter_content : cmd := look (fun s => if m_embedded (dm s) then nothing else put (division_start "content" (dm s))).
  Definition exit_content : cmd := look (fun s => if m_embedded (dm s) then nothing else put [Lit "</div>"]).
  (** 1606-1620 *)
  Fixpoint footnote_list (i : nat) (l : list (option string * pieces)) : pieces :=
    match l with
    | [] => []
    | (_, text) :: l =>
        [Lit "<div class=""footnote"" id=""_footnotedef_"; Num i; Lit """><a href=""#_footnoteref_"; Num i; Lit """>"; Num i; Lit "</a>. "] ++ text ++ [Lit "</div>"] ++ footnote_list (S i) l
    end.
  Definition render_footnotes (m : meta) (l : list (option string * pieces)) : pieces := division_start "footnotes" m ++ [Lit "<hr>"] ++ footnote_list 1 l ++ [Lit "</div>"].
  Definition enter_footer : cmd :=
    all [look (fun s => match notes s with [] => nothing | l => if in_cell s then nothing else put (render_footnotes (dm s) l) end);
         look (fun s => if has_footer (dm s) then
           put (division_start "footer" (dm s) ++
                opt_pieces (m_str (dm s) "revnumber") (fun r => [Lit "<div id=""footer-text"">"; Raw (str_or (dm s) "version-label" ""); Raw " "; Raw r; Lit "<br></div>"])) else nothing)].
  Definition exit_footer : cmd := look (fun s => if has_footer (dm s) then put [Lit "</div>"] else nothing).
  Definition render_doc_title (m : meta) : bool := negb (get_is_true m "noheader") && show_doc_title m.
  Definition enter_document_title : cmd := look (fun s => if render_doc_title (dm s) then put [Lit "<h1>"] else start_buffering debug).
  Definition exit_document_title : cmd := look (fun s => if render_doc_title (dm s) then put [Lit "</h1>"] else swap_discard_alt_buffer).

  (** ** The table of contents: asciidoctor_html.rs:149-205, backend.rs:659-687. What is written for the number of a section is a text of the node. *)
  Definition enter_toc (d : nat) : cmd :=
    look (fun s =>
      let id := match n_opt D d "macro-id" with Some i => i | None => "toc" end in
      all [change_flags (with_toc true);
           put (if_pieces (position_eqb (n_position D d) PPreamble) [Lit "</div>"] ++
                [Lit "<div id="""; RawVal id; Lit """ class="""; RawVal (str_or (dm s) "toc-class" "toc")] ++
                if_pieces (negb (m_embedded (dm s)) && (position_eqb (n_position D d) PLeft || position_eqb (n_position D d) PRight)) [Lit "2"] ++
                [Lit """><div id="""; RawVal id; Lit "title"""] ++ if_pieces (position_eqb (n_position D d) PMacro) [Lit " class=""title"""] ++
                [Lit ">"; Raw (n_text D d "title"); Lit "</div>"])]).
  Definition exit_toc (d : nat) : cmd :=
    all [put (if_pieces (negb (position_eqb (n_position D d) PPreamble)) [Lit "</div>"]); ok (set_appendix 0); change_flags (with_toc false)].
  Definition enter_toc_level (level : nat) : cmd := put [Lit "<ul class=""sectlevel"; Num level; Lit """>"].
  Definition exit_toc_level : cmd := put [Lit "</ul>"].
  (** backend.rs:452-466; the letter is written as a number *)
  Definition appendix_caption : cmd :=
    look (fun s => all [put (opt_pieces (m_str (dm s) "appendix-caption") (fun c => [Raw c; Lit " "]) ++ [Num (appendix_num s)] ++
                             (if get_is_false (dm s) "appendix-caption" then [Lit ". "] else [Lit ": "])); ok (set_appendix (S (appendix_num s)))]).
  Definition is_appendix (d : nat) : bool := match n_special D d with Some SpAppendix => true | _ => false end.
  Definition is_bibliography (d : nat) : bool := match n_special D d with Some SpBibliography => true | _ => false end.
  Definition is_abstract (d : nat) : bool := match n_special D d with Some SpAbstract => true | _ => false end.
  Definition is_glossary (d : nat) : bool := match n_special D d with Some SpGlossary => true | _ => false end.
  Definition enter_toc_node (d : nat) : cmd :=
    all [put ([Lit "<li><a href=""#"] ++ opt_pieces (n_opt D d "id") (fun i => [RawVal i]) ++ [Lit """>"]);
         if is_appendix d then bind (change_flags (with_appendix true)) appendix_caption else put [Raw (n_text D d "number")]].
  Definition exit_toc_node (d : nat) : cmd := all [change_flags (fun f => if is_appendix d then with_appendix false f else f); put [Lit "</li>"]].
  Definition exit_toc_content : cmd := put [Lit "</a>"].

  (** ** Parts and sections: asciidoctor_html.rs:207-305, backend.rs:689-759, util.rs *)
  Definition enter_book_part_title (d : nat) : cmd :=
    put ([Lit "<h1"] ++ opt_pieces (n_opt D d "id") (fun i => [Lit " id="""; RawVal i; Lit """"]) ++ [Lit " class=""sect0"] ++
         flat_map (fun r => [Lit " "; RawVal r]) (filter (fun r => negb (r =? "")%string) (n_roles D d)) ++ [Lit """>"; Raw (n_text D d "number")]).
  Definition exit_book_part_title : cmd := put [Lit "</h1>"].
  Definition enter_book_part_intro (d : nat) : cmd := put ([Lit "<div class=""openblock partintro"">"] ++ if_pieces (n_title D d) [Lit "<div class=""title"">"]).
  Definition exit_book_part_intro : cmd := put [Lit "</div>"].
  Definition enter_book_part_intro_content (d : nat) : cmd := put (if_pieces (n_title D d) [Lit "</div>"] ++ [Lit "<div class=""content"">"]).
  Definition exit_book_part_intro_content : cmd := put [Lit "</div>"].
  Definition enter_preamble (has : nat) : cmd := put (if_pieces (has =? 1) [Lit "<div id=""preamble""><div class=""sectionbody"">"]).
  Definition exit_preamble (has : nat) : cmd := put (if_pieces (has =? 1) [Lit "</div></div>"]).
  Definition section_level (d : nat) : nat := n_num D d "level".
  Definition enter_section (d : nat) : cmd :=
    if 6 <? section_level d then fun _ => Panic
    else all [put (o_finish (o_class "" ("sect" ++ dec (section_level d)) (o_new_with_id false "div" None (n_roles D d))));
              change_flags (fun f => if is_appendix d then with_appendix true f else if is_bibliography d then with_bibliography true f else f)].
  Definition exit_section (d : nat) : cmd :=
    all [put (if_pieces (section_level d =? 1) [Lit "</div>"] ++ [Lit "</div>"]);
         change_flags (fun f => if is_appendix d then with_appendix false f else if is_bibliography d then with_bibliography false f else f)].
  Definition enter_section_heading (d : nat) : cmd :=
    all [look (fun s =>
           put (match n_opt D d "id" with
                | Some id =>
                    [Lit "<h"; Num (section_level d + 1); Lit " id="""; RawVal id; Lit """>"] ++
                    if_pieces (get_is_true (dm s) "sectanchors") [Lit "<a class=""anchor"" href=""#"; RawVal id; Lit """></a>"] ++
                    if_pieces (get_is_true (dm s) "sectlinks") [Lit "<a class=""link"" href=""#"; RawVal id; Lit """>"]
                | None => [Lit "<h"; Num (section_level d + 1); Lit ">"]
                end));
         if is_appendix d then appendix_caption else put [Raw (n_text D d "number")]].
  Definition exit_section_heading (d : nat) : cmd :=
    look (fun s => put (if_pieces (get_is_true (dm s) "sectlinks" && some (n_opt D d "id")) [Lit "</a>"] ++ [Lit "</h"; Num (section_level d + 1); Lit ">"] ++
                        if_pieces (section_level d =? 1) [Lit "<div class=""sectionbody"">"])).

  (** ** Titles: asciidoctor_html.rs:307-321, 1558-1596 *)
  Definition enter_meta_title : cmd := start_buffering debug.
  Definition is_passthrough (d : nat) : bool := match n_context D d with XPassthrough => true | _ => false end.
  Definition exit_meta_title (d : nat) : cmd := if is_passthrough d then swap_discard_alt_buffer else swap_buffers.
  (** ast/src/block.rs:134-142 *)
  Definition caption_name (c : context) : option string :=
    match c with XTable => Some "table-caption" | XImage => Some "figure-caption" | XExample => Some "example-caption" | XListing => Some "listing-caption" | _ => None end.
  Fixpoint next_caption (l : list (string * nat)) (k : string) : nat := match l with [] => 1 | (k', n) :: l => if (k' =? k)%string then S n else next_caption l k end.
  Definition is_table (d : nat) : bool := match n_context D d with XTable => true | _ => false end.
  Definition render_block_title (title : pieces) (d : nat) : cmd :=
    look (fun s =>
      let around x := (if is_table d then [Lit "<caption class=""title"">"] else [Lit "<div class=""title"">"]) ++ x ++ (if is_table d then [Lit "</caption>"] else [Lit "</div>"]) in
      match n_named D d "caption" with
      | Some c => put (around ([Raw c] ++ title))
      | None =>
          match caption_name (n_context D d) with
          | Some k =>
              match m_str (dm s) k with
              | Some c => bind (put (around ([Raw c; Lit " "; Num (next_caption (captions s) k); Lit ". "] ++ title))) (ok (fun s => set_captions ((k, next_caption (captions s) k) :: captions s) s))
              | None => put (around title)
              end
          | None => put (around title)
          end
      end).
  Definition render_buffered_block_title (d : nat) : cmd :=
    if n_title D d then look (fun s => bind discard_alt_buffer (render_block_title (alt s) d)) else nothing.

  (** ** Blocks: asciidoctor_html.rs:323-560 *)
  Definition is_verse (d : nat) : bool := match n_context D d with XVerse => true | _ => false end.
  Definition enter_simple_block_content (d : nat) : cmd :=
    ok (fun s => if is_verse d then set_nls (default_nl s) Preserve s else if n_option D d "hardbreaks" then set_nls (default_nl s) JoinWithBreak s else s).
  Definition default_newlines : cmd := ok (fun s => set_nls (default_nl s) (default_nl s) s).
  Definition preserve_newlines : cmd := ok (fun s => set_nls (default_nl s) Preserve s).
  Definition enter_sidebar_block (d : nat) : cmd := all [put (open_element "div" ["sidebarblock"] d ++ [Lit "<div class=""content"">"]); render_buffered_block_title d].
  Definition exit_sidebar_block : cmd := put [Lit "</div></div>"].
  Definition language_classes (l : string) : pieces := [Lit " class=""language-"; RawVal l; Lit """ data-lang="""; RawVal l; Lit """"].
  Definition enter_listing_block (d : nat) : cmd :=
    all [put (open_element "div" ["listingblock"] d); render_buffered_block_title d; put [Lit "<div class=""content""><pre"];
         look (fun s =>
           if n_flag D d "source" || some (m_str (dm s) "source-language") then
             bind (put ([Lit " class=""highlight""><code"] ++ opt_pieces (or_else (n_opt D d "language") (m_str (dm s) "source-language")) language_classes ++ [Lit ">"]))
               (change_flags (with_source true))
           else put [Lit ">"]);
         preserve_newlines].
  Definition exit_listing_block : cmd :=
    all [look (fun s => if f_source (fl s) then bind (change_flags (with_source false)) (put [Lit "</code>"]) else nothing); put [Lit "</pre></div></div>"]; default_newlines].
  Definition enter_literal_block (d : nat) : cmd :=
    all [put (open_element "div" ["literalblock"] d); render_buffered_block_title d; put [Lit "<div class=""content""><pre>"]; preserve_newlines].
  Definition exit_literal_block : cmd := all [put [Lit "</pre></div></div>"]; default_newlines].
  Definition enter_quote_block (d : nat) : cmd := all [put (open_element "div" ["quoteblock"] d); render_buffered_block_title d; put [Lit "<blockquote>"]].
  Definition exit_quoted_paragraph : cmd := put [Lit "</div>"].
  Definition exit_quote_block (d has_attribution : nat) : cmd :=
    put ((if is_verse d && negb (has_attribution =? 1) then [Lit "</pre>"] else if negb (has_attribution =? 1) then [Lit "</blockquote>"] else []) ++ [Lit "</div>"]).
  Definition enter_quote_attribution (d : nat) : cmd :=
    put ((if is_verse d then [Lit "</pre>"] else [Lit "</blockquote>"]) ++ [Lit "<div class=""attribution"">&#8212; "]).
  Definition exit_quote_attribution (has_cite : nat) : cmd := put (if_pieces (negb (has_cite =? 1)) [Lit "</div>"]).
  Definition enter_quote_cite (has_attribution : nat) : cmd :=
    put (if has_attribution =? 1 then [Lit "<br><cite>"] else [Lit "</blockquote><div class=""attribution"">&#8212; "]).
  Definition exit_quote_cite (has_attribution : nat) : cmd := put (if has_attribution =? 1 then [Lit "</cite></div>"] else [Lit "</div>"]).
  Definition enter_verse_block (d : nat) : cmd := all [put (open_element "div" ["verseblock"] d); render_buffered_block_title d; put [Lit "<pre class=""content"">"]].
  Definition enter_example_block (d : nat) : cmd :=
    bind (if n_option D d "collapsible" then
            all [put (open_element "details" [] d);
                 (if n_option D d "open" then bind (ok (fun s => set_html (pop_byte (html s)) s)) (put [Lit " open>"]) else nothing);
                 put [Lit "<summary class=""title"">"];
                 (if n_title D d then look (fun s => bind discard_alt_buffer (put (alt s))) else put [Lit "Details"]);
                 put [Lit "</summary>"]]
          else bind (put (open_element "div" ["exampleblock"] d)) (render_buffered_block_title d))
         (put [Lit "<div class=""content"">"]).
  Definition exit_example_block (d : nat) : cmd := put (if n_option D d "collapsible" then [Lit "</div></details>"] else [Lit "</div></div>"]).
  Definition enter_open_block (d : nat) : cmd :=
    if is_abstract d then all [put (open_element "div" ["quoteblock abstract"] d); render_buffered_block_title d; put [Lit "<blockquote>"]]
    else all [put (open_element "div" ["openblock"] d); render_buffered_block_title d; put [Lit "<div class=""content"">"]].
  Definition exit_open_block (d : nat) : cmd := put (if is_abstract d then [Lit "</blockquote></div>"] else [Lit "</div></div>"]).
  (** backend.rs:638-657 *)
  Definition enter_discrete_heading (e d : nat) : cmd :=
    put ([Lit "<h"; Num (section_level e + 1)] ++ opt_pieces (n_opt D e "id") (fun i => [Lit " id="""; RawVal i; Lit """"]) ++ [Lit " class=""discrete"] ++
         flat_map (fun r => [Lit " "; RawVal r]) (filter (fun r => negb (r =? "")%string) (n_roles D d)) ++ [Lit """>"]).
  Definition exit_discrete_heading (e : nat) : cmd := put [Lit "</h"; Num (section_level e + 1); Lit ">"].
  (** asciidoctor_html.rs:739-790, 1598-1604 *)
  Definition enter_paragraph_block (d : nat) : cmd :=
    look (fun s =>
      if doctype_eqb (m_doctype (dm s)) Inline then nothing
      else bind (if f_term (fl s) then nothing
                 else bind (put (open_element "div" (if is_abstract d then ["quoteblock"; "abstract"] else ["paragraph"]) d)) (render_buffered_block_title d))
             (put (if is_abstract d then [Lit "<blockquote>"] else [Lit "<p>"]))).
  Definition exit_paragraph_block (d : nat) : cmd :=
    look (fun s =>
      if doctype_eqb (m_doctype (dm s)) Inline then nothing
      else bind (put ((if is_abstract d then [Lit "</blockquote>"] else [Lit "</p>"]) ++ if_pieces (negb (f_term (fl s))) [Lit "</div>"])) (change_flags (with_term false))).
  (** 1308-1370, 1645-1662, backend.rs:549-568, 220-262 *)
  Definition icon_path (m : meta) : pieces :=
    let set k := match m_str m k with Some s => if (s =? "")%string then None else Some s | None => None end in
    [match set "iconsdir" with Some s => RawVal s | None => match set "imagesdir" with Some s => RawVal s | None => Lit "./images/icons" end end; Lit "/"].
  Definition icon_ext (m : meta) : pieces :=
    let set k := match m_str m k with Some s => if (s =? "")%string then None else Some s | None => None end in
    [Lit "."; match set "icontype" with
              | Some s => RawVal s
              | None => match set "icons" with Some s => if (s =? "font")%string || (s =? "image")%string then Lit "png" else RawVal s | None => Lit "png" end
              end].
  Definition admonition_name (k : nat) : string := match k with 0 => "caution" | 1 => "important" | 2 => "note" | 3 => "tip" | _ => "warning" end.
  Definition admonition_word (k : nat) : string := match k with 0 => "Caution" | 1 => "Important" | 2 => "Note" | 3 => "Tip" | _ => "Warning" end.
  Definition textlabel (raw : string -> piece) (k d : nat) (m : meta) : pieces :=
    match n_named D d "caption" with
    | Some c => [raw c]
    | None =>
        let name := (admonition_name k ++ "-caption")%string in
        if get_is_false m name then [] else [match m_str m name with Some c => raw c | None => Lit (admonition_word k) end]
    end.
  Definition or_pieces (o : option pieces) (ps : pieces) : pieces := match o with Some x => x | None => ps end.
  Notation "o |or| ps" := (or_pieces o ps) (at level 62).
  Definition enter_admonition_block (k d : nat) : cmd :=
    all [look (fun s =>
      put (open_element "div" ["admonitionblock"; admonition_name k] d ++ [Lit "<table><tr><td class=""icon"">"] ++
           (match n_named D d "icon" with
            | Some icon =>
                if (match icon_mode (dm s) with IconImage => false | _ => true end) || negb (some (n_opt D d "icon-uri")) then
                  Some ([Lit "<img src="""] ++ icon_path (dm s) ++ [RawVal icon] ++ (if n_flag D d "icon-has-ext" then [] else icon_ext (dm s)) ++
                        [Lit """ alt="""] ++ textlabel RawVal k d (dm s) ++ [Lit """>"])
                else None
            | None => None
            end |or| match icon_mode (dm s) with
                    | IconText => [Lit "<div class=""title"">"] ++ textlabel Raw k d (dm s) ++ [Lit "</div>"]
                    | IconImage =>
                        [Lit "<img src="""] ++ (match n_opt D d "icon-uri" with Some u => [RawVal u] | None => icon_path (dm s) ++ [Lit (admonition_name k)] ++ icon_ext (dm s) end) ++
                        [Lit """ alt="""] ++ textlabel RawVal k d (dm s) ++ [Lit """>"]
                    | IconFont => [Lit "<i class=""fa icon-"; Lit (admonition_name k); Lit """ title="""] ++ textlabel RawVal k d (dm s) ++ [Lit """></i>"]
                    end) ++
           [Lit "</td><td class=""content"">"]));
         render_buffered_block_title d].
  Definition exit_admonition_block : cmd := put [Lit "</td></tr></table></div>"].
  (** ** Lists: asciidoctor_html.rs:533-736, 1638-1650, backend.rs:568-634, list.rs *)
  Definition callout_variant : nat := 3.
  Definition enter_unordered_list (d : nat) : cmd :=
    look (fun s =>
      let classes := (if f_bibliography (fl s) || is_bibliography d then ["bibliography"] else []) ++ match n_opt D d "marker" with Some c => [c] | None => [] end ++
                     (if n_flag D d "checklist" then ["checklist"] else []) in
      all [ok (fun s => set_interactive (n_option D d "interactive" :: interactive s) s); put (o_finish (o_classes ("ulist" :: classes) (o_new "div" d))); render_buffered_block_title d;
           put (o_finish (o_classes classes (no_attrs "ul")))]).
  Definition exit_unordered_list : cmd := all [ok (fun s => set_interactive (tl (interactive s)) s); put [Lit "</ul></div>"]].
  Definition enter_callout_list (d : nat) : cmd :=
    look (fun s => all [ok (set_conum 1); put (open_element "div" ["colist arabic"] d ++ (if text_icons (dm s) then [Lit "<ol>"] else [Lit "<table>"]))]).
  Definition exit_callout_list : cmd := look (fun s => put (if text_icons (dm s) then [Lit "</ol></div>"] else [Lit "</table></div>"])).
  Inductive dlist_style := DHorizontal | DQanda | DGlossary | DPlain.
  Definition style_of (d : nat) : dlist_style := if n_has_pos D d "horizontal" then DHorizontal else if n_has_pos D d "qanda" then DQanda else if is_glossary d then DGlossary else DPlain.
  Definition col_width (w : option string) : pieces := match w with Some w => [Lit "<col style=""width: "; RawVal w; Lit "%;"">"] | None => [Lit "<col>"] end.
  Definition enter_description_list (d : nat) : cmd :=
    bind (ok (fun s => set_desc (S (desc_depth s)) s))
      match style_of d with
      | DHorizontal =>
          all [change_flags (with_horizontal true); put (open_element "div" ["hdlist"] d); render_buffered_block_title d; put [Lit "<table>"];
               put (if_pieces (some (n_named D d "labelwidth") || some (n_named D d "itemwidth"))
                     ([Lit "<colgroup>"] ++ col_width (n_opt D d "labelwidth") ++ col_width (n_opt D d "itemwidth") ++ [Lit "</colgroup>"]))]
      | DQanda => all [change_flags (with_qanda true); put (open_element "div" ["qlist"; "qanda"] d); render_buffered_block_title d; put [Lit "<ol>"]]
      | DGlossary => all [change_flags (with_glossary true); put (open_element "div" ["dlist"; "glossary"] d); render_buffered_block_title d; put [Lit "<dl>"]]
      | DPlain => all [put (open_element "div" ["dlist"] d); render_buffered_block_title d; put [Lit "<dl>"]]
      end.
  Definition exit_description_list : cmd :=
    all [change_flags (with_glossary false);
         look (fun s => if f_horizontal (fl s) then bind (change_flags (with_horizontal false)) (put [Lit "</table></div>"])
                        else if f_qanda (fl s) then bind (change_flags (with_qanda false)) (put [Lit "</ol></div>"]) else put [Lit "</dl></div>"]);
         ok (fun s => set_desc (pred (desc_depth s)) s)].
  Definition enter_term (num : nat) : cmd :=
    look (fun s => put (if f_glossary (fl s) then [Lit "<dt>"] else if f_horizontal (fl s) then [Lit "<tr><td class=""hdlist1"">"]
                        else if f_qanda (fl s) then if_pieces (num =? 1) [Lit "<li>"] ++ [Lit "<p><em>"] else [Lit "<dt class=""hdlist1"">"])).
  Definition exit_term : cmd := look (fun s => put (if f_horizontal (fl s) then [Lit "</td>"] else if f_qanda (fl s) then [Lit "</em></p>"] else [Lit "</dt>"])).
  Definition enter_description : cmd := look (fun s => put (if f_horizontal (fl s) then [Lit "<td class=""hdlist2"">"] else if f_qanda (fl s) then [] else [Lit "<dd>"])).
  Definition exit_description : cmd := look (fun s => put (if f_horizontal (fl s) then [Lit "</td></tr>"] else if f_qanda (fl s) then [Lit "</li>"] else [Lit "</dd>"])).
  (** [depth - desc_list_depth] is checked in debug builds *)
  Definition type_from_depth (n : nat) : string := match n with 1 => "1" | 2 => "a" | 3 => "i" | 4 => "A" | _ => "I" end.
  Definition type_from_class (c : string) : option string :=
    if (c =? "arabic")%string then Some "1" else if (c =? "loweralpha")%string then Some "a" else if (c =? "lowerroman")%string then Some "i"
    else if (c =? "upperalpha")%string then Some "A" else if (c =? "upperroman")%string then Some "I" else None.
  Definition class_from_depth (n : nat) : string := match n with 1 => "arabic" | 2 => "loweralpha" | 3 => "lowerroman" | 4 => "upperalpha" | _ => "upperroman" end.
  Definition enter_ordered_list (d depth : nat) : cmd :=
    look (fun s =>
      if debug && (depth <? desc_depth s) then fun _ => Panic
      else
        let n := (depth + 256 - desc_depth s) mod 256 in
        let custom := n_opt D d "number-style" in
        let class := match custom with Some c => c | None => class_from_depth n end in
        let type := match (match custom with Some c => type_from_class c | None => None end) with Some t => t | None => type_from_depth n end in
        all [ok (fun s => set_interactive (false :: interactive s) s); put (open_element "div" ["olist"; class] d); render_buffered_block_title d;
             put ([Lit "<ol class="""; RawVal class; Lit """"] ++ if_pieces (negb (type =? "1")%string) [Lit " type="""; RawVal type; Lit """"] ++
                  (match n_named D d "start" with
                   | Some x => [Lit " start="""; RawVal x; Lit """"]
                   | None => if_pieces (n_flag D d "digits" && negb (n_num D d "first" =? 1)) [Lit " start="""; Num (n_num D d "first"); Lit """"]
                   end) ++ if_pieces (n_option D d "reversed") [Lit " reversed"] ++ [Lit ">"])]).
  Definition exit_ordered_list : cmd := all [ok (fun s => set_interactive (tl (interactive s)) s); put [Lit "</ol></div>"]].
  Definition callout_number_font (n : nat) : pieces := [Lit "<i class=""conum"" data-value="""; Num n; Lit """></i>"; Lit "<b>("; Num n; Lit ")</b>"].
  Definition callout_number_img (m : meta) (n : nat) : pieces :=
    [Lit "<img src="""] ++ icon_path m ++ [Lit "callouts/"; Num n] ++ icon_ext m ++ [Lit """ alt="""; Num n; Lit """>"].
  Definition checklist_item (interactive : bool) (d : nat) : pieces :=
    if_pieces (n_flag D d "checklist")
      (match interactive, n_flag D d "checked" with
       | false, true => [Lit "&#10003;"]
       | false, false => [Lit "&#10063;"]
       | true, true => [Lit "<input type=""checkbox"" data-item-complete=""1"" checked>"]
       | true, false => [Lit "<input type=""checkbox"" data-item-complete=""0"">"]
       end).
  Definition plain_item (variant : nat) (s : hst) : bool := negb (variant =? callout_variant) || text_icons (dm s).
  Definition enter_item_principal (d variant : nat) : cmd :=
    look (fun s =>
      if plain_item variant s then put ([Lit "<li><p>"] ++ checklist_item (hd false (interactive s)) d)
      else
        let n := if n_flag D d "numbered" then n_num D d "callout" else conum s in
        all [ok (set_conum (S n)); put ([Lit "<tr><td>"] ++ (match icon_mode (dm s) with IconFont => callout_number_font n | _ => callout_number_img (dm s) n end) ++ [Lit "</td><td>"])]).
  Definition exit_item_principal (variant : nat) : cmd := look (fun s => put (if plain_item variant s then [Lit "</p>"] else [Lit "</td>"])).
  Definition exit_item_blocks (variant : nat) : cmd := look (fun s => put (if plain_item variant s then [Lit "</li>"] else [Lit "</tr>"])).

  (** ** Tables: asciidoctor_html.rs:786-877, 1730-1779, table.rs, backend.rs:85-99. Explicit and distributed widths are texts of the block and of the table. *)
  Definition enter_table (tb d : nat) : cmd :=
    look (fun s =>
      let t := o_class "" "tableblock" (o_new "table" d) in
      let t := o_resolved_class "frame" "table-frame" "frame-" (Some "all") d (dm s) t in
      let t := o_resolved_class "grid" "table-grid" "grid-" (Some "all") d (dm s) t in
      let width := n_opt D d "explicit-width" in
      let t := if some width then t else if n_option D d "autowidth" then o_class "" "fit-content" t else o_class "" "stretch" t in
      let t := o_opt_class "" (n_named D d "float") t in
      let t := o_resolved_class "stripes" "table-stripes" "stripes-" None d (dm s) t in
      let t := match width with Some w => o_style ("width: " ++ w ++ "%;") t | None => t end in
      all [put (o_finish t); render_buffered_block_title d;
           put ([Lit "<colgroup>"] ++
                flat_map (fun w => [Lit "<col"] ++ if_pieces (negb (n_option D d "autowidth") && negb (w =? "")%string) [Lit " style=""width: "; RawVal w; Lit "%;"""] ++ [Lit ">"]) (n_list D tb "widths") ++
                [Lit "</colgroup>"])]).
  Definition exit_table : cmd := put [Lit "</table>"].
  Definition section_tag (sect : nat) : string := match sect with 0 => "thead" | 1 => "tbody" | _ => "tfoot" end.
  Definition enter_table_section (sect : nat) : cmd := put [Lit ("<" ++ section_tag sect ++ ">")].
  Definition exit_table_section (sect : nat) : cmd := put [Lit ("</" ++ section_tag sect ++ ">")].
  Definition heads (d sect : nat) : bool := (sect =? 0) || match n_cell D d with CsHeader => true | _ => false end.
  Definition open_cell (d sect : nat) : pieces :=
    [if heads d sect then Lit "<th class=""" else Lit "<td class="""; Lit "tableblock "; Lit "halign-"; RawVal (n_text D d "halign"); Lit " valign-"; RawVal (n_text D d "valign")] ++
    if_pieces (1 <? n_num D d "colspan") [Lit """ colspan="""; Num (n_num D d "colspan")] ++
    if_pieces (1 <? n_num D d "rowspan") [Lit """ rowspan="""; Num (n_num D d "rowspan")] ++ [Lit """>"].
  Definition enter_table_cell (d sect : nat) : cmd :=
    all [put (open_cell d sect);
         match n_cell D d with
         | CsAsciiDoc => put [Lit "<div class=""content"">"]
         | CsLiteral => bind preserve_newlines (put [Lit "<div class=""literal""><pre>"])
         | _ => nothing
         end].
  Definition exit_table_cell (d sect : nat) : cmd :=
    if heads d sect then all [ok (fun s => if ends_with_space (html s) then set_html (pop_byte (html s)) s else s); put [Lit "</th>"]]
    else match n_cell D d with
         | CsLiteral => all [default_newlines; put [Lit "</pre></div></td>"]]
         | CsAsciiDoc => put [Lit "</div></td>"]
         | _ => put [Lit "</td>"]
         end.
  Definition enter_cell_paragraph (d sect : nat) : cmd :=
    put (if sect =? 0 then []
         else match n_cell D d with
              | CsEmphasis => [Lit "<p class=""tableblock""><em>"] | CsMonospace => [Lit "<p class=""tableblock""><code>"] | CsStrong => [Lit "<p class=""tableblock""><strong>"]
              | _ => [Lit "<p class=""tableblock"">"]
              end).
  Definition exit_cell_paragraph (d sect : nat) : cmd :=
    put (if sect =? 0 then [Lit " "]
         else match n_cell D d with
              | CsEmphasis => [Lit "</em></p>"] | CsMonospace => [Lit "</code></p>"] | CsStrong => [Lit "</strong></p>"] | _ => [Lit "</p>"]
              end).

  (** ** Images, sound, video: asciidoctor_html.rs:1171-1231, 1381-1440, backend.rs:193-223, 269-326, 825-873, video.rs. The path of an image, with [imagesdir] and spaces
      and commas encoded, is a text ([push_img_path]), and so is the address of a video ([n_text "address"]): what they consist of has no bearing on what surrounds it. *)
  Inductive image_kind := Standard | DataUri | InlineSvg.
  Definition kind_of (d : nat) : image_kind := match n_num D d "image-kind" with 0 => Standard | 1 => DataUri | _ => InlineSvg end.
  Definition is_standard (d : nat) : bool := match kind_of d with Standard => true | _ => false end.
  Definition alt_text (d : nat) : string := match or_else (n_named D d "alt") (n_pos D d 0) with Some a => a | None => n_text D d "default-alt" end.
  Definition inner_image (d : nat) (is_block : bool) : pieces :=
    [Lit "<img src="""] ++
    (match kind_of d with
     | DataUri => [Lit "data:image/"; RawVal (n_text D d "mime"); Lit ";base64,"] ++ opt_pieces (n_opt D d "data") (fun x => [RawVal x])
     | _ => [RawVal (n_text D d "path")]
     end) ++ [Lit """ alt="""; EscVal (alt_text d); Lit """"] ++ named_or_pos_attr "width" 1 d ++ named_or_pos_attr "height" 2 d ++ if_pieces (negb is_block) (named_attr "title" d) ++ [Lit ">"].
  Definition interactive_svg (d : nat) : pieces :=
    [Lit "<object type=""image/svg+xml"" data="""; RawVal (n_text D d "path"); Lit """"] ++ named_or_pos_attr "width" 1 d ++ named_or_pos_attr "height" 2 d ++ [Lit ">"] ++
    (if some (n_named D d "fallback") then [Lit "<img src="""; RawVal (n_text D d "fallback-path"); Lit """"] ++ named_or_pos_attr "alt" 0 d ++ [Lit ">"]
     else opt_pieces (or_else (n_named D d "alt") (n_pos D d 0)) (fun a => [Lit "<span class=""alt"">"; Raw a; Lit "</span>"])) ++ [Lit "</object>"].
  Definition render_image (d : nat) (is_block : bool) (m : meta) : pieces :=
    match kind_of d with
    | DataUri => inner_image d is_block
    | Standard => if n_flag D d "svg" && n_option D d "interactive" && negb (match m_safe m with Secure => true | _ => false end) then interactive_svg d else inner_image d is_block
    | InlineSvg => match n_opt D d "svg" with Some x => [Raw x] | None => [Lit "<span class=""alt"">"; Raw (alt_text d); Lit "</span>"] end
    end.
  Definition image_link (href : piece) (d : nat) : pieces :=
    let t := o_put [Lit """ href="""; href; Lit """"] (o_class "" "image" (no_attrs "a")) in
    o_finish (o_link_attrs d true false (Otag (o_buf t) false (o_append t) (o_styles t))).
  Definition is_nil (ps : pieces) : bool := match bytes_of ps with [] => true | _ => false end.
  (** The assertion (1187) is checked in all builds. *)
  Definition visit_image_macro (d : nat) : cmd :=
    look (fun s =>
      let link := match n_named D d "link" with Some l => if is_standard d || negb (l =? "self")%string then Some l else None | None => None end in
      let selfish := match link with Some l => (l =? "self")%string | None => false end in
      if selfish && negb (is_nil (alt s)) then fun _ => Panic
      else
        all [put (o_finish (o_classes (n_roles D d) (o_opt_class "text-" (n_named D d "align") (o_opt_class "" (n_named D d "float") (o_class "" "image" (no_attrs "span"))))));
             put (match link with Some l => image_link (if selfish then RawVal (n_text D d "path") else EscVal l) d | None => [] end);
             (if selfish then discard_alt_buffer else nothing);
             put (render_image d false (dm s)); put (if_pieces (some link) [Lit "</a>"] ++ [Lit "</span>"])]).
  (** [e]: the image; [d]: the block. The tag has the id and roles of both. *)
  Definition merged (elem : string) (e d : nat) : otag := o_new_with_id true elem (or_else (n_id D e) (n_id D d)) (n_roles D e ++ n_roles D d).
  Definition media_tag (class : string) (e d : nat) : otag := o_opt_class "text-" (n_named D e "align") (o_opt_class "" (n_named D e "float") (o_class "" class (merged "div" e d))).
  Definition enter_image_block (e d : nat) : cmd :=
    look (fun s =>
      let link := match or_else (n_named D d "link") (n_named D e "link") with Some l => if is_standard e || negb (l =? "self")%string then Some l else None | None => None end in
      put (o_finish (media_tag "imageblock" e d) ++ [Lit "<div class=""content"">"] ++ opt_pieces link (fun l => image_link (RawVal l) e) ++ render_image e true (dm s) ++
           if_pieces (some link) [Lit "</a>"] ++ [Lit "</div>"])).
  Definition exit_image_block (e d : nat) : cmd :=
    bind (match n_named D e "title" with
          | Some title => bind (render_block_title [Raw title] d) (if n_title D d then discard_alt_buffer else nothing)
          | None => render_buffered_block_title d
          end) (put [Lit "</div>"]).
  Definition media_src (d : nat) (m : meta) : pieces :=
    (if n_flag D d "uri" then [] else opt_pieces (m_str m "imagesdir") (fun i => [RawVal i; Lit "/"])) ++ [RawVal (n_text D d "target")] ++
    (match n_named D d "start", n_named D d "end" with
     | None, Some e => [Lit "#t=,"; RawVal e; Lit """"]
     | Some s, None => [Lit "#t="; RawVal s; Lit """"]
     | Some s, Some e => [Lit "#t="; RawVal s; Lit ","; RawVal e; Lit """"]
     | None, None => [Lit """"]
     end).
  (** The label of the call stands for the macro and for its block. *)
  Definition visit_audio_macro (d : nat) : cmd :=
    all [put (open_element "div" ["audioblock"] d); render_buffered_block_title d; put [Lit "<div class=""content"">"];
         look (fun s => put ([Lit "<audio src="""] ++ media_src d (dm s) ++ if_pieces (n_option D d "autoplay") [Lit " autoplay"] ++ if_pieces (n_option D d "loop") [Lit " loop"] ++
                             if_pieces (negb (n_option D d "nocontrols")) [Lit " controls"] ++ [Lit ">Your browser does not support the audio tag.</audio>"]));
         put [Lit "</div></div>"]].
  Definition video_service (wistia : bool) (d : nat) : pieces :=
    [Lit "<iframe"] ++ named_or_pos_attr "width" 1 d ++ named_or_pos_attr "height" 2 d ++ [Lit " src="""; RawVal (n_text D d "address"); Lit """ frameborder=""0"""] ++
    if_pieces (negb (n_option D d "nofullscreen")) [Lit " allowfullscreen"] ++ if_pieces wistia [Lit " class=""wistia_embed"" name=""wistia_embed"""] ++ [Lit ">"; Lit "</iframe>"].
  Definition native_video (d : nat) (m : meta) : pieces :=
    [Lit "<video src="""] ++ media_src d m ++ named_or_pos_attr "width" 1 d ++ named_or_pos_attr "height" 2 d ++
    opt_pieces (or_else (n_named D d "poster") (n_pos D d 0))
      (fun p => match (if n_flag D d "poster-uri" then None else m_str m "imagesdir") with Some i => [Lit " poster="""; RawVal i; Lit "/"; RawVal p; Lit """"] | None => html_attr "poster" p end) ++
    if_pieces (n_option D d "autoplay") [Lit " autoplay"] ++ if_pieces (n_option D d "muted") [Lit " muted"] ++ if_pieces (n_option D d "loop") [Lit " loop"] ++
    opt_pieces (n_named D d "preload") (html_attr "preload") ++ if_pieces (negb (n_option D d "nocontrols")) [Lit " controls"] ++ [Lit ">Your browser does not support the video tag.</video>"].
  Definition video_element (d : nat) (m : meta) : pieces :=
    match n_pos D d 0 with
    | Some p => if (p =? "youtube")%string || (p =? "vimeo")%string then video_service false d else if (p =? "wistia")%string then video_service true d else native_video d m
    | None => native_video d m
    end.
  Definition visit_video_macro (d : nat) : cmd :=
    all [put (o_finish (media_tag "videoblock" d d)); render_buffered_block_title d; put [Lit "<div class=""content"">"]; look (fun s => put (video_element d (dm s))); put [Lit "</div></div>"]].

  (** ** Inline nodes: asciidoctor_html.rs:879-1323, backend.rs:101-149, 348-436 *)
  Definition span_tag (k : span_kind) : string :=
    match k with
    | SItalic => "em" | SMono | SLitMono => "code" | SBold => "strong" | SHighlight => "mark" | SSub => "sub" | SSuper => "sup" | SText => "span"
    end.
  Definition enter_span (k : span_kind) (d : nat) : cmd := put (open_element_opt (span_tag k) d).
  Definition exit_span (k : span_kind) : cmd := put [Lit ("</" ++ span_tag k ++ ">")].
  Definition visit_spaced_dashes (d : nat) : cmd := put (if n_num D d "len" =? 2 then [Lit "&#8201;&#8212;&#8201;"] else [Lit " --- "]).
  Definition visit_specialchar (d : nat) : cmd := put [match n_num D d "char" with 0 => Lit "&amp;" | 1 => Lit "&lt;" | _ => Lit "&gt;" end].
  Definition visit_symbol (d : nat) : cmd :=
    put [match n_num D d "symbol" with
         | 0 => Lit "&#169;" | 1 => Lit "&#174;" | 2 => Lit "&#8482;" | 3 => Lit "&#8212;&#8203;" | 4 => Lit "---" | 5 => Lit "&#8230;&#8203;" | 6 => Lit "&#8594;" | 7 => Lit "&#8658;"
         | 8 => Lit "&#8592;" | _ => Lit "&#8656;"
         end].
  Definition enter_quote (d : nat) : cmd := put [if n_flag D d "double" then Lit "&#8220;" else Lit "&#8216;"].
  Definition exit_quote (d : nat) : cmd := put [if n_flag D d "double" then Lit "&#8221;" else Lit "&#8217;"].
  Definition visit_curly_quote (d : nat) : cmd := put [match n_num D d "curly" with 0 => Lit "&#8221;" | 1 => Lit "&#8220;" | 2 => Lit "&#8216;" | _ => Lit "&#8217;" end].
  Definition visit_joining_newline : cmd := look (fun s => put [match nl s with JoinWithSpace => Lit " " | JoinWithBreak => Lit "<br> " | Preserve => Lit (String "010" "") end]).
  Definition enter_xref (d : nat) : cmd :=
    look (fun s => bind (ok (fun s => set_depth (S (xref_depth s)) s)) (put (if_pieces (xref_depth s =? 0) [Lit "<a href="""; RawVal (n_href D d (dm s)); Lit """>"]))).
  Definition exit_xref : cmd := look (fun s => bind (ok (fun s => set_depth (pred (xref_depth s)) s)) (put (if_pieces (xref_depth s =? 1) [Lit "</a>"]))).
  Definition visit_missing_xref (target : string) : cmd := look (fun s => put [Raw (n_missing D target (dm s))]).
  Definition visit_inline_anchor (d : nat) : cmd := look (fun s => put (if_pieces (negb (f_toc (fl s))) [Lit "<a id="""; RawVal (n_text D d "id"); Lit """></a>"])).
  Definition visit_biblio_anchor (id : string) : cmd := put [Lit "<a id="""; RawVal id; Lit """></a>["; Raw (match n_biblio D id with Some t => t | None => id end); Lit "]"].
  Definition visit_callout (d : nat) : cmd :=
    look (fun s =>
      put (if_pieces (negb (ends_with_space (html s))) [Lit " "] ++
           match icon_mode (dm s) with
           | IconImage => callout_number_img (dm s) (n_num D d "callout")
           | IconFont => callout_number_font (n_num D d "callout")
           | IconText => if_pieces (n_flag D d "xml") [Lit "&lt;!--"] ++ [Lit "<b class=""conum"">("; Num (n_num D d "callout"); Lit ")</b>"] ++ if_pieces (n_flag D d "xml") [Lit "--&gt;"]
           end)).
  Definition visit_callout_tuck (d : nat) : cmd := look (fun s => match icon_mode (dm s) with IconFont => nothing | _ => put [Raw (n_text D d "comment")] end).
  Definition visit_icon_macro (d : nat) : cmd :=
    look (fun s =>
      let alt := match n_named D d "alt" with Some a => a | None => n_text D d "target" end in
      put ([Lit "<span class=""icon"] ++ flat_map (fun r => [Lit " "; RawVal r]) (n_roles D d) ++ [Lit """>"] ++
           opt_pieces (n_named D d "link") (fun l => [Lit "<a class=""image"""] ++ html_attr "href" l ++ link_constraint_attrs d ++ [Lit ">"]) ++
           (match icon_mode (dm s) with
            | IconText => [Lit "["; Raw alt; Lit "&#93;"]
            | IconImage =>
                [Lit "<img src="""] ++ icon_path (dm s) ++ [RawVal (n_text D d "target")] ++ icon_ext (dm s) ++ [Lit """ alt="""; RawVal alt; Lit """"] ++
                named_attr "width" d ++ named_attr "title" d ++ [Lit ">"]
            | IconFont =>
                [Lit "<i class=""fa fa-"; RawVal (n_text D d "target")] ++ opt_pieces (or_else (n_named D d "size") (n_pos D d 0)) (fun x => [Lit " fa-"; RawVal x]) ++
                opt_pieces (n_named D d "flip") (fun x => [Lit " fa-flip-"; RawVal x]) ++ opt_pieces (n_named D d "rotate") (fun x => [Lit " fa-rotate-"; RawVal x]) ++ [Lit """"] ++
                named_attr "title" d ++ [Lit "></i>"]
            end) ++
           if_pieces (some (n_named D d "link")) [Lit "</a>"] ++ [Lit "</span>"])).
  Fixpoint keys (l : list string) : pieces := match l with [] => [] | [k] => [Lit "<kbd>"; Raw k; Lit "</kbd>"] | k :: l => [Lit "<kbd>"; Raw k; Lit "</kbd>"; Lit "+"] ++ keys l end.
  Definition visit_keyboard_macro (d : nat) : cmd :=
    let l := n_list D d "keys" in
    put (if_pieces (1 <? length l) [Lit "<span class=""keyseq"">"] ++ keys l ++ if_pieces (1 <? length l) [Lit "</span>"]).
  (** [items.len() - 1] is checked in debug builds *)
  Fixpoint menu_items (l : list string) : pieces :=
    match l with
    | [] => []
    | [i] => [Lit "&#160;<b class=""caret"">&#8250;</b><b class="""; Lit "menuitem"">"; Raw i; Lit "</b>"]
    | i :: l => [Lit "&#160;<b class=""caret"">&#8250;</b><b class="""; Lit "submenu"">"; Raw i; Lit "</b>"] ++ menu_items l
    end.
  Definition visit_menu_macro (d : nat) : cmd :=
    match n_list D d "items" with
    | [] => fun _ => Panic
    | [i] => if debug then fun _ => Panic else put [Lit "<span class=""menuseq""><b class=""menu"">"; Raw i; Lit "</b>"; Lit "</span>"]
    | i :: l => put ([Lit "<span class=""menuseq""><b class=""menu"">"; Raw i; Lit "</b>"] ++ menu_items l ++ [Lit "</span>"])
    end.
  (** [mailto]: the scheme of the link *)
  Definition enter_link_macro (d in_xref has_text : nat) : cmd :=
    look (fun s =>
      if (in_xref =? 1) || f_toc (fl s) then nothing
      else
        let attrs := n_flag D d "attrs" in
        let t := if attrs then o_new "a" d else no_attrs "a" in
        let t := o_put ([Lit " href="""] ++ if_pieces (n_flag D d "mailto") [Lit "mailto:"] ++ [EscHref (n_text D d "target"); Lit """"]) t in
        let t := if attrs then o_link_attrs d (has_text =? 1) (n_flag D d "blank") t else t in
        let t := if negb attrs && (negb (has_text =? 1) && negb (n_flag D d "mailto")) then o_class "" "bare" t else t in
        put (o_finish t)).
  Definition exit_link_macro (d in_xref has_text : nat) : cmd :=
    look (fun s =>
      if (in_xref =? 1) || f_toc (fl s) then nothing
      else if has_text =? 1 then put [Lit "</a>"]
      else put [Esc (if get_is_true (dm s) "hide-uri-scheme" then n_text D d "target-without-scheme" else n_text D d "target"); Lit "</a>"]).
  Definition enter_mailto_macro (d has_text : nat) : cmd :=
    let t := if n_flag D d "attrs" then o_new "a" d else no_attrs "a" in
    let t := o_put ([Lit " href=""mailto:"; RawVal (n_text D d "address")] ++ opt_pieces (n_opt D d "subject") (fun x => [Lit "?subject="; RawVal x]) ++
                    opt_pieces (n_opt D d "body") (fun x => [if some (n_opt D d "subject") then Lit "&amp;body=" else Lit "?body="; RawVal x]) ++ [Lit """"]) t in
    put (o_finish t ++ if_pieces (negb (has_text =? 1)) [Raw (n_text D d "address")]).

  (** ** Footnotes: asciidoctor_html.rs:1461-1497, backend.rs:438-450 *)
  Fixpoint prev_num (i : nat) (l : list (option string * pieces)) (id : option string) : option nat :=
    match l with
    | [] => None
    | (p, _) :: l => match p, id with Some p, Some id => if (p =? id)%string then Some i else prev_num (S i) l (Some id) | _, _ => prev_num (S i) l id end
    end.
  Definition enter_footnote (d : nat) : cmd :=
    look (fun s => bind (put (match prev_num 1 (notes s) (n_id D d) with
                              | Some n => [Lit "<sup class=""footnoteref"">[<a class=""footnote"" href=""#_footnotedef_"; Num n; Lit """ title=""View footnote."">"; Num n; Lit "</a>]</sup>"]
                              | None => []
                              end)) (start_buffering debug)).
  Definition exit_footnote (d : nat) : cmd :=
    look (fun s =>
      match prev_num 1 (notes s) (n_id D d) with
      | Some _ => swap_discard_alt_buffer
      | None =>
          let n := length (notes s) + 1 in
          all [swap_discard_alt_buffer;
               put ([Lit "<sup class=""footnote"""] ++ opt_pieces (n_id D d) (fun i => [Lit " id=""_footnote_"; RawVal i; Lit """"]) ++
                    [Lit ">[<a id=""_footnoteref_"; Num n; Lit """ class=""footnote"" href=""#_footnotedef_"; Num n; Lit """ title=""View footnote."">"; Num n; Lit "</a>]</sup>"]);
               ok (set_notes (notes s ++ [(n_id D d, html s)]))]
      end).

  (** ** Attribute declarations: asciidoctor_html.rs:1442-1459 *)
  Definition visit_decl (d : nat) : cmd :=
    let '(name, value) := n_decl D d in
    all [ok (fun s => if (name =? "hardbreaks-option")%string then (if is_true value then set_nls JoinWithBreak JoinWithBreak s else set_nls JoinWithSpace JoinWithSpace s) else s);
         ok (fun s => set_dm (fst (insert_doc_attr (dm s) name value)) s)].

  (** ** All calls *)
  (** The calls by name, with the handler for their arguments. Calls that are not listed write nothing: those of book parts, the contents of compound blocks, passthroughs,
      passthrough blocks, index terms and plugins, and the end of the document (backend/src/backend.rs: default methods). *)
  Fixpoint handler {A} (l : list (string * A)) (name : string) : option A := match l with [] => None | (k, a) :: l => if (k =? name)%string then Some a else handler l name end.
  Definition arg (l : list nat) (i : nat) : nat := nth i l 0.
  Definition enters : list (string * (list nat -> cmd)) :=
    [("document", fun l => enter_document (arg l 0)); ("body", fun l => enter_body (arg l 0)); ("header", fun _ => enter_header); ("document_title", fun _ => enter_document_title);
     ("content", fun _ => enter_content); ("footer", fun _ => enter_footer); ("toc", fun l => enter_toc (arg l 0)); ("toc_level", fun l => enter_toc_level (arg l 0));
     ("toc_node", fun l => enter_toc_node (arg l 0)); ("book_part_title", fun l => enter_book_part_title (arg l 0)); ("book_part_intro", fun l => enter_book_part_intro (arg l 0));
     ("book_part_intro_content", fun l => enter_book_part_intro_content (arg l 0)); ("preamble", fun l => enter_preamble (arg l 0)); ("section", fun l => enter_section (arg l 0));
     ("section_heading", fun l => enter_section_heading (arg l 0)); ("meta_title", fun _ => enter_meta_title); ("simple_block_content", fun l => enter_simple_block_content (arg l 0));
     ("sidebar_block", fun l => enter_sidebar_block (arg l 0)); ("listing_block", fun l => enter_listing_block (arg l 0)); ("literal_block", fun l => enter_literal_block (arg l 0));
     ("quoted_paragraph", fun l => enter_quote_block (arg l 0)); ("quote_block", fun l => enter_quote_block (arg l 0)); ("quote_attribution", fun l => enter_quote_attribution (arg l 0));
     ("quote_cite", fun l => enter_quote_cite (arg l 1)); ("verse_block", fun l => enter_verse_block (arg l 0)); ("example_block", fun l => enter_example_block (arg l 0));
     ("open_block", fun l => enter_open_block (arg l 0)); ("discrete_heading", fun l => enter_discrete_heading (arg l 0) (arg l 1)); ("paragraph_block", fun l => enter_paragraph_block (arg l 0));
     ("admonition_block", fun l => enter_admonition_block (arg l 0) (arg l 1)); ("unordered_list", fun l => enter_unordered_list (arg l 0)); ("callout_list", fun l => enter_callout_list (arg l 0));
     ("description_list", fun l => enter_description_list (arg l 0)); ("description_list_term", fun l => enter_term (arg l 1)); ("description_list_description", fun _ => enter_description);
     ("description_list_description_text", fun _ => change_flags (with_term true)); ("ordered_list", fun l => enter_ordered_list (arg l 0) (arg l 1));
     ("list_item_principal", fun l => enter_item_principal (arg l 0) (arg l 1)); ("table", fun l => enter_table (arg l 0) (arg l 1)); ("table_section", fun l => enter_table_section (arg l 0));
     ("table_row", fun _ => put [Lit "<tr>"]); ("table_cell", fun l => enter_table_cell (arg l 0) (arg l 1)); ("cell_paragraph", fun l => enter_cell_paragraph (arg l 0) (arg l 1));
     ("image_block", fun l => enter_image_block (arg l 0) (arg l 1)); ("inline_quote", fun l => enter_quote (arg l 0)); ("xref", fun l => enter_xref (arg l 0));
     ("xref_text", fun l => put (if_pieces (arg l 0 =? 1) [Lit "["])); ("link_macro", fun l => enter_link_macro (arg l 0) (arg l 1) (arg l 2));
     ("mailto_macro", fun l => enter_mailto_macro (arg l 0) (arg l 1)); ("footnote", fun l => enter_footnote (arg l 0))] ++
    map (fun k => (span_name k, fun l => enter_span k (arg l 0))) [SBold; SItalic; SLitMono; SMono; SHighlight; SSuper; SSub; SText].
  Definition exits : list (string * (list nat -> cmd)) :=
    [("body", fun _ => exit_body); ("header", fun _ => exit_header); ("document_title", fun _ => exit_document_title); ("content", fun _ => exit_content); ("footer", fun _ => exit_footer);
     ("toc", fun l => exit_toc (arg l 0)); ("toc_level", fun _ => exit_toc_level); ("toc_node", fun l => exit_toc_node (arg l 0)); ("toc_content", fun _ => exit_toc_content);
     ("book_part_title", fun _ => exit_book_part_title); ("book_part_intro", fun _ => exit_book_part_intro); ("book_part_intro_content", fun _ => exit_book_part_intro_content);
     ("preamble", fun l => exit_preamble (arg l 0)); ("section", fun l => exit_section (arg l 0)); ("section_heading", fun l => exit_section_heading (arg l 0));
     ("meta_title", fun l => exit_meta_title (arg l 0)); ("simple_block_content", fun _ => default_newlines); ("sidebar_block", fun _ => exit_sidebar_block);
     ("listing_block", fun _ => exit_listing_block); ("literal_block", fun _ => exit_literal_block); ("quoted_paragraph", fun _ => exit_quoted_paragraph);
     ("quote_block", fun l => exit_quote_block (arg l 0) (arg l 1)); ("quote_attribution", fun l => exit_quote_attribution (arg l 1)); ("quote_cite", fun l => exit_quote_cite (arg l 1));
     ("verse_block", fun l => exit_quote_block (arg l 0) (arg l 1)); ("example_block", fun l => exit_example_block (arg l 0)); ("open_block", fun l => exit_open_block (arg l 0));
     ("discrete_heading", fun l => exit_discrete_heading (arg l 0)); ("paragraph_block", fun l => exit_paragraph_block (arg l 0)); ("admonition_block", fun _ => exit_admonition_block);
     ("unordered_list", fun _ => exit_unordered_list); ("callout_list", fun _ => exit_callout_list); ("description_list", fun _ => exit_description_list); ("description_list_term", fun _ => exit_term);
     ("description_list_description", fun _ => exit_description); ("description_list_description_text", fun _ => change_flags (with_term false)); ("ordered_list", fun _ => exit_ordered_list);
     ("list_item_principal", fun l => exit_item_principal (arg l 1)); ("list_item_blocks", fun l => exit_item_blocks (arg l 1)); ("table", fun _ => exit_table);
     ("table_section", fun l => exit_table_section (arg l 0)); ("table_row", fun _ => put [Lit "</tr>"]); ("table_cell", fun l => exit_table_cell (arg l 0) (arg l 1));
     ("cell_paragraph", fun l => exit_cell_paragraph (arg l 0) (arg l 1)); ("image_block", fun l => exit_image_block (arg l 0) (arg l 1)); ("inline_quote", fun l => exit_quote (arg l 0));
     ("xref", fun _ => exit_xref); ("xref_text", fun l => put (if_pieces (arg l 0 =? 1) [Lit "]"])); ("link_macro", fun l => exit_link_macro (arg l 0) (arg l 1) (arg l 2));
     ("mailto_macro", fun _ => put [Lit "</a>"]); ("footnote", fun l => exit_footnote (arg l 0))] ++
    map (fun k => (span_name k, fun _ => exit_span k)) [SBold; SItalic; SLitMono; SMono; SHighlight; SSuper; SSub; SText].
  Definition visits : list (string * (nat -> string -> cmd)) :=
    [("inline_text", fun _ x => put [Raw x]); ("inline_specialchar", fun d _ => visit_specialchar d); ("joining_newline", fun _ _ => visit_joining_newline);
     ("curly_quote", fun d _ => visit_curly_quote d); ("multichar_whitespace", fun _ _ => put [Lit " "]); ("symbol", fun d _ => visit_symbol d); ("spaced_dashes", fun d _ => visit_spaced_dashes d);
     ("image_macro", fun d _ => visit_image_macro d); ("button_macro", fun d _ => put [Lit "<b class=""button"">"; Raw (n_text D d "text"); Lit "</b>"]);
     ("keyboard_macro", fun d _ => visit_keyboard_macro d); ("menu_macro", fun d _ => visit_menu_macro d); ("icon_macro", fun d _ => visit_icon_macro d);
     ("inline_anchor", fun d _ => visit_inline_anchor d); ("linebreak", fun _ _ => put [Lit "<br> "]); ("callout", fun d _ => visit_callout d); ("callout_tuck", fun d _ => visit_callout_tuck d);
     ("missing_xref", fun _ x => visit_missing_xref x); ("biblio_anchor", fun _ x => visit_biblio_anchor x); ("thematic_break", fun d _ => put (open_element "hr" [] d));
     ("page_break", fun _ _ => put [Lit "<div style=""page-break-after: always;""></div>"]); ("audio_macro", fun d _ => visit_audio_macro d); ("video_macro", fun d _ => visit_video_macro d);
     ("document_attribute_decl", fun d _ => visit_decl d)].
  (** A cell is written by a backend of its own that shares the footnotes (asciidoctor_html.rs:779-790). *)
  Fixpoint call (e : event) : cmd :=
    match e with
    | Enter name args => match handler enters name with Some f => f args | None => nothing end
    | Exit name args => match handler exits name with Some f => f args | None => nothing end
    | Visit name d text => match handler visits name with Some f => f d text | None => nothing end
    | Cell_ l => fun s =>
        match (fix go (l : list event) (s : hst) : outcome hst := match l with [] => Ret s | e :: l => match call e s with Ret s' => go l s' | Panic => Panic end end)
                l (set_cell true (set_notes (notes s) fresh)) with
        | Ret s' => Ret (set_notes (notes s') (set_html (html s ++ html s') (set_cell false s)))
        | Panic => Panic
        end
    end.
  Fixpoint calls (l : list event) : cmd := match l with [] => Ret | e :: l => bind (call e) (calls l) end.
End Html.

(** ** The output for a document: eval/src/eval.rs:7-15. The backend of an inner index term is asked whether it wants the term (1499-1507): visible terms are
    evaluated, concealed ones are not; here the answer may be any. *)
Definition output (D : details) (debug : bool) (l : list event) : outcome pieces := match calls D debug l fresh with Ret s => Ret (html s) | Panic => Panic end.
