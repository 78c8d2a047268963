(** Model of the semantic HTML backend: backend-html5s/src/html5s.rs, with backend/src/html/{backend,htmlbuf,open_tag,table,video,util,list}.rs. It receives the calls
    of EvalModel, like the backend of HtmlModel, and takes from there what both share: pieces, details of nodes, the state, commands and opening tags. Lines without a
    file are of html5s.rs. *)
From Verif Require Import Base AttrsModel EvalModel EscapeModel HtmlModel.
Open Scope string_scope.
Open Scope nat_scope.
Open Scope list_scope.

(** [Self::default()], 7-27. Simplified: [section_level_stack] is not kept; what is read from it is a number of the table of contents. *)
Definition fresh5 : hst := Hst [] [] empty_meta Preserve Preserve 0 [] no_flags 0 [] 0 false 0 [].

(** ** Taking characters off the end of what is written *)
(** the first [k] bytes of a piece *)
Definition shorten (k : nat) (p : piece) : piece :=
  match p with
  | Lit s => Lit (substring 0 k s)
  | Raw s => Raw (substring 0 k s)
  | RawVal s => RawVal (substring 0 k s)
  | Num _ => Lit (string_of_list_ascii (firstn k (bytes_of_piece p)))
  | _ => Raw (string_of_list_ascii (firstn k (bytes_of_piece p)))
  end.
(** from the end *)
Fixpoint cut_rev (n : nat) (ps : pieces) : pieces :=
  match n, ps with
  | 0, _ | _, [] => ps
  | _, p :: ps => let k := length (bytes_of_piece p) in if k <=? n then cut_rev (n - k) ps else shorten (k - n) p :: ps
  end.
Definition cut (n : nat) (ps : pieces) : pieces := rev (cut_rev n (rev ps)).
(** [String::pop]. Simplified: the last character is taken to be one of one byte. *)
Definition pop5 : cmd := ok (fun s => set_html (cut 1 (html s)) s).
(** [String::truncate(len.saturating_sub(n))]: panics when that would leave a part of a character *)
Definition is_continuation (c : ascii) : bool := let n := nat_of_ascii c in (128 <=? n) && (n <? 192).
Definition truncate5 (n : nat) : cmd :=
  look (fun s => let x := bytes_of (html s) in
    if match nth_error x (length x - n) with Some c => is_continuation c | None => false end then fun _ => Panic else ok (fun s => set_html (cut n (html s)) s)).

Section Html5s.
  Context (D : details) (debug : bool).

  (** ** The document: 38-141, 1523-1595, backend.rs:40-83, 761-823 *)
  Definition doc_head5 (d : nat) (m : meta) (cell_dm : meta) : pieces :=
    [Lit "<!DOCTYPE html><html"] ++ if_pieces (negb (get_is_true m "nolang")) [Lit " lang="""; RawVal (str_or m "lang" "en"); Lit """"] ++ [Lit "><head>"] ++
    [Lit "<meta charset="""; RawVal (str_or m "encoding" "UTF-8"); Lit """>"; Lit "<meta http-equiv=""X-UA-Compatible"" content=""IE=edge"">";
     Lit "<meta name=""viewport"" content=""width=device-width, initial-scale=1.0"">"] ++
    if_pieces (negb (get_is_true m "reproducible")) [Lit "<meta name=""generator"" content=""Asciidork"">"] ++
    opt_pieces (m_str m "app-name") (fun x => [Lit "<meta name=""application-name"" content="""; RawVal x; Lit """>"]) ++
    opt_pieces (m_str m "description") (fun x => [Lit "<meta name=""description"" content="""; RawVal x; Lit """>"]) ++
    opt_pieces (m_str m "keywords") (fun x => [Lit "<meta name=""keywords"" content="""; RawVal x; Lit """>"]) ++
    opt_pieces (m_str m "copyright") (fun x => [Lit "<meta name=""copyright"" content="""; RawVal x; Lit """>"]) ++
    (match get m "favicon" with
     | Some (AStr path) => [Lit "<link rel=""icon"" type=""image/"; RawVal (n_text D d "favicon-ext"); Lit """ href="""; RawVal path; Lit """>"]
     | Some (ABool true) => [Lit "<link rel=""icon"" type=""image/x-icon"" href=""favicon.ico"">"]
     | _ => []
     end) ++
    if_pieces (negb (match m_authors m with [] => true | _ => false end))
      [Lit "<meta name=""author"" content="""; RawVal (String.concat ", " (map fullname (m_authors m))); Lit """>"] ++
    [Lit "<title>"; Raw (match m_str m "title" with Some t => t | None => match n_opt D d "plain-title" with Some t => t | None => "Untitled" end end); Lit "</title>"] ++
    (match m_str cell_dm "stylesheet", m_str cell_dm "_asciidork_resolved_custom_css" with
     | Some "", _ => [Lit "<style>"; Raw (n_text D d "default-css"); Lit "</style>"]
     | _, Some css => [Lit "<style>"; Raw css; Lit "</style>"]
     | _, None => []
     end).
  Definition enter_document5 (d : nat) : cmd :=
    all [ok (set_dm (fst (insert_doc_attr (n_meta D d) "outfilesuffix" (AStr ".html"))));
         look (fun s => if standalone s then put (doc_head5 d (n_meta D d) (dm s)) else nothing)].
  Definition enter_body5 (d : nat) : cmd :=
    look (fun s => if standalone s then
      bind (put ([Lit "</head>"; Lit "<body"] ++ opt_pieces (m_str (n_meta D d) "css-signature") (fun x => [Lit " id="""; RawVal x; Lit """"]) ++
                 [Lit " class="""; Lit (doctype_str (m_doctype (n_meta D d))); RawVal (n_text D d "toc-classes"); Lit """"; Lit ">"]))
           (match m_str (n_meta D d) "max-width" with Some w => bind pop5 (put [Lit " style=""max-width: "; RawVal w; Lit ";"">"]) | None => nothing end) else nothing).
  Definition exit_body5 : cmd := look (fun s => if standalone s then put [Lit "</body></html>"] else nothing).
  Definition enter_header5 : cmd := look (fun s => if has_header (dm s) then put [Lit "<header>"] else nothing).
  (** 1543-1595; what [version-label] is in lower case and the date in the form for machines are texts of the document, by the label 0 *)
  Definition author_detail5 (i : nat) (a : author) : pieces :=
    [Lit "<span class=""author"" id=""author"] ++ author_number i ++ [Lit """>"; Raw (fullname a); Lit "</span><br>"] ++
    opt_pieces (email a) (fun e => [Lit "<span class=""email"" id=""email"] ++ author_number i ++ [Lit """><a href=""mailto:"; RawVal e; Lit """>"; Raw e; Lit "</a></span>"] ++
                                   if_pieces (i =? 0) [Lit "<br>"]).
  Fixpoint author_details5 (i : nat) (l : list author) : pieces := match l with [] => [] | a :: l => author_detail5 i a ++ author_details5 (S i) l end.
  Definition header_details5 (m : meta) : pieces :=
    [Lit "<div class=""details"">"] ++ author_details5 0 (m_authors m) ++
    opt_pieces (m_str m "revnumber") (fun r => [Lit "<span id=""revnumber"">"; Raw (n_text D 0 "version-label"); Raw " "; Raw r] ++
                                               (if is_set m "revdate" then [Lit ",</span> "] else [Lit "</span>"])) ++
    opt_pieces (m_str m "revdate") (fun r => [Lit "<time id=""revdate"" datetime="""; RawVal (n_text D 0 "datetime"); Lit """>"; Raw r; Lit "</time>"]) ++
    opt_pieces (m_str m "revremark") (fun r => [Lit "<br><span id=""revremark"">"; Raw r; Lit "</span>"]) ++ [Lit "</div>"].
  Definition exit_header5 : cmd :=
    look (fun s => if has_header (dm s) then
      put (if_pieces (negb (match m_authors (dm s) with [] => true | _ => false end) || is_set (dm s) "revnumber" || is_set (dm s) "revdate" || is_set (dm s) "revremark") (header_details5 (dm s)) ++
           [Lit "</header>"]) else nothing).
  Definition enter_content5 : cmd := look (fun s => if m_embedded (dm s) then nothing else put [Lit "<div id=""content"">"]).
  Definition exit_content5 : cmd := look (fun s => if m_embedded (dm s) then nothing else put [Lit "</div>"]).
  (** 1523-1541 *)
  Fixpoint footnote_list5 (i : nat) (l : list (option string * pieces)) : pieces :=
    match l with
    | [] => []
    | (_, text) :: l =>
        [Lit "<li class=""footnote"" id=""_footnote_"; Num i; Lit """ role=""doc-endnote"">"] ++ text ++
        [Lit " <a class=""footnote-backref"" href=""#_footnoteref_"; Num i; Lit """ role=""doc-backlink"" title=""Jump to the first occurrence in the text"">&#8617;</a></li>"] ++
        footnote_list5 (S i) l
    end.
  Definition render_footnotes5 (l : list (option string * pieces)) : pieces :=
    [Lit "<section class=""footnotes"" aria-label=""Footnotes"" role=""doc-endnotes"">"; Lit "<hr><ol class=""footnotes"">"] ++ footnote_list5 1 l ++ [Lit "</ol></section>"].
  Definition enter_footer5 : cmd :=
    all [look (fun s => match notes s with [] => nothing | l => if in_cell s then nothing else put (render_footnotes5 l) end);
         look (fun s => if has_footer (dm s) then
           put ([Lit "<footer><div id=""footer-text"">"] ++ opt_pieces (m_str (dm s) "revnumber") (fun r => [Raw (str_or (dm s) "version-label" ""); Raw " "; Raw r]) ++ [Lit "</div>"])
           else nothing)].
  Definition exit_footer5 : cmd := look (fun s => if has_footer (dm s) then put [Lit "</footer>"] else nothing).

  (** ** The table of contents: 143-187. One in the place of the preamble is written to the other buffer, which [exit_preamble] puts after it. *)
  Definition enter_toc5 (d : nat) : cmd :=
    bind (if position_eqb (n_position D d) PPreamble then start_buffering debug else nothing)
      (look (fun s =>
        let id := match n_opt D d "macro-id" with Some i => i | None => "toc" end in
        let level := n_num D d "toc-level" + 2 in
        all [change_flags (with_toc true);
             put ([Lit "<nav id="""; RawVal id; Lit """ class="""; RawVal (str_or (dm s) "toc-class" "toc"); Lit """ role=""doc-toc"] ++
                  if_pieces (negb (m_embedded (dm s)) && (position_eqb (n_position D d) PLeft || position_eqb (n_position D d) PRight)) [Lit "2"] ++
                  [Lit """><h"; Num level; Lit " id="""; RawVal id; Lit "-title"">"; Raw (n_text D d "title"); Lit "</h"; Num level; Lit ">"])])).
  Definition exit_toc5 : cmd := all [put [Lit "</nav>"]; ok (set_appendix 0); change_flags (with_toc false)].
  Definition enter_toc_level5 (level : nat) : cmd := put [Lit "<ol class=""toc-list level-"; Num level; Lit """>"].
  Definition exit_toc_level5 : cmd := put [Lit "</ol>"].

  (** ** Parts and sections: 189-277, backend.rs:689-759 *)
  Definition enter_book_part5 (d : nat) : cmd := put (o_finish (o_classes ["doc-section"; "level-0"] (o_new_with_id false "section" None (n_roles D d)))).
  Definition exit_book_part5 : cmd := put [Lit "</section>"].
  (** the quote is written with or without an id *)
  Definition enter_book_part_title5 (d : nat) : cmd :=
    put ([Lit "<h1"] ++ opt_pieces (n_opt D d "id") (fun i => [Lit " id="""; RawVal i]) ++ [Lit """>"; Raw (n_text D d "number")]).
  Definition exit_book_part_title5 : cmd := put [Lit "</h1>"].
  Definition enter_book_part_intro5 (d : nat) : cmd :=
    put (if n_title D d then [Lit "<section class=""open-block partintro"">"; Lit "<h6 class=""block-title"">"] else [Lit "<div class=""open-block partintro"">"]).
  Definition exit_book_part_intro5 (d : nat) : cmd := put (if n_title D d then [Lit "</section>"] else [Lit "</div>"]).
  Definition enter_book_part_intro_content5 (d : nat) : cmd := put (if_pieces (n_title D d) [Lit "</h6>"] ++ [Lit "<div class=""content"">"]).
  Definition exit_book_part_intro_content5 : cmd := put [Lit "</div>"].
  Definition enter_preamble5 (has : nat) : cmd := put (if_pieces (has =? 1) [Lit "<section id=""preamble"" aria-label=""Preamble"">"]).
  (** 246-254, htmlbuf.rs: [swap_take_buffer] *)
  Definition exit_preamble5 (has : nat) : cmd :=
    look (fun s =>
      match bytes_of (alt s) with
      | [] => put (if_pieces (has =? 1) [Lit "</section>"])
      | _ => bind swap_discard_alt_buffer (bind (put (if_pieces (has =? 1) [Lit "</section>"])) (put (html s)))
      end).
  Definition enter_section5 (d : nat) : cmd :=
    all [change_flags (fun f => if is_appendix D d then with_appendix true f else if is_bibliography D d then with_bibliography true f else f);
         put (o_finish (o_class "" ("level-" ++ dec (section_level D d)) (o_class "" "doc-section" (o_new_with_id false "section" None (n_roles D d)))))].
  Definition exit_section5 (d : nat) : cmd :=
    all [put [Lit "</section>"];
         change_flags (fun f => if is_appendix D d then with_appendix false f else if is_bibliography D d then with_bibliography false f else f)].
  Definition enter_section_heading5 (d : nat) : cmd :=
    all [look (fun s =>
           put (match n_opt D d "id" with
                | Some id =>
                    [Lit "<h"; Num (section_level D d + 1); Lit " id="""; RawVal id; Lit """>"] ++
                    if_pieces (get_is_true (dm s) "sectanchors") [Lit "<a class=""anchor"" href=""#"; RawVal id; Lit """ aria-hidden=""true"; Lit """></a>"] ++
                    if_pieces (get_is_true (dm s) "sectlinks") [Lit "<a class=""link"" href=""#"; RawVal id; Lit """>"]
                | None => [Lit "<h"; Num (section_level D d + 1); Lit ">"]
                end));
         if is_appendix D d then appendix_caption else put [Raw (n_text D d "number")]].
  Definition exit_section_heading5 (d : nat) : cmd :=
    look (fun s => put (if_pieces (get_is_true (dm s) "sectlinks" && some (n_opt D d "id")) [Lit "</a>"] ++ [Lit "</h"; Num (section_level D d + 1); Lit ">"])).

  (** ** Titles: 1453-1463, 1474-1521 *)
  Definition captioned (c : context) : bool := match c with XTable | XImage | XExample | XListing | XAudio | XVideo => true | _ => false end.
  Definition render_block_title5 (title : pieces) (d : nat) (h6 : bool) : cmd :=
    look (fun s =>
      let cap := captioned (n_context D d) in
      let around x := if_pieces h6 [Lit "<h6 class=""block-title"">"] ++ if_pieces cap [Lit "<figcaption>"] ++ x ++ if_pieces cap [Lit "</figcaption>"] ++ if_pieces h6 [Lit "</h6>"] in
      match n_named D d "caption" with
      | Some c => put (around ([Raw c] ++ title))
      | None =>
          match caption_name (n_context D d) with
          | Some k =>
              match m_str (dm s) k with
              | Some c => bind (put (around ([Raw c; Lit " "; Num (next_caption (captions s) k); Lit ". "] ++ title))) (ok (fun s => set_captions ((k, next_caption (captions s) k) :: captions s) s))
              | None => put (around title)
              end
          | None => put (around title)
          end
      end).
  Definition block_title5 (d : nat) (h6 : bool) : cmd :=
    if n_title D d then look (fun s => bind discard_alt_buffer (render_block_title5 (alt s) d h6)) else nothing.

  (** ** Blocks: 279-494 *)
  Definition is_quote (d : nat) : bool := match n_context D d with XBlockQuote => true | _ => false end.
  Definition enter_simple_block_content5 (d : nat) : cmd :=
    bind (put (if_pieces (is_quote d) [Lit "<p>"])) (ok (fun s => if n_option D d "hardbreaks" then set_nls (default_nl s) JoinWithBreak s else s)).
  Definition exit_simple_block_content5 (d : nat) : cmd :=
    bind (put (if is_quote d then [Lit "</p>"] else if is_verse D d then [Lit "</pre>"] else [])) default_newlines.
  (** the element that a block with a title is, or one without *)
  Definition by_title (yes : string) (d : nat) : string := if n_title D d then yes else "div".
  Definition end_tag (elem : string) : piece := Lit ("</" ++ elem ++ ">").
  Definition enter_sidebar_block5 (d : nat) : cmd := all [put (open_element D "aside" ["sidebar"] d); block_title5 d true].
  Definition exit_sidebar_block5 : cmd := put [Lit "</aside>"].
  Definition enter_listing_block5 (d : nat) : cmd :=
    all [put (open_element D (by_title "figure" d) ["listing-block"] d); block_title5 d false; put [Lit "<pre"];
         look (fun s =>
           if n_flag D d "source" || some (m_str (dm s) "source-language") then
             bind (put ([Lit " class=""highlight"] ++ if_pieces (n_option D d "nowrap") [Lit " nowrap"] ++
                        if_pieces (n_option D d "numbered" || n_option D d "linenums" || match n_pos D d 2 with Some s => (s =? "linenums")%string | None => false end) [Lit " linenums"] ++
                        opt_pieces (m_str (dm s) "source-highlighter") (fun h => [Lit " "; RawVal h]) ++ [Lit """><code"] ++
                        opt_pieces (or_else (n_opt D d "language") (m_str (dm s) "source-language")) language_classes))
               (change_flags (with_source true))
           else nothing);
         put [Lit ">"]].
  Definition exit_listing_block5 (d : nat) : cmd :=
    all [look (fun s => if f_source (fl s) then bind (change_flags (with_source false)) (put [Lit "</code>"]) else nothing); put [Lit "</pre>"]; put [end_tag (by_title "figure" d)]].
  Definition enter_literal_block5 (d : nat) : cmd :=
    all [put (open_element D (by_title "section" d) ["literal-block"] d); block_title5 d true; put [Lit "<pre>"]; preserve_newlines].
  Definition exit_literal_block5 (d : nat) : cmd := all [put [Lit "</pre>"; end_tag (by_title "section" d)]; default_newlines].
  Definition enter_quoted_paragraph5 (d : nat) : cmd := all [put (open_element D "div" ["quote-block"] d); block_title5 d false; put [Lit "<blockquote><p>"]].
  Definition exit_quoted_paragraph5 : cmd := put [Lit "</blockquote></div>"].
  Definition enter_quote_block5 (d : nat) : cmd :=
    all [put (open_element D (by_title "section" d) ["quote-block"] d); block_title5 d true; put [Lit "<blockquote>"]].
  Definition exit_quote_block5 (d : nat) : cmd := put [Lit "</blockquote>"; end_tag (by_title "section" d)].
  Definition is_quoted_paragraph (d : nat) : bool := match n_context D d with XQuotedParagraph => true | _ => false end.
  Definition enter_quote_attribution5 (d : nat) : cmd := put (if_pieces (is_quoted_paragraph d) [Lit "</p>"] ++ [Lit "<footer>&#8212; <cite>"]).
  Definition exit_quote_attribution5 (has_cite : nat) : cmd := put (if_pieces (negb (has_cite =? 1)) [Lit "</cite></footer>"]).
  Definition enter_quote_cite5 (has_attribution : nat) : cmd := put (if has_attribution =? 1 then [Lit ", "] else [Lit "<footer>&#8212; <cite>"]).
  Definition exit_quote_cite5 : cmd := put [Lit "</cite></footer>"].
  Definition enter_verse_block5 (d has_attribution : nat) : cmd :=
    all [put (open_element D "div" ["verse-block"] d); block_title5 d false; put (if_pieces (has_attribution =? 1) [Lit "<blockquote class=""verse"">"] ++ [Lit "<pre class=""verse"">"])].
  Definition exit_verse_block5 (d has_attribution : nat) : cmd := put (if_pieces (has_attribution =? 1) [Lit "</blockquote>"] ++ [end_tag (by_title "section" d)]).
  Definition enter_example_block5 (d : nat) : cmd :=
    if n_option D d "collapsible" then
      all [put (open_element D "details" [] d);
           (if n_option D d "open" then bind pop5 (put [Lit " open>"]) else nothing);
           (if n_title D d then look (fun s => bind discard_alt_buffer (put ([Lit "<summary>"] ++ alt s ++ [Lit "</summary>"]))) else nothing);
           put [Lit "<div class=""content"">"]]
    else all [put (open_element D (by_title "figure" d) ["example-block"] d); block_title5 d false; put [Lit "<div class=""example"">"]].
  Definition exit_example_block5 (d : nat) : cmd := put (if n_option D d "collapsible" then [Lit "</div></details>"] else [Lit "</div>"; end_tag (by_title "figure" d)]).
  Definition enter_open_block5 (d : nat) : cmd :=
    if is_abstract D d then all [put (open_element D (by_title "section" d) ["quote-block abstract"] d); block_title5 d true; put [Lit "<blockquote>"]]
    else all [put (open_element D "div" ["open-block"] d); block_title5 d true; put [Lit "<div class=""content"">"]].
  Definition exit_open_block5 (d : nat) : cmd := put (if is_abstract D d then [Lit "</blockquote>"; end_tag (by_title "section" d)] else [Lit "</div></div>"]).

  (** ** Lists: 496-657, backend.rs:549-634, list.rs. Whether an item is checked, and whether the first block of an item is one before which its text is a paragraph,
      are flags of the item. *)
  Definition enter_unordered_list5 (d depth : nat) : cmd :=
    look (fun s =>
      let classes := (if f_bibliography (fl s) || is_bibliography D d then ["bibliography"] else []) ++ match n_opt D d "marker" with Some c => [c] | None => [] end in
      all [ok (fun s => set_interactive (n_option D d "interactive" :: interactive s) s);
           put (if_pieces (depth =? 1) (o_finish (o_classes ("ulist" :: classes) (o_new D (by_title "section" d) d)))); block_title5 d true;
           put (o_finish (o_classes (classes ++ if n_flag D d "checklist" then ["task-list"] else []) (no_attrs "ul")))]).
  Definition exit_unordered_list5 (d depth : nat) : cmd :=
    all [ok (fun s => set_interactive (tl (interactive s)) s); put ([Lit "</ul>"] ++ if_pieces (depth =? 1) [end_tag (by_title "section" d)])].
  (** 516-523: the last six bytes are taken to be the end tag of a listing or of another list of callouts *)
  Definition enter_callout_list5 (d : nat) : cmd := bind (truncate5 6) (put (open_element D "ol" ["callout-list arabic"] d)).
  Definition exit_callout_list5 : cmd := put [Lit "</ol>"; Lit "</div>"].
  Definition if_class (c : bool) (class : string) (t : otag) : otag := if c then o_class "" class t else t.
  Definition enter_description_list5 (d depth : nat) : cmd :=
    let horizontal := n_has_pos D d "horizontal" in
    let qanda := n_has_pos D d "qanda" in
    let glossary := is_glossary D d in
    all [ok (fun s => set_desc (S (desc_depth s)) s); change_flags (fun f => if glossary then with_glossary true f else f);
         (if depth =? 1 then
            bind (put (o_finish (if_class glossary "glossary" (if_class qanda "qanda" (if_class horizontal "horizontal" (o_class "" "dlist" (o_new D (by_title "section" d) d)))))))
                 (if qanda then bind pop5 (put [Lit " role=""doc-qna"">"]) else nothing)
          else nothing);
         block_title5 d true;
         put ([Lit "<dl"] ++ if_pieces qanda [Lit " class=""qanda"""] ++ (if glossary then [Lit " class=""glossary"""] else if_pieces horizontal [Lit " class=""horizontal"""]) ++ [Lit ">"])].
  Definition exit_description_list5 (d depth : nat) : cmd :=
    all [change_flags (with_glossary false); put ([Lit "</dl>"] ++ if_pieces (depth =? 1) [end_tag (by_title "section" d)]); ok (fun s => set_desc (pred (desc_depth s)) s)].
  Definition enter_description_text5 (i : nat) : cmd := change_flags (fun f => if n_flag D i "text-only" then with_term true f else f).
  Definition enter_ordered_list5 (d depth : nat) : cmd :=
    look (fun s =>
      if debug && (depth <? desc_depth s) then fun _ => Panic
      else
        let n := (depth + 256 - desc_depth s) mod 256 in
        let custom := n_opt D d "number-style" in
        let class := match custom with Some c => c | None => class_from_depth n end in
        let type := match (match custom with Some c => type_from_class c | None => None end) with Some t => t | None => type_from_depth n end in
        all [ok (fun s => set_interactive (false :: interactive s) s); put (if_pieces (depth =? 1) (open_element D (by_title "section" d) ["olist"; class] d)); block_title5 d true;
             put ([Lit "<ol class="""; RawVal class; Lit """"] ++ if_pieces (negb (type =? "1")%string) [Lit " type="""; RawVal type; Lit """"] ++
                  (match n_named D d "start" with
                   | Some x => [Lit " start="""; RawVal x; Lit """"]
                   | None => if_pieces (n_flag D d "digits" && negb (n_num D d "first" =? 1)) [Lit " start="""; Num (n_num D d "first"); Lit """"]
                   end) ++ if_pieces (n_option D d "reversed") [Lit " reversed"] ++ [Lit ">"])]).
  Definition exit_ordered_list5 (d depth : nat) : cmd :=
    all [ok (fun s => set_interactive (tl (interactive s)) s); put ([Lit "</ol>"] ++ if_pieces (depth =? 1) [end_tag (by_title "section" d)])].
  Definition enter_item_principal5 (d : nat) : cmd :=
    put ((if n_flag D d "checklist" then
            [Lit "<li class=""task-list-item""><input class=""task-list-item-checkbox"" type=""checkbox"" disabled"; if n_flag D d "checked" then Lit " checked>" else Lit ">"]
          else [Lit "<li>"]) ++ if_pieces (n_flag D d "first-block") [Lit "<p>"]).
  Definition exit_item_principal5 (d : nat) : cmd := put (if_pieces (n_flag D d "first-block") [Lit "</p>"]).
  (** 659-703 *)
  Definition enter_paragraph_block5 (d : nat) : cmd :=
    look (fun s =>
      if doctype_eqb (m_doctype (dm s)) Inline then nothing
      else bind (if n_title D d then bind (put [if is_abstract D d then Lit "<section class=""quote-block abstract"">" else Lit "<section class=""paragraph"">"]) (block_title5 d true) else nothing)
             (put (if f_term (fl s) then [] else if is_abstract D d then [Lit "<blockquote>"] else open_element D "p" [] d))).
  Definition exit_paragraph_block5 (d : nat) : cmd :=
    look (fun s =>
      if doctype_eqb (m_doctype (dm s)) Inline then nothing
      else bind (put ((if f_term (fl s) then [] else if is_abstract D d then [Lit "</blockquote>"] else [Lit "</p>"]) ++ if_pieces (n_title D d) [Lit "</section>"])) (change_flags (with_term false))).

  (** ** Tables: 717-806, 1598-1646, table.rs *)
  Definition enter_table5 (tb d : nat) : cmd :=
    look (fun s =>
      let t := o_resolved_class D "frame" "table-frame" "frame-" (Some "all") d (dm s) (no_attrs "table") in
      let t := o_resolved_class D "grid" "table-grid" "grid-" (Some "all") d (dm s) t in
      let width := n_opt D d "explicit-width" in
      let t := if_class (negb (n_option D d "autowidth") && negb (some width)) "stretch" t in
      let t := o_resolved_class D "stripes" "table-stripes" "stripes-" None d (dm s) t in
      let t := match width with Some w => o_style ("width: " ++ w ++ "%;") t | None => t end in
      let t := match n_named D d "float" with Some x => o_style ("float: " ++ x ++ ";") t | None => t end in
      all [put (open_element D (by_title "figure" d) ["table-block"] d); block_title5 d false; put (o_finish t);
           put ([Lit "<colgroup>"] ++
                flat_map (fun w => [Lit "<col"] ++ if_pieces (negb (n_option D d "autowidth") && negb (w =? "")%string) [Lit " style=""width: "; RawVal w; Lit "%;"""] ++ [Lit ">"]) (n_list D tb "widths") ++
                [Lit "</colgroup>"])]).
  Definition exit_table5 (d : nat) : cmd := put [Lit "</table>"; end_tag (by_title "figure" d)].
  Definition open_cell5 (d sect : nat) : pieces :=
    [if heads D d sect then Lit "<th class=""" else Lit "<td class="""; Lit "halign-"; RawVal (n_text D d "halign"); Lit " valign-"; RawVal (n_text D d "valign")] ++
    if_pieces (1 <? n_num D d "colspan") [Lit """ colspan="""; Num (n_num D d "colspan")] ++
    if_pieces (1 <? n_num D d "rowspan") [Lit """ rowspan="""; Num (n_num D d "rowspan")] ++ [Lit """>"].
  Definition enter_table_cell5 (d sect : nat) : cmd :=
    all [put (open_cell5 d sect); match n_cell D d with CsLiteral => bind preserve_newlines (put [Lit "<div class=""literal""><pre>"]) | _ => nothing end].
  Definition exit_table_cell5 (d sect : nat) : cmd :=
    if heads D d sect then all [ok (fun s => if ends_with_space (html s) then set_html (cut 1 (html s)) s else s); put [Lit "</th>"]]
    else match n_cell D d with
         | CsLiteral => all [default_newlines; put [Lit "</pre></div></td>"]]
         | _ => put [Lit "</td>"]
         end.
  Definition enter_cell_paragraph5 (d sect : nat) : cmd :=
    put (if_pieces (n_flag D d "multi") [Lit "<p>"] ++ match n_cell D d with CsEmphasis => [Lit "<em>"] | CsMonospace => [Lit "<code>"] | CsStrong => [Lit "<strong>"] | _ => [] end).
  Definition exit_cell_paragraph5 (d sect : nat) : cmd :=
    put ((if sect =? 0 then [Lit " "] else match n_cell D d with CsEmphasis => [Lit "</em>"] | CsMonospace => [Lit "</code>"] | CsStrong => [Lit "</strong>"] | _ => [] end) ++
         if_pieces (n_flag D d "multi") [Lit "</p>"]).

  (** ** Inline nodes: 806-1094, 1196-1251, 1648-1658 *)
  Definition is_strike (r : string) : bool := (r =? "line-through")%string || (r =? "strike")%string.
  Definition text_span_tag (d : nat) : string :=
    if n_flag D d "attrs" then
      match n_roles D d with
      | r :: _ => if is_strike r then "s" else if (r =? "del")%string then "del" else if (r =? "ins")%string then "ins" else "span"
      | [] => "span"
      end
    else "span".
  Definition other_roles (elem : string) (l : list string) : list string :=
    if (elem =? "s")%string then filter (fun r => negb (is_strike r)) l else if (elem =? "span")%string then l else filter (fun r => negb (r =? elem)%string) l.
  Definition enter_text_span5 (d : nat) : cmd :=
    put (if n_flag D d "attrs" then o_finish (o_new_with_id true (text_span_tag d) (n_id D d) (other_roles (text_span_tag d) (n_roles D d))) else [Lit "<span>"]).
  Definition exit_text_span5 (d : nat) : cmd := put [end_tag (text_span_tag d)].
  Definition visit_spaced_dashes5 (d : nat) : cmd := put (if n_num D d "len" =? 2 then [Lit "&#8201;&#8211;&#8201;"] else [Lit "&#8201;&#8212;&#8201;"]).
  Definition visit_symbol5 (d : nat) : cmd :=
    put [match n_num D d "symbol" with
         | 0 => Lit "&#169;" | 1 => Lit "&#174;" | 2 => Lit "&#8482;" | 3 => Lit "&#8211;" | 4 => Lit "&#8212;&#8203;" | 5 => Lit "&#8230;&#8203;" | 6 => Lit "&#8594;" | 7 => Lit "&#8658;"
         | 8 => Lit "&#8592;" | _ => Lit "&#8656;"
         end].
  Definition among (x : string) (l : list string) : bool := existsb (fun y => (x =? y)%string) l.
  Definition quote_entities (lang : string) : (string * string) * (string * string) :=
    if among lang ["bs"; "fi"; "sv"] then (("&#x2019;", "&#x2019;"), ("&#x201d;", "&#x201d;"))
    else if among lang ["cs"; "da"; "de"; "is"; "lt"; "sl"; "sk"; "sr"] then (("&#x201a;", "&#x2018;"), ("&#x201e;", "&#x201c;"))
    else if among lang ["nl"] then (("&#x201a;", "&#x2019;"), ("&#x201e;", "&#x201d;"))
    else if among lang ["hu"; "pl"; "ro"] then (("&#x00ab;", "&#x00bb;"), ("&#x201e;", "&#x201d;"))
    else (("&#x2018;", "&#x2019;"), ("&#x201c;", "&#x201d;")).
  Definition quote_of (d : nat) (s : hst) : string * string := let q := quote_entities (str_or (dm s) "lang" "en") in if n_flag D d "double" then snd q else fst q.
  Definition enter_quote5 (d : nat) : cmd := look (fun s => put [Lit (fst (quote_of d s))]).
  Definition exit_quote5 (d : nat) : cmd := look (fun s => put [Lit (snd (quote_of d s))]).
  Definition newline : string := String "010" "".
  Definition visit_joining_newline5 : cmd := look (fun s => put [match nl s with JoinWithBreak => Lit ("<br>" ++ newline) | _ => Lit newline end]).
  Definition visit_inline_anchor5 (d : nat) : cmd := look (fun s => put (if_pieces (negb (f_toc (fl s))) [Lit "<a id="""; RawVal (n_text D d "id"); Lit """ aria-hidden=""true""></a>"])).
  Definition visit_biblio_anchor5 (id : string) : cmd :=
    put [Lit "<a id="""; RawVal id; Lit """ aria-hidden=""true""></a>["; Raw (match n_biblio D id with Some t => t | None => id end); Lit "]"].
  Definition visit_callout5 (d : nat) : cmd :=
    look (fun s => put (if_pieces (negb (ends_with_space (html s))) [Lit " "] ++ if_pieces (n_flag D d "xml") [Lit "&lt;!--"] ++ [Lit "<b class=""conum"">"; Num (n_num D d "callout"); Lit "</b>"] ++
                        if_pieces (n_flag D d "xml") [Lit "--&gt;"])).
  Definition role_classes (d : nat) : pieces := flat_map (fun r => [Lit " "; RawVal r]) (n_roles D d).
  Definition visit_icon_macro5 (d : nat) : cmd :=
    look (fun s =>
      let alt := match n_named D d "alt" with Some a => a | None => n_text D d "target" end in
      put (opt_pieces (n_named D d "link") (fun l => [Lit "<a class=""image"""] ++ html_attr "href" l ++ link_constraint_attrs D d ++ [Lit ">"]) ++
           (match icon_mode (dm s) with
            | IconText => [Lit "<b class=""icon"] ++ role_classes d ++ opt_pieces (n_named D d "title") (fun x => [Lit """ title="""; RawVal x]) ++ [Lit """>["; Raw alt; Lit "]</b>"]
            | IconImage =>
                [Lit "<img src="""] ++ icon_path (dm s) ++ [RawVal (n_text D d "target")] ++ icon_ext (dm s) ++ [Lit """ alt="""; RawVal alt; Lit """"] ++
                named_attr D "width" d ++ named_attr D "title" d ++ [Lit " class=""icon"] ++ role_classes d ++ [Lit """>"]
            | IconFont =>
                [Lit "<i class=""fa fa-"; RawVal (n_text D d "target")] ++ opt_pieces (or_else (n_named D d "size") (n_pos D d 0)) (fun x => [Lit " fa-"; RawVal x]) ++
                (match n_named D d "flip" with Some x => [Lit " fa-flip-"; RawVal x] | None => opt_pieces (n_named D d "rotate") (fun x => [Lit " fa-rotate-"; RawVal x]) end) ++ role_classes d ++ [Lit """"] ++
                named_attr D "title" d ++ [Lit "></i>"]
            end) ++
           if_pieces (some (n_named D d "link")) [Lit "</a>"])).
  (** 1096-1155: what follows the image changes its tag by taking the last byte off. The assertion is checked in all builds. *)
  Definition image_style (d : nat) : option string :=
    match n_named D d "align", n_named D d "float" with
    | None, None => None
    | Some a, None => Some ("text-align: " ++ a ++ ";")
    | None, Some f => Some ("float: " ++ f ++ ";")
    | Some a, Some f => Some ("text-align: " ++ a ++ "; " ++ "float: " ++ f ++ ";")
    end%string.
  Definition is_lazy (d : nat) : bool := match n_named D d "loading" with Some l => (l =? "lazy")%string | None => false end.
  Definition lazily (d : nat) : cmd := if is_lazy d then bind pop5 (put [Lit " loading=""lazy"">"]) else nothing.
  Definition visit_image_macro5 (d : nat) : cmd :=
    look (fun s =>
      let link := n_named D d "link" in
      let selfish := match link with Some l => (l =? "self")%string | None => false end in
      if selfish && negb (is_nil (alt s)) then fun _ => Panic
      else
        all [put (match link with Some l => image_link D (if selfish then RawVal (n_text D d "path") else EscVal l) d | None => [] end);
             (if selfish then discard_alt_buffer else nothing);
             put (render_image D d false (dm s));
             (match image_style d with Some x => bind pop5 (put [Lit " style="""; RawVal x; Lit """"; Lit ">"]) | None => nothing end);
             (match n_roles D d with
              | [] => nothing
              | l => all [pop5; put ([Lit " class="""] ++ flat_map (fun r => [RawVal r; Lit " "]) l); pop5; put [Lit """"; Lit ">"]]
              end);
             lazily d;
             put (if_pieces (some link) [Lit "</a>"])]).
  Fixpoint keys5 (l : list string) : pieces :=
    match l with [] => [] | [k] => [Lit "<kbd class=""key"">"; Raw k; Lit "</kbd>"] | k :: l => [Lit "<kbd class=""key"">"; Raw k; Lit "</kbd>"; Lit "+"] ++ keys5 l end.
  Definition visit_keyboard_macro5 (d : nat) : cmd :=
    let l := n_list D d "keys" in
    put (if_pieces (1 <? length l) [Lit "<kbd class=""keyseq"">"] ++ keys5 l ++ if_pieces (1 <? length l) [Lit "</kbd>"]).
  Definition visit_menu_macro5 (d : nat) : cmd :=
    match n_list D d "items" with
    | [] => fun _ => Panic
    | i :: l => put ([Lit "<kbd class=""menuseq""><kbd class=""menu""><samp>"; Raw i; Lit "</samp></kbd>"] ++
                     flat_map (fun i => [Lit "&#160;<span class=""caret"">&#8250;</span>&#32;<kbd class="""; Lit "menu""><samp>"; Raw i; Lit "</samp></kbd>"]) l ++ [Lit "</kbd>"])
    end.

  (** ** Sound, video, admonitions, images: 1157-1171, 1253-1395. The label of a sound or a video stands for the macro and for its block. *)
  Definition audio_element (d : nat) (m : meta) : pieces :=
    [Lit "<audio src="""] ++ media_src D d m ++ if_pieces (n_option D d "autoplay") [Lit " autoplay"] ++ if_pieces (n_option D d "loop") [Lit " loop"] ++
    if_pieces (negb (n_option D d "nocontrols")) [Lit " controls"] ++ [Lit ">Your browser does not support the audio tag.</audio>"].
  Definition visit_audio_macro5 (d : nat) : cmd :=
    all [put (open_element D (by_title "figure" d) ["audio-block"] d); look (fun s => put (audio_element d (dm s))); block_title5 d false; put [end_tag (by_title "figure" d)]].
  Definition visit_video_macro5 (d : nat) : cmd :=
    all [put (open_element D (by_title "figure" d) ["video-block"] d); look (fun s => put (video_element D d (dm s))); block_title5 d false; put [end_tag (by_title "figure" d)]].
  (** note and tip *)
  Definition admonition_tag (k : nat) : string := match k with 2 | 3 => "aside" | _ => "section" end.
  Definition enter_admonition_block5 (k d : nat) : cmd :=
    all [put (open_element D (admonition_tag k) ["admonition-block"; admonition_name k] d); pop5;
         put [Lit " role="""; match k with 3 => Lit "doc-tip"">" | 2 => Lit "note"">" | _ => Lit "doc-notice"">" end];
         look (fun s => put ([Lit "<h6 class=""block-title"] ++ if_pieces (negb (n_title D d)) [Lit " label-only"] ++ [Lit """><span class=""title-label"">"] ++ textlabel D Raw k d (dm s) ++ [Lit ": </span>"]));
         block_title5 d false; put ([Lit "</h6>"] ++ if_pieces (negb (n_flag D d "compound")) [Lit "<p>"]); block_title5 d false].
  Definition exit_admonition_block5 (k d : nat) : cmd := put (if_pieces (negb (n_flag D d "compound")) [Lit "</p>"] ++ [end_tag (admonition_tag k)]).
  Definition figure_tag (e d : nat) : string := if n_title D d || some (n_named D e "title") then "figure" else "div".
  Definition image_block_link (e d : nat) (m : meta) : pieces :=
    match or_else (or_else (n_named D d "link") (n_named D e "link")) (match m_str m "html5s-image-default-link" with Some l => if (l =? "self")%string then Some "self" else None | None => None end) with
    | Some href =>
        if (href =? "none")%string then []
        else
          let target := n_text D e "target" in
          let selfish := (href =? target)%string || (href =? "self")%string in
          let label := str_or m "html5s-image-self-link-label" "Open the image in full size" in
          [Lit "<a class=""image"] ++ if_pieces selfish [Lit " bare"] ++ [Lit """ href="""; RawVal (if (href =? "self")%string then target else href); Lit """"] ++ link_constraint_attrs D e ++
          (if selfish then [Lit " title="""; RawVal label; Lit """ aria-label="""; RawVal label; Lit """>"] else [Lit ">"])
    | None => []
    end.
  Definition enter_image_block5 (e d : nat) : cmd :=
    look (fun s =>
      let t := o_class "" "image-block" (merged D (figure_tag e d) e d) in
      let t := match n_named D e "align" with Some x => o_style ("text-align: " ++ x) t | None => t end in
      let t := match n_named D e "float" with Some x => o_style ("float: " ++ x) t | None => t end in
      all [put (o_finish t ++ image_block_link e d (dm s) ++ render_image D e true (dm s)); lazily e; put (match image_block_link e d (dm s) with [] => [] | _ => [Lit "</a>"] end)]).
  Definition exit_image_block5 (e d : nat) : cmd :=
    bind (match n_named D e "title" with
          | Some title => bind (render_block_title5 [Raw title] d false) (if n_title D d then discard_alt_buffer else nothing)
          | None => block_title5 d false
          end) (put [end_tag (figure_tag e d)]).

  (** ** Attribute declarations and footnotes: 1397-1451 *)
  Definition visit_decl5 (d : nat) : cmd :=
    let '(name, value) := n_decl D d in
    all [ok (fun s => if (name =? "hardbreaks-option")%string then (if is_true value then set_nls JoinWithBreak JoinWithBreak s else set_nls Preserve Preserve s) else s);
         ok (fun s => set_dm (fst (insert_doc_attr (dm s) name value)) s)].
  Definition enter_footnote5 (d : nat) : cmd :=
    look (fun s => bind (put (match prev_num 1 (notes s) (n_id D d) with
                              | Some n => [Lit "<a class=""footnote-ref"" href=""#_footnote_"; Num n; Lit """ title=""View footnote "; Num n; Lit """ role=""doc-noteref"">["; Num n; Lit "]</a>"]
                              | None => []
                              end)) (start_buffering debug)).
  Definition exit_footnote5 (d : nat) : cmd :=
    look (fun s =>
      match prev_num 1 (notes s) (n_id D d) with
      | Some _ => swap_discard_alt_buffer
      | None =>
          let n := length (notes s) + 1 in
          all [swap_discard_alt_buffer;
               put [Lit "<a class=""footnote-ref"" id=""_footnoteref_"; Num n; Lit """ href=""#_footnote_"; Num n; Lit """ title=""View footnote "; Num n; Lit """ role=""doc-noteref"">"];
               ok (set_notes (notes s ++ [(n_id D d, html s)])); put [Lit "["; Num n; Lit "]</a>"]]
      end).

  (** ** All calls, as in HtmlModel *)
  Definition spans5 : list span_kind := [SBold; SItalic; SLitMono; SMono; SHighlight; SSuper; SSub].
  Definition enters5 : list (string * (list nat -> cmd)) :=
    [("document", fun l => enter_document5 (arg l 0)); ("body", fun l => enter_body5 (arg l 0)); ("header", fun _ => enter_header5); ("document_title", fun _ => enter_document_title debug);
     ("content", fun _ => enter_content5); ("footer", fun _ => enter_footer5); ("toc", fun l => enter_toc5 (arg l 0)); ("toc_level", fun l => enter_toc_level5 (arg l 0));
     ("toc_node", fun l => enter_toc_node D (arg l 0)); ("book_part", fun l => enter_book_part5 (arg l 0)); ("book_part_title", fun l => enter_book_part_title5 (arg l 0));
     ("book_part_intro", fun l => enter_book_part_intro5 (arg l 0)); ("book_part_intro_content", fun l => enter_book_part_intro_content5 (arg l 0));
     ("preamble", fun l => enter_preamble5 (arg l 0)); ("section", fun l => enter_section5 (arg l 0)); ("section_heading", fun l => enter_section_heading5 (arg l 0));
     ("meta_title", fun _ => enter_meta_title debug); ("simple_block_content", fun l => enter_simple_block_content5 (arg l 0)); ("sidebar_block", fun l => enter_sidebar_block5 (arg l 0));
     ("listing_block", fun l => enter_listing_block5 (arg l 0)); ("literal_block", fun l => enter_literal_block5 (arg l 0)); ("quoted_paragraph", fun l => enter_quoted_paragraph5 (arg l 0));
     ("quote_block", fun l => enter_quote_block5 (arg l 0)); ("quote_attribution", fun l => enter_quote_attribution5 (arg l 0)); ("quote_cite", fun l => enter_quote_cite5 (arg l 1));
     ("verse_block", fun l => enter_verse_block5 (arg l 0) (arg l 1)); ("example_block", fun l => enter_example_block5 (arg l 0)); ("open_block", fun l => enter_open_block5 (arg l 0));
     ("discrete_heading", fun l => enter_discrete_heading D (arg l 0) (arg l 1)); ("paragraph_block", fun l => enter_paragraph_block5 (arg l 0));
     ("admonition_block", fun l => enter_admonition_block5 (arg l 0) (arg l 1)); ("unordered_list", fun l => enter_unordered_list5 (arg l 0) (arg l 1));
     ("callout_list", fun l => enter_callout_list5 (arg l 0)); ("description_list", fun l => enter_description_list5 (arg l 0) (arg l 1)); ("description_list_term", fun _ => put [Lit "<dt>"]);
     ("description_list_description", fun _ => put [Lit "<dd>"]); ("description_list_description_text", fun l => enter_description_text5 (arg l 0));
     ("ordered_list", fun l => enter_ordered_list5 (arg l 0) (arg l 1)); ("list_item_principal", fun l => enter_item_principal5 (arg l 0)); ("table", fun l => enter_table5 (arg l 0) (arg l 1));
     ("table_section", fun l => enter_table_section (arg l 0)); ("table_row", fun _ => put [Lit "<tr>"]); ("table_cell", fun l => enter_table_cell5 (arg l 0) (arg l 1));
     ("cell_paragraph", fun l => enter_cell_paragraph5 (arg l 0) (arg l 1)); ("image_block", fun l => enter_image_block5 (arg l 0) (arg l 1)); ("inline_quote", fun l => enter_quote5 (arg l 0));
     ("xref", fun l => enter_xref D (arg l 0)); ("xref_text", fun l => put (if_pieces (arg l 0 =? 1) [Lit "["])); ("link_macro", fun l => enter_link_macro D (arg l 0) (arg l 1) (arg l 2));
     ("mailto_macro", fun l => enter_mailto_macro D (arg l 0) (arg l 1)); ("footnote", fun l => enter_footnote5 (arg l 0)); (span_name SText, fun l => enter_text_span5 (arg l 0))] ++
    map (fun k => (span_name k, fun l => enter_span D k (arg l 0))) spans5.
  Definition exits5 : list (string * (list nat -> cmd)) :=
    [("body", fun _ => exit_body5); ("header", fun _ => exit_header5); ("document_title", fun _ => exit_document_title); ("content", fun _ => exit_content5); ("footer", fun _ => exit_footer5);
     ("toc", fun _ => exit_toc5); ("toc_level", fun _ => exit_toc_level5); ("toc_node", fun l => exit_toc_node D (arg l 0)); ("toc_content", fun _ => exit_toc_content);
     ("book_part", fun _ => exit_book_part5); ("book_part_title", fun _ => exit_book_part_title5); ("book_part_intro", fun l => exit_book_part_intro5 (arg l 0));
     ("book_part_intro_content", fun _ => exit_book_part_intro_content5); ("preamble", fun l => exit_preamble5 (arg l 0)); ("section", fun l => exit_section5 (arg l 0));
     ("section_heading", fun l => exit_section_heading5 (arg l 0)); ("meta_title", fun l => exit_meta_title D (arg l 0)); ("simple_block_content", fun l => exit_simple_block_content5 (arg l 0));
     ("sidebar_block", fun _ => exit_sidebar_block5); ("listing_block", fun l => exit_listing_block5 (arg l 0)); ("literal_block", fun l => exit_literal_block5 (arg l 0));
     ("quoted_paragraph", fun _ => exit_quoted_paragraph5); ("quote_block", fun l => exit_quote_block5 (arg l 0)); ("quote_attribution", fun l => exit_quote_attribution5 (arg l 1));
     ("quote_cite", fun _ => exit_quote_cite5); ("verse_block", fun l => exit_verse_block5 (arg l 0) (arg l 1)); ("example_block", fun l => exit_example_block5 (arg l 0));
     ("open_block", fun l => exit_open_block5 (arg l 0)); ("discrete_heading", fun l => exit_discrete_heading D (arg l 0)); ("paragraph_block", fun l => exit_paragraph_block5 (arg l 0));
     ("admonition_block", fun l => exit_admonition_block5 (arg l 0) (arg l 1)); ("unordered_list", fun l => exit_unordered_list5 (arg l 0) (arg l 1)); ("callout_list", fun _ => exit_callout_list5);
     ("description_list", fun l => exit_description_list5 (arg l 0) (arg l 1)); ("description_list_term", fun _ => put [Lit "</dt>"]); ("description_list_description", fun _ => put [Lit "</dd>"]);
     ("description_list_description_text", fun _ => change_flags (with_term false)); ("ordered_list", fun l => exit_ordered_list5 (arg l 0) (arg l 1));
     ("list_item_principal", fun l => exit_item_principal5 (arg l 0)); ("list_item_blocks", fun _ => put [Lit "</li>"]); ("table", fun l => exit_table5 (arg l 1));
     ("table_section", fun l => exit_table_section (arg l 0)); ("table_row", fun _ => put [Lit "</tr>"]); ("table_cell", fun l => exit_table_cell5 (arg l 0) (arg l 1));
     ("cell_paragraph", fun l => exit_cell_paragraph5 (arg l 0) (arg l 1)); ("image_block", fun l => exit_image_block5 (arg l 0) (arg l 1)); ("inline_quote", fun l => exit_quote5 (arg l 0));
     ("xref", fun _ => exit_xref); ("xref_text", fun l => put (if_pieces (arg l 0 =? 1) [Lit "]"])); ("link_macro", fun l => exit_link_macro D (arg l 0) (arg l 1) (arg l 2));
     ("mailto_macro", fun _ => put [Lit "</a>"]); ("footnote", fun l => exit_footnote5 (arg l 0)); (span_name SText, fun l => exit_text_span5 (arg l 0))] ++
    map (fun k => (span_name k, fun _ => exit_span k)) spans5.
  Definition visits5 : list (string * (nat -> string -> cmd)) :=
    [("inline_text", fun _ x => put [Raw x]); ("inline_specialchar", fun d _ => visit_specialchar D d); ("joining_newline", fun _ _ => visit_joining_newline5);
     ("curly_quote", fun d _ => visit_curly_quote D d); ("multichar_whitespace", fun d _ => put [Raw (n_text D d "whitespace")]); ("symbol", fun d _ => visit_symbol5 d);
     ("spaced_dashes", fun d _ => visit_spaced_dashes5 d); ("image_macro", fun d _ => visit_image_macro5 d);
     ("button_macro", fun d _ => put [Lit "<kbd class=""button""><samp>"; Raw (n_text D d "text"); Lit "</samp></kbd>"]); ("keyboard_macro", fun d _ => visit_keyboard_macro5 d);
     ("menu_macro", fun d _ => visit_menu_macro5 d); ("icon_macro", fun d _ => visit_icon_macro5 d); ("inline_anchor", fun d _ => visit_inline_anchor5 d);
     ("linebreak", fun _ _ => put [Lit ("<br>" ++ newline)]); ("callout", fun d _ => visit_callout5 d); ("callout_tuck", fun d _ => put [Raw (n_text D d "comment")]);
     ("missing_xref", fun _ x => visit_missing_xref D x); ("biblio_anchor", fun _ x => visit_biblio_anchor5 x); ("thematic_break", fun d _ => put (open_element D "hr" [] d));
     ("page_break", fun _ _ => put [Lit "<div role=""doc-pagebreak"" style=""page-break-after: always;""></div>"]); ("audio_macro", fun d _ => visit_audio_macro5 d);
     ("video_macro", fun d _ => visit_video_macro5 d); ("document_attribute_decl", fun d _ => visit_decl5 d)].
  Fixpoint call5 (e : event) : cmd :=
    match e with
    | Enter name args => match handler enters5 name with Some f => f args | None => nothing end
    | Exit name args => match handler exits5 name with Some f => f args | None => nothing end
    | Visit name d text => match handler visits5 name with Some f => f d text | None => nothing end
    | Cell_ l => fun s =>
        match (fix go (l : list event) (s : hst) : outcome hst := match l with [] => Ret s | e :: l => match call5 e s with Ret s' => go l s' | Panic => Panic end end)
                l (set_cell true (set_notes (notes s) fresh5)) with
        | Ret s' => Ret (set_notes (notes s') (set_html (html s ++ html s') (set_cell false s)))
        | Panic => Panic
        end
    end.
  Fixpoint calls5 (l : list event) : cmd := match l with [] => Ret | e :: l => bind (call5 e) (calls5 l) end.
End Html5s.
Definition output5 (D : details) (debug : bool) (l : list event) : outcome pieces := match calls5 D debug l fresh5 with Ret s => Ret (html s) | Panic => Panic end.
