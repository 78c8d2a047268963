(** What C66 says: the texts of a document stand in its HTML, in their order. *)
From Verif Require Import Base AttrsModel EvalModel EscapeModel EvalSpec HtmlModel HtmlSpec.
Open Scope string_scope.
Open Scope nat_scope.
Open Scope list_scope.

(** The strings stand in the output, each after the one before it, with anything before, between and after them. *)
Fixpoint in_order (xs : list bytes) (out : bytes) : Prop :=
  match xs with [] => True | x :: r => exists before after, out = before ++ x ++ after /\ in_order r after end.

(** ** The texts of a document *)
(** The texts of an inline node that stand where the node stands: not the texts of footnotes, which come later, nor those of concealed index terms, which are not shown,
    nor those of cross references, for which C65 says what is shown. *)
Fixpoint texts_in (i : inline) : list string :=
  match i with
  | IText s => [s]
  | ISpan _ _ l | IPassthru l | IQuote _ l | IVisible l | ILink _ (Some l) | IMailto _ (Some l) => flat_map texts_in l
  | _ => []
  end.
(** The texts of the footnotes of an inline node. A footnote with an id may refer to an earlier one, and then its own text is not shown: these are left out. *)
Fixpoint notes_in (D : details) (i : inline) : list string :=
  match i with
  | IFootnote d (Some l) => if some (n_id D d) then [] else flat_map texts_in l
  | ISpan _ _ l | IPassthru l | IQuote _ l | IVisible l | ILink _ (Some l) | IMailto _ (Some l) => flat_map (notes_in D) l
  | _ => []
  end.
(** Whether the title of a document is shown (document_meta.rs, asciidoctor_html.rs: render_doc_title): not with [noheader], and as [showtitle] and [notitle] say. *)
Definition shows_title (m : meta) : bool := negb (get_is_true m "noheader") && show_doc_title m.
(** The inline nodes of blocks and documents, in the order in which they stand there. *)
Section Nodes.
  Context (D : details) {B : Type} (nodes : B -> list inline).
  Definition section_nodes (s : section B) : list inline := s_heading s ++ flat_map nodes (s_blocks s).
  Definition part_nodes (p : part B) : list inline :=
    p_title p ++ match p_intro p with Some l => opt (p_meta_title p) ++ flat_map nodes l | None => [] end ++ flat_map section_nodes (p_sections p).
  Definition item_nodes (i : item B) : list inline := i_principle i ++ flat_map nodes (i_blocks i).
  Definition description_nodes (i : item B) : list inline :=
    i_principle i ++
    match i_meta i with MDesc terms description => concat terms ++ match description with Some k => nodes k | None => [] end | MOther => [] end ++
    flat_map nodes (i_blocks i).
  Definition content_nodes (c : doc_content B) : list inline :=
    match c with
    | DBlocks l => flat_map nodes l
    | DSections preamble sections => opt (option_map (flat_map nodes) preamble) ++ flat_map section_nodes sections
    | DParts preamble opening parts closing =>
        opt (option_map (flat_map nodes) preamble) ++ flat_map section_nodes opening ++ flat_map part_nodes parts ++ flat_map section_nodes closing
    end.
  Definition info_nodes (doc : document B) (o : option (list inline)) : list inline := if embedded doc then [] else opt o.
  (** a document up to the footnotes, and after them *)
  Definition document_nodes (doc : document B) : list inline :=
    info_nodes doc (info_head doc) ++ info_nodes doc (info_header doc) ++ (if shows_title (n_meta D (d_d doc)) then opt (d_title doc) else []) ++ content_nodes (d_content doc).
  Definition document_footer (doc : document B) : list inline := info_nodes doc (info_footer doc).
  Definition cell_nodes (c : cell B) : list inline :=
    match c_content c with CParagraphs l => concat l | CLiteral l => l | CAsciiDoc doc => document_nodes doc ++ document_footer doc end.
  Definition row_nodes (r : row B) : list inline := flat_map cell_nodes (cells r).
  Definition table_nodes (t : table B) : list inline :=
    match header_row t with Some r => row_nodes r | None => [] end ++ flat_map row_nodes (body_rows t) ++
    match footer_row t with Some r => row_nodes r | None => [] end.
End Nodes.
Fixpoint nodes (D : details) (k : block) : list inline :=
  match k with
  | Block _ title attr cite cx body =>
      opt title ++
      match cx with
      | XThematicBreak | XPageBreak | XTableOfContents | XComment => []
      | _ =>
          match body with
          | Compound l => flat_map (nodes D) l
          | Simple l | EDiscreteHeading _ l => l
          | EImage _ | EAudioVideo _ | EOther | DocumentAttribute _ => []
          | TableContent t => table_nodes D (nodes D) t
          | SectionContent s => section_nodes (nodes D) s
          | Quoted quote attr cite => quote ++ attr ++ opt cite
          | ListContent _ _ items => match cx with XDescriptionList => flat_map (description_nodes (nodes D)) items | _ => flat_map (item_nodes (nodes D)) items end
          end ++
          match cx with XVerse | XBlockQuote => opt attr ++ opt cite | _ => [] end
      end
  end.
(** The texts of a document: those of its content, those of its footnotes, those after the footnotes. *)
Definition document_texts (D : details) (doc : document block) : list string :=
  let l := document_nodes D (nodes D) doc in
  flat_map texts_in l ++ flat_map (notes_in D) l ++ flat_map texts_in (document_footer doc).

(** ** Documents of which everything is shown *)
Section Shown.
  Context (D : details).
  (** The blocks whose title is shown. [term]: in the text of a description; [dt]: the type of the document. *)
  Definition title_shown (term : bool) (dt : doctype) (d : nat) (cx : context) (body : content block) : Prop :=
    n_context D d = cx /\
    match cx, body with
    | XParagraph, _ => n_title D d = true /\ term = false /\ dt <> Inline
    | (XSidebar | XListing | XLiteral | XVerse | XBlockQuote | XQuotedParagraph | XExample | XOpen | XAdmonition _ | XUnorderedList | XOrderedList | XDescriptionList | XTable), _ =>
        n_title D d = true
    | XImage, EImage e => n_title D d = true /\ n_named D e "title" = None
    | (XAudio | XVideo), EAudioVideo e => n_title D e = true
    | _, _ => False
    end.
  Section Parts.
    Context {B : Type} (shown : bool -> doctype -> B -> Prop).
    Section Place.
      Context (term : bool) (dt : doctype).
      Definition section_shown (s : section B) : Prop := texts (s_heading s) /\ every (shown term dt) (s_blocks s).
      Definition part_shown (x : part B) : Prop :=
        texts (p_title x) /\ texts_opt (p_meta_title x) /\ every_opt (shown term dt) (p_intro x) /\ every section_shown (p_sections x).
      Definition item_shown (i : item B) : Prop := texts (i_principle i) /\ every (shown term dt) (i_blocks i).
      Definition description_shown (i : item B) : Prop :=
        texts (i_principle i) /\ every (shown term dt) (i_blocks i) /\
        match i_meta i with MDesc extra description => every texts extra /\ match description with Some k => shown true dt k | None => True end | MOther => True end.
      Definition content_shown (c : doc_content B) : Prop :=
        match c with
        | DBlocks l => every (shown term dt) l
        | DSections preamble sections => every_opt (shown term dt) preamble /\ every section_shown sections
        | DParts preamble opening parts closing => every_opt (shown term dt) preamble /\ every section_shown opening /\ every part_shown parts /\ every section_shown closing
        end.
    End Place.
    Definition document_shown (doc : document B) : Prop :=
      tocs_tidy (d_toc doc) /\ titles_opt (d_title doc) /\ texts_opt (info_head doc) /\ texts_opt (info_header doc) /\ texts_opt (info_footer doc) /\
      content_shown false (m_doctype (n_meta D (d_d doc))) (d_content doc).
    (** Cells that are headings are paragraphs. *)
    Definition cell_shown (sect : nat) (c : cell B) : Prop :=
      match c_content c with
      | CParagraphs l => every texts l
      | CLiteral l => heads D (c_d c) sect = false /\ texts l
      | CAsciiDoc doc => heads D (c_d c) sect = false /\ document_shown doc
      end.
    Definition row_shown (sect : nat) (r : row B) : Prop := every (cell_shown sect) (cells r).
    Definition table_shown (t : table B) : Prop :=
      match header_row t with Some r => row_shown 0 r | None => True end /\ every (row_shown 1) (body_rows t) /\ match footer_row t with Some r => row_shown 2 r | None => True end.
  End Parts.
  Fixpoint shown (term : bool) (dt : doctype) (k : block) : Prop :=
    match k with
    | Block d title attr cite cx body =>
        titles_opt title /\ (some title = true -> title_shown term dt d cx body) /\ texts_opt attr /\ texts_opt cite /\
        match body with
        | Compound l => every (shown term dt) l
        | Simple l | EDiscreteHeading _ l => texts l
        | EImage _ | EAudioVideo _ | EOther | DocumentAttribute _ => True
        | TableContent t => table_shown shown t
        | SectionContent s => section_shown shown term dt s
        | Quoted quote attr cite => texts quote /\ texts attr /\ texts_opt cite
        | ListContent _ _ items => match cx with XDescriptionList => every (description_shown shown term dt) items | _ => every (item_shown shown term dt) items end
        end
    end.
  Definition all_shown (doc : document block) : Prop := document_shown shown doc.
End Shown.
(** The backend wants the contents of visible index terms (asciidoctor_html.rs:1499-1502). *)
Definition wants_visible (wants : list event -> bool) : Prop := forall l, wants (l ++ [Enter "visible_index_term" []]) = true.
