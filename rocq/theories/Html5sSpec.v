(** What C64 says: the semantic HTML is well nested. [nested], [harmless] and the labels are those of C54 (HtmlSpec). *)
From Verif Require Import Base AttrsModel EvalModel EscapeModel EvalSpec HtmlModel HtmlSpec Html5sModel.
Open Scope string_scope.
Open Scope nat_scope.
Open Scope list_scope.

Section Fine5.
  Context (D : details).
  (** ** Images *)
  (** an image that is written as a single [img] tag *)
  Definition plain_image (d : nat) : bool :=
    match kind_of D d with DataUri => true | Standard => negb (n_flag D d "svg" && n_option D d "interactive") | InlineSvg => false end.
  (** an image macro to whose tag something is added: a style, roles, or how it is loaded *)
  Definition changed_image (d : nat) : bool := some (image_style D d) || negb (match n_roles D d with [] => true | _ => false end) || is_lazy D d.

  (** ** Inline nodes: as in C54, and images to whose tag something is added are plain *)
  Fixpoint tidy5 (notes : bool) (i : inline) : bool :=
    let here := forallb (tidy5 notes) in
    let opt o := match o with Some l => here l | None => true end in
    match i with
    | IFootnote _ o => notes && match o with Some l => forallb (tidy5 false) l | None => true end
    | ILeaf call d => existsb (String.eqb call) leaf_calls && (negb (call =? "image_macro")%string || negb (changed_image d) || plain_image d)
    | ISpan _ _ l | IPassthru l | IQuote _ l | IVisible l => here l
    | ILink _ o | IXref _ _ o | IMailto _ o => opt o
    | IConcealed p s t => here p && opt s && opt t
    | IText _ | IBiblio _ | INothing => true
    end.
  (** [notes]: whether footnotes are allowed *)
  Definition words (notes : bool) (l : list inline) : Prop := forallb (tidy5 notes) l = true.
  Definition words_opt (notes : bool) (o : option (list inline)) : Prop := words notes (opt o).
  Definition anchors_tidy5 (anchors : anchor_table) : Prop := forall id a, lookup anchors id = Some a -> words_opt false (reftext a) /\ words false (a_title a).
  (** A table of contents in the place of the preamble has no footnotes. *)
  Fixpoint toc_tidy5 (notes : bool) (n : toc_node) : Prop := match n with TocNode _ _ title children => words notes title /\ every (toc_tidy5 notes) children end.
  Definition tocs_tidy5 (t : option toc) : Prop := match t with Some t => every (toc_tidy5 (negb (position_eqb (position t) PPreamble))) (toc_nodes t) | None => True end.

  (** ** Blocks *)
  (** Where a block is: in a preamble, in a document that is one line of text, in an AsciiDoc cell of a document that is not embedded. *)
  Record place5 := Place5 { p_pre : bool; p_inline : bool; p_in_cell : bool }.
  (** blocks whose title is written or dropped; those of the others stay behind *)
  Definition titled (p : place5) (cx : context) : bool :=
    match cx with
    | XParagraph => negb (p_inline p)
    | XCalloutList | XSection | XDiscreteHeading | XThematicBreak | XPageBreak | XTableOfContents | XDocumentAttributeDecl | XComment => false
    | _ => true
    end.
  (** what a list of callouts may follow: a listing or literal block, or another such list, without a title *)
  Definition before_callouts (k : block) : bool :=
    match k with Block _ title _ _ cx _ => match cx with XListing | XLiteral | XCalloutList => negb (some title) | _ => false end end.
  Definition is_callouts (k : block) : bool := match k with Block _ _ _ _ XCalloutList _ => true | _ => false end.
  Fixpoint callouts_follow (after : bool) (l : list block) : Prop :=
    match l with [] => True | k :: l => (is_callouts k = true -> after = true) /\ callouts_follow (before_callouts k) l end.
  (** the labels of a block and of a sound or video say whether it has a title *)
  Definition title_label (k : block) : Prop :=
    match k with
    | Block d title _ _ _ body => n_title D d = some title /\ match body with EAudioVideo e => n_title D e = some title | _ => True end
    end.
  Definition label5 (k : block) : Prop := match k with Block d _ _ _ cx _ => n_context D d = cx /\ title_label k end.

  Section Parts.
    Context (fine : place5 -> block -> Prop).
    Definition blocks_fine (p : place5) (l : list block) : Prop := every (fine p) l /\ callouts_follow false l.
    Definition section_fine5 (p : place5) (s : section block) : Prop := words true (s_heading s) /\ blocks_fine p (s_blocks s).
    Definition blocks_opt (p : place5) (o : option (list block)) : Prop := match o with Some l => blocks_fine p l | None => True end.
    (** The title of a part has an id. *)
    Definition part_fine5 (p : place5) (x : part block) : Prop :=
      some (n_opt D (p_d x) "id") = true /\ words true (p_title x) /\ words_opt true (p_meta_title x) /\ blocks_opt p (p_intro x) /\ every (section_fine5 p) (p_sections x).
    Definition item_fine5 (p : place5) (i : item block) : Prop := words true (i_principle i) /\ blocks_fine p (i_blocks i).
    Definition description_fine5 (p : place5) (i : item block) : Prop :=
      words true (i_principle i) /\ blocks_fine p (i_blocks i) /\
      match i_meta i with MDesc extra description => every (words true) extra /\ match description with Some k => blocks_fine p [k] | None => True end | MOther => True end.
    Definition in_preamble (p : place5) : place5 := Place5 true (p_inline p) (p_in_cell p).
    Definition content_fine5 (p : place5) (c : doc_content block) : Prop :=
      match c with
      | DBlocks l => blocks_fine p l
      | DSections preamble sections => blocks_opt (in_preamble p) preamble /\ every (section_fine5 p) sections
      | DParts preamble opening parts closing =>
          blocks_opt (in_preamble p) preamble /\ every (section_fine5 (if some preamble then in_preamble p else p)) opening /\ every (part_fine5 p) parts /\ every (section_fine5 p) closing
      end.
    Definition document_fine5 (p : place5) (doc : document block) : Prop :=
      toc_label D (d_toc doc) /\ tocs_tidy5 (d_toc doc) /\ words_opt false (d_title doc) /\ words_opt true (info_head doc) /\ words_opt true (info_header doc) /\ words_opt true (info_footer doc) /\
      content_fine5 p (d_content doc).
    Definition is_inline (doc : document block) : bool := doctype_eqb (m_doctype (n_meta D (d_d doc))) Inline.
    (** Cells in header rows are not literal, and paragraphs there are not emphasised, strong or monospaced. The document of an AsciiDoc cell has no AsciiDoc cells, unless it is embedded. *)
    Definition cell_fine5 (p : place5) (sect : nat) (c : cell block) : Prop :=
      cell_label D c /\
      match c_content c with
      | CParagraphs l => (sect = 0 -> match n_cell D (c_d c) with CsEmphasis | CsMonospace | CsStrong => False | _ => True end) /\ every (words true) l
      | CLiteral l => sect <> 0 /\ words true l
      | CAsciiDoc doc =>
          p_in_cell p = false /\
          document_fine5 (Place5 false (is_inline doc) (negb (m_embedded (n_meta D (d_d doc)) || is_inline doc))) doc
      end.
    Definition row_fine5 (p : place5) (sect : nat) (r : row block) : Prop := every (cell_fine5 p sect) (cells r).
    Definition table_fine5 (p : place5) (t : table block) : Prop :=
      match header_row t with Some r => row_fine5 p 0 r | None => True end /\ every (row_fine5 p 1) (body_rows t) /\ match footer_row t with Some r => row_fine5 p 2 r | None => True end.
  End Parts.
  (** In a preamble only blocks have titles that write them. Verses have no title. Images that are loaded late are plain. *)
  Fixpoint fine5 (p : place5) (k : block) : Prop :=
    label5 k /\
    match k with
    | Block d title attr cite cx body =>
        words_opt false title /\ words_opt true attr /\ words_opt true cite /\ (p_pre p = true -> some title = true -> titled p cx = true) /\ (cx = XVerse -> title = None) /\
        match body with
        | Compound l => blocks_fine fine5 p l
        | Simple l | EDiscreteHeading _ l => words true l
        | EImage e => is_lazy D e = true -> plain_image e = true
        | EAudioVideo _ | EOther | DocumentAttribute _ => True
        | TableContent t => table_fine5 fine5 p t
        | SectionContent s => section_fine5 fine5 p s
        | Quoted quote attr cite => words true quote /\ words true attr /\ words_opt true cite
        | ListContent _ _ items =>
            match cx with
            | XDescriptionList => every (description_fine5 fine5 p) items
            | _ => every (item_fine5 fine5 p) items
            end
        end
    end.
  Definition fine_document5 (doc : document block) : Prop := document_fine5 fine5 (Place5 false (is_inline doc) false) doc.
End Fine5.
