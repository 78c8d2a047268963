(** What C54 says: the HTML is well nested. *)
From Verif Require Import Base AttrsModel EvalModel EscapeModel EvalSpec HtmlModel.
Open Scope string_scope.
Open Scope nat_scope.
Open Scope list_scope.

(** ** Well nested text *)
(** Elements that have no end tag (HTML standard, void elements). *)
Definition void_elements : list bytes := map b ["area"; "base"; "br"; "col"; "embed"; "hr"; "img"; "input"; "link"; "meta"; "source"; "track"; "wbr"].
Definition name_char (c : ascii) : bool := let n := nat_of_ascii c in (48 <=? n) && (n <=? 57) || (65 <=? n) && (n <=? 90) || (97 <=? n) && (n <=? 122).
Definition element_name (n : bytes) : Prop := n <> [] /\ forallb name_char n = true.
(** What may stand between the name of an element and [>]: nothing, or a space and then characters other than quotes and angle brackets, and quoted values. *)
Inductive attribute_text : bytes -> Prop :=
| at_nil : attribute_text []
| at_char c x : c <> """"%char -> c <> "<"%char -> c <> ">"%char -> attribute_text x -> attribute_text (c :: x)
| at_value v x : ~ In """"%char v -> attribute_text x -> attribute_text ($"""" ++ v ++ $"""" ++ x).
Definition attributes (x : bytes) : Prop := x = [] \/ exists y, x = " "%char :: y /\ attribute_text y.
Inductive nested : bytes -> Prop :=
| nested_nil : nested []
| nested_text c x : c <> "<"%char -> nested x -> nested (c :: x)
| nested_declaration d x : ~ In ">"%char d -> nested x -> nested ($"<!" ++ d ++ $">" ++ x)
| nested_void n a x : element_name n -> In n void_elements -> attributes a -> nested x -> nested ($"<" ++ n ++ a ++ $">" ++ x)
| nested_element n a inner x :
    element_name n -> ~ In n void_elements -> attributes a -> nested inner -> nested x -> nested ($"<" ++ n ++ a ++ $">" ++ inner ++ $"</" ++ n ++ $">" ++ x).
(** Strings of the document that go out as they are: well nested themselves in text, without double quotes in values. *)
Definition harmless (p : piece) : Prop :=
  match p with
  | Raw s => nested (b s)
  | RawVal s | EscHref s => ~ In """"%char (b s)
  | Lit _ | Num _ | Esc _ | EscVal _ => True
  end.

(** ** What the labels say about the tree *)
Section Labels.
  Context (D : details).
  Definition block_label (k : block) : Prop :=
    match k with
    | Block d _ _ _ cx body =>
        n_context D d = cx /\
        match body with
        | ListContent variant _ _ => cx = XOrderedList \/ cx = XUnorderedList -> variant <> callout_variant
        | _ => True
        end
    end.
  Definition cell_label {B} (c : cell B) : Prop :=
    match c_content c, n_cell D (c_d c) with
    | CLiteral _, CsLiteral | CAsciiDoc _, CsAsciiDoc => True
    | CParagraphs _, (CsDefault | CsEmphasis | CsHeader | CsMonospace | CsStrong) => True
    | _, _ => False
    end.
  Definition toc_label (t : option toc) : Prop := match t with Some t => n_position D (toc_d t) = position t | None => True end.
End Labels.

(** ** Documents with none of the shapes that come out wrong *)
Definition leaf_calls : list string :=
  ["inline_specialchar"; "joining_newline"; "curly_quote"; "multichar_whitespace"; "image_macro"; "button_macro"; "keyboard_macro"; "menu_macro"; "icon_macro"; "plugin_macro"; "inline_anchor"; "linebreak";
   "callout"; "callout_tuck"; "symbol"; "spaced_dashes"].
(** Footnotes are only where [notes] says, and none is in a footnote. *)
Fixpoint tidy (notes : bool) (i : inline) : bool :=
  let here := forallb (tidy notes) in
  let opt o := match o with Some l => here l | None => true end in
  match i with
  | IFootnote _ o => notes && match o with Some l => forallb (tidy false) l | None => true end
  | ILeaf call _ => existsb (String.eqb call) leaf_calls
  | ISpan _ _ l | IPassthru l | IQuote _ l | IVisible l => here l
  | ILink _ o | IXref _ _ o | IMailto _ o => opt o
  | IConcealed p s t => here p && opt s && opt t
  | IText _ | IBiblio _ | INothing => true
  end.
Definition texts (l : list inline) : Prop := forallb (tidy true) l = true.
Definition texts_opt (o : option (list inline)) : Prop := texts (opt o).
(** block titles, document titles, texts of anchors *)
Definition titles (l : list inline) : Prop := forallb (tidy false) l = true.
Definition titles_opt (o : option (list inline)) : Prop := titles (opt o).
Definition anchors_tidy (anchors : anchor_table) : Prop := forall id a, lookup anchors id = Some a -> titles_opt (reftext a) /\ titles (a_title a).
Fixpoint toc_tidy (n : toc_node) : Prop := match n with TocNode _ _ title children => texts title /\ every toc_tidy children end.
Definition tocs_tidy (t : option toc) : Prop := match t with Some t => every toc_tidy (toc_nodes t) | None => True end.

(** Where a block is: in which sort of description list, whether in a callout list, whether in an AsciiDoc cell of a document that is not embedded. *)
Inductive dlist_around := DFree | DInGlossary | DInRows.
Record place := Place { p_dlist : dlist_around; p_callouts : bool; p_cell : bool }.
Section Fine.
  Context (D : details).
  (** Inside horizontal lists and lists of questions there is no description list, inside glossaries no such list. *)
  Definition dlist_allowed (a : dlist_around) (st : dlist_style) : Prop :=
    match a, st with DFree, _ | DInGlossary, (DGlossary | DPlain) => True | _, _ => False end.
  Definition dlist_inside (a : dlist_around) (st : dlist_style) : dlist_around := match st with DHorizontal | DQanda => DInRows | DGlossary => DInGlossary | DPlain => a end.
  (** Items of horizontal lists have one term and a description, items of lists of questions have a description. *)
  Definition item_shape {B} (st : dlist_style) (i : item B) : Prop :=
    match i_meta i with
    | MDesc extra description =>
        let described := some description || negb (match i_blocks i with [] => true | _ => false end) in
        match st with DHorizontal => extra = [] /\ described = true | DQanda => described = true | _ => True end
    | MOther => True
    end.
  Section Parts.
    Context {B : Type} (fine : place -> B -> Prop).
    Definition section_fine (p : place) (s : section B) : Prop := texts (s_heading s) /\ every (fine p) (s_blocks s).
    Definition part_fine (p : place) (x : part B) : Prop :=
      texts (p_title x) /\ texts_opt (p_meta_title x) /\ every_opt (fine p) (p_intro x) /\ every (section_fine p) (p_sections x).
    Definition item_fine (p : place) (i : item B) : Prop := texts (i_principle i) /\ every (fine p) (i_blocks i).
    Definition description_fine (st : dlist_style) (p : place) (i : item B) : Prop :=
      item_shape st i /\ texts (i_principle i) /\ every (fine p) (i_blocks i) /\
      match i_meta i with MDesc extra description => every texts extra /\ match description with Some k => fine p k | None => True end | MOther => True end.
    Definition content_fine (p : place) (c : doc_content B) : Prop :=
      match c with
      | DBlocks l => every (fine p) l
      | DSections preamble sections => every_opt (fine p) preamble /\ every (section_fine p) sections
      | DParts preamble opening parts closing => every_opt (fine p) preamble /\ every (section_fine p) opening /\ every (part_fine p) parts /\ every (section_fine p) closing
      end.
    (** A table of contents after the preamble needs a document title. *)
    Definition document_fine (p : place) (doc : document B) : Prop :=
      toc_label D (d_toc doc) /\ tocs_tidy (d_toc doc) /\ match d_toc doc with Some t => position t = PPreamble -> some (d_title doc) = true | None => True end /\
      titles_opt (d_title doc) /\ texts_opt (info_head doc) /\ texts_opt (info_header doc) /\ texts_opt (info_footer doc) /\ content_fine p (d_content doc).
    (** Cells in header rows are paragraphs. The document of an AsciiDoc cell has no AsciiDoc cells, unless it is embedded. *)
    Definition cell_fine (p : place) (sect : nat) (c : cell B) : Prop :=
      cell_label D c /\
      match c_content c with
      | CParagraphs l => every texts l
      | CLiteral l => sect <> 0 /\ texts l
      | CAsciiDoc doc =>
          sect <> 0 /\ p_cell p = false /\
          document_fine (Place DFree false (negb (m_embedded (n_meta D (d_d doc)) || doctype_eqb (m_doctype (n_meta D (d_d doc))) Inline))) doc
      end.
    Definition row_fine (p : place) (sect : nat) (r : row B) : Prop := every (cell_fine p sect) (cells r).
    Definition table_fine (p : place) (t : table B) : Prop :=
      match header_row t with Some r => row_fine p 0 r | None => True end /\ every (row_fine p 1) (body_rows t) /\ match footer_row t with Some r => row_fine p 2 r | None => True end.
  End Parts.
  (** Verses with a citation have an attribution. In callout lists no attributes are declared. *)
  Fixpoint fine (p : place) (k : block) : Prop :=
    block_label D k /\
    match k with
    | Block d title attr cite cx body =>
        titles_opt title /\ texts_opt attr /\ texts_opt cite /\ (cx = XVerse -> some cite = true -> some attr = true) /\
        match body with
        | Compound l => every (fine p) l
        | Simple l | EDiscreteHeading _ l => texts l
        | EImage _ | EAudioVideo _ | EOther => True
        | TableContent t => table_fine fine p t
        | SectionContent s => section_fine fine p s
        | DocumentAttribute _ => p_callouts p = false
        | Quoted quote attr cite => texts quote /\ texts attr /\ texts_opt cite
        | ListContent _ _ items =>
            match cx with
            | XDescriptionList => dlist_allowed (p_dlist p) (style_of D d) /\ every (description_fine fine (style_of D d) (Place (dlist_inside (p_dlist p) (style_of D d)) (p_callouts p) (p_cell p))) items
            | XCalloutList => every (item_fine fine (Place (p_dlist p) true (p_cell p))) items
            | _ => every (item_fine fine p) items
            end
        end
    end.
  Definition top : place := Place DFree false false.
  Definition fine_document (doc : document block) : Prop := document_fine fine top doc.
End Fine.
