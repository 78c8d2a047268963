(** What C34 and C35 say. *)
From Verif Require Import Base EvalModel.
Open Scope string_scope.
Open Scope list_scope.

(** ** Brackets *)
(** every enter is closed by the exit of the same name with the same arguments, properly nested; the enters in [lone] have no exit. What the
    backend of a table cell receives is a stream of its own. *)
Section Balanced.
  Context (lone : string -> Prop).
  Inductive balanced : list event -> Prop :=
  | bal_nil : balanced []
  | bal_visit call d text r : balanced r -> balanced (Visit call d text :: r)
  | bal_cell l r : balanced l -> balanced r -> balanced (Cell_ l :: r)
  | bal_pair call args l r : balanced l -> balanced r -> balanced (Enter call args :: l ++ Exit call args :: r)
  | bal_lone call args r : lone call -> balanced r -> balanced (Enter call args :: r).
End Balanced.
Definition well_bracketed : list event -> Prop := balanced (fun _ => False).
(** apart from the enters of visible index terms *)
Definition well_bracketed_but_index : list event -> Prop := balanced (fun call => call = "visible_index_term").

(** ** Document order *)
(** what a stream of events says: everything the backend is made to visit, in order *)
Fixpoint said (e : event) : list (string * nat * string) :=
  match e with Visit call d text => [(call, d, text)] | Cell_ l => flat_map said l | _ => [] end.
Definition all_said (l : list event) : list (string * nat * string) := flat_map said l.
(** the text that a cross reference has: the text its anchor asks for; its own; the title of what it points to *)
Definition text_of_xref (anchors : anchor_table) (target : string) (own : option (list inline)) : option (list inline) :=
  match lookup anchors (get_id target) with
  | Some a =>
      match reftext a, own with
      | Some (x :: l), _ => Some (x :: l)
      | Some [], _ => own
      | None, Some l => Some l
      | None, None => match a_title a with [] => None | l => Some l end
      end
  | None => own
  end.
(** what a run of inline nodes says. [inside] is whether it is in the text of a cross reference: there a reference may be left without a text. *)
Section Says.
  Context (anchors : anchor_table).
  Inductive says : bool -> list inline -> list (string * nat * string) -> Prop :=
  | says_nil x : says x [] []
  | says_text x s r w : says x r w -> says x (IText s :: r) (("inline_text", 0, s) :: w)
  | says_leaf x call d r w : says x r w -> says x (ILeaf call d :: r) ((call, d, "") :: w)
  | says_biblio x id r w : says x r w -> says x (IBiblio id :: r) (("biblio_anchor", 0, id) :: w)
  | says_nothing x r w : says x r w -> says x (INothing :: r) w
  | says_span x k d l r v w : says x l v -> says x r w -> says x (ISpan k d l :: r) (v ++ w)
  | says_passthru x l r v w : says x l v -> says x r w -> says x (IPassthru l :: r) (v ++ w)
  | says_quote x d l r v w : says x l v -> says x r w -> says x (IQuote d l :: r) (v ++ w)
  | says_footnote x d l r v w : says x l v -> says x r w -> says x (IFootnote d (Some l) :: r) (v ++ w)
  | says_footnote_none x d r w : says x r w -> says x (IFootnote d None :: r) w
  | says_link x d l r v w : says x l v -> says x r w -> says x (ILink d (Some l) :: r) (v ++ w)
  | says_link_none x d r w : says x r w -> says x (ILink d None :: r) w
  | says_mailto x d l r v w : says x l v -> says x r w -> says x (IMailto d (Some l) :: r) (v ++ w)
  | says_mailto_none x d r w : says x r w -> says x (IMailto d None :: r) w
  | says_xref x target d own l r v w : text_of_xref anchors target own = Some l -> says true l v -> says x r w -> says x (IXref target d own :: r) (v ++ w)
  | says_xref_missing x target d own r w :
      x = true \/ text_of_xref anchors target own = None -> says x r w -> says x (IXref target d own :: r) (("missing_xref", 0, target) :: w)
  (** an index term says its contents if the backend wants them *)
  | says_visible x l r v w : says x l v -> says x r w -> says x (IVisible l :: r) (v ++ w)
  | says_visible_not x l r w : says x r w -> says x (IVisible l :: r) w
  | says_concealed x p s t r u v v' w :
      says x p u -> says x (match s with Some l => l | None => [] end) v -> says x (match t with Some l => l | None => [] end) v' -> says x r w ->
      says x (IConcealed p s t :: r) (u ++ v ++ v' ++ w)
  | says_concealed_not x p s t r w : says x r w -> says x (IConcealed p s t :: r) w.
End Says.

(** all inline nodes of a document, in the order in which it is read *)
Definition opt {A} (o : option (list A)) : list A := match o with Some l => l | None => [] end.
Fixpoint toc_reading (n : toc_node) : list inline := match n with TocNode _ _ title children => title ++ flat_map toc_reading children end.
Definition toc_at (t : option toc) (positions : list toc_position) : list inline :=
  match t with Some t => if existsb (position_eqb (position t)) positions then flat_map toc_reading (toc_nodes t) else [] | None => [] end.
Section Reading.
  Context {B : Type} (reading : option toc -> B -> list inline).
  Definition section_reading (t : option toc) (s : section B) : list inline := s_heading s ++ flat_map (reading t) (s_blocks s).
  Definition part_reading (t : option toc) (p : part B) : list inline :=
    p_title p ++ match p_intro p with Some l => opt (p_meta_title p) ++ flat_map (reading t) l | None => [] end ++ flat_map (section_reading t) (p_sections p).
  Definition item_reading (t : option toc) (i : item B) : list inline := i_principle i ++ flat_map (reading t) (i_blocks i).
  Definition description_reading (t : option toc) (i : item B) : list inline :=
    i_principle i ++
    match i_meta i with MDesc terms description => concat terms ++ match description with Some b => reading t b | None => [] end | MOther => [] end ++
    flat_map (reading t) (i_blocks i).
  Definition content_reading (t : option toc) (c : doc_content B) : list inline :=
    match c with
    | DBlocks l => flat_map (reading t) l
    | DSections preamble sections =>
        match preamble with Some l => flat_map (reading t) l ++ toc_at t [PPreamble] | None => [] end ++ flat_map (section_reading t) sections
    | DParts preamble opening parts closing =>
        opt (option_map (flat_map (reading t)) preamble) ++ flat_map (section_reading t) opening ++
        match preamble with Some _ => toc_at t [PPreamble] | None => [] end ++
        flat_map (part_reading t) parts ++ flat_map (section_reading t) closing
    end.
  Definition document_reading (doc : document B) : list inline :=
    let info o := if embedded doc then [] else opt o in
    info (info_head doc) ++ info (info_header doc) ++ opt (d_title doc) ++ toc_at (d_toc doc) [PAuto; PLeft; PRight] ++
    content_reading (d_toc doc) (d_content doc) ++ info (info_footer doc).
  Definition cell_reading (c : cell B) : list inline :=
    match c_content c with CParagraphs l => concat l | CLiteral l => l | CAsciiDoc doc => document_reading doc end.
  Definition row_reading (r : row B) : list inline := flat_map cell_reading (cells r).
  Definition table_reading (t : table B) : list inline :=
    match header_row t with Some r => row_reading r | None => [] end ++ flat_map row_reading (body_rows t) ++
    match footer_row t with Some r => row_reading r | None => [] end.
End Reading.
(** breaks, media and attribute declarations count as leaves *)
Fixpoint reading (t : option toc) (b : block) : list inline :=
  match b with
  | Block d title attr cite cx body =>
      opt title ++
      match cx with
      | XThematicBreak => [ILeaf "thematic_break" d]
      | XPageBreak => [ILeaf "page_break" d]
      | XTableOfContents => toc_at t [PMacro]
      | XComment => []
      | _ =>
          match body with
          | Compound l => flat_map (reading t) l
          | Simple l => l
          | EImage _ | EOther => []
          | EAudioVideo e => [ILeaf (match cx with XAudio => "audio_macro" | _ => "video_macro" end) e]
          | EDiscreteHeading _ l => l
          | TableContent tb => table_reading reading tb
          | SectionContent s => section_reading reading t s
          | DocumentAttribute e => [ILeaf "document_attribute_decl" e]
          | Quoted quote attr cite => quote ++ attr ++ opt cite
          | ListContent _ _ items => match cx with XDescriptionList => flat_map (description_reading reading t) items | _ => flat_map (item_reading reading t) items end
          end ++
          match cx with XVerse | XBlockQuote => opt attr ++ opt cite | _ => [] end
      end
  end.

(** blocks that are shown by a single call, or not at all *)
Definition by_itself (b : block) : bool :=
  match b with Block _ _ _ _ cx _ => match cx with XThematicBreak | XPageBreak | XTableOfContents | XComment | XAudio | XVideo | XDocumentAttributeDecl => true | _ => false end end.
(** [l] goes in, says what [run] says, and goes out of what it went into *)
Definition goes_in_and_out (anchors : anchor_table) (lone : string -> Prop) (run : list inline) (l : list event) : Prop :=
  exists call args inner, l = Enter call args :: inner ++ [Exit call args] /\ balanced lone inner /\ says anchors false run (all_said inner).
Definition shown_inside (anchors : anchor_table) : list inline -> list event -> Prop := goes_in_and_out anchors (fun call => call = "visible_index_term").

(** ** Visible index terms *)
Fixpoint has_visible (i : inline) : bool :=
  let any := existsb has_visible in
  let any_opt o := match o with Some l => any l | None => false end in
  match i with
  | IVisible _ => true
  | ISpan _ _ l | IPassthru l | IQuote _ l => any l
  | IFootnote _ o | ILink _ o | IXref _ _ o | IMailto _ o => any_opt o
  | IConcealed p s t => any p || any_opt s || any_opt t
  | _ => false
  end.
Definition no_visible (l : list inline) : Prop := existsb has_visible l = false.
Definition no_visible_anchor (anchors : anchor_table) : Prop :=
  forall id a, lookup anchors id = Some a -> no_visible (opt (reftext a)) /\ no_visible (a_title a).

(** ** Blocks whose content fits their context *)
Section Every.
  Context {A : Type} (P : A -> Prop).
  Fixpoint every (l : list A) : Prop := match l with [] => True | a :: l => P a /\ every l end.
  Definition every_opt (o : option (list A)) : Prop := match o with Some l => every l | None => True end.
End Every.
Section Fits.
  Context {B : Type} (fits : B -> Prop).
  Definition section_fits (s : section B) : Prop := every fits (s_blocks s).
  Definition part_fits (p : part B) : Prop := every_opt fits (p_intro p) /\ every section_fits (p_sections p).
  Definition item_fits (i : item B) : Prop := every fits (i_blocks i).
  Definition description_fits (i : item B) : Prop :=
    every fits (i_blocks i) /\ match i_meta i with MDesc _ (Some b) => fits b | MDesc _ None => True | MOther => False end.
  Definition content_fits (c : doc_content B) : Prop :=
    match c with
    | DBlocks l => every fits l
    | DSections preamble sections => every_opt fits preamble /\ every section_fits sections
    | DParts preamble opening parts closing => every_opt fits preamble /\ every section_fits opening /\ every part_fits parts /\ every section_fits closing
    end.
  Definition document_fits (doc : document B) : Prop := content_fits (d_content doc).
  Definition cell_fits (c : cell B) : Prop := match c_content c with CAsciiDoc doc => document_fits doc | _ => True end.
  Definition row_fits (r : row B) : Prop := every cell_fits (cells r).
  Definition table_fits (t : table B) : Prop :=
    match header_row t with Some r => row_fits r | None => True end /\ every row_fits (body_rows t) /\ match footer_row t with Some r => row_fits r | None => True end.
End Fits.
Fixpoint fits (b : block) : Prop :=
  match b with
  | Block _ _ _ _ cx body =>
      match cx, body with
      | (XThematicBreak | XPageBreak | XTableOfContents | XComment), _ => True
      | (XParagraph | XSidebar | XListing | XVerse | XBlockQuote | XExample | XAdmonition _ | XLiteral | XPassthrough), Simple _ => True
      | (XSidebar | XBlockQuote | XOpen | XExample | XAdmonition _), Compound l => every fits l
      | XQuotedParagraph, Quoted _ _ _ => True
      | XImage, EImage _ | (XAudio | XVideo), EAudioVideo _ | XDiscreteHeading, EDiscreteHeading _ _ | XDocumentAttributeDecl, DocumentAttribute _ => True
      | (XOrderedList | XUnorderedList | XCalloutList), ListContent _ _ items => every (item_fits fits) items
      | XDescriptionList, ListContent _ _ items => every (description_fits fits) items
      | XSection, SectionContent s => section_fits fits s
      | XTable, TableContent t => table_fits fits t
      | _, _ => False
      end
  end.

(** ** Cross references in cross references *)
(** the targets of all cross references in a run of inline nodes, in order *)
Fixpoint targets (i : inline) : list string :=
  let all := flat_map targets in
  let all_opt o := match o with Some l => all l | None => [] end in
  match i with
  | IXref target _ own => target :: all_opt own
  | ISpan _ _ l | IPassthru l | IQuote _ l | IVisible l => all l
  | IFootnote _ o | ILink _ o | IMailto _ o => all_opt o
  | IConcealed p s t => all p ++ all_opt s ++ all_opt t
  | _ => []
  end.
(** the anchors are ordered so that all cross references in the text of an anchor but the first lead to lower anchors *)
Definition well_founded_anchors (anchors : anchor_table) (rank : string -> nat) : Prop :=
  forall id a text, lookup anchors id = Some a -> text = opt (reftext a) \/ text = a_title a ->
  Forall (fun target => lookup anchors (get_id target) <> None -> rank (get_id target) < rank id) (tl (flat_map targets text)).
Definition terminates (anchors : anchor_table) (wants : list event -> bool) (doc : document block) : Prop :=
  exists fuel, eval_document anchors wants fuel doc <> Loops.
