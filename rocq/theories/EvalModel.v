(** Model of evaluating a document into backend calls: eval/src/eval.rs, with the document tree of ast/src/{inline,macro,block,list,table,
    toc,doc_content,document,node}.rs. The attributes, locations and other details of a node that eval only hands to the backend are one
    number, the label [nat] of the node. *)
From Verif Require Import Base.
Open Scope string_scope.
Open Scope list_scope.

(** ** The tree *)
(** ast/src/inline.rs:36-45 *)
Inductive span_kind := SBold | SItalic | SLitMono | SMono | SHighlight | SSuper | SSub | SText.
(** ast/src/inline.rs:17-110, ast/src/macro.rs:4-42. [ILeaf] are the nodes that eval hands over whole: special characters, newlines, curly
    quotes, white space, images, buttons, keyboards, menus, icons, plugins, anchors, line breaks, callouts, symbols and dashes; the string is
    the name of the call. [INothing] are line comments and discarded nodes. *)
Inductive inline :=
| ISpan (k : span_kind) (d : nat) (l : list inline)
| IPassthru (l : list inline)
| IText (s : string)
| ILeaf (call : string) (d : nat)
| IQuote (d : nat) (l : list inline)
| IFootnote (d : nat) (text : option (list inline))
| ILink (d : nat) (text : option (list inline))
| IXref (target : string) (d : nat) (linktext : option (list inline))
| IMailto (d : nat) (linktext : option (list inline))
| IBiblio (id : string)
| IVisible (term : list inline)
| IConcealed (primary : list inline) (secondary tertiary : option (list inline))
| INothing.
(** ast/src/node.rs:6-13 *)
Record anchor := Anchor { reftext : option (list inline); a_title : list inline; is_biblio : bool }.
Definition anchor_table := list (string * anchor).
(** ast/src/block.rs:70-103, without [ListItem] and [TableCell], which no block has *)
Inductive admonition := ACaution | AImportant | ANote | ATip | AWarning.
Inductive context :=
| XAdmonition (k : admonition) | XAudio | XBlockQuote | XCalloutList | XComment | XDescriptionList | XDiscreteHeading | XDocumentAttributeDecl | XExample | XImage
| XListing | XLiteral | XOrderedList | XOpen | XPageBreak | XParagraph | XPassthrough | XQuotedParagraph | XSection | XSidebar | XTable
| XThematicBreak | XTableOfContents | XUnorderedList | XVerse | XVideo.
(** ast/src/toc.rs:4-26 *)
Inductive toc_position := PLeft | PRight | PPreamble | PMacro | PAuto.
Inductive toc_node := TocNode (d level : nat) (title : list inline) (children : list toc_node).
Record toc := Toc { toc_d : nat; toc_nodes : list toc_node; position : toc_position }.
(** the parts of the tree that hold blocks: ast/src/doc_content.rs, list.rs:5-25, table.rs, document.rs; [B] is the type of blocks *)
Record section (B : Type) := Section_ { s_d : nat; s_heading : list inline; s_blocks : list B }.
Arguments Section_ {B}. Arguments s_d {B}. Arguments s_heading {B}. Arguments s_blocks {B}.
Inductive item_meta (B : Type) := MDesc (extra_terms : list (list inline)) (description : option B) | MOther.
Arguments MDesc {B}. Arguments MOther {B}.
Record item (B : Type) := Item { i_d : nat; i_principle : list inline; i_meta : item_meta B; i_blocks : list B }.
Arguments Item {B}. Arguments i_d {B}. Arguments i_principle {B}. Arguments i_meta {B}. Arguments i_blocks {B}.
Record part (B : Type) := Part { p_d : nat; p_title : list inline; p_meta_title : option (list inline); p_intro : option (list B); p_sections : list (section B) }.
Arguments Part {B}. Arguments p_d {B}. Arguments p_title {B}. Arguments p_meta_title {B}. Arguments p_intro {B}. Arguments p_sections {B}.
Inductive doc_content (B : Type) :=
| DBlocks (l : list B)
| DSections (preamble : option (list B)) (sections : list (section B))
| DParts (preamble : option (list B)) (opening : list (section B)) (parts : list (part B)) (closing : list (section B)).
Arguments DBlocks {B}. Arguments DSections {B}. Arguments DParts {B}.
(** the documents of AsciiDoc table cells share the table of anchors of the document they are in (parser/src/parser.rs:86), so that it is not a
    part of the document here *)
Record document (B : Type) := Document
  { d_d : nat; embedded : bool; info_head : option (list inline); info_header : option (list inline); info_footer : option (list inline);
    d_title : option (list inline); d_toc : option toc; d_content : doc_content B }.
Arguments Document {B}. Arguments d_d {B}. Arguments embedded {B}. Arguments info_head {B}. Arguments info_header {B}. Arguments info_footer {B}.
Arguments d_title {B}. Arguments d_toc {B}. Arguments d_content {B}.
Inductive cell_content (B : Type) := CParagraphs (l : list (list inline)) | CLiteral (l : list inline) | CAsciiDoc (doc : document B).
Arguments CParagraphs {B}. Arguments CLiteral {B}. Arguments CAsciiDoc {B}.
Record cell (B : Type) := Cell { c_d : nat; c_content : cell_content B }.
Arguments Cell {B}. Arguments c_d {B}. Arguments c_content {B}.
Record row (B : Type) := Row { r_d : nat; cells : list (cell B) }.
Arguments Row {B}. Arguments r_d {B}. Arguments cells {B}.
Record table (B : Type) := Table { t_d : nat; header_row : option (row B); body_rows : list (row B); footer_row : option (row B) }.
Arguments Table {B}. Arguments t_d {B}. Arguments header_row {B}. Arguments body_rows {B}. Arguments footer_row {B}.
(** ast/src/block.rs:22-60; [EOther] are comments and blocks without content *)
Inductive content (B : Type) :=
| Compound (l : list B)
| Simple (l : list inline)
| EImage (d : nat) | EAudioVideo (d : nat) | EDiscreteHeading (d : nat) (l : list inline) | EOther
| TableContent (t : table B)
| SectionContent (s : section B)
| DocumentAttribute (d : nat)
| Quoted (quote attr : list inline) (cite : option (list inline))
| ListContent (variant depth : nat) (items : list (item B)).
Arguments Compound {B}. Arguments Simple {B}. Arguments EImage {B}. Arguments EAudioVideo {B}. Arguments EDiscreteHeading {B}. Arguments EOther {B}.
Arguments TableContent {B}. Arguments SectionContent {B}. Arguments DocumentAttribute {B}. Arguments Quoted {B}. Arguments ListContent {B}.
(** ast/src/block.rs:4-9; of the attributes the title and the second and third positional ones are kept, which eval evaluates *)
Inductive block := Block (d : nat) (title attr cite : option (list inline)) (cx : context) (body : content block).

(** ** Calls *)
(** a call of the backend: its name and the labels, flags and text it is given. [Cell_] is [visit_asciidoc_table_cell_result] with the calls that the
    backend of the cell has received. *)
Inductive event := Enter (call : string) (args : list nat) | Exit (call : string) (args : list nat) | Visit (call : string) (arg : nat) (text : string) | Cell_ (calls : list event).
(** the calls so far and [Ctx::resolving_xref] *)
Record st := St { out : list event; resolving : bool }.
(** [Crash]: [todo!()] or [unreachable!()]; [Loops]: cross references were followed more often than the fuel allows *)
Inductive res := Done (s : st) | Crash | Loops.
Definition action := st -> res.
Definition emit (e : event) : action := fun s => Done (St (out s ++ [e]) (resolving s)).
Definition enter (call : string) (args : list nat) : action := emit (Enter call args).
Definition exit (call : string) (args : list nat) : action := emit (Exit call args).
Definition visit (call : string) (arg : nat) (text : string) : action := emit (Visit call arg text).
Definition skip : action := Done.
Definition then_ (f g : action) : action := fun s => match f s with Done s' => g s' | Crash => Crash | Loops => Loops end.
Fixpoint seq (l : list action) : action := match l with [] => skip | f :: l => then_ f (seq l) end.
Section Each.
  Context {A : Type} (f : A -> action).
  Fixpoint each (l : list A) : action := match l with [] => skip | a :: l => then_ (f a) (each l) end.
  Definition each_opt (o : option (list A)) : action := match o with Some l => each l | None => skip end.
End Each.
Definition flag (x : bool) : nat := Nat.b2n x.
Definition some {A} (o : option A) : bool := match o with Some _ => true | None => false end.

(** ** Inline nodes: eval.rs:445-634 *)
Fixpoint after_hash (s : string) : option string := match s with EmptyString => None | String c r => if Ascii.eqb c "#" then Some r else after_hash r end.
(** backend/src/utils.rs:103-105 *)
Definition get_id (target : string) : string := match after_hash target with Some id => id | None => target end.
Fixpoint lookup (anchors : anchor_table) (id : string) : option anchor :=
  match anchors with [] => None | (k, a) :: r => if (k =? id)%string then Some a else lookup r id end.
Definition span_name (k : span_kind) : string :=
  match k with
  | SText => "text_span" | SBold => "inline_bold" | SMono => "inline_mono" | SItalic => "inline_italic" | SHighlight => "inline_highlight"
  | SSub => "inline_subscript" | SSuper => "inline_superscript" | SLitMono => "inline_lit_mono"
  end.
Section Eval.
  (** the anchors of the document; what the backend answers after the calls so far when it is asked whether it wants to visit the contents of
      an index term *)
  Context (anchors : anchor_table) (wants : list event -> bool).
  (** [ctx.resolving_xref.replace(v)]: the rest is told the old value *)
  Definition replace_resolving (v : bool) (k : bool -> action) : action := fun s => k (resolving s) (St (out s) v).
  Definition ask (yes no : action) : action := fun s => if wants (out s) then yes s else no s.
  (** [fuel] bounds how deep the texts of anchors are nested *)
  Fixpoint eval_inline (fuel : nat) : inline -> action :=
    fix go (i : inline) : action :=
      match i with
      | ISpan k d l => seq [enter (span_name k) [d]; each go l; exit (span_name k) [d]]
      | IPassthru l => seq [enter "inline_passthrough" []; each go l; exit "inline_passthrough" []]
      | IText s => visit "inline_text" 0 s
      | ILeaf call d => visit call d ""
      | IQuote d l => seq [enter "inline_quote" [d]; each go l; exit "inline_quote" [d]]
      | IFootnote d text => seq [enter "footnote" [d]; each_opt go text; exit "footnote" [d]]
      | ILink d text => fun s => let in_xref := flag (resolving s) in
          match text with
          | Some l => seq [enter "link_macro" [d; in_xref; 1]; each go l; exit "link_macro" [d; in_xref; 1]] s
          | None => seq [enter "link_macro" [d; in_xref; 0]; exit "link_macro" [d; in_xref; 0]] s
          end
      | IXref target d linktext =>
          let anchor := lookup anchors (get_id target) in
          let biblio := flag (match anchor with Some a => is_biblio a | None => false end) in
          let by_linktext :=
            match linktext with
            | Some l => seq [enter "xref_text" [biblio]; each go l; exit "xref_text" [biblio]]
            | None => visit "missing_xref" 0 target
            end in
          let by_anchor (l : list inline) :=
            match fuel with 0 => fun _ => Loops | S f => seq [enter "xref_text" [biblio]; each (eval_inline f) l; exit "xref_text" [biblio]] end in
          seq [enter "xref" [d; flag (some linktext)];
               replace_resolving true (fun resolving =>
                 if resolving then visit "missing_xref" 0 target
                 else match anchor with
                      | None => by_linktext
                      | Some a =>
                          match reftext a with
                          | Some ((_ :: _) as l) => by_anchor l
                          | Some [] => by_linktext
                          | None =>
                              match linktext with
                              | Some _ => by_linktext
                              | None => match a_title a with [] => visit "missing_xref" 0 target | l => by_anchor l end
                              end
                          end
                      end);
               replace_resolving false (fun _ => skip);
               exit "xref" [d; flag (some linktext)]]
      | IMailto d linktext => seq [enter "mailto_macro" [d; flag (some linktext)]; each_opt go linktext; exit "mailto_macro" [d; flag (some linktext)]]
      | IBiblio id => visit "biblio_anchor" 0 id
      | IVisible term => seq [enter "visible_index_term" []; ask (each go term) skip]
      | IConcealed primary secondary tertiary =>
          let n := 1 + flag (some secondary) + flag (some tertiary) in
          seq [enter "concealed_index_term" [n];
               ask (seq [enter "concealed_index_term_primary" []; each go primary; exit "concealed_index_term_primary" [];
                         match secondary with
                         | Some l => seq [enter "concealed_index_term_secondary" []; each go l; exit "concealed_index_term_secondary" []]
                         | None => skip
                         end;
                         match tertiary with
                         | Some l => seq [enter "concealed_index_term_tertiary" []; each go l; exit "concealed_index_term_tertiary" []]
                         | None => skip
                         end]) skip;
               exit "concealed_index_term" [n]]
      | INothing => skip
      end.

  (** ** The table of contents: eval.rs:685-715 *)
  Context (fuel : nat).
  Definition inlines (l : list inline) : action := each (eval_inline fuel) l.
  Definition inlines_opt (o : option (list inline)) : action := each_opt (eval_inline fuel) o.
  Fixpoint eval_toc_node (n : toc_node) : action :=
    match n with
    | TocNode d _ title children =>
        seq [enter "toc_node" [d]; enter "toc_content" []; inlines title; exit "toc_content" [];
             match children with
             | [] => skip
             | TocNode _ level _ _ :: _ => seq [enter "toc_level" [level]; each eval_toc_node children; exit "toc_level" [level]]
             end;
             exit "toc_node" [d]]
    end.
  Definition eval_toc_level (nodes : list toc_node) : action :=
    match nodes with
    | [] => skip
    | TocNode _ level _ _ :: _ => seq [enter "toc_level" [level]; each eval_toc_node nodes; exit "toc_level" [level]]
    end.
  Definition position_eqb (a b : toc_position) : bool := match a, b with PLeft, PLeft | PRight, PRight | PPreamble, PPreamble | PMacro, PMacro | PAuto, PAuto => true | _, _ => false end.
  Definition eval_toc_at (t : option toc) (positions : list toc_position) : action :=
    match t with
    | None => skip
    | Some t =>
        if existsb (position_eqb (position t)) positions && negb (match toc_nodes t with [] => true | _ => false end)
        then seq [enter "toc" [toc_d t]; eval_toc_level (toc_nodes t); exit "toc" [toc_d t]] else skip
    end.

  (** ** The parts that hold blocks *)
  Section Parts.
    Context {B : Type} (eval_block : option toc -> B -> action).
    Section InDocument.
      Context (t : option toc).
      (** eval.rs:143-156 *)
      Definition eval_section (s : section B) : action :=
        seq [enter "section" [s_d s]; enter "section_heading" [s_d s]; inlines (s_heading s); exit "section_heading" [s_d s];
             each (eval_block t) (s_blocks s); exit "section" [s_d s]].
      (** eval.rs:117-141 *)
      Definition eval_book_part (p : part B) : action :=
        seq [enter "book_part" [p_d p]; enter "book_part_title" [p_d p]; inlines (p_title p); exit "book_part_title" [p_d p];
             match p_intro p with
             | Some blocks =>
                 seq [enter "book_part_intro" [p_d p]; inlines_opt (p_meta_title p); enter "book_part_intro_content" [p_d p];
                      each (eval_block t) blocks; exit "book_part_intro_content" [p_d p]; exit "book_part_intro" [p_d p]]
             | None => skip
             end;
             each eval_section (p_sections p); exit "book_part" [p_d p]].
      (** eval.rs:298-309, 313-324, 363-374 *)
      Definition eval_item (variant : nat) (i : item B) : action :=
        seq [enter "list_item_principal" [i_d i; variant]; inlines (i_principle i); exit "list_item_principal" [i_d i; variant];
             enter "list_item_blocks" [i_d i; variant]; each (eval_block t) (i_blocks i); exit "list_item_blocks" [i_d i; variant]].
      (** eval.rs:340-344; [n] counts the terms *)
      Fixpoint eval_terms (d total n : nat) (l : list (list inline)) : action :=
        match l with
        | [] => skip
        | term :: l => seq [enter "description_list_term" [d; n; total]; inlines term; exit "description_list_term" [d; n; total]; eval_terms d total (S n) l]
        end.
      (** eval.rs:329-359 *)
      Definition eval_description (i : item B) : action :=
        match i_meta i with
        | MOther => fun _ => Crash
        | MDesc extra_terms description =>
            let total := 1 + length extra_terms in
            seq [enter "description_list_term" [i_d i; 1; total]; inlines (i_principle i); exit "description_list_term" [i_d i; 1; total];
                 eval_terms (i_d i) total 2 extra_terms;
                 if some description || negb (match i_blocks i with [] => true | _ => false end) then
                   seq [enter "description_list_description" [i_d i];
                        match description with
                        | Some b => seq [enter "description_list_description_text" [i_d i]; eval_block t b; exit "description_list_description_text" [i_d i]]
                        | None => skip
                        end;
                        each (fun b => seq [enter "description_list_description_block" [i_d i]; eval_block t b; exit "description_list_description_block" [i_d i]]) (i_blocks i);
                        exit "description_list_description" [i_d i]]
                 else skip]
        end.
      (** eval.rs:636-653 *)
      Definition eval_quote_attr (d : nat) (attr cite : option (list inline)) : action :=
        seq [match attr with
             | Some l => seq [enter "quote_attribution" [d; flag (some cite)]; inlines l; exit "quote_attribution" [d; flag (some cite)]]
             | None => skip
             end;
             match cite with
             | Some l => seq [enter "quote_cite" [d; flag (some attr)]; inlines l; exit "quote_cite" [d; flag (some attr)]]
             | None => skip
             end].
    End InDocument.
    (** eval.rs:57-64, 66-115, 17-55. [has] is whether the document has a title. *)
    Definition eval_doc_content (t : option toc) (has : nat) (c : doc_content B) : action :=
      seq [enter "content" [];
           match c with
           | DBlocks l => each (eval_block t) l
           | DSections preamble sections =>
               seq [match preamble with
                    | Some l => seq [enter "preamble" [has]; each (eval_block t) l; eval_toc_at t [PPreamble]; exit "preamble" [has]]
                    | None => skip
                    end;
                    each (eval_section t) sections]
           | DParts preamble opening parts closing =>
               seq [match preamble with
                    | Some l => seq [enter "preamble" [has]; each (eval_block t) l; each (eval_section t) opening; eval_toc_at t [PPreamble]; exit "preamble" [has]]
                    | None => each (eval_section t) opening
                    end;
                    each (eval_book_part t) parts; each (eval_section t) closing]
           end;
           exit "content" []].
    Definition eval_docinfo (doc : document B) (o : option (list inline)) : action := if embedded doc then skip else inlines_opt o.
    Definition visit_document (doc : document B) : action :=
      seq [enter "document" [d_d doc]; eval_docinfo doc (info_head doc); enter "body" [d_d doc]; eval_docinfo doc (info_header doc); enter "header" [];
           match d_title doc with Some l => seq [enter "document_title" []; inlines l; exit "document_title" []] | None => skip end;
           exit "header" []; eval_toc_at (d_toc doc) [PAuto; PLeft; PRight]; eval_doc_content (d_toc doc) (flag (some (d_title doc))) (d_content doc);
           enter "footer" []; exit "footer" []; eval_docinfo doc (info_footer doc); exit "body" [d_d doc]; exit "document" [d_d doc]].
    (** eval.rs:655-683: the document of a cell is visited with a backend and a context of its own *)
    Definition eval_cell (t : option toc) (sect : nat) (c : cell B) : action :=
      seq [enter "table_cell" [c_d c; sect];
           match c_content c with
           | CParagraphs l => each (fun p => seq [enter "cell_paragraph" [c_d c; sect]; inlines p; exit "cell_paragraph" [c_d c; sect]]) l
           | CLiteral l => inlines l
           | CAsciiDoc doc => fun s => match visit_document doc (St [] false) with Done s' => emit (Cell_ (out s')) s | Crash => Crash | Loops => Loops end
           end;
           exit "table_cell" [c_d c; sect]].
    Definition eval_row (t : option toc) (sect : nat) (r : row B) : action :=
      seq [enter "table_row" [r_d r; sect]; each (eval_cell t sect) (cells r); exit "table_row" [r_d r; sect]].
    (** eval.rs:394-415 *)
    Definition eval_table (t : option toc) (d : nat) (tb : table B) : action :=
      seq [enter "table" [t_d tb; d];
           match header_row tb with Some r => seq [enter "table_section" [0]; eval_row t 0 r; exit "table_section" [0]] | None => skip end;
           match body_rows tb with [] => skip | rows => seq [enter "table_section" [1]; each (eval_row t 1) rows; exit "table_section" [1]] end;
           match footer_row tb with Some r => seq [enter "table_section" [2]; eval_row t 2 r; exit "table_section" [2]] | None => skip end;
           exit "table" [t_d tb; d]].
  End Parts.

  (** ** Blocks: eval.rs:158-443 *)
  Definition admonition_label (k : admonition) : nat := match k with ACaution => 0 | AImportant => 1 | ANote => 2 | ATip => 3 | AWarning => 4 end.
  Fixpoint eval_block (t : option toc) (b : block) : action :=
    match b with
    | Block d title attr cite cx body =>
        let simple name l := seq [enter name [d]; enter "simple_block_content" [d]; inlines l; exit "simple_block_content" [d]; exit name [d]] in
        let has := flag (some attr || some cite) in
        seq [match title with Some l => seq [enter "meta_title" [d]; inlines l; exit "meta_title" [d]] | None => skip end;
             match cx, body with
             | XParagraph, Simple l => simple "paragraph_block" l
             | XSidebar, Simple l => simple "sidebar_block" l
             | XListing, Simple l => simple "listing_block" l
             | XSidebar, Compound l => seq [enter "sidebar_block" [d]; enter "compound_block_content" [d]; each (eval_block t) l; exit "compound_block_content" [d]; exit "sidebar_block" [d]]
             | XVerse, Simple l =>
                 seq [enter "verse_block" [d; has]; enter "simple_block_content" [d]; inlines l; exit "simple_block_content" [d]; eval_quote_attr d attr cite; exit "verse_block" [d; has]]
             | XBlockQuote, Simple l =>
                 seq [enter "quote_block" [d; has]; enter "simple_block_content" [d]; inlines l; exit "simple_block_content" [d]; eval_quote_attr d attr cite; exit "quote_block" [d; has]]
             | XBlockQuote, Compound l =>
                 seq [enter "quote_block" [d; has]; enter "compound_block_content" [d]; each (eval_block t) l; exit "compound_block_content" [d]; eval_quote_attr d attr cite; exit "quote_block" [d; has]]
             | XQuotedParagraph, Quoted quote attr cite => seq [enter "quoted_paragraph" [d]; inlines quote; eval_quote_attr d (Some attr) cite; exit "quoted_paragraph" [d]]
             | XOpen, Compound l => seq [enter "open_block" [d]; enter "compound_block_content" [d]; each (eval_block t) l; exit "compound_block_content" [d]; exit "open_block" [d]]
             | XExample, Compound l => seq [enter "example_block" [d]; enter "compound_block_content" [d]; each (eval_block t) l; exit "compound_block_content" [d]; exit "example_block" [d]]
             | XExample, Simple l => simple "example_block" l
             | XAdmonition k, Simple l => seq [enter "admonition_block" [admonition_label k; d]; inlines l; exit "admonition_block" [admonition_label k; d]]
             | XAdmonition k, Compound l =>
                 seq [enter "admonition_block" [admonition_label k; d]; enter "compound_block_content" [d]; each (eval_block t) l; exit "compound_block_content" [d]; exit "admonition_block" [admonition_label k; d]]
             | XImage, EImage e => seq [enter "image_block" [e; d]; exit "image_block" [e; d]]
             | XDocumentAttributeDecl, DocumentAttribute e => visit "document_attribute_decl" e ""
             | XOrderedList, ListContent variant depth items => seq [enter "ordered_list" [d; depth]; each (eval_item eval_block t variant) items; exit "ordered_list" [d; depth]]
             | XUnorderedList, ListContent variant depth items => seq [enter "unordered_list" [d; depth]; each (eval_item eval_block t variant) items; exit "unordered_list" [d; depth]]
             | XDescriptionList, ListContent _ depth items => seq [enter "description_list" [d; depth]; each (eval_description eval_block t) items; exit "description_list" [d; depth]]
             | XCalloutList, ListContent variant depth items => seq [enter "callout_list" [d; depth]; each (eval_item eval_block t variant) items; exit "callout_list" [d; depth]]
             | XSection, SectionContent s => eval_section eval_block t s
             | XLiteral, Simple l => simple "literal_block" l
             | XPassthrough, Simple l => simple "passthrough_block" l
             | XTable, TableContent tb => eval_table eval_block t d tb
             | XDiscreteHeading, EDiscreteHeading e l => seq [enter "discrete_heading" [e; d]; inlines l; exit "discrete_heading" [e; d]]
             | XThematicBreak, _ => visit "thematic_break" d ""
             | XPageBreak, _ => visit "page_break" d ""
             | XTableOfContents, _ => eval_toc_at t [PMacro]
             | XAudio, EAudioVideo e => visit "audio_macro" e ""
             | XVideo, EAudioVideo e => visit "video_macro" e ""
             | XComment, _ => skip
             | _, _ => fun _ => Crash
             end]
    end.
  (** eval.rs:7-10, 17-21 *)
  Definition eval_document (doc : document block) : res := visit_document eval_block doc (St [] false).
End Eval.
