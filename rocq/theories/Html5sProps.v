(** C64: the semantic HTML written for a document is well nested. *)
From Verif Require Import Base AttrsModel EvalModel EscapeModel EvalSpec HtmlModel HtmlSpec HtmlScanProofs HtmlCallProofs HtmlProps Html5sModel Html5sSpec Html5sProofs.
Open Scope string_scope.
Open Scope nat_scope.
Open Scope list_scope.

(** ** C64 *)
(** Whatever the attributes, ids, roles, options and settings are: if the evaluation of a document ends, the semantic backend does not panic, the document and the texts
    of the anchors have none of the shapes listed in Html5sSpec, and the strings that are written as they are are harmless, then every element is closed by an end tag of
    its own name, in the right order, and every attribute value is quoted. *)
Theorem C64_nested D debug anchors wants fuel doc es ps : eval_document anchors wants fuel doc = Done es -> anchors_tidy5 D anchors -> fine_document5 D doc ->
  output5 D debug (out es) = Ret ps -> Forall harmless ps -> nested (bytes_of ps).
Proof. intros E A F O H. apply pscan_nested; [exact H|]. exact (all_closed D debug anchors wants A fuel doc es ps E F O). Qed.
Print Assumptions C64_nested.

(** ** Examples *)
Definition written5 (D : details) (anchors : anchor_table) (doc : document block) : option bytes :=
  match eval_document anchors (fun _ => true) 3 doc with Done es => match output5 D false (out es) with Ret ps => if forallb harmlessb ps then Some (bytes_of ps) else None | Panic => None end | _ => None end.
(** all strings are harmless, and what is written is not well nested *)
Definition ill5 (D : details) (anchors : anchor_table) (doc : document block) : Prop :=
  exists es ps, eval_document anchors (fun _ => true) 3 doc = Done es /\ output5 D false (out es) = Ret ps /\ Forall harmless ps /\ ~ nested (bytes_of ps).
Lemma ill5_by_scan D anchors doc : (match written5 D anchors doc with Some x => match scan (Out, []) x with Some (Out, []) => false | _ => true end | None => false end = true) -> ill5 D anchors doc.
Proof.
  unfold written5, ill5. destruct (eval_document anchors _ 3 doc) as [es| |]; try discriminate. destruct (output5 D false (out es)) as [ps|] eqn:O; [|discriminate].
  destruct (forallb harmlessb ps) eqn:H; [|discriminate]. intros S. exists es, ps. split; [reflexivity|]. split; [exact O|]. split; [now apply harmlessb_ok|]. rewrite nested_iff. intros E. rewrite E in S. discriminate S.
Qed.
Definition with_named (f : nat -> string -> option string) (D : details) : details :=
  Details f (n_nodes D) (n_option D) (n_pos D) (n_has_pos D) (n_id D) (n_roles D) (n_special D) (n_title D) (n_context D) (n_cell D) (n_position D) (n_decl D) (n_meta D)
          (n_text D) (n_opt D) (n_list D) (n_flag D) (n_num D) (n_href D) (n_missing D) (n_biblio D).
Definition with_options (f : nat -> string -> bool) (D : details) : details :=
  Details (n_named D) (n_nodes D) f (n_pos D) (n_has_pos D) (n_id D) (n_roles D) (n_special D) (n_title D) (n_context D) (n_cell D) (n_position D) (n_decl D) (n_meta D)
          (n_text D) (n_opt D) (n_list D) (n_flag D) (n_num D) (n_href D) (n_missing D) (n_biblio D).
Definition with_flags (f : nat -> string -> bool) (D : details) : details :=
  Details (n_named D) (n_nodes D) (n_option D) (n_pos D) (n_has_pos D) (n_id D) (n_roles D) (n_special D) (n_title D) (n_context D) (n_cell D) (n_position D) (n_decl D) (n_meta D)
          (n_text D) (n_opt D) (n_list D) f (n_num D) (n_href D) (n_missing D) (n_biblio D).
Definition with_position (p : toc_position) (D : details) : details :=
  Details (n_named D) (n_nodes D) (n_option D) (n_pos D) (n_has_pos D) (n_id D) (n_roles D) (n_special D) (n_title D) (n_context D) (n_cell D) (fun _ => p) (n_decl D) (n_meta D)
          (n_text D) (n_opt D) (n_list D) (n_flag D) (n_num D) (n_href D) (n_missing D) (n_biblio D).
Definition with_opt (f : nat -> string -> option string) (D : details) : details :=
  Details (n_named D) (n_nodes D) (n_option D) (n_pos D) (n_has_pos D) (n_id D) (n_roles D) (n_special D) (n_title D) (n_context D) (n_cell D) (n_position D) (n_decl D) (n_meta D)
          (n_text D) f (n_list D) (n_flag D) (n_num D) (n_href D) (n_missing D) (n_biblio D).

(** a document with a title, a table of contents in the place of the preamble, a titled block in the preamble, a list of callouts, a late image, a table with an AsciiDoc cell and a footnote meets the hypotheses *)
Definition sample_doc5 : document block :=
  Document 0 false None None None (Some [IText "Doc"; ISpan SBold 0 [IText "b"]]) (Some (Toc 0 [TocNode 10 1 [IText "One"] [TocNode 11 2 [IText "Two"] []]] PPreamble))
    (DSections (Some [para [IText "pre"; IFootnote 0 (Some [IText "note"])]; Block 1 (Some [IText "title"]) None None XListing (Simple [IText "code"])])
    [Section_ 12 [IText "One"]
      [Block 2 None None None XListing (Simple [IText "code"; ILeaf "callout" 0]);
       Block 3 None None None XCalloutList (ListContent callout_variant 1 [Item 0 [IText "i"] MOther []]);
       Block 4 None (Some [IText "Me"]) (Some [IText "Book"]) XBlockQuote (Compound [para [IText "q"; IXref "one" 0 None; ILeaf "image_macro" 9]]);
       Block 5 None None None XDescriptionList (ListContent 0 1 [Item 0 [IText "t"] (MDesc [] (Some (para [IText "d"]))) []]);
       Block 6 None None None XTable (TableContent (Table 0 (Some (Row 0 [Cell 0 (CParagraphs [[IText "h"]])])) [Row 0 [Cell 1 (CAsciiDoc (doc_of [para [IText "c"]])); Cell 2 (CLiteral [IText "l"])]] None));
       Block 7 None None None XVerse (Simple [IText "v"]); Block 8 None None None (XAdmonition ATip) (Simple [IText "a"]); Block 9 None None None XImage (EImage 9)]]).
Definition sample_details5 : details :=
  with_named (fun d n => if (d =? 9) && (n =? "loading")%string then Some "lazy" else None) (with_position PPreamble (
  with_kinds [(1, XListing); (2, XListing); (3, XCalloutList); (4, XBlockQuote); (5, XDescriptionList); (6, XTable); (7, XVerse); (8, XAdmonition ATip); (9, XImage)] [(1, CsAsciiDoc); (2, CsLiteral)] [(5, "horizontal")] (bare empty_meta))).
Example C64_sample : exists es ps, eval_document [("one", Anchor None [IText "One"] false)] (fun _ => true) 3 sample_doc5 = Done es /\ anchors_tidy5 sample_details5 [("one", Anchor None [IText "One"] false)] /\
  fine_document5 sample_details5 sample_doc5 /\ output5 sample_details5 true (out es) = Ret ps /\ Forall harmless ps /\ nested (bytes_of ps) /\ length (bytes_of ps) = 2271.
Proof.
  eexists. eexists. split; [vm_compute; reflexivity|]. assert (AT : anchors_tidy5 sample_details5 [("one", Anchor None [IText "One"] false)]).
  { intros id a. cbn [lookup]. destruct ("one" =? id)%string; [|discriminate]. intros E. injection E as <-. split; reflexivity. }
  split; [exact AT|]. assert (F : fine_document5 sample_details5 sample_doc5) by (vm_compute; intuition discriminate). split; [exact F|].
  split; [vm_compute; reflexivity|]. split; [apply harmlessb_ok; vm_compute; reflexivity|]. split; [apply nested_iff|]; vm_compute; reflexivity.
Qed.

(** ** Every shape that is left out comes out wrong, with harmless strings only *)
Ltac wrong5 := apply ill5_by_scan; vm_compute; reflexivity.
(** a footnote in the title of a block, in a footnote, and in the text of an anchor that is referred to in a title *)
Theorem C64_footnote_in_title_refuted : ill5 noted [] (inside [Block 1 (Some [IText "t"; IFootnote 0 (Some [IText "n"])]) None None XListing (Simple [IText "c"])]).
Proof. wrong5. Qed.
Print Assumptions C64_footnote_in_title_refuted.
Theorem C64_footnote_in_footnote_refuted : ill5 noted [] (inside [para [IFootnote 0 (Some [IText "n"; IFootnote 0 (Some [IText "m"])])]]).
Proof. wrong5. Qed.
Print Assumptions C64_footnote_in_footnote_refuted.
Theorem C64_footnote_in_reference_refuted :
  ill5 noted [("a", Anchor None [IFootnote 0 (Some [IText "n"])] false)] (inside [Block 1 (Some [IXref "a" 0 None]) None None XListing (Simple [IText "c"])]).
Proof. wrong5. Qed.
Print Assumptions C64_footnote_in_reference_refuted.
(** a preamble in a document with a title *)
Definition preface (toc : option toc) (l : list block) : document block := Document 0 true None None None (Some [IText "Doc"]) toc (DSections (Some l) [Section_ 12 [IText "One"] []]).
(** a footnote in the title of a section, when the table of contents is in the place of the preamble *)
Theorem C64_footnote_in_contents_refuted : ill5 (with_position PPreamble (bare emb)) []
  (preface (Some (Toc 0 [TocNode 10 1 [IText "One"; IFootnote 0 (Some [IText "n"])] []] PPreamble)) [para [IText "p"]]).
Proof. wrong5. Qed.
Print Assumptions C64_footnote_in_contents_refuted.
(** a title in a preamble of a block that does not write titles: it is taken for a table of contents *)
Theorem C64_title_left_in_preamble_refuted : forall cx, In cx [XThematicBreak; XPageBreak; XTableOfContents; XComment] ->
  ill5 (with_kinds [(1, cx)] [] [] (bare emb)) [] (preface None [para [IText "p"]; Block 1 (Some [IText "t"]) None None cx EOther]).
Proof. intros cx [<-|[<-|[<-|[<-|[]]]]]; wrong5. Qed.
Print Assumptions C64_title_left_in_preamble_refuted.
(** a list of callouts after a paragraph, at the start, or after a listing with a title *)
Definition callouts : block := Block 3 None None None XCalloutList (ListContent callout_variant 1 [Item 0 [IText "i"] MOther []]).
Theorem C64_callouts_refuted : forall before, In before [[]; [para [IText "p"]]; [Block 1 (Some [IText "t"]) None None XListing (Simple [IText "c"])]; [Block 2 None None None XSidebar (Simple [IText "s"])]] ->
  ill5 (with_kinds [(1, XListing); (2, XSidebar); (3, XCalloutList); (4, XOpen)] [] [] (bare emb)) [] (doc_of [Block 4 None None None XOpen (Compound (before ++ [callouts]))]).
Proof. intros l [<-|[<-|[<-|[<-|[]]]]]; wrong5. Qed.
Print Assumptions C64_callouts_refuted.
(** a verse with a title *)
Theorem C64_titled_verse_refuted : ill5 (with_kinds [(1, XVerse)] [] [] (bare emb)) [] (doc_of [Block 1 (Some [IText "t"]) None None XVerse (Simple [IText "v"])]).
Proof. wrong5. Qed.
Print Assumptions C64_titled_verse_refuted.
(** a part whose title has no id *)
Theorem C64_part_without_id_refuted : ill5 (bare emb) [] (Document 0 true None None None None None (DParts None [] [Part 2 [IText "P"] None None [Section_ 12 [IText "One"] []]] [])).
Proof. wrong5. Qed.
Print Assumptions C64_part_without_id_refuted.
(** an image that is not written as one tag, and is loaded late, has a style or roles *)
Definition vector (name value : string) : details :=
  with_flags (fun _ n => (n =? "svg")%string) (with_options (fun _ n => (n =? "interactive")%string) (with_named (fun d n => if (n =? name)%string then Some value else None)
    (with_kinds [(2, XImage)] [] [] (bare (with_embedded (meta_new Unsafe []) true))))).
Theorem C64_changed_image_refuted : forall n v, In (n, v) [("loading", "lazy"); ("float", "left"); ("align", "center")] -> ill5 (vector n v) [] (doc_of [para [ILeaf "image_macro" 0]]).
Proof. intros n v [E|[E|[E|[]]]]; injection E as <- <-; wrong5. Qed.
Print Assumptions C64_changed_image_refuted.
Theorem C64_late_image_block_refuted : ill5 (vector "loading" "lazy") [] (doc_of [Block 2 None None None XImage (EImage 0)]).
Proof. wrong5. Qed.
Print Assumptions C64_late_image_block_refuted.
(** a literal cell in a header row, and one that is emphasised, strong or monospaced *)
Theorem C64_header_cell_refuted : ill5 (with_kinds [(5, XTable)] [(1, CsLiteral)] [] (bare emb)) [] (doc_of [one_cell 0 1 (CLiteral [IText "x"])]) /\
  forall cs, In cs [CsEmphasis; CsMonospace; CsStrong] -> ill5 (with_kinds [(5, XTable)] [(1, cs)] [] (bare emb)) [] (doc_of [one_cell 0 1 (CParagraphs [[IText "x"]])]).
Proof. split; [wrong5|]. intros cs [<-|[<-|[<-|[]]]]; wrong5. Qed.
Print Assumptions C64_header_cell_refuted.
(** an AsciiDoc cell in an AsciiDoc cell, of a document that is not embedded: the page ends inside the cell *)
Theorem C64_cell_in_cell_refuted : ill5 (with_kinds [(5, XTable)] [(1, CsAsciiDoc)] [] (bare empty_meta)) []
  (doc_of [one_cell 1 1 (CAsciiDoc (doc_of [one_cell 1 1 (CAsciiDoc (doc_of [para [IText "x"]]))]))]).
Proof. wrong5. Qed.
Print Assumptions C64_cell_in_cell_refuted.
