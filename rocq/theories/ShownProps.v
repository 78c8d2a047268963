(** C66: the texts of a document stand in its HTML, in their order. *)
From Verif Require Import Base AttrsModel EvalModel EscapeModel EvalSpec HtmlModel HtmlSpec HtmlProps ShownSpec ShownProofs.
Open Scope string_scope.
Open Scope nat_scope.
Open Scope list_scope.

(** ** C66 *)
(** Whatever the attributes, ids, roles, options and settings are: if the evaluation of a document ends, the backend does not panic, and the titles of blocks are where
    titles are shown and footnotes where footnotes may be, then all texts of the document stand in the HTML as they are, one after another, in the order of the document:
    the texts of titles, headings, paragraphs, lists, cells and quotes, then the texts of the footnotes, then those of the document information after them. *)
Theorem C66_shown D debug anchors wants fuel doc es ps : eval_document anchors wants fuel doc = Done es -> wants_visible wants -> anchors_tidy anchors -> all_shown D doc ->
  output D debug (out es) = Ret ps -> in_order (map b (document_texts D doc)) (bytes_of ps).
Proof. apply shown_document. Qed.
Print Assumptions C66_shown.

(** [in_order] says something: order, number of occurrences and every byte count. *)
Example C66_order : in_order [$"a"; $"b"; $"a"] ($"<p>a</p>ba") /\ ~ in_order [$"a"; $"b"] ($"ba") /\ ~ in_order [$"a"; $"a"] ($"a") /\ ~ in_order [$"ab"] ($"a b").
Proof. rewrite <- !in_orderb_ok. repeat split; vm_compute; try reflexivity; discriminate. Qed.
(** the document of C54 with more of everything *)
Definition long_doc : document block :=
  Document 0 false (Some [IText "head"]) (Some [IText "header"]) (Some [IText "end"]) (Some [IText "Doc"; ISpan SBold 0 [IText "b"]]) (Some (Toc 0 [TocNode 1 1 [IText "One"] []] PAuto))
   (DSections (Some [para [IText "pre"; IFootnote 0 (Some [IText "note"])]])
    [Section_ 1 [IText "One"]
      [Block 1 (Some [IText "title"]) None None XListing (Simple [IText "code"; ILeaf "inline_specialchar" 0; IText "more"]);
       Block 2 None (Some [IText "Me"]) (Some [IText "Book"]) XBlockQuote (Compound [para [IText "q"; IXref "one" 0 None]]);
       Block 3 None None None XUnorderedList (ListContent 0 1 [Item 0 [IText "i"] MOther [para [ILink 0 (Some [IText "l"; IFootnote 0 (Some [IText "second"])])]]; Item 0 [IVisible [IText "term"]] MOther []]);
       Block 4 None None None XDescriptionList (ListContent 0 1 [Item 0 [IText "t"] (MDesc [[IText "u"]] (Some (para [IText "d"]))) [para [IText "e"]]]);
       Block 5 None None None XTable (TableContent (Table 0 (Some (Row 0 [Cell 0 (CParagraphs [[IText "h "]; [IText "g"]])])) [Row 0 [Cell 1 (CAsciiDoc (doc_of [para [IText "c"; IFootnote 0 (Some [IText "third"])]])); Cell 2 (CLiteral [IText "l"])]] None));
       Block 6 None None (None) XVerse (Simple [IText "v"]); Block 7 None None None (XAdmonition ATip) (Simple [IText "a"]); Block 8 None None None XThematicBreak EOther]]).
Definition long_anchors : anchor_table := [("one", Anchor None [IText "One"] false)].
Example C66_sample : exists es ps, eval_document long_anchors (fun _ => true) 3 long_doc = Done es /\ wants_visible (fun _ => true) /\ anchors_tidy long_anchors /\ all_shown sample_details long_doc /\
  output sample_details true (out es) = Ret ps /\ in_order (map b (document_texts sample_details long_doc)) (bytes_of ps) /\
  document_texts sample_details long_doc =
    ["head"; "header"; "Doc"; "b"; "pre"; "One"; "title"; "code"; "more"; "q"; "Me"; "Book"; "i"; "l"; "term"; "t"; "u"; "d"; "e"; "h "; "g"; "c"; "l"; "v"; "a"; "note"; "second"; "third"; "end"].
Proof.
  eexists. eexists. split; [vm_compute; reflexivity|]. split; [intros l; reflexivity|]. split.
  { intros id a. unfold long_anchors. cbn [lookup]. destruct ("one" =? id)%string; [|discriminate]. intros E. injection E as <-. split; reflexivity. }
  split; [vm_compute; intuition discriminate|]. split; [vm_compute; reflexivity|]. split; [apply in_orderb_ok|]; vm_compute; reflexivity.
Qed.
(** a titled paragraph, an example, an ordered list and a sidebar *)
Example C66_titles : all_shown (with_kinds [] [] [] (bare emb)) (doc_of [Block 1 (Some [IText "t"]) None None XParagraph (Simple [IText "p"])]) /\
  forall cx, In cx [XExample; XSidebar; XOpen; XAdmonition ANote; XLiteral; XVerse] -> title_shown (with_kinds [(1, cx)] [] [] (bare emb)) false Article 1 cx (Simple []).
Proof. split; [vm_compute; intuition discriminate|]. intros cx I. repeat (destruct I as [<-|I]; [split; vm_compute; reflexivity|]). destruct I. Qed.

(** ** Titles and texts that are not shown *)
(** a text of the document that does not occur in the HTML at all *)
Definition lost (D : details) (doc : document block) (x : string) : Prop :=
  exists es ps, eval_document [] (fun _ => true) 3 doc = Done es /\ output D false (out es) = Ret ps /\ In x (document_texts D doc) /\ ~ in_order [b x] (bytes_of ps).
Definition html_of (D : details) (doc : document block) : option bytes :=
  match eval_document [] (fun _ => true) 3 doc with Done es => match output D false (out es) with Ret ps => Some (bytes_of ps) | Panic => None end | _ => None end.
Lemma lost_by D doc x : existsb (String.eqb x) (document_texts D doc) && match html_of D doc with Some h => negb (in_orderb [b x] h) | None => false end = true -> lost D doc x.
Proof.
  intros H. apply andb_true_iff in H as [H1 H2]. unfold html_of in H2. destruct (eval_document _ _ _ _) as [es| |] eqn:E; try discriminate H2. destruct (output D false (out es)) as [ps|] eqn:O; [|discriminate H2].
  exists es, ps. split; [exact E|]. split; [exact O|]. split.
  - apply existsb_exists in H1 as (y & I & Q). apply String.eqb_eq in Q. now subst.
  - apply negb_true_iff in H2. rewrite <- in_orderb_ok. congruence.
Qed.
Ltac gone := apply lost_by; vm_compute; reflexivity.
Definition titled (cx : context) (body : content block) : block := Block 1 (Some [IText "TITLE"]) None None cx body.
Definition one_kind (cx : context) : details := with_kinds [(1, cx)] [] [] (bare emb).
(** the title of a thematic break, a page break, a callout list, a discrete heading, a section, a passthrough block *)
Theorem C66_title_of_break_refuted : lost (one_kind XThematicBreak) (doc_of [titled XThematicBreak EOther]) "TITLE" /\ lost (one_kind XPageBreak) (doc_of [titled XPageBreak EOther]) "TITLE".
Proof. split; gone. Qed.
Print Assumptions C66_title_of_break_refuted.
Theorem C66_title_of_heading_refuted : lost (one_kind XDiscreteHeading) (doc_of [titled XDiscreteHeading (EDiscreteHeading 0 [IText "h"])]) "TITLE" /\
  lost (one_kind XSection) (doc_of [titled XSection (SectionContent (Section_ 1 [IText "h"] []))]) "TITLE".
Proof. split; gone. Qed.
Print Assumptions C66_title_of_heading_refuted.
Theorem C66_title_of_callouts_refuted : lost (one_kind XCalloutList) (doc_of [titled XCalloutList (ListContent callout_variant 1 [Item 0 [IText "i"] MOther []])]) "TITLE".
Proof. gone. Qed.
Print Assumptions C66_title_of_callouts_refuted.
Theorem C66_title_of_passthrough_refuted : lost (one_kind XPassthrough) (doc_of [titled XPassthrough (Simple [IText "p"])]) "TITLE".
Proof. gone. Qed.
Print Assumptions C66_title_of_passthrough_refuted.
(** the title of a paragraph that is the text of a description, and of one in a document of type inline *)
Theorem C66_title_in_description_refuted : lost (with_kinds [(2, XDescriptionList)] [] [] (bare emb))
  (doc_of [Block 2 None None None XDescriptionList (ListContent 0 1 [Item 0 [IText "t"] (MDesc [] (Some (titled XParagraph (Simple [IText "d"])))) []])]) "TITLE".
Proof. gone. Qed.
Print Assumptions C66_title_in_description_refuted.
(** the title of an image that has a title attribute of its own *)
Definition named_title : details := let D := one_kind XImage in
  Details (fun _ k => if (k =? "title")%string then Some "other" else None) (n_nodes D) (n_option D) (n_pos D) (n_has_pos D) (n_id D) (n_roles D) (n_special D) (n_title D) (n_context D) (n_cell D) (n_position D) (n_decl D)
          (n_meta D) (n_text D) (n_opt D) (n_list D) (n_flag D) (n_num D) (n_href D) (n_missing D) (n_biblio D).
Theorem C66_title_of_image_refuted : lost named_title (doc_of [titled XImage (EImage 2)]) "TITLE".
Proof. gone. Qed.
Print Assumptions C66_title_of_image_refuted.
(** the space at the end of a literal cell that is a heading *)
Theorem C66_header_cell_refuted : lost (with_kinds [(5, XTable)] [(1, CsLiteral)] [] (bare emb)) (doc_of [one_cell 0 1 (CLiteral [IText "cell "])]) "cell ".
Proof. gone. Qed.
Print Assumptions C66_header_cell_refuted.
(** A title that is not shown comes out later, before the title of the next block with a title, as part of it. Builds with debug assertions panic there. *)
Definition both_titled : details := let D := with_kinds [(1, XThematicBreak); (2, XSidebar)] [] [] (bare emb) in
  Details (n_named D) (n_nodes D) (n_option D) (n_pos D) (n_has_pos D) (n_id D) (n_roles D) (n_special D) (fun d => (d =? 1) || (d =? 2)) (n_context D) (n_cell D) (n_position D) (n_decl D)
          (n_meta D) (n_text D) (n_opt D) (n_list D) (n_flag D) (n_num D) (n_href D) (n_missing D) (n_biblio D).
Theorem C66_title_moves_refuted : exists es ps,
  eval_document [] (fun _ => true) 3 (doc_of [titled XThematicBreak EOther; para [IText "text"]; Block 2 (Some [IText "Side"]) None None XSidebar (Simple [IText "bar"])]) = Done es /\ output both_titled false (out es) = Ret ps /\ ~ in_order [$"TITLE"; $"text"] (bytes_of ps) /\ in_order [$"text"; $"TITLESide"; $"bar"] (bytes_of ps) /\ output both_titled true (out es) = Panic.
Proof. eexists. eexists. split; [vm_compute; reflexivity|]. split; [vm_compute; reflexivity|]. rewrite <- !in_orderb_ok. repeat split; vm_compute; try reflexivity; discriminate. Qed.
Print Assumptions C66_title_moves_refuted.
(** ** Texts that [document_texts] leaves out, and that are not shown *)
Definition unseen (D : details) (doc : document block) (x : string) : Prop :=
  exists es ps, eval_document [] (fun _ => true) 3 doc = Done es /\ output D false (out es) = Ret ps /\ ~ in_order [b x] (bytes_of ps).
Lemma unseen_by D doc x : match html_of D doc with Some h => negb (in_orderb [b x] h) | None => false end = true -> unseen D doc x.
Proof.
  intros H2. unfold html_of in H2. destruct (eval_document _ _ _ _) as [es| |] eqn:E; try discriminate H2. destruct (output D false (out es)) as [ps|] eqn:O; [|discriminate H2].
  exists es, ps. split; [exact E|]. split; [exact O|]. apply negb_true_iff in H2. rewrite <- in_orderb_ok. congruence.
Qed.
(** the text of a second footnote with the same id *)
Definition ids : details := let D := bare emb in
  Details (n_named D) (n_nodes D) (n_option D) (n_pos D) (n_has_pos D) (fun _ => Some "x") (n_roles D) (n_special D) (n_title D) (n_context D) (n_cell D) (n_position D) (n_decl D)
          (n_meta D) (n_text D) (n_opt D) (n_list D) (n_flag D) (n_num D) (n_href D) (n_missing D) (n_biblio D).
Theorem C66_second_footnote_refuted : unseen ids (doc_of [para [IFootnote 1 (Some [IText "first"]); IFootnote 2 (Some [IText "SECOND"])]]) "SECOND".
Proof. apply unseen_by. vm_compute. reflexivity. Qed.
Print Assumptions C66_second_footnote_refuted.
(** the text of a footnote in the document information after the footnotes *)
Theorem C66_footer_footnote_refuted : unseen (bare empty_meta) (Document 0 false None None (Some [IFootnote 1 (Some [IText "NOTE"])]) None None (DBlocks [])) "NOTE".
Proof. apply unseen_by. vm_compute. reflexivity. Qed.
Print Assumptions C66_footer_footnote_refuted.
