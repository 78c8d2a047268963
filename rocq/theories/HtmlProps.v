(** C54: the HTML written for a document is well nested. *)
From Verif Require Import Base AttrsModel EvalModel EscapeModel EvalSpec HtmlModel HtmlSpec HtmlScanProofs HtmlCallProofs HtmlProofs.
Open Scope string_scope.
Open Scope nat_scope.
Open Scope list_scope.

(** ** C54 *)
(** Whatever the attributes, ids, roles, options and settings are: if the evaluation of a document ends, the backend does not panic, the document and the texts of the
    anchors have none of the shapes listed in HtmlSpec, and the strings that are written as they are are harmless, then every element is closed by an end tag of its own
    name, in the right order, and every attribute value is quoted. *)
Theorem C54_nested D debug anchors wants fuel doc es ps : eval_document anchors wants fuel doc = Done es -> anchors_tidy anchors -> fine_document D doc ->
  output D debug (out es) = Ret ps -> Forall harmless ps -> nested (bytes_of ps).
Proof. intros E A F O H. apply pscan_nested; [exact H|]. exact (all_closed D debug anchors wants A fuel doc es ps E F O). Qed.
Print Assumptions C54_nested.

(** The scanner used for the examples accepts well nested text and no other. *)
Lemma nested_iff x : nested x <-> scan (Out, []) x = Some (Out, []).
Proof. split; [|apply scan_nested]. intros H. rewrite <- (app_nil_r x). now rewrite nested_scan. Qed.
Example C54_not_nested : ~ nested ($"<b><i>x</b></i>") /\ ~ nested ($"<p>") /\ ~ nested ($"</p>") /\ ~ nested ($"<a href=""x"">""</b>") /\ nested ($"<p class=""a > b"">1<br>2</p>").
Proof. rewrite !nested_iff. repeat split; vm_compute; try reflexivity; discriminate. Qed.

(** ** Examples *)
Definition harmlessb (p : piece) : bool :=
  match p with
  | Raw s => match scan (Out, []) (b s) with Some (Out, []) => true | _ => false end
  | RawVal s | EscHref s => negb (existsb (Ascii.eqb """") (b s))
  | _ => true
  end.
Lemma harmlessb_ok ps : forallb harmlessb ps = true -> Forall harmless ps.
Proof.
  assert (V : forall s, negb (existsb (Ascii.eqb """") (b s)) = true -> ~ In """"%char (b s)).
  { intros s N I. apply negb_true_iff in N. assert (W : existsb (Ascii.eqb """") (b s) = true) by (apply existsb_exists; exists """"%char; now split). congruence. }
  intros H. apply Forall_forall. intros p I. rewrite forallb_forall in H. specialize (H p I). destruct p as [s|n|s|s|s|s|s]; cbn [harmless harmlessb] in *; auto.
  apply nested_iff. destruct (scan (Out, []) (b s)) as [[[] [|t st]]|]; (discriminate H || reflexivity).
Qed.
(** nodes without any attributes, in documents with these document attributes *)
Definition bare (m : meta) : details :=
  Details (fun _ _ => None) (fun _ _ => None) (fun _ _ => false) (fun _ _ => None) (fun _ _ => false) (fun _ => None) (fun _ => []) (fun _ => None)
          (fun d => d =? 1) (fun _ => XParagraph) (fun _ => CsDefault) (fun _ => PAuto) (fun _ => ("", ABool false)) (fun _ => m)
          (fun _ _ => "") (fun _ _ => None) (fun _ _ => []) (fun _ _ => false) (fun _ _ => 0) (fun _ _ => "#x") (fun id _ => id) (fun _ => None).
Definition table_of {V} (l : list (nat * V)) (d : V) (n : nat) : V := match find (fun p => fst p =? n) l with Some (_, v) => v | None => d end.
(** the contexts, styles of cells, positional styles of these nodes *)
Definition with_kinds (cx : list (nat * context)) (cs : list (nat * cell_style)) (st : list (nat * string)) (D : details) : details :=
  Details (n_named D) (n_nodes D) (n_option D) (n_pos D) (fun d s => (table_of st "" d =? s)%string) (n_id D) (n_roles D) (n_special D)
          (n_title D) (table_of cx XParagraph) (table_of cs CsDefault) (n_position D) (n_decl D) (n_meta D)
          (n_text D) (n_opt D) (n_list D) (n_flag D) (n_num D) (n_href D) (n_missing D) (n_biblio D).
Definition emb : meta := with_embedded empty_meta true.
Definition written (D : details) (anchors : anchor_table) (doc : document block) : option bytes :=
  match eval_document anchors (fun _ => true) 3 doc with Done es => match output D false (out es) with Ret ps => if forallb harmlessb ps then Some (bytes_of ps) else None | Panic => None end | _ => None end.
(** all strings are harmless, and what is written is not well nested *)
Definition ill (D : details) (anchors : anchor_table) (doc : document block) : Prop :=
  exists es ps, eval_document anchors (fun _ => true) 3 doc = Done es /\ output D false (out es) = Ret ps /\ Forall harmless ps /\ ~ nested (bytes_of ps).
Lemma ill_by_scan D anchors doc : (match written D anchors doc with Some x => match scan (Out, []) x with Some (Out, []) => false | _ => true end | None => false end = true) -> ill D anchors doc.
Proof.
  unfold written, ill. destruct (eval_document anchors _ 3 doc) as [es| |]; try discriminate. destruct (output D false (out es)) as [ps|] eqn:O; [|discriminate].
  destruct (forallb harmlessb ps) eqn:H; [|discriminate]. intros S. exists es, ps. split; [reflexivity|]. split; [exact O|]. split; [now apply harmlessb_ok|]. rewrite nested_iff. intros E. rewrite E in S. discriminate S.
Qed.
Definition doc_of (l : list block) : document block := Document 0 true None None None None None (DBlocks l).
Definition para (l : list inline) : block := Block 0 None None None XParagraph (Simple l).

(** a document with a title, sections, lists, a table with an AsciiDoc cell, a quote, a listing and a footnote meets the hypotheses *)
Definition sample_doc : document block :=
  Document 0 false None None None (Some [IText "Doc"; ISpan SBold 0 [IText "b"]]) (Some (Toc 0 [TocNode 1 1 [IText "One"] [TocNode 2 2 [IText "Two"] []]] PAuto)) (DSections (Some [para [IText "pre"; IFootnote 0 (Some [IText "note"])]])
    [Section_ 1 [IText "One"]
      [Block 1 (Some [IText "title"]) None None XListing (Simple [IText "code"; ILeaf "inline_specialchar" 0]);
       Block 2 None (Some [IText "Me"]) (Some [IText "Book"]) XBlockQuote (Compound [para [IText "q"; IXref "one" 0 None]]);
       Block 3 None None None XUnorderedList (ListContent 0 1 [Item 0 [IText "i"] MOther [para [ILink 0 (Some [IText "l"])]]]);
       Block 4 None None None XDescriptionList (ListContent 0 1 [Item 0 [IText "t"] (MDesc [] (Some (para [IText "d"]))) []]);
       Block 5 None None None XTable (TableContent (Table 0 (Some (Row 0 [Cell 0 (CParagraphs [[IText "h"]])])) [Row 0 [Cell 1 (CAsciiDoc (doc_of [para [IText "c"]])); Cell 2 (CLiteral [IText "l"])]] None));
       Block 6 None None (None) XVerse (Simple [IText "v"]); Block 7 None None None (XAdmonition ATip) (Simple [IText "a"])]]).
Definition sample_details : details :=
  with_kinds [(1, XListing); (2, XBlockQuote); (3, XUnorderedList); (4, XDescriptionList); (5, XTable); (6, XVerse); (7, XAdmonition ATip)] [(1, CsAsciiDoc); (2, CsLiteral)] [(4, "horizontal")] (bare empty_meta).
Example C54_sample : exists es ps, eval_document [("one", Anchor None [IText "One"] false)] (fun _ => true) 3 sample_doc = Done es /\ anchors_tidy [("one", Anchor None [IText "One"] false)] /\
  fine_document sample_details sample_doc /\ output sample_details true (out es) = Ret ps /\ Forall harmless ps /\ nested (bytes_of ps) /\ length (bytes_of ps) = 2144.
Proof.
  eexists. eexists. split; [vm_compute; reflexivity|]. assert (AT : anchors_tidy [("one", Anchor None [IText "One"] false)]).
  { intros id a. cbn [lookup]. destruct ("one" =? id)%string; [|discriminate]. intros E. injection E as <-. split; reflexivity. }
  split; [exact AT|]. assert (F : fine_document sample_details sample_doc) by (vm_compute; intuition discriminate). split; [exact F|].
  split; [vm_compute; reflexivity|]. split; [apply harmlessb_ok; vm_compute; reflexivity|]. split; [apply nested_iff|]; vm_compute; reflexivity.
Qed.

(** ** Every shape that is left out comes out wrong, with harmless strings only *)
Ltac wrong := apply ill_by_scan; vm_compute; reflexivity.
(** a footnote in the title of a block: all that was written before becomes part of the footnote *)
Definition inside (l : list block) : document block := doc_of [Block 2 None None None XOpen (Compound (para [IText "p"] :: l))].
Definition noted : details := with_kinds [(1, XListing); (2, XOpen)] [] [] (bare emb).
Theorem C54_footnote_in_title_refuted : ill noted [] (inside [Block 1 (Some [IText "t"; IFootnote 0 (Some [IText "n"])]) None None XListing (Simple [IText "c"])]).
Proof. wrong. Qed.
Print Assumptions C54_footnote_in_title_refuted.
(** a footnote in a footnote *)
Theorem C54_footnote_in_footnote_refuted : ill noted [] (inside [para [IFootnote 0 (Some [IText "n"; IFootnote 0 (Some [IText "m"])])]]).
Proof. wrong. Qed.
Print Assumptions C54_footnote_in_footnote_refuted.
(** a footnote in the text of an anchor that is referred to in a title *)
Theorem C54_footnote_in_reference_refuted :
  ill noted [("a", Anchor None [IFootnote 0 (Some [IText "n"])] false)] (inside [Block 1 (Some [IXref "a" 0 None]) None None XListing (Simple [IText "c"])]).
Proof. wrong. Qed.
Print Assumptions C54_footnote_in_reference_refuted.
Definition dl (d : nat) (items : list (item block)) : block := Block d None None None XDescriptionList (ListContent 0 1 items).
Definition dls (st : string) : details := with_kinds [(1, XDescriptionList); (2, XDescriptionList)] [] [(1, st)] (bare emb).
(** a description list in a horizontal one, in a list of questions *)
Theorem C54_list_in_rows_refuted : forall st, st = "horizontal" \/ st = "qanda" ->
  ill (dls st) [] (doc_of [dl 1 [Item 0 [IText "t"] (MDesc [] (Some (para [IText "d"]))) [dl 2 [Item 0 [IText "u"] (MDesc [] (Some (para [IText "e"]))) []]]]]).
Proof. intros st [->| ->]; wrong. Qed.
Print Assumptions C54_list_in_rows_refuted.
(** a horizontal list in a glossary, and a list of questions *)
Theorem C54_rows_in_glossary_refuted : forall st, st = "horizontal" \/ st = "qanda" ->
  ill (let D := with_kinds [(1, XDescriptionList); (2, XDescriptionList)] [] [(2, st)] (bare emb) in
       Details (n_named D) (n_nodes D) (n_option D) (n_pos D) (n_has_pos D) (n_id D) (n_roles D) (fun d => if d =? 1 then Some SpGlossary else None) (n_title D) (n_context D) (n_cell D) (n_position D) (n_decl D)
               (n_meta D) (n_text D) (n_opt D) (n_list D) (n_flag D) (n_num D) (n_href D) (n_missing D) (n_biblio D)) []
    (doc_of [dl 1 [Item 0 [IText "t"] (MDesc [] (Some (para [IText "d"]))) [dl 2 [Item 0 [IText "u"] (MDesc [] (Some (para [IText "e"]))) []]]]]).
Proof. intros st [->| ->]; wrong. Qed.
Print Assumptions C54_rows_in_glossary_refuted.
(** a horizontal list with an item of two terms, with an item without description, a list of questions with one *)
Theorem C54_two_terms_refuted : ill (dls "horizontal") [] (doc_of [dl 1 [Item 0 [IText "t"] (MDesc [[IText "u"]] (Some (para [IText "d"]))) []]]).
Proof. wrong. Qed.
Print Assumptions C54_two_terms_refuted.
Theorem C54_no_description_refuted : forall st, st = "horizontal" \/ st = "qanda" -> ill (dls st) [] (doc_of [dl 1 [Item 0 [IText "t"] (MDesc [] None) []]]).
Proof. intros st [->| ->]; wrong. Qed.
Print Assumptions C54_no_description_refuted.
(** a verse with a citation and no attribution *)
Theorem C54_cited_verse_refuted : ill (with_kinds [(1, XVerse)] [] [] (bare emb)) [] (doc_of [Block 1 None None (Some [IText "c"]) XVerse (Simple [IText "v"])]).
Proof. wrong. Qed.
Print Assumptions C54_cited_verse_refuted.
(** a callout list in which the icons are changed *)
Theorem C54_icons_in_callouts_refuted :
  ill (let D := with_kinds [(1, XCalloutList); (2, XDocumentAttributeDecl)] [] [] (bare emb) in
       Details (n_named D) (n_nodes D) (n_option D) (n_pos D) (n_has_pos D) (n_id D) (n_roles D) (n_special D) (n_title D) (n_context D) (n_cell D) (n_position D) (fun _ => ("icons", ABool true))
               (n_meta D) (n_text D) (n_opt D) (n_list D) (n_flag D) (n_num D) (n_href D) (n_missing D) (n_biblio D)) []
    (doc_of [Block 1 None None None XCalloutList (ListContent callout_variant 1 [Item 0 [IText "i"] MOther [Block 2 None None None XDocumentAttributeDecl (DocumentAttribute 0)]])]).
Proof. wrong. Qed.
Print Assumptions C54_icons_in_callouts_refuted.
(** a table of contents after the preamble of a document without title *)
Theorem C54_contents_without_title_refuted :
  ill (let D := bare emb in
       Details (n_named D) (n_nodes D) (n_option D) (n_pos D) (n_has_pos D) (n_id D) (n_roles D) (n_special D) (n_title D) (n_context D) (n_cell D) (fun _ => PPreamble) (n_decl D)
               (n_meta D) (n_text D) (n_opt D) (n_list D) (n_flag D) (n_num D) (n_href D) (n_missing D) (n_biblio D)) []
    (Document 0 true None None None None (Some (Toc 0 [TocNode 1 1 [IText "One"] []] PPreamble)) (DSections (Some [para [IText "p"]]) [Section_ 1 [IText "One"] []])).
Proof. wrong. Qed.
Print Assumptions C54_contents_without_title_refuted.
Definition one_cell (sect d : nat) (c : cell_content block) : block :=
  let r := Row 0 [Cell d c] in Block 5 None None None XTable (TableContent (if sect =? 0 then Table 0 (Some r) [] None else Table 0 None [r] None)).
(** an AsciiDoc cell in an AsciiDoc cell, of a document that is not embedded: the page ends inside the cell *)
Theorem C54_cell_in_cell_refuted : ill (with_kinds [(5, XTable)] [(1, CsAsciiDoc)] [] (bare empty_meta)) []
  (doc_of [one_cell 1 1 (CAsciiDoc (doc_of [one_cell 1 1 (CAsciiDoc (doc_of [para [IText "x"]]))]))]).
Proof. wrong. Qed.
Print Assumptions C54_cell_in_cell_refuted.
(** a literal cell or an AsciiDoc cell in a header row *)
Theorem C54_header_cell_refuted : ill (with_kinds [(5, XTable)] [(1, CsLiteral)] [] (bare emb)) [] (doc_of [one_cell 0 1 (CLiteral [IText "x"])]) /\
  ill (with_kinds [(5, XTable)] [(1, CsAsciiDoc)] [] (bare emb)) [] (doc_of [one_cell 0 1 (CAsciiDoc (doc_of [para [IText "x"]]))]).
Proof. split; wrong. Qed.
Print Assumptions C54_header_cell_refuted.
(** ** Strings that are not harmless *)
(** the target of a link may hold a quotation mark, which is not escaped, and ends the attribute: then any tag can be written *)
Definition link_details : details := let D := bare emb in
  Details (n_named D) (n_nodes D) (n_option D) (n_pos D) (n_has_pos D) (n_id D) (n_roles D) (n_special D) (n_title D) (n_context D) (n_cell D) (n_position D) (n_decl D)
          (n_meta D) (fun _ _ => "x"" onclick=""y") (n_opt D) (n_list D) (n_flag D) (n_num D) (n_href D) (n_missing D) (n_biblio D).
Theorem C54_quoted_target_refuted : exists es ps, eval_document [] (fun _ => true) 3 (doc_of [para [ILink 0 (Some [IText "l"])]]) = Done es /\ output link_details true (out es) = Ret ps /\
  bytes_of ps = $"<div class=""paragraph""><p><a href=""x"" onclick=""y"">l</a></p></div>".
Proof. eexists. eexists. split; [vm_compute; reflexivity|]. split; vm_compute; reflexivity. Qed.
Print Assumptions C54_quoted_target_refuted.
