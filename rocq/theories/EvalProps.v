(** C34: backends see a well-bracketed event stream, in document order. C35: cross reference resolution terminates. *)
From Verif Require Import Base EvalModel EvalSpec EvalProofs EvalBlockProofs EvalFrameProofs EvalTermProofs.
Open Scope string_scope.
Open Scope list_scope.

(** ** C34 *)
(** Whatever the document, the anchors and the answers of the backend are: every call that enters something is followed by the call that
    leaves it, with the same arguments and properly nested, except that the calls that enter visible index terms are never left. *)
Theorem C34_well_bracketed anchors wants fuel doc s : eval_document anchors wants fuel doc = Done s -> well_bracketed_but_index (out s).
Proof.
  intros E. eapply evaluated with (lone := fun call => call = "visible_index_term"); [|exact E|now left]. intros id a _. split; now left.
Qed.
Print Assumptions C34_well_bracketed.

(** Without visible index terms there is no exception. *)
Theorem C34_well_bracketed_without_index anchors wants fuel doc s :
  eval_document anchors wants fuel doc = Done s -> no_visible (document_reading reading doc) -> no_visible_anchor anchors -> well_bracketed (out s).
Proof.
  intros E N A. eapply evaluated with (lone := fun _ => False); [|exact E|now right]. intros id a H. destruct (A id a H) as [X Y]. split; now right.
Qed.
Print Assumptions C34_well_bracketed_without_index.

(** What the backend is made to visit is what the document says, from its beginning to its end: nothing is left out, said twice or moved. *)
Theorem C34_document_order anchors wants fuel doc s :
  eval_document anchors wants fuel doc = Done s -> says anchors false (document_reading reading doc) (all_said (out s)).
Proof.
  intros E. eapply evaluated with (lone := fun _ => True); [|exact E|now left]. intros id a _. split; now left.
Qed.
Print Assumptions C34_document_order.

(** What a part of the document says is said between the call that enters the part and the call that leaves it, wherever in the document the
    part is: a section, a part of a book, a block without a title that is not shown by a single call, a row or a cell of a table. *)
Lemma all_lone anchors : forall id a, lookup anchors id = Some a ->
  lone_ok (fun call => call = "visible_index_term") (opt (reftext a)) /\ lone_ok (fun call => call = "visible_index_term") (a_title a).
Proof. intros id a _. split; now left. Qed.
Theorem C34_section_inside anchors wants fuel t s st st' : eval_section anchors wants fuel (eval_block anchors wants fuel) t s st = Done st' -> resolving st = false ->
  exists l, out st' = out st ++ l /\ shown_inside anchors (section_reading reading t s) l.
Proof. intros E X. exact (section_framed anchors wants _ (all_lone anchors) fuel t s st st' E X (or_introl eq_refl)). Qed.
Print Assumptions C34_section_inside.
Theorem C34_part_inside anchors wants fuel t p st st' : eval_book_part anchors wants fuel (eval_block anchors wants fuel) t p st = Done st' -> resolving st = false ->
  exists l, out st' = out st ++ l /\ shown_inside anchors (part_reading reading t p) l.
Proof. intros E X. exact (part_framed anchors wants _ (all_lone anchors) fuel t p st st' E X (or_introl eq_refl)). Qed.
Print Assumptions C34_part_inside.
Theorem C34_block_inside anchors wants fuel t d attr cite cx body st st' : by_itself (Block d None attr cite cx body) = false ->
  eval_block anchors wants fuel t (Block d None attr cite cx body) st = Done st' -> resolving st = false ->
  exists l, out st' = out st ++ l /\ shown_inside anchors (reading t (Block d None attr cite cx body)) l.
Proof. intros B E X. exact (block_framed anchors wants _ (all_lone anchors) fuel t d attr cite cx body B st st' E X (or_introl eq_refl)). Qed.
Print Assumptions C34_block_inside.
Theorem C34_row_inside anchors wants fuel t sect r st st' : eval_row anchors wants fuel (eval_block anchors wants fuel) t sect r st = Done st' -> resolving st = false ->
  exists l, out st' = out st ++ l /\ shown_inside anchors (row_reading reading r) l.
Proof. intros E X. exact (row_framed anchors wants _ (all_lone anchors) fuel t sect r st st' E X (or_introl eq_refl)). Qed.
Print Assumptions C34_row_inside.
Theorem C34_cell_inside anchors wants fuel t sect c st st' : eval_cell anchors wants fuel (eval_block anchors wants fuel) t sect c st = Done st' -> resolving st = false ->
  exists l, out st' = out st ++ l /\ shown_inside anchors (cell_reading reading c) l.
Proof. intros E X. exact (cell_framed anchors wants _ (all_lone anchors) fuel t sect c st st' E X (or_introl eq_refl)). Qed.
Print Assumptions C34_cell_inside.
(** A list item is its first paragraph, between one pair of calls, and then its blocks, between another. *)
Theorem C34_item_inside anchors wants fuel t variant i st st' : eval_item anchors wants fuel (eval_block anchors wants fuel) t variant i st = Done st' -> resolving st = false ->
  exists l1 l2, out st' = out st ++ l1 ++ l2 /\ shown_inside anchors (i_principle i) l1 /\ shown_inside anchors (flat_map (reading t) (i_blocks i)) l2.
Proof. intros E X. exact (item_framed anchors wants _ (all_lone anchors) fuel t variant i st st' E X (or_introl eq_refl) (or_introl eq_refl)). Qed.
Print Assumptions C34_item_inside.
Example C34_inside_example : exists st', eval_block [] (fun _ => true) 1 None
    (Block 7 None None None XSection (SectionContent {| s_d := 1; s_heading := [IText "One"]; s_blocks := [Block 2 None None None XParagraph (Simple [IText "p"])] |})) (St [] false) = Done st' /\
  out st' = [Enter "section" [1]; Enter "section_heading" [1]; Visit "inline_text" 0 "One"; Exit "section_heading" [1]; Enter "paragraph_block" [2];
             Enter "simple_block_content" [2]; Visit "inline_text" 0 "p"; Exit "simple_block_content" [2]; Exit "paragraph_block" [2]; Exit "section" [1]].
Proof. eexists. split; vm_compute; reflexivity. Qed.

(** A document whose blocks have contents that fit their contexts is evaluated without a panic. *)
Theorem C34_no_panic anchors wants fuel doc : document_fits fits doc -> eval_document anchors wants fuel doc <> Crash.
Proof. apply no_crash. Qed.
Print Assumptions C34_no_panic.

(** examples *)
Definition plain_doc (l : list block) : document block := Document 0 true None None None None None (DBlocks l).
Definition para (l : list inline) : block := Block 0 None None None XParagraph (Simple l).
Definition yes (l : list event) : bool := true.
Fixpoint enters (call : string) (l : list event) : nat := match l with [] => 0 | Enter c _ :: r => Nat.b2n (c =? call)%string + enters call r | _ :: r => enters call r end.
Fixpoint exits (call : string) (l : list event) : nat := match l with [] => 0 | Exit c _ :: r => Nat.b2n (c =? call)%string + exits call r | _ :: r => exits call r end.
Lemma enters_app c a b : enters c (a ++ b) = enters c a + enters c b.
Proof. induction a as [|[] a IH]; cbn; rewrite ?IH; lia. Qed.
Lemma exits_app c a b : exits c (a ++ b) = exits c a + exits c b.
Proof. induction a as [|[] a IH]; cbn; rewrite ?IH; lia. Qed.
Lemma bracketed_counts l : well_bracketed l -> forall c, enters c l = exits c l.
Proof.
  induction 1 as [|c d t r X IH|l r X1 IH1 X2 IH|c g l r X1 IH1 X2 IH|c g r []]; intros k; cbn; auto.
  rewrite enters_app, exits_app. cbn. rewrite IH1, IH. lia.
Qed.

(** [((tiger))]: the call that enters the term is never followed by one that leaves it, whether the backend wants the contents or not. *)
Theorem C34_well_bracketed_refuted : exists doc, document_fits fits doc /\ forall anchors wants fuel,
  exists s, eval_document anchors wants fuel doc = Done s /\ ~ well_bracketed (out s).
Proof.
  exists (plain_doc [para [IVisible [IText "tiger"]]]). split; [cbn; auto|]. intros anchors wants fuel.
  assert (N : forall l, enters "visible_index_term" l = 1 -> exits "visible_index_term" l = 0 -> ~ well_bracketed l).
  { intros l A B W. pose proof (bracketed_counts l W "visible_index_term") as C. rewrite A, B in C. discriminate C. }
  destruct fuel; cbv [eval_document visit_document seq then_ enter exit visit emit skip eval_docinfo plain_doc embedded d_title d_toc d_content d_d eval_toc_at eval_doc_content each flag some Nat.b2n
     eval_block para inlines eval_inline ask out resolving]; cbn [app];
    (destruct (wants _); eexists; (split; [reflexivity|]); apply N; reflexivity).
Qed.
Print Assumptions C34_well_bracketed_refuted.

(** an open block with the style [normal] is a paragraph with blocks in it (ast/src/block.rs:164, attr_list.rs:135), which evaluation does not know *)
Theorem C34_no_panic_refuted : exists doc, forall anchors wants fuel, eval_document anchors wants fuel doc = Crash.
Proof. exists (plain_doc [Block 0 None None None XParagraph (Compound [para [IText "a"]])]). intros. reflexivity. Qed.
Print Assumptions C34_no_panic_refuted.

(** A document with a title, a table of contents, a section, a list, a quote, a table with a document in a cell, and a cross reference *)
Definition sample : document block :=
  let sec := {| s_d := 1; s_heading := [IText "One"]; s_blocks :=
    [ Block 2 (Some [IText "T"]) (Some [IText "Me"]) None XBlockQuote (Compound [para [ISpan SBold 0 [IText "q"]; IFootnote 1 (Some [IText "f"])]]);
      Block 3 None None None XUnorderedList (ListContent 0 1 [Item 0 [IText "i"] MOther [para [IXref "one" 0 None]]]);
      Block 4 None None None XDescriptionList (ListContent 0 1 [Item 0 [IText "t"] (MDesc [[IText "u"]] (Some (para [IText "d"]))) []]);
      Block 5 None None None XTable (TableContent (Table 0 None [Row 0 [Cell 0 (CParagraphs [[IText "c"]; [IText "e"]]); Cell 0 (CAsciiDoc (plain_doc [para [IText "n"]]))]] None));
      Block 6 None None None XThematicBreak EOther ] |} in
  Document 0 true None None None (Some [IText "Doc"]) (Some (Toc 0 [TocNode 0 1 [IText "One"] []] PAuto)) (DSections (Some [para [IText "pre"]]) [sec]).
Definition sample_anchors : anchor_table := [("one", Anchor None [IText "One"] false)].
Example C34_sample : exists s, eval_document sample_anchors yes 1 sample = Done s /\ document_fits fits sample /\
  no_visible (document_reading reading sample) /\ no_visible_anchor sample_anchors /\
  map snd (all_said (out s)) = ["Doc"; "One"; "pre"; "One"; "T"; "q"; "f"; "Me"; "i"; "One"; "t"; "u"; "d"; "c"; "e"; "n"; ""] /\ length (out s) = 105.
Proof.
  eexists. split; [vm_compute; reflexivity|]. split; [vm_compute; tauto|]. split; [reflexivity|]. split.
  - intros id a. cbn [lookup sample_anchors]. destruct ("one" =? id)%string; [|discriminate]. intros E. injection E as <-. split; reflexivity.
  - split; vm_compute; reflexivity.
Qed.

(** ** C35 *)
(** If all cross references in the text of an anchor but the first lead to anchors of lower rank, evaluation ends, whatever the backend answers.
    If moreover the blocks have contents that fit, it ends with a result. *)
Theorem C35_terminates_partial anchors wants rank doc : well_founded_anchors anchors rank -> terminates anchors wants doc.
Proof.
  intros W. destruct (ranks_bounded anchors rank) as (n & B). exists n. now apply (ranked_ends anchors wants rank W).
Qed.
Print Assumptions C35_terminates_partial.
Theorem C35_result_partial anchors wants rank doc : well_founded_anchors anchors rank -> document_fits fits doc ->
  exists n s, forall fuel, n <= fuel -> eval_document anchors wants fuel doc = Done s.
Proof.
  intros W F. destruct (C35_terminates_partial anchors wants rank doc W) as (n & T).
  destruct (eval_document anchors wants n doc) as [s| |] eqn:E; [|exfalso; now apply (no_crash anchors wants n doc F)|congruence].
  exists n, s. intros fuel L. rewrite <- E. apply more_fuel; [exact L|congruence].
Qed.
Print Assumptions C35_result_partial.
(** in particular cycles of any length do no harm if no anchor text has two cross references *)
Theorem C35_single_references_partial anchors wants doc :
  (forall id a, lookup anchors id = Some a -> length (flat_map targets (opt (reftext a))) <= 1 /\ length (flat_map targets (a_title a)) <= 1) ->
  terminates anchors wants doc.
Proof.
  intros H. apply C35_terminates_partial with (rank := fun _ => 0). intros id a text E T. destruct (H id a E) as [L1 L2].
  assert (L : length (flat_map targets text) <= 1) by (destruct T as [->| ->]; assumption).
  destruct (flat_map targets text) as [|x [|y l]]; cbn in *; [constructor|constructor|lia].
Qed.
Print Assumptions C35_single_references_partial.
(** the fuel only bounds how deep texts are nested: with more of it a result stays the same *)
Theorem C35_fuel anchors wants n m doc : n <= m -> eval_document anchors wants n doc <> Loops -> eval_document anchors wants m doc = eval_document anchors wants n doc.
Proof. apply more_fuel. Qed.
Print Assumptions C35_fuel.

(** [== A <<a>> <<a>>] with the id [a]: evaluation never ends, because the first reference inside the text of [a] forgets that one is being resolved. *)
Definition twice : list inline := [IXref "a" 0 None; IXref "a" 1 None].
Definition twice_doc : document block := Document 0 true None None None None None (DSections None [Section_ 0 twice []]).
Lemma twice_loops wants fuel : forall d s, resolving s = false -> eval_inline [("a", Anchor None twice false)] wants fuel (IXref "a" d None) s = Loops.
Proof.
  set (A := [("a", Anchor None twice false)]).
  assert (first : forall f s, resolving s = true -> exists s', eval_inline A wants f (IXref "a" 0 None) s = Done s' /\ resolving s' = false).
  { intros f s E. rewrite xref_eq. cbv [seq then_ enter exit visit emit skip replace_resolving]. cbn [out resolving]. rewrite E. eexists. split; reflexivity. }
  assert (both : forall f, (forall d s, resolving s = false -> eval_inline A wants f (IXref "a" d None) s = Loops) -> forall s, resolving s = true -> each (eval_inline A wants f) twice s = Loops).
  { intros f H s E. unfold twice. cbn [each]. unfold then_. destruct (first f s E) as (s' & -> & E'). now rewrite (H 1 s' E'). }
  induction fuel as [|f IH]; intros d s E; rewrite xref_eq; cbv [seq then_ enter exit emit skip replace_resolving]; cbn [out resolving]; rewrite E; [reflexivity|].
  change (text_of_xref A "a" None) with (Some twice). cbn -[each eval_inline twice]. rewrite both; [reflexivity|exact IH|reflexivity].
Qed.
Theorem C35_terminates_refuted : exists anchors doc, document_fits fits doc /\ forall wants fuel, eval_document anchors wants fuel doc = Loops.
Proof.
  exists [("a", Anchor None twice false)], twice_doc. split; [cbn; auto|]. intros wants fuel.
  unfold eval_document, visit_document, twice_doc. cbn [embedded d_title d_toc d_content d_d eval_toc_at eval_docinfo info_head info_header info_footer].
  unfold eval_doc_content. cbn [each seq]. unfold eval_section. cbn [seq s_heading s_d s_blocks]. unfold inlines, twice. cbn [each].
  unfold then_, enter, exit, emit, skip. cbn [out resolving]. rewrite twice_loops; reflexivity.
Qed.
Print Assumptions C35_terminates_refuted.

(** two sections that refer to each other meet the hypotheses *)
Example C35_mutual : terminates [("a", Anchor None [IXref "b" 0 None] false); ("b", Anchor None [IXref "a" 0 None] false)] yes
  (Document 0 true None None None None None (DSections None [Section_ 0 [IXref "b" 0 None] []; Section_ 0 [IXref "a" 0 None] []])).
Proof.
  apply C35_single_references_partial. intros id a. cbn [lookup]. destruct ("a" =? id)%string; [intros E; injection E as <-; cbn; lia|].
  destruct ("b" =? id)%string; [intros E; injection E as <-; cbn; lia|discriminate].
Qed.
(** and so do sections whose references go up, apart from the first of each *)
Example C35_ranked : well_founded_anchors [("a", Anchor None [IXref "b" 0 None; IText "x"] false); ("b", Anchor None [IXref "b" 0 None; IXref "a" 0 None] false)] (fun id => if (id =? "b")%string then 1 else 0).
Proof.
  intros id a text. cbn [lookup]. destruct ("a" =? id)%string eqn:Ea; [|destruct ("b" =? id)%string eqn:Eb; [|discriminate] ]; intros E; injection E as <-;
    intros [->| ->]; cbn -[String.eqb lookup]; repeat constructor.
  intros _. apply String.eqb_eq in Eb. subst id. vm_compute. constructor.
Qed.
