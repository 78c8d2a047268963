(** C79: comments are not shown and do not change what is shown. *)
From Verif Require Import Base BlockModel BlockSpec EvalModel CommentSpec CommentProofs CommentParseProofs CommentBlockProofs CommentLeadProofs CommentTextSpec CommentInlineProofs.
From Verif Require WholeSpec WholePieceProofs WholeInlineProofs HtmlModel HtmlProps ShownProps.
Import ListNotations.
Open Scope string_scope.

(** Whatever a document is, its backend is told the same with and without its comments: in the document itself, in its preamble, parts and sections, in delimited blocks, in the items of lists, in the documents of table cells
    and in the blocks that describe terms, however deep. So its HTML, in either backend, is the same, and the evaluation of one panics or does not end exactly if that of the other does. *)
Theorem C79_same anchors wants fuel doc : eval_document anchors wants fuel (without_comments doc) = eval_document anchors wants fuel doc.
Proof. apply without_same. Qed.
Print Assumptions C79_same.
(** Lines that begin with two slashes, up to a blank line, become one comment, wherever the parser is: in whatever section, block or list, with whatever comes after it; the rest is parsed as if they were not there. *)
Theorem C79_anywhere P n C L s bs t : C <> [] -> Forall comment_line C -> peeked s = [] -> pmeta s = None -> src s = (C ++ [] :: L)%list ->
  run n P _ BlockLoop (with_src L s) = Yes bs t -> run (S n) P _ BlockLoop s = Yes (BComment :: bs) t.
Proof. apply loop_comments. Qed.
Print Assumptions C79_anywhere.
(** In particular comments above an article, whatever it is, add a comment to it and nothing else: no diagnostic, no attribute, no other block; nothing is read in another way. *)
Theorem C79_above P n sb C L bs ss s : book P = false -> C <> [] -> Forall comment_line C -> BlockModel.document n P (fresh sb L) = Yes (Sections bs ss) s ->
  BlockModel.document (S n) P (fresh sb (C ++ [] :: L)) = Yes (Sections (BComment :: bs) ss) s.
Proof. apply document_comments. Qed.
Print Assumptions C79_above.

(** The same for comment blocks: a line of four slashes, any lines that are not that, blank or not, and another one. What is behind the second one, with or without a blank line between, is parsed as if the block was not there. *)
Theorem C79_block_anywhere P n D D' X L s bs t : slashes D -> slashes D' -> Forall hidden X -> peeked s = [] -> pmeta s = None -> delim s <> Some (Delim DComment 4) -> src s = (D :: X ++ D' :: L)%list ->
  run n P _ BlockLoop (with_src L s) = Yes bs t -> exists u vs, run (S n) P _ BlockLoop s = Yes (BDelimited no_meta CComment u (Hidden vs) true :: bs) t.
Proof. apply loop_hidden. Qed.
Print Assumptions C79_block_anywhere.
Theorem C79_block_above P n sb D D' X L bs ss s : book P = false -> slashes D -> slashes D' -> Forall hidden X -> BlockModel.document n P (fresh sb L) = Yes (Sections bs ss) s ->
  exists u vs, BlockModel.document (S n) P (fresh sb (D :: X ++ D' :: L)) = Yes (Sections (BDelimited no_meta CComment u (Hidden vs) true :: bs) ss) s.
Proof. apply document_hidden. Qed.
Print Assumptions C79_block_above.

(** Directly above a block, without a blank line between, comment lines are not even a block: the parser does with them exactly what it does without them, whatever the block is, be it well formed or not, and whatever comes after it.
    The lines may be still to be read, or read and put back, as those below a heading are. *)
Theorem C79_attached_anywhere P n C x L s : Forall comment_line C -> ~ comment_line x -> emptyish x = false -> peeked s = [] -> src s = (C ++ x :: L)%list -> run n P _ BlockLoop s = run n P _ BlockLoop (with_src (x :: L) s).
Proof. apply loop_lead. Qed.
Print Assumptions C79_attached_anywhere.
Theorem C79_attached_read P n C x g s : Forall comment_line C -> ~ comment_line x -> emptyish x = false -> peeked s = (map line_of C ++ line_of x :: g)%list -> run n P _ BlockLoop s = run n P _ BlockLoop (with_peeked (line_of x :: g) s).
Proof. apply loop_lead_read. Qed.
Print Assumptions C79_attached_read.
Theorem C79_attached_above P n sb C x L : book P = false -> Forall comment_line C -> ~ comment_line x -> emptyish x = false -> BlockModel.document n P (fresh sb (C ++ x :: L)) = BlockModel.document n P (fresh sb (x :: L)).
Proof. apply document_lead. Qed.
Print Assumptions C79_attached_above.

(** Inside a paragraph of the texts of C67 comment lines may stand anywhere: above, between and below its lines, any number of them, with anything in them. The nodes are those of the paragraph without them, but for the comments, which show nothing;
    nothing else in the state of the parser differs. This is in any state of the parser outside description lists in which texts are parsed as usual. *)
Theorem C79_in_paragraph P s lns lns0 ls : mixed lns lns0 ls -> ls <> [] -> in_desc_list s = false -> InlineModel.subs_of (ist s) = SubsModel.normal -> InlineModel.ctx_of (ist s) = InlineModel.CNone -> InlineModel.aps_of (ist s) = None ->
  exists ns, BlockModel.inlines P lns s = Yes (ns, []) s /\ BlockModel.inlines P lns0 s = Yes (visible ns, []) s.
Proof. apply inlines_mixed. Qed.
Print Assumptions C79_in_paragraph.
Example C79_in_paragraph_case : let lines l := map line_of (para (doc l)) in
  mixed (lines ["// x"; "a *b*,"; "// c* +d"; "//`"; "e"; "// f+"; "//"]) (match lines ["// x"; "a *b*,"; "// c* +d"; "//`"; "e"; "// f+"; "//"] with [_; x; _; _; y; _; _] => [x; y] | _ => [] end)
    [[(WholeSpec.Plain $"a", []); (WholeSpec.Marked WholeSpec.Strong [ $"b" ], $",")]; [(WholeSpec.Plain $"e", [])]] /\
  match BlockModel.inlines (plain_params true false) (lines ["// x"; "a *b*,"; "// c* +d"; "//`"; "e"; "// f+"; "//"]) (fresh SubsModel.normal []) with
  | Yes (ns, _) _ => visible ns = [NText $"a "; NSpan Bold None [NText $"b"]; NText $","; NNewline; NText $"e"] /\ length ns = 8 | _ => False end.
Proof.
  cbv zeta. split; [|vm_compute; now split].
  assert (E : exists c x d e y f g, para (doc ["// x"; "a *b*,"; "// c* +d"; "//`"; "e"; "// f+"; "//"]) = [c; x; d; e; y; f; g] /\ comment_line c /\ comment_line d /\ comment_line e /\ comment_line f /\ comment_line g /\
    WholeInlineProofs.of_line (line_of x) [(WholeSpec.Plain $"a", []); (WholeSpec.Marked WholeSpec.Strong [ $"b" ], $",")] /\ WholeInlineProofs.of_line (line_of y) [(WholeSpec.Plain $"e", [])]).
  { do 7 eexists. split; [vm_compute; reflexivity|]. repeat (split; [eexists; eexists; split; [reflexivity|split; reflexivity]|]).
    split; (split; [split; reflexivity|split; [reflexivity|]]); [exists 5|exists 25]; exists (Some LexerModel.LF); (split; [vm_compute; reflexivity|right; right; reflexivity]). }
  destruct E as (c & x & d & e & y & f & g & -> & C1 & C2 & C3 & C4 & C5 & X & Y). cbn [map].
  apply ANote; [exact C1|]. apply ALine; [exact X|discriminate|reflexivity|]. apply ANote; [exact C2|]. apply ANote; [exact C3|]. apply ALine; [exact Y|discriminate|reflexivity|]. apply ANote; [exact C4|]. apply ANote; [exact C5|]. apply NoLine.
Qed.

Definition remark : block := Block 0 None None None XComment EOther.
Definition par (x : string) : block := HtmlProps.para [IText x].
Definition C79_doc : document block := HtmlProps.doc_of [remark; par "a"; Block 1 None None None XOpen (Compound [remark; par "b"; remark]); Block 2 None None None XUnorderedList (ListContent 1 1 [Item 0 [IText "c"] MOther [remark]])].
Example C79_case : without_comments C79_doc = HtmlProps.doc_of [par "a"; Block 1 None None None XOpen (Compound [par "b"]); Block 2 None None None XUnorderedList (ListContent 1 1 [Item 0 [IText "c"] MOther []])] /\
  exists s, eval_document [] (fun _ => true) 1 C79_doc = Done s.
Proof. split; [reflexivity|]. eexists. vm_compute. reflexivity. Qed.
Definition comments : list (list tok) := para (doc ["// one *two"; "//"; "// == three"]).
Example C79_lines_case : Forall comment_line comments /\ comments <> [] /\ exists bs ss s, parsed true false ["* a"; ""; "== B"] = Yes (Sections bs ss) s /\ parsed true false ["// one *two"; "//"; "// == three"; ""; "* a"; ""; "== B"] = Yes (Sections (BComment :: bs) ss) s /\ bs <> [] /\ ss <> [].
Proof.
  split; [vm_compute; repeat constructor; eexists; eexists; repeat split; reflexivity|]. split; [vm_compute; discriminate|]. eexists. eexists. eexists. split; [vm_compute; reflexivity|]. split; [vm_compute; reflexivity|]. split; discriminate.
Qed.

Definition block_lines : list (list tok) := para (doc ["////"; ""; "== not a heading"; "*"; ""; "----"; "////"]).
Example C79_block_case : exists D D' X, block_lines = (D :: X ++ [D'])%list /\ slashes D /\ slashes D' /\ Forall hidden X /\ length X = 5 /\
  exists bs ss s u vs, parsed true false ["* a"; ""; "== B"] = Yes (Sections bs ss) s /\ parsed true false ["////"; ""; "== not a heading"; "*"; ""; "----"; "////"; "* a"; ""; "== B"] = Yes (Sections (BDelimited no_meta CComment u (Hidden vs) true :: bs) ss) s.
Proof.
  assert (E : exists a b c d e f g, block_lines = [a; b; c; d; e; f; g] /\ slashes a /\ slashes g /\ Forall hidden [b; c; d; e; f]).
  { do 7 eexists. split; [vm_compute; reflexivity|]. split; [eexists; reflexivity|]. split; [eexists; reflexivity|]. repeat constructor; cbn; intros [K T]; discriminate. }
  destruct E as (a & b & c & d & e & f & g & -> & SA & SG & F). exists a, g, [b; c; d; e; f]. split; [reflexivity|]. split; [exact SA|]. split; [exact SG|]. split; [exact F|]. split; [reflexivity|].
  do 5 eexists. split; vm_compute; reflexivity.
Qed.

Example C79_attached_case : exists C x L, para (doc ["// one"; "//two"; "NOTE: text"; "more"; ""; "== A"; "// three"; "b"]) = (C ++ x :: L)%list /\ Forall comment_line C /\ length C = 2 /\ ~ comment_line x /\ emptyish x = false /\ length L = 5 /\
  exists bs ss s, parsed true false ["// one"; "//two"; "NOTE: text"; "more"; ""; "== A"; "// three"; "b"] = Yes (Sections bs ss) s /\ parsed true false ["NOTE: text"; "more"; ""; "== A"; "b"] = Yes (Sections bs ss) s.
Proof.
  assert (E : exists c d x e f g h i, para (doc ["// one"; "//two"; "NOTE: text"; "more"; ""; "== A"; "// three"; "b"]) = [c; d; x; e; f; g; h; i] /\ Forall comment_line [c; d] /\ ~ comment_line x /\ emptyish x = false).
  { do 8 eexists. split; [vm_compute; reflexivity|]. split; [repeat constructor; eexists; eexists; (split; [reflexivity|split; reflexivity])|]. split; [intros (t & r & [= <- <-] & K & _); discriminate K|reflexivity]. }
  destruct E as (c & d & x & e & f & g & h & i & -> & F & N & E). exists [c; d], x, [e; f; g; h; i]. split; [reflexivity|]. split; [exact F|]. split; [reflexivity|]. split; [exact N|]. split; [exact E|]. split; [reflexivity|].
  do 3 eexists. split; vm_compute; reflexivity.
Qed.

(** A comment between the title and the first section makes a preamble, although there is nothing in it: *)
Definition titled (preamble : option (list block)) : document block := Document 0 true None None None (Some [IText "T"]) None (DSections preamble [Section_ 1 [IText "A"] []]).
Theorem C79_preamble_refuted : (exists ss s, parsed true false ["// c"; ""; "== A"] = Yes (Sections [BComment] ss) s) /\ (exists ss s, parsed true false ["== A"] = Yes (Sections [] ss) s) /\
  exists x y, ShownProps.html_of (HtmlProps.bare HtmlProps.emb) (titled None) = Some (x ++ y)%list /\ ShownProps.html_of (HtmlProps.bare HtmlProps.emb) (titled (Some [remark])) = Some (x ++ b "<div id=""preamble""><div class=""sectionbody""></div></div>" ++ y)%list.
Proof.
  split; [eexists; eexists; vm_compute; reflexivity|]. split; [eexists; eexists; vm_compute; reflexivity|]. exists []. eexists. split; vm_compute; reflexivity.
Qed.
Print Assumptions C79_preamble_refuted.
(** A comment that is all there is below a term makes an empty description: *)
Definition term (l : list block) : document block := HtmlProps.doc_of [Block 1 None None None XDescriptionList (ListContent 2 1 [Item 0 [IText "t"] (MDesc [] None) l])].
Theorem C79_description_refuted : (exists s, parsed true false ["t::"; "+"; "// c"] = Yes (Sections [BList (Some no_meta) (LS.Colons 2) [DItem (LS.Colons 2) [NText $"t"] [] None [BComment]]] []) s) /\
  ShownProps.html_of (ShownProps.one_kind XDescriptionList) (term [remark]) <> ShownProps.html_of (ShownProps.one_kind XDescriptionList) (term []).
Proof. split; [eexists; vm_compute; reflexivity|]. vm_compute. discriminate. Qed.
Print Assumptions C79_description_refuted.
(** A comment line inside a paragraph is not shown, but what is in it counts as the end of formatted text that begins above it (contiguous_lines.rs:116-129): with the comment the rest of the paragraph is bold, without it nothing is. *)
Theorem C79_star_in_comment_refuted dbg :
  (exists s, parsed dbg false ["a *b"; "// c* d"; "e"] = Yes (Sections [BParagraph no_meta CParagraph [NText $"a "; NSpan Bold None [NText $"b"; NNewline; NComment $" c* d"; NText $"e"]]] []) s) /\
  (exists s, parsed dbg false ["a *b"; "// c d"; "e"] = Yes (Sections [BParagraph no_meta CParagraph [NText $"a *b"; NNewline; NComment $" c d"; NText $"e"]] []) s) /\
  exists s, parsed dbg false ["a *b"; "e"] = Yes (Sections [BParagraph no_meta CParagraph [NText $"a *b"; NNewline; NText $"e"]] []) s.
Proof. destruct dbg; (split; [|split]); eexists; vm_compute; reflexivity. Qed.
Print Assumptions C79_star_in_comment_refuted.
(** And a plus sign in it ends a passthrough that begins above it (inline_preproc.rs:31-41, 92-118): the rest of the comment is shown. *)
Theorem C79_comment_shown_refuted dbg :
  (exists s, parsed dbg false ["a +b"; "// c+ secret"; "e"] = Yes (Sections [BParagraph no_meta CParagraph [NText $"a "; NPass [NText $"b"]; NText $" secret"; NNewline; NText $"e"]] []) s) /\
  exists s, parsed dbg false ["a +b"; "e"] = Yes (Sections [BParagraph no_meta CParagraph [NText $"a +b"; NNewline; NText $"e"]] []) s.
Proof. destruct dbg; split; eexists; vm_compute; reflexivity. Qed.
Print Assumptions C79_comment_shown_refuted.
(** By design (dr-html-backend/tests/all/eval_lists.rs:20-47) a comment between two items makes two lists of them, so the theorems above are about blocks and not about lines: *)
Theorem C79_divides_lists : exists x y s, parsed true false ["* a"; "// c"; "* b"] = Yes (Sections [x; y] []) s.
Proof. eexists. eexists. eexists. vm_compute. reflexivity. Qed.
Print Assumptions C79_divides_lists.
