(** The HTML for a text of words (C67). *)
From Verif Require Import Base LexerModel LineModel InlineModel BlockModel WholeModel WholeSpec WholeInlineProofs WholeBlockProofs.
From Verif Require Import EvalModel HtmlModel.
Import ListNotations.
Open Scope list_scope.
Open Scope nat_scope.

(** ** The calls for nodes *)
Definition kind_for (k : InlineModel.span_kind) : span_kind := match k with Bold => SBold | Italic => SItalic | _ => SMono end.
Definition text_event (x : bytes) : event := Visit "inline_text" 0 (string_of_list_ascii x).
Definition ev (n : inode) : list event :=
  match n with
  | NText x => [text_event x]
  | NNewline => [Visit "joining_newline" 0 ""]
  | NSpecial c => [Visit "inline_specialchar" (char_of c) ""]
  | NSpan k _ [NText x] => [Enter (span_name (kind_for k)) [0]; text_event x; Exit (span_name (kind_for k)) [0]]
  | _ => []
  end.
Section Html.
Variables (wants : list event -> bool) (debug : bool).
Notation D := plain_details.
Lemma node_events n : good n = true -> exists i, inline_of n = Some i /\ forall s, eval_inline [] wants 1 i s = Done (St (out s ++ ev n) (resolving s)).
Proof.
  intros G. destruct n as [x| | | | |c| | | |k a ns| | | | | | | | | | | | | | | | | | |]; try discriminate G; [eexists; split; reflexivity..|].
  destruct a as [a|]; [now destruct k|]. destruct ns as [|n [|m ns]]; [now destruct k| |destruct k; destruct n; discriminate G]. destruct n; try (now destruct k).
  destruct k; try discriminate G; (eexists; split; [reflexivity|]; intros s; cbn -[app]; unfold emit; cbn [out resolving]; rewrite <- !app_assoc; reflexivity).
Qed.
Lemma nodes_events ns : forallb good ns = true -> exists l, all_some (map inline_of ns) = Some l /\ forall s, each (eval_inline [] wants 1) l s = Done (St (out s ++ flat_map ev ns) (resolving s)).
Proof.
  induction ns as [|n ns IH]; intros G.
  - exists []. split; [reflexivity|]. intros [o r]. cbn. now rewrite app_nil_r.
  - cbn [forallb] in G. apply andb_true_iff in G as [G1 G]. destruct (node_events n G1) as (i & I & E1). destruct (IH G) as (l & L & E2). exists (i :: l). split.
    + cbn [map all_some fold_right]. rewrite I. unfold all_some in L. rewrite L. reflexivity.
    + intros s. cbn [each then_]. unfold then_. rewrite E1, E2. cbn [out resolving flat_map]. now rewrite <- app_assoc.
Qed.

(** ** What they write *)
Definition opening : list event := [Enter "document" [0]; Enter "body" [0]; Enter "header" []; Exit "header" []; Enter "content" []].
Definition base : hst := Eval vm_compute in match calls D true opening fresh with Ret s => s | Panic => fresh end.
Definition at_ (h : pieces) : hst := set_html h base.
Lemma opens : calls D debug opening fresh = Ret (at_ []).
Proof. destruct debug; vm_compute; reflexivity. Qed.
Lemma calls_app l1 : forall l2 s, calls D debug (l1 ++ l2) s = match calls D debug l1 s with Ret s => calls D debug l2 s | Panic => Panic end.
Proof. induction l1 as [|e l1 IH]; intros l2 s; [reflexivity|]. cbn [app calls]. unfold bind. destruct (call D debug e s); [apply IH|reflexivity]. Qed.
Lemma bytes_of_app x y : bytes_of (x ++ y) = bytes_of x ++ bytes_of y.
Proof. unfold bytes_of. now rewrite flat_map_app. Qed.
Lemma text_written x h : calls D debug [text_event x] (at_ h) = Ret (at_ (h ++ [Raw (string_of_list_ascii x)])).
Proof. reflexivity. Qed.
Lemma raw_bytes x : b (string_of_list_ascii x) = x.
Proof. apply list_ascii_of_string_of_list_ascii. Qed.
Lemma node_written n h : good n = true -> exists ps, bytes_of ps = node_html ($" ") n /\ calls D debug (ev n) (at_ h) = Ret (at_ (h ++ ps)).
Proof.
  intros G. destruct n as [x| | | | |c| | | |k a ns| | | | | | | | | | | | | | | | | | |]; try discriminate G.
  - exists [Raw (string_of_list_ascii x)]. split; [|apply text_written]. cbn. rewrite app_nil_r. apply raw_bytes.
  - exists [Lit " "]. split; reflexivity.
  - destruct c; (eexists; split; [|reflexivity]); reflexivity.
  - destruct a as [a|]; [now destruct k|]. destruct ns as [|n [|m ns]]; [now destruct k| |destruct k; destruct n; discriminate G]. destruct n; try (now destruct k).
    exists ([Lit ("<" ++ span_tag (kind_for k) ++ ">")%string] ++ [Raw (string_of_list_ascii x)] ++ [Lit ("</" ++ span_tag (kind_for k) ++ ">")%string]). split.
    + rewrite !bytes_of_app. cbn [bytes_of flat_map bytes_of_piece node_html map concat]. rewrite !app_nil_r, raw_bytes. destruct k; try discriminate G; cbn; now rewrite <- ?app_assoc.
    + cbn [ev]. change [Enter (span_name (kind_for k)) [0]; text_event x; Exit (span_name (kind_for k)) [0]] with ([Enter (span_name (kind_for k)) [0]] ++ [text_event x] ++ [Exit (span_name (kind_for k)) [0]]). rewrite calls_app.
      replace (calls D debug [Enter (span_name (kind_for k)) [0]] (at_ h)) with (Ret (at_ (h ++ [Lit ("<" ++ span_tag (kind_for k) ++ ">")%string]))) by (destruct k; try discriminate G; reflexivity).
      rewrite calls_app, text_written. rewrite !app_assoc. destruct k; try discriminate G; reflexivity.
Qed.
Lemma nodes_written ns : forall h, forallb good ns = true -> exists ps, bytes_of ps = nodes_html ($" ") ns /\ calls D debug (flat_map ev ns) (at_ h) = Ret (at_ (h ++ ps)).
Proof.
  induction ns as [|n ns IH]; intros h G; [exists []; split; [reflexivity|now rewrite app_nil_r]|]. cbn [forallb] in G. apply andb_true_iff in G as [G1 G]. destruct (node_written n h G1) as (p1 & B1 & C1). destruct (IH (h ++ p1) G) as (p2 & B2 & C2).
  exists (p1 ++ p2). split; [rewrite bytes_of_app, B1, B2; reflexivity|]. cbn [flat_map]. rewrite calls_app, C1, C2. now rewrite app_assoc.
Qed.

(** ** Paragraphs *)
Definition block_ev (ns : list inode) : list event :=
  [Enter "paragraph_block" [0]; Enter "simple_block_content" [0]] ++ flat_map ev ns ++ [Exit "simple_block_content" [0]; Exit "paragraph_block" [0]].
Definition opened : pieces := [Lit "<div"; Lit " class="""; RawVal ""; RawVal "paragraph"; Lit """"; Lit ">"; Lit "<p>"].
Lemma block_opened h : calls D debug [Enter "paragraph_block" [0]; Enter "simple_block_content" [0]] (at_ h) = Ret (at_ (h ++ opened)).
Proof.
  transitivity (Ret (at_ ((h ++ [Lit "<div"; Lit " class="""; RawVal ""; RawVal "paragraph"; Lit """"; Lit ">"]) ++ [Lit "<p>"]))); [reflexivity|]. now rewrite <- app_assoc.
Qed.
Lemma block_closed h : calls D debug [Exit "simple_block_content" [0]; Exit "paragraph_block" [0]] (at_ h) = Ret (at_ (h ++ [Lit "</p>"; Lit "</div>"])).
Proof. reflexivity. Qed.
Lemma block_written b par : block_for b par -> exists x evs, block_of b = Some x /\ (forall s, eval_block [] wants 1 None x s = Done (St (out s ++ evs) (resolving s))) /\
  forall h, exists ps, bytes_of ps = paragraph_html par /\ calls D debug evs (at_ h) = Ret (at_ (h ++ ps)).
Proof.
  intros (ns & -> & G & H). destruct (nodes_events ns G) as (l & L & E). exists (Block 0 None None None XParagraph (Simple l)), (block_ev ns). split; [|split].
  - unfold block_of, no_meta. rewrite L. reflexivity.
  - intros s. cbn [eval_block seq]. unfold then_, enter, exit, emit, skip. cbn [out resolving]. unfold inlines. rewrite E. cbn [out resolving]. unfold block_ev. rewrite <- !app_assoc. reflexivity.
  - intros h. destruct (nodes_written ns (h ++ opened) G) as (p & B & C). exists (opened ++ p ++ [Lit "</p>"; Lit "</div>"]). split.
    + rewrite !bytes_of_app, B, H. reflexivity.
    + unfold block_ev. rewrite calls_app, block_opened, calls_app, C, block_closed. now rewrite !app_assoc.
Qed.
Lemma blocks_written bs pars : Forall2 block_for bs pars -> exists l evs, all_some (map block_of bs) = Some l /\ (forall s, each (eval_block [] wants 1 None) l s = Done (St (out s ++ evs) (resolving s))) /\
  forall h, exists ps, bytes_of ps = concat (map paragraph_html pars) /\ calls D debug evs (at_ h) = Ret (at_ (h ++ ps)).
Proof.
  induction 1 as [|b par bs pars B _ IH].
  - exists [], []. split; [reflexivity|]. split; [intros [o r]; cbn; now rewrite app_nil_r|]. intros h. exists []. split; [reflexivity|]. now rewrite app_nil_r.
  - destruct (block_written b par B) as (x & e1 & X & E1 & W1). destruct IH as (l & e2 & L & E2 & W2). exists (x :: l), (e1 ++ e2). split; [|split].
    + cbn [map all_some fold_right]. rewrite X. unfold all_some in L. rewrite L. reflexivity.
    + intros s. cbn [each]. unfold then_. rewrite E1, E2. cbn [out resolving]. now rewrite <- app_assoc.
    + intros h. destruct (W1 h) as (p1 & B1 & C1). destruct (W2 (h ++ p1)) as (p2 & B2 & C2). exists (p1 ++ p2). split; [rewrite bytes_of_app, B1, B2; reflexivity|]. rewrite calls_app, C1, C2. now rewrite app_assoc.
Qed.
Definition ending : list event := [Exit "content" []; Enter "footer" []; Exit "footer" []; Exit "body" [0]; Exit "document" [0]].
Lemma closes h : calls D debug ending (at_ h) = Ret (at_ h).
Proof. reflexivity. Qed.
Lemma document_written P bs pars : dbg (p_env P) = debug -> Forall2 block_for bs pars -> exists l, all_some (map block_of bs) = Some l /\ html_of P wants l = Some (concat (map paragraph_html pars)).
Proof.
  intros DB F. destruct (blocks_written bs pars F) as (l & evs & L & E & W). exists l. split; [exact L|]. unfold html_of.
  assert (O : eval_document [] wants 1 (Document 0 true None None None None None (DBlocks l)) = Done (St (opening ++ evs ++ ending) false)).
  { unfold eval_document, visit_document, eval_docinfo, eval_doc_content. cbn [seq embedded d_title d_toc d_content d_d info_head info_header info_footer some flag eval_toc_at Nat.b2n]. unfold then_, enter, exit, emit, skip. cbn [out resolving app]. rewrite E. cbn [out resolving]. rewrite <- !app_assoc. reflexivity. }
  rewrite O. cbn [out]. unfold output. rewrite DB, calls_app, opens, calls_app. destruct (W []) as (ps & B & C). rewrite C, closes. cbn [app]. change (html (at_ ps)) with ps. now rewrite B.
Qed.
End Html.
