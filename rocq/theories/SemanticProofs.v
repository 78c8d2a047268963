(** The semantic HTML for an article with sections, in which there are lists, delimited blocks and listings (C77). *)
From Verif Require Import Base LexerModel LineModel InlineModel BlockModel WholeModel WholeSpec WholeInlineProofs WholeBlockProofs WholeHtmlProofs.
From Verif Require Import OutlineModel OutlineSpec BoxSpec OutlineBlockProofs OutlineListProofs ListingInlineProofs ListingBlockProofs BoxDocProofs.
From Verif Require Import EvalModel HtmlModel Html5sModel.
From Verif Require Import ArticleModel ManualModel ManualDocProofs SemanticModel.
From Verif Require ArticleHtmlProofs OutlineHtmlProofs BoxHtmlProofs ManualHtmlProofs ManualSpec SemanticSpec.
Import ListNotations.
Open Scope list_scope.
Open Scope nat_scope.
Module AH := ArticleHtmlProofs.
Module OH := OutlineHtmlProofs.
Module BH := BoxHtmlProofs.
Module MH := ManualHtmlProofs.
Module MS := ManualSpec.
Module SS := SemanticSpec.
Notation does := AH.does.

Section Html.
Variables (wants : list event -> bool) (debug : bool) (ids : list bytes).
Notation D := (article_details (map (fun x => Some (string_of_list_ascii x)) ids)).
Definition base5 : hst := Eval vm_compute in match calls5 (article_details []) true AH.opening1 fresh5 with Ret s => s | Panic => fresh5 end.
(** the backend in the lists [I], which are interactive or not *)
Definition within (I : list bool) (h : pieces) : hst := set_interactive I (set_html h base5).
Definition writes (l : list event) (x : bytes) : Prop := forall I h, exists ps, bytes_of ps = x /\ calls5 D debug l (within I h) = Ret (within I (h ++ ps)).
Lemma calls_app l1 : forall l2 s, calls5 D debug (l1 ++ l2) s = match calls5 D debug l1 s with Ret s => calls5 D debug l2 s | Panic => Panic end.
Proof. induction l1 as [|e l1 IH]; intros l2 s; [reflexivity|]. cbn [app calls5]. unfold bind. destruct (call5 D debug e s); [apply IH|reflexivity]. Qed.
Lemma writes_app l m x y : writes l x -> writes m y -> writes (l ++ m) (x ++ y).
Proof. intros L M I h. destruct (L I h) as (p & E1 & C1). destruct (M I (h ++ p)) as (q & E2 & C2). exists (p ++ q). rewrite bytes_of_app, E1, E2, calls_app, C1, C2, app_assoc. now split. Qed.
Lemma writes_nil : writes [] []. Proof. intros I h. exists []. split; [reflexivity|]. now rewrite app_nil_r. Qed.
Lemma writes_text x : writes [text_event x] x.
Proof. intros I h. exists [Raw (string_of_list_ascii x)]. split; [|reflexivity]. cbn. rewrite app_nil_r. apply raw_bytes. Qed.
Lemma writes_pieces l ps : (forall I h, calls5 D debug l (within I h) = Ret (within I (h ++ ps))) -> writes l (bytes_of ps).
Proof. intros H I h. exists ps. split; [reflexivity|apply H]. Qed.
Lemma writes_lit e s : (forall I h, calls5 D debug [e] (within I h) = Ret (within I (h ++ [Lit s]))) -> writes [e] (b s).
Proof. intros H I h. exists [Lit s]. split; [cbn; apply app_nil_r|apply H]. Qed.
Lemma writes_nothing e : (forall I h, calls5 D debug [e] (within I h) = Ret (within I h)) -> writes [e] [].
Proof. intros H I h. exists []. split; [reflexivity|]. rewrite app_nil_r. apply H. Qed.
Lemma node_writes n : good n = true -> writes (ev n) (node_html WholeSpec.newline n).
Proof.
  intros G. destruct n as [x| | | | |c| | | |k a ns| | | | | | | | | | | | | | | | | | |]; try discriminate G.
  - apply writes_text.
  - apply (writes_lit _ Html5sModel.newline). reflexivity.
  - intros I h. exists [Lit (match c with SAmpersand => "&amp;" | SLessThan => "&lt;" | SGreaterThan => "&gt;" end)]. destruct c; split; reflexivity.
  - destruct a as [a|]; [now destruct k|]. destruct ns as [|n [|m ns]]; [now destruct k| |destruct k; destruct n; discriminate G]. destruct n; try (now destruct k).
    assert (W : writes ([Enter (span_name (kind_for k)) [0]] ++ [text_event x] ++ [Exit (span_name (kind_for k)) [0]]) (b ("<" ++ span_tag (kind_for k) ++ ">")%string ++ x ++ b ("</" ++ span_tag (kind_for k) ++ ">")%string)).
    { apply writes_app; [apply writes_lit; destruct k; try discriminate G; reflexivity|]. apply writes_app; [apply writes_text|]. apply writes_lit; destruct k; try discriminate G; reflexivity. }
    cbn [ev node_html map concat]. rewrite app_nil_r. destruct k; try discriminate G; cbn in W |- *; rewrite <- ?app_assoc; exact W.
Qed.
Lemma nodes_writes ns : forallb good ns = true -> writes (flat_map ev ns) (nodes_html WholeSpec.newline ns).
Proof. induction ns as [|n ns IH]; intros G; [apply writes_nil|]. cbn [forallb] in G. apply andb_true_iff in G as [G1 G]. cbn [flat_map]. change (nodes_html WholeSpec.newline (n :: ns)) with (node_html WholeSpec.newline n ++ nodes_html WholeSpec.newline ns). apply writes_app; [now apply node_writes|now apply IH]. Qed.
Lemma vnodes_writes ns : forallb vgood ns = true -> writes (flat_map ev ns) (vnodes_html ns).
Proof.
  intros G. replace (vnodes_html ns) with (nodes_html WholeSpec.newline ns); [apply nodes_writes; now apply vgood_good|]. induction ns as [|n ns IH]; [reflexivity|]. cbn [forallb] in G. apply andb_true_iff in G as [G1 G].
  change (node_html WholeSpec.newline n ++ nodes_html WholeSpec.newline ns = vnode_html n ++ vnodes_html ns). rewrite (IH G). f_equal. destruct n; try discriminate G1; reflexivity.
Qed.

(** ** Lists *)
Definition outer_open (k : list_kind) (n : nat) : pieces :=
  if n =? 1 then match k with
  | Bulleted => [Lit "<div"; Lit " class="""; RawVal ""; RawVal "ulist"; Lit """"; Lit ">"]
  | Numbered => [Lit "<div"; Lit " class="""; RawVal ""; RawVal "olist"; Lit " "; RawVal ""; RawVal (class_from_depth n); Lit """"; Lit ">"]
  end else [].
Definition list_close (k : list_kind) (n : nat) : pieces := [Lit (match k with Bulleted => "</ul>" | Numbered => "</ol>" end)] ++ if_pieces (n =? 1) [Lit "</div>"].
Lemma list_opens k n I h : n <= 255 -> calls5 D debug [Enter (OH.list_event k) [0; n]] (within I h) = Ret (within (false :: I) (h ++ outer_open k n ++ OH.inner_open k n)).
Proof.
  intros N. rewrite app_assoc. destruct k; [change (calls5 D debug [Enter (OH.list_event Bulleted) [0; n]] (within I h)) with (match enter_unordered_list5 D 0 n (within I h) with Ret s => Ret s | Panic => Panic end); unfold enter_unordered_list5, outer_open; destruct (n =? 1); [reflexivity|]; rewrite app_nil_r; cbn -[app]; rewrite ?app_nil_r; reflexivity|].
  change (calls5 D debug [Enter (OH.list_event Numbered) [0; n]] (within I h)) with (match enter_ordered_list5 D debug 0 n (within I h) with Ret s => Ret s | Panic => Panic end).
  unfold enter_ordered_list5, look. change (desc_depth (within I h)) with 0. replace (debug && (n <? 0)) with false by (symmetry; apply andb_false_iff; right; now apply Nat.ltb_ge, Nat.le_0_l).
  replace ((n + 256 - 0) mod 256) with n. 2:{ rewrite Nat.sub_0_r. replace (n + 256) with (n + 1 * 256) by lia. rewrite Nat.mod_add by lia. symmetry. apply Nat.mod_small. lia. }
  unfold outer_open. destruct n as [|[|[|[|[|n]]]]]; try reflexivity; cbn -[app]; rewrite ?app_nil_r; reflexivity.
Qed.
Lemma list_closes k n I h : calls5 D debug ([Exit (OH.list_event k) [0; n]] ++ []) (within (false :: I) h) = Ret (within I (h ++ list_close k n)).
Proof. destruct k; reflexivity. Qed.
Lemma list_writes k n evs x : n <= 255 -> 1 <= n -> writes evs x -> writes (OH.around k n evs) (SS.list_html k n x).
Proof.
  intros N N1 W I h. destruct (W (false :: I) (h ++ outer_open k n ++ OH.inner_open k n)) as (p & E & C). exists ((outer_open k n ++ OH.inner_open k n) ++ p ++ list_close k n). split.
  - rewrite (bytes_of_app (_ ++ _)), (bytes_of_app p), E. unfold SS.list_html, SS.outermost, outer_open, list_close. destruct k; (destruct n as [|[|[|[|[|n]]]]]; [lia|cbn; rewrite <- ?app_assoc; reflexivity..]).
  - unfold OH.around. rewrite calls_app, list_opens by exact N. rewrite calls_app, C, list_closes, <- !app_assoc. reflexivity.
Qed.
Lemma item_writes k ns evs x : forallb good ns = true -> writes evs x -> writes (OH.item_events (OH.variant k) ns evs) ($"<li>" ++ nodes_html WholeSpec.newline ns ++ x ++ $"</li>").
Proof.
  intros G W. unfold OH.item_events. apply writes_app; [apply (writes_lit _ "<li>"); destruct k; reflexivity|]. apply writes_app; [now apply nodes_writes|]. rewrite <- (app_nil_l (x ++ _)). apply writes_app; [apply writes_nothing; intros I h; rewrite <- (app_nil_r h) at 2; destruct k; reflexivity|].
  rewrite <- (app_nil_l (x ++ _)). apply writes_app; [apply writes_nothing; reflexivity|]. apply writes_app; [exact W|]. rewrite app_nil_r. apply (writes_lit _ "</li>"); destruct k; reflexivity.
Qed.
Notation does_item v := (eval_item [] wants 1 (eval_block [] wants 1) None v).
Definition done (n : nat) (e : entry) : Prop := forall k x, item_for k n e x -> exists i evs, item_in n x = Some i /\ does (does_item (OH.variant k) i) evs /\ writes evs (SS.entry_html n e).
Lemma items_done n k es : Forall (done n) es -> forall xs, pairwise (item_for k n) es xs -> exists l evs, all_some (map (item_in n) xs) = Some l /\ does (each (does_item (OH.variant k)) l) evs /\ writes evs (concat (map (SS.entry_html n) es)).
Proof.
  induction 1 as [|e es E _ IH]; intros xs F; (destruct xs as [|x xs]; cbn in F; try easy); [exists [], []; split; [reflexivity|]; split; [apply AH.does_skip|apply writes_nil]|]. destruct F as [F1 F]. destruct (E k x F1) as (i & e1 & I & D1 & W1). destruct (IH xs F) as (l & e2 & L & D2 & W2).
  exists (i :: l), (e1 ++ e2). split; [|split; [now apply AH.does_then|now apply writes_app]]. cbn [map all_some fold_right]. rewrite I. unfold all_some in L. rewrite L. reflexivity.
Qed.
Lemma list_done n k m es xs : S n <= 255 -> plainly m -> Forall (done (S n)) es -> pairwise (item_for k (S n)) es xs ->
  exists y evs, block_in n (BList m (mk k (S n)) xs) = Some y /\ does (eval_block [] wants 1 None y) evs /\ writes evs (SS.list_html k (S n) (concat (map (SS.entry_html (S n)) es))).
Proof.
  intros N PM E F. destruct (items_done (S n) k es E xs F) as (l & evs & L & DL & W).
  exists (Block 0 None None None (match k with Bulleted => XUnorderedList | Numbered => XOrderedList end) (ListContent (OH.variant k) (S n) l)), ([] ++ OH.around k (S n) evs ++ []). split; [|split].
  - assert (M : S n mod 256 = S n) by (apply Nat.mod_small; lia). destruct PM as [-> | ->]; cbn [block_in no_meta]; rewrite OH.variant_mk, L, M; reflexivity.
  - destruct k; cbn [eval_block]; (apply AH.does_cons; [apply AH.does_skip|]; apply AH.does_cons; [|apply AH.does_end]); unfold OH.around; (apply AH.does_cons; [apply AH.does_emit|]; apply AH.does_cons; [exact DL|]; apply AH.does_cons; [apply AH.does_emit|apply AH.does_end]).
  - cbn [app]. rewrite app_nil_r. apply list_writes; [exact N|lia|exact W].
Qed.
Lemma entry_done : forall e n, entry_ok n e = true -> done n e.
Proof.
  induction e as [bl f more k' subs IH] using OH.entry_rect'. intros n OK k x X. cbn [entry_ok] in OK. apply andb_true_iff in OK as [_ OS]. cbn [item_for] in X. destruct X as (ns & bs & -> & G & HT & B). destruct (nodes_events wants ns G) as (hl & HL & E1).
  assert (BL : exists bl evs, all_some (map (block_in n) bs) = Some bl /\ does (each (eval_block [] wants 1 None) bl) evs /\ writes evs (match subs with [] => [] | _ => SS.list_html k' (S n) (concat (map (SS.entry_html (S n)) subs)) end)).
  { destruct subs as [|e subs]; [subst bs; exists [], []; split; [reflexivity|]; split; [apply AH.does_skip|apply writes_nil]|]. destruct B as (m & xs & -> & PM & PW).
    assert (FD : Forall (done (S n)) (e :: subs)) by (apply Forall_forall; intros z I; rewrite Forall_forall in IH; rewrite forallb_forall in OS; now apply IH, OS).
    assert (N : S n <= 255) by (cbn [forallb] in OS; apply andb_true_iff in OS as [OE _]; destruct e; cbn [entry_ok] in OE; repeat (apply andb_true_iff in OE as [OE _]); now apply Nat.leb_le).
    destruct (list_done n k' m (e :: subs) xs N PM FD PW) as (y & evs & Y & DY & WY). exists [y], (evs ++ []). split; [cbn [map all_some fold_right]; rewrite Y; reflexivity|]. split; [apply AH.does_then; [exact DY|apply AH.does_skip]|]. rewrite app_nil_r. exact WY. }
  destruct BL as (yl & evs & YL & DY & WY). exists (EvalModel.Item 0 hl MOther yl), (OH.item_events (OH.variant k) ns evs). split; [cbn [item_in]; rewrite HL, YL; reflexivity|]. split.
  - unfold eval_item, OH.item_events. cbn [i_d i_principle i_blocks]. apply AH.does_cons; [apply AH.does_emit|]. apply AH.does_cons; [exact E1|]. apply AH.does_cons; [apply AH.does_emit|]. apply AH.does_cons; [apply AH.does_emit|]. apply AH.does_cons; [exact DY|]. apply AH.does_cons; [apply AH.does_emit|apply AH.does_end].
  - cbn [SS.entry_html]. unfold SS.lines_html. rewrite <- (HT WholeSpec.newline). now apply item_writes.
Qed.

(** ** Blocks *)
Definition par_html (par : list line) : bytes := $"<p>" ++ SS.lines_html par ++ $"</p>".
Lemma par_done b0 par : block_for b0 par -> exists y evs, block_in 0 b0 = Some y /\ does (eval_block [] wants 1 None y) evs /\ writes evs (par_html par).
Proof.
  intros (ns & -> & G & H). destruct (nodes_events wants ns G) as (l & L & E). exists (Block 0 None None None XParagraph (Simple l)), (block_ev ns). split; [|split].
  - cbn [block_in]. unfold block_of, no_meta. rewrite L. reflexivity.
  - intros s. cbn [eval_block EvalModel.seq]. unfold then_, enter, exit, emit, skip. cbn [out resolving]. unfold EvalModel.inlines. rewrite E. cbn [out resolving]. unfold block_ev. rewrite <- !app_assoc. reflexivity.
  - unfold par_html, SS.lines_html. rewrite <- (H WholeSpec.newline). unfold block_ev. apply writes_app.
    + apply (writes_pieces _ [Lit "<p"; Lit ">"]). intros I h. transitivity (Ret (within I ((h ++ [Lit "<p"; Lit ">"]) ++ []))); [reflexivity|]. now rewrite app_nil_r.
    + apply writes_app; [now apply nodes_writes|]. apply (writes_pieces _ [Lit "</p>"]). intros I h. transitivity (Ret (within I ((h ++ []) ++ [Lit "</p>"]))); [reflexivity|]. now rewrite app_nil_r.
Qed.
Definition box_open (b : box) : pieces :=
  match b with
  | ExampleBox _ => [Lit "<div"; Lit " class="""; RawVal ""; RawVal "example-block"; Lit """"; Lit ">"; Lit "<div class=""example"">"]
  | SidebarBox => [Lit "<aside"; Lit " class="""; RawVal ""; RawVal "sidebar"; Lit """"; Lit ">"]
  | QuoteBox => [Lit "<div"; Lit " class="""; RawVal ""; RawVal "quote-block"; Lit """"; Lit ">"; Lit "<blockquote>"]
  | OpenBox => [Lit "<div"; Lit " class="""; RawVal ""; RawVal "open-block"; Lit """"; Lit ">"; Lit "<div class=""content"">"]
  | ListingBox => [Lit "<div"; Lit " class="""; RawVal ""; RawVal "listing-block"; Lit """"; Lit ">"; Lit "<pre"; Lit ">"]
  | LiteralBox => [Lit "<div"; Lit " class="""; RawVal ""; RawVal "literal-block"; Lit """"; Lit ">"; Lit "<pre>"]
  end.
Definition box_close (b : box) : pieces :=
  match b with SidebarBox => [Lit "</aside>"] | QuoteBox => [Lit "</blockquote>"; Lit "</div>"] | ListingBox | LiteralBox => [Lit "</pre>"; Lit "</div>"] | OpenBox => [Lit "</div></div>"] | ExampleBox _ => [Lit "</div>"; Lit "</div>"] end.
Lemma box_opens b I h : calls5 D debug [Enter (BH.box_event b) (BH.box_args b)] (within I h) = Ret (within I (h ++ box_open b)).
Proof.
  destruct b; cbn [box_open]; try reflexivity;
    try (match goal with |- context [h ++ [?a; ?b; ?c; ?d; ?e; ?f; ?g]] => replace (h ++ [a; b; c; d; e; f; g]) with ((h ++ [a; b; c; d; e; f]) ++ [g]) by now rewrite <- app_assoc end; reflexivity).
  match goal with |- context [h ++ [?a; ?b; ?c; ?d; ?e; ?f; ?g; ?i]] => replace (h ++ [a; b; c; d; e; f; g; i]) with (((h ++ [a; b; c; d; e; f]) ++ [g]) ++ [i]) by now rewrite <- !app_assoc end; reflexivity.
Qed.
Lemma box_closes b I h : calls5 D debug ([Exit (BH.box_event b) (BH.box_args b)] ++ []) (within I h) = Ret (within I (h ++ box_close b)).
Proof.
  destruct b; cbn [box_close]; try reflexivity. match goal with |- context [h ++ [?a; ?b]] => replace (h ++ [a; b]) with ((h ++ [a]) ++ [b]) by now rewrite <- app_assoc end; reflexivity.
Qed.
Lemma in_box_writes b evs x : writes evs x -> writes ([Enter (BH.box_event b) (BH.box_args b)] ++ evs ++ [Exit (BH.box_event b) (BH.box_args b)] ++ []) (SS.box_html b x).
Proof.
  intros W I h. destruct (W I (h ++ box_open b)) as (p & E & C). exists (box_open b ++ p ++ box_close b). split.
  - rewrite !bytes_of_app, E. destruct b; reflexivity.
  - rewrite calls_app, box_opens. rewrite calls_app, C, box_closes, <- !app_assoc. reflexivity.
Qed.
Lemma inner_writes name evs x : (forall I h, calls5 D debug [Enter name [0]] (within I h) = Ret (within I h)) -> (forall I h, calls5 D debug [Exit name [0]] (within I h) = Ret (within I h)) -> writes evs x -> writes ([Enter name [0]] ++ evs ++ [Exit name [0]]) x.
Proof. intros A B W. rewrite <- (app_nil_l x). apply writes_app; [now apply writes_nothing|]. rewrite <- (app_nil_r x). apply writes_app; [exact W|now apply writes_nothing]. Qed.
Lemma box_writes b evs x : writes evs x -> writes (BH.box_events b evs) (SS.box_html b x).
Proof.
  intros W. unfold BH.box_events. replace ([Enter "compound_block_content" [0]] ++ evs ++ [Exit "compound_block_content" [0]] ++ [Exit (BH.box_event b) (BH.box_args b)] ++ []) with (([Enter "compound_block_content" [0]] ++ evs ++ [Exit "compound_block_content" [0]]) ++ [Exit (BH.box_event b) (BH.box_args b)] ++ []) by now rewrite <- !app_assoc.
  apply in_box_writes. apply inner_writes; [reflexivity..|exact W].
Qed.
Lemma shown_writes b ns : as_is b = true -> forallb vgood ns = true -> writes (BH.shown_events b ns) (SS.box_html b (vnodes_html ns)).
Proof.
  intros A G. assert (Z : BH.box_args b = [0]) by (destruct b; try discriminate A; reflexivity). unfold BH.shown_events. rewrite <- Z at 1 4.
  replace ([Enter "simple_block_content" [0]] ++ flat_map ev ns ++ [Exit "simple_block_content" [0]] ++ [Exit (BH.box_event b) (BH.box_args b)] ++ []) with (([Enter "simple_block_content" [0]] ++ flat_map ev ns ++ [Exit "simple_block_content" [0]]) ++ [Exit (BH.box_event b) (BH.box_args b)] ++ []) by now rewrite <- !app_assoc.
  apply in_box_writes. apply inner_writes; [intros I h; rewrite <- (app_nil_r h) at 2; reflexivity..|now apply vnodes_writes].
Qed.
Fixpoint elem_html (e : elem) : bytes := match e with EPar par => par_html par | EList k es => SS.list_html k 1 (concat (map (SS.entry_html 1) es)) | EBox b els => SS.box_html b (concat (map elem_html els)) | EShown b ls => SS.box_html b (shown_html ls) end.
Definition elem_does (e : elem) : Prop := forall x, elem_for e x -> BH.elem_ok e = true -> exists y evs, block_in 0 x = Some y /\ does (eval_block [] wants 1 None y) evs /\ writes evs (elem_html e).
Lemma elems_done els : Forall elem_does els -> forall bs, pairwise elem_for els bs -> forallb BH.elem_ok els = true -> exists l evs, all_some (map (block_in 0) bs) = Some l /\ does (each (eval_block [] wants 1 None) l) evs /\ writes evs (concat (map elem_html els)).
Proof.
  induction 1 as [|e els E _ IH]; intros bs F OK; (destruct bs as [|x bs]; cbn [pairwise] in F; try easy); [exists [], []; split; [reflexivity|]; split; [apply AH.does_skip|apply writes_nil]|]. destruct F as [F1 F]. cbn [forallb] in OK. apply andb_true_iff in OK as [OE OK]. destruct (E x F1 OE) as (y & e1 & Y & D1 & W1). destruct (IH bs F OK) as (l & e2 & L & D2 & W2).
  exists (y :: l), (e1 ++ e2). split; [|split; [now apply AH.does_then|now apply writes_app]]. cbn [map all_some fold_right]. rewrite Y. unfold all_some in L. rewrite L. reflexivity.
Qed.
Lemma elem_done : forall e, elem_does e.
Proof.
  apply BH.elem_induction.
  - intros par x H _. now apply par_done.
  - intros k es x H OK. cbn [elem_for BH.elem_ok elem_html] in *. destruct H as (xs & -> & F). apply (list_done 0 k (Some no_meta) es xs); [lia|now right| |now apply pairwise_all]. apply Forall_forall. intros z I. rewrite forallb_forall in OK. now apply entry_done, OK.
  - intros b els F x H OK. cbn [elem_for BH.elem_ok elem_html] in *. apply andb_true_iff in OK as [AI OK]. apply negb_true_iff in AI. destruct H as (t & bs & -> & PW). destruct (elems_done els F bs PW OK) as (l & evs & L & DL & W).
    exists (Block 0 None None None (match b with ExampleBox _ => XExample | SidebarBox => XSidebar | QuoteBox => XBlockQuote | _ => XOpen end) (Compound l)), ([] ++ BH.box_events b evs ++ []). split; [|split].
    + destruct b; try discriminate AI; cbn [box_context block_in no_meta compound_context]; rewrite L; reflexivity.
    + destruct b; try discriminate AI; cbn [eval_block]; (apply AH.does_cons; [apply AH.does_skip|]; apply AH.does_cons; [|apply AH.does_end]); unfold BH.box_events; (apply AH.does_cons; [apply AH.does_emit|]; apply AH.does_cons; [apply AH.does_emit|]; apply AH.does_cons; [exact DL|]; apply AH.does_cons; [apply AH.does_emit|]).
      3: { apply (AH.does_cons _ _ [] ([Exit (BH.box_event QuoteBox) (BH.box_args QuoteBox)] ++ [])); [apply AH.does_skip|]; apply AH.does_cons; [apply AH.does_emit|apply AH.does_end]. }
      all: (apply AH.does_cons; [apply AH.does_emit|apply AH.does_end]).
    + cbn [app]. rewrite app_nil_r. now apply box_writes.
  - intros b ls x H OK. cbn [elem_for BH.elem_ok elem_html] in *. apply andb_true_iff in OK as [AI OK]. destruct H as (t & ns & -> & G & V). destruct (nodes_events wants ns (vgood_good ns G)) as (l & L & EV).
    exists (Block 0 None None None (match b with ListingBox => XListing | _ => XLiteral end) (Simple l)), ([] ++ BH.shown_events b ns ++ []). split; [|split].
    + destruct b; try discriminate AI; cbn [box_context block_in no_meta shown_context]; rewrite L; reflexivity.
    + destruct b; try discriminate AI; cbn [eval_block]; (apply AH.does_cons; [apply AH.does_skip|]; apply AH.does_cons; [|apply AH.does_end]); unfold BH.shown_events;
        (apply AH.does_cons; [apply AH.does_emit|]; apply AH.does_cons; [apply AH.does_emit|]; apply AH.does_cons; [exact EV|]; apply AH.does_cons; [apply AH.does_emit|]; apply AH.does_cons; [apply AH.does_emit|apply AH.does_end]).
    + cbn [app]. rewrite app_nil_r. unfold shown_html. rewrite <- lines_escaped by now apply trimmed_items. rewrite <- V. now apply shown_writes.
Qed.
Lemma flat_html l : Forall (fun x => concat (map elem_html (body_elems x)) = SS.body_html x) l -> concat (map elem_html (flat_map body_elems l)) = concat (map SS.body_html l).
Proof. induction 1 as [|x l E _ IH]; [reflexivity|]. cbn [flat_map map concat]. rewrite map_app, concat_app, E, IH. reflexivity. Qed.
Lemma body_shown : forall x, concat (map elem_html (body_elems x)) = SS.body_html x.
Proof.
  apply body_induction.
  - intros [ls|k es]; cbn [body_elems part_elems SS.body_html SS.part_html]; [unfold SS.text_html; now rewrite map_map|]. cbn. apply app_nil_r.
  - intros b l F. cbn [body_elems SS.body_html map concat elem_html]. rewrite app_nil_r, (flat_html l F). reflexivity.
  - intros b ls. cbn [body_elems SS.body_html map concat elem_html]. apply app_nil_r.
Qed.
Lemma doc_html l : concat (map elem_html (flat_map body_elems l)) = SS.bodies_html l.
Proof. apply flat_html. induction l; constructor; [apply body_shown|assumption]. Qed.
Lemma bodies_at els bs : Forall2 elem_for els bs -> forallb BH.elem_ok els = true ->
  exists l evs, (forall k, in_turn ManualModel.block_at bs k = Some (l, k)) /\ (l = [] -> els = []) /\ does (each (eval_block [] wants 1 None) l) evs /\ writes evs (concat (map elem_html els)).
Proof.
  induction 1 as [|e x els bs E _ IH]; intros OK; [exists [], []; split; [reflexivity|]; split; [auto|]; split; [apply AH.does_skip|apply writes_nil]|]. cbn [forallb] in OK. apply andb_true_iff in OK as [OE OK]. destruct (elem_done e x E OE) as (y & e1 & Y & D1 & W1). destruct (IH OK) as (l & e2 & L & _ & D2 & W2). exists (y :: l), (e1 ++ e2).
  split; [intros k; cbn [in_turn]; fold (in_turn ManualModel.block_at); rewrite (MH.block_in_at e x E k), Y, L; reflexivity|]. split; [discriminate|]. split; [now apply AH.does_then|]. cbn [map concat]. now apply writes_app.
Qed.

(** ** Sections *)
Lemma section_opened d n : section_level D d = n -> n <= 5 -> writes [Enter "section" [d]] ($"<section class=""doc-section level-" ++ b (dec n) ++ $""">").
Proof.
  intros E N. assert (W : writes [Enter "section" [d]] (bytes_of [Lit "<section"; Lit " class="""; RawVal ""; RawVal "doc-section"; Lit " "; RawVal ""; RawVal ("level-" ++ dec n)%string; Lit """"; Lit ">"])).
  { apply writes_pieces. intros I h. change (calls5 D debug [Enter "section" [d]] (within I h)) with (match enter_section5 D d (within I h) with Ret s => Ret s | Panic => Panic end). unfold enter_section5. rewrite E.
    destruct n as [|[|[|[|[|[|n]]]]]]; try lia; reflexivity. }
  destruct n as [|[|[|[|[|[|n]]]]]]; try lia; exact W.
Qed.
Lemma heading_opened d n id : section_level D d = n -> n_opt D d "id" = Some (string_of_list_ascii id) -> writes [Enter "section_heading" [d]] ($"<h" ++ b (dec (S n)) ++ $" id=""" ++ id ++ $""">").
Proof.
  intros E I J h. exists ([Lit "<h"; Num (n + 1); Lit " id="""; RawVal (string_of_list_ascii id); Lit """>"] ++ [Raw ""]). split.
  - rewrite bytes_of_app. cbn [bytes_of flat_map bytes_of_piece]. rewrite Nat.add_1_r, raw_bytes, !app_nil_r. reflexivity.
  - change (calls5 D debug [Enter "section_heading" [d]] (within J h)) with (match enter_section_heading5 D d (within J h) with Ret s => Ret s | Panic => Panic end). unfold enter_section_heading5. rewrite I, E. rewrite app_assoc. reflexivity.
Qed.
Lemma heading_closed d n : section_level D d = n -> writes [Exit "section_heading" [d]] ($"</h" ++ b (dec (S n)) ++ $">").
Proof.
  intros E I h. exists [Lit "</h"; Num (n + 1); Lit ">"]. split; [cbn [bytes_of flat_map bytes_of_piece]; now rewrite Nat.add_1_r, !app_nil_r|].
  change (calls5 D debug [Exit "section_heading" [d]] (within I h)) with (match exit_section_heading5 D d (within I h) with Ret s => Ret s | Panic => Panic end). unfold exit_section_heading5. rewrite E. reflexivity.
Qed.
Lemma section_closed d : writes [Exit "section" [d]] ($"</section>").
Proof. apply (writes_lit _ "</section>"). intros I h. reflexivity. Qed.
Definition one_section n k (y : sect) (s : MS.section) : Prop :=
  exists z evs, ManualModel.block_at (BSection y) k = Some (Block 0 None None None XSection (SectionContent z), k + MS.count s) /\ does (eval_section [] wants 1 (eval_block [] wants 1) None z) evs /\ writes evs (SS.section_html ids n k s).
Lemma sections_of n subs : Forall (fun s => forall k y, sect_for n y s -> MS.section_ok n s = true -> k + MS.count s <= length ids -> one_section n k y s) subs ->
  forall ys k, Forall2 (sect_for n) ys subs -> forallb (MS.section_ok n) subs = true -> k + list_sum (map MS.count subs) <= length ids ->
  exists zs evs, in_turn ManualModel.block_at (map BSection ys) k = Some (map (fun z => Block 0 None None None XSection (SectionContent z)) zs, k + list_sum (map MS.count subs)) /\
    in_turn ManualModel.sect_at ys k = Some (zs, k + list_sum (map MS.count subs)) /\ does (each (eval_section [] wants 1 (eval_block [] wants 1) None) zs) evs /\ writes evs (SS.sections_html ids n k subs).
Proof.
  induction 1 as [|s subs I _ IH]; intros ys k F OK L; inversion F as [|y s' ys' subs' Y F']; subst; cbn [map list_sum fold_right] in *.
  - exists [], []. rewrite Nat.add_0_r. split; [reflexivity|]. split; [reflexivity|]. split; [apply AH.does_skip|apply writes_nil].
  - change (fold_right Nat.add 0 (map MS.count subs)) with (list_sum (map MS.count subs)) in *. cbn [forallb] in OK. apply andb_true_iff in OK as [OK1 OK]. destruct (I k y Y OK1 ltac:(lia)) as (z & e1 & B1 & D1 & W1). destruct (IH ys' (k + MS.count s) F' OK ltac:(lia)) as (zs & e2 & B2 & S2 & D2 & W2).
    exists (z :: zs), (e1 ++ e2). split; [|split; [|split; [now apply AH.does_then|now apply writes_app]]].
    + cbn [in_turn]. rewrite B1. fold (in_turn ManualModel.block_at). rewrite B2. cbn [map]. now rewrite Nat.add_assoc.
    + cbn [in_turn]. unfold ManualModel.sect_at at 1. rewrite B1. fold (in_turn ManualModel.sect_at). rewrite S2. now rewrite Nat.add_assoc.
Qed.
Lemma inner_html n subs : forall k, (fix go l k := match l with [] => [] | x :: r => SS.section_html ids n k x ++ go r (k + MS.count x) end) subs k = SS.sections_html ids n k subs.
Proof. induction subs as [|s subs IH]; intros k; [reflexivity|]. cbn [SS.sections_html]. now rewrite IH. Qed.
Lemma section_written : forall s n k y, sect_for n y s -> MS.section_ok n s = true -> k + MS.count s <= length ids -> one_section n k y s.
Proof.
  induction s as [h body subs IH] using section_rect'. intros n k y Y OK L. inversion Y as [n' h' body' subs' ns bs ys HF FB FS]; subst. apply section_parts in OK as (N & _ & OB & OS).
  rewrite MH.count_sec in L. assert (FI : Forall (fun s => forall k y, sect_for (S n) y s -> MS.section_ok (S n) s = true -> k + MS.count s <= length ids -> one_section (S n) k y s) subs) by (revert IH; apply Forall_impl; auto).
  destruct (sections_of (S n) subs FI ys (S k) FS OS ltac:(lia)) as (zs & e3 & B3 & _ & D3 & W3). destruct (bodies_at _ bs FB (BH.elems_ok body OB)) as (l & e2 & L2 & _ & D2 & W2). destruct HF as (G & HH & _). destruct (nodes_events wants ns G) as (hl & HL & E1).
  unfold bodies_elems in W2. rewrite doc_html in W2.
  exists (Section_ (label n k) hl (l ++ map (fun z => Block 0 None None None XSection (SectionContent z)) zs)), ([Enter "section" [label n k]] ++ [Enter "section_heading" [label n k]] ++ flat_map ev ns ++ [Exit "section_heading" [label n k]] ++ (e2 ++ e3) ++ [Exit "section" [label n k]] ++ []).
  split; [|split].
  - cbn [ManualModel.block_at]. unfold no_meta. rewrite HL, (AH.in_turn_app _ _ _ _ _ _ _ _ (L2 (S k)) B3), MH.count_sec. do 2 f_equal. lia.
  - unfold eval_section. cbn [s_d s_heading s_blocks]. apply AH.does_cons; [apply AH.does_emit|]. apply AH.does_cons; [apply AH.does_emit|]. apply AH.does_cons; [exact E1|]. apply AH.does_cons; [apply AH.does_emit|]. apply AH.does_cons; [|apply AH.does_cons; [apply AH.does_emit|apply AH.does_end]].
    apply AH.does_each_app; [exact D2|]. now apply AH.blocks_of_sections.
  - cbn [SS.section_html]. rewrite inner_html. unfold SS.whole_section_html. pose proof (AH.level_label ids n k N) as LV. pose proof (AH.id_label ids n k N ltac:(lia)) as ID. set (d := label n k) in *.
    assert (W : writes ([Enter "section" [d]] ++ [Enter "section_heading" [d]] ++ flat_map ev ns ++ [Exit "section_heading" [d]] ++ (e2 ++ e3) ++ [Exit "section" [d]] ++ [])
      (($"<section class=""doc-section level-" ++ b (dec n) ++ $""">") ++ ($"<h" ++ b (dec (S n)) ++ $" id=""" ++ nth k ids [] ++ $""">") ++ line_html h ++ ($"</h" ++ b (dec (S n)) ++ $">") ++ (SS.bodies_html body ++ SS.sections_html ids (S n) (S k) subs) ++ $"</section>" ++ [])).
    { apply writes_app; [now apply section_opened|]. apply writes_app; [now apply heading_opened|]. apply writes_app; [rewrite <- (HH WholeSpec.newline); now apply nodes_writes|]. apply writes_app; [now apply heading_closed|]. apply writes_app; [apply writes_app; [exact W2|exact W3]|]. apply writes_app; [apply section_closed|apply writes_nil]. }
    intros I0 h0. destruct (W I0 h0) as (ps & E & C). exists ps. split; [|exact C]. rewrite E. rewrite <- ?app_assoc, ?app_nil_r. reflexivity.
Qed.

(** ** Documents *)
Definition preamble (has : bool) (x : bytes) (secs : list MS.section) : bytes :=
  match has, secs, x with true, _ :: _, _ :: _ => $"<section id=""preamble"" aria-label=""Preamble"">" ++ x ++ $"</section>" | _, _, _ => x end.
Lemma elem_shows e : BH.elem_ok e = true -> exists c r, elem_html e = c :: r.
Proof.
  intros _. destruct e as [par|k es|b els|b ls]; cbn [elem_html]; [eexists; eexists; reflexivity|destruct k; eexists; eexists; reflexivity|destruct b; eexists; eexists; reflexivity..].
Qed.
Lemma content_written has bs ys c l secs : (c = Sections bs ys \/ ys = [] /\ c = Blocks bs) -> Forall2 elem_for (bodies_elems l) bs -> bodies_ok l = true -> Forall2 (sect_for 1) ys secs -> forallb (MS.section_ok 1) secs = true -> list_sum (map MS.count secs) <= length ids ->
  exists dc evs, ManualModel.content_at c = Some dc /\ does (AH.inner wants None (flag has) dc) evs /\ writes evs (preamble has (SS.bodies_html l) secs ++ SS.sections_html ids 1 0 secs) /\ match dc with DParts _ _ _ _ => False | _ => True end.
Proof.
  intros C FB OB FS OK L. pose proof (BH.elems_ok l OB) as EO. fold (bodies_elems l) in EO. destruct (bodies_at _ bs FB EO) as (bl & e1 & L1 & LN & D1 & W1). pose proof (doc_html l) as DH. fold (bodies_elems l) in DH. destruct ys as [|y ys].
  - inversion FS; subst. exists (DBlocks bl), e1. split; [|split; [exact D1|split; [|exact I]]].
    + destruct C as [-> | [_ ->]]; cbn [ManualModel.content_at]; now rewrite L1.
    + cbn [SS.sections_html]. rewrite app_nil_r, <- DH. destruct has; exact W1.
  - destruct C as [-> | [C _]]; [|discriminate C]. destruct secs as [|sec secs]; [inversion FS|].
    assert (FI : Forall (fun s => forall k y, sect_for 1 y s -> MS.section_ok 1 s = true -> k + MS.count s <= length ids -> one_section 1 k y s) (sec :: secs)) by (apply Forall_forall; intros; now apply section_written).
    destruct (sections_of 1 _ FI (y :: ys) 0 FS OK ltac:(lia)) as (zs & e2 & _ & S2 & D2 & W2). cbn [ManualModel.content_at]. rewrite L1, S2. destruct bl as [|x bl].
    + rewrite (LN eq_refl) in DH. cbn [map concat] in DH. rewrite <- DH. exists (DSections None zs), ([] ++ e2 ++ []). split; [reflexivity|]. split; [apply AH.does_cons; [apply AH.does_skip|apply AH.does_cons; [exact D2|apply AH.does_end]]|]. split; [|exact I]. cbn [app]. rewrite app_nil_r. destruct has; exact W2.
    + exists (DSections (Some (x :: bl)) zs), (([Enter "preamble" [flag has]] ++ e1 ++ [] ++ [Exit "preamble" [flag has]] ++ []) ++ e2 ++ []). split; [reflexivity|]. split; [|split; [|exact I]].
      * apply AH.does_cons; [|apply AH.does_cons; [exact D2|apply AH.does_end]]. apply AH.does_cons; [apply AH.does_emit|]. apply AH.does_cons; [exact D1|]. apply AH.does_cons; [apply AH.does_skip|]. apply AH.does_cons; [apply AH.does_emit|apply AH.does_end].
      * rewrite (app_nil_r e2). apply writes_app; [|exact W2]. cbn [app].
        assert (NE : exists c r, SS.bodies_html l = c :: r). { rewrite <- DH. destruct (bodies_elems l) as [|e els]; [inversion FB; subst; specialize (L1 0); discriminate L1|]. cbn [map concat forallb] in *. apply andb_true_iff in EO as [OE _]. destruct (elem_shows e OE) as (c & r & ->). now exists c, (r ++ concat (map elem_html els)). }
        rewrite DH in W1. destruct has; cbn [preamble flag Nat.b2n].
        -- destruct NE as (ch & r & E). rewrite E in *. apply (writes_app [_]); [apply writes_lit; reflexivity|]. apply writes_app; [exact W1|]. apply writes_lit; reflexivity.
        -- rewrite <- (app_nil_l (SS.bodies_html l)). rewrite <- (app_nil_r (SS.bodies_html l)). apply (writes_app [_]); [intros J h; exists []; split; reflexivity|]. apply writes_app; [exact W1|]. intros J h; exists []; split; reflexivity.
Qed.
Lemma opens1 : calls5 D debug AH.opening1 fresh5 = Ret (within [] []).
Proof. destruct debug; vm_compute; reflexivity. Qed.
Lemma opens2 : calls5 D debug AH.opening2 (within [] []) = Ret (within [] []).
Proof. vm_compute. reflexivity. Qed.
Lemma title_hidden o t : title_for o t -> calls5 D debug (AH.title_events o) (within [] []) = Ret (within [] []).
Proof.
  destruct o as [ns|]; [|reflexivity]. destruct t as [h|]; [|intros []]. intros (G & _ & _). cbn [AH.title_events]. rewrite calls_app. replace (calls5 D debug [Enter "document_title" []] (within [] [])) with (Ret (within [] [])) by (destruct debug; vm_compute; reflexivity).
  rewrite calls_app. destruct (nodes_writes ns G [] []) as (ps & _ & ->). reflexivity.
Qed.
Lemma closes h : calls5 D debug AH.ending (within [] h) = Ret (within [] h).
Proof. reflexivity. Qed.
Lemma document_written P o t x dc evs res : dbg (p_env P) = debug -> title_for o t -> does (match x with Some l => EvalModel.seq [enter "document_title" []; EvalModel.inlines [] wants 1 l; exit "document_title" []] | None => skip end) (AH.title_events o) ->
  does (AH.inner wants None (flag (some x)) dc) evs -> writes evs res -> match dc with DParts _ _ _ _ => False | _ => True end -> html5s_of P wants (map (fun x => Some (string_of_list_ascii x)) ids) x dc = Some res.
Proof.
  intros DB TF DT DC W NP. unfold html5s_of. rewrite (AH.document_events wants o x dc evs DT DC NP). cbn [out]. unfold output5. rewrite DB, calls_app, opens1, calls_app, (title_hidden o t TF), calls_app, opens2, calls_app. destruct (W [] []) as (ps & B & C). rewrite C, closes. cbn [app]. change (html (within [] ps)) with ps. now rewrite B.
Qed.
End Html.
