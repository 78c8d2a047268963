(** The HTML for a text with delimited blocks (C72, C73). *)
From Verif Require Import Base LexerModel LineModel InlineModel BlockModel WholeModel WholeSpec WholeInlineProofs WholeBlockProofs WholeHtmlProofs.
From Verif Require Import OutlineModel OutlineSpec BoxSpec OutlineBlockProofs OutlineListProofs ListingInlineProofs ListingBlockProofs BoxDocProofs.
From Verif Require Import EvalModel HtmlModel.
From Verif Require ArticleModel ArticleHtmlProofs OutlineHtmlProofs.
Import ListNotations.
Open Scope list_scope.
Open Scope nat_scope.
Module AH := ArticleHtmlProofs.
Module OH := OutlineHtmlProofs.
Notation does := AH.does.

Section Html.
Variables (wants : list event -> bool) (debug : bool) (ids : list bytes).
Notation D := (ArticleModel.article_details (map (fun x => Some (string_of_list_ascii x)) ids)).
Notation writes := (OH.writes debug ids).
Definition box_event (b : box) : string := match b with ExampleBox _ => "example_block" | SidebarBox => "sidebar_block" | QuoteBox => "quote_block" | OpenBox => "open_block" | ListingBox => "listing_block" | LiteralBox => "literal_block" end.
Definition box_args (b : box) : list nat := match b with QuoteBox => [0; 0] | _ => [0] end.
Definition box_events (b : box) (evs : list event) : list event :=
  [Enter (box_event b) (box_args b)] ++ [Enter "compound_block_content" [0]] ++ evs ++ [Exit "compound_block_content" [0]] ++ [Exit (box_event b) (box_args b)] ++ [].
Definition box_open (b : box) : pieces :=
  match b with
  | ExampleBox _ => [Lit "<div"; Lit " class="""; RawVal ""; RawVal "exampleblock"; Lit """"; Lit ">"; Lit "<div class=""content"">"]
  | SidebarBox => [Lit "<div"; Lit " class="""; RawVal ""; RawVal "sidebarblock"; Lit """"; Lit ">"; Lit "<div class=""content"">"]
  | QuoteBox => [Lit "<div"; Lit " class="""; RawVal ""; RawVal "quoteblock"; Lit """"; Lit ">"; Lit "<blockquote>"]
  | OpenBox => [Lit "<div"; Lit " class="""; RawVal ""; RawVal "openblock"; Lit """"; Lit ">"; Lit "<div class=""content"">"]
  | ListingBox => [Lit "<div"; Lit " class="""; RawVal ""; RawVal "listingblock"; Lit """"; Lit ">"; Lit "<div class=""content""><pre"; Lit ">"]
  | LiteralBox => [Lit "<div"; Lit " class="""; RawVal ""; RawVal "literalblock"; Lit """"; Lit ">"; Lit "<div class=""content""><pre>"]
  end.
Definition box_close (b : box) : pieces := match b with QuoteBox => [Lit "</blockquote>"; Lit "</div>"] | ListingBox | LiteralBox => [Lit "</pre></div></div>"] | _ => [Lit "</div></div>"] end.
Lemma box_opens b I h : as_is b = false -> calls D debug [Enter (box_event b) (box_args b)] (OH.within I h) = Ret (OH.within I (h ++ box_open b)).
Proof. intros A. destruct b; try discriminate A; cbn [box_open]; try reflexivity; match goal with |- context [h ++ [?a; ?b; ?c; ?d; ?e; ?f; ?g]] => replace (h ++ [a; b; c; d; e; f; g]) with ((h ++ [a; b; c; d; e; f]) ++ [g]) by now rewrite <- app_assoc end; reflexivity. Qed.
Lemma box_closes b I h : calls D debug ([Exit (box_event b) (box_args b)] ++ []) (OH.within I h) = Ret (OH.within I (h ++ box_close b)).
Proof. destruct b; reflexivity. Qed.
Lemma box_writes b evs x : as_is b = false -> writes evs x -> writes (box_events b evs) (box_html b x).
Proof.
  intros A W I h. destruct (W I (h ++ box_open b)) as (p & E & C). exists (box_open b ++ p ++ box_close b). split.
  - rewrite !bytes_of_app, E. destruct b; reflexivity.
  - unfold box_events. rewrite AH.calls_app, box_opens by exact A. rewrite AH.calls_app. change (calls D debug [Enter "compound_block_content" [0]] (OH.within I (h ++ box_open b))) with (Ret (OH.within I (h ++ box_open b))). cbn iota. rewrite AH.calls_app, C, AH.calls_app.
    change (calls D debug [Exit "compound_block_content" [0]] (OH.within I ((h ++ box_open b) ++ p))) with (Ret (OH.within I ((h ++ box_open b) ++ p))). cbn iota. rewrite box_closes, <- !app_assoc. reflexivity.
Qed.
(** ** Listings: line ends are written as they are *)
Definition shown_at (I : list bool) (h : pieces) : hst := set_nls (default_nl (OH.within I h)) Preserve (OH.within I h).
Lemma vnode_written n I h : vgood n = true -> exists ps, bytes_of ps = vnode_html n /\ calls D debug (ev n) (shown_at I h) = Ret (shown_at I (h ++ ps)).
Proof.
  intros G. destruct n; try discriminate G.
  - match goal with |- context [NText ?x] => exists [Raw (string_of_list_ascii x)] end. split; [|reflexivity]. cbn. rewrite app_nil_r. apply raw_bytes.
  - exists [Lit (String "010" "")]. split; reflexivity.
  - match goal with |- context [NSpecial ?c] => exists [Lit (match c with SAmpersand => "&amp;" | SLessThan => "&lt;" | SGreaterThan => "&gt;" end)]; destruct c; split; reflexivity end.
Qed.
Lemma vnodes_written ns I : forall h, forallb vgood ns = true -> exists ps, bytes_of ps = vnodes_html ns /\ calls D debug (flat_map ev ns) (shown_at I h) = Ret (shown_at I (h ++ ps)).
Proof.
  induction ns as [|n ns IH]; intros h G; [exists []; split; [reflexivity|now rewrite app_nil_r]|]. cbn [forallb] in G. apply andb_true_iff in G as [G1 G]. destruct (vnode_written n I h G1) as (p & B1 & C1). destruct (IH (h ++ p) G) as (q & B2 & C2).
  exists (p ++ q). split; [rewrite bytes_of_app, B1, B2; reflexivity|]. cbn [flat_map]. rewrite AH.calls_app, C1, C2. now rewrite app_assoc.
Qed.
Definition shown_events (b : box) (ns : list inode) : list event :=
  [Enter (box_event b) [0]] ++ [Enter "simple_block_content" [0]] ++ flat_map ev ns ++ [Exit "simple_block_content" [0]] ++ [Exit (box_event b) [0]] ++ [].
Lemma shown_opens b I h : as_is b = true -> calls D debug [Enter (box_event b) [0]] (OH.within I h) = Ret (shown_at I (h ++ box_open b)).
Proof.
  intros A. destruct b; try discriminate A; cbn [box_open].
  - match goal with |- context [h ++ [?a; ?b; ?c; ?d; ?e; ?f; ?g; ?i]] => replace (h ++ [a; b; c; d; e; f; g; i]) with (((h ++ [a; b; c; d; e; f]) ++ [g]) ++ [i]) by now rewrite <- !app_assoc end; reflexivity.
  - match goal with |- context [h ++ [?a; ?b; ?c; ?d; ?e; ?f; ?g]] => replace (h ++ [a; b; c; d; e; f; g]) with ((h ++ [a; b; c; d; e; f]) ++ [g]) by now rewrite <- app_assoc end; reflexivity.
Qed.
Lemma shown_closes b I h : as_is b = true -> calls D debug ([Exit "simple_block_content" [0]] ++ [Exit (box_event b) [0]] ++ []) (shown_at I h) = Ret (OH.within I (h ++ box_close b)).
Proof. intros A. destruct b; try discriminate A; reflexivity. Qed.
Lemma shown_writes b ns : as_is b = true -> forallb vgood ns = true -> writes (shown_events b ns) (box_html b (vnodes_html ns)).
Proof.
  intros A G I h. destruct (vnodes_written ns I (h ++ box_open b) G) as (p & E & C). exists (box_open b ++ p ++ box_close b). split.
  - rewrite !bytes_of_app, E. destruct b; try discriminate A; reflexivity.
  - unfold shown_events. rewrite AH.calls_app, shown_opens by exact A. rewrite AH.calls_app. change (calls D debug [Enter "simple_block_content" [0]] (shown_at I (h ++ box_open b))) with (Ret (shown_at I (h ++ box_open b))). cbn iota. rewrite AH.calls_app, C. rewrite shown_closes by exact A. now rewrite <- !app_assoc.
Qed.
Fixpoint elem_html (e : elem) : bytes := match e with EPar par => paragraph_html par | EList k es => list_html k 1 (concat (map (entry_html 1) es)) | EBox b els => box_html b (concat (map elem_html els)) | EShown b ls => box_html b (shown_html ls) end.
Fixpoint elem_ok (e : elem) : bool := match e with EPar _ => true | EList _ es => forallb (entry_ok 1) es | EBox b els => negb (as_is b) && forallb elem_ok els | EShown b ls => as_is b && forallb line_ok ls end.
Fixpoint elem_induction (Q : elem -> Prop) (par : forall p, Q (EPar p)) (lst : forall k es, Q (EList k es)) (inbox : forall b l, Forall Q l -> Q (EBox b l)) (shown : forall b ls, Q (EShown b ls)) (x : elem) {struct x} : Q x :=
  match x with
  | EPar p => par p
  | EList k es => lst k es
  | EShown b ls => shown b ls
  | EBox b l => inbox b l ((fix go (l : list elem) : Forall Q l := match l with [] => Forall_nil Q | y :: r => Forall_cons y (elem_induction Q par lst inbox shown y) (go r) end) l)
  end.
Definition done (e : elem) : Prop := forall x, elem_for e x -> elem_ok e = true -> exists y evs, block_in 0 x = Some y /\ does (eval_block [] wants 1 None y) evs /\ writes evs (elem_html e).
Lemma elems_done els : Forall done els -> forall bs, pairwise elem_for els bs -> forallb elem_ok els = true -> exists l evs, all_some (map (block_in 0) bs) = Some l /\ does (each (eval_block [] wants 1 None) l) evs /\ writes evs (concat (map elem_html els)).
Proof.
  induction 1 as [|e els E _ IH]; intros bs F OK; (destruct bs as [|x bs]; cbn [pairwise] in F; try easy); [exists [], []; split; [reflexivity|]; split; [apply AH.does_skip|apply OH.writes_nil]|]. destruct F as [F1 F]. cbn [forallb] in OK. apply andb_true_iff in OK as [OE OK]. destruct (E x F1 OE) as (y & e1 & Y & D1 & W1). destruct (IH bs F OK) as (l & e2 & L & D2 & W2).
  exists (y :: l), (e1 ++ e2). split; [|split; [now apply AH.does_then|now apply OH.writes_app]]. cbn [map all_some fold_right]. rewrite Y. unfold all_some in L. rewrite L. reflexivity.
Qed.
Lemma elem_done : forall e, done e.
Proof.
  apply elem_induction.
  - intros par x H _. now apply OH.par_done.
  - intros k es x H OK. cbn [elem_for elem_ok elem_html] in *. destruct H as (xs & -> & F). apply (OH.list_done wants debug ids 0 k (Some no_meta) es xs); [lia|now right| |now apply pairwise_all]. apply Forall_forall. intros z I. rewrite forallb_forall in OK. now apply OH.entry_done, OK.
  - intros b els F x H OK. cbn [elem_for elem_ok elem_html] in *. apply andb_true_iff in OK as [AI OK]. apply negb_true_iff in AI. destruct H as (t & bs & -> & PW). destruct (elems_done els F bs PW OK) as (l & evs & L & DL & W).
    exists (Block 0 None None None (match b with ExampleBox _ => XExample | SidebarBox => XSidebar | QuoteBox => XBlockQuote | _ => XOpen end) (Compound l)), ([] ++ box_events b evs ++ []). split; [|split].
    + destruct b; try discriminate AI; cbn [box_context block_in no_meta compound_context]; rewrite L; reflexivity.
    + destruct b; try discriminate AI; cbn [eval_block]; (apply AH.does_cons; [apply AH.does_skip|]; apply AH.does_cons; [|apply AH.does_end]); unfold box_events; (apply AH.does_cons; [apply AH.does_emit|]; apply AH.does_cons; [apply AH.does_emit|]; apply AH.does_cons; [exact DL|]; apply AH.does_cons; [apply AH.does_emit|]).
      3: { apply (AH.does_cons _ _ [] ([Exit (box_event QuoteBox) (box_args QuoteBox)] ++ [])); [apply AH.does_skip|]; apply AH.does_cons; [apply AH.does_emit|apply AH.does_end]. }
      all: (apply AH.does_cons; [apply AH.does_emit|apply AH.does_end]).
    + cbn [app]. rewrite app_nil_r. now apply box_writes.
  - intros b ls x H OK. cbn [elem_for elem_ok elem_html] in *. apply andb_true_iff in OK as [AI OK]. destruct H as (t & ns & -> & G & V). destruct (nodes_events wants ns (vgood_good ns G)) as (l & L & EV).
    exists (Block 0 None None None (match b with ListingBox => XListing | _ => XLiteral end) (Simple l)), ([] ++ shown_events b ns ++ []). split; [|split].
    + destruct b; try discriminate AI; cbn [box_context block_in no_meta shown_context]; rewrite L; reflexivity.
    + destruct b; try discriminate AI; cbn [eval_block]; (apply AH.does_cons; [apply AH.does_skip|]; apply AH.does_cons; [|apply AH.does_end]); unfold shown_events;
        (apply AH.does_cons; [apply AH.does_emit|]; apply AH.does_cons; [apply AH.does_emit|]; apply AH.does_cons; [exact EV|]; apply AH.does_cons; [apply AH.does_emit|]; apply AH.does_cons; [apply AH.does_emit|apply AH.does_end]).
    + cbn [app]. rewrite app_nil_r. unfold shown_html. rewrite <- lines_escaped by now apply trimmed_items. rewrite <- V. now apply shown_writes.
Qed.
Lemma boxes_written P bs els : dbg (p_env P) = debug -> Forall2 elem_for els bs -> forallb elem_ok els = true -> exists l, all_some (map (block_in 0) bs) = Some l /\ ArticleModel.html_of P wants (map (fun x => Some (string_of_list_ascii x)) ids) None (DBlocks l) = Some (concat (map elem_html els)).
Proof.
  intros DB F OK. destruct (elems_done els (proj2 (Forall_forall _ _) (fun e _ => elem_done e)) bs (pairwise_all _ _ _ F) OK) as (l & evs & L & E & W). exists l. split; [exact L|]. apply (AH.document_written wants debug ids P None None None (DBlocks l) evs _ DB I eq_refl AH.does_skip E); [|exact I]. intros h. exact (W [] h).
Qed.
Lemma flat_html l : Forall (fun x => concat (map elem_html (body_elems x)) = body_html x) l -> concat (map elem_html (flat_map body_elems l)) = concat (map body_html l).
Proof. induction 1 as [|x l E _ IH]; [reflexivity|]. cbn [flat_map map concat]. rewrite map_app, concat_app, E, IH. reflexivity. Qed.
Lemma bodies_html : forall x, concat (map elem_html (body_elems x)) = body_html x.
Proof.
  apply body_induction.
  - intros [ls|k es]; cbn [body_elems part_elems body_html part_html]; [unfold WholeSpec.html; now rewrite map_map|]. cbn. apply app_nil_r.
  - intros b l F. cbn [body_elems body_html map concat elem_html]. rewrite app_nil_r, (flat_html l F). reflexivity.
  - intros b ls. cbn [body_elems body_html map concat elem_html]. apply app_nil_r.
Qed.
Lemma doc_html l : concat (map elem_html (flat_map body_elems l)) = BoxSpec.html l.
Proof. apply flat_html. induction l; constructor; [apply bodies_html|assumption]. Qed.
Lemma flat_ok o l : Forall (fun x => forall o, body_ok o x = true -> forallb elem_ok (body_elems x) = true) l -> forallb (body_ok o) l = true -> forallb elem_ok (flat_map body_elems l) = true.
Proof. induction 1 as [|x l E _ IH]; [reflexivity|]. cbn [forallb flat_map]. intros H. apply andb_true_iff in H as [H1 H2]. now rewrite forallb_app, (E o H1), (IH H2). Qed.
Lemma bodies_elem_ok : forall x o, body_ok o x = true -> forallb elem_ok (body_elems x) = true.
Proof.
  apply (body_induction (fun x => forall o, body_ok o x = true -> forallb elem_ok (body_elems x) = true)).
  - intros [ls|k es] o H; cbn [body_elems part_elems body_ok part_ok] in *; [now induction (paragraphs ls)|]. cbn. rewrite andb_true_r. now destruct es.
  - intros b l F o OK. cbn [body_ok] in OK. apply andb_true_iff in OK as [OK _]. apply andb_true_iff in OK as [OK OL]. apply andb_true_iff in OK as [OK _]. apply andb_true_iff in OK as [AI _]. cbn [body_elems forallb elem_ok]. rewrite andb_true_r, AI. now apply (flat_ok _ l F OL).
  - intros b ls o OK. cbn [body_ok] in OK. apply andb_true_iff in OK as [OK OL]. apply andb_true_iff in OK as [AI _]. cbn [body_elems forallb elem_ok]. now rewrite AI, OL.
Qed.
Lemma elems_ok l : bodies_ok l = true -> forallb elem_ok (flat_map body_elems l) = true.
Proof. intros H. unfold bodies_ok in H. apply andb_true_iff in H as [H _]. apply (flat_ok None); [|exact H]. clear. induction l; constructor; [apply bodies_elem_ok|assumption]. Qed.
End Html.
