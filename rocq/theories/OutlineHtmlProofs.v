(** The HTML for a text with lists (C71). *)
From Verif Require Import Base LexerModel LineModel InlineModel BlockModel WholeModel WholeSpec WholeInlineProofs WholeBlockProofs WholeHtmlProofs.
From Verif Require Import OutlineModel OutlineSpec OutlineBlockProofs OutlineListProofs OutlineDocProofs.
From Verif Require Import EvalModel HtmlModel.
From Verif Require ArticleModel ArticleHtmlProofs.
Import ListNotations.
Open Scope list_scope.
Open Scope nat_scope.
Module AH := ArticleHtmlProofs.
Notation does := AH.does.

Section Html.
Variables (wants : list event -> bool) (debug : bool) (ids : list bytes).
Notation D := (ArticleModel.article_details (map (fun x => Some (string_of_list_ascii x)) ids)).
(** the backend in the lists [I], which are interactive or not *)
Definition within (I : list bool) (h : pieces) : hst := set_interactive I (at_ h).
Definition writes (l : list event) (x : bytes) : Prop := forall I h, exists ps, bytes_of ps = x /\ calls D debug l (within I h) = Ret (within I (h ++ ps)).
Lemma writes_app l m x y : writes l x -> writes m y -> writes (l ++ m) (x ++ y).
Proof. intros L M I h. destruct (L I h) as (p & E1 & C1). destruct (M I (h ++ p)) as (q & E2 & C2). exists (p ++ q). rewrite bytes_of_app, E1, E2, AH.calls_app, C1, C2, app_assoc. now split. Qed.
Lemma writes_nil : writes [] []. Proof. intros I h. exists []. split; [reflexivity|]. now rewrite app_nil_r. Qed.
Lemma writes_text x : writes [text_event x] x.
Proof. intros I h. exists [Raw (string_of_list_ascii x)]. split; [|reflexivity]. cbn. rewrite app_nil_r. apply raw_bytes. Qed.
Lemma writes_pieces l ps : (forall I h, calls D debug l (within I h) = Ret (within I (h ++ ps))) -> writes l (bytes_of ps).
Proof. intros H I h. exists ps. split; [reflexivity|apply H]. Qed.
Lemma writes_lit e s : (forall I h, calls D debug [e] (within I h) = Ret (within I (h ++ [Lit s]))) -> writes [e] (b s).
Proof. intros H I h. exists [Lit s]. split; [cbn; apply app_nil_r|apply H]. Qed.
Lemma node_writes n : good n = true -> writes (ev n) (node_html ($" ") n).
Proof.
  intros G. destruct n as [x| | | | |c| | | |k a ns| | | | | | | | | | | | | | | | | | |]; try discriminate G.
  - apply writes_text.
  - apply writes_lit. reflexivity.
  - intros I h. exists [Lit (match c with SAmpersand => "&amp;" | SLessThan => "&lt;" | SGreaterThan => "&gt;" end)]. destruct c; split; reflexivity.
  - destruct a as [a|]; [now destruct k|]. destruct ns as [|n [|m ns]]; [now destruct k| |destruct k; destruct n; discriminate G]. destruct n; try (now destruct k).
    assert (W : writes ([Enter (span_name (kind_for k)) [0]] ++ [text_event x] ++ [Exit (span_name (kind_for k)) [0]]) (b ("<" ++ span_tag (kind_for k) ++ ">")%string ++ x ++ b ("</" ++ span_tag (kind_for k) ++ ">")%string)).
    { apply writes_app; [apply writes_lit; destruct k; try discriminate G; reflexivity|]. apply writes_app; [apply writes_text|]. apply writes_lit; destruct k; try discriminate G; reflexivity. }
    cbn [ev node_html map concat]. rewrite app_nil_r. destruct k; try discriminate G; cbn in W |- *; rewrite <- ?app_assoc; exact W.
Qed.
Lemma nodes_writes ns : forallb good ns = true -> writes (flat_map ev ns) (nodes_html ($" ") ns).
Proof. induction ns as [|n ns IH]; intros G; [apply writes_nil|]. cbn [forallb] in G. apply andb_true_iff in G as [G1 G]. cbn [flat_map]. change (nodes_html ($" ") (n :: ns)) with (node_html ($" ") n ++ nodes_html ($" ") ns). apply writes_app; [now apply node_writes|now apply IH]. Qed.

(** ** Lists *)
Definition list_event (k : list_kind) : string := match k with Bulleted => "unordered_list" | Numbered => "ordered_list" end.
Definition variant (k : list_kind) : nat := match k with Bulleted => 1 | Numbered => 0 end.
Definition around (k : list_kind) (n : nat) (evs : list event) : list event := [Enter (list_event k) [0; n]] ++ evs ++ [Exit (list_event k) [0; n]] ++ [].
(** the elements that open a list *)
Definition outer_open (k : list_kind) (n : nat) : pieces :=
  match k with
  | Bulleted => [Lit "<div"; Lit " class="""; RawVal ""; RawVal "ulist"; Lit """"; Lit ">"]
  | Numbered => [Lit "<div"; Lit " class="""; RawVal ""; RawVal "olist"; Lit " "; RawVal ""; RawVal (class_from_depth n); Lit """"; Lit ">"]
  end.
Definition inner_open (k : list_kind) (n : nat) : pieces :=
  match k with
  | Bulleted => [Lit "<ul"; Lit ">"]
  | Numbered => [Lit "<ol class="""; RawVal (class_from_depth n); Lit """"] ++ if_pieces (negb (type_from_depth n =? "1")%string) [Lit " type="""; RawVal (type_from_depth n); Lit """"] ++ [] ++ [] ++ [Lit ">"]
  end.
Lemma list_opens k n I h : n <= 255 -> calls D debug [Enter (list_event k) [0; n]] (within I h) = Ret (within (false :: I) (h ++ outer_open k n ++ inner_open k n)).
Proof.
  intros N. rewrite app_assoc. destruct k; [reflexivity|]. change (calls D debug [Enter (list_event Numbered) [0; n]] (within I h)) with (match enter_ordered_list D debug 0 n (within I h) with Ret s => Ret s | Panic => Panic end).
  unfold enter_ordered_list, look. change (desc_depth (within I h)) with 0. replace (debug && (n <? 0)) with false by (symmetry; apply andb_false_iff; right; now apply Nat.ltb_ge, Nat.le_0_l).
  replace ((n + 256 - 0) mod 256) with n. 2:{ rewrite Nat.sub_0_r. replace (n + 256) with (n + 1 * 256) by lia. rewrite Nat.mod_add by lia. symmetry. apply Nat.mod_small. lia. }
  destruct n as [|[|[|[|[|n]]]]]; reflexivity.
Qed.
Lemma list_closes k n I h : calls D debug ([Exit (list_event k) [0; n]] ++ []) (within (false :: I) h) = Ret (within I (h ++ [match k with Bulleted => Lit "</ul></div>" | Numbered => Lit "</ol></div>" end])).
Proof. destruct k; reflexivity. Qed.
Lemma list_writes k n evs x : n <= 255 -> 1 <= n -> writes evs x -> writes (around k n evs) (list_html k n x).
Proof.
  intros N N1 W I h. destruct (W (false :: I) (h ++ outer_open k n ++ inner_open k n)) as (p & E & C). exists ((outer_open k n ++ inner_open k n) ++ p ++ [match k with Bulleted => Lit "</ul></div>" | Numbered => Lit "</ol></div>" end]). split.
  - rewrite (bytes_of_app (_ ++ _)), (bytes_of_app p), E. destruct k; [reflexivity|]. destruct n as [|[|[|[|[|n]]]]]; [lia|reflexivity..].
  - unfold around. rewrite AH.calls_app, list_opens by exact N. rewrite AH.calls_app, C, list_closes, <- !app_assoc. reflexivity.
Qed.
Definition item_events (v : nat) (ns : list inode) (evs : list event) : list event :=
  [Enter "list_item_principal" [0; v]] ++ flat_map ev ns ++ [Exit "list_item_principal" [0; v]] ++ [Enter "list_item_blocks" [0; v]] ++ evs ++ [Exit "list_item_blocks" [0; v]] ++ [].
Lemma item_writes k ns evs x : forallb good ns = true -> writes evs x -> writes (item_events (variant k) ns evs) ($"<li><p>" ++ nodes_html ($" ") ns ++ $"</p>" ++ x ++ $"</li>").
Proof.
  intros G W. unfold item_events. apply writes_app; [apply (writes_lit _ "<li><p>"); destruct k; reflexivity|]. apply writes_app; [now apply nodes_writes|]. apply writes_app; [apply (writes_lit _ "</p>"); destruct k; reflexivity|].
  rewrite <- (app_nil_l (x ++ _)). apply writes_app; [intros I h; exists []; split; [reflexivity|]; rewrite app_nil_r; reflexivity|]. apply writes_app; [exact W|]. rewrite app_nil_r. apply (writes_lit _ "</li>"); destruct k; reflexivity.
Qed.
Lemma variant_mk k n : variant_of (mk k n) = Some (variant k, match k with Bulleted => XUnorderedList | Numbered => XOrderedList end).
Proof. now destruct k. Qed.
Section Entries.
Fixpoint entry_rect' (Q : entry -> Prop) (H : forall bl f more k subs, Forall Q subs -> Q (Entry bl f more k subs)) (e : entry) : Q e :=
  match e with Entry bl f more k subs => H bl f more k subs ((fix go l : Forall Q l := match l with [] => Forall_nil _ | x :: r => Forall_cons _ (entry_rect' Q H x) (go r) end) subs) end.
End Entries.
Notation does_item v := (eval_item [] wants 1 (eval_block [] wants 1) None v).
Definition done (n : nat) (e : entry) : Prop := forall k x, item_for k n e x -> exists i evs, item_in n x = Some i /\ does (does_item (variant k) i) evs /\ writes evs (entry_html n e).
Lemma items_done n k es : Forall (done n) es -> forall xs, pairwise (item_for k n) es xs -> exists l evs, all_some (map (item_in n) xs) = Some l /\ does (each (does_item (variant k)) l) evs /\ writes evs (concat (map (entry_html n) es)).
Proof.
  induction 1 as [|e es E _ IH]; intros xs F; (destruct xs as [|x xs]; cbn in F; try easy); [exists [], []; split; [reflexivity|]; split; [apply AH.does_skip|apply writes_nil]|]. destruct F as [F1 F]. destruct (E k x F1) as (i & e1 & I & D1 & W1). destruct (IH xs F) as (l & e2 & L & D2 & W2).
  exists (i :: l), (e1 ++ e2). split; [|split; [now apply AH.does_then|now apply writes_app]]. cbn [map all_some fold_right]. rewrite I. unfold all_some in L. rewrite L. reflexivity.
Qed.
Lemma list_done n k m es xs : S n <= 255 -> plainly m -> Forall (done (S n)) es -> pairwise (item_for k (S n)) es xs ->
  exists y evs, block_in n (BList m (mk k (S n)) xs) = Some y /\ does (eval_block [] wants 1 None y) evs /\ writes evs (list_html k (S n) (concat (map (entry_html (S n)) es))).
Proof.
  intros N PM E F. destruct (items_done (S n) k es E xs F) as (l & evs & L & DL & W).
  exists (Block 0 None None None (match k with Bulleted => XUnorderedList | Numbered => XOrderedList end) (ListContent (variant k) (S n) l)), ([] ++ around k (S n) evs ++ []). split; [|split].
  - assert (M : S n mod 256 = S n) by (apply Nat.mod_small; lia). destruct PM as [-> | ->]; cbn [block_in no_meta]; rewrite variant_mk, L, M; reflexivity.
  - destruct k; cbn [eval_block]; (apply AH.does_cons; [apply AH.does_skip|]; apply AH.does_cons; [|apply AH.does_end]); unfold around; (apply AH.does_cons; [apply AH.does_emit|]; apply AH.does_cons; [exact DL|]; apply AH.does_cons; [apply AH.does_emit|apply AH.does_end]).
  - cbn [app]. rewrite app_nil_r. apply list_writes; [exact N|lia|exact W].
Qed.
Lemma entry_done : forall e n, entry_ok n e = true -> done n e.
Proof.
  induction e as [bl f more k' subs IH] using entry_rect'. intros n OK k x X. cbn [entry_ok] in OK. apply andb_true_iff in OK as [_ OS]. cbn [item_for] in X. destruct X as (ns & bs & -> & G & HT & B). destruct (nodes_events wants ns G) as (hl & HL & E1).
  assert (BL : exists bl evs, all_some (map (block_in n) bs) = Some bl /\ does (each (eval_block [] wants 1 None) bl) evs /\ writes evs (match subs with [] => [] | _ => list_html k' (S n) (concat (map (entry_html (S n)) subs)) end)).
  { destruct subs as [|e subs]; [subst bs; exists [], []; split; [reflexivity|]; split; [apply AH.does_skip|apply writes_nil]|]. destruct B as (m & xs & -> & PM & PW).
    assert (FD : Forall (done (S n)) (e :: subs)) by (apply Forall_forall; intros z I; rewrite Forall_forall in IH; rewrite forallb_forall in OS; now apply IH, OS).
    assert (N : S n <= 255) by (cbn [forallb] in OS; apply andb_true_iff in OS as [OE _]; destruct e; cbn [entry_ok] in OE; repeat (apply andb_true_iff in OE as [OE _]); now apply Nat.leb_le).
    destruct (list_done n k' m (e :: subs) xs N PM FD PW) as (y & evs & Y & DY & WY). exists [y], (evs ++ []). split; [cbn [map all_some fold_right]; rewrite Y; reflexivity|]. split; [apply AH.does_then; [exact DY|apply AH.does_skip]|]. rewrite app_nil_r. exact WY. }
  destruct BL as (yl & evs & YL & DY & WY). exists (EvalModel.Item 0 hl MOther yl), (item_events (variant k) ns evs). split; [cbn [item_in]; rewrite HL, YL; reflexivity|]. split.
  - unfold eval_item, item_events. cbn [i_d i_principle i_blocks]. apply AH.does_cons; [apply AH.does_emit|]. apply AH.does_cons; [exact E1|]. apply AH.does_cons; [apply AH.does_emit|]. apply AH.does_cons; [apply AH.does_emit|]. apply AH.does_cons; [exact DY|]. apply AH.does_cons; [apply AH.does_emit|apply AH.does_end].
  - cbn [entry_html]. rewrite <- (HT ($" ")). now apply item_writes.
Qed.

(** ** Documents *)
Definition elem_html (e : elem) : bytes := match e with EPar par => paragraph_html par | EList k es => list_html k 1 (concat (map (entry_html 1) es)) end.
Definition elem_ok (e : elem) : bool := match e with EPar _ => true | EList _ es => forallb (entry_ok 1) es end.
Lemma par_done b0 par : block_for b0 par -> exists y evs, block_in 0 b0 = Some y /\ does (eval_block [] wants 1 None y) evs /\ writes evs (paragraph_html par).
Proof.
  intros (ns & -> & G & H). destruct (nodes_events wants ns G) as (l & L & E). exists (Block 0 None None None XParagraph (Simple l)), (block_ev ns). split; [|split].
  - cbn [block_in]. unfold block_of, no_meta. rewrite L. reflexivity.
  - intros s. cbn [eval_block EvalModel.seq]. unfold then_, enter, exit, emit, skip. cbn [out resolving]. unfold EvalModel.inlines. rewrite E. cbn [out resolving]. unfold block_ev. rewrite <- !app_assoc. reflexivity.
  - unfold paragraph_html. rewrite <- (H ($" ")). unfold block_ev. change ($"<div class=""paragraph""><p>") with (bytes_of opened). apply writes_app.
    + apply writes_pieces. intros I h. transitivity (Ret (within I ((h ++ [Lit "<div"; Lit " class="""; RawVal ""; RawVal "paragraph"; Lit """"; Lit ">"]) ++ [Lit "<p>"]))); [reflexivity|]. now rewrite <- app_assoc.
    + apply writes_app; [now apply nodes_writes|]. apply (writes_pieces _ [Lit "</p>"; Lit "</div>"]). reflexivity.
Qed.
Lemma elem_done b0 e : elem_for b0 e -> elem_ok e = true -> exists y evs, block_in 0 b0 = Some y /\ does (eval_block [] wants 1 None y) evs /\ writes evs (elem_html e).
Proof.
  destruct e as [par|k es]; cbn [elem_for elem_ok elem_html]; intros H OK; [now apply par_done|]. destruct H as (xs & -> & F). apply (list_done 0 k (Some no_meta) es xs); [lia|now right| |now apply pairwise_all].
  apply Forall_forall. intros z I. rewrite forallb_forall in OK. now apply entry_done, OK.
Qed.
Lemma elems_done bs els : Forall2 elem_for bs els -> forallb elem_ok els = true -> exists l evs, all_some (map (block_in 0) bs) = Some l /\ does (each (eval_block [] wants 1 None) l) evs /\ writes evs (concat (map elem_html els)).
Proof.
  induction 1 as [|b0 e bs els B _ IH]; intros OK; [exists [], []; split; [reflexivity|]; split; [apply AH.does_skip|apply writes_nil]|]. cbn [forallb] in OK. apply andb_true_iff in OK as [OE OK]. destruct (elem_done b0 e B OE) as (y & e1 & Y & D1 & W1). destruct (IH OK) as (l & e2 & L & D2 & W2).
  exists (y :: l), (e1 ++ e2). split; [|split; [now apply AH.does_then|now apply writes_app]]. cbn [map all_some fold_right]. rewrite Y. unfold all_some in L. rewrite L. reflexivity.
Qed.
Lemma outline_written P bs els : dbg (p_env P) = debug -> Forall2 elem_for bs els -> forallb elem_ok els = true -> exists l, all_some (map (block_in 0) bs) = Some l /\ ArticleModel.html_of P wants (map (fun x => Some (string_of_list_ascii x)) ids) None (DBlocks l) = Some (concat (map elem_html els)).
Proof.
  intros DB F OK. destruct (elems_done bs els F OK) as (l & evs & L & E & W). exists l. split; [exact L|]. apply (AH.document_written wants debug ids P None None None (DBlocks l) evs _ DB I eq_refl AH.does_skip E); [|exact I]. intros h. exact (W [] h).
Qed.
Lemma doc_html ps : concat (map elem_html (elems ps)) = OutlineSpec.html ps.
Proof.
  unfold elems, OutlineSpec.html. induction ps as [|p ps IH]; [reflexivity|]. cbn [flat_map map concat]. rewrite map_app, concat_app, IH. f_equal. destruct p as [ls|k es]; cbn [part_elems part_html]; [unfold WholeSpec.html; now rewrite map_map|]. cbn. apply app_nil_r.
Qed.
Lemma elems_ok ps : forallb part_ok ps = true -> forallb elem_ok (elems ps) = true.
Proof.
  unfold elems. induction ps as [|p ps IH]; [reflexivity|]. cbn [forallb flat_map]. intros H. apply andb_true_iff in H as [OP H]. rewrite forallb_app, IH by exact H. rewrite andb_true_r. destruct p as [ls|k es]; cbn [part_elems part_ok] in *; [now induction (paragraphs ls)|]. cbn. rewrite andb_true_r. now destruct es.
Qed.
End Html.
