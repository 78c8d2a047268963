(** The HTML for an article (C70). *)
From Verif Require Import Base LexerModel LineModel InlineModel BlockModel WholeModel WholeSpec WholeInlineProofs WholeBlockProofs WholeHtmlProofs.
From Verif Require Import ArticleModel ArticleBlockProofs ArticleDocProofs.
From Verif Require Import EvalModel HtmlModel.
From Verif Require ArticleSpec.
Import ListNotations.
Open Scope list_scope.
Open Scope nat_scope.

(** ** Calls one after the other *)
Definition does (f : action) (l : list event) : Prop := forall s, f s = EvalModel.Done (St (out s ++ l) (resolving s)).
Lemma does_emit e : does (emit e) [e]. Proof. intros s. reflexivity. Qed.
Lemma does_skip : does skip []. Proof. intros [o r]. cbn. now rewrite app_nil_r. Qed.
Lemma does_then f g a c : does f a -> does g c -> does (then_ f g) (a ++ c).
Proof. intros F G s. unfold then_. rewrite F, G. cbn [out resolving]. now rewrite app_assoc. Qed.
Lemma does_cons f l a c : does f a -> does (EvalModel.seq l) c -> does (EvalModel.seq (f :: l)) (a ++ c).
Proof. apply does_then. Qed.
Lemma does_end : does (EvalModel.seq []) []. Proof. apply does_skip. Qed.

Section Html.
Variables (wants : list event -> bool) (debug : bool) (ids : list bytes).
Notation D := (article_details (map (fun x => Some (string_of_list_ascii x)) ids)).
Definition writes (l : list event) (x : bytes) : Prop := forall h, exists ps, bytes_of ps = x /\ calls D debug l (at_ h) = Ret (at_ (h ++ ps)).
Lemma calls_app l1 : forall l2 s, calls D debug (l1 ++ l2) s = match calls D debug l1 s with Ret s => calls D debug l2 s | Panic => Panic end.
Proof. induction l1 as [|e l1 IH]; intros l2 s; [reflexivity|]. cbn [app calls]. unfold bind. destruct (call D debug e s); [apply IH|reflexivity]. Qed.
Lemma writes_app l m x y : writes l x -> writes m y -> writes (l ++ m) (x ++ y).
Proof. intros L M h. destruct (L h) as (p & E1 & C1). destruct (M (h ++ p)) as (q & E2 & C2). exists (p ++ q). rewrite bytes_of_app, E1, E2, calls_app, C1, C2, app_assoc. now split. Qed.
Lemma writes_nil : writes [] []. Proof. intros h. exists []. split; [reflexivity|]. now rewrite app_nil_r. Qed.
Lemma writes_text x : writes [text_event x] x.
Proof. intros h. exists [Raw (string_of_list_ascii x)]. split; [|reflexivity]. cbn. rewrite app_nil_r. apply raw_bytes. Qed.
Lemma writes_lit e s : (forall h, calls D debug [e] (at_ h) = Ret (at_ (h ++ [Lit s]))) -> writes [e] (b s).
Proof. intros H h. exists [Lit s]. split; [cbn; apply app_nil_r|apply H]. Qed.
Lemma node_written n : good n = true -> writes (ev n) (node_html ($" ") n).
Proof.
  intros G. destruct n as [x| | | | |c| | | |k a ns| | | | | | | | | | | | | | | | | | |]; try discriminate G.
  - apply writes_text.
  - apply writes_lit. reflexivity.
  - intros h. destruct c; (eexists; split; [|reflexivity]); reflexivity.
  - destruct a as [a|]; [now destruct k|]. destruct ns as [|n [|m ns]]; [now destruct k| |destruct k; destruct n; discriminate G]. destruct n; try (now destruct k).
    assert (W : writes ([Enter (span_name (kind_for k)) [0]] ++ [text_event x] ++ [Exit (span_name (kind_for k)) [0]]) (b ("<" ++ span_tag (kind_for k) ++ ">")%string ++ x ++ b ("</" ++ span_tag (kind_for k) ++ ">")%string)).
    { apply writes_app; [apply writes_lit; destruct k; try discriminate G; reflexivity|]. apply writes_app; [apply writes_text|]. apply writes_lit; destruct k; try discriminate G; reflexivity. }
    cbn [ev node_html map concat]. rewrite app_nil_r. destruct k; try discriminate G; cbn in W |- *; rewrite <- ?app_assoc; exact W.
Qed.
Lemma nodes_written ns : forallb good ns = true -> writes (flat_map ev ns) (nodes_html ($" ") ns).
Proof. induction ns as [|n ns IH]; intros G; [apply writes_nil|]. cbn [forallb] in G. apply andb_true_iff in G as [G1 G]. cbn [flat_map]. change (nodes_html ($" ") (n :: ns)) with (node_html ($" ") n ++ nodes_html ($" ") ns). apply writes_app; [now apply node_written|now apply IH]. Qed.
Lemma writes_pieces l ps : (forall h, calls D debug l (at_ h) = Ret (at_ (h ++ ps))) -> writes l (bytes_of ps).
Proof. intros H h. exists ps. split; [reflexivity|apply H]. Qed.

(** ** Paragraphs *)
Lemma block_opened : writes [Enter "paragraph_block" [0]; Enter "simple_block_content" [0]] (bytes_of opened).
Proof.
  apply writes_pieces. intros h. transitivity (Ret (at_ ((h ++ [Lit "<div"; Lit " class="""; RawVal ""; RawVal "paragraph"; Lit """"; Lit ">"]) ++ [Lit "<p>"]))); [reflexivity|]. now rewrite <- app_assoc.
Qed.
Lemma block_closed : writes [Exit "simple_block_content" [0]; Exit "paragraph_block" [0]] $"</p></div>".
Proof. apply (writes_pieces _ [Lit "</p>"; Lit "</div>"]). reflexivity. Qed.
Lemma par_at b par : block_for b par -> exists x evs, (forall k, block_at b k = Some (x, k)) /\ does (eval_block [] wants 1 None x) evs /\ writes evs (paragraph_html par).
Proof.
  intros (ns & -> & G & H). destruct (nodes_events wants ns G) as (l & L & E). exists (Block 0 None None None XParagraph (Simple l)), (block_ev ns). split; [|split].
  - intros k. cbn [block_at]. unfold block_of, no_meta. rewrite L. reflexivity.
  - intros s. cbn [eval_block EvalModel.seq]. unfold then_, enter, exit, emit, skip. cbn [out resolving]. unfold EvalModel.inlines. rewrite E. cbn [out resolving]. unfold block_ev. rewrite <- !app_assoc. reflexivity.
  - unfold paragraph_html. rewrite <- (H ($" ")). unfold block_ev. change ($"<div class=""paragraph""><p>") with (bytes_of opened). apply writes_app; [apply block_opened|]. apply writes_app; [now apply nodes_written|apply block_closed].
Qed.
Lemma pars_at bs pars : Forall2 block_for bs pars -> exists l evs, (forall k, in_turn block_at bs k = Some (l, k)) /\ (l = [] -> bs = []) /\ does (each (eval_block [] wants 1 None) l) evs /\ writes evs (concat (map paragraph_html pars)).
Proof.
  induction 1 as [|b0 par bs pars B _ IH]; [exists [], []; split; [reflexivity|]; split; [auto|]; split; [apply does_skip|apply writes_nil]|]. destruct (par_at b0 par B) as (x & e1 & X & D1 & W1). destruct IH as (l & e2 & L & _ & D2 & W2). exists (x :: l), (e1 ++ e2).
  split; [intros k; cbn [in_turn]; fold (in_turn block_at); rewrite X, L; reflexivity|]. split; [discriminate|]. split; [now apply does_then|]. cbn [map concat]. now apply writes_app.
Qed.
Lemma in_turn_app {A B} (f : A -> nat -> option (B * nat)) l m : forall k l' k1 m' k2, in_turn f l k = Some (l', k1) -> in_turn f m k1 = Some (m', k2) -> in_turn f (l ++ m) k = Some (l' ++ m', k2).
Proof.
  induction l as [|x l IH]; intros k l' k1 m' k2 E1 E2; cbn [app].
  - injection E1 as <- <-. exact E2.
  - cbn [in_turn] in *. destruct (f x k) as [[y k3]|]; [|discriminate E1]. fold (in_turn f) in *. destruct (in_turn f l k3) as [[ys k4]|] eqn:E; [|discriminate E1]. injection E1 as <- <-. now rewrite (IH _ _ _ _ _ E E2).
Qed.
Lemma does_each_app {A} (f : A -> action) l m a c : does (each f l) a -> does (each f m) c -> does (each f (l ++ m)) (a ++ c).
Proof.
  intros F G s. assert (E : forall l s, each f (l ++ m) s = then_ (each f l) (each f m) s).
  { clear. induction l as [|x l IH]; intros s; [reflexivity|]. cbn [app each]. unfold then_ at 1 2 3. destruct (f x s); [apply IH|reflexivity..]. }
  rewrite E. unfold then_. rewrite F, G. cbn [out resolving]. now rewrite app_assoc.
Qed.

(** ** Sections *)
Lemma level_label n k : n <= 5 -> section_level D (label n k) = n.
Proof. intros H. change (section_level D (label n k)) with (level_of (label n k)). unfold level_of, label. rewrite (Nat.mul_comm 8), Nat.mod_add by lia. apply Nat.mod_small. lia. Qed.
Lemma id_label n k : n <= 5 -> k < length ids -> n_opt D (label n k) "id" = Some (string_of_list_ascii (nth k ids [])).
Proof.
  intros H L. change (n_opt D (label n k) "id") with (match nth_error (map (fun x => Some (string_of_list_ascii x)) ids) (index_of (label n k)) with Some o => o | None => None end).
  replace (index_of (label n k)) with k. 2:{ unfold index_of, label. rewrite (Nat.mul_comm 8), Nat.div_add by lia. rewrite Nat.div_small by lia. reflexivity. }
  pose proof (nth_error_nth' ids [] L) as Q. rewrite nth_error_map. unfold bytes in *. rewrite Q. reflexivity.
Qed.
Lemma section_opened d n : section_level D d = n -> n <= 5 -> writes [Enter "section" [d]] ($"<div class=""sect" ++ b (dec n) ++ $""">").
Proof.
  intros E N. assert (W : writes [Enter "section" [d]] (bytes_of [Lit "<div"; Lit " class="""; RawVal ""; RawVal ("sect" ++ dec n)%string; Lit """"; Lit ">"])).
  { apply writes_pieces. intros h. change (calls D debug [Enter "section" [d]] (at_ h)) with (match enter_section D d (at_ h) with Ret s => Ret s | Panic => Panic end). unfold enter_section. rewrite E.
    destruct n as [|[|[|[|[|[|n]]]]]]; try lia; reflexivity. }
  destruct n as [|[|[|[|[|[|n]]]]]]; try lia; exact W.
Qed.
Lemma heading_opened d n id : section_level D d = n -> n_opt D d "id" = Some (string_of_list_ascii id) -> writes [Enter "section_heading" [d]] ($"<h" ++ b (dec (S n)) ++ $" id=""" ++ id ++ $""">").
Proof.
  intros E I h. exists ([Lit "<h"; Num (n + 1); Lit " id="""; RawVal (string_of_list_ascii id); Lit """>"] ++ [Raw ""]). split.
  - rewrite bytes_of_app. cbn [bytes_of flat_map bytes_of_piece]. rewrite Nat.add_1_r, raw_bytes, !app_nil_r. reflexivity.
  - change (calls D debug [Enter "section_heading" [d]] (at_ h)) with (match enter_section_heading D d (at_ h) with Ret s => Ret s | Panic => Panic end). unfold enter_section_heading. rewrite I, E. rewrite app_assoc. reflexivity.
Qed.
Lemma heading_closed d n : section_level D d = n -> writes [Exit "section_heading" [d]] ($"</h" ++ b (dec (S n)) ++ $">" ++ if n =? 1 then $"<div class=""sectionbody"">" else []).
Proof.
  intros E h. exists ([Lit "</h"; Num (n + 1); Lit ">"] ++ if_pieces (n =? 1) [Lit "<div class=""sectionbody"">"]). split.
  - rewrite bytes_of_app. cbn [bytes_of flat_map bytes_of_piece]. rewrite Nat.add_1_r, !app_nil_r, <- !app_assoc. do 2 f_equal. destruct (n =? 1); reflexivity.
  - change (calls D debug [Exit "section_heading" [d]] (at_ h)) with (match exit_section_heading D d (at_ h) with Ret s => Ret s | Panic => Panic end). unfold exit_section_heading. rewrite E. reflexivity.
Qed.
Lemma section_closed d n : section_level D d = n -> writes [Exit "section" [d]] ((if n =? 1 then $"</div>" else []) ++ $"</div>").
Proof.
  intros E h. exists (if_pieces (n =? 1) [Lit "</div>"] ++ [Lit "</div>"]). split; [destruct (n =? 1); reflexivity|].
  change (calls D debug [Exit "section" [d]] (at_ h)) with (match exit_section D d (at_ h) with Ret s => Ret s | Panic => Panic end). unfold exit_section. rewrite E. reflexivity.
Qed.
Definition one_section n k (y : sect) (s : ArticleSpec.section) : Prop :=
  exists z evs, block_at (BSection y) k = Some (Block 0 None None None XSection (SectionContent z), k + ArticleSpec.count s) /\ does (eval_section [] wants 1 (eval_block [] wants 1) None z) evs /\ writes evs (ArticleSpec.section_html ids n k s).
Lemma sections_of n subs : Forall (fun s => forall k y, sect_for n y s -> ArticleSpec.section_ok n s = true -> k + ArticleSpec.count s <= length ids -> one_section n k y s) subs ->
  forall ys k, Forall2 (sect_for n) ys subs -> forallb (ArticleSpec.section_ok n) subs = true -> k + list_sum (map ArticleSpec.count subs) <= length ids ->
  exists zs evs, in_turn block_at (map BSection ys) k = Some (map (fun z => Block 0 None None None XSection (SectionContent z)) zs, k + list_sum (map ArticleSpec.count subs)) /\
    in_turn sect_at ys k = Some (zs, k + list_sum (map ArticleSpec.count subs)) /\ does (each (eval_section [] wants 1 (eval_block [] wants 1) None) zs) evs /\ writes evs (ArticleSpec.sections_html ids n k subs).
Proof.
  induction 1 as [|s subs I _ IH]; intros ys k F OK L; inversion F as [|y s' ys' subs' Y F']; subst; cbn [map list_sum fold_right] in *.
  - exists [], []. rewrite Nat.add_0_r. split; [reflexivity|]. split; [reflexivity|]. split; [apply does_skip|apply writes_nil].
  - change (fold_right Nat.add 0 (map ArticleSpec.count subs)) with (list_sum (map ArticleSpec.count subs)) in *. cbn [forallb] in OK. apply andb_true_iff in OK as [OK1 OK]. destruct (I k y Y OK1 ltac:(lia)) as (z & e1 & B1 & D1 & W1). destruct (IH ys' (k + ArticleSpec.count s) F' OK ltac:(lia)) as (zs & e2 & B2 & S2 & D2 & W2).
    exists (z :: zs), (e1 ++ e2). split; [|split; [|split; [now apply does_then|now apply writes_app]]].
    + cbn [in_turn]. rewrite B1. fold (in_turn block_at). rewrite B2. cbn [map]. now rewrite Nat.add_assoc.
    + cbn [in_turn]. unfold sect_at at 1. rewrite B1. fold (in_turn sect_at). rewrite S2. now rewrite Nat.add_assoc.
Qed.
Lemma blocks_of_sections zs : forall evs, does (each (eval_section [] wants 1 (eval_block [] wants 1) None) zs) evs -> does (each (eval_block [] wants 1 None) (map (fun z => Block 0 None None None XSection (SectionContent z)) zs)) evs.
Proof.
  intros evs H s. rewrite <- (H s). clear H. revert s. induction zs as [|z zs IH]; intros s; [reflexivity|]. cbn [map each eval_block EvalModel.seq]. unfold then_, skip. destruct (eval_section [] wants 1 (eval_block [] wants 1) None z s) as [s'| |]; [apply IH|reflexivity..].
Qed.
Lemma inner_html n subs : forall k, (fix go l k := match l with [] => [] | x :: r => ArticleSpec.section_html ids n k x ++ go r (k + ArticleSpec.count x) end) subs k = ArticleSpec.sections_html ids n k subs.
Proof. induction subs as [|s subs IH]; intros k; [reflexivity|]. cbn [ArticleSpec.sections_html]. now rewrite IH. Qed.
Lemma count_sec h body subs : ArticleSpec.count (ArticleSpec.Sec h body subs) = S (list_sum (map ArticleSpec.count subs)).
Proof. unfold ArticleSpec.count. cbn [ArticleSpec.section_headings length]. f_equal. induction subs as [|s subs IH]; [reflexivity|]. cbn [flat_map map list_sum fold_right]. rewrite app_length. unfold list_sum in IH. now rewrite IH. Qed.
Lemma section_written : forall s n k y, sect_for n y s -> ArticleSpec.section_ok n s = true -> k + ArticleSpec.count s <= length ids -> one_section n k y s.
Proof.
  induction s as [h body subs IH] using section_rect'. intros n k y Y OK L. inversion Y as [n' h' body' subs' ns bs ys HF FB FS]; subst. cbn [ArticleSpec.section_ok] in OK. apply andb_true_iff in OK as [OK OS]. apply andb_true_iff in OK as [OK _]. apply andb_true_iff in OK as [N _]. apply Nat.leb_le in N.
  rewrite count_sec in L. assert (FI : Forall (fun s => forall k y, sect_for (S n) y s -> ArticleSpec.section_ok (S n) s = true -> k + ArticleSpec.count s <= length ids -> one_section (S n) k y s) subs) by (revert IH; apply Forall_impl; auto).
  destruct (sections_of (S n) subs FI ys (S k) FS OS ltac:(lia)) as (zs & e3 & B3 & _ & D3 & W3). destruct (pars_at bs _ FB) as (l & e2 & L2 & _ & D2 & W2). destruct HF as (G & HH & _). destruct (nodes_events wants ns G) as (hl & HL & E1).
  exists (Section_ (label n k) hl (l ++ map (fun z => Block 0 None None None XSection (SectionContent z)) zs)), ([Enter "section" [label n k]] ++ [Enter "section_heading" [label n k]] ++ flat_map ev ns ++ [Exit "section_heading" [label n k]] ++ (e2 ++ e3) ++ [Exit "section" [label n k]] ++ []).
  split; [|split].
  - cbn [block_at]. unfold no_meta. rewrite HL, (in_turn_app _ _ _ _ _ _ _ _ (L2 (S k)) B3), count_sec. do 2 f_equal. lia.
  - unfold eval_section. cbn [s_d s_heading s_blocks]. apply does_cons; [apply does_emit|]. apply does_cons; [apply does_emit|]. apply does_cons; [exact E1|]. apply does_cons; [apply does_emit|]. apply does_cons; [|apply does_cons; [apply does_emit|apply does_end]].
    apply does_each_app; [exact D2|]. now apply blocks_of_sections.
  - cbn [ArticleSpec.section_html]. rewrite inner_html. unfold ArticleSpec.whole_section_html, ArticleSpec.heading_html, ArticleSpec.body_html. pose proof (level_label n k N) as LV. pose proof (id_label n k N ltac:(lia)) as ID. set (d := label n k) in *.
    assert (W : writes ([Enter "section" [d]] ++ [Enter "section_heading" [d]] ++ flat_map ev ns ++ [Exit "section_heading" [d]] ++ (e2 ++ e3) ++ [Exit "section" [d]] ++ [])
      (($"<div class=""sect" ++ b (dec n) ++ $""">") ++ ($"<h" ++ b (dec (S n)) ++ $" id=""" ++ nth k ids [] ++ $""">") ++ line_html h ++ ($"</h" ++ b (dec (S n)) ++ $">" ++ if n =? 1 then $"<div class=""sectionbody"">" else []) ++ (WholeSpec.html body ++ ArticleSpec.sections_html ids (S n) (S k) subs) ++ ((if n =? 1 then $"</div>" else []) ++ $"</div>") ++ [])).
    { apply writes_app; [now apply section_opened|]. apply writes_app; [now apply heading_opened|]. apply writes_app; [rewrite <- (HH ($" ")); now apply nodes_written|]. apply writes_app; [now apply heading_closed|]. apply writes_app; [apply writes_app; [exact W2|exact W3]|]. apply writes_app; [now apply section_closed|apply writes_nil]. }
    intros h0. destruct (W h0) as (ps & E & C). exists ps. split; [|exact C]. rewrite E. destruct (n =? 1); rewrite <- ?app_assoc, ?app_nil_r; reflexivity.
Qed.

(** ** Documents *)
Definition title_events (o : option (list inode)) : list event := match o with Some ns => [Enter "document_title" []] ++ flat_map ev ns ++ [Exit "document_title" []] ++ [] | None => [] end.
Definition opening1 : list event := [Enter "document" [0]; Enter "body" [0]; Enter "header" []].
Definition opening2 : list event := [Exit "header" []; Enter "content" []].
Lemma opens1 : calls D debug opening1 fresh = Ret (at_ []).
Proof. destruct debug; vm_compute; reflexivity. Qed.
Lemma opens2 : calls D debug opening2 (at_ []) = Ret (at_ []).
Proof. vm_compute. reflexivity. Qed.
Lemma title_hidden o t : title_for o t -> calls D debug (title_events o) (at_ []) = Ret (at_ []).
Proof.
  destruct o as [ns|]; [|reflexivity]. destruct t as [h|]; [|intros []]. intros (G & _ & _). cbn [title_events]. rewrite calls_app. replace (calls D debug [Enter "document_title" []] (at_ [])) with (Ret (at_ [])) by (destruct debug; vm_compute; reflexivity).
  rewrite calls_app. destruct (nodes_written ns G []) as (ps & _ & ->). reflexivity.
Qed.
Lemma title_done o t : title_for o t -> exists x, title_of o = Some x /\ some x = some t /\ does (match x with Some l => EvalModel.seq [enter "document_title" []; EvalModel.inlines [] wants 1 l; exit "document_title" []] | None => skip end) (title_events o).
Proof.
  destruct o as [ns|], t as [h|]; [| intros [] | intros [] | intros _; exists None; repeat split; apply does_skip]. intros (G & _ & _). destruct (nodes_events wants ns G) as (l & L & E). exists (Some l). cbn [title_of]. rewrite L. split; [reflexivity|]. split; [reflexivity|]. cbn [title_events].
  apply does_cons; [apply does_emit|]. apply does_cons; [exact E|]. apply does_cons; [apply does_emit|apply does_end].
Qed.
Definition preamble (has : bool) (pars : list (list line)) (secs : list ArticleSpec.section) : bytes :=
  match has, secs, pars with true, _ :: _, _ :: _ => $"<div id=""preamble""><div class=""sectionbody"">" ++ concat (map paragraph_html pars) ++ $"</div></div>" | _, _, _ => concat (map paragraph_html pars) end.
Definition inner (t : option toc) (has : nat) (c : doc_content block) : action :=
  match c with
  | DBlocks l => each (eval_block [] wants 1 t) l
  | DSections preamble sections =>
      EvalModel.seq [match preamble with Some l => EvalModel.seq [enter "preamble" [has]; each (eval_block [] wants 1 t) l; eval_toc_at [] wants 1 t [PPreamble]; exit "preamble" [has]] | None => skip end; each (eval_section [] wants 1 (eval_block [] wants 1) t) sections]
  | _ => skip
  end.
Lemma content_written has bs ys c pars secs : (c = Sections bs ys \/ ys = [] /\ c = Blocks bs) -> Forall2 block_for bs pars -> Forall2 (sect_for 1) ys secs -> forallb (ArticleSpec.section_ok 1) secs = true -> list_sum (map ArticleSpec.count secs) <= length ids ->
  exists dc evs, content_at c = Some dc /\ does (inner None (flag has) dc) evs /\ writes evs (preamble has pars secs ++ ArticleSpec.sections_html ids 1 0 secs) /\ match dc with DParts _ _ _ _ => False | _ => True end.
Proof.
  intros C FB FS OK L. destruct (pars_at bs pars FB) as (l & e1 & L1 & LN & D1 & W1). destruct ys as [|y ys].
  - inversion FS; subst. exists (DBlocks l), e1. split; [|split; [exact D1|split; [|exact I]]].
    + destruct C as [-> | [_ ->]]; cbn [content_at]; now rewrite L1.
    + cbn [ArticleSpec.sections_html]. rewrite app_nil_r. destruct has; exact W1.
  - destruct C as [-> | [C _]]; [|discriminate C]. destruct secs as [|sec secs]; [inversion FS|].
    assert (FI : Forall (fun s => forall k y, sect_for 1 y s -> ArticleSpec.section_ok 1 s = true -> k + ArticleSpec.count s <= length ids -> one_section 1 k y s) (sec :: secs)) by (apply Forall_forall; intros; now apply section_written).
    destruct (sections_of 1 _ FI (y :: ys) 0 FS OK ltac:(lia)) as (zs & e2 & _ & S2 & D2 & W2). cbn [content_at]. rewrite L1, S2. destruct l as [|x l].
    + rewrite (LN eq_refl) in FB. inversion FB; subst. exists (DSections None zs), ([] ++ e2 ++ []). split; [reflexivity|]. split; [apply does_cons; [apply does_skip|apply does_cons; [exact D2|apply does_end]]|]. split; [|exact I]. cbn [app]. rewrite app_nil_r. destruct has; exact W2.
    + exists (DSections (Some (x :: l)) zs), (([Enter "preamble" [flag has]] ++ e1 ++ [] ++ [Exit "preamble" [flag has]] ++ []) ++ e2 ++ []). split; [reflexivity|]. split; [|split; [|exact I]].
      * apply does_cons; [|apply does_cons; [exact D2|apply does_end]]. apply does_cons; [apply does_emit|]. apply does_cons; [exact D1|]. apply does_cons; [apply does_skip|]. apply does_cons; [apply does_emit|apply does_end].
      * rewrite (app_nil_r e2). apply writes_app; [|exact W2]. cbn [app]. destruct pars as [|par pars]; [inversion FB; subst; specialize (L1 0); discriminate L1|]. destruct has; cbn [preamble flag Nat.b2n].
        -- apply (writes_app [_]); [apply writes_lit; reflexivity|]. apply writes_app; [exact W1|]. apply writes_lit; reflexivity.
        -- rewrite <- (app_nil_l (concat _)). rewrite <- (app_nil_r (concat _)). apply (writes_app [_]); [intros h; exists []; split; reflexivity|]. apply writes_app; [exact W1|]. intros h; exists []; split; reflexivity.
Qed.
Definition ending : list event := [Exit "content" []; Enter "footer" []; Exit "footer" []; Exit "body" [0]; Exit "document" [0]].
Lemma closes h : calls D debug ending (at_ h) = Ret (at_ h).
Proof. reflexivity. Qed.
Lemma document_events o x dc evs : does (match x with Some l => EvalModel.seq [enter "document_title" []; EvalModel.inlines [] wants 1 l; exit "document_title" []] | None => skip end) (title_events o) ->
  does (inner None (flag (some x)) dc) evs -> match dc with DParts _ _ _ _ => False | _ => True end ->
  eval_document [] wants 1 (Document 0 true None None None x None dc) = EvalModel.Done (St (opening1 ++ title_events o ++ opening2 ++ evs ++ ending) false).
Proof.
  intros DT DC NP. assert (V : does (visit_document [] wants 1 (eval_block [] wants 1) (Document 0 true None None None x None dc)) (opening1 ++ title_events o ++ opening2 ++ evs ++ ending)).
    { unfold visit_document, eval_docinfo. cbn [embedded d_title d_toc d_content d_d info_head info_header info_footer].
      assert (IN : does (eval_doc_content [] wants 1 (eval_block [] wants 1) None (flag (some x)) dc) ([Enter "content" []] ++ evs ++ [Exit "content" []] ++ [])).
      { unfold eval_doc_content. apply does_cons; [apply does_emit|]. apply does_cons; [destruct dc; [exact DC|exact DC|easy]|]. apply does_cons; [apply does_emit|apply does_end]. }
      replace (opening1 ++ title_events o ++ opening2 ++ evs ++ ending) with
        ([Enter "document" [0]] ++ [] ++ [Enter "body" [0]] ++ [] ++ [Enter "header" []] ++ title_events o ++ [Exit "header" []] ++ [] ++ ([Enter "content" []] ++ evs ++ [Exit "content" []] ++ []) ++ [Enter "footer" []] ++ [Exit "footer" []] ++ [] ++ [Exit "body" [0]] ++ [Exit "document" [0]] ++ []).
      2:{ cbn [app opening1 opening2 ending]. do 3 f_equal. rewrite <- app_assoc. reflexivity. }
      repeat (apply does_cons; [first [exact DT|exact IN|apply does_emit|apply does_skip]|]). apply does_end. }
  exact (V (St [] false)).
Qed.
Lemma document_written P o t x dc evs res : dbg (p_env P) = debug -> title_for o t -> title_of o = Some x -> does (match x with Some l => EvalModel.seq [enter "document_title" []; EvalModel.inlines [] wants 1 l; exit "document_title" []] | None => skip end) (title_events o) ->
  does (inner None (flag (some x)) dc) evs -> writes evs res -> match dc with DParts _ _ _ _ => False | _ => True end -> html_of P wants (map (fun x => Some (string_of_list_ascii x)) ids) x dc = Some res.
Proof.
  intros DB TF _ DT DC W NP. unfold html_of.
  rewrite (document_events o x dc evs DT DC NP). cbn [out]. unfold output. rewrite DB, calls_app, opens1, calls_app, (title_hidden o t TF), calls_app, opens2, calls_app. destruct (W []) as (ps & B & C). rewrite C, closes. cbn [app]. change (html (at_ ps)) with ps. now rewrite B.
Qed.
End Html.
