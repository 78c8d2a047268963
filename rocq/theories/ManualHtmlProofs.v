(** The HTML for an article with sections, in which there are lists, delimited blocks and listings (C74). *)
From Verif Require Import Base LexerModel LineModel InlineModel BlockModel WholeModel WholeSpec WholeInlineProofs WholeBlockProofs WholeHtmlProofs.
From Verif Require Import OutlineSpec BoxSpec OutlineBlockProofs OutlineListProofs BoxDocProofs.
From Verif Require Import EvalModel HtmlModel.
From Verif Require Import ArticleModel BoxHtmlProofs ManualModel ManualDocProofs.
From Verif Require ArticleHtmlProofs OutlineHtmlProofs ManualSpec.
Import ListNotations.
Open Scope list_scope.
Open Scope nat_scope.
Module MS := ManualSpec.

Section Html.
Variables (wants : list event -> bool) (debug : bool) (ids : list bytes).
Notation D := (article_details (map (fun x => Some (string_of_list_ascii x)) ids)).
Notation writes := (AH.writes debug ids).
(** ** Blocks that are no sections *)
Lemma block_in_at e x : elem_for e x -> forall k, ManualModel.block_at x k = match OutlineModel.block_in 0 x with Some y => Some (y, k) | None => None end.
Proof. intros F k. destruct e; cbn [elem_for] in F; [destruct F as (ns & -> & _)|destruct F as (xs & -> & _)|destruct F as (t & bs & -> & _)|destruct F as (t & ns & -> & _)]; reflexivity. Qed.
Lemma bodies_at els bs : Forall2 elem_for els bs -> forallb elem_ok els = true ->
  exists l evs, (forall k, in_turn ManualModel.block_at bs k = Some (l, k)) /\ (l = [] -> els = []) /\ does (each (eval_block [] wants 1 None) l) evs /\ writes evs (concat (map elem_html els)).
Proof.
  induction 1 as [|e x els bs E _ IH]; intros OK; [exists [], []; split; [reflexivity|]; split; [auto|]; split; [apply AH.does_skip|apply AH.writes_nil]|]. cbn [forallb] in OK. apply andb_true_iff in OK as [OE OK]. destruct (elem_done wants debug ids e x E OE) as (y & e1 & Y & D1 & W1). destruct (IH OK) as (l & e2 & L & _ & D2 & W2). exists (y :: l), (e1 ++ e2).
  split; [intros k; cbn [in_turn]; fold (in_turn ManualModel.block_at); rewrite (block_in_at e x E k), Y, L; reflexivity|]. split; [discriminate|]. split; [now apply AH.does_then|]. cbn [map concat]. apply AH.writes_app; [intros h; exact (W1 [] h)|exact W2].
Qed.

(** ** Sections *)
Definition one_section n k (y : sect) (s : MS.section) : Prop :=
  exists z evs, ManualModel.block_at (BSection y) k = Some (Block 0 None None None XSection (SectionContent z), k + MS.count s) /\ does (eval_section [] wants 1 (eval_block [] wants 1) None z) evs /\ writes evs (MS.section_html ids n k s).
Lemma sections_of n subs : Forall (fun s => forall k y, sect_for n y s -> MS.section_ok n s = true -> k + MS.count s <= length ids -> one_section n k y s) subs ->
  forall ys k, Forall2 (sect_for n) ys subs -> forallb (MS.section_ok n) subs = true -> k + list_sum (map MS.count subs) <= length ids ->
  exists zs evs, in_turn ManualModel.block_at (map BSection ys) k = Some (map (fun z => Block 0 None None None XSection (SectionContent z)) zs, k + list_sum (map MS.count subs)) /\
    in_turn ManualModel.sect_at ys k = Some (zs, k + list_sum (map MS.count subs)) /\ does (each (eval_section [] wants 1 (eval_block [] wants 1) None) zs) evs /\ writes evs (MS.sections_html ids n k subs).
Proof.
  induction 1 as [|s subs I _ IH]; intros ys k F OK L; inversion F as [|y s' ys' subs' Y F']; subst; cbn [map list_sum fold_right] in *.
  - exists [], []. rewrite Nat.add_0_r. split; [reflexivity|]. split; [reflexivity|]. split; [apply AH.does_skip|apply AH.writes_nil].
  - change (fold_right Nat.add 0 (map MS.count subs)) with (list_sum (map MS.count subs)) in *. cbn [forallb] in OK. apply andb_true_iff in OK as [OK1 OK]. destruct (I k y Y OK1 ltac:(lia)) as (z & e1 & B1 & D1 & W1). destruct (IH ys' (k + MS.count s) F' OK ltac:(lia)) as (zs & e2 & B2 & S2 & D2 & W2).
    exists (z :: zs), (e1 ++ e2). split; [|split; [|split; [now apply AH.does_then|now apply AH.writes_app]]].
    + cbn [in_turn]. rewrite B1. fold (in_turn ManualModel.block_at). rewrite B2. cbn [map]. now rewrite Nat.add_assoc.
    + cbn [in_turn]. unfold ManualModel.sect_at at 1. rewrite B1. fold (in_turn ManualModel.sect_at). rewrite S2. now rewrite Nat.add_assoc.
Qed.
Lemma inner_html n subs : forall k, (fix go l k := match l with [] => [] | x :: r => MS.section_html ids n k x ++ go r (k + MS.count x) end) subs k = MS.sections_html ids n k subs.
Proof. induction subs as [|s subs IH]; intros k; [reflexivity|]. cbn [MS.sections_html]. now rewrite IH. Qed.
Lemma count_sec h body subs : MS.count (MS.Sec h body subs) = S (list_sum (map MS.count subs)).
Proof. unfold MS.count. cbn [MS.section_headings length]. f_equal. induction subs as [|s subs IH]; [reflexivity|]. cbn [flat_map map list_sum fold_right]. rewrite app_length. unfold list_sum in IH. now rewrite IH. Qed.
Lemma section_written : forall s n k y, sect_for n y s -> MS.section_ok n s = true -> k + MS.count s <= length ids -> one_section n k y s.
Proof.
  induction s as [h body subs IH] using section_rect'. intros n k y Y OK L. inversion Y as [n' h' body' subs' ns bs ys HF FB FS]; subst. apply section_parts in OK as (N & _ & OB & OS).
  rewrite count_sec in L. assert (FI : Forall (fun s => forall k y, sect_for (S n) y s -> MS.section_ok (S n) s = true -> k + MS.count s <= length ids -> one_section (S n) k y s) subs) by (revert IH; apply Forall_impl; auto).
  destruct (sections_of (S n) subs FI ys (S k) FS OS ltac:(lia)) as (zs & e3 & B3 & _ & D3 & W3). destruct (bodies_at _ bs FB (elems_ok body OB)) as (l & e2 & L2 & _ & D2 & W2). destruct HF as (G & HH & _). destruct (nodes_events wants ns G) as (hl & HL & E1).
  unfold bodies_elems in W2. rewrite doc_html in W2.
  exists (Section_ (label n k) hl (l ++ map (fun z => Block 0 None None None XSection (SectionContent z)) zs)), ([Enter "section" [label n k]] ++ [Enter "section_heading" [label n k]] ++ flat_map ev ns ++ [Exit "section_heading" [label n k]] ++ (e2 ++ e3) ++ [Exit "section" [label n k]] ++ []).
  split; [|split].
  - cbn [ManualModel.block_at]. unfold no_meta. rewrite HL, (AH.in_turn_app _ _ _ _ _ _ _ _ (L2 (S k)) B3), count_sec. do 2 f_equal. lia.
  - unfold eval_section. cbn [s_d s_heading s_blocks]. apply AH.does_cons; [apply AH.does_emit|]. apply AH.does_cons; [apply AH.does_emit|]. apply AH.does_cons; [exact E1|]. apply AH.does_cons; [apply AH.does_emit|]. apply AH.does_cons; [|apply AH.does_cons; [apply AH.does_emit|apply AH.does_end]].
    apply AH.does_each_app; [exact D2|]. now apply AH.blocks_of_sections.
  - cbn [MS.section_html]. rewrite inner_html. unfold MS.whole_section_html, ArticleSpec.heading_html, ArticleSpec.body_html. pose proof (AH.level_label ids n k N) as LV. pose proof (AH.id_label ids n k N ltac:(lia)) as ID. set (d := label n k) in *.
    assert (W : writes ([Enter "section" [d]] ++ [Enter "section_heading" [d]] ++ flat_map ev ns ++ [Exit "section_heading" [d]] ++ (e2 ++ e3) ++ [Exit "section" [d]] ++ [])
      (($"<div class=""sect" ++ b (dec n) ++ $""">") ++ ($"<h" ++ b (dec (S n)) ++ $" id=""" ++ nth k ids [] ++ $""">") ++ line_html h ++ ($"</h" ++ b (dec (S n)) ++ $">" ++ if n =? 1 then $"<div class=""sectionbody"">" else []) ++ (BoxSpec.html body ++ MS.sections_html ids (S n) (S k) subs) ++ ((if n =? 1 then $"</div>" else []) ++ $"</div>") ++ [])).
    { apply AH.writes_app; [now apply AH.section_opened|]. apply AH.writes_app; [now apply AH.heading_opened|]. apply AH.writes_app; [rewrite <- (HH ($" ")); now apply AH.nodes_written|]. apply AH.writes_app; [now apply AH.heading_closed|]. apply AH.writes_app; [apply AH.writes_app; [exact W2|exact W3]|]. apply AH.writes_app; [now apply AH.section_closed|apply AH.writes_nil]. }
    intros h0. destruct (W h0) as (ps & E & C). exists ps. split; [|exact C]. rewrite E. destruct (n =? 1); rewrite <- ?app_assoc, ?app_nil_r; reflexivity.
Qed.

(** ** Documents *)
Definition preamble (has : bool) (x : bytes) (secs : list MS.section) : bytes :=
  match has, secs, x with true, _ :: _, _ :: _ => $"<div id=""preamble""><div class=""sectionbody"">" ++ x ++ $"</div></div>" | _, _, _ => x end.
Lemma elem_shows e : exists c r, elem_html e = c :: r.
Proof.
  destruct e as [par|k es|b els|b ls]; cbn [elem_html]; [eexists; eexists; reflexivity|destruct k; eexists; eexists; reflexivity|destruct b; eexists; eexists; reflexivity..].
Qed.
Lemma content_written has bs ys c l secs : (c = Sections bs ys \/ ys = [] /\ c = Blocks bs) -> Forall2 elem_for (bodies_elems l) bs -> bodies_ok l = true -> Forall2 (sect_for 1) ys secs -> forallb (MS.section_ok 1) secs = true -> list_sum (map MS.count secs) <= length ids ->
  exists dc evs, ManualModel.content_at c = Some dc /\ does (AH.inner wants None (flag has) dc) evs /\ writes evs (preamble has (BoxSpec.html l) secs ++ MS.sections_html ids 1 0 secs) /\ match dc with DParts _ _ _ _ => False | _ => True end.
Proof.
  intros C FB OB FS OK L. destruct (bodies_at _ bs FB (elems_ok l OB)) as (bl & e1 & L1 & LN & D1 & W1). pose proof (doc_html l) as DH. fold (bodies_elems l) in DH. destruct ys as [|y ys].
  - inversion FS; subst. exists (DBlocks bl), e1. split; [|split; [exact D1|split; [|exact I]]].
    + destruct C as [-> | [_ ->]]; cbn [ManualModel.content_at]; now rewrite L1.
    + cbn [MS.sections_html]. rewrite app_nil_r, <- DH. destruct has; exact W1.
  - destruct C as [-> | [C _]]; [|discriminate C]. destruct secs as [|sec secs]; [inversion FS|].
    assert (FI : Forall (fun s => forall k y, sect_for 1 y s -> MS.section_ok 1 s = true -> k + MS.count s <= length ids -> one_section 1 k y s) (sec :: secs)) by (apply Forall_forall; intros; now apply section_written).
    destruct (sections_of 1 _ FI (y :: ys) 0 FS OK ltac:(lia)) as (zs & e2 & _ & S2 & D2 & W2). cbn [ManualModel.content_at]. rewrite L1, S2. destruct bl as [|x bl].
    + rewrite (LN eq_refl) in DH. cbn [map concat] in DH. rewrite <- DH. exists (DSections None zs), ([] ++ e2 ++ []). split; [reflexivity|]. split; [apply AH.does_cons; [apply AH.does_skip|apply AH.does_cons; [exact D2|apply AH.does_end]]|]. split; [|exact I]. cbn [app]. rewrite app_nil_r. destruct has; exact W2.
    + exists (DSections (Some (x :: bl)) zs), (([Enter "preamble" [flag has]] ++ e1 ++ [] ++ [Exit "preamble" [flag has]] ++ []) ++ e2 ++ []). split; [reflexivity|]. split; [|split; [|exact I]].
      * apply AH.does_cons; [|apply AH.does_cons; [exact D2|apply AH.does_end]]. apply AH.does_cons; [apply AH.does_emit|]. apply AH.does_cons; [exact D1|]. apply AH.does_cons; [apply AH.does_skip|]. apply AH.does_cons; [apply AH.does_emit|apply AH.does_end].
      * rewrite (app_nil_r e2). apply AH.writes_app; [|exact W2]. cbn [app].
        assert (NE : exists c r, BoxSpec.html l = c :: r). { rewrite <- DH. destruct (bodies_elems l) as [|e els]; [inversion FB; subst; specialize (L1 0); discriminate L1|]. cbn [map concat]. destruct (elem_shows e) as (c & r & ->). now exists c, (r ++ concat (map elem_html els)). }
        rewrite DH in W1. destruct has; cbn [preamble flag Nat.b2n].
        -- destruct NE as (ch & r & E). rewrite E in *. apply (AH.writes_app _ _ [_]); [apply AH.writes_lit; reflexivity|]. apply AH.writes_app; [exact W1|]. apply AH.writes_lit; reflexivity.
        -- rewrite <- (app_nil_l (BoxSpec.html l)). rewrite <- (app_nil_r (BoxSpec.html l)). apply (AH.writes_app _ _ [_]); [intros h; exists []; split; reflexivity|]. apply AH.writes_app; [exact W1|]. intros h; exists []; split; reflexivity.
Qed.
End Html.
