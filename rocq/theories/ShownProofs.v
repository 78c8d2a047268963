(** Proofs about C66, last part: from the calls to the document. *)
From Verif Require Import Base AttrsModel AttrsProofs EvalModel EscapeModel EvalSpec EvalProofs HtmlModel HtmlSpec HtmlScanProofs HtmlTagProofs HtmlCallProofs HtmlPartProofs HtmlProofs ShownSpec ShownCallProofs.
Open Scope string_scope.
Open Scope nat_scope.
Open Scope list_scope.

Definition T (l : list inline) : list string := filter ne (flat_map texts_in l).
Definition N (D : details) (l : list inline) : list string := filter ne (flat_map (notes_in D) l).
Lemma T_app l l' : T (l ++ l') = T l ++ T l'.
Proof. unfold T. now rewrite flat_map_app, filter_app'. Qed.
Lemma N_app D l l' : N D (l ++ l') = N D l ++ N D l'.
Proof. unfold N. now rewrite flat_map_app, filter_app'. Qed.
Lemma T_cons i l : T (i :: l) = T [i] ++ T l.
Proof. exact (T_app [i] l). Qed.
Lemma N_cons D i l : N D (i :: l) = N D [i] ++ N D l.
Proof. exact (N_app D [i] l). Qed.
Lemma act_ext D debug P f g Q : (forall s, f s = g s) -> act D debug P g Q -> act D debug P f Q.
Proof. intros X H e e' E. rewrite X in E. now apply H. Qed.
Lemma P_weak term top R xs ys zs xs' ys' zs' h : sub xs' xs -> sub ys' ys -> sub zs' zs -> P term top R xs ys zs h -> P term top R xs' ys' zs' h.
Proof. intros A1 A2 A3 (H1 & H2 & H3 & H). split; [eapply sub_trans; eassumption|]. split; [eapply sub_trans; eassumption|]. split; [eapply sub_trans; eassumption|exact H]. Qed.
(** a call that only writes *)
Ltac eg := ev; first [apply tri_nothing | apply tri_grow; gr].
Ltac eg1 := eapply act_cons; [eg|].
Ltac stop := apply act_nil.

Section Inline.
  Context (D : details) (debug : bool) (anchors : anchor_table) (wants : list event -> bool) (AT : anchors_tidy anchors) (WV : wants_visible wants).
  Notation act := (act D debug).
  Definition inline_ok (fuel : nat) (n : bool) (i : inline) : Prop := tidy n i = true -> forall term top R xs ys zs, (n = true -> zs = []) ->
    act (P term top R xs ys zs) (eval_inline anchors wants fuel i) (P term top R (xs ++ T [i]) (ys ++ N D [i]) zs).
  Lemma each_ok fuel n l : (forall i, In i l -> inline_ok fuel n i) -> forallb (tidy n) l = true -> forall term top R xs ys zs, (n = true -> zs = []) ->
    act (P term top R xs ys zs) (each (eval_inline anchors wants fuel) l) (P term top R (xs ++ T l) (ys ++ N D l) zs).
  Proof.
    intros H F term top R xs ys zs Z. revert xs ys. induction l as [|i l IH]; intros xs ys.
    - cbn. rewrite !app_nil_r. apply act_skip.
    - cbn in F. apply andb_true_iff in F as [F1 F2]. rewrite (T_cons i l), (N_cons D i l), !app_assoc. eapply act_then; [apply (H i (or_introl eq_refl) F1); exact Z|].
      apply IH; [|exact F2]. intros j J. apply H. now right.
  Qed.
  Lemma T_in l : T [ISpan SBold 0 l] = T l.
  Proof. unfold T. cbn. now rewrite app_nil_r. Qed.
  Lemma N_in l : N D [ISpan SBold 0 l] = N D l.
  Proof. unfold N. cbn. now rewrite app_nil_r. Qed.
  Lemma post_nil term top R xs ys zs f Q : act Q f (P term top R xs ys zs) -> act Q f (P term top R (xs ++ []) (ys ++ []) zs).
  Proof. now rewrite !app_nil_r. Qed.
  Lemma post_less term top R xs ys zs tx ty f Q : act Q f (P term top R (xs ++ tx) (ys ++ ty) zs) -> act Q f (P term top R xs ys zs).
  Proof. apply act_post. intros h. apply P_weak; [apply sub_more, sub_refl|apply sub_more, sub_refl|apply sub_refl]. Qed.
  Lemma all_inlines fuel : forall i n, inline_ok fuel n i.
  Proof.
    induction fuel as [fuel IHf] using (well_founded_induction Wf_nat.lt_wf).
    induction i as [i K] using inline_rect'.
    assert (EO : forall n l, every (fun i => forall n, inline_ok fuel n i) l -> forallb (tidy n) l = true -> forall term top R xs ys zs, (n = true -> zs = []) ->
      act (P term top R xs ys zs) (each (eval_inline anchors wants fuel) l) (P term top R (xs ++ T l) (ys ++ N D l) zs)).
    { intros n l E. apply each_ok. intros i0 I. exact (proj1 (every_in _ l) E i0 I n). }
    intros n Tn term top R xs ys zs Z.
    destruct i as [k d l|l|t|name d|d l|d o|d o|target d o|d o|id|l|p s t|]; cbn [kids] in K; cbn [tidy] in Tn.
    - change (T [ISpan k d l]) with (T [ISpan SBold 0 l]). change (N D [ISpan k d l]) with (N D [ISpan SBold 0 l]). rewrite T_in, N_in, span_eq.
      eapply act_cons; [destruct k; eg|]. eapply act_cons; [now apply EO with n|]. eapply act_cons; [destruct k; eg|stop].
    - change (T [IPassthru l]) with (T [ISpan SBold 0 l]). change (N D [IPassthru l]) with (N D [ISpan SBold 0 l]). rewrite T_in, N_in, passthru_eq.
      eg1. eapply act_cons; [now apply EO with n|]. eg1. stop.
    - replace (eval_inline anchors wants fuel (IText t)) with (visit "inline_text" 0 t) by (destruct fuel; reflexivity). ev.
      change (N D [IText t]) with (@nil string). rewrite app_nil_r. change (T [IText t]) with (filter ne [t]). apply tri_text.
    - replace (eval_inline anchors wants fuel (ILeaf name d)) with (visit name d "") by (destruct fuel; reflexivity). apply post_nil, act_emit, tri_grow. now apply grow_leaf.
    - change (T [IQuote d l]) with (T [ISpan SBold 0 l]). change (N D [IQuote d l]) with (N D [ISpan SBold 0 l]). rewrite T_in, N_in, quote_eq.
      eg1. eapply act_cons; [now apply EO with n|]. eg1. stop.
    - rewrite footnote_eq. apply andb_true_iff in Tn as [T1 T2]. rewrite (Z T1). change (T [IFootnote d o]) with (@nil string). rewrite app_nil_r. eapply act_cons; [ev; apply tri_note|].
      destruct o as [l|]; cbn [each_opt].
      + eapply act_cons; [apply EO with false; [exact K|exact T2|discriminate]|]. eapply act_cons; [|stop]. ev. intros h h' H E. eapply P_weak; [apply sub_refl| |apply sub_refl|exact (tri_note' D term top R d xs _ _ h h' H E)].
        apply sub_app; [apply sub_more, sub_refl|]. unfold N. cbn. rewrite app_nil_r. destruct (some (n_id D d)); [constructor|]. apply sub_refl.
      + eapply act_cons; [apply act_skip|]. eapply act_cons; [|stop]. ev. intros h h' H E. eapply P_weak; [apply sub_refl| |apply sub_refl|exact (tri_note' D term top R d xs ys [] h h' H E)].
        change (N D [IFootnote d None]) with (@nil string). rewrite app_nil_r. apply sub_more, sub_refl.
    - rewrite link_eq. intros e e'. generalize (flag (resolving e)). intros r. revert e e'.
      destruct o as [l|].
      + change (T [ILink d (Some l)]) with (T [ISpan SBold 0 l]). change (N D [ILink d (Some l)]) with (N D [ISpan SBold 0 l]). rewrite T_in, N_in.
        change (act (P term top R xs ys zs) (seq [enter "link_macro" [d; r; 1]; each (eval_inline anchors wants fuel) l; exit "link_macro" [d; r; 1]]) (P term top R (xs ++ T l) (ys ++ N D l) zs)).
        eg1. eapply act_cons; [now apply EO with n|]. eg1. stop.
      + change (act (P term top R xs ys zs) (seq [enter "link_macro" [d; r; 0]; exit "link_macro" [d; r; 0]]) (P term top R (xs ++ []) (ys ++ []) zs)). apply post_nil.
        eg1. eg1. stop.
    - change (T [IXref target d o]) with (@nil string). change (N D [IXref target d o]) with (@nil string). apply post_nil. rewrite xref_eq.
      eg1. eapply act_cons; [|eapply act_cons; [apply act_replace; intros; apply act_skip|eg1; stop]].
      apply act_replace. intros r. cbv zeta.
      assert (Miss : act (P term top R xs ys zs) (visit "missing_xref" 0 target) (P term top R xs ys zs)) by eg.
      destruct r; [exact Miss|]. destruct (text_of_xref anchors target o) as [l|] eqn:E; [|exact Miss].
      set (biblio := flag _). clearbody biblio.
      assert (Around : forall g, act (P term top R xs ys zs) g (P term top R xs ys zs) ->
        act (P term top R xs ys zs) (seq [enter "xref_text" [biblio]; g; exit "xref_text" [biblio]]) (P term top R xs ys zs)).
      { intros g G. eg1. eapply act_cons; [exact G|]. eg1. stop. }
      assert (Own : o = Some l -> act (P term top R xs ys zs) (each (eval_inline anchors wants fuel) l) (P term top R xs ys zs)).
      { intros ->. eapply post_less. now apply EO with n. }
      unfold text_of_xref in E. destruct (lookup anchors (get_id target)) as [an|] eqn:L.
      + destruct (AT _ _ L) as [TR TT].
        assert (Anch : forall t, titles t -> t = l -> act (P term top R xs ys zs) (match fuel with 0 => fun _ => Loops | S f => seq [enter "xref_text" [biblio]; each (eval_inline anchors wants f) l; exit "xref_text" [biblio]] end) (P term top R xs ys zs)).
        { intros t Tt <-. destruct fuel as [|fuel']; [apply act_loops|]. apply Around. eapply post_less. apply (each_ok fuel' false); [|exact Tt|discriminate]. intros i0 _. apply IHf. lia. }
        destruct (reftext an) as [[|y r]|].
        * apply Around, Own. destruct o; [now injection E as ->|discriminate E].
        * injection E as <-. exact (Anch _ TR eq_refl).
        * destruct o as [o|]; cbn [some negb]; [apply Around, Own; now injection E as ->|]. destruct (a_title an) as [|z t]; [discriminate E|]. injection E as <-. exact (Anch _ TT eq_refl).
      + apply Around, Own. exact E.
    - rewrite mailto_eq. eg1. eapply act_cons; [|eg1; stop].
      destruct o as [l|]; cbn [each_opt]; [|apply post_nil, act_skip].
      change (T [IMailto d (Some l)]) with (T [ISpan SBold 0 l]). change (N D [IMailto d (Some l)]) with (N D [ISpan SBold 0 l]). rewrite T_in, N_in. now apply EO with n.
    - replace (eval_inline anchors wants fuel (IBiblio id)) with (visit "biblio_anchor" 0 id) by (destruct fuel; reflexivity). apply post_nil. eg.
    - change (T [IVisible l]) with (T [ISpan SBold 0 l]). change (N D [IVisible l]) with (N D [ISpan SBold 0 l]). rewrite T_in, N_in, visible_eq.
      apply act_ext with (seq [enter "visible_index_term" []; each (eval_inline anchors wants fuel) l]).
      { intros s. cbn [seq]. unfold then_ at 1 3, enter, emit, ask. unfold then_. cbn [out]. now rewrite WV. }
      eg1. eapply act_cons; [now apply EO with n|stop].
    - rewrite concealed_eq. cbv zeta. destruct K as (Kp & Ks & Kt). apply andb_true_iff in Tn as [Tn Tt]. apply andb_true_iff in Tn as [Tp Ts]. apply post_nil.
      assert (EL : forall l, every (fun i => forall n, inline_ok fuel n i) l -> forallb (tidy n) l = true -> act (P term top R xs ys zs) (each (eval_inline anchors wants fuel) l) (P term top R xs ys zs)).
      { intros l E F. eapply post_less. now apply EO with n. }
      eg1. eapply act_cons; [|eg1; stop]. apply act_ask; [|apply act_skip].
      eg1. eapply act_cons; [now apply EL|]. eg1. eapply act_cons; [|eapply act_cons; [|stop]].
      + destruct s as [l|]; [|apply act_skip]. eg1. eapply act_cons; [now apply EL|]. eg1. stop.
      + destruct t as [l|]; [|apply act_skip]. eg1. eapply act_cons; [now apply EL|]. eg1. stop.
    - replace (eval_inline anchors wants fuel INothing) with skip by (destruct fuel; reflexivity). apply post_nil, act_skip.
  Qed.
  Lemma inlines_ok fuel n l term top R xs ys zs : forallb (tidy n) l = true -> (n = true -> zs = []) ->
    act (P term top R xs ys zs) (inlines anchors wants fuel l) (P term top R (xs ++ T l) (ys ++ N D l) zs).
  Proof. intros F Z. apply each_ok with n; [|exact F|exact Z]. intros i _. apply all_inlines. Qed.
End Inline.

Section Blocks.
  Context (D : details) (debug : bool) (anchors : anchor_table) (wants : list event -> bool) (AT : anchors_tidy anchors) (WV : wants_visible wants) (fuel : nat).
  Notation act := (act D debug).
  Notation inlines := (inlines anchors wants fuel).
  Notation evb := (eval_block anchors wants fuel).
  Definition typed (dt : doctype) (m : meta) : Prop := m_doctype m = dt.
  Section At.
    Context (term top : bool) (R : meta -> Prop).
    Notation P := (P term top R).
    (** what is done adds the texts and the footnotes of [l] *)
    Definition adds (f : action) (l : list inline) : Prop := forall xs ys, act (P xs ys []) f (P (xs ++ T l) (ys ++ N D l) []).
    Lemma adds_none f : (forall xs ys, act (P xs ys []) f (P xs ys [])) -> adds f [].
    Proof. intros H xs ys. apply post_nil, H. Qed.
    Lemma adds_skip : adds skip [].
    Proof. apply adds_none. intros. apply act_skip. Qed.
    Lemma adds_then f g l l' : adds f l -> adds g l' -> adds (then_ f g) (l ++ l').
    Proof. intros F G xs ys. rewrite T_app, N_app, !app_assoc. eapply act_then; [apply F|apply G]. Qed.
    Lemma adds_cons f fs l l' : adds f l -> adds (seq fs) l' -> adds (seq (f :: fs)) (l ++ l').
    Proof. apply adds_then. Qed.
    Lemma adds_quiet f fs l : adds f [] -> adds (seq fs) l -> adds (seq (f :: fs)) l.
    Proof. apply adds_then. Qed.
    Lemma adds_nil : adds (seq []) [].
    Proof. apply adds_skip. Qed.
    Lemma adds_to f l l' : adds f l -> l = l' -> adds f l'.
    Proof. now intros H <-. Qed.
    Lemma adds_one f l : adds f l -> adds (seq [f]) l.
    Proof. intros H. eapply adds_to; [apply adds_cons; [exact H|apply adds_nil]|apply app_nil_r]. Qed.
    Lemma adds_each {A} (f : A -> action) (g : A -> list inline) l : (forall a, In a l -> adds (f a) (g a)) -> adds (each f l) (flat_map g l).
    Proof. induction l as [|a l IH]; intros H; [apply adds_skip|]. apply adds_then; [apply H; now left|]. apply IH. intros c I. apply H. now right. Qed.
    Lemma adds_inlines l : texts l -> adds (inlines l) l.
    Proof. intros H xs ys. apply inlines_ok with true; auto. Qed.
    Lemma adds_inlines_opt o : texts_opt o -> adds (inlines_opt anchors wants fuel o) (opt o).
    Proof. destruct o as [l|]; [apply adds_inlines|intros _; apply adds_skip]. Qed.
    Lemma adds_drop f l : adds f l -> adds f [].
    Proof. intros H. apply adds_none. intros xs ys. eapply post_less. apply H. Qed.
    (** the same with a title in the other buffer *)
    Definition opens (ts : list string) (f : action) (l : list inline) : Prop := forall xs ys, act (P xs ys ts) f (P (xs ++ ts ++ T l) (ys ++ N D l) []).
    Lemma opens_none ts f l : ts = [] -> adds f l -> opens ts f l.
    Proof. intros -> H. exact H. Qed.
    Lemma opens_cons ts e fs l : (forall xs ys, act (P xs ys ts) e (P (xs ++ ts) ys [])) -> adds (seq fs) l -> opens ts (seq (e :: fs)) l.
    Proof. intros H F xs ys. eapply act_cons; [apply H|]. rewrite app_assoc. apply F. Qed.
    Lemma opens_later ts e fs l : (forall xs ys, act (P xs ys ts) e (P xs ys ts)) -> opens ts (seq fs) l -> opens ts (seq (e :: fs)) l.
    Proof. intros H F xs ys. eapply act_cons; [apply H|]. apply F. Qed.
    Lemma opens_one ts e : (forall xs ys, act (P xs ys ts) e (P (xs ++ ts) ys [])) -> opens ts e [].
    Proof. intros H xs ys. change (T []) with (@nil string). change (N D []) with (@nil string). rewrite !app_nil_r. apply H. Qed.
    Lemma opens_to ts f l l' : opens ts f l -> l = l' -> opens ts f l'.
    Proof. now intros H <-. Qed.
    Lemma tri_opens d ts c xs ys : shows D d c -> ts = [] \/ n_title D d = true -> tri (P xs ys ts) c (P (xs ++ ts) ys []).
    Proof. intros S [->|H]; [rewrite app_nil_r; now apply tri_shows_none with D d|now apply tri_shows with D d]. Qed.
  End At.
  Ltac quiet := apply adds_none; intros; eg.
  Ltac q1 := apply adds_quiet; [quiet|].

  (** ** The table of contents *)
  Section At'.
    Context (term top : bool) (R : meta -> Prop).
    Notation P := (P term top R).
    Notation adds := (adds term top R).
    Lemma adds_toc_node n : toc_tidy n -> adds (eval_toc_node anchors wants fuel n) [].
    Proof.
      induction n as [d level title children IH] using toc_rect'. intros [Tt C]. cbn [eval_toc_node]. q1. q1. apply adds_quiet; [apply adds_drop with title; now apply adds_inlines|]. q1.
      apply adds_quiet; [|q1; apply adds_nil]. destruct children as [|[d' lv t' ch'] l] eqn:Ec; [apply adds_skip|]. rewrite <- Ec in *. clear Ec.
      q1. apply adds_quiet; [|q1; apply adds_nil]. eapply adds_drop. apply adds_each with (g := fun _ => []). intros n I. apply (proj1 (every_in _ children) IH n I). apply (proj1 (every_in _ children) C n I).
    Qed.
    Lemma adds_toc_at t ps : tocs_tidy t -> adds (eval_toc_at anchors wants fuel t ps) [].
    Proof.
      destruct t as [t|]; [|intros _; apply adds_skip]. cbn [tocs_tidy]. intros H. unfold eval_toc_at. destruct (_ && _); [|apply adds_skip]. q1. apply adds_quiet; [|q1; apply adds_nil].
      destruct (toc_nodes t) as [|[d level title children] l0] eqn:E; [apply adds_skip|]. cbn [eval_toc_level]. rewrite <- E in *. clear E.
      q1. apply adds_quiet; [|q1; apply adds_nil]. eapply adds_drop. apply adds_each with (g := fun _ => []). intros n I. apply adds_toc_node. exact (proj1 (every_in _ _) H n I).
    Qed.
  End At'.

  (** ** Parts that hold blocks *)
  Definition block_adds (k : block) : Prop := forall t term top dt, tocs_tidy t -> shown D term dt k -> adds term top (typed dt) (evb t k) (nodes D k).
  Section Parts.
    Context (t : option toc) (term top : bool) (dt : doctype) (TT : tocs_tidy t).
    Notation adds := (adds term top (typed dt)).
    Lemma adds_blocks l : every block_adds l -> every (shown D term dt) l -> adds (each (evb t) l) (flat_map (nodes D) l).
    Proof. intros B F. apply adds_each. intros k I. apply (proj1 (every_in _ l) B k I); [exact TT|exact (proj1 (every_in _ l) F k I)]. Qed.
    Lemma adds_section s : section_fits block_adds s -> section_shown (shown D) term dt s -> adds (eval_section anchors wants fuel evb t s) (section_nodes (nodes D) s).
    Proof.
      intros B [F1 F2]. unfold eval_section. q1. q1. apply adds_cons; [now apply adds_inlines|]. q1. eapply adds_to; [apply adds_cons; [now apply adds_blocks|q1; apply adds_nil]|apply app_nil_r].
    Qed.
    Lemma adds_sections l : every (section_fits block_adds) l -> every (section_shown (shown D) term dt) l -> adds (each (eval_section anchors wants fuel evb t) l) (flat_map (section_nodes (nodes D)) l).
    Proof. intros B F. apply adds_each. intros s I. apply adds_section; [exact (proj1 (every_in _ l) B s I)|exact (proj1 (every_in _ l) F s I)]. Qed.
    Lemma adds_part p : part_fits block_adds p -> part_shown (shown D) term dt p -> adds (eval_book_part anchors wants fuel evb t p) (part_nodes (nodes D) p).
    Proof.
      intros [B1 B2] (F1 & F2 & F3 & F4). unfold eval_book_part. q1. q1. apply adds_cons; [now apply adds_inlines|]. q1. apply adds_cons.
      - destruct (p_intro p) as [l|]; [|apply adds_skip]. q1. apply adds_cons; [now apply adds_inlines_opt|]. q1. eapply adds_to; [apply adds_cons; [now apply adds_blocks|q1; q1; apply adds_nil]|apply app_nil_r].
      - eapply adds_to; [apply adds_cons; [now apply adds_sections|q1; apply adds_nil]|apply app_nil_r].
    Qed.
    Lemma adds_item v i : item_all block_adds i -> item_shown (shown D) term dt i -> adds (eval_item anchors wants fuel evb t v i) (item_nodes (nodes D) i).
    Proof.
      intros [B _] [F1 F2]. unfold eval_item. q1. apply adds_cons; [now apply adds_inlines|]. q1. q1. eapply adds_to; [apply adds_cons; [now apply adds_blocks|q1; apply adds_nil]|apply app_nil_r].
    Qed.
    Lemma adds_terms d total n l : every texts l -> adds (eval_terms anchors wants fuel d total n l) (concat l).
    Proof.
      revert n. induction l as [|x l IH]; intros n H; [apply adds_skip|]. destruct H as [H1 H2]. cbn [eval_terms concat]. q1. apply adds_cons; [now apply adds_inlines|]. q1. apply adds_one. now apply IH.
    Qed.
    Lemma adds_wrap f g h l : adds f [] -> adds g l -> adds h [] -> adds (seq [f; g; h]) l.
    Proof. intros F G H. apply adds_quiet; [exact F|]. eapply adds_to; [apply adds_cons; [exact G|apply adds_one, H]|apply app_nil_r]. Qed.
    Lemma adds_quote d attr cite : texts_opt attr -> texts_opt cite -> adds (eval_quote_attr anchors wants fuel d attr cite) (opt attr ++ opt cite).
    Proof.
      intros F1 F2. unfold eval_quote_attr. apply adds_cons; [|apply adds_one].
      - destruct attr as [l|]; [|apply adds_skip]. apply adds_wrap; [quiet|now apply adds_inlines|quiet].
      - destruct cite as [l|]; [|apply adds_skip]. apply adds_wrap; [quiet|now apply adds_inlines|quiet].
    Qed.
  End Parts.
  Lemma adds_description t term top dt i : tocs_tidy t -> item_all block_adds i -> description_shown (shown D) term dt i ->
    adds term top (typed dt) (eval_description anchors wants fuel evb t i) (description_nodes (nodes D) i).
  Proof.
    intros TT [B1 B2] (F1 & F2 & F3). unfold eval_description, description_nodes. destruct (i_meta i) as [extra de|]; [|intros xs ys; apply act_crash]. destruct F3 as [F3 F4].
    q1. apply adds_cons; [now apply adds_inlines|]. q1. rewrite <- app_assoc. apply adds_cons; [now apply adds_terms|]. apply adds_one.
    assert (Bl : adds term top (typed dt) (each (fun b => seq [enter "description_list_description_block" [i_d i]; evb t b; exit "description_list_description_block" [i_d i]]) (i_blocks i)) (flat_map (nodes D) (i_blocks i))).
    { apply adds_each. intros k I. apply adds_wrap; [quiet| |quiet]. apply (proj1 (every_in _ _) B1 k I); [exact TT|exact (proj1 (every_in _ _) F2 k I)]. }
    destruct (some de || _) eqn:S.
    - q1. apply adds_cons; [|eapply adds_to; [apply adds_cons; [exact Bl|q1; apply adds_nil]|apply app_nil_r]].
      destruct de as [k|]; [|apply adds_skip]. intros xs ys. eapply act_cons; [|eapply act_cons; [apply (B2 t true top dt TT F4)|eapply act_cons; [|stop]]].
      + ev. intros h h' (H1 & H2 & H3 & H4 & H5) E. injection E as <-. split; [exact H1|]. split; [exact H2|]. split; [exact H3|]. split; [discriminate|exact H5].
      + ev. intros h h' (H1 & H2 & H3 & H4 & H5) E. injection E as <-. split; [exact H1|]. split; [exact H2|]. split; [exact H3|]. split; [reflexivity|exact H5].
    - destruct de; [discriminate S|]. destruct (i_blocks i); [apply adds_skip|discriminate S].
  Qed.

  (** ** Documents *)
  Lemma adds_content t term top dt has c : tocs_tidy t -> content_fits block_adds c -> content_shown (shown D) term dt c ->
    adds term top (typed dt) (eval_doc_content anchors wants fuel evb t has c) (content_nodes (nodes D) c).
  Proof.
    intros TT B F. unfold eval_doc_content. apply adds_wrap; [quiet| |quiet].
    destruct c as [l|pre secs|pre op parts cl]; cbn [content_fits content_shown content_nodes] in *.
    - now apply adds_blocks.
    - destruct B as [B1 B2], F as [F1 F2]. apply adds_cons; [|apply adds_one; now apply adds_sections]. destruct pre as [l|]; [|apply adds_skip]. cbn [option_map opt].
      q1. eapply adds_to; [apply adds_cons; [now apply adds_blocks|apply adds_quiet; [now apply adds_toc_at|q1; apply adds_nil]]|apply app_nil_r].
    - destruct B as (B1 & B2 & B3 & B4), F as (F1 & F2 & F3 & F4). rewrite app_assoc. apply adds_cons; [|apply adds_cons; [|apply adds_one; now apply adds_sections]].
      + destruct pre as [l|]; [|now apply adds_sections]. cbn [option_map opt].
        q1. apply adds_cons; [now apply adds_blocks|]. eapply adds_to; [apply adds_cons; [now apply adds_sections|apply adds_quiet; [now apply adds_toc_at|q1; apply adds_nil]]|apply app_nil_r].
      + apply adds_each. intros x I. apply adds_part; [exact TT|exact (proj1 (every_in _ _) B3 x I)|exact (proj1 (every_in _ _) F3 x I)].
  Qed.
  Lemma adds_info {term top R} (doc : document block) o : texts_opt o -> adds term top R (eval_docinfo anchors wants fuel doc o) (info_nodes doc o).
  Proof. intros H. unfold eval_docinfo, info_nodes. destruct (embedded doc); [apply adds_skip|now apply adds_inlines_opt]. Qed.
  Lemma get_suffix m k v : k <> "outfilesuffix" -> k <> "doctitle" -> get (fst (insert_doc_attr m "outfilesuffix" v)) k = get m k.
  Proof.
    intros H H'. assert (E : fst (insert_doc_attr m "outfilesuffix" v) = with_doc m (aput (m_doc m) "outfilesuffix" v)) by reflexivity. rewrite E. clear E.
    assert (E : resolve_attr (with_doc m (aput (m_doc m) "outfilesuffix" v)) k = resolve_attr m k) by (unfold resolve_attr; cbn [m_doc m_header m_default with_doc]; now rewrite aget_aput_other).
    apply String.eqb_neq in H'. unfold get. rewrite E, H'. reflexivity.
  Qed.
  Lemma title_same m v : render_doc_title (fst (insert_doc_attr m "outfilesuffix" v)) = shows_title m.
  Proof.
    unfold render_doc_title, shows_title, show_doc_title, get_is_true, get_is_false. rewrite !get_suffix by discriminate. now rewrite (proj2 (insert_keeps m "outfilesuffix" v)).
  Qed.
  Lemma sub_notes i l : sub (flat_map (fun n => raws (snd n)) l) (raws (footnote_list i l)).
  Proof.
    revert i. induction l as [|[o x] l IH]; intros i; [constructor|]. cbn [flat_map footnote_list snd]. rewrite !raws_app. apply sub_after. apply sub_app; [apply sub_refl|]. apply sub_after. apply IH.
  Qed.
  Lemma tri_foot term top R xs ys : tri (P term top R xs ys []) enter_footer (P term top R (xs ++ if top then ys else []) ys []).
  Proof.
    unfold enter_footer. eapply tri_cons; [|eapply tri_cons; [apply tri_grow; gr|apply tri_nil]].
    intros h h' (H1 & H2 & H3 & H4 & H5 & H6) E. unfold look in E. destruct (notes h) as [|n l] eqn:En.
    - injection E as <-. cbn in H2. inversion H2; subst. replace (if top then [] else []) with (@nil string) by now destruct top. rewrite app_nil_r. split; [exact H1|]. rewrite En. now repeat (split; [assumption|]).
    - destruct (in_cell h) eqn:C.
      + injection E as <-. destruct top; [now discriminate H6|]. rewrite app_nil_r. split; [exact H1|]. rewrite En. repeat (split; [assumption|]). congruence.
      + injection E as <-. split; [|split; [cbn [notes set_html]; rewrite En; exact H2|repeat (split; [assumption|]); cbn; auto]].
        cbn [html set_html]. rewrite raws_app. apply sub_app; [exact H1|]. unfold render_footnotes. rewrite !raws_app. do 2 apply sub_after. apply sub_more. destruct top; [|constructor].
        eapply sub_trans; [exact H2|apply sub_notes].
  Qed.
  Lemma tri_document_start term top (R : meta -> Prop) d xs ys : R (doc_meta D d) -> tri (P term top (fun _ => True) xs ys []) (enter_document D d) (P term top R xs ys []).
  Proof.
    intros HR. unfold enter_document. fold (doc_meta D d). eapply tri_cons; [|eapply tri_cons; [apply tri_grow; gr|eapply tri_cons; [apply tri_grow; gr|apply tri_nil]]].
    intros h h' (H1 & H2 & H3 & H4 & H5 & H6) E. injection E as <-. repeat (split; [assumption|]). assumption.
  Qed.
  Lemma adds_weaken term top (R R' : meta -> Prop) f l xs ys : (forall m, R m -> R' m) -> adds term top R' f l -> act (P term top R xs ys []) f (P term top R' (xs ++ T l) (ys ++ N D l) []).
  Proof. intros H A. eapply act_pre; [|apply A]. intros h (H1 & H2 & H3 & H4 & H5 & H6). repeat (split; [assumption|]). split; [now apply H|exact H6]. Qed.
  Lemma titles_no_notes l : titles l -> N D l = [].
  Proof.
    unfold titles, N. intros H. assert (A : forall i, tidy false i = true -> notes_in D i = []).
    { clear. induction i as [i K] using inline_rect'. intros Tn. assert (Q : forall l, every (fun i => tidy false i = true -> notes_in D i = []) l -> forallb (tidy false) l = true -> flat_map (notes_in D) l = []).
      { induction l as [|x l IH]; [reflexivity|]. cbn. intros [E1 E2] F. apply andb_true_iff in F as [F1 F2]. now rewrite (E1 F1), (IH E2 F2). }
      destruct i as [k d l|l|t|name d|d l|d o|d o|target d o|d o|id|l|p s t|]; cbn [kids tidy notes_in] in *; try reflexivity; try (now apply Q); try (destruct o; [now apply Q|reflexivity]). discriminate Tn. }
    replace (flat_map (notes_in D) l) with (@nil string); [reflexivity|]. symmetry. induction l as [|x l IH]; [reflexivity|]. cbn in *. apply andb_true_iff in H as [F1 F2]. now rewrite (A x F1), IH.
  Qed.
  Lemma document_go top ys doc : document_fits block_adds doc -> document_shown D (shown D) doc ->
    let l := document_nodes D (nodes D) doc in let z := document_footer doc in
    act (P false top (fun _ => True) [] ys []) (visit_document anchors wants fuel evb doc)
        (P false top (fun _ => True) (T l ++ (if top then ys ++ N D l else []) ++ T z) (ys ++ N D l ++ N D z) []).
  Proof.
    intros B (F1 & F2 & F3 & F4 & F5 & F6) l z. unfold visit_document. set (m := doc_meta D (d_d doc)). set (R := fun x => x = m).
    set (dt := m_doctype (n_meta D (d_d doc))) in *.
    eapply act_cons; [ev; apply (tri_document_start false top R); reflexivity|]. eapply act_cons; [apply adds_info; exact F3|]. eg1. eapply act_cons; [apply adds_info; exact F4|]. eg1.
    set (ti := if shows_title (n_meta D (d_d doc)) then opt (d_title doc) else []).
    eapply act_cons.
    { instantiate (1 := P false top R (([] ++ T (info_nodes doc (info_head doc))) ++ T (info_nodes doc (info_header doc)) ++ T ti)
        ((ys ++ N D (info_nodes doc (info_head doc))) ++ N D (info_nodes doc (info_header doc)) ++ N D ti) []).
      rewrite !(app_assoc (_ ++ _)). set (u := (_ ++ T _) ++ _). set (v := (ys ++ _) ++ _). clearbody u v. unfold ti.
      destruct (d_title doc) as [x|]; cbn [opt]; [|destruct (shows_title _); apply post_nil, act_skip].
      assert (Q : forall h, R (dm h) -> render_doc_title (dm h) = shows_title (n_meta D (d_d doc))) by (intros h ->; apply title_same).
      destruct (shows_title (n_meta D (d_d doc))) eqn:S.
      - eapply act_cons; [ev; apply tri_look; intros h (_ & _ & _ & _ & H & _); rewrite (Q h H); apply tri_grow; gr|]. eapply act_cons; [apply (inlines_ok D debug anchors wants AT WV fuel false); [exact F2|discriminate]|].
        eapply act_cons; [ev; apply tri_look; intros h (_ & _ & _ & _ & H & _); rewrite (Q h H); apply tri_grow; gr|stop].
      - apply post_nil. eapply act_cons; [ev; apply tri_look; intros h (_ & _ & _ & _ & H & _); rewrite (Q h H); apply tri_start|]. eapply act_cons; [apply (inlines_ok D debug anchors wants AT WV fuel false); [exact F2|discriminate]|].
        rewrite (titles_no_notes x F2), app_nil_r. eapply act_cons; [ev; apply tri_look; intros h (_ & _ & _ & _ & H & _); rewrite (Q h H); apply tri_discard|stop]. }
    eg1. eapply act_cons; [apply adds_weaken with (R' := typed dt) (l := []); [intros x ->; apply insert_keeps|now apply adds_toc_at]|].
    eapply act_cons; [now apply adds_content|]. eapply act_cons; [ev; apply tri_foot|]. eg1. eapply act_cons; [apply adds_info; exact F5|]. eg1.
    eapply act_cons; [|stop]. ev. intros h h' H E. injection E as <-. destruct H as (H1 & H2 & H3 & H4 & H5 & H6). split; [|split; [|repeat (split; [assumption || exact I|]); assumption]].
    - unfold l, document_nodes, z, document_footer. fold ti. rewrite !T_app, !N_app. change (T []) with (@nil string) in H1. change (N D []) with (@nil string) in H1. cbn [app] in H1. rewrite ?app_nil_r in H1. rewrite <- ?app_assoc in *. exact H1.
    - unfold l, document_nodes, z, document_footer. fold ti. rewrite !N_app. change (N D []) with (@nil string) in H2. rewrite ?app_nil_r in H2. rewrite <- ?app_assoc in *. exact H2.
  Qed.

  (** ** Cells and tables *)
  Definition ends_lit (h : hst) : Prop := exists q x, html h = q ++ [Lit x].
  Lemma cell_ends d sect h h' : enter_table_cell D d sect h = Ret h' -> ends_lit h'.
  Proof.
    assert (X : exists q, open_cell D d sect = q ++ [Lit """>"]) by (unfold open_cell; rewrite !app_assoc; eexists; reflexivity). destruct X as [q X]. unfold enter_table_cell. rewrite X. clear X. unfold ends_lit.
    destruct (n_cell D d); intros E; injection E as <-; cbn [html set_html set_nls ok put nothing]; try (exists (html h ++ q); eexists; rewrite <- app_assoc; reflexivity); cbn; eexists; eexists; reflexivity.
  Qed.
  Lemma paragraph_ends d sect h h' : exit_cell_paragraph D d sect h = Ret h' -> ends_lit h'.
  Proof. unfold exit_cell_paragraph. intros E. injection E as <-. cbn [html set_html]. destruct (sect =? 0); [|destruct (n_cell D d)]; eexists; eexists; reflexivity. Qed.
  Lemma pop_lit q x : raws (pop_byte (q ++ [Lit x])) = raws (q ++ [Lit x]).
  Proof. unfold pop_byte. rewrite rev_app_distr. cbn [rev app]. rewrite rev_involutive, !raws_app. reflexivity. Qed.
  Lemma tri_cell_end term top R d sect xs ys : tri (fun h => P term top R xs ys [] h /\ ends_lit h) (exit_table_cell D d sect) (P term top R xs ys []).
  Proof.
    unfold exit_table_cell. destruct (heads D d sect).
    - eapply tri_cons; [|eapply tri_cons; [apply tri_grow; gr|apply tri_nil]]. intros h h' [H (q & x & L)] E. injection E as <-. destruct (ends_with_space (html h)); [|exact H].
      destruct H as (H1 & H2 & H3 & H4 & H5 & H6). split; [|repeat (split; [assumption|]); assumption]. cbn [html set_html]. rewrite L, pop_lit, <- L. exact H1.
    - eapply tri_weak; [|intros h H; exact H|apply tri_grow; gr]. now intros h [H _].
  Qed.
  Lemma adds_cell t term top dt sect c : tocs_tidy t -> cell_fits block_adds c -> cell_shown D (shown D) sect c ->
    adds term top (typed dt) (eval_cell anchors wants fuel evb t sect c) (cell_nodes D (nodes D) c).
  Proof.
    intros TT B F. unfold eval_cell, cell_fits, cell_shown, cell_nodes in *. destruct (c_content c) as [l|l|doc] eqn:Ec.
    - intros xs ys. apply act_cons with (fun h => P term top (typed dt) xs ys [] h /\ ends_lit h).
      { ev. intros h h' H E. split; [|exact (cell_ends _ _ _ _ E)]. revert h h' H E. apply tri_grow. gr. }
      apply act_cons with (fun h => P term top (typed dt) (xs ++ T (concat l)) (ys ++ N D (concat l)) [] h /\ ends_lit h); [|eapply act_cons; [ev; apply tri_cell_end|stop]].
      clear Ec. revert xs ys. induction l as [|p l IH]; intros xs ys; [cbn; rewrite !app_nil_r; apply act_skip|]. destruct F as [F1 F2].
      cbn [concat]. rewrite T_app, N_app, !app_assoc. eapply act_then; [|apply IH; exact F2].
      eapply act_cons. { ev. eapply tri_weak; [|intros h H; exact H|apply tri_grow with (xs := xs) (ys := ys) (zs := []) (term := term) (top := top) (R := typed dt); gr]. now intros h [H _]. }
      eapply act_cons; [apply adds_inlines; exact F1|]. eapply act_cons; [|stop].
      ev. intros h h' H E. split; [|exact (paragraph_ends _ _ _ _ E)]. revert h h' H E. apply tri_grow. gr.
    - destruct F as [F1 F2]. apply adds_wrap; [quiet|now apply adds_inlines|]. apply adds_none. intros. ev. unfold exit_table_cell. rewrite F1. apply tri_grow. gr.
    - destruct F as [F1 F2]. apply adds_wrap; [quiet| |apply adds_none; intros; ev; unfold exit_table_cell; rewrite F1; apply tri_grow; gr].
      intros xs ys e0 e1 E. destruct (visit_document anchors wants fuel evb doc (St [] false)) as [s'| |] eqn:Ev; try discriminate E. injection E as <-. exists [Cell_ (out s')]. split; [reflexivity|].
      destruct (document_go false ys doc B F2 _ _ Ev) as (l & O & W). cbn in O. rewrite O. clear O.
      intros h h' H C. cbn [HtmlModel.calls] in C. unfold bind in C. rewrite call_cell in C. destruct (HtmlModel.calls D debug l _) as [s1|] eqn:C1; [|discriminate C]. injection C as <-.
      destruct H as (H1 & H2 & H3 & H4 & H5 & H6).
      assert (PS : P false false (fun _ => True) [] ys [] (set_cell true (set_notes (notes h) fresh))).
      { split; [constructor|]. split; [exact H2|]. split; [constructor|]. split; [reflexivity|]. split; [exact I|discriminate]. }
      destruct (W _ _ PS C1) as (S1 & S2 & _).
      split; [|split; [|split; [constructor|split; [exact H4|split; [exact H5|reflexivity]]]]].
      + cbn [html set_notes set_html]. rewrite raws_app, T_app. apply sub_app; [exact H1|exact S1].
      + cbn [notes set_notes]. now rewrite N_app.
  Qed.
  Lemma adds_row t term top dt sect r : tocs_tidy t -> row_fits block_adds r -> row_shown D (shown D) sect r ->
    adds term top (typed dt) (eval_row anchors wants fuel evb t sect r) (row_nodes D (nodes D) r).
  Proof.
    intros TT B F. unfold eval_row. apply adds_wrap; [quiet| |quiet]. apply adds_each. intros c I. apply adds_cell; [exact TT|exact (proj1 (every_in _ _) B c I)|exact (proj1 (every_in _ _) F c I)].
  Qed.
  Lemma opens_table t term top dt d tb ts : tocs_tidy t -> table_fits block_adds tb -> table_shown D (shown D) tb -> ts = [] \/ n_title D d = true ->
    opens term top (typed dt) ts (eval_table anchors wants fuel evb t d tb) (table_nodes D (nodes D) tb).
  Proof.
    intros TT (B1 & B2 & B3) (F1 & F2 & F3) C. unfold eval_table. apply opens_cons; [intros; ev; apply tri_opens with d; [apply shows_table|exact C]|].
    assert (O : forall k o, match o with Some r => row_fits block_adds r | None => True end -> match o with Some r => row_shown D (shown D) k r | None => True end ->
      adds term top (typed dt) (match o with Some r => seq [enter "table_section" [k]; eval_row anchors wants fuel evb t k r; exit "table_section" [k]] | None => skip end) (match o with Some r => row_nodes D (nodes D) r | None => [] end)).
    { intros k [r|] Br Fr; [|apply adds_skip]. apply adds_wrap; [quiet|now apply adds_row|quiet]. }
    apply adds_cons; [now apply O|]. apply adds_cons; [|eapply adds_to; [apply adds_cons; [now apply O|q1; apply adds_nil]|apply app_nil_r]].
    destruct (body_rows tb) as [|r0 rows0] eqn:Er; [apply adds_skip|]. rewrite <- Er in *. clear Er r0 rows0. apply adds_wrap; [quiet| |quiet].
    apply adds_each. intros r I. apply adds_row; [exact TT|exact (proj1 (every_in _ _) B2 r I)|exact (proj1 (every_in _ _) F2 r I)].
  Qed.

  (** ** Blocks *)
  Lemma tri_declared term top dt d xs ys : tri (P term top (typed dt) xs ys []) (visit_decl D d) (P term top (typed dt) xs ys []).
  Proof.
    unfold visit_decl. destruct (n_decl D d) as [n v]. eapply tri_cons; [apply tri_grow; gr|]. eapply tri_cons; [|apply tri_nil].
    intros h h' (H1 & H2 & H3 & H4 & H5 & H6) E. injection E as <-. repeat (split; [assumption|]). split; [|assumption]. unfold typed. cbn. rewrite (proj1 (insert_keeps _ _ _)). exact H5.
  Qed.
  Lemma opens_simple term top dt ts e d l x : (forall xs ys, act (P term top (typed dt) xs ys ts) e (P term top (typed dt) (xs ++ ts) ys [])) -> texts l -> adds term top (typed dt) x [] ->
    opens term top (typed dt) ts (seq [e; enter "simple_block_content" [d]; inlines l; exit "simple_block_content" [d]; x]) l.
  Proof. intros H F X. apply opens_cons; [exact H|]. q1. eapply adds_to; [apply adds_cons; [now apply adds_inlines|q1; apply adds_one; exact X]|apply app_nil_r]. Qed.
  Lemma opens_compound t term top dt ts e d l x : tocs_tidy t -> (forall xs ys, act (P term top (typed dt) xs ys ts) e (P term top (typed dt) (xs ++ ts) ys [])) -> every block_adds l -> every (shown D term dt) l -> adds term top (typed dt) x [] ->
    opens term top (typed dt) ts (seq [e; enter "compound_block_content" [d]; each (evb t) l; exit "compound_block_content" [d]; x]) (flat_map (nodes D) l).
  Proof. intros TT H B F X. apply opens_cons; [exact H|]. q1. eapply adds_to; [apply adds_cons; [now apply adds_blocks|q1; apply adds_one; exact X]|apply app_nil_r]. Qed.
  Ltac opn sh := intros; ev; eapply tri_opens; [apply sh|eassumption].
  Ltac items B F := apply adds_each; intros i I; apply adds_item; [assumption|exact (proj1 (every_in _ _) B i I)|exact (proj1 (every_in _ _) F i I)].
  Lemma all_blocks : forall k, block_adds k.
  Proof.
    induction k as [d title attr cite cx body B] using block_rect'. intros t term top dt TT (F1 & F2 & F3 & F4 & F5).
    assert (Main : forall ts, (ts = [] \/ title_shown D term dt d cx body) -> opens term top (typed dt) ts (evb t (Block d None attr cite cx body)) (nodes D (Block d None attr cite cx body))).
    2: {
      assert (L : nodes D (Block d title attr cite cx body) = opt title ++ nodes D (Block d None attr cite cx body)) by reflexivity. rewrite L.
      destruct title as [l|]; [|exact (Main [] (or_introl eq_refl))].
      specialize (F2 eq_refl). specialize (Main (T l) (or_intror F2)). intros xs ys. rewrite T_app, N_app. cbn [opt].
      apply act_ext with (then_ (seq [enter "meta_title" [d]; inlines l; exit "meta_title" [d]]) (evb t (Block d None attr cite cx body))).
      { intros s. cbn [eval_block]. match goal with |- context [seq [skip; ?x]] => generalize x end. intros x. cbn [seq]. unfold then_, skip. destruct (enter _ _ s); [|reflexivity..]. destruct (inlines _ _); [|reflexivity..]. destruct (exit _ _ _); reflexivity. }
      eapply act_then.
      - eapply act_cons; [ev; apply tri_start|]. eapply act_cons; [apply (inlines_ok D debug anchors wants AT WV fuel false); [exact F1|discriminate]|]. eapply act_cons; [ev; apply tri_title_end|stop].
        destruct F2 as [-> F2]. intros ->. exact F2.
      - cbn [app]. rewrite (app_assoc ys). apply Main. }
    intros ts C. clear F1 F2 title. cbn [eval_block]. apply opens_later; [intros; apply act_skip|].
    assert (O1 : forall f L, opens term top (typed dt) ts f L -> opens term top (typed dt) ts (seq [f]) L). { intros f L H xs ys. apply act_one, H. }
    apply O1. clear O1.
    assert (Crash_ : forall L, opens term top (typed dt) ts (fun _ => Crash) L) by (intros L xs ys; apply act_crash).
    destruct cx, body as [l|l|en|en|en l| |tb|sc|en|qu qa qc|v n items]; cbn [body_all] in B; try apply Crash_; cbn [title_shown nodes opt app] in *.
    all: unfold title_shown in C.
    all: lazymatch type of C with ?a \/ ?b /\ False => assert (C0 : ts = []) by (clear - C; tauto); clear C | _ => idtac end.
    all: lazymatch goal with
      | C0 : _ = @nil string |- opens _ _ _ _ skip [] => apply opens_none; [exact C0|apply adds_skip]
      | C0 : _ = @nil string |- opens _ _ _ _ (visit "page_break" _ _) [] => apply opens_none; [exact C0|quiet]
      | C0 : _ = @nil string |- opens _ _ _ _ (visit "thematic_break" _ _) [] => apply opens_none; [exact C0|quiet]
      | C0 : _ = @nil string |- opens _ _ _ _ (eval_toc_at _ _ _ _ _) [] => apply opens_none; [exact C0|apply adds_toc_at; exact TT]
      | C0 : _ = @nil string |- opens _ _ _ _ (visit "document_attribute_decl" _ _) [] => apply opens_none; [exact C0|apply adds_none; intros; ev; apply tri_declared]
      | C0 : _ = @nil string |- opens _ _ _ _ (eval_section _ _ _ _ _ _) _ => apply opens_none; [exact C0|rewrite app_nil_r; apply adds_section; [exact TT|exact B|exact F5]]
      | C0 : _ = @nil string |- opens _ _ _ _ (seq [enter "discrete_heading" _; _; _]) _ => apply opens_none; [exact C0|rewrite app_nil_r; apply adds_wrap; [quiet|apply adds_inlines; exact F5|quiet]]
      | C0 : _ = @nil string |- opens _ _ _ _ (seq [enter "passthrough_block" _; _; _; _; _]) _ =>
          apply opens_none; [exact C0|rewrite app_nil_r; q1; apply adds_quiet; [quiet|]; eapply adds_to; [apply adds_cons; [apply adds_inlines; exact F5|q1; q1; apply adds_nil]|apply app_nil_r]]
      | C0 : _ = @nil string |- opens _ _ _ _ (seq [enter "callout_list" _; _; _]) _ => apply opens_none; [exact C0|rewrite app_nil_r; apply adds_wrap; [quiet|items B F5|quiet]]
      | _ => idtac
      end.
    all: lazymatch type of C with ?a \/ ?b /\ n_title _ ?x = true => assert (CT : ts = [] \/ n_title D x = true) by (clear - C; tauto); clear C | _ => idtac end.
    all: lazymatch goal with |- opens _ _ _ _ _ (_ ++ []) => rewrite app_nil_r | _ => idtac end.
    - apply opens_compound; [exact TT|opn shows_admonition|exact B|exact F5|quiet].
    - apply opens_cons; [opn shows_admonition|]. eapply adds_to; [apply adds_cons; [apply adds_inlines; exact F5|q1; apply adds_nil]|apply app_nil_r].
    - apply opens_one. opn shows_audio.
    - apply opens_cons; [opn shows_quote|]. q1. eapply adds_to; [apply adds_cons; [apply adds_blocks; [exact TT|exact B|exact F5]|q1; apply adds_cons; [apply adds_quote; [exact F3|exact F4]|q1; apply adds_nil]]|now rewrite app_nil_r].
    - apply opens_cons; [opn shows_quote|]. q1. eapply adds_to; [apply adds_cons; [apply adds_inlines; exact F5|q1; apply adds_cons; [apply adds_quote; [exact F3|exact F4]|q1; apply adds_nil]]|now rewrite app_nil_r].
    - apply opens_cons; [opn shows_dlist|]. eapply adds_to; [apply adds_cons; [|q1; apply adds_nil]|apply app_nil_r].
      apply adds_each. intros i I. apply adds_description; [exact TT|exact (proj1 (every_in _ _) B i I)|exact (proj1 (every_in _ _) F5 i I)].
    - apply opens_compound; [exact TT|opn shows_example|exact B|exact F5|quiet].
    - apply opens_simple; [opn shows_example|exact F5|quiet].
    - apply opens_later; [intros; eg|]. apply opens_cons; [|apply adds_nil]. intros. ev. destruct C as [->|(_ & C1 & C2)]; [rewrite app_nil_r; apply tri_image_none|now apply tri_image].
    - apply opens_simple; [opn shows_listing|exact F5|quiet].
    - apply opens_simple; [opn shows_literal|exact F5|quiet].
    - apply opens_cons; [opn shows_ordered|]. eapply adds_to; [apply adds_cons; [items B F5|q1; apply adds_nil]|apply app_nil_r].
    - apply opens_compound; [exact TT|opn shows_open|exact B|exact F5|quiet].
    - apply opens_simple; [|exact F5|quiet]. intros. ev. destruct C as [->|(_ & C1 & C2 & C3)]; [rewrite app_nil_r; apply tri_paragraph_none|apply tri_paragraph; [exact C1|exact C2|]]. intros m ->. exact C3.
    - destruct F5 as (G1 & G2 & G3). apply opens_cons; [opn shows_quote|]. eapply adds_to; [apply adds_cons; [apply adds_inlines; exact G1|apply adds_cons; [apply adds_quote; [exact G2|exact G3]|q1; apply adds_nil]]|now rewrite app_nil_r].
    - apply opens_compound; [exact TT|opn shows_sidebar|exact B|exact F5|quiet].
    - apply opens_simple; [opn shows_sidebar|exact F5|quiet].
    - apply opens_table; [exact TT|exact B|exact F5|exact CT].
    - apply opens_cons; [opn shows_unordered|]. eapply adds_to; [apply adds_cons; [items B F5|q1; apply adds_nil]|apply app_nil_r].
    - apply opens_cons; [opn shows_verse|]. q1. eapply adds_to; [apply adds_cons; [apply adds_inlines; exact F5|q1; apply adds_cons; [apply adds_quote; [exact F3|exact F4]|q1; apply adds_nil]]|now rewrite app_nil_r].
    - apply opens_one. opn shows_video.
  Qed.
End Blocks.
(** ** From the pieces to the text *)
Lemma in_order_after xs p out : in_order xs out -> in_order xs (p ++ out).
Proof. destruct xs as [|x xs]; [exact (fun H => H)|]. intros (q & r & -> & H). exists (p ++ q), r. now rewrite <- app_assoc. Qed.
Lemma sub_in_order xs ps : sub xs (raws ps) -> in_order (map b xs) (bytes_of ps).
Proof.
  revert xs. induction ps as [|p ps IH]; intros xs S.
  - change (raws []) with (@nil string) in S. inversion S; subst. exact I.
  - change (p :: ps) with ([p] ++ ps) in *. rewrite raws_app in S. unfold bytes_of. rewrite flat_map_app. fold (bytes_of ps) (bytes_of [p]).
    destruct p; try (apply in_order_after, IH; exact S). unfold raws in S at 1. cbn [raw flat_map app filter] in S. destruct (ne s); [|apply in_order_after, IH; exact S].
    inversion S; subst; [exact I| |apply in_order_after, IH; assumption]. exists [], (bytes_of ps). split; [cbn; now rewrite app_nil_r|]. now apply IH.
Qed.
Lemma in_order_empty xs out : in_order (map b (filter ne xs)) out -> in_order (map b xs) out.
Proof.
  revert out. induction xs as [|x xs IH]; intros out; [exact (fun H => H)|]. cbn [filter]. destruct (ne x) eqn:N; cbn [map in_order].
  - intros (p & q & E & H). exists p, q. auto.
  - intros H. exists [], out. destruct x; [|discriminate N]. split; [reflexivity|]. now apply IH.
Qed.
Lemma shown_document D debug anchors wants fuel doc es ps : eval_document anchors wants fuel doc = Done es -> wants_visible wants -> anchors_tidy anchors -> all_shown D doc ->
  output D debug (out es) = Ret ps -> in_order (map b (document_texts D doc)) (bytes_of ps).
Proof.
  intros E WV AT F O. pose proof (document_go D debug anchors wants AT WV fuel true [] doc (content_all_ _ (all_blocks D debug anchors wants AT WV fuel) _) F) as G.
  destruct (G _ _ E) as (l & El & W). cbn in El. rewrite El in O. unfold output in O. destruct (calls D debug l fresh) as [s|] eqn:C; [|discriminate O]. injection O as <-.
  destruct (W fresh s) as (S & _); [|exact C|].
  - split; [constructor|]. split; [constructor|]. split; [constructor|]. split; [reflexivity|]. split; [exact I|reflexivity].
  - apply in_order_empty, sub_in_order. unfold document_texts. cbv zeta. rewrite !filter_app'. exact S.
Qed.

(** ** A way to compute [in_order] *)
Fixpoint starts (x out : bytes) : option bytes :=
  match x, out with [], _ => Some out | c :: x, d :: out => if Ascii.eqb c d then starts x out else None | _, [] => None end.
Fixpoint first_after (x out : bytes) : option bytes :=
  match starts x out with Some r => Some r | None => match out with _ :: out => first_after x out | [] => None end end.
Fixpoint in_orderb (xs : list bytes) (out : bytes) : bool := match xs with [] => true | x :: xs => match first_after x out with Some r => in_orderb xs r | None => false end end.
Lemma starts_is x out r : starts x out = Some r <-> out = x ++ r.
Proof.
  revert out. induction x as [|c x IH]; intros out; cbn; [split; congruence|]. destruct out as [|d out]; [split; discriminate|]. destruct (Ascii.eqb_spec c d) as [->|N].
  - rewrite IH. split; congruence.
  - split; [discriminate|]. intros E. injection E as E _. congruence.
Qed.
Lemma first_after_ok x out r : first_after x out = Some r -> exists p, out = p ++ x ++ r.
Proof.
  induction out as [|c out IH]; cbn [first_after].
  - destruct (starts x []) eqn:S; [|discriminate]. intros E. injection E as <-. apply starts_is in S. now exists [].
  - destruct (starts x (c :: out)) eqn:S; [intros E; injection E as <-; apply starts_is in S; now exists []|]. intros E. destruct (IH E) as (p & ->). now exists (c :: p).
Qed.
Lemma first_after_best x p r : exists q r', first_after x (p ++ x ++ r) = Some r' /\ r' = q ++ r.
Proof.
  induction p as [|c p IH]; cbn [app].
  - exists [], r. split; [|reflexivity]. assert (S : starts x (x ++ r) = Some r) by now apply starts_is. destruct (x ++ r) eqn:E; cbn [first_after]; now rewrite S.
  - cbn [first_after]. destruct (starts x (c :: p ++ x ++ r)) as [r'|] eqn:S; [|exact IH]. apply starts_is in S. exists (skipn (length x) (c :: p ++ x)), r'. split; [reflexivity|].
    assert (L : r' = skipn (length x) (c :: p ++ x ++ r)). { rewrite S, skipn_app, skipn_all, Nat.sub_diag. reflexivity. }
    rewrite L. change (c :: p ++ x ++ r) with ((c :: p) ++ x ++ r). rewrite app_assoc, skipn_app. replace (length x - length ((c :: p) ++ x)) with 0; [reflexivity|]. rewrite app_length. lia.
Qed.
Lemma in_orderb_ok xs out : in_orderb xs out = true <-> in_order xs out.
Proof.
  revert out. induction xs as [|x xs IH]; intros out; cbn [in_orderb in_order]; [tauto|]. split.
  - destruct (first_after x out) as [r|] eqn:E; [|discriminate]. intros H. destruct (first_after_ok _ _ _ E) as (p & ->). exists p, r. split; [reflexivity|]. now apply IH.
  - intros (p & r & -> & H). destruct (first_after_best x p r) as (q & r' & -> & ->). apply IH. now apply in_order_after.
Qed.
