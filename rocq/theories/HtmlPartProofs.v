(** Proofs about C54, fourth part: calls for tables, media, sections, tables of contents, documents and inline nodes. *)
From Verif Require Import Base AttrsModel EvalModel EscapeModel EvalSpec HtmlModel HtmlSpec HtmlScanProofs HtmlTagProofs HtmlCallProofs.
Open Scope string_scope.
Open Scope nat_scope.
Open Scope list_scope.

Section Calls.
  Context (D : details) (debug : bool).
  Ltac g := intros; unfold go; cbn [if_pieces negb andb orb Nat.eqb]; go1.

  (** ** Tables *)
  Lemma go_table tb d X : go [] X (enter_table D tb d) (b "table" :: X).
  Proof.
    apply st_look. intros s. cbv zeta. eapply st_cons; [apply st_put|].
    - apply (ok_finish (b "table")).
      assert (T : tag_ok (b "table") (o_resolved_class D "stripes" "table-stripes" "stripes-" None d (dm s) (o_opt_class "" (n_named D d "float")
        (if some (n_opt D d "explicit-width") then o_resolved_class D "grid" "table-grid" "grid-" (Some "all") d (dm s) (o_resolved_class D "frame" "table-frame" "frame-" (Some "all") d (dm s) (o_class "" "tableblock" (o_new D "table" d)))
         else if n_option D d "autowidth" then o_class "" "fit-content" (o_resolved_class D "grid" "table-grid" "grid-" (Some "all") d (dm s) (o_resolved_class D "frame" "table-frame" "frame-" (Some "all") d (dm s) (o_class "" "tableblock" (o_new D "table" d))))
              else o_class "" "stretch" (o_resolved_class D "grid" "table-grid" "grid-" (Some "all") d (dm s) (o_resolved_class D "frame" "table-frame" "frame-" (Some "all") d (dm s) (o_class "" "tableblock" (o_new D "table" d)))))))).
      { apply ok_resolved, ok_opt_class.
        assert (T0 : tag_ok (b "table") (o_resolved_class D "grid" "table-grid" "grid-" (Some "all") d (dm s) (o_resolved_class D "frame" "table-frame" "frame-" (Some "all") d (dm s) (o_class "" "tableblock" (o_new D "table" d))))).
        { apply ok_resolved, ok_resolved, ok_class. apply ok_id; [reflexivity|starts]. }
        destruct (some _); [exact T0|]. destruct (n_option D d "autowidth"); now apply ok_class. }
      destruct (n_opt D d "explicit-width"); [apply ok_style|]; exact T.
    - eapply st_cons; [apply go_title|]. eapply st_cons; [apply st_put|apply st_nil].
      eapply pscan_seq; [lit|]. apply pscan_seq with (Out, b "colgroup" :: b "table" :: X); [|lit]. apply scan_flat. intros w. cbv beta. destruct (negb _ && _); cbn [if_pieces app]; lit.
  Qed.
  Lemma go_table' a X : go a (b "table" :: X) exit_table X.
  Proof. unfold exit_table. g. Qed.
  Definition section_bytes (sect : nat) : bytes := b (section_tag sect).
  Lemma go_section_tag sect a X : go a X (enter_table_section sect) (section_bytes sect :: X).
  Proof. unfold enter_table_section, section_bytes. destruct sect as [|[|sect]]; cbn [section_tag]; g. Qed.
  Lemma go_section_tag' sect a X : go a (section_bytes sect :: X) (exit_table_section sect) X.
  Proof. unfold exit_table_section, section_bytes. destruct sect as [|[|sect]]; cbn [section_tag]; g. Qed.
  Definition cell_tag (d sect : nat) : bytes := if heads D d sect then b "th" else b "td".
  Definition cell_inner (d : nat) (X : list bytes) : list bytes := match n_cell D d with CsAsciiDoc => b "div" :: X | CsLiteral => b "pre" :: b "div" :: X | _ => X end.
  Lemma scan_cell d sect X : pscan (Out, X) (open_cell D d sect) = Some (Out, cell_tag d sect :: X).
  Proof. unfold open_cell, cell_tag. destruct (heads D d sect), (1 <? n_num D d "colspan"), (1 <? n_num D d "rowspan"); lit. Qed.
  Lemma go_cell d sect a X : go a X (enter_table_cell D d sect) (cell_inner d (cell_tag d sect :: X)).
  Proof.
    unfold enter_table_cell. eapply st_cons; [apply st_put, scan_cell|]. eapply st_cons; [|apply st_nil]. unfold cell_inner. destruct (n_cell D d); unfold preserve_newlines; go1.
  Qed.
  Lemma go_cell' d sect a X : heads D d sect = false -> go a (cell_inner d (cell_tag d sect :: X)) (exit_table_cell D d sect) X.
  Proof. intros H. unfold exit_table_cell, cell_inner, cell_tag. rewrite H. destruct (n_cell D d); unfold default_newlines; g. Qed.
  (** header cells: the last thing written is a literal, which is a space or does not end in one *)
  Definition trimmed (h : hst) : Prop := exists l s, html h = l ++ [Lit s] /\ (s = " " \/ last_is_space (b s) = false /\ s <> "").
  Lemma last_app x c y : last_is_space (x ++ c :: y) = last_is_space (c :: y).
  Proof. induction x as [|d x IH]; [reflexivity|]. cbn [app last_is_space]. destruct (x ++ c :: y) eqn:E; [destruct x; discriminate E|exact IH]. Qed.
  Lemma tri_head_cell d sect X f m c x a : heads D d sect = true ->
    tri (fun h => A (Out, b "th" :: X) a f m c x h /\ trimmed h) (exit_table_cell D d sect) (A (Out, X) a f m c x).
  Proof.
    intros H. unfold exit_table_cell. rewrite H. apply tri_cons with (A (Out, b "th" :: X) a f m c x); [|eapply tri_cons; [apply tri_put; lit|apply tri_nil]].
    apply tri_ok. intros s (S & l & t & E & T). destruct (ends_with_space (html s)) eqn:W; [|exact S]. destruct T as [->|[T N]].
    - destruct S as (S1 & S). split; [|exact S]. cbn [html set_html]. rewrite E, pop_lit. rewrite E in S1. rewrite pscan_app in *. destruct (pscan (Out, []) l) as [q|]; [|discriminate S1].
      revert S1. cbn. destruct q as [[] st]; cbn; intros S1; try discriminate S1; try congruence.
    - exfalso. unfold ends_with_space, bytes_of in W. rewrite E, flat_map_app in W. cbn [flat_map bytes_of_piece] in W. rewrite app_nil_r in W.
      destruct (b t) as [|c0 y] eqn:Et; [destruct t; [congruence|discriminate Et]|]. rewrite last_app in W. congruence.
  Qed.
  Lemma put_trimmed ps l s h h' : ps = l ++ [Lit s] -> (s = " " \/ last_is_space (b s) = false /\ s <> "") -> put ps h = Ret h' -> trimmed h'.
  Proof. intros -> H E. injection E as <-. exists (html h ++ l), s. split; [cbn; now rewrite app_assoc|exact H]. Qed.
  Lemma cell_trimmed d sect h h' : match n_cell D d with CsAsciiDoc | CsLiteral => False | _ => True end -> enter_table_cell D d sect h = Ret h' -> trimmed h'.
  Proof.
    intros N E. unfold enter_table_cell, all, bind in E. destruct (put (open_cell D d sect) h) as [s|] eqn:P; [|discriminate E].
    assert (Eq : h' = s) by (destruct (n_cell D d); try contradiction; cbn in E; congruence). subst h'. revert P. unfold open_cell. rewrite !app_assoc. apply (put_trimmed _ _ """>" h s eq_refl). now right.
  Qed.
  Definition paragraph_inner (d sect : nat) (X : list bytes) : list bytes :=
    if sect =? 0 then X else match n_cell D d with CsEmphasis => b "em" :: b "p" :: X | CsMonospace => b "code" :: b "p" :: X | CsStrong => b "strong" :: b "p" :: X | _ => b "p" :: X end.
  Lemma go_cell_paragraph d sect a X : go a X (enter_cell_paragraph D d sect) (paragraph_inner d sect X).
  Proof. unfold enter_cell_paragraph, paragraph_inner. destruct (sect =? 0); [|destruct (n_cell D d)]; g. Qed.
  Lemma go_cell_paragraph' d sect a X : go a (paragraph_inner d sect X) (exit_cell_paragraph D d sect) X.
  Proof. unfold exit_cell_paragraph, paragraph_inner. destruct (sect =? 0); [|destruct (n_cell D d)]; g. Qed.
  Lemma paragraph_trimmed d sect h h' : exit_cell_paragraph D d sect h = Ret h' -> trimmed h'.
  Proof.
    unfold exit_cell_paragraph. destruct (sect =? 0); [apply (put_trimmed _ [] " "); auto|].
    destruct (n_cell D d); (eapply (put_trimmed _ []); [reflexivity|right; split; [reflexivity|discriminate]]).
  Qed.

  (** ** Media *)
  Lemma ok_media class e d : tag_ok (b "div") (media_tag D class e d).
  Proof. unfold media_tag. apply ok_opt_class, ok_opt_class, ok_class. apply ok_id; [reflexivity|starts]. Qed.
  Lemma go_image_block e d a X : go a X (enter_image_block D e d) (b "div" :: X).
  Proof.
    apply st_look. intros s. cbv zeta. apply st_put. eapply pscan_seq; [apply (ok_finish (b "div")), ok_media|]. eapply pscan_seq; [lit|].
    destruct (match or_else (n_named D d "link") (n_named D e "link") with Some l => if is_standard D e || negb (l =? "self")%string then Some l else None | None => None end) as [l|]; cbn [opt_pieces some if_pieces].
    - eapply pscan_seq; [apply scan_image_link; exists l; now left|]. sc.
    - sc.
  Qed.
  Lemma go_image_block' e d X : go [] (b "div" :: X) (exit_image_block D e d) X.
  Proof.
    unfold exit_image_block. apply st_bind with (Out, b "div" :: X); [|go1]. destruct (n_named D e "title") as [t|]; [|apply go_title].
    eapply st_bind; [apply go_title_of; lit|]. destruct (n_title D d); [|apply st_nothing]. intros f m c x. apply tri_discard.
  Qed.
  Lemma go_audio d X : go [] X (visit_audio_macro D d) X.
  Proof. unfold visit_audio_macro. g. Qed.
  Lemma go_video d X : go [] X (visit_video_macro D d) X.
  Proof.
    unfold visit_video_macro. eapply st_cons; [apply st_put, (ok_finish (b "div")), ok_media|]. eapply st_cons; [apply go_title|]. eapply st_cons; [apply st_put; lit|].
    eapply st_cons; [apply st_look; intros s; apply st_put, scan_video|]. eapply st_cons; [apply st_put; lit|apply st_nil].
  Qed.

  (** ** Sections and parts *)
  Lemma tri_section d a X f m c x : tri (A (Out, X) a f m c x) (enter_section D d)
    (A (Out, b "div" :: X) a (if is_appendix D d then with_appendix true f else if is_bibliography D d then with_bibliography true f else f) m c x).
  Proof.
    unfold enter_section. destruct (6 <? section_level D d); [apply tri_panic|]. eapply tri_cons; [apply tri_put|eapply tri_cons; [apply tri_flags|apply tri_nil]].
    apply (ok_finish (b "div")), ok_class. apply ok_id; [reflexivity|starts].
  Qed.
  Definition section_inner (d : nat) (X : list bytes) : list bytes := if section_level D d =? 1 then b "div" :: b "div" :: X else b "div" :: X.
  Lemma tri_section' d a X f m c x : tri (A (Out, section_inner d X) a f m c x) (exit_section D d)
    (A (Out, X) a (if is_appendix D d then with_appendix false f else if is_bibliography D d then with_bibliography false f else f) m c x).
  Proof.
    unfold exit_section, section_inner. eapply tri_cons; [apply tri_put|eapply tri_cons; [apply tri_flags|apply tri_nil]]. destruct (section_level D d =? 1); lit.
  Qed.
  Lemma go_appendix a X : go a X appendix_caption X.
  Proof. unfold appendix_caption. g. Qed.
  Definition heading (d : nat) (m : meta) (X : list bytes) : list bytes :=
    let H := hn (section_level D d + 1) :: X in if get_is_true m "sectlinks" && some (n_opt D d "id") then b "a" :: H else H.
  Lemma tri_heading d a X f m c x : tri (A (Out, X) a f m c x) (enter_section_heading D d) (A (Out, heading d m X) a f m c x).
  Proof.
    unfold enter_section_heading. apply tri_cons with (A (Out, heading d m X) a f m c x).
    - apply tri_look. intros s (_ & _ & _ & _ & -> & _). apply tri_put. unfold heading. set (H := hn (section_level D d + 1) :: X). destruct (n_opt D d "id") as [id|]; cbn [some]; rewrite ?andb_false_r.
      + eapply pscan_seq with (Out, H).
        { unfold H. rewrite <- opens_hn. reflexivity. }
        eapply pscan_seq; [sc|]. rewrite andb_true_r. destruct (get_is_true m "sectlinks"); cbn [if_pieces]; lit.
      + apply scan_h_plain.
    - eapply tri_cons; [|apply tri_nil]. destruct (is_appendix D d); [apply go_appendix|apply tri_put; lit].
  Qed.
  Lemma tri_heading' d a X f m c x : tri (A (Out, heading d m (b "div" :: X)) a f m c x) (exit_section_heading D d) (A (Out, section_inner d X) a f m c x).
  Proof.
    apply tri_look. intros s (_ & _ & _ & _ & -> & _). apply tri_put. unfold heading, section_inner. apply pscan_seq with (Out, hn (section_level D d + 1) :: b "div" :: X).
    { cbv zeta. destruct (get_is_true m "sectlinks" && _); reflexivity. }
    eapply pscan_seq; [apply scan_h_end|]. destruct (section_level D d =? 1); lit.
  Qed.
  Lemma go_part_title d a X : go a X (enter_book_part_title D d) (b "h1" :: X).
  Proof.
    apply st_put. eapply pscan_seq; [lit|]. rewrite app_assoc, app_assoc. apply pscan_seq with (Val (b "h1"), X); [|lit].
    apply pscan_seq with (Val (b "h1"), X); [|apply scan_flat; intros; lit]. destruct (n_opt D d "id"); lit.
  Qed.
  Lemma go_part_title' a X : go a (b "h1" :: X) exit_book_part_title X.
  Proof. unfold exit_book_part_title. g. Qed.
  Definition intro_open (d : nat) (X : list bytes) : list bytes := if n_title D d then b "div" :: b "div" :: X else b "div" :: X.
  Lemma go_part_intro d a X : go a X (enter_book_part_intro D d) (intro_open d X).
  Proof. unfold enter_book_part_intro, intro_open. destruct (n_title D d); g. Qed.
  Lemma go_part_content d a X : go a (intro_open d X) (enter_book_part_intro_content D d) (b "div" :: b "div" :: X).
  Proof. unfold enter_book_part_intro_content, intro_open. destruct (n_title D d); g. Qed.
  Lemma go_end_div a X : go a (b "div" :: X) (put [Lit "</div>"]) X.
  Proof. g. Qed.
  Definition preamble_open (has : nat) (X : list bytes) : list bytes := if has =? 1 then b "div" :: b "div" :: X else X.
  Lemma go_preamble has a X : go a X (enter_preamble has) (preamble_open has X).
  Proof. unfold enter_preamble, preamble_open. destruct (has =? 1); g. Qed.
  Lemma go_preamble' has a X : go a (preamble_open has X) (exit_preamble has) X.
  Proof. unfold exit_preamble, preamble_open. destruct (has =? 1); g. Qed.

  (** ** Tables of contents *)
  Lemma tri_toc d a X f m c x : let pre := position_eqb (n_position D d) PPreamble in
    tri (A (Out, if pre then b "div" :: X else X) a f m c x) (enter_toc D d) (A (Out, b "div" :: X) a (with_toc true f) m c x).
  Proof.
    cbv zeta. apply tri_look. intros s S. cbv zeta. eapply tri_cons; [apply tri_flags|]. eapply tri_cons; [apply tri_put|apply tri_nil].
    apply pscan_seq with (Out, X); [destruct (position_eqb _ _); lit|]. generalize (match n_opt D d "macro-id" with Some i => i | None => "toc" end). intros id. sc.
  Qed.
  Lemma tri_toc' d a X f m c x : let pre := position_eqb (n_position D d) PPreamble in
    tri (A (Out, b "div" :: X) a f m c x) (exit_toc D d) (A (Out, if pre then b "div" :: X else X) a (with_toc false f) m c x).
  Proof.
    cbv zeta. unfold exit_toc. eapply tri_cons; [apply tri_put|eapply tri_cons; [apply st_ok; aside|eapply tri_cons; [apply tri_flags|apply tri_nil]]]. destruct (position_eqb _ _); lit.
  Qed.
  Lemma go_toc_level n a X : go a X (enter_toc_level n) (b "ul" :: X).
  Proof. unfold enter_toc_level. g. Qed.
  Lemma go_toc_level' a X : go a (b "ul" :: X) exit_toc_level X.
  Proof. unfold exit_toc_level. g. Qed.
  Lemma tri_toc_node d a X f m c x : tri (A (Out, X) a f m c x) (enter_toc_node D d) (A (Out, b "a" :: b "li" :: X) a (if is_appendix D d then with_appendix true f else f) m c x).
  Proof.
    unfold enter_toc_node. eapply tri_cons; [apply tri_put; sc|]. eapply tri_cons; [|apply tri_nil]. destruct (is_appendix D d); [|apply tri_put; lit].
    eapply tri_bind; [apply tri_flags|apply go_appendix].
  Qed.
  Lemma go_toc_content' a X : go a (b "a" :: X) exit_toc_content X.
  Proof. unfold exit_toc_content. g. Qed.
  Lemma tri_toc_node' d a X f m c x : tri (A (Out, b "li" :: X) a f m c x) (exit_toc_node D d) (A (Out, X) a (if is_appendix D d then with_appendix false f else f) m c x).
  Proof. unfold exit_toc_node. eapply tri_cons; [apply tri_flags|]. eapply tri_cons; [apply tri_put; lit|apply tri_nil]. Qed.

  (** ** Inline nodes *)
  Definition span_bytes (k : span_kind) : bytes := b (span_tag k).
  Lemma go_span k d a X : go a X (enter_span D k d) (span_bytes k :: X).
  Proof. apply st_put. unfold span_bytes. destruct k; (apply scan_element_opt; [starts|lit]). Qed.
  Lemma go_span' k a X : go a (span_bytes k :: X) (exit_span k) X.
  Proof. apply st_put. unfold span_bytes. destruct k; lit. Qed.
  Lemma scan_keys l X : pscan (Out, X) (keys l) = Some (Out, X).
  Proof. induction l as [|k l IH]; [lit|]. destruct l as [|k' l]; [lit|]. change (keys (k :: k' :: l)) with ([Lit "<kbd>"; Raw k; Lit "</kbd>"; Lit "+"] ++ keys (k' :: l)). eapply pscan_seq; [lit|exact IH]. Qed.
  Lemma scan_menu l X : pscan (Out, X) (menu_items l) = Some (Out, X).
  Proof.
    induction l as [|k l IH]; [lit|]. destruct l as [|k' l]; [lit|].
    change (menu_items (k :: k' :: l)) with ([Lit "&#160;<b class=""caret"">&#8250;</b><b class="""; Lit "submenu"">"; Raw k; Lit "</b>"] ++ menu_items (k' :: l)). eapply pscan_seq; [lit|exact IH].
  Qed.
  Lemma go_image d a X : go a X (visit_image_macro D d) X.
  Proof.
    intros f m c x s h0 S. unfold visit_image_macro, look. cbv zeta.
    set (link := match n_named D d "link" with Some l => if is_standard D d || negb (l =? "self")%string then Some l else None | None => None end).
    set (selfish := match link with Some l => (l =? "self")%string | None => false end).
    destruct (selfish && negb (is_nil (alt s))) eqn:P; [intros E; discriminate E|].
    set (Y := match link with Some _ => b "a" :: b "span" :: X | None => b "span" :: X end).
    assert (T : tri (fun h => A (Out, X) a f m c x h /\ alt h = alt s) (all
      [put (o_finish (o_classes (n_roles D d) (o_opt_class "text-" (n_named D d "align") (o_opt_class "" (n_named D d "float") (o_class "" "image" (no_attrs "span"))))));
       put (match link with Some l => image_link D (if selfish then RawVal (n_text D d "path") else EscVal l) d | None => [] end);
       (if selfish then discard_alt_buffer else nothing); put (render_image D d false (dm s)); put (if_pieces (some link) [Lit "</a>"] ++ [Lit "</span>"])]) (A (Out, X) a f m c x)).
    { assert (PA : forall q q' ps, pscan q ps = Some q' -> tri (fun h => A q a f m c x h /\ alt h = alt s) (put ps) (fun h => A q' a f m c x h /\ alt h = alt s)).
      { intros q q' ps Hs h h' [H1 H2] E. split; [exact (tri_put _ _ _ _ _ _ _ _ Hs h h' H1 E)|]. injection E as <-. exact H2. }
      eapply tri_cons; [apply PA; apply (ok_finish (b "span")), ok_classes, ok_opt_class, ok_opt_class, ok_class, (ok_none "span"); starts|].
      apply tri_cons with (fun h => A (Out, Y) a f m c x h /\ alt h = alt s).
      { apply PA. unfold Y. destruct link as [l|]; [|reflexivity]. apply scan_image_link. destruct selfish; eexists; [now left|now right]. }
      apply tri_cons with (A (Out, Y) a f m c x).
      { destruct selfish; cbn [andb] in P.
        - apply tri_ok. intros h ((H1 & H2 & H) & E). split; [exact H1|]. split; [|exact H]. cbn [alt set_bufs]. rewrite E in H2. apply empty_scan in H2; [now injection H2 as ->|].
          unfold is_nil in P. destruct (bytes_of (alt s)); [reflexivity|discriminate P].
        - intros h h' [H1 _] E. injection E as <-. exact H1. }
      eapply tri_cons; [apply tri_put, scan_render_image|]. eapply tri_cons; [apply tri_put|apply tri_nil]. unfold Y. destruct link; lit. }
    exact (T s h0 (conj S eq_refl)).
  Qed.
  (** the calls for nodes that are handed over whole *)
  Lemma go_leaf n d a X : existsb (String.eqb n) leaf_calls = true -> go a X (call D debug (Visit n d "")) X.
  Proof.
    intros H. apply existsb_exists in H as (k & H & E). apply String.eqb_eq in E. subst k. unfold go. cbn [In leaf_calls] in H.
    repeat (destruct H as [<-|H]; [cbn [call]; match goal with |- stays _ _ (match ?h with _ => _ end) _ => let v := eval lazy [handler visits String.eqb Ascii.eqb Bool.eqb] in h in change h with v; cbv beta iota end|]); [..|destruct H];
      try (unfold visit_specialchar, visit_joining_newline, visit_curly_quote, visit_symbol, visit_spaced_dashes, visit_inline_anchor, visit_callout_tuck; go1; fail).
    - apply go_image.
    - apply st_put. cbv zeta. destruct (1 <? _); cbn [if_pieces]; (eapply pscan_seq; [lit|]); (eapply pscan_seq; [apply scan_keys|]); lit.
    - unfold visit_menu_macro. destruct (n_list D d "items") as [|i [|i' l]]; [apply st_panic|destruct debug; [apply st_panic|apply st_put; lit]|]. apply st_put.
      eapply pscan_seq; [lit|]. eapply pscan_seq; [apply scan_menu|lit].
    - unfold visit_icon_macro. apply st_look. intros s. cbv zeta. apply st_put. generalize (match n_named D d "alt" with Some a => a | None => n_text D d "target" end). intros al. eapply pscan_seq; [lit|].
      eapply pscan_seq; [sc|]. eapply pscan_seq; [lit|].
      set (Y := match n_named D d "link" with Some _ => b "a" :: b "span" :: X | None => b "span" :: X end). apply pscan_seq with (Out, Y).
      { unfold Y. destruct (n_named D d "link") as [l|]; cbn [opt_pieces]; [sc|reflexivity]. }
      apply pscan_seq with (Out, Y); [destruct (icon_mode (dm s)); sc|]. unfold Y. destruct (n_named D d "link"); lit.
    - unfold visit_callout, callout_number_img, callout_number_font. go1.
  Qed.
  Lemma go_quotation d a X : go a X (enter_quote D d) X.
  Proof. unfold enter_quote. g. Qed.
  Lemma go_quotation' d a X : go a X (exit_quote D d) X.
  Proof. unfold exit_quote. g. Qed.
  Definition xref_open (x : nat) (X : list bytes) : list bytes := if x =? 0 then b "a" :: X else X.
  Lemma tri_xref d a X f m c x : tri (A (Out, X) a f m c x) (enter_xref D d) (A (Out, xref_open x X) a f m c (S x)).
  Proof.
    apply tri_look. intros s (_ & _ & _ & _ & E & _ & F). rewrite E, F. apply tri_bind with (A (Out, X) a f m c (S x)).
    - apply tri_ok. intros h (H1 & H2 & H3 & H4 & H5 & H6 & H7). repeat split; try assumption. cbn. congruence.
    - apply tri_put. unfold xref_open. destruct (x =? 0); lit.
  Qed.
  Lemma tri_xref' a X f m c x : tri (A (Out, xref_open x X) a f m c (S x)) exit_xref (A (Out, X) a f m c x).
  Proof.
    apply tri_look. intros s (_ & _ & _ & _ & _ & _ & F). rewrite F. apply tri_bind with (A (Out, xref_open x X) a f m c x).
    - apply tri_ok. intros h (H1 & H2 & H3 & H4 & H5 & H6 & H7). repeat split; try assumption. cbn. rewrite H7. reflexivity.
    - apply tri_put. unfold xref_open. destruct x; cbn [Nat.eqb]; lit.
  Qed.
  Lemma go_xref_text n a X : go a X (put (if_pieces (n =? 1) [Lit "["])) X.
  Proof. g. Qed.
  Lemma go_xref_text' n a X : go a X (put (if_pieces (n =? 1) [Lit "]"])) X.
  Proof. g. Qed.
  Definition link_open (r : nat) (f : flags) (X : list bytes) : list bytes := if (r =? 1) || f_toc f then X else b "a" :: X.
  Lemma tri_link d r has a X f m c x : tri (A (Out, X) a f m c x) (enter_link_macro D d r has) (A (Out, link_open r f X) a f m c x).
  Proof.
    apply tri_look. intros s (_ & _ & _ & -> & _). unfold link_open. destruct (_ || _); [apply tri_nothing|]. cbv zeta. apply tri_put.
    assert (AO : attrs_ok ([Lit " href="""] ++ if_pieces (n_flag D d "mailto") [Lit "mailto:"] ++ [EscHref (n_text D d "target"); Lit """"])).
    { apply attrs_to. intros n Y. destruct (n_flag D d "mailto"); split; lit. }
    apply (ok_finish (b "a")). destruct (n_flag D d "attrs"); cbn [negb andb].
    - apply ok_link. destruct (ok_id (b "a") true (n_id D d) (n_roles D d) "a" eq_refl ltac:(starts)) as [T O]. now apply ok_put.
    - destruct (_ && _); [apply ok_class|]; (apply ok_put; [reflexivity|exact AO|apply (ok_none "a"); starts]).
  Qed.
  Lemma tri_link' d r has a X f m c x : tri (A (Out, link_open r f X) a f m c x) (exit_link_macro D d r has) (A (Out, X) a f m c x).
  Proof.
    apply tri_look. intros s (_ & _ & _ & -> & _). unfold link_open. destruct (_ || _); [apply tri_nothing|]. destruct (has =? 1); apply tri_put; lit.
  Qed.
  Lemma go_mailto d has a X : go a X (enter_mailto_macro D d has) (b "a" :: X).
  Proof.
    unfold enter_mailto_macro. cbv zeta. apply st_put.
    assert (AO : attrs_ok ([Lit " href=""mailto:"; RawVal (n_text D d "address")] ++ opt_pieces (n_opt D d "subject") (fun x => [Lit "?subject="; RawVal x]) ++
                    opt_pieces (n_opt D d "body") (fun x => [if some (n_opt D d "subject") then Lit "&amp;body=" else Lit "?body="; RawVal x]) ++ [Lit """"])).
    { apply attrs_to. intros n Y. destruct (n_opt D d "subject"), (n_opt D d "body"); split; lit. }
    eapply pscan_seq; [apply (ok_finish (b "a"))|].
    - destruct (n_flag D d "attrs").
      + destruct (ok_id (b "a") true (n_id D d) (n_roles D d) "a" eq_refl ltac:(starts)) as [T O]. now apply ok_put.
      + apply ok_put; [reflexivity|exact AO|apply (ok_none "a"); starts].
    - destruct (negb _); lit.
  Qed.
  Lemma go_mailto' a X : go a (b "a" :: X) (put [Lit "</a>"]) X.
  Proof. g. Qed.

  (** ** Buffers *)
  Lemma tri_buffer a X f m c x : tri (A (Out, X) a f m c x) (start_buffering debug) (A (Out, a) X f m c x).
  Proof.
    apply tri_look. intros s _. destruct (_ && _); [apply tri_panic|]. apply tri_ok. intros h (H1 & H2 & H). split; [exact H2|]. split; [exact H1|exact H].
  Qed.
  Lemma tri_swap_discard X q f m c x : tri (A q X f m c x) swap_discard_alt_buffer (A (Out, X) [] f m c x).
  Proof. apply tri_ok. intros h (H1 & H2 & H). split; [exact H2|]. split; [reflexivity|exact H]. Qed.
  Lemma tri_footnote d X f m c x : tri (A (Out, X) [] f m c x) (enter_footnote D debug d) (A (Out, []) X f m c x).
  Proof. apply tri_look. intros s _. eapply tri_bind; [apply tri_put|apply tri_buffer]. destruct (prev_num _ _ _); lit. Qed.
  Lemma tri_footnote' d X f m c x : tri (A (Out, []) X f m c x) (exit_footnote D d) (A (Out, X) [] f m c x).
  Proof.
    apply tri_look. intros s (S1 & _ & S3 & _). destruct (prev_num _ _ _); [apply tri_swap_discard|]. cbv zeta. eapply tri_cons; [apply tri_swap_discard|]. eapply tri_cons; [apply tri_put; sc|].
    eapply tri_cons; [|apply tri_nil]. apply tri_ok. intros h (H1 & H2 & _ & H). split; [exact H1|]. split; [exact H2|]. split; [|exact H]. cbn [notes set_notes]. apply Forall_app. split; [exact S3|]. now constructor.
  Qed.
  Lemma tri_title X f m c x : tri (A (Out, X) [] f m c x) (enter_meta_title debug) (A (Out, []) X f m c x).
  Proof. apply tri_buffer. Qed.
  Lemma tri_title' d X f m c x : tri (A (Out, []) X f m c x) (exit_meta_title D d) (A (Out, X) [] f m c x).
  Proof.
    unfold exit_meta_title. destruct (is_passthrough D d); [apply tri_swap_discard|]. apply tri_ok. intros h (H1 & H2 & H). split; [exact H2|]. split; [exact H1|exact H].
  Qed.

  (** ** Documents *)
  Lemma insert_keeps m k v : m_doctype (fst (insert_doc_attr m k v)) = m_doctype m /\ m_embedded (fst (insert_doc_attr m k v)) = m_embedded m.
  Proof. unfold insert_doc_attr. destruct (mem k JOB_ONLY); [auto|]. destruct (mem k HEADER_ONLY); [auto|]. destruct (attrs_insert (m_doc m) k v). auto. Qed.
  Lemma tri_decl d q a f m c x : tri (A q a f m c x) (visit_decl D d) (A q a f (fst (insert_doc_attr m (fst (n_decl D d)) (snd (n_decl D d)))) c x).
  Proof.
    unfold visit_decl. destruct (n_decl D d) as [n v]. cbn [fst snd]. eapply tri_cons; [apply st_ok; aside|]. eapply tri_cons; [|apply tri_nil].
    apply tri_ok. intros h (H1 & H2 & H3 & H4 & <- & H). split; [exact H1|]. split; [exact H2|]. split; [exact H3|]. split; [exact H4|]. split; [reflexivity|exact H].
  Qed.
  Definition alone (m : meta) (c : bool) : bool := negb (doctype_eqb (m_doctype m) Inline) && negb c && negb (m_embedded m).
  Definition doc_meta (d : nat) : meta := fst (insert_doc_attr (n_meta D d) "outfilesuffix" (AStr ".html")).
  Lemma scan_head d m m' X : pscan (Out, X) (doc_head D d m m') = Some (Out, b "head" :: b "html" :: X).
  Proof.
    unfold doc_head. apply pscan_seq with (Name (b "html"), X); [lit|]. rewrite app_assoc. apply pscan_seq with (Out, b "head" :: b "html" :: X); [destruct (get_is_true m "nolang"); lit|].
    eapply pscan_seq; [lit|]. repeat (apply pscan_seq with (Out, b "head" :: b "html" :: X); [try sc|]); [..|].
    all: try (destruct (get m "favicon") as [[[|]|]|]; lit); try lit.
    destruct (m_str m' "stylesheet") as [[|c1 s1]|], (m_str m' "_asciidork_resolved_custom_css"); lit.
  Qed.
  Definition head_open (m : meta) (c : bool) (X : list bytes) : list bytes := if alone m c then b "head" :: b "html" :: X else X.
  Definition body_open (m : meta) (c : bool) (X : list bytes) : list bytes := if alone m c then b "body" :: b "html" :: X else X.
  Lemma tri_document d a X f m c x : tri (A (Out, X) a f m c x) (enter_document D d) (A (Out, head_open (doc_meta d) c X) a f (doc_meta d) c x).
  Proof.
    unfold enter_document. apply tri_cons with (A (Out, X) a f (doc_meta d) c x).
    { apply tri_ok. intros h (H1 & H2 & H3 & H4 & _ & H). repeat split; try assumption; apply H. }
    eapply tri_cons; [apply st_ok; aside|]. eapply tri_cons; [|apply tri_nil]. apply tri_look. intros s (_ & _ & _ & _ & E & F & _). unfold standalone. rewrite E, F. unfold head_open, alone.
    destruct (_ && _ && _); [apply tri_put, scan_head|apply tri_nothing].
  Qed.
  Lemma tri_body d a X f m c x : tri (A (Out, head_open m c X) a f m c x) (enter_body D d) (A (Out, body_open m c X) a f m c x).
  Proof.
    apply tri_look. intros s (_ & _ & _ & _ & E & F & _). unfold standalone. rewrite E, F. unfold head_open, body_open, alone. destruct (_ && _ && _); [|apply tri_nothing]. apply tri_put.
    destruct (m_str (n_meta D d) "css-signature"), (m_doctype (n_meta D d)); lit.
  Qed.
  Lemma tri_body' a X f m c x : tri (A (Out, body_open m c X) a f m c x) exit_body (A (Out, X) a f m c x).
  Proof.
    apply tri_look. intros s (_ & _ & _ & _ & E & F & _). unfold standalone. rewrite E, F. unfold body_open, alone. destruct (_ && _ && _); [apply tri_put; lit|apply tri_nothing].
  Qed.
  Definition header_open (m : meta) (X : list bytes) : list bytes := if has_header m then b "div" :: X else X.
  Lemma tri_header a X f m c x : tri (A (Out, X) a f m c x) enter_header (A (Out, header_open m X) a f m c x).
  Proof. apply tri_look. intros s (_ & _ & _ & _ & -> & _). unfold header_open. destruct (has_header m); [apply tri_put; sc|apply tri_nothing]. Qed.
  Lemma tri_header' a X f m c x : tri (A (Out, header_open m X) a f m c x) exit_header (A (Out, X) a f m c x).
  Proof.
    apply tri_look. intros s (_ & _ & _ & _ & -> & _). unfold header_open. destruct (has_header m); [|apply tri_nothing]. apply tri_put.
    apply pscan_seq with (Out, b "div" :: X); [|lit]. apply scan_if. unfold header_details. destruct (is_set m "revdate"); sc.
  Qed.
  Definition title_html (m : meta) (X : list bytes) : list bytes := if render_doc_title m then b "h1" :: X else [].
  Definition title_alt (m : meta) (X : list bytes) : list bytes := if render_doc_title m then [] else X.
  Lemma tri_doc_title X f m c x : tri (A (Out, X) [] f m c x) (enter_document_title debug) (A (Out, title_html m X) (title_alt m X) f m c x).
  Proof. apply tri_look. intros s (_ & _ & _ & _ & -> & _). unfold title_html, title_alt. destruct (render_doc_title m); [apply tri_put; lit|apply tri_buffer]. Qed.
  Lemma tri_doc_title' X f m c x : tri (A (Out, title_html m X) (title_alt m X) f m c x) exit_document_title (A (Out, X) [] f m c x).
  Proof. apply tri_look. intros s (_ & _ & _ & _ & -> & _). unfold title_html, title_alt. destruct (render_doc_title m); [apply tri_put; lit|apply tri_swap_discard]. Qed.
  Definition content_open (m : meta) (X : list bytes) : list bytes := if m_embedded m then X else b "div" :: X.
  Lemma tri_content a X f m c x : tri (A (Out, X) a f m c x) enter_content (A (Out, content_open m X) a f m c x).
  Proof. apply tri_look. intros s (_ & _ & _ & _ & -> & _). unfold content_open. destruct (m_embedded m); [apply tri_nothing|apply tri_put; sc]. Qed.
  Lemma tri_content' a X f m c x : tri (A (Out, content_open m X) a f m c x) exit_content (A (Out, X) a f m c x).
  Proof. apply tri_look. intros s (_ & _ & _ & _ & -> & _). unfold content_open. destruct (m_embedded m); [apply tri_nothing|apply tri_put; lit]. Qed.
  Definition footer_open (m : meta) (X : list bytes) : list bytes := if has_footer m then b "div" :: X else X.
  Lemma tri_footer a X f m c x : tri (A (Out, X) a f m c x) enter_footer (A (Out, footer_open m X) a f m c x).
  Proof.
    unfold enter_footer. apply tri_cons with (A (Out, X) a f m c x).
    - apply tri_look. intros s (_ & _ & S & _ & -> & -> & _). destruct (notes s) as [|n l] eqn:E; [apply tri_nothing|]. rewrite <- E in *. destruct c; [apply tri_nothing|]. apply tri_put. unfold render_footnotes.
      eapply pscan_seq; [sc|]. eapply pscan_seq; [lit|]. eapply pscan_seq; [apply scan_notes, S|lit].
    - eapply tri_cons; [|apply tri_nil]. apply tri_look. intros s (_ & _ & _ & _ & -> & _). unfold footer_open. destruct (has_footer m); [|apply tri_nothing]. apply tri_put. sc.
  Qed.
  Lemma tri_footer' a X f m c x : tri (A (Out, footer_open m X) a f m c x) exit_footer (A (Out, X) a f m c x).
  Proof. apply tri_look. intros s (_ & _ & _ & _ & -> & _). unfold footer_open. destruct (has_footer m); [apply tri_put; lit|apply tri_nothing]. Qed.
End Calls.
