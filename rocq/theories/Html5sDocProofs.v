(** Proofs about C64, third part: images, sections, inline nodes and documents. *)
From Verif Require Import Base AttrsModel EvalModel EscapeModel EvalSpec HtmlModel HtmlSpec HtmlScanProofs HtmlTagProofs HtmlCallProofs HtmlPartProofs Html5sModel Html5sSpec Html5sCallProofs Html5sPartProofs.
Open Scope string_scope.
Open Scope nat_scope.
Open Scope list_scope.

Section Calls5.
  Context (D : details) (debug : bool).

  (** ** Images *)
  Lemma plain_tag d blk m X : plain_image D d = true -> exists z m', render_image D d blk m = z ++ [Lit ">"] /\ pscan (Out, X) z = Some (m', X) /\ intag (b "img") m'.
  Proof.
    intros P. assert (R : render_image D d blk m = inner_image D d blk).
    { unfold render_image, plain_image in *. destruct (kind_of D d); [|reflexivity|discriminate P]. apply negb_true_iff in P. now rewrite P. }
    rewrite R. unfold inner_image. rewrite !app_assoc. eexists _, (Tag (b "img")). split; [reflexivity|]. split; [|now right]. rewrite <- !app_assoc. sc.
  Qed.
  Lemma flat_roles r l : exists z, flat_map (fun r => [RawVal r; Lit " "]) (r :: l) = z ++ [Lit " "] /\ forall n X, pscan (Val n, X) z = Some (Val n, X).
  Proof.
    revert r. induction l as [|r' l IH]; intros r.
    - exists [RawVal r]. split; [reflexivity|]. intros n X. lit.
    - destruct (IH r') as (z & E & S). exists ([RawVal r; Lit " "] ++ z). split; [|intros n X; eapply pscan_seq; [lit|apply S]]. cbn [flat_map] in *. now rewrite E.
  Qed.
  Definition role_part (l : list string) : cmd :=
    match l with [] => nothing | r :: l => all [pop5; put ([Lit " class="""] ++ flat_map (fun r => [RawVal r; Lit " "]) (r :: l)); pop5; put [Lit """"; Lit ">"]] end.
  Lemma tri_role_part l Y a f m c x : tri (at_tag (b "img") Y a f m c x) (role_part l) (at_tag (b "img") Y a f m c x).
  Proof.
    unfold role_part. destruct l as [|r l]; [apply tri_nothing|]. destruct (flat_roles r l) as (z & E & S). rewrite E, app_assoc. eapply tri_cons; [apply tri_pop|].
    set (n := b "img"). apply tri_cons with (fun h => A (Val n, Y) a f m c x h /\ exists l, html h = l ++ [Lit " "] /\ pscan (Out, []) l = Some (Val n, Y)).
    { intros h h' (m' & I & H) E1. assert (T : pscan (m', Y) ([Lit " class="""] ++ z) = Some (Val n, Y)) by (eapply pscan_seq; [destruct I as [->| ->]; lit|apply S]). split.
      - refine (tri_put _ _ _ _ _ _ _ _ _ h h' H E1). eapply pscan_seq; [exact T|lit].
      - injection E1 as <-. exists (html h ++ [Lit " class="""] ++ z). cbn [html set_html]. split; [rewrite <- !app_assoc; reflexivity|]. rewrite pscan_app. destruct H as (-> & _). exact T. }
    apply tri_cons with (A (Val n, Y) a f m c x).
    { apply tri_ok. intros h ((_ & H) & l' & E1 & S1). split; [|exact H]. cbn [html set_html]. now rewrite E1, (cut_last l' " " 1 eq_refl (Nat.lt_0_succ 0)). }
    eapply tri_cons; [|apply tri_nil]. apply (tri_at_tag n (Val n, Y) [Lit """"]). exists (Tag n). split; [lit|now right].
  Qed.
  Lemma tri_lazily d Y a f m c x : tri (at_tag (b "img") Y a f m c x) (lazily D d) (A (Out, Y) a f m c x).
  Proof.
    unfold lazily. destruct (is_lazy D d); [|exact (tri_at_out (b "img") Y a f m c x _ _ (tri_nothing _))]. eapply tri_bind; [apply tri_pop|].
    apply (tri_in_out (b "img")). intros m' [->| ->]; lit.
  Qed.
  Definition style_part (o : option string) : cmd := match o with Some x => bind pop5 (put [Lit " style="""; RawVal x; Lit """"; Lit ">"]) | None => nothing end.
  Lemma tri_style_part o Y a f m c x : tri (at_tag (b "img") Y a f m c x) (style_part o) (at_tag (b "img") Y a f m c x).
  Proof.
    destruct o as [s|]; [|apply tri_nothing]. eapply tri_bind; [apply tri_pop|]. apply (tri_reput (b "img") [Lit " style="""; RawVal s; Lit """"]).
    intros m' I. exists (Tag (b "img")). split; [now right|]. destruct I as [->| ->]; lit.
  Qed.
  Lemma go_image5 d a X : (changed_image D d = true -> plain_image D d = true) -> go a X (visit_image_macro5 D d) X.
  Proof.
    intros P f m c x s h0 S. unfold visit_image_macro5, look. cbv zeta. set (link := n_named D d "link").
    set (selfish := match link with Some l => (l =? "self")%string | None => false end).
    destruct (selfish && negb (is_nil (alt s))) eqn:N; [intros E; discriminate E|].
    set (Y := match link with Some _ => b "a" :: X | None => X end).
    assert (T : tri (fun h => A (Out, X) a f m c x h /\ alt h = alt s) (all
      [put (match link with Some l => image_link D (if selfish then RawVal (n_text D d "path") else EscVal l) d | None => [] end);
       (if selfish then discard_alt_buffer else nothing); put (render_image D d false (dm s)); style_part (image_style D d); role_part (n_roles D d); lazily D d; put (if_pieces (some link) [Lit "</a>"])])
      (A (Out, X) a f m c x)).
    { apply tri_cons with (fun h => A (Out, Y) a f m c x h /\ alt h = alt s).
      { intros h h' [H1 H2] E. split; [|injection E as <-; exact H2]. refine (tri_put _ _ _ _ _ _ _ _ _ h h' H1 E). unfold Y. destruct link as [l|]; [|reflexivity].
        apply scan_image_link. destruct selfish; eexists; [now left|now right]. }
      apply tri_cons with (A (Out, Y) a f m c x).
      { destruct selfish; cbn [andb] in N.
        - apply tri_ok. intros h ((H1 & H2 & H) & E). split; [exact H1|]. split; [|exact H]. cbn [alt set_bufs]. rewrite E in H2. apply empty_scan in H2; [now injection H2 as ->|].
          unfold is_nil in N. destruct (bytes_of (alt s)); [reflexivity|discriminate N].
        - intros h h' [H1 _] E. injection E as <-. exact H1. }
      assert (W : tri (A (Out, Y) a f m c x) (put (if_pieces (some link) [Lit "</a>"])) (A (Out, X) a f m c x)) by (apply tri_put; unfold Y; destruct link; lit).
      destruct (plain_image D d) eqn:PI.
      - destruct (plain_tag d false (dm s) Y PI) as (z & m' & -> & Z). eapply tri_cons; [apply (tri_at_tag (b "img")); exists m'; exact Z|].
        eapply tri_cons; [apply tri_style_part|]. eapply tri_cons; [apply tri_role_part|]. eapply tri_cons; [apply tri_lazily|]. eapply tri_cons; [exact W|apply tri_nil].
      - assert (C : changed_image D d = false) by (destruct (changed_image D d); [discriminate (P eq_refl)|reflexivity]).
        unfold changed_image in C. apply orb_false_iff in C as [C C3]. apply orb_false_iff in C as [C1 C2]. unfold lazily. rewrite C3. destruct (image_style D d); [discriminate C1|].
        destruct (n_roles D d); [|discriminate C2]. cbn [style_part role_part]. eapply tri_cons; [apply tri_put, scan_render_image|].
        eapply tri_cons; [apply tri_nothing|]. eapply tri_cons; [apply tri_nothing|]. eapply tri_cons; [apply tri_nothing|]. eapply tri_cons; [exact W|apply tri_nil]. }
    exact (T s h0 (conj S eq_refl)).
  Qed.
  Lemma se_lazily d : settles Keep (lazily D d).
  Proof. unfold lazily. sek. Qed.
  Hint Resolve se_lazily : core.
  Lemma se_image d : settles Keep (visit_image_macro5 D d).
  Proof.
    intros h h'. unfold visit_image_macro5, look. cbv zeta. destruct (match n_named D d "link" with Some l => (l =? "self")%string | None => false end).
    - cbn [andb]. destruct (is_nil (alt h)) eqn:N; cbn [negb]; [|intros E; discriminate E]. set (c := all _). intros E. right. split.
      + unfold is_nil in N. destruct (bytes_of (alt h)); [reflexivity|discriminate N].
      + assert (S : settles Clear c) by (unfold c; see). exact (S h h' E).
    - cbn [andb]. set (c := all _). intros E. assert (S : settles Keep c) by (unfold c; sek). exact (S h h' E).
  Qed.
  Lemma mv_image_block e d a X : (is_lazy D e = true -> plain_image D e = true) -> mv Keep a X (enter_image_block5 D e d) (b (figure_tag D e d) :: X).
  Proof.
    intros P. split; [|unfold enter_image_block5; sek]. intros f m c x. apply tri_look. intros s _. cbv zeta.
    set (t := match n_named D e "float" with Some _ => _ | None => _ end). assert (T : tag_ok (b (figure_tag D e d)) t).
    { unfold t. assert (T0 : tag_ok (b (figure_tag D e d)) (o_class "" "image-block" (merged D (figure_tag D e d) e d))).
      { apply ok_class. unfold figure_tag. destruct (_ || _); (apply ok_id; [reflexivity|starts]). }
      destruct (n_named D e "float"), (n_named D e "align"); repeat apply ok_style; exact T0. }
    pose proof (ok_finish _ _ T X) as F. replace (opens (b (figure_tag D e d)) X) with (b (figure_tag D e d) :: X) in F by (unfold figure_tag; destruct (_ || _); reflexivity).
    set (l := image_block_link D e d (dm s)). set (Y := b (figure_tag D e d) :: X) in *.
    assert (L : exists Z, pscan (Out, Y) l = Some (Out, Z) /\ pscan (Out, Z) (match l with [] => [] | _ => [Lit "</a>"] end) = Some (Out, Y)).
    { unfold l, image_block_link. destruct (or_else _ _) as [href|]; [|exists Y; now split]. destruct (href =? "none")%string; [exists Y; now split|]. cbv zeta.
      exists (b "a" :: Y). split; [|cbn [app]; lit]. set (target := if (href =? "self")%string then _ else _). generalize target. intros tg. generalize (str_or (dm s) "html5s-image-self-link-label" "Open the image in full size"). intros label.
      destruct (_ || _); cbn [if_pieces]; sc. }
    destruct L as (Z & L1 & L2). apply tri_cons with (if plain_image D e then at_tag (b "img") Z a f m c x else A (Out, Z) a f m c x).
    - destruct (plain_image D e) eqn:PI.
      + destruct (plain_tag e true (dm s) Z PI) as (z & m' & -> & S & I). rewrite !app_assoc. apply tri_at_tag. exists m'. split; [|exact I]. eapply pscan_seq; [eapply pscan_seq; [exact F|exact L1]|exact S].
      + apply tri_put. eapply pscan_seq; [exact F|]. eapply pscan_seq; [exact L1|apply scan_render_image].
    - apply tri_cons with (A (Out, Z) a f m c x).
      + destruct (plain_image D e) eqn:PI; [apply tri_lazily|]. unfold lazily. destruct (is_lazy D e); [discriminate (P eq_refl)|]. apply tri_nothing.
      + eapply tri_cons; [apply tri_put; exact L2|apply tri_nil].
  Qed.
  Lemma mv_image_block' e d X : mv (tt5 D d) [] (b (figure_tag D e d) :: X) (exit_image_block5 D e d) X.
  Proof.
    split.
    - unfold exit_image_block5. apply st_bind with (Out, b (figure_tag D e d) :: X).
      + destruct (n_named D e "title") as [t|]; [|apply go_title5]. eapply st_bind; [apply go_title_of5; lit|]. destruct (n_title D d); [|apply st_nothing]. intros f m c x. apply tri_discard.
      + apply st_put. unfold end_tag, figure_tag. destruct (_ || _); lit.
    - pose proof (fun t d h => se_title_of D t d h). unfold tt5, exit_image_block5. destruct (n_title D d) eqn:NT; [see|sem].
  Qed.
  Lemma mv_audio d X : mv (tt5 D d) [] X (visit_audio_macro5 D d) X.
  Proof. unfold visit_audio_macro5, audio_element. mt D d. Qed.
  Lemma mv_video d X : mv (tt5 D d) [] X (visit_video_macro5 D d) X.
  Proof. unfold visit_video_macro5. mt D d. Qed.

  (** ** Sections and parts *)
  Lemma tri_section5 d a X f m c x : tri (A (Out, X) a f m c x) (enter_section5 D d)
    (A (Out, b "section" :: X) a (if is_appendix D d then with_appendix true f else if is_bibliography D d then with_bibliography true f else f) m c x).
  Proof.
    unfold enter_section5. eapply tri_cons; [apply tri_flags|eapply tri_cons; [apply tri_put|apply tri_nil]].
    apply (ok_finish (b "section")), ok_class, ok_class. apply ok_id; [reflexivity|starts].
  Qed.
  Lemma tri_section5' d a X f m c x : tri (A (Out, b "section" :: X) a f m c x) (exit_section5 D d)
    (A (Out, X) a (if is_appendix D d then with_appendix false f else if is_bibliography D d then with_bibliography false f else f) m c x).
  Proof. unfold exit_section5. eapply tri_cons; [apply tri_put; lit|eapply tri_cons; [apply tri_flags|apply tri_nil]]. Qed.
  Lemma se_section d : settles Keep (enter_section5 D d).
  Proof. unfold enter_section5. sek. Qed.
  Lemma se_section' d : settles Keep (exit_section5 D d).
  Proof. unfold exit_section5. sek. Qed.
  Lemma tri_heading5 d a X f m c x : tri (A (Out, X) a f m c x) (enter_section_heading5 D d) (A (Out, heading D d m X) a f m c x).
  Proof.
    unfold enter_section_heading5. apply tri_cons with (A (Out, heading D d m X) a f m c x).
    - apply tri_look. intros s (_ & _ & _ & _ & -> & _). apply tri_put. unfold heading. set (H := hn (section_level D d + 1) :: X). destruct (n_opt D d "id") as [id|]; cbn [some]; rewrite ?andb_false_r.
      + eapply pscan_seq with (Out, H).
        { unfold H. rewrite <- opens_hn. reflexivity. }
        eapply pscan_seq; [sc|]. rewrite andb_true_r. destruct (get_is_true m "sectlinks"); cbn [if_pieces]; lit.
      + apply scan_h_plain.
    - eapply tri_cons; [|apply tri_nil]. destruct (is_appendix D d); [apply go_appendix|apply tri_put; lit].
  Qed.
  Lemma tri_heading5' d a X f m c x : tri (A (Out, heading D d m X) a f m c x) (exit_section_heading5 D d) (A (Out, X) a f m c x).
  Proof.
    apply tri_look. intros s (_ & _ & _ & _ & -> & _). apply tri_put. unfold heading. apply pscan_seq with (Out, hn (section_level D d + 1) :: X); [|apply scan_h_end].
    destruct (_ && _); lit.
  Qed.
  Lemma se_appendix : settles Keep appendix_caption.
  Proof. unfold appendix_caption. sek. Qed.
  Hint Resolve se_appendix : core.
  Lemma se_heading d : settles Keep (enter_section_heading5 D d).
  Proof. unfold enter_section_heading5. sek. Qed.
  Lemma se_heading' d : settles Keep (exit_section_heading5 D d).
  Proof. unfold exit_section_heading5. sek. Qed.
  Lemma mv_discrete e d a X : mv Keep a X (enter_discrete_heading D e d) (hn (section_level D e + 1) :: X).
  Proof. split; [apply go_discrete|unfold enter_discrete_heading; sek]. Qed.
  Lemma mv_discrete' e a X : mv Keep a (hn (section_level D e + 1) :: X) (exit_discrete_heading D e) X.
  Proof. split; [apply go_discrete'|unfold exit_discrete_heading; sek]. Qed.
  Lemma mv_part d a X : mv Keep a X (enter_book_part5 D d) (b "section" :: X).
  Proof. split; [|unfold enter_book_part5; sek]. apply st_put, (ok_finish (b "section")), ok_classes. apply ok_id; [reflexivity|starts]. Qed.
  Lemma mv_part' a X : mv Keep a (b "section" :: X) exit_book_part5 X.
  Proof. unfold exit_book_part5. mk. Qed.
  Lemma mv_part_title d a X : some (n_opt D d "id") = true -> mv Keep a X (enter_book_part_title5 D d) (b "h1" :: X).
  Proof. intros I. unfold enter_book_part_title5. destruct (n_opt D d "id"); [|discriminate I]. split; [apply st_put; lit|sek]. Qed.
  Lemma mv_part_title' a X : mv Keep a (b "h1" :: X) exit_book_part_title5 X.
  Proof. unfold exit_book_part_title5. mk. Qed.
  Definition intro_tag (d : nat) : bytes := if n_title D d then b "section" else b "div".
  Definition intro_open5 (d : nat) (X : list bytes) : list bytes := if n_title D d then b "h6" :: b "section" :: X else b "div" :: X.
  Lemma mv_part_intro d a X : mv Keep a X (enter_book_part_intro5 D d) (intro_open5 d X).
  Proof. unfold enter_book_part_intro5, intro_open5. destruct (n_title D d); mk. Qed.
  Lemma mv_part_intro' d a X : mv Keep a (intro_tag d :: X) (exit_book_part_intro5 D d) X.
  Proof. unfold exit_book_part_intro5, intro_tag. destruct (n_title D d); mk. Qed.
  Lemma mv_part_content d a X : mv Keep a (intro_open5 d X) (enter_book_part_intro_content5 D d) (b "div" :: intro_tag d :: X).
  Proof. unfold enter_book_part_intro_content5, intro_open5, intro_tag. destruct (n_title D d); mk. Qed.
  Lemma mv_part_content' a X : mv Keep a (b "div" :: X) exit_book_part_intro_content5 X.
  Proof. unfold exit_book_part_intro_content5. mk. Qed.
  Definition preamble_open5 (has : nat) (X : list bytes) : list bytes := if has =? 1 then b "section" :: X else X.
  Lemma mv_preamble has a X : mv Keep a X (enter_preamble5 has) (preamble_open5 has X).
  Proof. unfold enter_preamble5, preamble_open5. destruct (has =? 1); mk. Qed.
  (** a preamble without a table of contents *)
  Lemma tri_preamble_end has a X f m c x : tri (fun h => A (Out, preamble_open5 has X) a f m c x h /\ bytes_of (alt h) = []) (exit_preamble5 has) (fun h => A (Out, X) a f m c x h /\ bytes_of (alt h) = []).
  Proof.
    intros h h' (H & E) R. unfold exit_preamble5, look in R. rewrite E in R. split; [|injection R as <-; exact E].
    refine (tri_put _ _ _ _ _ _ _ _ _ h h' H R). unfold preamble_open5. destruct (has =? 1); lit.
  Qed.
  (** and with one, which is in the output while the preamble is in the other buffer *)
  Lemma tri_preamble_toc has X f m c x : tri (A (Out, []) (preamble_open5 has X) f m c x) (exit_preamble5 has) (fun h => A (Out, X) [] f m c x h /\ bytes_of (alt h) = []).
  Proof.
    intros h h' H R. unfold exit_preamble5, look in R. destruct (bytes_of (alt h)) as [|c0 l0] eqn:E.
    - assert (P : preamble_open5 has X = []) by (destruct H as (_ & H2 & _); apply (empty_scan _ _ _ E) in H2; now injection H2).
      unfold preamble_open5 in *. destruct (has =? 1); [discriminate P|]. subst X. split; [|injection R as <-; exact E]. refine (tri_put _ _ _ _ _ _ _ _ _ h h' H R). lit.
    - pose proof H as (C & _). split.
      + refine (tri_bind _ _ _ _ _ (tri_swap_discard _ _ _ _ _ _) (tri_bind _ _ _ _ _ (tri_put _ (Out, X) _ _ _ _ _ _ _) (tri_put _ _ _ _ _ _ _ _ (anywhere _ _ C))) h h' H R).
        unfold preamble_open5. destruct (has =? 1); lit.
      + assert (S : settles Clear (bind swap_discard_alt_buffer (bind (put (if_pieces (has =? 1) [Lit "</section>"])) (put (html h))))) by see. now rewrite (S h h' R).
  Qed.

  (** ** The table of contents *)
  Lemma scan_toc_head n Y id t : pscan (Val (b "nav"), Y) [Lit """><h"; Num n; Lit " id="""; RawVal id; Lit "-title"">"; Raw t; Lit "</h"; Num n; Lit ">"] = Some (Out, b "nav" :: Y).
  Proof.
    change ([Lit """><h"; Num n; Lit " id="""; RawVal id; Lit "-title"">"; Raw t; Lit "</h"; Num n; Lit ">"])
      with ([Lit """><h"; Num n; Lit " id="""; RawVal id; Lit "-title"">"; Raw t] ++ [Lit "</h"; Num n; Lit ">"]).
    apply pscan_seq with (Out, hn n :: b "nav" :: Y); [|apply scan_h_end]. rewrite <- opens_hn. reflexivity.
  Qed.
  Definition is_pre (d : nat) : bool := position_eqb (n_position D d) PPreamble.
  Lemma tri_toc5 d a X f m c x : tri (A (Out, X) a f m c x) (enter_toc5 D debug d) (A (Out, b "nav" :: if is_pre d then a else X) (if is_pre d then X else a) (with_toc true f) m c x).
  Proof.
    unfold enter_toc5, is_pre. apply tri_bind with (A (Out, if position_eqb (n_position D d) PPreamble then a else X) (if position_eqb (n_position D d) PPreamble then X else a) f m c x).
    - destruct (position_eqb _ _); [apply tri_buffer|apply tri_nothing].
    - destruct (position_eqb (n_position D d) PPreamble); apply tri_look; intros s _; cbv zeta; (eapply tri_cons; [apply tri_flags|]); (eapply tri_cons; [apply tri_put|apply tri_nil]);
        generalize (match n_opt D d "macro-id" with Some i => i | None => "toc" end); intros id; generalize (str_or (dm s) "toc-class" "toc"); intros cl.
      + eapply pscan_seq; [lit|]. eapply pscan_seq; [sc|]. apply scan_toc_head.
      + eapply pscan_seq; [lit|]. eapply pscan_seq; [sc|]. apply scan_toc_head.
  Qed.
  Lemma se_toc d : is_pre d = false -> settles Keep (enter_toc5 D debug d).
  Proof. intros P. unfold enter_toc5, is_pre in *. rewrite P. sek. Qed.
  Lemma tri_toc5' a X f m c x : tri (A (Out, b "nav" :: X) a f m c x) exit_toc5 (A (Out, X) a (with_toc false f) m c x).
  Proof. unfold exit_toc5. eapply tri_cons; [apply tri_put; lit|eapply tri_cons; [apply st_ok; aside|eapply tri_cons; [apply tri_flags|apply tri_nil]]]. Qed.
  Lemma se_toc' : settles Keep exit_toc5.
  Proof. unfold exit_toc5. sek. Qed.
  Lemma mv_toc_level n a X : mv Keep a X (enter_toc_level5 n) (b "ol" :: X).
  Proof. unfold enter_toc_level5. mk. Qed.
  Lemma mv_toc_level' a X : mv Keep a (b "ol" :: X) exit_toc_level5 X.
  Proof. unfold exit_toc_level5. mk. Qed.
  Lemma se_toc_node d : settles Keep (enter_toc_node D d).
  Proof. unfold enter_toc_node. sek. Qed.
  Lemma se_toc_node' d : settles Keep (exit_toc_node D d).
  Proof. unfold exit_toc_node. sek. Qed.
  Lemma mv_toc_content' a X : mv Keep a (b "a" :: X) exit_toc_content X.
  Proof. split; [apply go_toc_content'|unfold exit_toc_content; sek]. Qed.

  (** ** Inline nodes *)
  Definition text_tag (d : nat) : bytes := b (text_span_tag D d).
  Lemma mv_text_span d a X : mv Keep a X (enter_text_span5 D d) (text_tag d :: X).
  Proof.
    split; [|unfold enter_text_span5; sek]. apply st_put. unfold text_tag, text_span_tag. destruct (n_flag D d "attrs"); [|lit].
    destruct (n_roles D d) as [|r l]; [|destruct (is_strike r); [|destruct (r =? "del")%string; [|destruct (r =? "ins")%string]]];
      match goal with |- _ = Some (_, b ?n :: _) => apply (ok_finish (b n)) end; (apply ok_id; [reflexivity|starts]).
  Qed.
  Lemma mv_text_span' d a X : mv Keep a (text_tag d :: X) (exit_text_span5 D d) X.
  Proof.
    split; [|unfold exit_text_span5; sek]. apply st_put. unfold text_tag, text_span_tag, end_tag. destruct (n_flag D d "attrs"); [|lit].
    destruct (n_roles D d) as [|r l]; [|destruct (is_strike r); [|destruct (r =? "del")%string; [|destruct (r =? "ins")%string]]]; lit.
  Qed.
  Lemma mv_span k d a X : mv Keep a X (enter_span D k d) (span_bytes k :: X).
  Proof. split; [apply go_span|unfold enter_span; sek]. Qed.
  Lemma mv_span' k a X : mv Keep a (span_bytes k :: X) (exit_span k) X.
  Proof. split; [apply go_span'|unfold exit_span; sek]. Qed.
  Lemma scan_keys5 l X : pscan (Out, X) (keys5 l) = Some (Out, X).
  Proof. induction l as [|k [|k' l] IH]; [reflexivity|lit|]. change (keys5 (k :: k' :: l)) with ([Lit "<kbd class=""key"">"; Raw k; Lit "</kbd>"; Lit "+"] ++ keys5 (k' :: l)). eapply pscan_seq; [lit|exact IH]. Qed.
  Lemma mv_leaf n d a X : existsb (String.eqb n) leaf_calls && (negb (n =? "image_macro")%string || negb (changed_image D d) || plain_image D d) = true -> mv Keep a X (call5 D debug (Visit n d "")) X.
  Proof.
    intros H. apply andb_true_iff in H as [H I]. apply existsb_exists in H as (k & H & E). apply String.eqb_eq in E. subst k. cbn [In leaf_calls] in H.
    repeat (destruct H as [<-|H]; [cbn [call5]; match goal with |- mv _ _ _ (match ?h with _ => _ end) _ => let v := eval lazy [handler visits5 String.eqb Ascii.eqb Bool.eqb] in h in change h with v; cbv beta iota end|]); [..|destruct H];
      try (unfold visit_specialchar, visit_joining_newline5, visit_curly_quote, visit_symbol5, visit_spaced_dashes5, visit_inline_anchor5, visit_callout5; solve [mk]).
    all: try (split; [|first [apply se_image|unfold visit_symbol5, visit_icon_macro5, visit_menu_macro5, visit_keyboard_macro5, visit_callout5; cbv zeta; sek]]).
    - apply go_image5. intros C. rewrite C in I. exact I.
    - apply st_put. cbv zeta. destruct (1 <? _); cbn [if_pieces]; (eapply pscan_seq; [lit|]); (eapply pscan_seq; [apply scan_keys5|]); lit.
    - unfold visit_menu_macro5. destruct (n_list D d "items") as [|i l]; [apply st_panic|]. apply st_put.
      eapply pscan_seq; [lit|]. eapply pscan_seq; [apply scan_flat; intros j; lit|lit].
    - unfold visit_icon_macro5. apply st_look. intros s. cbv zeta. apply st_put. generalize (match n_named D d "alt" with Some a => a | None => n_text D d "target" end). intros al.
      set (Y := match n_named D d "link" with Some _ => b "a" :: X | None => X end). apply pscan_seq with (Out, Y).
      { unfold Y. destruct (n_named D d "link") as [l|]; cbn [opt_pieces]; [sc|reflexivity]. }
      apply pscan_seq with (Out, Y); [unfold role_classes; destruct (icon_mode (dm s)); sc|]. unfold Y. destruct (n_named D d "link"); lit.
    - apply st_look. intros s. apply st_put. apply pscan_seq with (Out, X); [apply scan_if; lit|]. apply pscan_seq with (Out, X); [apply scan_if; lit|]. apply pscan_seq with (Out, X); [lit|]. apply scan_if. lit.
  Qed.
  Lemma mv_quotation d a X : mv Keep a X (enter_quote5 D d) X.
  Proof.
    split; [|unfold enter_quote5; sek]. apply st_look. intros s. apply st_put. unfold quote_of, quote_entities. cbv zeta. destruct (n_flag D d "double");
      repeat match goal with |- context [if among ?l ?k then _ else _] => destruct (among l k) end; lit.
  Qed.
  Lemma mv_quotation' d a X : mv Keep a X (exit_quote5 D d) X.
  Proof.
    split; [|unfold exit_quote5; sek]. apply st_look. intros s. apply st_put. unfold quote_of, quote_entities. cbv zeta. destruct (n_flag D d "double");
      repeat match goal with |- context [if among ?l ?k then _ else _] => destruct (among l k) end; lit.
  Qed.
  Lemma se_xref d : settles Keep (enter_xref D d).
  Proof. unfold enter_xref. sek. Qed.
  Lemma se_xref' : settles Keep exit_xref.
  Proof. unfold exit_xref. sek. Qed.
  Lemma se_link d r has : settles Keep (enter_link_macro D d r has).
  Proof. unfold enter_link_macro. sek. Qed.
  Lemma se_link' d r has : settles Keep (exit_link_macro D d r has).
  Proof. unfold exit_link_macro. sek. Qed.
  Lemma mv_mailto d has a X : mv Keep a X (enter_mailto_macro D d has) (b "a" :: X).
  Proof. split; [apply go_mailto|unfold enter_mailto_macro; sek]. Qed.

  (** ** Footnotes and titles *)
  Lemma tri_footnote5 d X f m c x : tri (A (Out, X) [] f m c x) (enter_footnote5 D debug d) (A (Out, []) X f m c x).
  Proof. apply tri_look. intros s _. eapply tri_bind; [apply tri_put|apply tri_buffer]. destruct (prev_num _ _ _); lit. Qed.
  Lemma tri_footnote5' d X f m c x : tri (A (Out, []) X f m c x) (exit_footnote5 D d) (A (Out, X) [] f m c x).
  Proof.
    apply tri_look. intros s (S1 & _ & S3 & _). destruct (prev_num _ _ _); [apply tri_swap_discard|]. cbv zeta. eapply tri_cons; [apply tri_swap_discard|]. eapply tri_cons; [apply tri_put; lit|].
    apply tri_cons with (A (Out, b "a" :: X) [] f m c x); [|eapply tri_cons; [apply tri_put; lit|apply tri_nil]]. apply tri_ok. intros h (H1 & H2 & _ & H). split; [exact H1|]. split; [exact H2|]. split; [|exact H].
    cbn [notes set_notes]. apply Forall_app. split; [exact S3|]. now constructor.
  Qed.
  Lemma se_footnote' d : settles Clear (exit_footnote5 D d).
  Proof. unfold exit_footnote5. see. Qed.
  Lemma tri_decl5 d q a f m c x : tri (A q a f m c x) (visit_decl5 D d) (A q a f (fst (insert_doc_attr m (fst (n_decl D d)) (snd (n_decl D d)))) c x).
  Proof.
    unfold visit_decl5. destruct (n_decl D d) as [n v]. cbn [fst snd]. eapply tri_cons; [apply st_ok; aside|]. eapply tri_cons; [|apply tri_nil].
    apply tri_ok. intros h (H1 & H2 & H3 & H4 & <- & H). split; [exact H1|]. split; [exact H2|]. split; [exact H3|]. split; [exact H4|]. split; [reflexivity|exact H].
  Qed.
  Lemma se_decl d : settles Keep (visit_decl5 D d).
  Proof. unfold visit_decl5. destruct (n_decl D d). sek. Qed.

  (** ** Documents *)
  Lemma scan_head5 d m m' X : pscan (Out, X) (doc_head5 D d m m') = Some (Out, b "head" :: b "html" :: X).
  Proof.
    unfold doc_head5. apply pscan_seq with (Name (b "html"), X); [lit|]. rewrite app_assoc. apply pscan_seq with (Out, b "head" :: b "html" :: X); [destruct (get_is_true m "nolang"); lit|].
    repeat (apply pscan_seq with (Out, b "head" :: b "html" :: X); [try sc|]); [..|].
    all: try (destruct (get m "favicon") as [[[|]|]|]; lit); try lit.
    destruct (m_str m' "stylesheet") as [[|c1 s1]|], (m_str m' "_asciidork_resolved_custom_css"); lit.
  Qed.
  Lemma tri_document5 d a X f m c x : tri (A (Out, X) a f m c x) (enter_document5 D d) (A (Out, head_open (doc_meta D d) c X) a f (doc_meta D d) c x).
  Proof.
    unfold enter_document5. apply tri_cons with (A (Out, X) a f (doc_meta D d) c x).
    { apply tri_ok. intros h (H1 & H2 & H3 & H4 & _ & H). repeat split; try assumption; apply H. }
    eapply tri_cons; [|apply tri_nil]. apply tri_look. intros s (_ & _ & _ & _ & E & F & _). unfold standalone. rewrite E, F. unfold head_open, alone.
    destruct (_ && _ && _); [apply tri_put, scan_head5|apply tri_nothing].
  Qed.
  Lemma tri_body5 d a X f m c x : tri (A (Out, head_open m c X) a f m c x) (enter_body5 D d) (A (Out, body_open m c X) a f m c x).
  Proof.
    apply tri_look. intros s (_ & _ & _ & _ & E & F & _). unfold standalone. rewrite E, F. unfold head_open, body_open, alone. destruct (_ && _ && _); [|apply tri_nothing].
    rewrite !app_assoc. set (z := _ ++ [Lit " class="""; _; _; Lit """"; Lit ">"]).
    assert (Z : exists y, z = y ++ [Lit ">"] /\ pscan (Out, b "head" :: b "html" :: X) y = Some (Tag (b "body"), b "html" :: X)).
    { unfold z. rewrite <- !app_assoc. eexists ([Lit "</head>"; Lit "<body"] ++ opt_pieces _ _ ++ [Lit " class="""; Lit (doctype_str (m_doctype (n_meta D d))); RawVal (n_text D d "toc-classes"); Lit """"]).
      split; [rewrite <- !app_assoc; reflexivity|]. destruct (m_str (n_meta D d) "css-signature"), (m_doctype (n_meta D d)); lit. }
    destruct Z as (y & -> & S). eapply tri_bind; [apply (tri_at_tag (b "body")); exists (Tag (b "body")); split; [exact S|now right]|].
    destruct (m_str (n_meta D d) "max-width"); [|exact (tri_at_out (b "body") (b "html" :: X) a f m c x _ _ (tri_nothing _))].
    eapply tri_bind; [apply tri_pop|]. apply (tri_in_out (b "body")). intros m' [->| ->]; lit.
  Qed.
  Lemma tri_body5' a X f m c x : tri (A (Out, body_open m c X) a f m c x) exit_body5 (A (Out, X) a f m c x).
  Proof.
    apply tri_look. intros s (_ & _ & _ & _ & E & F & _). unfold standalone. rewrite E, F. unfold body_open, alone. destruct (_ && _ && _); [apply tri_put; lit|apply tri_nothing].
  Qed.
  Definition header_open5 (m : meta) (X : list bytes) : list bytes := if has_header m then b "header" :: X else X.
  Lemma tri_header5 a X f m c x : tri (A (Out, X) a f m c x) enter_header5 (A (Out, header_open5 m X) a f m c x).
  Proof. apply tri_look. intros s (_ & _ & _ & _ & -> & _). unfold header_open5. destruct (has_header m); [apply tri_put; lit|apply tri_nothing]. Qed.
  Lemma scan_authors5 l : forall i X, pscan (Out, X) (author_details5 i l) = Some (Out, X).
  Proof. induction l as [|a l IH]; intros i X; [lit|]. cbn [author_details5]. eapply pscan_seq; [|apply IH]. unfold author_detail5, author_number. sc. Qed.
  Lemma tri_header5' a X f m c x : tri (A (Out, header_open5 m X) a f m c x) (exit_header5 D) (A (Out, X) a f m c x).
  Proof.
    pose proof scan_authors5 as SA. apply tri_look. intros s (_ & _ & _ & _ & -> & _). unfold header_open5. destruct (has_header m); [|apply tri_nothing]. apply tri_put.
    apply pscan_seq with (Out, b "header" :: X); [|lit]. apply scan_if. unfold header_details5. eapply pscan_seq; [lit|]. eapply pscan_seq; [apply SA|]. destruct (is_set m "revdate"); sc.
  Qed.
  Lemma tri_content5 a X f m c x : tri (A (Out, X) a f m c x) enter_content5 (A (Out, content_open m X) a f m c x).
  Proof. apply tri_look. intros s (_ & _ & _ & _ & -> & _). unfold content_open. destruct (m_embedded m); [apply tri_nothing|apply tri_put; lit]. Qed.
  Lemma tri_content5' a X f m c x : tri (A (Out, content_open m X) a f m c x) exit_content5 (A (Out, X) a f m c x).
  Proof. apply tri_look. intros s (_ & _ & _ & _ & -> & _). unfold content_open. destruct (m_embedded m); [apply tri_nothing|apply tri_put; lit]. Qed.
  Lemma scan_notes5 l : Forall (fun n => closed (snd n)) l -> forall i X, pscan (Out, X) (footnote_list5 i l) = Some (Out, X).
  Proof. induction 1 as [|[o t] l H L IH]; intros i X; [lit|]. cbn [footnote_list5]. cbn [snd] in H. sc. Qed.
  Definition footer_open5 (m : meta) (X : list bytes) : list bytes := if has_footer m then b "footer" :: X else X.
  Lemma tri_footer5 a X f m c x : tri (A (Out, X) a f m c x) enter_footer5 (A (Out, footer_open5 m X) a f m c x).
  Proof.
    unfold enter_footer5. apply tri_cons with (A (Out, X) a f m c x).
    - apply tri_look. intros s (_ & _ & S & _ & _ & -> & _). destruct (notes s) as [|n l] eqn:E; [apply tri_nothing|]. rewrite <- E in *. destruct c; [apply tri_nothing|]. apply tri_put. unfold render_footnotes5.
      eapply pscan_seq; [lit|]. eapply pscan_seq; [apply scan_notes5, S|lit].
    - eapply tri_cons; [|apply tri_nil]. apply tri_look. intros s (_ & _ & _ & _ & -> & _). unfold footer_open5. destruct (has_footer m); [|apply tri_nothing]. apply tri_put. sc.
  Qed.
  Lemma tri_footer5' a X f m c x : tri (A (Out, footer_open5 m X) a f m c x) exit_footer5 (A (Out, X) a f m c x).
  Proof. apply tri_look. intros s (_ & _ & _ & _ & -> & _). unfold footer_open5. destruct (has_footer m); [apply tri_put; lit|apply tri_nothing]. Qed.
End Calls5.
