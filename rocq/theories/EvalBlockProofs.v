(** What the blocks of a document say to the backend. *)
From Verif Require Import Base EvalModel EvalSpec EvalProofs.
Open Scope string_scope.
Open Scope list_scope.

Ltac stp2 := first [apply sp_skip | apply sp_enter | apply sp_exit | apply sp_leaf | match goal with H : _ |- _ => solve [apply H | eapply H] end].
Ltac walk2 := first [apply sp_skip | eapply sp_cons; [solve [stp2]|walk2] ].
Ltac run2 := eapply sp_run; [walk2|try norm].

Section Blocks.
  Context (anchors : anchor_table) (wants : list event -> bool) (lone : string -> Prop).
  Context (anchors_ok : forall id a, lookup anchors id = Some a -> lone_ok lone (opt (reftext a)) /\ lone_ok lone (a_title a)).
  Context (n : nat).
  Notation sp := (sp anchors lone false).
  Notation ev := (eval_inline anchors wants n).
  Lemma run_inlines stk l : sp (inlines anchors wants n l) stk stk l.
  Proof. apply each_inline. apply every_all. now apply inline_ok. Qed.
  Lemma run_opt stk o : sp (inlines_opt anchors wants n o) stk stk (opt o).
  Proof. apply each_opt_inline. destruct o; [apply every_all; now apply inline_ok|exact I]. Qed.
  (** the table of contents *)
  Lemma toc_node_ok t : forall stk, sp (eval_toc_node anchors wants n t) stk stk (toc_reading t).
  Proof.
    induction t as [d k t l H] using toc_rect'. intros stk. pose proof run_inlines as R.
    assert (C : forall stk, sp (match l with [] => skip | TocNode _ level _ _ :: _ => seq [enter "toc_level" [level]; each (eval_toc_node anchors wants n) l; exit "toc_level" [level]] end) stk stk (flat_map toc_reading l)).
    { intros stk'. assert (E : forall stk, sp (each (eval_toc_node anchors wants n) l) stk stk (flat_map toc_reading l)).
      { intros stk2. apply sp_each. eapply every_impl; [|exact H]. cbn. auto. }
      destruct l as [|[? level ? ?] l]; [apply sp_skip|]. eapply sp_run; [walk2|]. cbn [app]. now rewrite app_nil_r. }
    change (eval_toc_node anchors wants n (TocNode d k t l)) with
      (seq [enter "toc_node" [d]; enter "toc_content" []; inlines anchors wants n t; exit "toc_content" [];
        match l with [] => skip | TocNode _ level _ _ :: _ => seq [enter "toc_level" [level]; each (eval_toc_node anchors wants n) l; exit "toc_level" [level]] end; exit "toc_node" [d]]).
    cbn [toc_reading]. revert C. match goal with |- (forall stk, sp ?f stk stk ?r) -> _ => generalize f, r end. intros f r C. run2.
  Qed.
  Lemma toc_at_ok t positions stk : sp (eval_toc_at anchors wants n t positions) stk stk (toc_at t positions).
  Proof.
    unfold eval_toc_at, toc_at. destruct t as [[d nodes p]|]; [|apply sp_skip]. cbn [position toc_nodes toc_d].
    destruct (existsb _ positions); cbn [andb]; [|apply sp_skip]. destruct nodes as [|[d' level t l] nodes]; cbn [negb]; [apply sp_skip|].
    assert (E : forall stk, sp (each (eval_toc_node anchors wants n) (TocNode d' level t l :: nodes)) stk stk (flat_map toc_reading (TocNode d' level t l :: nodes))).
    { intros stk2. apply sp_each. apply every_all. intros a. apply toc_node_ok. }
    unfold eval_toc_level. revert E. generalize (TocNode d' level t l :: nodes). intros w E.
    assert (E' : forall stk, sp (seq [enter "toc_level" [level]; each (eval_toc_node anchors wants n) w; exit "toc_level" [level]]) stk stk (flat_map toc_reading w)) by (intros; run2).
    run2.
  Qed.
  Section Parts.
    Context {B : Type} (eb : option toc -> B -> action) (rd : option toc -> B -> list inline).
    Notation ok := (fun b => forall t stk, sp (eb t b) stk stk (rd t b)).
    Lemma blocks_ok t l stk : every ok l -> sp (each (eb t) l) stk stk (flat_map (rd t) l).
    Proof. intros H. apply sp_each. eapply every_impl; [|exact H]. cbn. auto. Qed.
    Lemma section_ok t s stk : section_fits ok s -> sp (eval_section anchors wants n eb t s) stk stk (section_reading rd t s).
    Proof.
      intros H. unfold eval_section, section_reading. pose proof run_inlines as R.
      assert (Bl : forall stk, sp (each (eb t) (s_blocks s)) stk stk (flat_map (rd t) (s_blocks s))) by (intros; now apply blocks_ok). run2.
    Qed.
    Lemma sections_ok t l stk : every (section_fits ok) l -> sp (each (eval_section anchors wants n eb t) l) stk stk (flat_map (section_reading rd t) l).
    Proof. intros H. apply sp_each. eapply every_impl; [|exact H]. intros s. apply section_ok. Qed.
    Lemma part_ok t p stk : part_fits ok p -> sp (eval_book_part anchors wants n eb t p) stk stk (part_reading rd t p).
    Proof.
      intros [H1 H2]. unfold eval_book_part, part_reading. pose proof run_inlines as R. pose proof run_opt as Ro.
      assert (Se : forall stk, sp (each (eval_section anchors wants n eb t) (p_sections p)) stk stk (flat_map (section_reading rd t) (p_sections p))) by (intros; now apply sections_ok).
      destruct (p_intro p) as [l|]; [|run2].
      assert (Bl : forall stk, sp (each (eb t) l) stk stk (flat_map (rd t) l)) by (intros; now apply blocks_ok).
      assert (I : forall stk, sp (seq [enter "book_part_intro" [p_d p]; inlines_opt anchors wants n (p_meta_title p); enter "book_part_intro_content" [p_d p];
                      each (eb t) l; exit "book_part_intro_content" [p_d p]; exit "book_part_intro" [p_d p]]) stk stk (opt (p_meta_title p) ++ flat_map (rd t) l)) by (intros; run2).
      run2.
    Qed.
    Lemma item_ok t variant i stk : item_all ok i -> sp (eval_item anchors wants n eb t variant i) stk stk (item_reading rd t i).
    Proof.
      intros [H _]. unfold eval_item, item_reading. pose proof run_inlines as R.
      assert (Bl : forall stk, sp (each (eb t) (i_blocks i)) stk stk (flat_map (rd t) (i_blocks i))) by (intros; now apply blocks_ok). run2.
    Qed.
    Lemma terms_ok d total l : forall k stk, sp (eval_terms anchors wants n d total k l) stk stk (concat l).
    Proof. pose proof run_inlines as R. induction l as [|w l IH]; intros k stk; cbn [eval_terms concat]; [apply sp_skip|]. run2. Qed.
    Lemma description_ok t i stk : item_all ok i -> sp (eval_description anchors wants n eb t i) stk stk (description_reading rd t i).
    Proof.
      intros [H1 H2]. unfold eval_description, description_reading. pose proof run_inlines as R. destruct (i_meta i) as [terms o|]; [|apply sp_crash].
      cbv zeta. pose proof (terms_ok (i_d i) (1 + length terms) terms 2) as Te.
      assert (Bl : forall stk, sp (each (fun b => seq [enter "description_list_description_block" [i_d i]; eb t b; exit "description_list_description_block" [i_d i]]) (i_blocks i)) stk stk (flat_map (rd t) (i_blocks i))).
      { intros stk'. apply sp_each. eapply every_impl; [|exact H1]. cbn beta. intros b Hb. run2. }
      destruct o as [b|]; cbn [some orb].
      - assert (D : forall stk, sp (seq [enter "description_list_description_text" [i_d i]; eb t b; exit "description_list_description_text" [i_d i]]) stk stk (rd t b)) by (intros; run2).
        match type of Bl with forall stk, sp ?f _ _ _ => set (bl := f) in * end.
        assert (W : forall stk, sp (seq [enter "description_list_description" [i_d i]; seq [enter "description_list_description_text" [i_d i]; eb t b; exit "description_list_description_text" [i_d i]]; bl; exit "description_list_description" [i_d i]]) stk stk (rd t b ++ flat_map (rd t) (i_blocks i))) by (intros; run2).
        run2.
      - destruct (i_blocks i) as [|b0 l] eqn:Eb; cbn [negb flat_map]; [run2|].
        match type of Bl with forall stk, sp ?f _ _ _ => set (bl := f) in * end.
        match goal with |- context [flat_map] => idtac | _ => idtac end.
        assert (W : forall stk, sp (seq [enter "description_list_description" [i_d i]; skip; bl; exit "description_list_description" [i_d i]]) stk stk (flat_map (rd t) (b0 :: l))) by (intros; run2).
        change (rd t b0 ++ flat_map (rd t) l) with (flat_map (rd t) (b0 :: l)).
        run2.
    Qed.
    Lemma quote_attr_ok d attr cite stk : sp (eval_quote_attr anchors wants n d attr cite) stk stk (opt attr ++ opt cite).
    Proof.
      unfold eval_quote_attr. pose proof run_inlines as R.
      assert (W : forall c g l stk, sp (seq [enter c g; inlines anchors wants n l; exit c g]) stk stk l) by (intros; run2).
      destruct attr, cite; run2.
    Qed.
    Lemma doc_content_ok t has c stk : content_fits ok c -> sp (eval_doc_content anchors wants n eb t has c) stk stk (content_reading rd t c).
    Proof.
      intros H. unfold eval_doc_content, content_reading. pose proof (toc_at_ok t [PPreamble]) as Ta.
      destruct c as [l|pre secs|pre op parts cl]; cbn [content_fits] in H.
      - assert (Bl : forall stk, sp (each (eb t) l) stk stk (flat_map (rd t) l)) by (intros; now apply blocks_ok). run2.
      - destruct H as [H1 H2].
        assert (Se : forall stk, sp (each (eval_section anchors wants n eb t) secs) stk stk (flat_map (section_reading rd t) secs)) by (intros; now apply sections_ok).
        assert (P : forall stk, sp (match pre with Some l => seq [enter "preamble" [has]; each (eb t) l; eval_toc_at anchors wants n t [PPreamble]; exit "preamble" [has]] | None => skip end) stk stk
          (match pre with Some l => flat_map (rd t) l ++ toc_at t [PPreamble] | None => [] end)).
        { destruct pre as [l|]; intros; [|apply sp_skip]. assert (Bl : forall stk, sp (each (eb t) l) stk stk (flat_map (rd t) l)) by (intros; now apply blocks_ok). run2. }
        revert P. match goal with |- (forall stk, sp ?f stk stk ?r) -> _ => generalize f, r end. intros f r P.
        assert (W : forall stk, sp (seq [f; each (eval_section anchors wants n eb t) secs]) stk stk (r ++ flat_map (section_reading rd t) secs)) by (intros; run2).
        run2.
      - destruct H as (H1 & H2 & H3 & H4).
        assert (Op : forall stk, sp (each (eval_section anchors wants n eb t) op) stk stk (flat_map (section_reading rd t) op)) by (intros; now apply sections_ok).
        assert (Cl : forall stk, sp (each (eval_section anchors wants n eb t) cl) stk stk (flat_map (section_reading rd t) cl)) by (intros; now apply sections_ok).
        assert (Pa : forall stk, sp (each (eval_book_part anchors wants n eb t) parts) stk stk (flat_map (part_reading rd t) parts)).
        { intros. apply sp_each. eapply every_impl; [|exact H3]. intros a. apply part_ok. }
        destruct pre as [l|]; cbn [option_map opt app].
        + assert (Bl : forall stk, sp (each (eb t) l) stk stk (flat_map (rd t) l)) by (intros; now apply blocks_ok).
          assert (P : forall stk, sp (seq [enter "preamble" [has]; each (eb t) l; each (eval_section anchors wants n eb t) op; eval_toc_at anchors wants n t [PPreamble]; exit "preamble" [has]]) stk stk
            (flat_map (rd t) l ++ flat_map (section_reading rd t) op ++ toc_at t [PPreamble])) by (intros; run2).
          revert P. match goal with |- (forall stk, sp ?f stk stk ?r) -> _ => generalize f end. intros f P.
          assert (W : forall stk, sp (seq [f; each (eval_book_part anchors wants n eb t) parts; each (eval_section anchors wants n eb t) cl]) stk stk
            ((flat_map (rd t) l ++ flat_map (section_reading rd t) op ++ toc_at t [PPreamble]) ++ flat_map (part_reading rd t) parts ++ flat_map (section_reading rd t) cl)) by (intros; run2).
          run2.
        + assert (W : forall stk, sp (seq [each (eval_section anchors wants n eb t) op; each (eval_book_part anchors wants n eb t) parts; each (eval_section anchors wants n eb t) cl]) stk stk
            (flat_map (section_reading rd t) op ++ flat_map (part_reading rd t) parts ++ flat_map (section_reading rd t) cl)) by (intros; run2).
          run2.
    Qed.
    Lemma document_ok doc stk : document_fits ok doc -> sp (visit_document anchors wants n eb doc) stk stk (document_reading rd doc).
    Proof.
      intros H. unfold visit_document, document_reading. pose proof run_inlines as R.
      assert (I : forall o stk, sp (eval_docinfo anchors wants n doc o) stk stk (if embedded doc then [] else opt o)).
      { intros o stk'. unfold eval_docinfo. destruct (embedded doc); [apply sp_skip|apply run_opt]. }
      assert (T : forall stk, sp (match d_title doc with Some l => seq [enter "document_title" []; inlines anchors wants n l; exit "document_title" []] | None => skip end) stk stk (opt (d_title doc))).
      { destruct (d_title doc); intros; [run2|apply sp_skip]. }
      pose proof (toc_at_ok (d_toc doc) [PAuto; PLeft; PRight]) as Ta.
      assert (C : forall stk, sp (eval_doc_content anchors wants n eb (d_toc doc) (flag (some (d_title doc))) (d_content doc)) stk stk (content_reading rd (d_toc doc) (d_content doc))) by (intros; now apply doc_content_ok).
      revert T. match goal with |- (forall stk, sp ?f stk stk ?r) -> _ => generalize f end. intros f T.
      run2.
    Qed.
    Lemma cell_ok t sect c stk : cell_fits ok c -> sp (eval_cell anchors wants n eb t sect c) stk stk (cell_reading rd c).
    Proof.
      intros H. unfold eval_cell, cell_reading. unfold cell_fits in H. pose proof run_inlines as R. destruct (c_content c) as [l|l|doc].
      - assert (P : forall stk, sp (each (fun p => seq [enter "cell_paragraph" [c_d c; sect]; inlines anchors wants n p; exit "cell_paragraph" [c_d c; sect]]) l) stk stk (flat_map (fun p => p) l)).
        { intros. apply sp_each. apply every_all. intros a. run2. }
        rewrite flat_map_concat_map, map_id in P. run2.
      - run2.
      - assert (D : forall stk, sp (fun s => match visit_document anchors wants n eb doc (St [] false) with Done s' => emit (Cell_ (out s')) s | Crash => Crash | Loops => Loops end) stk stk (document_reading rd doc)).
        { intros stk' s s' E X L. destruct (visit_document anchors wants n eb doc (St [] false)) as [m| |] eqn:Em; try discriminate E. injection E as <-.
          split; [exact X|]. destruct (document_ok doc [] H _ _ Em ltac:(reflexivity) L) as [_ (es & Eo & Op & Y)]. cbn in Eo. subst es.
          exists [Cell_ (out m)]. split; [reflexivity|]. split.
          - intros pre P. apply opened_app; [exact P|]. constructor; [|constructor].
            specialize (Op [] (op_nil lone [] (bal_nil lone))). cbn in Op. now inversion Op.
          - unfold all_said at 1. cbn. rewrite app_nil_r. exact Y. }
        run2.
    Qed.
    Lemma row_ok t sect r stk : row_fits ok r -> sp (eval_row anchors wants n eb t sect r) stk stk (row_reading rd r).
    Proof.
      intros H. unfold eval_row, row_reading.
      assert (C : forall stk, sp (each (eval_cell anchors wants n eb t sect) (cells r)) stk stk (flat_map (cell_reading rd) (cells r))).
      { intros. apply sp_each. eapply every_impl; [|exact H]. intros a. apply cell_ok. }
      run2.
    Qed.
    Lemma table_ok t d tb stk : table_fits ok tb -> sp (eval_table anchors wants n eb t d tb) stk stk (table_reading rd tb).
    Proof.
      intros (H1 & H2 & H3). unfold eval_table, table_reading.
      assert (O : forall k o, match o with Some r => row_fits ok r | None => True end ->
        forall stk, sp (match o with Some r => seq [enter "table_section" [k]; eval_row anchors wants n eb t k r; exit "table_section" [k]] | None => skip end) stk stk (match o with Some r => row_reading rd r | None => [] end)).
      { intros k [r|] Hr stk'; [|apply sp_skip]. assert (Rr : forall stk, sp (eval_row anchors wants n eb t k r) stk stk (row_reading rd r)) by (intros; now apply row_ok). run2. }
      pose proof (O 0 _ H1) as O1. pose proof (O 2 _ H3) as O3. clear O.
      assert (O2 : forall stk, sp (match body_rows tb with [] => skip | rows => seq [enter "table_section" [1]; each (eval_row anchors wants n eb t 1) rows; exit "table_section" [1]] end) stk stk (flat_map (row_reading rd) (body_rows tb))).
      { assert (Rr : forall stk, sp (each (eval_row anchors wants n eb t 1) (body_rows tb)) stk stk (flat_map (row_reading rd) (body_rows tb))).
        { intros. apply sp_each. eapply every_impl; [|exact H2]. intros a. apply row_ok. }
        destruct (body_rows tb) as [|r l]; intros; [apply sp_skip|]. eapply sp_run; [walk2|]. cbn [app]. now rewrite app_nil_r. }
      revert O1 O2 O3. generalize (flat_map (row_reading rd) (body_rows tb)).
      match goal with |- forall r2, (forall stk, sp ?f1 stk stk ?r1) -> (forall stk, sp ?f2 stk stk _) -> (forall stk, sp ?f3 stk stk ?r3) -> _ => generalize f1, f2, f3, r1, r3 end.
      intros f1 f2 f3 r1 r3 r2 O1 O2 O3. run2.
    Qed.
  End Parts.
  Lemma block_ok : forall b t stk, sp (eval_block anchors wants n t b) stk stk (reading t b).
  Proof.
    induction b as [d title attr cite cx body H] using block_rect'. intros t stk.
    pose proof run_inlines as R. pose proof (quote_attr_ok d attr cite) as Q.
    assert (T : forall stk, sp (match title with Some l => seq [enter "meta_title" [d]; inlines anchors wants n l; exit "meta_title" [d]] | None => skip end) stk stk (opt title)).
    { destruct title; intros; [run2|apply sp_skip]. }
    cbn [eval_block reading]. cbv zeta.
    revert T. match goal with |- (forall stk, sp ?f stk stk ?r) -> sp (seq [_; ?g]) _ _ (_ ++ ?r') => 
       generalize f; intros f' T; assert (G : forall stk, sp g stk stk r') end.
    2: { eapply sp_cons; [apply T|]. eapply sp_run; [eapply sp_cons; [apply G|apply sp_skip]|apply app_nil_r]. }
    clear T f' stk. intros stk.
    destruct cx, body; cbn [body_all] in H; try apply sp_crash; rewrite ?app_nil_r; try apply sp_skip; try apply sp_leaf; try apply toc_at_ok; try (run2; fail).
    all: try (assert (Bl : forall stk, sp (each (eval_block anchors wants n t) l) stk stk (flat_map (reading t) l)) by (intros; apply blocks_ok; exact H); run2; fail).
    all: try (now apply section_ok). all: try (now apply table_ok).
    all: try (assert (It : forall stk, sp (each (eval_item anchors wants n (eval_block anchors wants n) t variant) items) stk stk (flat_map (item_reading reading t) items)) by
       (intros; apply sp_each; eapply every_impl; [|exact H]; intros a; apply item_ok); run2; fail).
    - assert (It : forall stk, sp (each (eval_description anchors wants n (eval_block anchors wants n) t) items) stk stk (flat_map (description_reading reading t) items)) by
       (intros; apply sp_each; eapply every_impl; [|exact H]; intros a; apply description_ok). run2.
    - pose proof (quote_attr_ok d (Some attr0) cite0) as Q'. run2.
  Qed.
  Theorem evaluated doc s : eval_document anchors wants n doc = Done s -> lone_ok lone (document_reading reading doc) ->
    balanced lone (out s) /\ says anchors false (document_reading reading doc) (all_said (out s)).
  Proof.
    intros E L.
    assert (D : document_fits (fun b => forall t stk, sp (eval_block anchors wants n t b) stk stk (reading t b)) doc).
    { apply content_all_. apply block_ok. }
    destruct (document_ok (eval_block anchors wants n) reading doc [] D _ _ E ltac:(reflexivity) L) as [_ (es & Eo & Op & Y)].
    cbn in Eo. subst es. split; [|exact Y]. specialize (Op [] (op_nil lone [] (bal_nil lone))). now inversion Op.
  Qed.
End Blocks.
