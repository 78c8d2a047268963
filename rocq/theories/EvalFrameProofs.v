(** What is between the enter and the exit of the parts of a document. *)
From Verif Require Import Base EvalModel EvalSpec EvalProofs EvalBlockProofs.
Open Scope string_scope.
Open Scope list_scope.

Section Blocks.
  Context (anchors : anchor_table) (lone : string -> Prop).
  Notation sp := (sp anchors lone false).
  Definition closes (f : action) (stk : list (string * list nat)) (run : list inline) (c : string) (g : list nat) : Prop :=
    forall s s', f s = Done s' -> resolving s = false -> lone_ok lone run ->
    exists es, out s' = out s ++ es ++ [Exit c g] /\ (forall pre, opened lone stk pre -> opened lone [] (pre ++ es)) /\ says anchors false run (all_said es).
  Lemma closes_exit c g : closes (seq [exit c g]) [] [] c g.
  Proof. intros s s' E _ _. injection E as <-. exists []. split; [reflexivity|]. split; [intros pre O; now rewrite app_nil_r|constructor]. Qed.
  Lemma closes_cons f l a b r r' c g : sp f a b r -> closes (seq l) b r' c g -> closes (seq (f :: l)) a (r ++ r') c g.
  Proof.
    intros F G s s' E X L. cbn in E. unfold then_ in E. destruct (f s) as [m| |] eqn:Ef; try discriminate E.
    apply lone_app in L. destruct L as [L L'].
    destruct (F s m Ef (fun _ => X) L) as [Xm (es & Eo & O & Y)]. destruct (G m s' E (Xm eq_refl) L') as (es' & Eo' & O' & Y').
    exists (es ++ es'). rewrite Eo', Eo, <- !app_assoc. split; [reflexivity|].
    split; [intros pre P; rewrite app_assoc; auto|]. rewrite all_said_app. now apply says_app.
  Qed.
  Definition framed (f : action) (run : list inline) : Prop :=
    forall s s', f s = Done s' -> resolving s = false -> lone_ok lone run -> exists es, out s' = out s ++ es /\ goes_in_and_out anchors lone run es.
  Lemma framed_intro c g l run run' : closes (seq l) [] run c g -> run = run' -> framed (seq (enter c g :: l)) run'.
  Proof.
    intros C <- s s' E X L. cbn in E. unfold then_ in E. cbn in E. destruct (C _ _ E X L) as (es & Eo & O & Y). cbn in Eo.
    exists (Enter c g :: es ++ [Exit c g]). rewrite Eo, <- app_assoc. split; [reflexivity|]. exists c, g, es. split; [reflexivity|]. split; [|exact Y].
    specialize (O [] (op_nil lone [] (bal_nil lone))). now inversion O.
  Qed.
  Lemma framed_crash run : framed (fun _ => Crash) run.
  Proof. intros s s' E. discriminate E. Qed.
  Lemma framed_skip f run : framed f run -> framed (seq [skip; f]) run.
  Proof. intros F s s' E. apply F. cbn in E. unfold then_, skip in E. destruct (f s) eqn:G in E; try discriminate E. rewrite G. now injection E as <-. Qed.
End Blocks.
Ltac close2 := first [solve [apply closes_exit] | eapply closes_cons; [solve [stp2]|close2]].
Ltac frame2 := eapply framed_intro; [close2|try norm].
Section Frames.
  Context (anchors : anchor_table) (wants : list event -> bool) (lone : string -> Prop).
  Context (anchors_ok : forall id a, lookup anchors id = Some a -> lone_ok lone (opt (reftext a)) /\ lone_ok lone (a_title a)).
  Context (n : nat).
  Notation sp := (sp anchors lone false).
  Notation framed := (framed anchors lone).
  Let R := run_inlines anchors wants lone anchors_ok n.
  Let Bk := block_ok anchors wants lone anchors_ok n.
  Lemma section_framed t s : framed (eval_section anchors wants n (eval_block anchors wants n) t s) (section_reading reading t s).
  Proof.
    unfold eval_section, section_reading. pose proof R as R'.
    assert (Bl : forall stk, sp (each (eval_block anchors wants n t) (s_blocks s)) stk stk (flat_map (reading t) (s_blocks s))).
    { intros; apply blocks_ok. apply every_all. exact Bk. }
    frame2.
  Qed.
  Lemma row_sp t sect r stk : sp (eval_row anchors wants n (eval_block anchors wants n) t sect r) stk stk (row_reading reading r).
  Proof. apply row_ok; [exact anchors_ok|]. apply row_all_. exact Bk. Qed.
  Lemma table_framed t d tb : framed (eval_table anchors wants n (eval_block anchors wants n) t d tb) (table_reading reading tb).
  Proof.
    unfold eval_table, table_reading.
    assert (O : forall k o, forall stk, sp (match o with Some r => seq [enter "table_section" [k]; eval_row anchors wants n (eval_block anchors wants n) t k r; exit "table_section" [k]] | None => skip end) stk stk (match o with Some r => row_reading reading r | None => [] end)).
    { intros k [r|] stk'; [|apply sp_skip]. pose proof (row_sp t k r) as Rr. run2. }
    pose proof (O 0 (header_row tb)) as O1. pose proof (O 2 (footer_row tb)) as O3. clear O.
    assert (O2 : forall stk, sp (match body_rows tb with [] => skip | rows => seq [enter "table_section" [1]; each (eval_row anchors wants n (eval_block anchors wants n) t 1) rows; exit "table_section" [1]] end) stk stk (flat_map (row_reading reading) (body_rows tb))).
    { assert (Rr : forall stk, sp (each (eval_row anchors wants n (eval_block anchors wants n) t 1) (body_rows tb)) stk stk (flat_map (row_reading reading) (body_rows tb))).
      { intros. apply sp_each. apply every_all. intros a. apply row_sp. }
      destruct (body_rows tb) as [|r l]; intros; [apply sp_skip|]. eapply sp_run; [walk2|]. cbn [app]. now rewrite app_nil_r. }
    revert O1 O2 O3. generalize (flat_map (row_reading reading) (body_rows tb)).
    match goal with |- forall r2, (forall stk, sp ?f1 stk stk ?r1) -> (forall stk, sp ?f2 stk stk _) -> (forall stk, sp ?f3 stk stk ?r3) -> _ => generalize f1, f2, f3, r1, r3 end.
    intros f1 f2 f3 r1 r3 r2 O1 O2 O3. frame2.
  Qed.
  Lemma cell_sp t sect c stk : sp (eval_cell anchors wants n (eval_block anchors wants n) t sect c) stk stk (cell_reading reading c).
  Proof. apply cell_ok; [exact anchors_ok|]. apply cell_all_. exact Bk. Qed.
  Lemma row_framed t sect r : framed (eval_row anchors wants n (eval_block anchors wants n) t sect r) (row_reading reading r).
  Proof.
    unfold eval_row, row_reading. assert (C : forall stk, sp (each (eval_cell anchors wants n (eval_block anchors wants n) t sect) (cells r)) stk stk (flat_map (cell_reading reading) (cells r))).
    { intros. apply sp_each. apply every_all. intros a. apply cell_sp. }
    frame2.
  Qed.
  Lemma cell_framed t sect c : framed (eval_cell anchors wants n (eval_block anchors wants n) t sect c) (cell_reading reading c).
  Proof.
    unfold eval_cell, cell_reading. pose proof R as R'. destruct (c_content c) as [l|l|doc].
    - assert (P : forall stk, sp (each (fun p => seq [enter "cell_paragraph" [c_d c; sect]; inlines anchors wants n p; exit "cell_paragraph" [c_d c; sect]]) l) stk stk (flat_map (fun p => p) l)).
      { intros. apply sp_each. apply every_all. intros a. run2. }
      rewrite flat_map_concat_map, map_id in P. frame2.
    - frame2.
    - assert (D : forall stk, sp (fun s => match visit_document anchors wants n (eval_block anchors wants n) doc (St [] false) with Done s' => emit (Cell_ (out s')) s | Crash => Crash | Loops => Loops end) stk stk (document_reading reading doc)).
      { intros stk' s s' E X L. destruct (visit_document anchors wants n (eval_block anchors wants n) doc (St [] false)) as [m| |] eqn:Em; try discriminate E. injection E as <-.
        split; [exact X|]. destruct (evaluated anchors wants lone anchors_ok n doc m Em L) as [Ba Y].
        exists [Cell_ (out m)]. split; [reflexivity|]. split.
        - intros pre P. apply opened_app; [exact P|]. constructor; [exact Ba|constructor].
        - unfold all_said at 1. cbn. rewrite app_nil_r. exact Y. }
      frame2.
  Qed.
  Lemma part_framed t p : framed (eval_book_part anchors wants n (eval_block anchors wants n) t p) (part_reading reading t p).
  Proof.
    unfold eval_book_part, part_reading. pose proof R as R'. pose proof (run_opt anchors wants lone anchors_ok n) as Ro.
    assert (Se : forall stk, sp (each (eval_section anchors wants n (eval_block anchors wants n) t) (p_sections p)) stk stk (flat_map (section_reading reading t) (p_sections p))).
    { intros. apply sections_ok; [exact anchors_ok|]. apply every_all. intros s. apply section_all_. exact Bk. }
    destruct (p_intro p) as [l|]; [|frame2].
    assert (Bl : forall stk, sp (each (eval_block anchors wants n t) l) stk stk (flat_map (reading t) l)).
    { intros; apply blocks_ok. apply every_all. exact Bk. }
    assert (I : forall stk, sp (seq [enter "book_part_intro" [p_d p]; inlines_opt anchors wants n (p_meta_title p); enter "book_part_intro_content" [p_d p];
                    each (eval_block anchors wants n t) l; exit "book_part_intro_content" [p_d p]; exit "book_part_intro" [p_d p]]) stk stk (opt (p_meta_title p) ++ flat_map (reading t) l)) by (intros; run2).
    frame2.
  Qed.
  Lemma block_framed t d attr cite cx body : by_itself (Block d None attr cite cx body) = false ->
    framed (eval_block anchors wants n t (Block d None attr cite cx body)) (reading t (Block d None attr cite cx body)).
  Proof.
    intros H. cbn [by_itself] in H. cbn [eval_block reading opt app]. cbv zeta. apply framed_skip. pose proof R as R'. pose proof (quote_attr_ok anchors wants lone anchors_ok n d attr cite) as Q.
    destruct cx, body; try discriminate H; try apply framed_crash; rewrite ?app_nil_r; try (frame2; fail).
    all: try (assert (Bl : forall stk, sp (each (eval_block anchors wants n t) l) stk stk (flat_map (reading t) l)) by
       (intros; apply blocks_ok; apply every_all; exact Bk); frame2; fail).
    all: try (apply section_framed).
    all: try (assert (It : forall stk, sp (each (eval_item anchors wants n (eval_block anchors wants n) t variant) items) stk stk (flat_map (item_reading reading t) items)) by
       (intros; apply sp_each; apply every_all; intros a; apply item_ok; [exact anchors_ok|]; apply item_all_; exact Bk); frame2; fail).
    - assert (It : forall stk, sp (each (eval_description anchors wants n (eval_block anchors wants n) t) items) stk stk (flat_map (description_reading reading t) items)) by
       (intros; apply sp_each; apply every_all; intros a; apply description_ok; [exact anchors_ok|]; apply item_all_; exact Bk). frame2.
    - pose proof (quote_attr_ok anchors wants lone anchors_ok n d (Some attr0) cite0) as Q'. frame2.
    - apply table_framed.
  Qed.
  (** a list item is its first paragraph and then its blocks *)
  Lemma item_framed t variant i s s' : eval_item anchors wants n (eval_block anchors wants n) t variant i s = Done s' -> resolving s = false ->
    lone_ok lone (i_principle i) -> lone_ok lone (flat_map (reading t) (i_blocks i)) -> exists l1 l2, out s' = out s ++ l1 ++ l2 /\
    goes_in_and_out anchors lone (i_principle i) l1 /\ goes_in_and_out anchors lone (flat_map (reading t) (i_blocks i)) l2.
  Proof.
    intros E X L1 L2. pose proof R as R'.
    assert (F1 : framed (seq [enter "list_item_principal" [i_d i; variant]; inlines anchors wants n (i_principle i); exit "list_item_principal" [i_d i; variant]]) (i_principle i)) by frame2.
    assert (S1 : sp (seq [enter "list_item_principal" [i_d i; variant]; inlines anchors wants n (i_principle i); exit "list_item_principal" [i_d i; variant]]) [] [] (i_principle i)) by run2.
    assert (Bl : forall stk, sp (each (eval_block anchors wants n t) (i_blocks i)) stk stk (flat_map (reading t) (i_blocks i))).
    { intros; apply blocks_ok. apply every_all. exact Bk. }
    assert (F2 : framed (seq [enter "list_item_blocks" [i_d i; variant]; each (eval_block anchors wants n t) (i_blocks i); exit "list_item_blocks" [i_d i; variant]]) (flat_map (reading t) (i_blocks i))) by frame2.
    revert F1 S1 F2 E. unfold eval_item. generalize (inlines anchors wants n (i_principle i)) (each (eval_block anchors wants n t) (i_blocks i)).
    intros f g F1 S1 F2 E. cbn [seq] in *. unfold then_, enter, exit, emit, skip in *.
    specialize (F1 s). specialize (S1 s). cbv beta in F1, S1, E. destruct (f _) as [m| |]; try discriminate E. specialize (F1 _ eq_refl X L1). specialize (S1 _ eq_refl (fun _ => X) L1).
    destruct F1 as (l1 & E1 & G1). destruct (F2 _ _ E (proj1 S1 eq_refl) L2) as (l2 & E2 & G2). exists l1, l2. rewrite E2, E1, app_assoc. auto.
  Qed.
End Frames.
