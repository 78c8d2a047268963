(** Proofs for C79: a document says the same with and without its comments. *)
From Verif Require Import Base EvalModel EvalSpec EvalProofs CommentSpec.
Import ListNotations.
Open Scope list_scope.

Definition same (f g : action) : Prop := forall s, f s = g s.
Lemma same_refl f : same f f.
Proof. intros s. reflexivity. Qed.
Lemma same_then f f' g g' : same f f' -> same g g' -> same (then_ f g) (then_ f' g').
Proof. intros F G s. unfold then_. rewrite F. destruct (f' s); [apply G|reflexivity..]. Qed.
Lemma same_each {A} (f g : A -> action) (h : A -> A) l : every (fun a => same (f (h a)) (g a)) l -> same (each f (map h l)) (each g l).
Proof. induction l as [|a l IH]; [intros _; apply same_refl|]. intros [X Y]. cbn [map each]. apply same_then; auto. Qed.
Ltac parts := cbn [seq]; repeat match goal with |- same (then_ _ _) (then_ _ _) => apply same_then end; try (apply same_refl); auto.

Section Eval.
  Context (anchors : anchor_table) (wants : list event -> bool) (fuel : nat).
  Notation ev := (eval_block anchors wants fuel).
  Lemma comment_says t b : comment b = true -> same (ev t b) skip.
  Proof. destruct b as [d [x|] a c cx body]; [discriminate|]. destruct cx; try discriminate. intros _ s. destruct body; reflexivity. Qed.
  Lemma comment_without b : comment (without b) = comment b.
  Proof. now destruct b as [d [x|] a c [] []]. Qed.
  Definition kept (b : block) : Prop := forall t, same (ev t (without b)) (ev t b).
  Lemma all_kept t l : every kept l -> same (each (ev t) (without_all l)) (each (ev t) l).
  Proof.
    induction l as [|b l IH]; [intros _; apply same_refl|]. intros [X Y]. unfold without_all. cbn [map filter each]. rewrite comment_without. destruct (comment b) eqn:C; cbn [negb].
    - intros s. unfold then_. rewrite (comment_says t b C s). cbn. now apply IH.
    - cbn [each]. apply same_then; [apply X|now apply IH].
  Qed.
  Lemma section_kept t s : section_fits kept s -> same (eval_section anchors wants fuel ev t (in_section without_all s)) (eval_section anchors wants fuel ev t s).
  Proof. intros F. unfold eval_section. parts. cbn [s_blocks in_section]. now apply all_kept. Qed.
  Lemma sections_kept t l : every (section_fits kept) l -> same (each (eval_section anchors wants fuel ev t) (map (in_section without_all) l)) (each (eval_section anchors wants fuel ev t) l).
  Proof. intros F. apply same_each. apply (every_impl (section_fits kept)); [intros a; apply section_kept|exact F]. Qed.
  Lemma part_kept t p : part_fits kept p -> same (eval_book_part anchors wants fuel ev t (in_part without_all p)) (eval_book_part anchors wants fuel ev t p).
  Proof.
    intros [F G]. unfold eval_book_part. destruct p as [d ti mt [l|] ss]; cbn [in_part option_map p_intro p_sections p_d p_title p_meta_title] in *; parts; try now apply sections_kept. now apply all_kept.
  Qed.
  Lemma item_kept t v i : every kept (i_blocks i) -> same (eval_item anchors wants fuel ev t v (in_item without_all i)) (eval_item anchors wants fuel ev t v i).
  Proof. intros F. unfold eval_item. parts. cbn [i_blocks in_item]. now apply all_kept. Qed.
  Lemma description_kept t i : item_all kept i -> same (eval_description anchors wants fuel ev t (in_description without i)) (eval_description anchors wants fuel ev t i).
  Proof.
    intros [F G]. unfold eval_description. destruct i as [d p [ex [b|]|] bs]; cbn [in_description i_meta i_blocks i_d i_principle] in *; [| |apply same_refl].
    - cbn [some orb]. parts; try apply G. apply same_each. apply (every_impl kept); [|exact F]. intros a X. parts; apply X.
    - cbn [some orb]. replace (match map without bs with [] => true | _ :: _ => false end) with (match bs with [] => true | _ :: _ => false end) by now destruct bs. destruct (match bs with [] => true | _ :: _ => false end); cbn [negb]; [apply same_refl|]. parts. apply same_each. apply (every_impl kept); [|exact F]. intros a X. parts; apply X.
  Qed.
  Lemma content_kept t n c : content_fits kept c -> same (eval_doc_content anchors wants fuel ev t n (in_content without_all c)) (eval_doc_content anchors wants fuel ev t n c).
  Proof.
    intros F. unfold eval_doc_content. parts. destruct c as [l|p l|p o l c]; cbn [in_content content_fits] in *.
    - now apply all_kept.
    - destruct F as [F G]. parts; [|now apply sections_kept]. destruct p as [l0|]; [|apply same_refl]. cbn [option_map every_opt] in *. parts. now apply all_kept.
    - destruct F as (F & G & H & K). parts; [| |now apply sections_kept].
      + destruct p as [l0|]; [|now apply sections_kept]. cbn [option_map every_opt] in *. parts; [now apply all_kept|now apply sections_kept].
      + apply same_each. apply (every_impl (part_fits kept)); [intros a; apply part_kept|exact H].
  Qed.
  Lemma document_kept d : document_fits kept d -> same (visit_document anchors wants fuel ev (in_document without_all d)) (visit_document anchors wants fuel ev d).
  Proof. intros F. unfold visit_document. parts. cbn [in_document d_toc d_title d_content]. now apply content_kept. Qed.
  Lemma cell_kept t n c : cell_fits kept c -> same (eval_cell anchors wants fuel ev t n (in_cell without_all c)) (eval_cell anchors wants fuel ev t n c).
  Proof.
    intros F. unfold eval_cell. parts. destruct c as [d [l|l|doc]]; cbn [in_cell c_content c_d cell_fits] in *; [apply same_refl..|]. intros s. now rewrite (document_kept doc F).
  Qed.
  Lemma row_kept t n r : row_fits kept r -> same (eval_row anchors wants fuel ev t n (in_row without_all r)) (eval_row anchors wants fuel ev t n r).
  Proof. intros F. unfold eval_row. parts. cbn [in_row cells]. apply same_each. apply (every_impl (cell_fits kept)); [intros a; apply cell_kept|exact F]. Qed.
  Lemma table_kept t d tb : table_fits kept tb -> same (eval_table anchors wants fuel ev t d (in_table without_all tb)) (eval_table anchors wants fuel ev t d tb).
  Proof.
    intros (F & G & H). unfold eval_table. destruct tb as [td h bs f]; cbn [in_table header_row body_rows footer_row t_d] in *. parts.
    - destruct h as [r|]; [|apply same_refl]. cbn [option_map]. parts. now apply row_kept.
    - destruct bs as [|r bs]; [apply same_refl|]. change (map (in_row without_all) (r :: bs)) with (in_row without_all r :: map (in_row without_all) bs). cbv iota. cbn [seq]. apply same_then; [apply same_refl|]. apply same_then; [|apply same_refl]. apply (same_each _ _ (in_row without_all) (r :: bs)). apply (every_impl (row_fits kept)); [intros a; apply row_kept|exact G].
    - destruct f as [r|]; [|apply same_refl]. cbn [option_map]. parts. now apply row_kept.
  Qed.
  Lemma block_kept : forall b, kept b.
  Proof.
    apply block_rect'. intros d title attr cite cx body F t. cbn [without]. fold without_all. destruct body as [l|l|e|e|e l|  |tb|sc|e|q a c|v n items]; try (intros s; reflexivity).
    - change (fun l => filter _ (map without l)) with without_all. pose proof (all_kept t l F) as K. destruct cx; try (intros s; reflexivity); cbn [eval_block]; parts.
    - pose proof (fun d => table_kept t d tb F) as K. destruct cx; try (intros s; reflexivity); cbn [eval_block]; parts; apply K.
    - pose proof (section_kept t sc F) as K. destruct cx; try (intros s; reflexivity); cbn [eval_block]; parts.
    - assert (K : same (each (eval_description anchors wants fuel ev t) (map (in_description without) items)) (each (eval_description anchors wants fuel ev t) items)).
      { apply same_each. apply (every_impl (item_all kept)); [intros a; apply description_kept|exact F]. }
      assert (K' : forall v, same (each (eval_item anchors wants fuel ev t v) (map (in_item without_all) items)) (each (eval_item anchors wants fuel ev t v) items)).
      { intros v'. apply same_each. apply (every_impl (item_all kept)); [intros a [X _]; now apply item_kept|exact F]. }
      destruct cx; try (intros s; reflexivity); cbn [eval_block]; parts; apply K'.
  Qed.
  Lemma without_same d : eval_document anchors wants fuel (without_comments d) = eval_document anchors wants fuel d.
  Proof. unfold eval_document. apply document_kept. exact (content_all_ kept block_kept (d_content d)). Qed.
End Eval.
