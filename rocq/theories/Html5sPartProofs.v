(** Proofs about C64, second part: lists, tables, images, sections, inline nodes and documents. *)
From Verif Require Import Base AttrsModel EvalModel EscapeModel EvalSpec HtmlModel HtmlSpec HtmlScanProofs HtmlTagProofs HtmlCallProofs HtmlPartProofs Html5sModel Html5sSpec Html5sCallProofs.
Open Scope string_scope.
Open Scope nat_scope.
Open Scope list_scope.

(** ** Taking off the last space *)
Lemma last_snoc x c : last_is_space (x ++ [c]) = Ascii.eqb c " ".
Proof. rewrite last_app. reflexivity. Qed.
Lemma b_substring s : forall k, b (substring 0 k s) = firstn k (b s).
Proof. induction s as [|c s IH]; intros [|k]; try reflexivity. unfold b in *. cbn. now rewrite IH. Qed.
Lemma b_of l : b (string_of_list_ascii l) = l.
Proof. unfold b. induction l as [|c l IH]; [reflexivity|cbn; now rewrite IH]. Qed.
Lemma cut_snoc_empty l p n : bytes_of_piece p = [] -> cut (S n) (l ++ [p]) = cut (S n) l.
Proof. intros E. unfold cut. rewrite rev_app_distr. cbn [rev app cut_rev]. now rewrite E. Qed.
Lemma cut_zero ps : cut 0 ps = ps.
Proof. unfold cut. replace (cut_rev 0 (rev ps)) with (rev ps) by (destruct (rev ps); reflexivity). apply rev_involutive. Qed.
Lemma cut_snoc_one l p : length (bytes_of_piece p) = 1 -> cut 1 (l ++ [p]) = l.
Proof. intros E. unfold cut. rewrite rev_app_distr. cbn [rev app cut_rev]. rewrite E. cbn [Nat.leb Nat.sub]. replace (cut_rev 0 (rev l)) with (rev l) by (destruct (rev l); reflexivity). apply rev_involutive. Qed.
Lemma cut_snoc_more l p k : length (bytes_of_piece p) = S (S k) -> cut 1 (l ++ [p]) = l ++ [shorten (S k) p].
Proof. intros E. unfold cut. rewrite rev_app_distr. cbn [rev app cut_rev]. rewrite E. cbn [Nat.leb Nat.sub rev]. now rewrite rev_involutive. Qed.
Lemma step_space q X : step q " " = Some (Out, X) -> q = (Out, X).
Proof. destruct q as [m st]. destruct m; cbn; intros E; try discriminate E; injection E as <-; reflexivity. Qed.
Lemma cut_space l : forall X, pscan (Out, []) l = Some (Out, X) -> ends_with_space l = true -> pscan (Out, []) (cut 1 l) = Some (Out, X).
Proof.
  induction l as [|p l IH] using rev_ind; intros X S E; [discriminate E|]. rewrite pscan_app in S. destruct (pscan (Out, []) l) as [q|] eqn:L; [|discriminate S].
  cbn [pscan] in S. destruct (pstep q p) as [q'|] eqn:P; [|discriminate S]. injection S as ->.
  unfold ends_with_space in E. unfold bytes_of in E. rewrite flat_map_app in E. cbn [flat_map] in E. rewrite app_nil_r in E.
  destruct (bytes_of_piece p) as [|c0 u0] eqn:B.
  { rewrite cut_snoc_empty by exact B. rewrite app_nil_r in E. apply IH; [|exact E].
    assert (q = (Out, X)); [|now subst q]. symmetry. apply (empty_scan [p]); [cbn [bytes_of flat_map]; now rewrite B|]. cbn [pscan]. now rewrite P. }
  destruct (exists_last (l := c0 :: u0)) as (u & c & U); [discriminate|]. rewrite U in B. rewrite U, app_assoc, last_snoc in E. apply Ascii.eqb_eq in E. subst c.
  assert (F : firstn (length u) (bytes_of_piece p) = u) by (rewrite B, firstn_app, Nat.sub_diag, firstn_all; apply app_nil_r).
  assert (Q : (u = [] -> q = (Out, X)) /\ pstep q (shorten (length u) p) = Some (Out, X)).
  { destruct p as [s|n|s|s|s|s|s]; cbn [pstep] in P; cbn [bytes_of_piece] in B, F.
    - cbn [shorten pstep]. rewrite b_substring, F. rewrite B, scan_app in P. destruct (scan q u) as [q1|] eqn:S1; [|discriminate P]. cbn [scan] in P.
      destruct (step q1 " ") as [q2|] eqn:S2; [|discriminate P]. injection P as ->. apply step_space in S2 as ->. split; [|reflexivity]. intros ->. now injection S1.
    - exfalso. apply (names_no " " (b (dec n)) eq_refl (dec_names n)). rewrite B. apply in_or_app. right. now left.
    - destruct q as [[] st]; try discriminate P. injection P as ->. now split.
    - destruct q as [[] st]; discriminate P.
    - destruct q as [[] st]; try discriminate P. injection P as ->. now split.
    - destruct q as [[] st]; discriminate P.
    - destruct q as [[] st]; discriminate P. }
  destruct Q as (Q1 & Q2). assert (LB : length (bytes_of_piece p) = S (length u)) by (rewrite B, app_length, Nat.add_comm; reflexivity).
  destruct u as [|c u].
  - rewrite cut_snoc_one by exact LB. now rewrite L, Q1.
  - rewrite (cut_snoc_more l p (length u)) by exact LB. rewrite pscan_app, L. cbn [pscan length] in *. now rewrite Q2.
Qed.

Section Calls5.
  Context (D : details) (debug : bool).

  (** ** Lists *)
  Definition list_stack (tag : string) (d depth : nat) (X : list bytes) : list bytes := b tag :: (if depth =? 1 then by_tag D "section" d :: X else X).
  Lemma mv_ul d n X : mv (tt5 D d) [] X (enter_unordered_list5 D d n) (list_stack "ul" d n X).
  Proof.
    split; [|unfold tt5, enter_unordered_list5; destruct (n_title D d) eqn:NT; [see|sem]].
    unfold list_stack, by_tag. apply st_look. intros s. cbv zeta. eapply st_cons; [apply st_ok; aside|].
    apply st_cons with (Out, if n =? 1 then b (by_title D "section" d) :: X else X).
    { apply st_put. destruct (n =? 1); cbn [if_pieces]; [|reflexivity]. unfold by_title. destruct (n_title D d).
      - apply (ok_finish (b "section")), ok_classes; apply ok_id; [reflexivity|starts].
      - apply (ok_finish (b "div")), ok_classes; apply ok_id; [reflexivity|starts]. }
    eapply st_cons; [apply go_title5|]. eapply st_cons; [apply st_put, scan_list_tag|apply st_nil].
  Qed.
  Lemma mv_ul' d n a X : mv Keep a (list_stack "ul" d n X) (exit_unordered_list5 D d n) X.
  Proof. unfold exit_unordered_list5, list_stack, by_tag. destruct (n =? 1); [me D d|mk]. Qed.
  Lemma mv_ol d n X : mv (tt5 D d) [] X (enter_ordered_list5 D debug d n) (list_stack "ol" d n X).
  Proof.
    split; [|unfold tt5, enter_ordered_list5; destruct (n_title D d) eqn:NT; [see|sem]].
    unfold list_stack, by_tag. apply st_look. intros s. destruct (debug && _); [apply st_panic|]. cbv zeta. eapply st_cons; [apply st_ok; aside|].
    apply st_cons with (Out, if n =? 1 then b (by_title D "section" d) :: X else X).
    { apply st_put. destruct (n =? 1); cbn [if_pieces]; [|reflexivity]. unfold by_title. destruct (n_title D d); apply scan_element; starts. }
    eapply st_cons; [apply go_title5|]. eapply st_cons; [apply st_put|apply st_nil].
    generalize (match n_opt D d "number-style" with Some c => c | None => class_from_depth ((n + 256 - desc_depth s) mod 256) end).
    match goal with |- context [negb (?t =? "1")%string] => generalize t end. intros type class. sc.
  Qed.
  Lemma mv_ol' d n a X : mv Keep a (list_stack "ol" d n X) (exit_ordered_list5 D d n) X.
  Proof. unfold exit_ordered_list5, list_stack, by_tag. destruct (n =? 1); [me D d|mk]. Qed.
  Definition dlist_flags5 (d : nat) (f : flags) : flags := if is_glossary D d then with_glossary true f else f.
  Lemma ok_if n c class t : tag_ok n t -> tag_ok n (if_class c class t).
  Proof. destruct c; cbn [if_class]; [apply ok_class|auto]. Qed.
  Lemma tri_dlist5 d n X f m c x : tri (A (Out, X) [] f m c x) (enter_description_list5 D d n) (A (Out, list_stack "dl" d n X) [] (dlist_flags5 d f) m c x).
  Proof.
    unfold enter_description_list5, list_stack, by_tag, dlist_flags5. cbv zeta. eapply tri_cons; [apply st_ok; aside|]. eapply tri_cons; [apply tri_flags|].
    apply tri_cons with (A (Out, if n =? 1 then b (by_title D "section" d) :: X else X) [] (dlist_flags5 d f) m c x).
    - unfold dlist_flags5. destruct (n =? 1); [|apply tri_nothing]. rewrite finish_eq.
      set (t := if_class _ _ _). assert (T : tag_ok (b (by_title D "section" d)) t).
      { apply ok_if, ok_if, ok_if, ok_class. unfold by_title. destruct (n_title D d); (apply ok_id; [reflexivity|starts]). }
      eapply tri_bind; [apply (tri_at_tag (b (by_title D "section" d)))|].
      { destruct (ok_unclosed _ _ T X) as (m' & S & I). eauto. }
      replace (b (by_title D "section" d) :: X) with (opens (b (by_title D "section" d)) X) by (unfold by_title; destruct (n_title D d); reflexivity).
      destruct (n_has_pos D d "qanda").
      + eapply tri_bind; [apply tri_pop|]. apply (tri_in_out (b (by_title D "section" d))). intros m' I. unfold by_title in I |- *.
        destruct (n_title D d), I as [->| ->]; lit.
      + apply tri_at_out, tri_nothing.
    - eapply tri_cons; [apply go_title5|]. eapply tri_cons; [apply tri_put|apply tri_nil]. unfold dlist_flags5. destruct (n_has_pos D d "qanda"), (is_glossary D d), (n_has_pos D d "horizontal"); lit.
  Qed.
  Lemma se_dlist d n : settles (tt5 D d) (enter_description_list5 D d n).
  Proof. unfold tt5, enter_description_list5. cbv zeta. destruct (n_title D d) eqn:NT; [see|sem]. Qed.
  Lemma tri_dlist5' d n X a f m c x : tri (A (Out, list_stack "dl" d n X) a f m c x) (exit_description_list5 D d n) (A (Out, X) a (with_glossary false f) m c x).
  Proof.
    unfold exit_description_list5, list_stack, by_tag, by_title, end_tag. eapply tri_cons; [apply tri_flags|]. eapply tri_cons; [apply tri_put|eapply tri_cons; [apply st_ok; aside|apply tri_nil]].
    destruct (n =? 1), (n_title D d); lit.
  Qed.
  Lemma se_dlist' d n : settles Keep (exit_description_list5 D d n).
  Proof. unfold exit_description_list5. sek. Qed.
  Definition item_stack (d : nat) (X : list bytes) : list bytes := if n_flag D d "first-block" then b "p" :: b "li" :: X else b "li" :: X.
  Lemma mv_item d a X : mv Keep a X (enter_item_principal5 D d) (item_stack d X).
  Proof. split; [|unfold enter_item_principal5; sek]. apply st_put. unfold item_stack. destruct (n_flag D d "checklist"), (n_flag D d "checked"), (n_flag D d "first-block"); lit. Qed.
  Lemma mv_item' d a X : mv Keep a (item_stack d X) (exit_item_principal5 D d) (b "li" :: X).
  Proof. split; [|unfold exit_item_principal5; sek]. apply st_put. unfold item_stack. destruct (n_flag D d "first-block"); lit. Qed.

  (** ** Tables *)
  Lemma mv_table tb d X : mv (tt5 D d) [] X (enter_table5 D tb d) (b "table" :: by_tag D "figure" d :: X).
  Proof.
    split; [|unfold tt5, enter_table5; cbv zeta; destruct (n_title D d) eqn:NT; [see|sem]].
    unfold by_tag. apply st_look. intros s. cbv zeta. apply st_cons with (Out, b (by_title D "figure" d) :: X); [unfold by_title; destruct (n_title D d); (apply st_put; sc)|].
    eapply st_cons; [apply go_title5|]. eapply st_cons; [apply st_put, (ok_finish (b "table"))|].
    - assert (T : forall o1 o2 t, tag_ok (b "table") t -> tag_ok (b "table") (match o1 with Some x => o_style ("float: " ++ x ++ ";") (match o2 with Some w => o_style ("width: " ++ w ++ "%;") t | None => t end) | None => match o2 with Some w => o_style ("width: " ++ w ++ "%;") t | None => t end end)).
      { intros [x|] [w|] t T; repeat apply ok_style; exact T. }
      apply T, ok_resolved, ok_if, ok_resolved, ok_resolved. apply (ok_none "table"). starts.
    - eapply st_cons; [apply st_put|apply st_nil]. eapply pscan_seq; [lit|].
      apply pscan_seq with (Out, b "colgroup" :: b "table" :: b (by_title D "figure" d) :: X); [|lit]. apply scan_flat. intros w. cbv beta. destruct (negb _ && _); cbn [if_pieces app]; lit.
  Qed.
  Lemma mv_table' d a X : mv Keep a (b "table" :: by_tag D "figure" d :: X) (exit_table5 D d) X.
  Proof. unfold exit_table5, by_tag. me D d. Qed.
  Lemma mv_section_tag sect a X : mv Keep a X (enter_table_section sect) (section_bytes sect :: X).
  Proof. split; [apply go_section_tag|unfold enter_table_section; sek]. Qed.
  Lemma mv_section_tag' sect a X : mv Keep a (section_bytes sect :: X) (exit_table_section sect) X.
  Proof. split; [apply go_section_tag'|unfold exit_table_section; sek]. Qed.
  Definition cell_inner5 (d : nat) (X : list bytes) : list bytes := match n_cell D d with CsLiteral => b "pre" :: b "div" :: X | _ => X end.
  Lemma mv_cell d sect a X : mv Keep a X (enter_table_cell5 D d sect) (cell_inner5 d (cell_tag D d sect :: X)).
  Proof.
    split; [|unfold enter_table_cell5; sek]. unfold enter_table_cell5. apply st_cons with (Out, cell_tag D d sect :: X).
    - apply st_put. unfold open_cell5, cell_tag. destruct (heads D d sect), (1 <? n_num D d "colspan"), (1 <? n_num D d "rowspan"); lit.
    - eapply st_cons; [|apply st_nil]. unfold cell_inner5. destruct (n_cell D d); unfold preserve_newlines; go2.
  Qed.
  Lemma mv_cell' d sect a X : (heads D d sect = true -> n_cell D d <> CsLiteral) -> mv Keep a (cell_inner5 d (cell_tag D d sect :: X)) (exit_table_cell5 D d sect) X.
  Proof.
    intros L. split; [|unfold exit_table_cell5; sek]. unfold exit_table_cell5, cell_tag, cell_inner5. destruct (heads D d sect).
    - destruct (n_cell D d); try (now destruct (L eq_refl)); (apply st_cons with (Out, b "th" :: X); [|go2]; intros f m c x; apply tri_ok; intros h (H1 & H);
        destruct (ends_with_space (html h)) eqn:E; [|now split]; split; [|exact H]; cbn [html set_html]; now apply cut_space).
    - destruct (n_cell D d); unfold go, default_newlines; go2.
  Qed.
  Definition cell_style_ok (d sect : nat) : Prop := sect = 0 -> match n_cell D d with CsEmphasis | CsMonospace | CsStrong => False | _ => True end.
  Definition paragraph_inner5 (d : nat) (X : list bytes) : list bytes :=
    let Y := if n_flag D d "multi" then b "p" :: X else X in match n_cell D d with CsEmphasis => b "em" :: Y | CsMonospace => b "code" :: Y | CsStrong => b "strong" :: Y | _ => Y end.
  Lemma mv_cell_paragraph d sect a X : mv Keep a X (enter_cell_paragraph5 D d sect) (paragraph_inner5 d X).
  Proof. split; [|unfold enter_cell_paragraph5; sek]. apply st_put. unfold paragraph_inner5. destruct (n_cell D d), (n_flag D d "multi"); lit. Qed.
  Lemma mv_cell_paragraph' d sect a X : cell_style_ok d sect -> mv Keep a (paragraph_inner5 d X) (exit_cell_paragraph5 D d sect) X.
  Proof.
    intros S. split; [|unfold exit_cell_paragraph5; sek]. apply st_put. unfold paragraph_inner5, cell_style_ok in *. destruct (sect =? 0) eqn:E.
    - apply Nat.eqb_eq in E. specialize (S E). destruct (n_cell D d), (n_flag D d "multi"); try contradiction; lit.
    - destruct (n_cell D d), (n_flag D d "multi"); lit.
  Qed.
End Calls5.
