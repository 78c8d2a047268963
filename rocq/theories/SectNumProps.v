(** C23: section numbers are consecutive and identify their section. *)
From Verif Require Import Base SectNumModel SectNumSpec SectNumProofs.
Open Scope string_scope. Open Scope nat_scope. Open Scope list_scope.

(** For every document of sections, whatever its settings and wherever they change: before each title stands the number that counts, at each
    level down to its own, the numbered headings of that level since the last one above it; nothing before titles that are not numbered. *)
Theorem C23_consecutive : forall c bs, forallb ordinary bs = true -> numberable (marks c (flat_map flat bs)) -> document c bs = Ret (prefixes [] (marks c (flat_map flat bs))).
Proof. exact document_numbers. Qed.
Print Assumptions C23_consecutive.
(** No two titles have the same number. *)
Theorem C23_distinct : forall c bs texts, forallb ordinary bs = true -> numberable (marks c (flat_map flat bs)) -> document c bs = Ret texts ->
  NoDup (filter (fun s => negb (String.eqb s "")) texts).
Proof.
  intros c bs texts O N E. rewrite (document_numbers c bs O N) in E. injection E as <-. apply texts_distinct. eapply Forall_impl; [|exact N]. cbn. intros a H K. specialize (H K). lia.
Qed.
Print Assumptions C23_distinct.
(** The counting: a heading that follows a heading of its own level has the next number, one that goes one level deeper starts at 1. *)
Theorem C23_next_sibling : forall l before, 1 <= l -> exists front n, path l (l :: before) = front ++ [n] /\ path l (l :: l :: before) = front ++ [S n].
Proof.
  intros l before L. destruct l as [|k]; [lia|]. unfold path. rewrite seq_S, !map_app. cbn [map]. exists (map (fun j => count j (S k :: before)) (seq 1 k)), (count (S k) (S k :: before)).
  split; [reflexivity|]. f_equal.
  - apply map_ext_in. intros j J. apply in_seq in J. cbn [count]. replace (S k <? j) with false by (symmetry; apply Nat.ltb_ge; lia). replace (S k =? j) with false by (symmetry; apply Nat.eqb_neq; lia). reflexivity.
  - cbn [Nat.add]. cbn [count]. rewrite Nat.ltb_irrefl, Nat.eqb_refl. reflexivity.
Qed.
Print Assumptions C23_next_sibling.
Theorem C23_first_child : forall l before, path (S l) (S l :: l :: before) = path l (l :: before) ++ [1].
Proof.
  intros l before. unfold path. rewrite seq_S, map_app. f_equal.
  - apply map_ext_in. intros j J. apply in_seq in J. cbn [count]. replace (S l <? j) with false by (symmetry; apply Nat.ltb_ge; lia). replace (S l =? j) with false by (symmetry; apply Nat.eqb_neq; lia). reflexivity.
  - cbn [map Nat.add]. cbn [count]. rewrite Nat.ltb_irrefl, Nat.eqb_refl. replace (l <? S l) with true by (symmetry; apply Nat.ltb_lt; lia). reflexivity.
Qed.
Print Assumptions C23_first_child.
(** The table of contents at the top of a document prints the same numbers as the body: those of the headings it shows. *)
Theorem C23_toc_numbers : forall c ns, forallb ordinary_node ns = true -> numberable (toc_marks c ns) -> exists s, toc_nodes c ns fresh_state = Ret (s, prefixes [] (toc_marks c ns)).
Proof. exact toc_numbers. Qed.
Print Assumptions C23_toc_numbers.
Theorem C23_toc_numbers_match : forall t ms, prefixes [] (filter (fun m => fst m <=? t) ms) = map snd (filter (fun x => fst x <=? t) (combine (map fst ms) (prefixes [] ms))).
Proof. intros t ms. exact (prefixes_filter t ms []). Qed.
Print Assumptions C23_toc_numbers_match.

Definition on : config := mkConf On 3 false.
Definition off : config := mkConf Off 3 false.
Definition S1 := fun l bs => Section l None bs.
Definition sample : list blk := [S1 1 [S1 2 []; S1 2 [S1 3 [S1 4 []]]]; Settings off; S1 1 [S1 2 []]; Settings on; S1 1 [S1 2 []]].
Example C23_sample : forallb ordinary sample = true /\ numberable (marks on (flat_map flat sample)) /\
  document on sample = Ret ["1. "; "1.1. "; "1.2. "; "1.2.1. "; ""; ""; ""; "2. "; "2.1. "].
Proof. split; [reflexivity|]. split; [|vm_compute; reflexivity]. vm_compute. repeat (constructor; [intros; try discriminate; split; repeat constructor|]). constructor. Qed.

(** Subsections of appendices: those of the second appendix have the numbers of those of the first. *)
Theorem C23_appendix_sections_repeat_refuted : document on [S1 1 []; Section 1 (Some Appendix) [S1 2 []]; Section 1 (Some Appendix) [S1 2 []]] = Ret ["1. "; "A: "; "A.1. "; "B: "; "A.1. "].
Proof. vm_compute. reflexivity. Qed.
Print Assumptions C23_appendix_sections_repeat_refuted.
(** A section after an appendix has the number of the first section. *)
Theorem C23_after_appendix_repeats_refuted : document on [S1 1 []; Section 1 (Some Appendix) []; S1 1 []] = Ret ["1. "; "A: "; "1. "].
Proof. vm_compute. reflexivity. Qed.
Print Assumptions C23_after_appendix_repeats_refuted.
(** So has the section after a table of contents that is placed in the body; and the numbers in that table go on from the body's. *)
Theorem C23_toc_macro_restarts_refuted : document on [S1 1 [Toc [TNode 1 None []; TNode 1 None []]]; S1 1 []] = Ret ["1. "; "2. "; "3. "; "1. "].
Proof. vm_compute. reflexivity. Qed.
Print Assumptions C23_toc_macro_restarts_refuted.
(** A heading that skips a level has a zero in its number. *)
Theorem C23_skipped_level_zero_refuted : document on [S1 1 [S1 3 []]] = Ret ["1. "; "1.0.1. "].
Proof. vm_compute. reflexivity. Qed.
Print Assumptions C23_skipped_level_zero_refuted.
(** Crashes: a numbered section of level 0 (an article with a second document title, which is reported but parsed), and a section of level 6 when six
    levels are numbered. *)
Theorem C23_level_zero_crashes_refuted : forall sp bs rest, is_appendix sp = false -> should_number_section on 0 sp = true -> document on (Section 0 sp bs :: rest) = Panic.
Proof. intros sp bs rest A S0. unfold document. cbn [blocks]. rewrite block_section. unfold heading, push_section_heading_prefix. cbn [fst]. rewrite A, S0. reflexivity. Qed.
Print Assumptions C23_level_zero_crashes_refuted.
Theorem C23_level_six_crashes_refuted : forall c rest bs, numbers c = On -> (6 <= num_levels c)%Z -> document c (S1 6 bs :: rest) = Panic.
Proof.
  intros c rest bs N L. unfold document. cbn [blocks]. unfold S1. rewrite block_section. unfold heading, push_section_heading_prefix, should_number_section. cbn [fst is_appendix].
  replace (num_levels c <? Z.of_nat 6)%Z with false by (symmetry; apply Z.ltb_ge; cbn; lia). rewrite N. reflexivity.
Qed.
Print Assumptions C23_level_six_crashes_refuted.
(** The twenty-seventh appendix is not named by a letter. *)
Theorem C23_appendix_letters_run_out_refuted : document on (repeat (Section 1 (Some Appendix) []) 27) = Ret ["A: "; "B: "; "C: "; "D: "; "E: "; "F: "; "G: "; "H: "; "I: "; "J: "; "K: "; "L: "; "M: "; "N: "; "O: "; "P: "; "Q: "; "R: "; "S: "; "T: "; "U: "; "V: "; "W: "; "X: "; "Y: "; "Z: "; "[: "].
Proof. vm_compute. reflexivity. Qed.
Print Assumptions C23_appendix_letters_run_out_refuted.
(** A preface of a book written at the level of parts is numbered as a part in the table of contents, so the part after it has another number there
    than in the body. *)
Theorem C23_preface_counted_as_part_refuted : let c := mkConf On 3 true in
  document c [Toc [TNode 0 (Some Supported) []; TNode 0 None []]; Section 1 (Some Supported) []; PartTitle] = Ret ["Part 1: "; "Part 2: "; "1. "; "Part 1: "].
Proof. vm_compute. reflexivity. Qed.
Print Assumptions C23_preface_counted_as_part_refuted.
