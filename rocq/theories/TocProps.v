(** C22: the table of contents mirrors the sections. *)
From Verif Require Import Base SectionsModel SectionsSpec SectionsProofs TocModel TocSpec TocProofs.

(** Whenever the table is built, reading it from top to bottom gives the headings down to toclevels that are not out of sequence, each once and in
    the order of the source. For books [content_items] is what of the source is in the document (C48). *)
Theorem C22_reads_in_order : forall t book cs c ns, parse_with_toc t book cs = Some (Ret (c, ns)) -> book = false \/ no_special (document_items cs) ->
  toc_entries ns = shown t [] (content_items c).
Proof.
  intros t book cs c ns E B. unfold parse_with_toc in E. destruct (parse_content book cs) as [[x|]|] eqn:PC; [|discriminate|discriminate].
  destruct (build_toc t [] (evs x)) as [ns'|] eqn:BT; [|discriminate]. injection E as <- <-. destruct (document_events t book cs x PC B) as [_ A]. rewrite (build_entries _ _ _ _ BT), A. reflexivity.
Qed.
Print Assumptions C22_reads_in_order.
(** It is built without a crash, and every entry is below the nearest entry before it that has a smaller level, when no heading above the
    last shown level skips a level. *)
Theorem C22_nesting : forall t book cs, book = false \/ no_special (document_items cs) ->
  exists c dropped, parse_content book cs <> None /\ document_items cs = content_items c ++ dropped /\ (book = false -> dropped = []) /\
    (in_sequence_above t [] (content_items c) -> exists ns, parse_with_toc t book cs = Some (Ret (c, ns)) /\
       toc_entries ns = shown t [] (content_items c) /\ toc_owned ns = nearest_smaller [] (shown t [] (content_items c))).
Proof.
  intros t book cs B. destruct (parse_content_total book cs) as (x & E & I & R). exists (val x), (input_items (rest x)). split; [rewrite E; discriminate|]. split; [exact I|]. split; [exact R|].
  intro Q. destruct (document_events t book cs x E B) as [F A]. destruct (toc_of_events t (evs x) (content_items (val x)) F A Q) as (ns & BT & T1 & T2). exists ns.
  unfold parse_with_toc. rewrite E, BT. auto.
Qed.
Print Assumptions C22_nesting.
(** For articles in one line, and when no shown heading skips a level: the table has all headings down to toclevels. *)
Theorem C22_article_complete : forall t cs, in_sequence_above (S t) [] (document_items cs) -> exists c ns, parse_with_toc t false cs = Some (Ret (c, ns)) /\
  toc_entries ns = headings_to t (document_items cs) /\ toc_owned ns = nearest_smaller [] (headings_to t (document_items cs)).
Proof.
  intros t cs Q. destruct (C22_nesting t false cs (or_introl eq_refl)) as (c & d & _ & I & D & G). rewrite (D eq_refl), app_nil_r in I. rewrite <- I in G. rewrite (shown_all t _ [] Q) in G.
  destruct G as (ns & G).
  - clear - Q. revert Q. generalize (@nil head). induction (document_items cs) as [|[h|n] is IH]; intros P Q; [exact Logic.I| |exact (IH P Q)]. destruct Q as [Q1 Q2]. split; [|exact (IH _ Q2)]. intro L. apply Q1. lia.
  - exists c, ns. exact G.
Qed.
Print Assumptions C22_article_complete.
(** The default is two levels: then no document of any kind can make the construction crash, and for articles the nesting is right without any
    condition. *)
Theorem C22_default_never_crashes : forall t book cs, t <= 2 -> exists c ns, parse_with_toc t book cs = Some (Ret (c, ns)).
Proof.
  intros t book cs T. destruct (parse_content_total book cs) as (x & E & _). destruct (build_two t (evs x) T (content_plain book cs x E) []) as (ns & BT).
  exists (val x), ns. unfold parse_with_toc. rewrite E, BT. reflexivity.
Qed.
Print Assumptions C22_default_never_crashes.
Theorem C22_default_article : forall t cs, t <= 2 -> exists c ns, parse_with_toc t false cs = Some (Ret (c, ns)) /\
  toc_entries ns = shown t [] (document_items cs) /\ toc_owned ns = nearest_smaller [] (shown t [] (document_items cs)).
Proof.
  intros t cs T. destruct (C22_nesting t false cs (or_introl eq_refl)) as (c & d & _ & I & D & G). rewrite (D eq_refl), app_nil_r in I. rewrite <- I in G.
  destruct (G (two_levels t _ T [])) as (ns & H). exists c, ns. exact H.
Qed.
Print Assumptions C22_default_article.
(** The construction itself, for any sequence of entries: right if no entry is more than one level deeper than the one before, and otherwise
    a crash at the first entry that is (except a level 2 directly after a level 0). *)
Theorem C22_entries : forall t (es : list entry), Forall (fun e : entry => fst e <= t) es -> no_jumps es ->
  exists ns, build_toc t [] (map as_event es) = Ret ns /\ toc_entries ns = es /\ toc_owned ns = nearest_smaller [] es.
Proof.
  intros t es F J. destruct (build_good t es F J) as (ns & sp & E & G). exists ns. split; [exact E|]. split; [|apply G]. rewrite (build_entries _ _ _ _ E). exact (asked_events t es F).
Qed.
Print Assumptions C22_entries.
Theorem C22_jump_crashes_refuted : forall t es p e, Forall (fun e : entry => fst e <= t) (es ++ [p; e]) -> no_jumps (es ++ [p]) -> S (fst p) < fst e -> ~ (fst p = 0 /\ fst e = 2) ->
  build_toc t [] (map as_event (es ++ [p; e])) = Panic.
Proof. exact build_jump. Qed.
Print Assumptions C22_jump_crashes_refuted.

Definition H (l n : nat) : head := mkHead l false n.
Definition sample : list chunk := [([], Some 1); ([H 1 2; H 2 3], Some 4); ([H 3 6; H 4 13], None); ([H 2 7], Some 8); ([H 1 9], Some 10); ([H 2 11], Some 12); ([H 3 14], None)].
Example C22_sample : in_sequence_above 4 [] (document_items sample) /\ exists c, parse_with_toc 3 false sample = Some (Ret (c,
  [Node 1 2 [Node 2 3 [Node 3 6 []]; Node 2 7 []]; Node 1 9 [Node 2 11 [Node 3 14 []]]])).
Proof. split; [|eexists; vm_compute; reflexivity]. cbn. unfold out_of_sequence. cbn. repeat (split; [lia|]). exact I. Qed.
Example C22_book_sample : no_special (document_items [([H 0 1], Some 2); ([H 1 3; H 2 4], Some 5); ([H 0 6], None); ([H 1 7], None)]) /\
  exists c, parse_with_toc 2 true [([H 0 1], Some 2); ([H 1 3; H 2 4], Some 5); ([H 0 6], None); ([H 1 7], None)] = Some (Ret (c, [Node 0 1 [Node 1 3 [Node 2 4 []]]; Node 0 6 [Node 1 7 []]])).
Proof.
  split; [|eexists; vm_compute; reflexivity]. intros h J. cbn in J. repeat (destruct J as [J|J]; [try discriminate; injection J as <-; reflexivity|]). destruct J.
Qed.
Example C22_jump_sample : no_jumps [(1, 1)] /\ ~ (fst (1, 1) = 0 /\ fst (4, 2) = 2).
Proof. cbn. split; [exact I|lia]. Qed.

(** A document with the levels 1, 3 and 4 and four levels in the table: the third heading skips a level, which is reported and keeps it out of
    the table; its subsection is pushed, and the parser crashes. *)
Theorem C22_below_skipped_crashes_refuted : forall t, 4 <= t -> parse_with_toc t false [([H 1 1], Some 2); ([H 3 3], Some 4); ([H 4 5], Some 6)] = Some Panic.
Proof.
  intros t T. unfold parse_with_toc. replace (parse_content false [([H 1 1], Some 2); ([H 3 3], Some 4); ([H 4 5], Some 6)]) with
    (Some (Ret (mkRes (Sections [] [Sec (H 1 1) 1 [Txt 2; Sec (H 3 3) 3 [Txt 4; Sec (H 4 5) 4 [Txt 6]]]]) (mkInput None []) [TocEntry 1 1 1; OutOfSequence 3; TocEntry 4 4 5]))) by (vm_compute; reflexivity).
  cbn [evs build_toc]. unfold push_toc_node. replace (t <? 1) with false by (symmetry; apply Nat.ltb_ge; lia). cbn [last_node rev hd_error app]. replace (t <? 4) with false by (symmetry; apply Nat.ltb_ge; lia). reflexivity.
Qed.
Print Assumptions C22_below_skipped_crashes_refuted.
(** A section that skips a level is in the document but not in the table, though its level is shown. *)
Theorem C22_skipped_missing_refuted : exists c, parse_with_toc 3 false [([H 1 1], Some 2); ([H 3 3], Some 4)] = Some (Ret (c, [Node 1 1 []])) /\ In (IHead (H 3 3)) (content_items c).
Proof. eexists. split; [vm_compute; reflexivity|]. cbn. auto. Qed.
Print Assumptions C22_skipped_missing_refuted.
(** A book with an appendix written at the level of parts, with sections at levels 2 and 3, all in sequence and nothing reported: the parser
    crashes with three levels in the table. *)
Theorem C22_appendix_crashes_refuted : let cs := [([mkHead 0 true 1], None); ([H 2 2], None); ([H 3 3], None); ([], Some 4)] in
  parse_with_toc 3 true cs = Some Panic /\ exists x, parse_content true cs = Some (Ret x) /\ evs x = [TocEntry 0 1 1; TocEntry 2 2 2; TocEntry 3 3 3].
Proof. cbn zeta. split; [vm_compute; reflexivity|]. eexists. split; [vm_compute; reflexivity|reflexivity]. Qed.
Print Assumptions C22_appendix_crashes_refuted.
