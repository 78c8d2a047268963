(** C48: every heading and every block of the source is in the parsed document, once and in order, under the section it belongs to. *)
From Verif Require Import Base SectionsModel SectionsSpec SectionsProofs.

(** ** articles *)
Theorem C48_article_nothing_lost : forall cs, exists x, parse_content false cs = Some (Ret x) /\ content_items (val x) = document_items cs.
Proof.
  intro cs. destruct (parse_content_total false cs) as (x & E & I & N). exists x. split; [exact E|]. rewrite I, (N eq_refl), app_nil_r. reflexivity.
Qed.
Print Assumptions C48_article_nothing_lost.
(** A heading is in the section of the nearest heading above it with a smaller level, a block in the section of the nearest heading. *)
Theorem C48_article_structure : forall cs x, parse_content false cs = Some (Ret x) -> content_owned (val x) = owned [] (document_items cs).
Proof. intros cs x E. apply article_structure, E. Qed.
Print Assumptions C48_article_structure.
(** Each heading either becomes an entry of the table of contents or is reported for skipping a level, in the order of the source. *)
Theorem C48_article_reports : forall cs x, parse_content false cs = Some (Ret x) -> evs x = expected_events [] (document_items cs).
Proof. intros cs x E. apply (article_structure cs x E). Qed.
Print Assumptions C48_article_reports.

Definition H (l n : nat) : head := mkHead l false n.
Definition sample : list chunk := [([], Some 1); ([H 1 2; H 2 3], Some 4); ([], Some 5); ([H 3 6], None); ([H 2 7], Some 8); ([H 1 9], Some 10); ([H 3 11], Some 12)].
Example C48_sample : exists x, parse_content false sample = Some (Ret x) /\
  val x = Sections [Txt 1] [Sec (H 1 2) 1 [Sec (H 2 3) 2 [Txt 4; Txt 5; Sec (H 3 6) 3 []]; Sec (H 2 7) 2 [Txt 8]]; Sec (H 1 9) 1 [Txt 10; Sec (H 3 11) 3 [Txt 12]]] /\
  evs x = [TocEntry 1 1 2; TocEntry 2 2 3; TocEntry 3 3 6; TocEntry 2 2 7; TocEntry 1 1 9; OutOfSequence 11].
Proof. eexists. split; [vm_compute; reflexivity|]. split; reflexivity. Qed.
Example C48_sample_owned : owned [] (document_items sample) =
  [(IText 1, None); (IHead (H 1 2), None); (IHead (H 2 3), Some (H 1 2)); (IText 4, Some (H 2 3)); (IText 5, Some (H 2 3)); (IHead (H 3 6), Some (H 2 3));
   (IHead (H 2 7), Some (H 1 2)); (IText 8, Some (H 2 7)); (IHead (H 1 9), None); (IText 10, Some (H 1 9)); (IHead (H 3 11), Some (H 1 9)); (IText 12, Some (H 3 11))].
Proof. reflexivity. Qed.

(** ** books *)
(** A book is always parsed without a crash, and what is in the result is a prefix of the source. *)
Theorem C48_book_prefix : forall cs, exists x dropped, parse_content true cs = Some (Ret x) /\ document_items cs = content_items (val x) ++ dropped.
Proof. intro cs. destruct (parse_content_total true cs) as (x & E & I & _). eauto. Qed.
Print Assumptions C48_book_prefix.
Lemma whole cs x : parse_content true cs = Some (Ret x) -> input_items (rest x) = [] -> content_items (val x) = document_items cs.
Proof. intros E N. destruct (parse_content_total true cs) as (y & Y & I & _). rewrite E in Y. injection Y as <-. rewrite N, app_nil_r in I. symmetry. exact I. Qed.
Theorem C48_book_of_chapters : forall h hs t r, let cs := (h :: hs, t) :: r in h_special h = false -> no_parts (document_items cs) ->
  exists x, parse_content true cs = Some (Ret x) /\ content_items (val x) = document_items cs.
Proof.
  intros h hs t r cs SP NP. destruct (book_chapters (left (mkInput None cs)) (mkInput None cs) h (hs, t) (mkInput None r) eq_refl SP NP) as (x & E & N).
  exists x. split; [exact E|exact (whole cs x E N)].
Qed.
Print Assumptions C48_book_of_chapters.
Theorem C48_book_of_parts : forall h hs t r, let cs := (h :: hs, t) :: r in h_level h = 0 -> plain_parts (document_items cs) ->
  exists x, parse_content true cs = Some (Ret x) /\ content_items (val x) = document_items cs.
Proof.
  intros h hs t r cs L0 PP. destruct (book_parts (left (mkInput None cs)) (mkInput None cs) h (hs, t) (mkInput None r) eq_refl L0 PP) as (x & E & N).
  exists x. split; [exact E|exact (whole cs x E N)].
Qed.
Print Assumptions C48_book_of_parts.
(** The same with paragraphs first, when something follows the chunk of the first heading. *)
Theorem C48_book_with_preamble : forall n ns h hs t c r, let cs := map text_chunk (n :: ns) ++ (h :: hs, t) :: c :: r in
  (h_level h = 1 /\ h_special h = false /\ no_parts (document_items cs)) \/ (h_level h = 0 /\ plain_parts (document_items cs)) ->
  exists x, parse_content true cs = Some (Ret x) /\ content_items (val x) = document_items cs.
Proof.
  intros n ns h hs t c r cs HY. assert (L : h_level h <= 1) by (destruct HY as [(-> & _)|(-> & _)]; lia).
  assert (SUB : forall g, In (IHead g) (input_items (mkInput (Some (h :: hs, t)) (c :: r))) -> In (IHead g) (document_items cs)).
  { intros g I. unfold cs, document_items. rewrite flat_map_app. apply in_or_app. right. exact I. }
  assert (LF : exists f, left (mkInput None cs) = S f).
  { unfold cs. cbn [map app]. unfold left. cbn [peeked unread map list_sum fold_right]. eexists. reflexivity. }
  destruct LF as (f & LF).
  assert (B : exists x, parse_book (S f) (mkInput (Some (h :: hs, t)) (c :: r)) = Some (Ret x) /\ input_items (rest x) = [] /\ not_blocks (val x)).
  { assert (ST : stopped 1 (mkInput (Some (h :: hs, t)) (c :: r))) by (cbn; auto).
    assert (UN : unread (mkInput (Some (h :: hs, t)) (c :: r)) <> []) by discriminate.
    destruct (parse_book_at_heading f _ ST UN) as (x & E & NB & _). exists x. split; [exact E|]. split; [|exact NB]. destruct HY as [(L1 & SP & NP)|(L0 & PP)].
    - destruct (book_chapters f (mkInput (Some (h :: hs, t)) (c :: r)) h (hs, t) (mkInput None (c :: r)) eq_refl SP (fun g I => NP g (SUB g I))) as (y & Y & N). rewrite E in Y. injection Y as <-. exact N.
    - destruct (book_parts f (mkInput (Some (h :: hs, t)) (c :: r)) h (hs, t) (mkInput None (c :: r)) eq_refl L0 (fun g I => PP g (SUB g I))) as (y & Y & N). rewrite E in Y. injection Y as <-. exact N. }
  destruct B as (x & E & N & NB).
  assert (P : exists y, parse_content true cs = Some (Ret y) /\ rest y = rest x).
  { unfold parse_content, cs in *. rewrite LF, (book_preamble n ns h hs t (c :: r) (S f) L), E. destruct (val x); [contradiction|eauto|eauto]. }
  destruct P as (y & Y & R). exists y. split; [exact Y|]. apply whole; [exact Y|]. rewrite R. exact N.
Qed.
Print Assumptions C48_book_with_preamble.
Example C48_book_samples :
  (exists x, parse_content true [([], Some 1); ([H 1 2], Some 3); ([mkHead 1 true 4], Some 5)] = Some (Ret x) /\ val x = Sections [Txt 1] [Sec (H 1 2) 1 [Txt 3]; Sec (mkHead 1 true 4) 1 [Txt 5]]) /\
  (exists x, parse_content true [([H 0 1], Some 2); ([H 1 3; H 2 4], Some 5); ([H 0 6], None); ([H 1 7], None)] = Some (Ret x) /\
     val x = Parts [] [] [Part (H 0 1) [Txt 2] [Sec (H 1 3) 1 [Sec (H 2 4) 2 [Txt 5]]]; Part (H 0 6) [] [Sec (H 1 7) 1 []]] []).
Proof. split; (eexists; split; [vm_compute; reflexivity|reflexivity]). Qed.

(** A book of paragraphs and one chapter whose text follows its heading without a blank line: the chapter is dropped, and nothing
    is reported. The parser asks whether the lexer is at the end while the lines of the chapter are put back. *)
Theorem C48_short_last_chapter_refuted : forall n ns h hs t, h_level h <= 1 -> let cs := map text_chunk (n :: ns) ++ [(h :: hs, t)] in
  exists x, parse_content true cs = Some (Ret x) /\ content_items (val x) = map IText (n :: ns) /\ evs x = [] /\ In (IHead h) (document_items cs).
Proof.
  intros n ns h hs t L cs. unfold parse_content. unfold cs at 1 2. rewrite (book_preamble n ns h hs t [] _ L). eexists. split; [reflexivity|]. cbn [val evs content_items].
  split; [|split; [reflexivity|]].
  - unfold blocks_items. generalize (n :: ns). intro l. induction l as [|m l IH]; [reflexivity|]. cbn [map flat_map block_items app]. rewrite IH. reflexivity.
  - unfold cs, document_items. rewrite flat_map_app. apply in_or_app. right. cbn. auto.
Qed.
Print Assumptions C48_short_last_chapter_refuted.
(** A book that begins with a chapter and has a part later: the part and everything behind it is dropped. *)
Theorem C48_part_after_chapters_refuted : forall h hs t r a p b, let cs := (h :: hs, t) :: r in h_special h = false -> 1 <= h_level h ->
  document_items cs = a ++ IHead p :: b -> h_level p = 0 -> no_parts a -> exists x, parse_content true cs = Some (Ret x) /\ content_items (val x) = a.
Proof.
  intros h hs t r a p b cs SP L D L0 NP. destruct (book_until_part (left (mkInput None cs)) (mkInput None cs) h (hs, t) (mkInput None r) eq_refl SP L) as (x & E & G & S0).
  exists x. split; [exact E|]. destruct (parse_content_total true cs) as (y & Y & I & _). assert (E' : parse_content true cs = Some (Ret x)) by exact E. rewrite E' in Y. injection Y as <-.
  rewrite D in I. clear D E E'. remember (content_items (val x)) as w eqn:W. clear W. revert w G I. induction a as [|i a IH]; intros w G I.
  - destruct w as [|j w]; [reflexivity|]. injection I as <- I. specialize (G p (or_introl eq_refl)). lia.
  - destruct w as [|j w].
    + destruct (stopped0_peek (rest x) S0) as [N|(g & c & s' & PK & G0)]; cbn [app] in I; [rewrite N in I; discriminate|].
      destruct (peek_items _ _ _ _ PK) as (J & _). rewrite J in I. injection I as -> _. specialize (NP g (or_introl eq_refl)). lia.
    + injection I as -> I. f_equal. apply IH; [intros g K; apply NP; right; exact K|intros g K; apply G; right; exact K|exact I].
Qed.
Print Assumptions C48_part_after_chapters_refuted.
Example C48_part_after_chapters_sample : exists x, parse_content true [([H 1 1], Some 2); ([H 0 3], None); ([H 1 4], Some 5)] = Some (Ret x) /\ val x = Sections [] [Sec (H 1 1) 1 [Txt 2]] /\ evs x = [TocEntry 1 1 1].
Proof. eexists. split; [vm_compute; reflexivity|]. split; reflexivity. Qed.
(** A part, an appendix, and a second part: the second part is dropped. *)
Theorem C48_part_after_appendix_refuted : exists x,
  parse_content true [([H 0 1], None); ([H 1 2], Some 3); ([mkHead 0 true 4], Some 5); ([H 0 6], None); ([H 1 7], Some 8)] = Some (Ret x) /\
  content_items (val x) = [IHead (H 0 1); IHead (H 1 2); IText 3; IHead (mkHead 0 true 4); IText 5] /\ evs x = [TocEntry 0 0 1; TocEntry 1 1 2; TocEntry 0 1 4].
Proof. eexists. split; [vm_compute; reflexivity|]. split; reflexivity. Qed.
Print Assumptions C48_part_after_appendix_refuted.
