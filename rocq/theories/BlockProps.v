(** C55 and C56: parsing the blocks of an article ends, and it ends at the end of the article. *)
From Verif Require Import Base BlockModel BlockSpec BlockTermProofs BlockMonoProofs BlockReadProofs.
Import ListNotations.
Open Scope string_scope.

(** ** C55 *)
Lemma sl_size l : sl l <= 5 * S (weight l).
Proof. unfold sl. lia. Qed.
Lemma SL_size : forall l, SL l <= 5 * src_size l.
Proof. induction l as [|x r IH]; [cbn; lia|]. pose proof (sl_size x). unfold src_size in *. cbn [SL map list_sum fold_right]. unfold list_sum in IH. lia. Qed.
(** The blocks of an article, whatever its lines, are parsed in a number of steps that its size bounds. *)
Theorem C55_article_ends P sb l : book P = false -> document (enough_steps l) P (fresh sb l) <> More.
Proof.
  intros B. pose proof (SL_size l) as H. unfold document. set (n := enough_steps l). assert (N : n = 30 * src_size l + 10) by reflexivity. clearbody n. destruct n as [|n]; [lia|].
  assert (E : run (S n) P _ Book (fresh sb l) = Yes None (fresh sb l)) by (cbn [run step]; unfold parse_book; rewrite B; reflexivity). rewrite E. cbn [bind].
  assert (M : mu (fresh sb l) = SL l) by reflexivity.
  pose proof (sectioned_ok (run (S n) P) (S n) (run_ok P (S n)) (fresh sb l) ltac:(lia)) as F. destruct (sectioned (run (S n) P) (fresh sb l)); [discriminate|discriminate|destruct F].
Qed.
Print Assumptions C55_article_ends.
(** The result does not depend on the number of steps. *)
Theorem C55_more_steps P sb l n : book P = false -> enough_steps l <= n -> document n P (fresh sb l) = document (enough_steps l) P (fresh sb l).
Proof. intros B H. destruct (document_mono P _ _ (fresh sb l) H) as [E|E]; [|symmetry; exact E]. destruct (C55_article_ends P sb l B E). Qed.
Print Assumptions C55_more_steps.
(** any document with nested lists, delimited blocks and sections *)
Example C55_sample : exists c s, parsed true false ["== A"; ""; "* one"; "** two"; "+"; "===="; "in"; ""; "----"; "x"; ""; "y"; "----"; "===="; ""; "=== B"; ""; "t:: d"; "u::"; "+"; "e"; ""; "> q"; "> r"] = Yes c s /\ probs s = [] /\ all_read s.
Proof. eexists. eexists. split; [vm_compute; reflexivity|]. repeat split; vm_compute; reflexivity. Qed.
(** A book may be parsed for ever: *)
Definition endless : list (list tok) := para (doc ["*bold*[[x]]"; ""; "more"; ""; "foo"]).
Definition book_params : params := plain_params false true.
Definition before_loop : pst := match run 30 book_params _ BlockLoop (fresh normal endless) with Yes _ s => s | _ => fresh normal [] end.
Definition loop_state (k : nat) : pst := let s := before_loop in PSt (src s) (peeked s) (pmeta s) (delim s) (level s) (stk s) (conts s) (inmd s) (nests s) (bib s) (cmt s) (ist s) (probs s) k (strays s).
Lemma loop_special k : run 10 book_params _ SpecialLoop (loop_state k) = Yes [] (loop_state k).
Proof. vm_compute. reflexivity. Qed.
Lemma loop_part n k : book_part book_params (run (10 + n) book_params) (loop_state k) = Yes None (loop_state k).
Proof. unfold book_part. assert (E : run 10 book_params _ Peek (loop_state k) = Yes None (loop_state k)) by (vm_compute; reflexivity). rewrite (run_enough _ 10 (10 + n) _ _ _ _ _ E ltac:(lia)). reflexivity. Qed.
Lemma loop_peek k : run 10 book_params _ Peek (loop_state k) = Yes None (loop_state k).
Proof. vm_compute. reflexivity. Qed.
Lemma loop_blocks k : run 10 book_params _ BlockLoop (loop_state k) = Yes [] (loop_state (S k)).
Proof. vm_compute. reflexivity. Qed.
Lemma loop_book k : run 10 book_params _ Book (loop_state k) = More.
Proof. vm_compute. reflexivity. Qed.
Lemma loop_step n s s' k x : run 10 book_params _ SpecialLoop s = Yes [] s' -> run 10 book_params _ Peek s' = Yes None s' -> run 10 book_params _ BlockLoop s' = Yes x (loop_state k) ->
  run (10 + n) book_params _ Book (loop_state k) = More -> run (S (10 + n)) book_params _ Book s = More.
Proof.
  intros H1 H2 H3 H. assert (L : 10 <= 10 + n) by lia. change (run (S (10 + n)) book_params _ Book s) with (parse_book book_params (run (10 + n) book_params) s). unfold parse_book. change (negb (book book_params)) with false. cbv iota.
  rewrite (run_enough _ _ _ _ _ _ _ _ H1 L). cbn [bind andb]. rewrite andb_false_r. cbv iota. unfold book_part. rewrite (run_enough _ _ _ _ _ _ _ _ H2 L). cbn [bind]. rewrite (run_enough _ _ _ _ _ _ _ _ H2 L). cbn [bind].
  rewrite (run_enough _ _ _ _ _ _ _ _ H3 L). cbn [bind]. change (at_end (loop_state k)) with false. cbv iota. rewrite H. reflexivity.
Qed.
Lemma loops : forall n k, run (10 + n) book_params _ Book (loop_state k) = More.
Proof. induction n as [|n IH]; intros k; [apply loop_book|]. rewrite Nat.add_succ_r. apply (loop_step n _ _ (S k) [] (loop_special k) (loop_peek k) (loop_blocks k) (IH (S k))). Qed.
Theorem C55_book_refuted : forall n, document n book_params (fresh normal endless) = More.
Proof.
  intros n. assert (E : document (S (10 + n)) book_params (fresh normal endless) = More).
  { unfold document. set (s' := match run 10 book_params _ SpecialLoop (fresh normal endless) with Yes _ s => s | _ => fresh normal [] end).
    rewrite (loop_step n (fresh normal endless) s' 1 (match run 10 book_params _ BlockLoop s' with Yes x _ => x | _ => [] end)); [reflexivity|vm_compute; reflexivity..|apply loops]. }
  destruct (document_mono book_params n (S (10 + n)) (fresh normal endless) ltac:(lia)) as [H|H]; [exact H|congruence].
Qed.
Print Assumptions C55_book_refuted.

(** ** C56 *)
(** When the blocks of an article have been parsed, all its lines have been read, except after a paragraph that gave nothing, after attributes that were put back with a heading and then taken by other lines, and
    after an anchor that was reported as invalid. *)
Theorem C56_read_to_the_end P sb l n c s : book P = false -> document n P (fresh sb l) = Yes c s -> all_read s \/ irregular s.
Proof. intros B. exact (document_read P B n sb l c s). Qed.
Print Assumptions C56_read_to_the_end.
Corollary C56_with_enough_steps P sb l : book P = false ->
  match document (enough_steps l) P (fresh sb l) with Yes _ s => all_read s \/ irregular s | Panics => True | More => False end.
Proof.
  intros B. pose proof (C55_article_ends P sb l B) as H. pose proof (C56_read_to_the_end P sb l (enough_steps l)) as G. destruct (document (enough_steps l) P (fresh sb l)) as [c s| |]; [exact (G _ _ B eq_refl)|exact I|destruct (H eq_refl)].
Qed.
Print Assumptions C56_with_enough_steps.
(** what is left: the number of lines in the source and of lines put back *)
Definition left_over (o : out content) : option (nat * nat * list problem) := match o with Yes _ s => Some (length (src s), length (peeked s), probs s) | _ => None end.
Example C56_sample : left_over (parsed true false ["one"; ""; "== Two"; ""; "[abc]"; "=== Three"; ""; "three"; ""; "== Four"; ""; ""]) = Some (0, 0, []).
Proof. vm_compute. reflexivity. Qed.
(** The three exceptions do lose the rest of the document, the first and the second without an error: *)
Theorem C56_empty_paragraph_refuted : left_over (parsed true false ["one"; ""; "{empty}"; ""; "two"; ""; "== Three"]) = Some (2, 1, []).
Proof. vm_compute. reflexivity. Qed.
Print Assumptions C56_empty_paragraph_refuted.
Theorem C56_stray_attributes_refuted : left_over (parsed false false ["> [abc]"; "> == B"; ">"; "> [def]"; "> == C"; ""; "text"]) = Some (2, 2, []).
Proof. vm_compute. reflexivity. Qed.
Print Assumptions C56_stray_attributes_refuted.
Example C56_stray_in_block : left_over (parsed true false ["== A"; ""; "=== B"; ""; "===="; "[abc]"; "=== C"; "===="; ""; "[def]"; "== D"; ""; "text"]) = Some (2, 2, [NeverClosed]).
Proof. vm_compute. reflexivity. Qed.
Theorem C56_invalid_anchor_refuted : left_over (parsed false false [".title"; "[[1st]]"; "[foo]"; "== Heading"; ""; "text"]) = Some (2, 2, [BadAnchor]).
Proof. vm_compute. reflexivity. Qed.
Print Assumptions C56_invalid_anchor_refuted.
(** A book loses its last chapter if nothing comes after the heading: *)
Theorem C56_book_refuted : left_over (parsed true true ["Welcome."; ""; "== Coming soon"]) = Some (0, 1, []).
Proof. vm_compute. reflexivity. Qed.
Print Assumptions C56_book_refuted.
