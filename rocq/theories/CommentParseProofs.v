(** Proofs for C79: lines of comments, and what the parser of blocks makes of them. *)
From Verif Require Import Base BlockModel BlockSpec BlockMonoProofs BlockLinesProps CommentSpec.
Import ListNotations.
Open Scope list_scope.

Lemma comment_not_empty x : comment_line x -> emptyish x = false /\ x <> [].
Proof. intros (t & r & -> & K & _). split; [|discriminate]. unfold emptyish. cbn [forallb]. unfold whitespaceish, at_k, is_k. now rewrite K. Qed.
Lemma orig_line : forall x l, orig (fold_left push_tok x l) = orig l + length x.
Proof. induction x as [|t x IH]; intros l; cbn [fold_left length]; [lia|]. rewrite IH. cbn. lia. Qed.
Lemma is_comment_line x : comment_line x -> is_comment (line_of x) = true.
Proof.
  intros (t & r & -> & K & L). unfold is_comment, unconsumed. rewrite toks_line. unfold line_of. rewrite orig_line. cbn [new_line orig length]. rewrite Nat.eqb_refl. cbn [andb starts_with_seq satisfies]. unfold is_k, len_is. now rewrite K, L.
Qed.
Lemma group_comments C L : Forall comment_line C -> group (C ++ [] :: L) = (map line_of C, [] :: L).
Proof.
  induction 1 as [|x C X F IH]; [reflexivity|]. destruct (comment_not_empty x X) as [E N]. cbn [app group map]. rewrite E, IH. now destruct x.
Qed.
Lemma dropped C : Forall comment_line C -> drop_comments (map line_of C) = [].
Proof. induction 1 as [|x C X F IH]; [reflexivity|]. cbn [map drop_comments]. rewrite (is_comment_line x X). exact IH. Qed.
Lemma read_comments C L s : C <> [] -> Forall comment_line C -> peeked s = [] -> src s = C ++ [] :: L -> read_lines s = (map line_of C, with_src ([] :: L) s).
Proof.
  intros N F PK S. unfold read_lines. rewrite PK, S. destruct F as [|x C X F]; [easy|]. destruct (comment_not_empty x X) as [E _]. cbn [app skip_empty map]. rewrite E, (group_comments C L F). reflexivity.
Qed.
Lemma block_comments P (rec : parser) C L s : C <> [] -> Forall comment_line C -> peeked s = [] -> pmeta s = None -> src s = C ++ [] :: L -> block P rec s = Yes (Some BComment) (with_src ([] :: L) s).
Proof.
  intros N F PK PM S. unfold block. rewrite (read_comments C L s N F PK S). pose proof (dropped C F) as D. destruct F as [|x C X F]; [easy|]. cbn [map] in *. cbn [drop_comments] in D. cbn [comment_block].
  rewrite (is_comment_line x X) in *. rewrite D. cbn [drop_empty]. change (pmeta (with_src ([] :: L) s)) with (pmeta s). now rewrite PM.
Qed.
Lemma read_blank L s : peeked s = [] -> read_lines (with_src ([] :: L) s) = read_lines (with_src L s).
Proof. intros PK. unfold read_lines. cbn [peeked with_src src]. rewrite PK. cbn [skip_empty emptyish forallb]. destruct (skip_empty L) as [|x r]; [reflexivity|]. now destruct (group r). Qed.
Lemma loop_blank P n L s : peeked s = [] -> run n P _ BlockLoop (with_src ([] :: L) s) = run n P _ BlockLoop (with_src L s).
Proof.
  intros PK. destruct n as [|[|n]]; [reflexivity..|]. change (run (S (S n)) P _ BlockLoop (with_src ([] :: L) s)) with (take (b, s) := block P (run n P) (with_src ([] :: L) s) in one_more (run (S n) P) BlockLoop b s).
  change (run (S (S n)) P _ BlockLoop (with_src L s)) with (take (b, s) := block P (run n P) (with_src L s) in one_more (run (S n) P) BlockLoop b s). unfold block. now rewrite (read_blank L s PK).
Qed.
Lemma loop_comments P n C L s bs t : C <> [] -> Forall comment_line C -> peeked s = [] -> pmeta s = None -> src s = C ++ [] :: L -> run n P _ BlockLoop (with_src L s) = Yes bs t -> run (S n) P _ BlockLoop s = Yes (BComment :: bs) t.
Proof.
  intros N F PK PM SR R. destruct n as [|n]; [discriminate R|]. change (run (S (S n)) P _ BlockLoop s) with (take (b, s) := block P (run n P) s in one_more (run (S n) P) BlockLoop b s).
  rewrite (block_comments P _ C L s N F PK PM SR). cbn [bind one_more]. rewrite (loop_blank P (S n) L s PK), R. reflexivity.
Qed.
Lemma document_comments P n sb C L bs ss s : book P = false -> C <> [] -> Forall comment_line C -> document n P (fresh sb L) = Yes (Sections bs ss) s -> document (S n) P (fresh sb (C ++ [] :: L)) = Yes (Sections (BComment :: bs) ss) s.
Proof.
  intros B N F D. assert (E : forall m x, document m P x = match m with 0 => More | _ => take (x, s) := sectioned (run m P) x in Yes (Sections (fst x) (snd x)) s end).
  { intros [|m] x; [reflexivity|]. unfold document. change (run (S m) P _ Book x) with (parse_book P (run m P) x). unfold parse_book. now rewrite B. }
  rewrite E in *. destruct n as [|n]; [discriminate D|]. unfold sectioned in *. destruct (run (S n) P _ BlockLoop (fresh sb L)) as [bs0 s0| |] eqn:R; [|discriminate D..]. cbn [bind] in D. destruct (run (S n) P _ SectionLoop s0) as [ss0 s1| |] eqn:R2; [|discriminate D..]. cbn [bind fst snd] in D. injection D as <- <- <-.
  rewrite (loop_comments P (S n) C L (fresh sb (C ++ [] :: L)) bs0 s0 N F eq_refl eq_refl eq_refl R). cbn [bind]. rewrite (run_enough P (S n) (S (S n)) _ _ _ _ _ R2 ltac:(lia)). reflexivity.
Qed.
