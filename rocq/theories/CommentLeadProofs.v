(** Proofs for C79: lines of comments directly above a block. *)
From Verif Require Import Base BlockModel BlockSpec BlockLinesProps CommentSpec CommentParseProofs.
Import ListNotations.
Open Scope list_scope.

Lemma no_comment_line x : ~ comment_line x -> is_comment (line_of x) = false.
Proof.
  intros N. unfold is_comment. rewrite toks_line. destruct x as [|t r]; [apply andb_false_r|]. cbn [starts_with_seq satisfies]. destruct (is_k ForwardSlashes t) eqn:K; [|apply andb_false_r].
  destruct (len_is 2 t) eqn:L; [|apply andb_false_r]. exfalso. apply N. exists t, r. split; [reflexivity|]. unfold is_k in K. unfold len_is in L. apply Nat.eqb_eq in L. split; [now destruct (tk t)|exact L].
Qed.
Lemma dropped_to C x g : Forall comment_line C -> ~ comment_line x -> drop_comments (map line_of C ++ line_of x :: g) = line_of x :: g.
Proof.
  intros F N. induction F as [|c C X F IH]; cbn [map app drop_comments]; [now rewrite (no_comment_line x N)|]. now rewrite (is_comment_line c X).
Qed.
Lemma comments_off C x g : Forall comment_line C -> ~ comment_line x -> x <> [] -> comment_block (map line_of C ++ line_of x :: g) = comment_block (line_of x :: g).
Proof.
  intros F N E. cbn [comment_block]. rewrite (no_comment_line x N). destruct F as [|c C X F]; cbn [map app comment_block]; [now rewrite (no_comment_line x N)|].
  rewrite (is_comment_line c X), (dropped_to C x g F N). cbn [drop_empty]. rewrite toks_line. now destruct x.
Qed.
Lemma same_block P (rec : parser) s s' C x g u : read_lines s = (map line_of C ++ line_of x :: g, u) -> read_lines s' = (line_of x :: g, u) -> Forall comment_line C -> ~ comment_line x -> x <> [] -> block P rec s = block P rec s'.
Proof.
  intros R R' F N E. unfold block. rewrite R, R', (comments_off C x g F N E). destruct (map line_of C ++ line_of x :: g) eqn:D; [now destruct C|reflexivity].
Qed.
Lemma group_lead : forall C x L, Forall comment_line C -> emptyish x = false -> group (C ++ x :: L) = (map line_of C ++ line_of x :: fst (group L), snd (group L)).
Proof.
  intros C x L F E. induction F as [|c C X F IH]; cbn [map app group].
  - rewrite E. destruct x; [discriminate E|]. now destruct (group L).
  - destruct (comment_not_empty c X) as [K _]. rewrite K, IH. destruct c; [discriminate K|]. reflexivity.
Qed.
Lemma read_lead C x L s : Forall comment_line C -> emptyish x = false -> peeked s = [] -> src s = C ++ x :: L -> read_lines s = (map line_of C ++ line_of x :: fst (group L), with_src (snd (group L)) s).
Proof.
  intros F E PK SR. unfold read_lines. rewrite PK, SR. destruct F as [|c C X F]; cbn [app skip_empty map].
  - rewrite E. now destruct (group L).
  - destruct (comment_not_empty c X) as [K _]. rewrite K, (group_lead C x L F E). reflexivity.
Qed.
Lemma not_nil x : emptyish x = false -> x <> [].
Proof. now destruct x. Qed.
Lemma block_lead P (rec : parser) C x L s : Forall comment_line C -> ~ comment_line x -> emptyish x = false -> peeked s = [] -> src s = C ++ x :: L -> block P rec s = block P rec (with_src (x :: L) s).
Proof.
  intros F N E PK SR. apply (same_block P rec s _ C x (fst (group L)) (with_src (snd (group L)) s)); [now apply read_lead| |exact F|exact N|now apply not_nil].
  rewrite (read_lead [] x L (with_src (x :: L) s)); [reflexivity|constructor|exact E|exact PK|reflexivity].
Qed.
Lemma block_lead_read P (rec : parser) C x g s : Forall comment_line C -> ~ comment_line x -> emptyish x = false -> peeked s = map line_of C ++ line_of x :: g -> block P rec s = block P rec (with_peeked (line_of x :: g) s).
Proof.
  intros F N E PK. apply (same_block P rec s _ C x g (with_peeked [] s)); [|reflexivity|exact F|exact N|now apply not_nil].
  unfold read_lines. rewrite PK. destruct (map line_of C ++ line_of x :: g) eqn:D; [now destruct C|reflexivity].
Qed.
Lemma loop_lead P n C x L s : Forall comment_line C -> ~ comment_line x -> emptyish x = false -> peeked s = [] -> src s = C ++ x :: L -> run n P _ BlockLoop s = run n P _ BlockLoop (with_src (x :: L) s).
Proof.
  intros F N E PK SR. destruct n as [|[|n]]; [reflexivity..|]. change (run (S (S n)) P _ BlockLoop s) with (take (b, s) := block P (run n P) s in one_more (run (S n) P) BlockLoop b s).
  change (run (S (S n)) P _ BlockLoop (with_src (x :: L) s)) with (take (b, s) := block P (run n P) (with_src (x :: L) s) in one_more (run (S n) P) BlockLoop b s). now rewrite (block_lead P (run n P) C x L s F N E PK SR).
Qed.
Lemma loop_lead_read P n C x g s : Forall comment_line C -> ~ comment_line x -> emptyish x = false -> peeked s = map line_of C ++ line_of x :: g -> run n P _ BlockLoop s = run n P _ BlockLoop (with_peeked (line_of x :: g) s).
Proof.
  intros F N E PK. destruct n as [|[|n]]; [reflexivity..|]. change (run (S (S n)) P _ BlockLoop s) with (take (b, s) := block P (run n P) s in one_more (run (S n) P) BlockLoop b s).
  change (run (S (S n)) P _ BlockLoop (with_peeked (line_of x :: g) s)) with (take (b, s) := block P (run n P) (with_peeked (line_of x :: g) s) in one_more (run (S n) P) BlockLoop b s). now rewrite (block_lead_read P (run n P) C x g s F N E PK).
Qed.
Lemma document_lead P n sb C x L : book P = false -> Forall comment_line C -> ~ comment_line x -> emptyish x = false -> document n P (fresh sb (C ++ x :: L)) = document n P (fresh sb (x :: L)).
Proof.
  intros B F N E. assert (D : forall m x, document m P x = match m with 0 => More | _ => take (x, s) := sectioned (run m P) x in Yes (Sections (fst x) (snd x)) s end).
  { intros [|m] y; [reflexivity|]. unfold document. change (run (S m) P _ Book y) with (parse_book P (run m P) y). unfold parse_book. now rewrite B. }
  rewrite !D. destruct n as [|n]; [reflexivity|]. unfold sectioned. now rewrite (loop_lead P (S n) C x L (fresh sb (C ++ x :: L)) F N E eq_refl eq_refl).
Qed.
