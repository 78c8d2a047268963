(** C59: sections that skip a level. *)
From Verif Require Import Base BlockModel BlockSpec BlockReadProofs BlockSkipProofs.
Import ListNotations.
Open Scope string_scope.

(** The number of errors about sections out of sequence is the number of sections whose level is more than one greater than the level of the section they are in. *)
Theorem C59_skips_reported P n sb l c s : book P = false -> document n P (fresh sb l) = Yes c s -> skips (probs s) = skipped_in c.
Proof.
  intros B. unfold document. destruct n as [|n]; [discriminate|].
  assert (E : run (S n) P _ Book (fresh sb l) = Yes None (fresh sb l)) by (cbn [run step]; unfold parse_book; rewrite B; reflexivity). rewrite E. cbn [bind].
  assert (T : post (gives 0 0 (fun x => list_sum (map (skipped 0) (fst x)) + list_sum (map (skipped_sect 0) (snd x))) (fun x => forallb (deeper 0) (fst x) && forallb levels_grow (snd x))) (sectioned (run (S n) P) (fresh sb l))).
  { apply sectioned_tree; [apply (proj1 (run_tree P (S n)))|]. split; reflexivity. }
  destruct (sectioned (run (S n) P) (fresh sb l)) as [x s2| |]; [|discriminate..]. cbn [bind]. intros [= <- <-]. destruct T as [[_ T] _]. exact T.
Qed.
Print Assumptions C59_skips_reported.
(** [F] and [H] skip a level; [G] does not, being in [E] *)
Example C59_sample : exists c s, parsed true false ["== A"; ""; "=== B"; ""; "== E"; ""; "==== F"; ""; "=== G"; ""; "===== H"] = Yes c s /\ probs s = [OutOfSequence; OutOfSequence] /\ skipped_in c = 2.
Proof. eexists. eexists. split; [vm_compute; reflexivity|]. split; vm_compute; reflexivity. Qed.
(** The first section of an article is in no section, and may be too deep as well: *)
Example C59_sample_first : exists c s, parsed true false ["==== A"; ""; "text"] = Yes c s /\ probs s = [OutOfSequence] /\ skipped_in c = 1.
Proof. eexists. eexists. split; [vm_compute; reflexivity|]. split; vm_compute; reflexivity. Qed.
