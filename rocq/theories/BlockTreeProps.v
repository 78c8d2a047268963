(** C57 and C58: sections in sections; blocks that are not closed. *)
From Verif Require Import Base BlockModel BlockSpec BlockReadProofs BlockTreeProofs.
Import ListNotations.
Open Scope string_scope.

(** ** C57 *)
(** In whatever the parser makes of a document, article or book, a section in a section has a greater level. *)
Theorem C57_levels_grow P n sb l c s : document n P (fresh sb l) = Yes c s -> content_levels_grow c = true.
Proof.
  unfold document. destruct (run_tree 0 P n) as (R & _ & B). specialize (B 0 (fresh sb l) eq_refl). destruct (run n P (option content) Book (fresh sb l)) as [b s1| |]; [|discriminate..]. destruct B as [L G]. cbn [bind]. destruct b as [c1|].
  - intros [= <- _]. exact G.
  - pose proof (sectioned_tree 0 (run n P) (fun A c N C s => R A c N C s) 0 (no_ends (probs s1)) s1) as T. unfold post in T. destruct (sectioned (run n P) s1) as [x s2| |]; [|discriminate..]. cbn [bind]. intros [= <- _]. apply T. split; [exact L|split; intros _; apply le_n].
Qed.
Print Assumptions C57_levels_grow.
(** the levels of the sections, in the order of the document, each with its depth *)
Fixpoint outline_b (d : nat) (b : blk) : list (nat * nat) := match b with BSection x => outline d x | _ => [] end
with outline (d : nat) (x : sect) : list (nat * nat) := match x with Sect _ k _ bs => (d, k) :: concat (map (outline_b (S d)) bs) end.
Definition outline_of (o : out content) : list (nat * nat) := match o with Yes (Sections bs ss) _ => concat (map (outline 0) ss) | _ => [] end.
Example C57_sample : outline_of (parsed true false ["== A"; ""; "=== B"; ""; "==== C"; ""; "=== D"; ""; "== E"; ""; "==== F"; ""; "=== G"]) = [(0, 1); (1, 2); (2, 3); (1, 2); (0, 1); (1, 3); (1, 2)].
Proof. vm_compute. reflexivity. Qed.

(** ** C58 *)
(** The number of errors about blocks and tables that are not closed is the number of blocks and tables that have no closing delimiter, but for the descriptions of a list that the parser drops
    because they are comments: each list item without description may stand for one more error. *)
Theorem C58_unclosed_reported P n sb l c s : book P = false -> document n P (fresh sb l) = Yes c s -> unclosed_in 0 c <= no_ends (probs s) <= unclosed_in 1 c.
Proof.
  intros B. unfold document. destruct n as [|n]; [discriminate|].
  assert (E : run (S n) P _ Book (fresh sb l) = Yes None (fresh sb l)) by (cbn [run step]; unfold parse_book; rewrite B; reflexivity). rewrite E. cbn [bind].
  assert (T : forall W, post (gives W 0 0 (fun x => list_sum (map (unclosed W) (fst x)) + list_sum (map (unclosed_sect W) (snd x))) (fun x => forallb (deeper 0) (fst x) && forallb levels_grow (snd x))) (sectioned (run (S n) P) (fresh sb l))).
  { intros W. apply sectioned_tree; [apply (proj1 (run_tree W P (S n)))|]. split; [reflexivity|split; intros _; apply le_n]. }
  pose proof (T 0) as T0. pose proof (T 1) as T1. destruct (sectioned (run (S n) P) (fresh sb l)) as [x s2| |]; [|discriminate..]. cbn [bind]. intros [= <- <-]. destruct T0 as [(_ & T0 & _) _], T1 as [(_ & _ & T1) _]. cbn [unclosed_in]. split; [apply T0; reflexivity|apply T1; apply le_n].
Qed.
Print Assumptions C58_unclosed_reported.
Example C58_sample : exists c s, parsed true false ["== A"; ""; "===="; "in"; ""; "* x"; "+"; "----"; "y"; ""; "|==="; "|a"] = Yes c s /\ no_ends (probs s) = 2 /\ unclosed_in 0 c = 2 /\ unclosed_in 1 c = 2.
Proof. eexists. eexists. split; [vm_compute; reflexivity|]. repeat split; vm_compute; reflexivity. Qed.
(** A description that is dropped: *)
Theorem C58_dropped_comment_refuted : exists c s, parsed true false ["t::"; "////"; "in"] = Yes c s /\ no_ends (probs s) = 1 /\ unclosed_in 0 c = 0.
Proof. eexists. eexists. split; [vm_compute; reflexivity|]. split; vm_compute; reflexivity. Qed.
Print Assumptions C58_dropped_comment_refuted.
(** A list item without description that has no such comment: the bounds are not the same. *)
Example C58_no_description : exists c s, parsed true false ["t::"] = Yes c s /\ no_ends (probs s) = 0 /\ unclosed_in 0 c = 0 /\ unclosed_in 1 c = 1.
Proof. eexists. eexists. split; [vm_compute; reflexivity|]. repeat split; vm_compute; reflexivity. Qed.
(** ** A section in a list *)
(** A heading behind a term of a description list and a blank line is not the start of a section of the document, but the description of the term. *)
Theorem C57_section_in_list_refuted :
  match parsed true false ["== A"; ""; "term::"; ""; "=== Sub"; ""; "text"] with
  | Yes (Sections [] [Sect _ 1 _ [BList _ _ [DItem _ _ [] (Some (BSection (Sect _ 2 _ [BParagraph _ _ _]))) []]]]) s => probs s = []
  | _ => False
  end.
Proof. vm_compute. reflexivity. Qed.
Print Assumptions C57_section_in_list_refuted.
