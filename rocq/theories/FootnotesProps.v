(** C42: footnotes are numbered consecutively in first-use order and a repeated footnote id refers to the number first given to it. *)
From Verif Require Import Base FootnotesModel FootnotesSpec FootnotesProofs.

(** A document whose block titles have no footnotes and whose footnotes have no footnotes is written as if there were no buffers: every footnote is replaced by its
    reference, the references are numbered as [numbering] says, and the footnotes are listed at the end. Both backends, debug and release builds. *)
Theorem C42_footnotes st debug l :
  Forall flat_block l ->
  exists os refs ds h, written_blocks st l os refs h /\ numbering os refs ds /\ convert st debug l = Ret (h ++ listed st ds).
Proof. apply convert_flat. Qed.
Print Assumptions C42_footnotes.

(** The numbering is determined by the footnotes. *)
Theorem C42_numbering_unique os ns ds ns' ds' : numbering os ns ds -> numbering os ns' ds' -> ns = ns' /\ ds = ds'.
Proof. intros H H'. exact (numbering_functional _ _ _ H _ _ H'). Qed.
Print Assumptions C42_numbering_unique.

(** The footnotes' own places bear the numbers 1, 2, 3 ... in document order, one for every footnote in the list at the end. *)
Theorem C42_consecutive os ns ds : numbering os ns ds -> map fst (filter snd ns) = seq 1 (length ds).
Proof. apply numbering_own. Qed.
Print Assumptions C42_consecutive.

(** Every reference leads to an entry of the list. *)
Theorem C42_references_resolve os ns ds n own : numbering os ns ds -> In (n, own) ns -> 1 <= n <= length ds.
Proof. intros H. apply (numbering_range _ _ _ H). Qed.
Print Assumptions C42_references_resolve.

(** Two footnotes with the same id show the same number. *)
Theorem C42_same_id os ns ds i j x t t' n m own own' :
  numbering os ns ds -> nth_error os i = Some (Some x, t) -> nth_error os j = Some (Some x, t') ->
  nth_error ns i = Some (n, own) -> nth_error ns j = Some (m, own') -> n = m.
Proof.
  intros N Hi Hj Hn Hm. pose proof (numbering_prev _ _ _ N _ _ _ _ _ Hi Hn). pose proof (numbering_prev _ _ _ N _ _ _ _ _ Hj Hm). congruence.
Qed.
Print Assumptions C42_same_id.

(** What the entry of the list says: the text of the footnote that was the first with its id. *)
Theorem C42_entry os ns ds i id t n : numbering os ns ds -> nth_error os i = Some (id, t) -> nth_error ns i = Some (n, true) -> nth_error ds (n - 1) = Some (id, t).
Proof.
  intros N. revert i id t n. induction N as [|os ns ds id t N IH F|os ns ds x t k t' n own N IH Hi Hn]; intros j id' u m Hj Hm.
  - destruct j; discriminate.
  - pose proof (numbering_len _ _ _ N) as L. destruct (Nat.lt_ge_cases j (length os)) as [C|C].
    + rewrite nth_error_app1 in Hj by auto. rewrite nth_error_app1 in Hm by lia.
      pose proof (numbering_range _ _ _ N m true (nth_error_In _ _ Hm)). rewrite nth_error_app1 by lia. eauto.
    + rewrite nth_error_app2 in Hj by auto. rewrite nth_error_app2 in Hm by lia. rewrite L in Hj.
      destruct (j - length ns) as [|k] eqn:E; [|destruct k; discriminate]. injection Hm as <-.
      rewrite nth_error_app2 by lia. replace (length ds + 1 - 1 - length ds) with 0 by lia. exact Hj.
  - pose proof (numbering_len _ _ _ N) as L. destruct (Nat.lt_ge_cases j (length os)) as [C|C].
    + rewrite nth_error_app1 in Hj by auto. rewrite nth_error_app1 in Hm by lia. eauto.
    + rewrite nth_error_app2 in Hm by lia. destruct (j - length ns) as [|k'] eqn:E; [discriminate|destruct k'; discriminate].
Qed.
Print Assumptions C42_entry.

Definition para (l : list node) : block := Block ($"<p>") None [] l ($"</p>").
Definition ex_doc : list block :=
  [para [Txt ($"one"); Foot (Some ($"x")) [Txt ($"first")]; Wrap ($"<em>") ($"</em>") [Foot None [Txt ($"second")]; Foot (Some ($"x")) []]];
   Block ($"<div>") (Some [Txt ($"T")]) ($"<p>") [Foot (Some ($"x")) [Txt ($"again")]; Foot None [Txt ($"third")]] ($"</p></div>")].
Example C42_ex_flat : Forall flat_block ex_doc.
Proof. repeat (constructor; cbn). Qed.
Example C42_ex_numbers : exists ns ds, numbering [(Some ($"x"), $"first"); (None, $"second"); (Some ($"x"), []); (Some ($"x"), $"again"); (None, $"third")] ns ds /\
  map fst ns = [1; 2; 1; 1; 3] /\ ds = [(Some ($"x"), $"first"); (None, $"second"); (None, $"third")].
Proof.
  eexists _, _. split; [|split].
  - change [(Some ($"x"), $"first"); (None, $"second"); (Some ($"x"), []); (Some ($"x"), $"again"); (None, $"third")]
      with (((((([] : list occurrence) ++ [(Some ($"x"), $"first")]) ++ [(None, $"second")]) ++ [(Some ($"x"), [])]) ++ [(Some ($"x"), $"again")]) ++ [(None, $"third")]).
    apply N_first; [|now left].
    apply (N_again _ [(1, true); (2, true); (1, false)] [(Some ($"x"), $"first"); (None, $"second")] _ _ 0 ($"first") 1 true); try reflexivity.
    apply (N_again _ [(1, true); (2, true)] [(Some ($"x"), $"first"); (None, $"second")] _ _ 0 ($"first") 1 true); try reflexivity.
    apply (N_first _ [(1, true)] [(Some ($"x"), $"first")]); [|now left]. apply (N_first [] [] []); [exact N_nil|]. right. intros [t []].
  - reflexivity.
  - reflexivity.
Qed.
Example C42_ex_output : convert Html5s true [para [Foot None [Txt ($"N")]]] =
  Ret ($"<p>" ++ ref_first Html5s None 1 ++ $"</p>" ++ list_start Html5s ++ entry Html5s 1 ($"N") ++ list_end Html5s).
Proof. vm_compute. reflexivity. Qed.

(** Refuted: a footnote within a footnote. In a debug build the conversion panics; in a release build everything before the footnote, up to the start of the document,
    goes to the text of the inner footnote, and the text of the outer one comes before its reference. *)
Definition nested : list block := [para [Txt ($"A")]; para [Txt ($"B"); Foot None [Txt ($"c"); Foot None [Txt ($"d")]]]].
Theorem C42_nested_refuted :
  ~ (forall st debug l, exists os refs ds h, written_blocks st l os refs h /\ numbering os refs ds /\ convert st debug l = Ret (h ++ listed st ds)).
Proof.
  intros H. destruct (H Asciidoctor true nested) as (os & refs & ds & h & _ & _ & E).
  assert (convert Asciidoctor true nested = Panic) by (vm_compute; reflexivity). congruence.
Qed.
Print Assumptions C42_nested_refuted.
Theorem C42_nested_lost_refuted :
  convert Asciidoctor false nested =
  Ret (ref_first Asciidoctor None 2 ++ $"</p>" ++ list_start Asciidoctor
       ++ entry Asciidoctor 1 ($"<p>A</p><p>Bd") ++ entry Asciidoctor 2 ($"c" ++ ref_first Asciidoctor None 1) ++ list_end Asciidoctor).
Proof. vm_compute. reflexivity. Qed.
Print Assumptions C42_nested_lost_refuted.

(** Refuted: a footnote in the title of a block. A debug build panics; in a release build what was written before the block goes to the text of the footnote. *)
Definition in_title : list block := [para [Txt ($"A")]; Block ($"<div>") (Some [Txt ($"T"); Foot None [Txt ($"n")]]) ($"<p>") [Txt ($"B")] ($"</p></div>")].
Theorem C42_title_refuted :
  convert Asciidoctor true in_title = Panic /\
  convert Asciidoctor false in_title =
  Ret ($"<div>" ++ title_open Asciidoctor ++ $"T" ++ ref_first Asciidoctor None 1 ++ title_close Asciidoctor ++ $"<p>B</p></div>"
       ++ list_start Asciidoctor ++ entry Asciidoctor 1 ($"<p>A</p>n") ++ list_end Asciidoctor).
Proof. split; vm_compute; reflexivity. Qed.
Print Assumptions C42_title_refuted.
