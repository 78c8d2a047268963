(** C10: include line selection. *)
From Verif Require Import Base Text LinesModel LinesSpec LinesProofs.

(** C10: every line the specification asks for is kept as it is, at its own line number; every other line becomes a
    place holder. Nothing is lost or moved, and no specification panics (numbers below usize::MAX). *)
Theorem C10_selects_exactly : forall checked spec src ls,
  no_max spec -> (N.of_nat (length src) + 1 < usize_bound - 1)%N -> (exists k, asks spec k) -> line_list src ls ->
  exists os, select_line_ranges checked spec src = Ret (unlines os) /\ length os = length ls /\
    forall i l, nth_error ls i = Some l ->
      (asks spec (N.of_nat i + 1) -> nth_error os i = Some l) /\
      (~ asks spec (N.of_nat i + 1) -> nth_error os i = Some ($"asciidorkinclude::[false]")).
Proof.
  intros checked spec src ls NM SZ V L. destruct (select_spec checked spec src NM SZ) as (out & E & _ & H).
  destruct (H V ls L) as (os & -> & LN & K). exists os. auto.
Qed.
Print Assumptions C10_selects_exactly.

(** C10: what the parser then sees is exactly the sequence of lines asked for (followed by the empty piece after the last
    newline), as long as the file's own lines do not start with the place holder's name. *)
Theorem C10_parser_sees_selection : forall checked spec src ls out,
  no_max spec -> (N.of_nat (length src) + 1 < usize_bound - 1)%N -> (exists k, asks spec k) -> line_list src ls ->
  (forall l, In l ls -> starts_with ($"asciidorkinclude::") l = false) ->
  select_line_ranges checked spec src = Ret out ->
  exists os kept, line_list out (os ++ [[]]) /\ visible (os ++ [[]]) = kept ++ [[]] /\ sublist_at (asks spec) 1 ls kept.
Proof.
  intros checked spec src ls out NM SZ V L NP E. destruct (C10_selects_exactly checked spec src ls NM SZ V L) as (os & E' & LN & H).
  rewrite E' in E. injection E as <-. exists os, (visible os).
  assert (LC : length ls <= length src + 1) by exact (line_count _ _ L).
  split; [|split].
  - apply unlines_line_list. apply Forall_forall. intros o I. apply In_nth_error in I as (i & I). change (list ascii) with bytes in I.
    assert (IL : i < length ls) by (rewrite <- LN; apply (proj1 (nth_error_Some os i)); rewrite I; discriminate).
    destruct (nth_error ls i) as [l|] eqn:NL; [|apply nth_error_None in NL; lia]. specialize (H i l NL).
    destruct (asks_dec spec (N.of_nat i + 1) NM ltac:(unfold max_usize; lia)) as [Y|N].
    + apply H in Y. rewrite I in Y. injection Y as ->. destruct L as (_ & _ & F). rewrite Forall_forall in F. apply F. eapply nth_error_In, NL.
    + apply H in N. rewrite I in N. injection N as ->. cbn. intros X. repeat destruct X as [X|X]; try discriminate; contradiction.
  - unfold visible. rewrite filter_app. reflexivity.
  - apply (sublist_ext (fun k => asks spec k /\ (k < max_usize)%N)).
    + intros i IL. unfold max_usize. split; [tauto|]. intro A. split; [exact A|]. lia.
    + apply visible_sublist; [exact LN| | |exact NP].
      * intros i l NL. assert (IL : i < length ls) by (apply (proj1 (nth_error_Some ls i)); rewrite NL; discriminate). specialize (H i l NL).
        replace (1 + N.of_nat i)%N with (N.of_nat i + 1)%N by lia. split; [intros [Y _]; apply H, Y|]. intro N. apply H. intro Y. apply N. split; [exact Y|]. unfold max_usize. lia.
      * intro k. destruct (N.lt_ge_cases k max_usize) as [K|K]; [|right; lia]. destruct (asks_dec spec k NM K) as [Y|N]; [left; auto|right; tauto].
Qed.
Print Assumptions C10_parser_sees_selection.

(** C10: a specification that asks for nothing (no valid range in it) includes the whole file unchanged. *)
Theorem C10_invalid_specification_includes_everything : forall checked spec src,
  no_max spec -> (N.of_nat (length src) + 1 < usize_bound - 1)%N -> (~ exists k, asks spec k) -> select_line_ranges checked spec src = Ret src.
Proof. intros checked spec src NM SZ N. destruct (select_spec checked spec src NM SZ) as (out & E & H & _). rewrite (H N) in E. exact E. Qed.
Print Assumptions C10_invalid_specification_includes_everything.

(** C10 refuted as "the number of lines is kept": a file that ends in a newline gains one empty line when the last range is open. *)
Definition nl (t : bytes) : bytes := t ++ [newline].
Theorem C10_extra_last_line_refuted :
  select_line_ranges true ($"1..") (nl ($"a")) = Ret (nl ($"a") ++ nl []).
Proof. vm_compute. reflexivity. Qed.
Print Assumptions C10_extra_last_line_refuted.

(** C10 refuted for the largest machine integer: the range asks for line 1, but the checked build panics and the unchecked one
    selects nothing. *)
Theorem C10_largest_bound_refuted :
  let spec := $"1..18446744073709551615" in
  asks spec 1 /\ select_line_ranges true spec (nl ($"a")) = Panic /\
  select_line_ranges false spec (nl ($"a")) = Ret (nl ($"asciidorkinclude::[false]") ++ nl ($"asciidorkinclude::[false]")).
Proof.
  cbv zeta. split; [|split; vm_compute; reflexivity].
  exists ($"1..18446744073709551615"), ($"1..18446744073709551615"). split; [|split].
  - apply split_by_spec. vm_compute. auto.
  - replace ($"1..18446744073709551615") with (trim ($"1..18446744073709551615")) at 2 by (vm_compute; reflexivity). apply trim_spec.
  - apply (A_range _ _ ($"1") ($"18446744073709551615") 1%N 18446744073709551615%N); [reflexivity| | |lia]; apply parse_bounded_spec; vm_compute; reflexivity.
Qed.
Print Assumptions C10_largest_bound_refuted.

(** C10 refuted for files that talk about the place holder: a selected line that starts with its name is never seen. *)
Theorem C10_marker_in_source_refuted :
  select_line_ranges true ($"1") ($"asciidorkinclude:: is a marker") = Ret (unlines [$"asciidorkinclude:: is a marker"]) /\
  visible [$"asciidorkinclude:: is a marker"] = [].
Proof. split; vm_compute; reflexivity. Qed.
Print Assumptions C10_marker_in_source_refuted.

Example C10_example : select_line_ranges true ($"1; 3..4, 6..") (nl ($"a") ++ nl ($"b") ++ nl ($"c") ++ nl ($"d") ++ nl ($"e") ++ $"f") =
  Ret (unlines [$"a"; $"asciidorkinclude::[false]"; $"c"; $"d"; $"asciidorkinclude::[false]"; $"f"]).
Proof. vm_compute. reflexivity. Qed.
Example C10_asks_nonvacuous : asks ($"1; 3..4") 4 /\ ~ asks ($"1; 3..4") 2 /\ no_max ($"1; 3..4").
Proof.
  assert (NM : no_max ($"1; 3..4")) by (apply short_no_max; cbn; lia). split; [|split; [|exact NM]].
  - apply asks_parts. exists ($" 3..4"). split; [vm_compute; auto|]. replace (trim ($" 3..4")) with ($"3..4") by (vm_compute; reflexivity).
    apply (A_range _ _ ($"3") ($"4") 3%N 4%N); [reflexivity| | |lia]; apply parse_bounded_spec; vm_compute; reflexivity.
  - intro A. apply (asks_ranges true) with (rs := [(1, 2); (3, 5)]%N) in A; [discriminate A|exact NM|vm_compute; reflexivity|vm_compute; reflexivity].
Qed.
