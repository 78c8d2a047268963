(** C24: levels of headings. *)
From Verif Require Import Base Text LexerModel HeadingLevelModel HeadingLevelSpec.
Open Scope Z_scope.

Lemma i8_in z : in_i8 z -> i8 z = Ret z.
Proof. unfold in_i8, i8. intros [A B]. apply Z.leb_le in A, B. rewrite A, B. reflexivity. Qed.
Lemma parse_i8_numeral s n : numeral 128 s n -> parse_i8 s = Some (Z.of_N n).
Proof.
  intro N. pose proof N as N0. apply parse_bounded_spec in N. unfold parse_i8. rewrite N. destruct s as [|c s]; [reflexivity|].
  assert (c <> "-"%char).
  { intros ->. destruct N0 as (ds & [<-|E] & NE & F & _); [|discriminate]. inversion F as [|? ? D _]; subst. unfold Text.digit in D. cbn in D. repeat (destruct D as [D|D]; [discriminate|]). destruct D. }
  destruct c as [[] [] [] [] [] [] [] []]; try reflexivity. congruence.
Qed.
Lemma writes_adjust o c v : writes c v -> in_i8 (change o c) -> adjust_leveloffset o v = Ret (change o c).
Proof.
  intros W. destruct W as [s n N|s n N|s n N NP|]; cbn [change]; intro I; unfold adjust_leveloffset; cbn [adjust_leveloffset].
  - rewrite (parse_i8_numeral s n N). apply i8_in, I.
  - rewrite (parse_i8_numeral s n N). replace (o - Z.of_N n) with (o + - Z.of_N n) by lia. apply i8_in, I.
  - pose proof (parse_i8_numeral s n N) as P. destruct s as [|c s]; [cbn in P; discriminate|]. 
    assert (c <> "+"%char) by (intros ->; exact (NP s eq_refl)).
    assert (c <> "-"%char).
    { intros ->. destruct N as (ds & [<-|E] & NE & F & _); [|discriminate]. inversion F as [|? ? D _]; subst. unfold Text.digit in D. cbn in D. repeat (destruct D as [D|D]; [discriminate|]). destruct D. }
    destruct c as [[] [] [] [] [] [] [] []]; try (rewrite P; reflexivity); congruence.
  - reflexivity.
Qed.
(** Any sequence of assignments to leveloffset, relative, absolute or unsetting, in any order: the offset is what they add up to, as long as it fits
    in eight bits. *)
Theorem C24_offset_history : forall cs vs o, Forall2 writes cs vs -> fits o cs -> offset_after o vs = Ret (fold_left change cs o).
Proof.
  intros cs vs o F. revert o. induction F as [|c v cs vs W F IH]; intros o K; [reflexivity|]. cbn [offset_after fold_left]. destruct K as [_ K].
  rewrite (writes_adjust o c v W); [exact (IH _ K)|]. destruct cs; cbn in K; [exact K|apply K].
Qed.
Print Assumptions C24_offset_history.
Example C24_history_sample : Forall2 writes [Add 2; Add (-1); Assign 0; Add 1; Assign 3] [VStr ($"+2"); VStr ($"-1"); VBool false; VStr ($"++1"); VStr ($"3")] /\ fits 0 [Add 2; Add (-1); Assign 0; Add 1; Assign 3] /\
  offset_after 0 [VStr ($"+2"); VStr ($"-1"); VBool false; VStr ($"++1"); VStr ($"3")] = Ret 3.
Proof.
  assert (N : forall c k, Text.digit c -> k = Text.value [c] -> (k < 128)%N -> numeral 128 [c] k) by (intros c k D E L; exists [c]; split; [left; reflexivity|]; split; [discriminate|]; split; [constructor; [exact D|constructor]|]; split; assumption).
  split; [|split; [cbn; unfold in_i8; lia|vm_compute; reflexivity]].
  constructor; [|constructor; [|constructor; [|constructor; [|constructor; [|constructor]]]]].
  - apply (w_plus ($"2") 2). apply N; [unfold Text.digit; cbn; tauto|reflexivity|lia].
  - apply (w_minus ($"1") 1). apply N; [unfold Text.digit; cbn; tauto|reflexivity|lia].
  - exact w_unset.
  - apply (w_plus ($"+1") 1). exists ($"1"). split; [right; reflexivity|]. split; [discriminate|]. split; [constructor; [unfold Text.digit; cbn; tauto|constructor]|]. split; [reflexivity|lia].
  - apply (w_assign ($"3") 3); [apply N; [unfold Text.digit; cbn; tauto|reflexivity|lia]|discriminate].
Qed.

Lemma adjusted_max o l : 0 <= l <= 127 -> in_i8 (l + o) -> adjusted_leveloffset o l = Ret (Z.max 0 (l + o)).
Proof.
  intros L I. unfold adjusted_leveloffset. destruct (Z.eqb_spec o 0) as [->|N]; [f_equal; lia|]. unfold as_i8, as_u8. rewrite Z.mod_small by lia.
  replace (l <? 128) with true by (symmetry; apply Z.ltb_lt; lia). rewrite i8_in by exact I. f_equal. destruct (Z.ltb_spec (l + o) 0); lia.
Qed.
(** The level is the written level plus the document's offset, not below zero, plus the offset of the include, not below zero. *)
Theorem C24_level : forall l doc inc, 0 <= l <= 127 -> in_i8 (l + doc) -> in_i8 (Z.max 0 (l + doc) + inc) -> line_heading_level doc inc l = Ret (Z.max 0 (Z.max 0 (l + doc) + inc)).
Proof.
  intros l doc inc L D I. unfold line_heading_level. rewrite (adjusted_max doc l L D). apply adjusted_max; [|exact I]. unfold in_i8 in D. lia.
Qed.
Print Assumptions C24_level.
(** So it is the sum when the document's offset alone does not take it below zero, or the include adds nothing. *)
Theorem C24_level_is_sum : forall l doc inc, 0 <= l <= 127 -> in_i8 (l + doc) -> in_i8 (Z.max 0 (l + doc) + inc) -> 0 <= l + doc \/ inc <= 0 -> line_heading_level doc inc l = Ret (Z.max 0 (l + doc + inc)).
Proof. intros l doc inc L D I H. rewrite (C24_level l doc inc L D I). f_equal. lia. Qed.
Print Assumptions C24_level_is_sum.
Theorem C24_never_negative : forall l doc inc n, 0 <= l -> line_heading_level doc inc l = Ret n -> 0 <= n.
Proof.
  assert (G : forall o l n, 0 <= l -> adjusted_leveloffset o l = Ret n -> 0 <= n).
  { intros o l n L. unfold adjusted_leveloffset. destruct (o =? 0); [intros [= <-]; exact L|]. destruct (i8 _) as [m|]; [|discriminate]. intros [= <-]. destruct (Z.ltb_spec m 0); lia. }
  intros l doc inc n L E. unfold line_heading_level in E. destruct (adjusted_leveloffset doc l) as [m|] eqn:A; [|discriminate]. exact (G _ _ _ (G _ _ _ L A) E).
Qed.
Print Assumptions C24_never_negative.
(** A section is rendered exactly if its level is at most six. *)
Theorem C24_rendered : forall l doc inc, 0 <= l <= 127 -> in_i8 (l + doc) -> in_i8 (Z.max 0 (l + doc) + inc) ->
  rendered doc inc l = (if Z.max 0 (Z.max 0 (l + doc) + inc) <=? 6 then Ret (Z.max 0 (Z.max 0 (l + doc) + inc)) else Panic).
Proof.
  intros l doc inc L D I. unfold rendered. rewrite (C24_level l doc inc L D I). unfold section_class. replace (0 <=? Z.max 0 (Z.max 0 (l + doc) + inc)) with true by (symmetry; apply Z.leb_le; lia). reflexivity.
Qed.
Print Assumptions C24_rendered.
(** The written level: one less than the number of signs. *)
Theorem C24_written_level : forall n ws k t r, (1 <= n <= 256)%nat ->
  unadjusted_heading_level ((EqualSigns, repeat "="%char n) :: (Whitespace, ws) :: (k, t) :: r) = Some (Z.of_nat n - 1) /\
  unadjusted_heading_level (repeat (Hash, ["#"%char]) n ++ (Whitespace, ws) :: (k, t) :: r) = Some (Z.of_nat n - 1).
Proof.
  intros n ws k t r N. split.
  - unfold unadjusted_heading_level. cbn [is_equals is_white fst snd andb length]. rewrite repeat_length. unfold as_u8. rewrite Z.mod_small by lia. reflexivity.
  - assert (T : forall m, take_hashes (repeat (Hash, ["#"%char]) m ++ (Whitespace, ws) :: (k, t) :: r) = m) by (induction m as [|m IH]; [reflexivity|]; cbn [repeat app take_hashes is_hash fst]; rewrite IH; reflexivity).
    assert (E : forall m, nth_error (repeat (Hash, ["#"%char]) m ++ (Whitespace, ws) :: (k, t) :: r) m = Some (Whitespace, ws)) by (induction m as [|m IH]; [reflexivity|exact IH]).
    destruct n as [|n]; [lia|].
    assert (U : unadjusted_heading_level (repeat (Hash, ["#"%char]) (S n) ++ (Whitespace, ws) :: (k, t) :: r) =
      if (2 <? length (repeat (Hash, ["#"%char]) (S n) ++ (Whitespace, ws) :: (k, t) :: r))%nat then
        if (take_hashes (repeat (Hash, ["#"%char]) (S n) ++ (Whitespace, ws) :: (k, t) :: r) + 1 <? length (repeat (Hash, ["#"%char]) (S n) ++ (Whitespace, ws) :: (k, t) :: r))%nat &&
           match nth_error (repeat (Hash, ["#"%char]) (S n) ++ (Whitespace, ws) :: (k, t) :: r) (take_hashes (repeat (Hash, ["#"%char]) (S n) ++ (Whitespace, ws) :: (k, t) :: r)) with Some x => is_white x | None => false end
        then Some (as_u8 (Z.of_nat (take_hashes (repeat (Hash, ["#"%char]) (S n) ++ (Whitespace, ws) :: (k, t) :: r)) - 1)) else None else None) by (destruct n; reflexivity).
    rewrite U, T, E, app_length, repeat_length. cbn [length is_white fst].
    replace (2 <? S n + S (S (length r)))%nat with true by (symmetry; apply Nat.ltb_lt; lia). replace (S n + 1 <? S n + S (S (length r)))%nat with true by (symmetry; apply Nat.ltb_lt; lia).
    cbn [andb]. unfold as_u8. rewrite Z.mod_small by lia. reflexivity.
Qed.
Print Assumptions C24_written_level.
Example C24_level_sample : line_heading_level 1 (-1) 2 = Ret 2 /\ line_heading_level (-3) 0 2 = Ret 0 /\ rendered 2 2 2 = Ret 6.
Proof. repeat split. Qed.

(** Offsets that add up to nothing change the level: the document's offset -2 and an include's +2 make level 2 of a level 1. *)
Theorem C24_offsets_cut_refuted : line_heading_level (-2) 2 1 = Ret 2.
Proof. reflexivity. Qed.
Print Assumptions C24_offsets_cut_refuted.
(** An include with +1 in a file that was included with +1: the headings are moved by one, not by two. *)
Theorem C24_nested_includes_refuted : forall l, 0 <= l <= 120 -> level_in [0; 1; 1] 2 0 l = Ret (l + 1) /\ level_in [0; 1; 1] 1 0 l = Ret (l + 1).
Proof. intros l L. unfold level_in. cbn [nth]. rewrite (C24_level l 0 1) by (unfold in_i8; lia). split; f_equal; lia. Qed.
Print Assumptions C24_nested_includes_refuted.
(** A heading with eight signs is a section that the HTML backends cannot render: they crash. So is a smaller one moved by an offset. *)
Theorem C24_level_seven_crashes_refuted : forall l doc inc, 0 <= l <= 127 -> 0 <= doc -> 0 <= inc -> 7 <= l + doc + inc <= 127 -> rendered doc inc l = Panic.
Proof.
  intros l doc inc L D I S. rewrite C24_rendered; [|exact L|unfold in_i8; lia|unfold in_i8; lia]. replace (Z.max 0 (Z.max 0 (l + doc) + inc) <=? 6) with false by (symmetry; apply Z.leb_gt; lia). reflexivity.
Qed.
Print Assumptions C24_level_seven_crashes_refuted.
(** Offsets outside of eight bits crash the parser. *)
Theorem C24_offset_overflow_refuted : offset_after 0 [VStr ($"100"); VStr ($"+100")] = Panic /\ line_heading_level 127 0 1 = Panic.
Proof. split; vm_compute; reflexivity. Qed.
Print Assumptions C24_offset_overflow_refuted.
(** A line of 257 signs is a heading of level 0, and a sign before a sign turns the offset around. *)
Theorem C24_many_signs_refuted : unadjusted_heading_level [(EqualSigns, repeat "="%char 257); (Whitespace, [" "%char]); (Word, $"a")] = Some 0 /\ offset_after 0 [VStr ($"--2")] = Ret 2.
Proof. split; vm_compute; reflexivity. Qed.
Print Assumptions C24_many_signs_refuted.
