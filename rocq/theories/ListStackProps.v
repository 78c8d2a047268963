(** C26: list nesting. *)
From Verif Require Import Base ListStackModel ListStackSpec ListStackProofs.

(** At every point, for every stack of open lists and every marker, exactly one of three: it continues the innermost list, it starts a nested list, or it
    belongs to one of the enclosing lists. *)
Theorem C26_one_of_three : forall last s m, ~ is_open s last ->
  (continues_current_list (last :: s) m = true /\ starts_nested_list (last :: s) m = false /\ ~ is_open s m) \/
  (continues_current_list (last :: s) m = false /\ starts_nested_list (last :: s) m = true /\ ~ is_open (last :: s) m) \/
  (continues_current_list (last :: s) m = false /\ starts_nested_list (last :: s) m = false /\ is_open s m).
Proof.
  intros l s m N. destruct (continues_current_list (l :: s) m) eqn:C.
  - left. apply continues_spec in C. split; [reflexivity|]. split.
    + destruct (starts_nested_list (l :: s) m) eqn:E; [|reflexivity]. apply nested_spec in E. exfalso. apply E. exists l. split; [left; reflexivity|exact C].
    + intros (o & I & S). apply N. exists o. split; [exact I|]. eapply same_trans; [exact S|apply same_sym, C].
  - right. destruct (starts_nested_list (l :: s) m) eqn:E; [left; repeat split; apply nested_spec, E|right; repeat split].
    apply nested_false in E. destruct E as (o & [<-|I] & S); [apply (continues_spec l s m) in S; congruence|]. exists o. auto.
Qed.
Print Assumptions C26_one_of_three.
Example C26_three_sample : ~ is_open [Digits 1; Star 1] (Dot 1) /\ continues_current_list [Dot 1; Digits 1; Star 1] (Dot 1) = true /\ starts_nested_list [Dot 1; Digits 1; Star 1] (Star 2) = true /\ is_open [Digits 1; Star 1] (Digits 7).
Proof. split; [intros (o & [<-|[<-|[]]] & S); inversion S|]. repeat split; try reflexivity. exists (Digits 1). split; [left; reflexivity|constructor]. Qed.

(** The whole document: the lists found have every item once and in order, they are nested properly, and no list is cut in two. *)
Theorem C26_lists : forall groups, no_empty_group groups -> good_blocks (parse groups) /\ output_seq (parse groups) = input_seq groups.
Proof. intros gs N. apply run_blocks; [exact N|]. pose proof (count_seq gs). lia. Qed.
Print Assumptions C26_lists.
(** There is only one such reading of a document: *)
Theorem C26_unambiguous : forall groups bs, no_empty_group groups -> good_blocks bs -> output_seq bs = input_seq groups -> bs = parse groups.
Proof. intros gs bs N G E. destruct (C26_lists gs N) as [G2 E2]. apply good_unique; [exact G|exact G2|congruence]. Qed.
Print Assumptions C26_unambiguous.
(** so blank lines between items do not matter, and text between lists separates them. *)
Theorem C26_blank_lines : forall g1 g2, list_groups g1 -> list_groups g2 -> group_markers g1 = group_markers g2 -> parse g1 = parse g2.
Proof.
  assert (K : forall g, list_groups g -> no_empty_group g /\ input_seq g = map inl (group_markers g)).
  { induction 1 as [|x g X F [IH1 IH2]]; [split; [constructor|reflexivity]|]. destruct x as [ms|n]; [|destruct X]. split; [constructor; [congruence|exact IH1]|]. cbn [input_seq flat_map group_seq group_markers]. fold (input_seq g). rewrite IH2, <- map_app. reflexivity. }
  intros g1 g2 L1 L2 E. destruct (K g1 L1) as [N1 S1]. destruct (K g2 L2) as [N2 S2]. destruct (C26_lists g1 N1) as [G O]. apply C26_unambiguous; [exact N2|exact G|]. rewrite O, S1, S2, E. reflexivity.
Qed.
Print Assumptions C26_blank_lines.
Theorem C26_one_list : forall groups, list_groups groups -> groups <> [] -> exists l, parse groups = [BList l] /\ markers l = group_markers groups.
Proof.
  intros gs L NE. assert (N : no_empty_group gs) by (eapply Forall_impl; [|exact L]; intros [ms|n] H; [congruence|destruct H]). destruct (C26_lists gs N) as [G O].
  assert (S : input_seq gs = map inl (group_markers gs)).
  { clear - L. induction L as [|x g X F IH]; [reflexivity|]. destruct x as [ms|n]; [|destruct X]. cbn [input_seq flat_map group_seq group_markers]. fold (input_seq g). rewrite IH, <- map_app. reflexivity. }
  rewrite S in O. assert (NI : forall n, ~ In (inr n) (output_seq (parse gs))) by (intros n I; rewrite O in I; apply in_map_iff in I; destruct I as (x & X & _); discriminate X).
  destruct (parse gs) as [|[l|n] bs].
  - exfalso. destruct L as [|[[|m ms]|n] g X L]; [congruence|congruence|discriminate O|exact X].
  - exists l. destruct bs as [|[l2|n] bs]; [|exfalso; apply G|exfalso; apply (NI n); cbn; apply in_or_app; right; left; reflexivity]. split; [reflexivity|].
    cbn [output_seq flat_map block_seq] in O. rewrite app_nil_r in O. revert O. clear. generalize (group_markers gs). generalize (markers l). induction l0 as [|x p IH]; intros [|y q] O; try discriminate O; [reflexivity|]. cbn in O. injection O as -> O. f_equal. apply IH, O.
  - exfalso. apply (NI n). left. reflexivity.
Qed.
Print Assumptions C26_one_list.
Theorem C26_text_separates : forall g1 g2 n, no_empty_group g1 -> no_empty_group g2 -> parse (g1 ++ Other n :: g2) = parse g1 ++ BOther n :: parse g2.
Proof.
  intros g1 g2 n N1 N2. symmetry. destruct (C26_lists g1 N1) as [G1 O1]. destruct (C26_lists g2 N2) as [G2 O2]. apply C26_unambiguous.
  - apply Forall_app. split; [exact N1|]. constructor; [discriminate|exact N2].
  - clear - G1 G2. induction (parse g1) as [|[l|k] bs IH]; [exact G2| |exact (IH G1)]. cbn [app good_blocks] in *. destruct G1 as (A & B & C). split; [exact A|]. split; [|exact (IH C)]. destruct bs as [|[l2|k] bs]; [exact I|destruct B|exact I].
  - unfold output_seq, input_seq in *. rewrite !flat_map_app, O1. cbn [flat_map block_seq group_seq]. rewrite O2. reflexivity.
Qed.
Print Assumptions C26_text_separates.
(** Lists are nested no deeper than there are kinds of markers. *)
Theorem C26_depth : forall groups l classes, no_empty_group groups -> In (BList l) (parse groups) -> (forall m, In m (markers l) -> is_open classes m) -> depth l <= length classes.
Proof.
  intros gs l classes N I C. destruct (C26_lists gs N) as [G _]. assert (GL : good_list l) by (clear - G I; induction (parse gs) as [|[k|n] bs IH]; [destruct I|destruct I as [[= <-]|I]; [apply G|exact (IH I (proj2 (proj2 G)))]|destruct I as [I|I]; [discriminate I|exact (IH I G)]]).
  destruct l as [|[m sub] l]; [destruct GL|]. cbn [good_list] in GL. apply (nested_depth [] m _ GL classes); [| |exact C].
  - intros i j a c A B S. destruct i as [|[|i]], j as [|[|j]]; try discriminate A; try discriminate B; reflexivity.
  - intros x [<-|[]]. apply C. rewrite markers_cons. left. reflexivity.
Qed.
Print Assumptions C26_depth.
Definition sample : list group := [Items [Star 1; Star 2]; Items [Digits 1; Digits 2; Star 2]; Items [Star 1; Dash]; Other 0; Items [Dash]].
Example C26_sample : no_empty_group sample /\
  parse sample = [BList [Item (Star 1) [Item (Star 2) [Item (Digits 1) []; Item (Digits 2) []]; Item (Star 2) []]; Item (Star 1) [Item Dash []]]; BOther 0; BList [Item Dash []]].
Proof. split; [repeat constructor; discriminate|vm_compute; reflexivity]. Qed.

(** The number of stars and dots is taken modulo 256: a marker of 257 stars continues a list of single stars, and lists can be nested so deep that the depth
    is reported as zero. *)
Theorem C26_many_stars_refuted : continues_current_list [stars 1] (stars 257) = true /\ starts_nested_list [stars 1] (stars 257) = false.
Proof. split; vm_compute; reflexivity. Qed.
Print Assumptions C26_many_stars_refuted.
Definition deep_stack : list marker := map Star (List.seq 0 200) ++ map Dot (List.seq 0 56).
Theorem C26_depth_wraps_refuted : NoDup deep_stack /\ depth_u8 deep_stack = 0 /\ depth_u8 [Star 1] = 1.
Proof.
  split; [|split; vm_compute; reflexivity]. 
  assert (D : forall l : list marker, (fix nodup l := match l with [] => true | x :: r => negb (existsb (marker_eqb x) r) && nodup r end) l = true -> NoDup l).
  { induction l as [|x r IH]; [constructor|]. intro H. apply andb_true_iff in H. destruct H as [A B]. constructor; [|exact (IH B)]. intro I. apply negb_true_iff in A.
    assert (existsb (marker_eqb x) r = true) by (apply existsb_exists; exists x; split; [exact I|apply marker_eqb_eq; reflexivity]). congruence. }
  apply D. vm_compute. reflexivity.
Qed.
Print Assumptions C26_depth_wraps_refuted.
