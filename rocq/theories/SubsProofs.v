From Verif Require Import Base SubsModel SubsSpec.

Definition pos (s : sub) : N :=
  match s with
  | SpecialChars => 0 | InlineFormatting => 1 | AttrRefs => 2 | CharReplacement => 3
  | Macros => 4 | PostReplacement => 5 | Callouts => 6
  end%N.

Lemma sub_eqb_eq x y : sub_eqb x y = true <-> x = y.
Proof. destruct x, y; split; intro H; try discriminate; reflexivity. Qed.
Lemma sub_eqb_neq x y : sub_eqb x y = false <-> x <> y.
Proof. destruct x, y; split; intro H; try discriminate; try reflexivity; try congruence; exfalso; apply H; reflexivity. Qed.

Lemma bitflag_pow s : bitflag s = (2 ^ pos s)%N.
Proof. destruct s; reflexivity. Qed.
Lemma pos_inj s t : pos s = pos t <-> s = t.
Proof. destruct s, t; split; intro H; try discriminate; reflexivity. Qed.

Lemma land_pow2 a n : (N.land a (2 ^ n) = 0 <-> N.testbit a n = false)%N.
Proof.
  split; intro H.
  - assert (E : N.testbit (N.land a (2 ^ n)) n = false) by (rewrite H; apply N.bits_0).
    rewrite N.land_spec, N.pow2_bits_true, andb_true_r in E. exact E.
  - apply N.bits_inj_0. intro m. rewrite N.land_spec.
    destruct (N.eq_dec n m) as [->|E].
    + rewrite H. reflexivity.
    + rewrite N.pow2_bits_false by congruence. apply andb_false_r.
Qed.
Lemma contains_bit o f s : contains (mkSubs o f) s = N.testbit f (pos s).
Proof.
  unfold contains. cbn [flags]. rewrite bitflag_pow.
  destruct (N.testbit f (pos s)) eqn:E.
  - apply negb_true_iff, N.eqb_neq. intro H. apply land_pow2 in H. congruence.
  - apply negb_false_iff, N.eqb_eq. apply land_pow2. exact E.
Qed.
Lemma contains_set o o' f s t :
  contains (mkSubs o (N.lor f (bitflag s))) t = contains (mkSubs o' f) t || sub_eqb s t.
Proof.
  rewrite !contains_bit, bitflag_pow, N.lor_spec. f_equal.
  destruct (sub_eqb s t) eqn:E.
  - apply sub_eqb_eq in E as ->. apply N.pow2_bits_true.
  - apply sub_eqb_neq in E. apply N.pow2_bits_false. rewrite pos_inj. exact E.
Qed.
Lemma contains_clear o o' f s t :
  contains (mkSubs o (N.land f (255 - bitflag s))) t = contains (mkSubs o' f) t && negb (sub_eqb s t).
Proof.
  rewrite !contains_bit, N.land_spec. f_equal. destruct s, t; reflexivity.
Qed.
Lemma contains_order o o' f t : contains (mkSubs o f) t = contains (mkSubs o' f) t.
Proof. reflexivity. Qed.

Definition every : list sub :=
  [SpecialChars; InlineFormatting; AttrRefs; CharReplacement; Macros; PostReplacement; Callouts].
Lemma every_all s : In s every.
Proof. destruct s; simpl; tauto. Qed.
Lemma nodup_le7 (l : list sub) : NoDup l -> length l <= 7.
Proof. intro H. apply (NoDup_incl_length (l' := every) H). intros x _. apply every_all. Qed.

Lemma somes_app x y : somes (x ++ y) = somes x ++ somes y.
Proof. apply flat_map_app. Qed.
Lemma somes_map l : somes (map Some l) = l.
Proof. induction l; simpl; congruence. Qed.
Lemma somes_none n : somes (repeat None n) = [].
Proof. induction n; simpl; auto. Qed.
Lemma somes_shape l n : somes (map Some l ++ repeat None n) = l.
Proof. rewrite somes_app, somes_map, somes_none. apply app_nil_r. Qed.

Lemma fill_shape n s l m :
  length l < n -> fill n s (map Some l ++ repeat None (S m)) = Some (map Some (l ++ [s]) ++ repeat None m).
Proof.
  revert n; induction l as [|x l IH]; intros [|n] H; simpl in H; try lia; simpl.
  - reflexivity.
  - specialize (IH n). simpl in IH. rewrite IH by lia. reflexivity.
Qed.
Lemma fill_full n s l m : n <= length l -> fill n s (map Some l ++ m) = None.
Proof.
  revert n; induction l as [|x l IH]; intros [|n] H; simpl in H; try lia; simpl; try reflexivity.
  rewrite IH by lia. reflexivity.
Qed.

Lemma filter_remove s l : filter (fun x => negb (sub_eqb x s)) l = List.remove sub_dec s l.
Proof.
  induction l as [|x l IH]; simpl; [reflexivity|].
  destruct (sub_dec s x) as [->|N].
  - replace (sub_eqb x x) with true by (symmetry; apply sub_eqb_eq; reflexivity). exact IH.
  - replace (sub_eqb x s) with false by (symmetry; apply sub_eqb_neq; congruence). simpl. congruence.
Qed.
Lemma remove_In s t l : In t (List.remove sub_dec s l) <-> In t l /\ t <> s.
Proof.
  split.
  - intro H. apply in_remove in H. exact H.
  - intros [H1 H2]. apply in_in_remove; assumption.
Qed.
Lemma remove_NoDup s l : NoDup l -> NoDup (List.remove sub_dec s l).
Proof. intro H. rewrite <- filter_remove. apply NoDup_filter. exact H. Qed.

Lemma pack_ok l : length l <= 7 -> pack l = Ret (l ++ repeat None (7 - length l)).
Proof. intro H. unfold pack. apply Nat.leb_le in H. rewrite H. reflexivity. Qed.

Lemma filter_shape s l n :
  filter (fun o => negb (is_sub s o)) (map Some l ++ repeat None n)
  = map Some (List.remove sub_dec s l) ++ repeat None n.
Proof.
  rewrite <- filter_remove. induction l as [|x l IH]; simpl.
  - induction n; simpl; congruence.
  - destruct (sub_eqb x s); simpl; congruence.
Qed.
Lemma remove_le s l : length (List.remove sub_dec s l) <= length l.
Proof. induction l as [|x l IH]; simpl; [lia|]. destruct (sub_dec s x); simpl; lia. Qed.

(** one step *)

Lemma spec_op_NoDup l o : NoDup l -> NoDup (spec_op l o).
Proof.
  intro H. destruct o as [s|s|s]; simpl.
  - destruct (in_dec sub_dec s l); auto.
    apply NoDup_app_remove_l with (l := []) || idtac.
    apply (NoDup_Add (a := s) (l := l)).
    + rewrite <- (app_nil_r l) at 1. apply Add_app.
    + split; auto.
  - apply remove_NoDup, H.
  - constructor; [|apply remove_NoDup, H]. rewrite remove_In. tauto.
Qed.

Lemma shows_step dbg st l o :
  shows st l -> ~ overflows l o ->
  exists st', step dbg st o = Ret st' /\ shows st' (spec_op l o).
Proof.
  intros (ND & EO & EC) NO.
  pose proof (spec_op_NoDup l o ND) as ND'.
  pose proof (nodup_le7 _ ND) as L7. pose proof (nodup_le7 _ ND') as L7'.
  destruct st as [ord fl]. cbn [order] in EO. subst ord.
  destruct o as [s|s|s]; cbn [step].
  - unfold insert. cbn [spec_op] in ND', L7' |- *. destruct (in_dec sub_dec s l) as [I|I].
    + rewrite (proj2 (EC s) I). eexists; split; [reflexivity|]. repeat split; auto; apply EC.
    + destruct (contains _ s) eqn:C; [apply EC in C; contradiction|].
      assert (length l <> 6) by (intro; apply NO; exists s; auto).
      rewrite app_length in L7'. simpl in L7'.
      cbn [order flags]. replace (7 - length l) with (S (6 - length l)) by lia.
      rewrite fill_shape by lia.
      eexists; split; [reflexivity|]. split; [exact ND'|]. split.
      * cbn [order]. rewrite app_length. cbn [length]. replace (7 - (length l + 1)) with (6 - length l) by lia. reflexivity.
      * intro t. rewrite (contains_set _ (map Some l ++ repeat None (7 - length l))).
        rewrite orb_true_iff, EC, sub_eqb_eq, in_app_iff. simpl. intuition.
  - unfold remove. cbn [spec_op] in ND', L7' |- *. destruct (contains _ s) eqn:C.
    + cbn [order flags]. rewrite filter_shape.
      rewrite pack_ok by (rewrite app_length, map_length, repeat_length; pose proof (remove_le s l); lia).
      eexists; split; [reflexivity|]. split; [exact ND'|]. split.
      * cbn [order]. rewrite <- app_assoc. f_equal. rewrite <- repeat_app. f_equal.
        rewrite app_length, map_length, repeat_length. pose proof (remove_le s l). lia.
      * intro t. rewrite (contains_clear _ (map Some l ++ repeat None (7 - length l))).
        rewrite andb_true_iff, EC, negb_true_iff, sub_eqb_neq, remove_In. intuition.
    + eexists; split; [reflexivity|].
      assert (NI : ~ In s l) by (intro I; apply EC in I; congruence).
      rewrite notin_remove by exact NI. repeat split; auto; apply EC.
  - unfold prepend. cbn [spec_op] in ND', L7' |- *. cbn [order flags].
    rewrite somes_shape, filter_remove.
    rewrite pack_ok by (simpl; rewrite map_length; exact L7').
    eexists; split; [reflexivity|]. split; [exact ND'|]. split.
    + cbn [order]. simpl. rewrite map_length. reflexivity.
    + intro t. rewrite (contains_set _ (map Some l ++ repeat None (7 - length l))).
      rewrite orb_true_iff, EC, sub_eqb_eq. simpl. rewrite remove_In.
      destruct (sub_dec s t) as [->|]; intuition.
Qed.

Lemma shows_overflow st l o : shows st l -> overflows l o -> step true st o = Panic.
Proof.
  intros (ND & EO & EC) (s & -> & NI & L6). cbn [step]. unfold insert.
  destruct (contains st s) eqn:C; [apply EC in C; contradiction|].
  rewrite EO, fill_full by lia. reflexivity.
Qed.

(** the specification over a history; [None] when a debug build panics *)
Definition overflowsb (l : list sub) (o : op) : bool :=
  match o with
  | OInsert s => (length l =? 6) && negb (if in_dec sub_dec s l then true else false)
  | _ => false
  end.
Lemma overflowsb_spec l o : overflowsb l o = true <-> overflows l o.
Proof.
  destruct o as [s|s|s]; simpl; split; intro H; try discriminate.
  - apply andb_prop in H as [H1 H2]. apply Nat.eqb_eq in H1.
    destruct (in_dec sub_dec s l); [discriminate|]. exists s. auto.
  - destruct H as (s' & [= <-] & NI & L). rewrite L. simpl.
    destruct (in_dec sub_dec s l); [contradiction|reflexivity].
  - destruct H as (s' & [=] & _).
  - destruct H as (s' & [=] & _).
Qed.

Lemma shows_run dbg st l h :
  shows st l ->
  (forall h1 o h2, h = h1 ++ o :: h2 -> ~ overflows (fold_left spec_op h1 l) o) ->
  exists st', run dbg st h = Ret st' /\ shows st' (fold_left spec_op h l).
Proof.
  revert st l. induction h as [|o h IH]; intros st l S N.
  - exists st. split; [reflexivity|exact S].
  - destruct (shows_step dbg st l o S (N [] o h eq_refl)) as (st1 & E & S1).
    destruct (IH st1 (spec_op l o) S1) as (st2 & E2 & S2).
    { intros h1 o' h2 ->. apply (N (o :: h1) o' h2 eq_refl). }
    exists st2. cbn [run]. rewrite E. split; [exact E2|exact S2].
Qed.

Lemma run_debug_panic st l h :
  shows st l -> run true st h = Panic ->
  exists h1 o h2, h = h1 ++ o :: h2 /\ overflows (fold_left spec_op h1 l) o.
Proof.
  revert st l. induction h as [|o h IH]; intros st l S E; [discriminate|].
  destruct (overflowsb l o) eqn:B.
  - exists [], o, h. split; [reflexivity|]. apply overflowsb_spec, B.
  - destruct (shows_step true st l o S) as (st1 & E1 & S1).
    { intro O. apply overflowsb_spec in O. congruence. }
    cbn [run] in E. rewrite E1 in E. destruct (IH st1 _ S1 E) as (h1 & o' & h2 & -> & O).
    exists (o :: h1), o', h2. split; [reflexivity|exact O].
Qed.
Lemma run_debug_panic_iff st l h :
  shows st l ->
  (run true st h = Panic <->
   exists h1 o h2, h = h1 ++ o :: h2 /\ overflows (fold_left spec_op h1 l) o).
Proof.
  intro S. split; [apply run_debug_panic; exact S|].
  intros (h1 & o & h2 & -> & O). revert st l S O. induction h1 as [|o' h1 IH]; intros st l S O; cbn [app run].
  - rewrite (shows_overflow st l o S O). reflexivity.
  - destruct (step true st o') as [st1|] eqn:E; [|reflexivity].
    apply (IH st1 (spec_op l o')); [|exact O].
    destruct (overflowsb l o') eqn:B.
    + apply overflowsb_spec in B. rewrite (shows_overflow st l o' S B) in E. discriminate.
    + destruct (shows_step true st l o' S) as (st2 & E2 & S2).
      { intro O'. apply overflowsb_spec in O'. congruence. }
      congruence.
Qed.

(** release builds: membership is always set membership *)
Definition loose (st : subs) : Prop :=
  NoDup (somes (order st)) /\ length (order st) = 7.
Lemma somes_length l : length (somes l) <= length l.
Proof. induction l as [|[x|] l IH]; simpl; lia. Qed.
Lemma fill_length n s l l' : fill n s l = Some l' -> length l' = length l.
Proof.
  revert l l'. induction n as [|n IH]; intros [|[x|] l] l' H; simpl in H; try discriminate.
  - destruct (fill n s l) eqn:E; [|discriminate]. injection H as <-. simpl. f_equal. apply IH. exact E.
  - injection H as <-. reflexivity.
Qed.
Lemma fill_somes n s l l' : fill n s l = Some l' ->
  exists a b, somes l = a ++ b /\ somes l' = a ++ s :: b.
Proof.
  revert l l'. induction n as [|n IH]; intros [|[x|] l] l' H; simpl in H; try discriminate.
  - destruct (fill n s l) eqn:E; [|discriminate]. injection H as <-.
    destruct (IH _ _ E) as (a & d & E1 & E2). exists (x :: a), d. simpl. rewrite E1, E2. auto.
  - injection H as <-. exists [], (somes l). auto.
Qed.
Lemma somes_filter s l :
  somes (filter (fun o => negb (is_sub s o)) l) = filter (fun x => negb (sub_eqb x s)) (somes l).
Proof. induction l as [|[x|] l IH]; simpl; auto. destruct (sub_eqb x s); simpl; congruence. Qed.
Lemma filter_length_le {A} (f : A -> bool) l : length (filter f l) <= length l.
Proof. induction l as [|x l IH]; simpl; [lia|]. destruct (f x); simpl; lia. Qed.

(** order contents are always reported as contained (in release mode the converse may fail) *)
Definition covered (st : subs) : Prop := forall s, In s (somes (order st)) -> contains st s = true.

Lemma release_step st o :
  loose st -> covered st ->
  exists st', step false st o = Ret st' /\ loose st' /\ covered st' /\
    forall t, contains st' t = match o with
                               | OInsert s | OPrepend s => contains st t || sub_eqb s t
                               | ORemove s => contains st t && negb (sub_eqb s t)
                               end.
Proof.
  intros (ND & L) CV. destruct st as [ord fl]; cbn [order] in ND, L. destruct o as [s|s|s]; cbn [step].
  - unfold insert. destruct (contains _ s) eqn:C.
    + eexists; split; [reflexivity|]. split; [split; assumption|]. split; [exact CV|].
      intro t. destruct (sub_eqb s t) eqn:E; [apply sub_eqb_eq in E as <-; rewrite C; reflexivity|].
      rewrite orb_false_r. reflexivity.
    + cbn [order flags].
      assert (NI : ~ In s (somes ord)) by (intro I; apply (CV s) in I; congruence).
      destruct (fill 6 s ord) as [o'|] eqn:F.
      * destruct (fill_somes _ _ _ _ F) as (a & d & E1 & E2).
        eexists; split; [reflexivity|]. split; [split|split].
        -- cbn [order]. rewrite E2. rewrite E1 in ND, NI.
           apply (NoDup_Add (Add_app s a d)). split; assumption.
        -- cbn [order]. rewrite (fill_length _ _ _ _ F). exact L.
        -- intros t I. cbn [order] in I. rewrite E2 in I. rewrite (contains_set _ ord).
           apply orb_true_iff. destruct (sub_dec s t) as [->|N]; [right; apply sub_eqb_eq; reflexivity|left].
           apply CV. cbn [order]. rewrite E1. apply in_app_iff in I. apply in_app_iff. simpl in I. intuition.
        -- intro t. apply contains_set.
      * eexists; split; [reflexivity|]. split; [split; assumption|]. split.
        -- intros t I. rewrite (contains_set _ ord). rewrite (CV t I). reflexivity.
        -- intro t. apply contains_set.
  - unfold remove. destruct (contains _ s) eqn:C.
    + cbn [order flags].
      pose proof (filter_length_le (fun o => negb (is_sub s o)) ord) as LL.
      rewrite pack_ok by lia.
      eexists; split; [reflexivity|]. split; [split|split].
      * cbn [order]. rewrite somes_app, somes_none, app_nil_r, somes_filter. apply NoDup_filter, ND.
      * cbn [order]. rewrite app_length, repeat_length. lia.
      * intros t I. cbn [order] in I. rewrite somes_app, somes_none, app_nil_r, somes_filter in I.
        apply filter_In in I as [I1 I2]. rewrite (contains_clear _ ord). rewrite (CV t I1). simpl.
        apply negb_true_iff in I2. apply negb_true_iff. apply sub_eqb_neq in I2. apply sub_eqb_neq. congruence.
      * intro t. apply contains_clear.
    + eexists; split; [reflexivity|]. split; [split; assumption|]. split; [exact CV|].
      intro t. destruct (sub_eqb s t) eqn:E; [apply sub_eqb_eq in E as <-; rewrite C; reflexivity|].
      rewrite andb_true_r. reflexivity.
  - unfold prepend. cbn [order flags].
    assert (ND' : NoDup (s :: filter (fun x => negb (sub_eqb x s)) (somes ord))).
    { rewrite filter_remove. constructor; [rewrite remove_In; tauto|apply remove_NoDup, ND]. }
    pose proof (nodup_le7 _ ND') as L7. cbn [length] in L7.
    rewrite pack_ok by (cbn [length]; rewrite map_length; exact L7).
    eexists; split; [reflexivity|]. split; [split|split].
    + cbn [order]. rewrite somes_app, somes_none, app_nil_r. simpl. rewrite somes_map. exact ND'.
    + cbn [order]. rewrite app_length, repeat_length. cbn [length]. rewrite map_length. lia.
    + intros t I. cbn [order] in I. rewrite somes_app, somes_none, app_nil_r in I. simpl in I.
      rewrite somes_map in I. rewrite (contains_set _ ord). apply orb_true_iff.
      destruct I as [->|I]; [right; apply sub_eqb_eq; reflexivity|].
      apply filter_In in I as [I _]. left. apply CV. exact I.
    + intro t. apply contains_set.
Qed.

Lemma release_run st h :
  loose st -> covered st ->
  exists st', run false st h = Ret st' /\
    forall t, contains st' t = true <->
      In t (fold_left spec_op h (List.filter (contains st) every)).
Proof.
  set (l := List.filter (contains st) every). intros LO CV.
  assert (EC : forall t, contains st t = true <-> In t l).
  { intro t. unfold l. rewrite filter_In. split; [intro H; split; [apply every_all|exact H]|tauto]. }
  clearbody l. revert st l LO CV EC. induction h as [|o h IH]; intros st l LO CV EC.
  - exists st. split; [reflexivity|exact EC].
  - destruct (release_step st o LO CV) as (st1 & E1 & LO1 & CV1 & C1).
    destruct (IH st1 (spec_op l o) LO1 CV1) as (st2 & E2 & C2).
    { intro t. rewrite C1. destruct o as [s|s|s]; simpl.
      - rewrite orb_true_iff, EC, sub_eqb_eq. destruct (in_dec sub_dec s l) as [I|I].
        + split; [intros [H|<-]; assumption|tauto].
        + rewrite in_app_iff. simpl. intuition.
      - rewrite andb_true_iff, EC, negb_true_iff, sub_eqb_neq, remove_In. intuition.
      - rewrite orb_true_iff, EC, sub_eqb_eq. rewrite remove_In. destruct (sub_dec s t); intuition. }
    exists st2. cbn [run]. rewrite E1. split; assumption.
Qed.

Lemma shows_loose st l : shows st l -> loose st /\ covered st.
Proof.
  intros (ND & EO & EC). split; [split|].
  - rewrite EO, somes_shape. exact ND.
  - rewrite EO, app_length, map_length, repeat_length. pose proof (nodup_le7 l ND). lia.
  - intros s I. rewrite EO, somes_shape in I. apply EC, I.
Qed.

(** ** Presets *)
Lemma preset_ok st l :
  NoDup l -> order st = map Some l ++ repeat None (7 - length l) ->
  (forallb (fun s => Bool.eqb (contains st s) (if in_dec sub_dec s l then true else false)) every = true) ->
  shows st l.
Proof.
  intros ND EO H. split; [exact ND|]. split; [exact EO|]. intro s.
  rewrite forallb_forall in H. specialize (H s (every_all s)). apply eqb_prop in H. rewrite H.
  destruct (in_dec sub_dec s l); intuition discriminate.
Qed.
Ltac preset := apply preset_ok; [repeat constructor; simpl; intuition discriminate|reflexivity|vm_compute; reflexivity].
Lemma normal_shows : shows normal normal_steps. Proof. preset. Qed.
Lemma attr_value_shows : shows attr_value attr_value_steps. Proof. preset. Qed.
Lemma verbatim_shows : shows verbatim verbatim_steps. Proof. preset. Qed.
Lemma special_shows : shows only_special_chars [SpecialChars]. Proof. preset. Qed.
Lemma all_shows : shows all (normal_steps ++ [Callouts]). Proof. preset. Qed.
Lemma none_shows : shows none []. Proof. preset. Qed.

(** ** The [subs] attribute *)
Lemma split_joined ps : ps <> [] -> Forall no_comma ps -> split_on ","%char (joined ps) = ps.
Proof.
  assert (H1 : forall p, no_comma p -> split_on ","%char p = [p]).
  { induction p as [|c p IH]; intro N; [reflexivity|]. simpl.
    destruct (Ascii.eqb_spec c ","%char) as [->|NE]; [exfalso; apply N; left; reflexivity|].
    rewrite IH by (intro I; apply N; right; exact I). reflexivity. }
  assert (H2 : forall p r, no_comma p -> split_on ","%char (p ++ ","%char :: r) = p :: split_on ","%char r).
  { induction p as [|c p IH]; intros r N; [reflexivity|]. simpl.
    destruct (Ascii.eqb_spec c ","%char) as [->|NE]; [exfalso; apply N; left; reflexivity|].
    rewrite IH by (intro I; apply N; right; exact I). reflexivity. }
  induction ps as [|p ps IH]; intros NE F; [congruence|].
  inversion F as [|? ? F1 F2]; subst. destruct ps as [|q ps].
  - simpl. apply H1, F1.
  - change (joined (p :: q :: ps)) with (p ++ ","%char :: joined (q :: ps)).
    rewrite (H2 p _ F1), IH; [reflexivity|discriminate|exact F2].
Qed.
Lemma split_parts v : exists ps, ps <> [] /\ Forall no_comma ps /\ joined ps = v.
Proof.
  induction v as [|c v (ps & NE & F & E)].
  - exists [[]]. repeat split; [discriminate|]. constructor; [intros []|constructor].
  - destruct (Ascii.ascii_dec c ","%char) as [->|N].
    + exists ([] :: ps). split; [discriminate|]. split; [constructor; [intros []|exact F]|].
      destruct ps; [congruence|]. change (joined ([] :: b :: ps)) with (","%char :: joined (b :: ps)). congruence.
    + destruct ps as [|p ps]; [congruence|]. exists ((c :: p) :: ps).
      split; [discriminate|]. inversion F; subst. split.
      * constructor; [|assumption]. intros [I|I]; [congruence|contradiction].
      * destruct ps; reflexivity.
Qed.

Definition kind_of (g : strategy) : kind :=
  match g with Replace | Append => KAdd | Prepend => KFront | Remove => KDel end.

Lemma group_of_named n g : group_of n = Some g -> named n (members g).
Proof.
  unfold group_of. intro H.
  repeat match type of H with
  | (if bytes_eqb n ?x then _ else _) = _ =>
      let E := fresh in destruct (bytes_eqb n x) eqn:E; [apply bytes_eqb_eq in E; subst n; injection H as <-; vm_compute; tauto|]
  end. discriminate.
Qed.

Lemma classify_written p g n : 1 <= length p -> classify p = (g, n) -> written p (kind_of g) n.
Proof.
  intros L. unfold classify.
  destruct p as [|c p]; [simpl in L; lia|]. clear L. change (nth 0 (c :: p) " "%char) with c; change (skipn 1 (c :: p)) with p; cbv zeta.
  destruct (Ascii.eqb_spec c "+"%char) as [->|N1].
  { intros [= <- <-]. right. reflexivity. }
  destruct (Ascii.eqb_spec (nth (length (c :: p) - 1) (c :: p) " "%char) "+"%char) as [E|N2].
  { intros [= <- <-]. simpl kind_of. unfold written.
    rewrite <- (firstn_skipn (length (c :: p) - 1) (c :: p)) at 1. f_equal.
    remember (c :: p) as q. assert (Lq : 1 <= length q) by (subst; simpl; lia). clear Heqq N1 c p.
    revert Lq E. induction q as [|d q IH]; [simpl; lia|]. destruct q as [|e q].
    - simpl. congruence.
    - intros _. simpl. replace (length q - 0) with (length q) by lia. intro E.
      simpl in IH. replace (length q - 0) with (length q) in IH by lia. apply IH; [lia|exact E]. }
  destruct (Ascii.eqb_spec c "-"%char) as [->|N3]; intros [= <- <-].
  - reflexivity.
  - left. reflexivity.
Qed.

Lemma named_long n l : named n l -> 4 <= length n.
Proof.
  unfold named. intro H. repeat (destruct H as [H|H]; [injection H as <- <-; vm_compute; lia|]). destruct H.
Qed.
Lemma written_long p k n : written p k n -> length n <= length p.
Proof. destruct k; simpl; intro H; [destruct H|..]; subst; simpl; try rewrite app_length; simpl; lia. Qed.

Lemma part_named p k n l : written p k n -> named n l ->
  exists g grp, classify p = (g, n) /\ group_of n = Some grp /\ members grp = l /\ kind_of g = k.
Proof.
  intros W N. unfold named in N.
  repeat (destruct N as [N|N]; [injection N as <- <-; destruct k; simpl in W; [destruct W as [W|W]|..]; subst p;
    do 2 eexists; (split; [vm_compute; reflexivity|]); (split; [vm_compute; reflexivity|]); split; reflexivity|]).
  destruct N.
Qed.

Lemma modify_all_run dbg g st l :
  modify_all dbg g st l = run dbg st (ops_of (kind_of g) l).
Proof.
  revert st. induction l as [|s l IH]; intro st; [reflexivity|].
  cbn [modify_all]. unfold ops_of. cbn [map run]. 
  replace (step dbg st (match kind_of g with KAdd => OInsert | KFront => OPrepend | KDel => ORemove end s))
    with (modify dbg g st s) by (destruct g; reflexivity).
  destruct (modify dbg g st s); [|reflexivity]. apply IH.
Qed.

Lemma apply_part_asks dbg st p ops : asks p ops -> apply_part dbg st p = run dbg st ops.
Proof.
  intros [p' k n l W N|p' NO]; unfold apply_part.
  - destruct (part_named _ _ _ _ W N) as (g & grp & C & G & M & K).
    pose proof (named_long _ _ N). pose proof (written_long _ _ _ W).
    destruct (Nat.ltb_spec (length p') 4); [lia|].
    rewrite C, G, M, <- K. apply modify_all_run.
  - destruct (Nat.ltb_spec (length p') 4); [reflexivity|].
    destruct (classify p') as [g n] eqn:C. destruct (group_of n) as [grp|] eqn:G; [|reflexivity].
    exfalso. apply (NO (kind_of g) n (members grp)).
    + apply classify_written; [lia|exact C].
    + apply group_of_named, G.
Qed.

Lemma asks_total p : exists ops, asks p ops.
Proof.
  destruct (classify p) as [g n] eqn:C. destruct (group_of n) as [grp|] eqn:G.
  - destruct p as [|c p]; [vm_compute in C; injection C as <- <-; vm_compute in G; discriminate|].
    exists (ops_of (kind_of g) (members grp)). apply (asks_named _ _ n).
    + apply classify_written; [simpl; lia|exact C].
    + apply group_of_named, G.
  - exists []. apply asks_nothing. intros k m l W N.
    destruct (part_named _ _ _ _ W N) as (g' & grp & C' & G' & _). congruence.
Qed.
Lemma asks_fun p o1 o2 : asks p o1 -> asks p o2 -> o1 = o2.
Proof.
  intros H1 H2. inversion H1 as [p1 k1 n1 l1 W1 N1|p1 NO1]; subst; inversion H2 as [p2 k2 n2 l2 W2 N2|p2 NO2]; subst; auto.
  - destruct (part_named _ _ _ _ W1 N1) as (g1 & r1 & C1 & G1 & M1 & K1).
    destruct (part_named _ _ _ _ W2 N2) as (g2 & r2 & C2 & G2 & M2 & K2). congruence.
  - exfalso. eapply NO2; eauto.
  - exfalso. eapply NO1; eauto.
Qed.

Lemma run_app dbg st h1 h2 :
  run dbg st (h1 ++ h2) = match run dbg st h1 with Ret st' => run dbg st' h2 | Panic => Panic end.
Proof.
  revert st. induction h1 as [|o h1 IH]; intro st; [reflexivity|]. cbn [app run].
  destruct (step dbg st o); [apply IH|reflexivity].
Qed.
Lemma apply_parts_asks dbg st ps opss : Forall2 asks ps opss -> apply_parts dbg st ps = run dbg st (concat opss).
Proof.
  intro F. revert st. induction F as [|p ops ps opss A F IH]; intro st; [reflexivity|].
  cbn [apply_parts concat]. rewrite run_app, (apply_part_asks dbg st p ops A).
  destruct (run dbg st ops); [apply IH|reflexivity].
Qed.

Lemma from_meta_run dbg cur ps opss :
  ps <> [] -> Forall no_comma ps -> Forall2 asks ps opss ->
  (In "+"%char (joined ps) \/ In "-"%char (joined ps) ->
     from_meta dbg cur (Some (joined ps)) = run dbg cur (concat opss)) /\
  (~ In "+"%char (joined ps) -> ~ In "-"%char (joined ps) ->
     from_meta dbg cur (Some (joined ps)) = run dbg none (concat opss)).
Proof.
  intros NE NC F. unfold from_meta. rewrite (split_joined ps NE NC), (apply_parts_asks dbg _ ps opss F).
  destruct (existsb _ (joined ps)) eqn:E.
  - apply existsb_exists in E as (c & I & E). apply orb_true_iff in E.
    split; [reflexivity|]. intros N1 N2. destruct E as [E|E]; apply Ascii.eqb_eq in E; subst c; contradiction.
  - split; [|reflexivity]. intros H. exfalso.
    assert (X : existsb (fun c => Ascii.eqb c "-"%char || Ascii.eqb c "+"%char) (joined ps) = true).
    { apply existsb_exists. destruct H as [H|H]; eexists; split; try exact H; reflexivity. }
    congruence.
Qed.

(** ** pass macro *)
Lemma pass_part_reads dbg st l p e :
  pass_reads p e -> shows st l -> ~ In Callouts l ->
  exists st', pass_part dbg st p = Ret st' /\ shows st' (pass_apply l e) /\ ~ In Callouts (pass_apply l e).
Proof.
  intros R S N.
  assert (I : forall s, s <> Callouts -> exists st', insert dbg st s = Ret st' /\ shows st' (spec_op l (OInsert s)) /\ ~ In Callouts (spec_op l (OInsert s))).
  { intros s NS. destruct (shows_step dbg st l (OInsert s) S) as (st' & E & S').
    - intros (s' & [= <-] & NI & L6).
      assert (ND : NoDup (s :: Callouts :: l)).
      { constructor; [intros [H|H]; [congruence|contradiction]|]. constructor; [exact N|apply S]. }
      pose proof (nodup_le7 _ ND) as L7. simpl in L7. lia.
    - exists st'. split; [exact E|]. split; [exact S'|].
      simpl. destruct (in_dec sub_dec s l); [exact N|]. rewrite in_app_iff. simpl. intuition. }
  destruct R as [R|[R ->]].
  - repeat (destruct R as [R|R]; [injection R as <- <-; unfold pass_part; cbn [pass_apply];
      first [change (insert dbg st) with (insert dbg st); apply I; discriminate
            |eexists; split; [reflexivity|]; split; [apply normal_shows|vm_compute; intuition discriminate]]|]).
    destruct R.
  - exists st. cbn [pass_apply]. split; [|split; assumption].
    assert (X : forall w e, In (w, e) pass_table -> bytes_eqb p w = false).
    { intros w e I0. destruct (bytes_eqb p w) eqn:E; [|reflexivity]. apply bytes_eqb_eq in E. subst w. exfalso. eapply R; eauto. }
    unfold pass_part.
    repeat match goal with |- context [bytes_eqb p ?w] =>
      rewrite (X w _ ltac:(unfold pass_table; repeat (first [left; reflexivity|right]))) end.
    reflexivity.
Qed.
Lemma pass_parts_reads dbg ps es st l :
  Forall2 pass_reads ps es -> shows st l -> ~ In Callouts l ->
  exists st', pass_parts dbg st ps = Ret st' /\ shows st' (fold_left pass_apply es l) /\ ~ In Callouts (fold_left pass_apply es l).
Proof.
  intro F. revert st l. induction F as [|p e ps es R F IH]; intros st l S N.
  - exists st. auto.
  - destruct (pass_part_reads dbg st l p e R S N) as (st1 & E1 & S1 & N1).
    cbn [pass_parts fold_left]. rewrite E1. apply IH; assumption.
Qed.
Lemma split_on_byte c s : split_on c s = split_byte c s.
Proof. induction s as [|d s IH]; simpl; [reflexivity|]. rewrite IH. reflexivity. Qed.
Lemma pass_target dbg t ps es :
  t <> [] -> ps <> [] -> Forall no_comma ps -> joined ps = t -> Forall2 pass_reads ps es ->
  exists st, from_pass_target dbg t = Ret st /\ shows st (fold_left pass_apply es []) /\ ~ In Callouts (fold_left pass_apply es []).
Proof.
  intros NE NP NC E F. unfold from_pass_target. destruct t as [|c t]; [congruence|].
  rewrite <- E, split_joined by assumption.
  apply pass_parts_reads; [exact F|apply none_shows|intros []].
Qed.
Lemma pass_reads_total p : exists e, pass_reads p e.
Proof.
  assert (D : forall T : list (bytes * pass_effect), (exists e, In (p, e) T) \/ (forall e, ~ In (p, e) T)).
  { induction T as [|[w e] T [(e' & I)|N]].
    - right. intros e [].
    - left. exists e'. right. exact I.
    - destruct (bytes_eqb p w) eqn:E.
      + apply bytes_eqb_eq in E as ->. left. exists e. left. reflexivity.
      + right. intros e' [H|H]; [|exact (N e' H)]. injection H as -> _. rewrite bytes_eqb_refl in E. discriminate. }
  destruct (D pass_table) as [(e & I)|N]; [exists e; left; exact I|exists PNothing; right; auto].
Qed.
Lemma pass_reads_fun p e1 e2 : pass_reads p e1 -> pass_reads p e2 -> e1 = e2.
Proof.
  intros [H1|[N1 ->]] [H2|[N2 ->]]; auto; try (exfalso; eapply N2; eauto; fail); try (exfalso; eapply N1; eauto; fail).
  unfold pass_table in H1, H2. simpl in H1, H2.
  repeat (destruct H1 as [H1|H1]; [injection H1 as <- <-;
    repeat (destruct H2 as [H2|H2]; [first [discriminate|injection H2 as <-; reflexivity]|]); destruct H2|]).
  destruct H1.
Qed.
Lemma pass_total t : exists ps es, ps <> [] /\ Forall no_comma ps /\ joined ps = t /\ Forall2 pass_reads ps es.
Proof.
  destruct (split_parts t) as (ps & NE & NC & E). exists ps.
  assert (X : exists es, Forall2 pass_reads ps es).
  { clear. induction ps as [|p ps (es & F)]; [exists []; constructor|].
    destruct (pass_reads_total p) as (o & A). exists (o :: es). constructor; assumption. }
  destruct X as (es & F). exists es. auto.
Qed.
Lemma plus_len n : shows (from_pass_plus_len n) (if n =? 3 then [] else [SpecialChars]).
Proof. unfold from_pass_plus_len. destruct (n =? 3); [apply none_shows|apply special_shows]. Qed.

(** ** Combined statements *)

Lemma release_shows st l h : shows st l ->
  exists st', run false st h = Ret st' /\ forall t, contains st' t = true <-> In t (fold_left spec_op h l).
Proof.
  intro S. destruct (shows_loose st l S) as [LO CV].
  destruct (release_run st h LO CV) as (st' & E & C). exists st'. split; [exact E|].
  intro t. rewrite C.
  assert (G : forall l1 l2, (forall x, In x l1 <-> In x l2) ->
     (In t (fold_left spec_op h l1) <-> In t (fold_left spec_op h l2))).
  { clear. induction h as [|o h IH]; intros l1 l2 Q; [apply Q|]. cbn [fold_left]. apply IH.
    intro x. destruct o as [s|s|s]; simpl.
    - destruct (in_dec sub_dec s l1) as [I|I], (in_dec sub_dec s l2) as [J|J];
        try (apply Q in I; contradiction); try (apply Q in J; contradiction); [apply Q|].
      rewrite !in_app_iff, (Q x). reflexivity.
    - rewrite !remove_In, (Q x). reflexivity.
    - rewrite !remove_In, (Q x). reflexivity. }
  apply G. intro x. rewrite filter_In. destruct S as (_ & _ & EC). rewrite EC. pose proof (every_all x). tauto.
Qed.

Lemma from_meta_shows dbg cur l ps opss start :
  shows cur l -> ps <> [] -> Forall no_comma ps -> Forall2 asks ps opss ->
  (In "+"%char (joined ps) \/ In "-"%char (joined ps) -> start = l) ->
  (~ In "+"%char (joined ps) -> ~ In "-"%char (joined ps) -> start = []) ->
  (no_overflow start (concat opss) ->
   exists st', from_meta dbg cur (Some (joined ps)) = Ret st' /\ shows st' (fold_left spec_op (concat opss) start)) /\ (exists st', from_meta false cur (Some (joined ps)) = Ret st' /\ forall t, contains st' t = true <-> In t (fold_left spec_op (concat opss) start)) /\ (from_meta true cur (Some (joined ps)) = Panic <-> ~ no_overflow start (concat opss)).
Proof.
  intros S NE NC F H1 H2.
  assert (D : forall dbg', exists st0, shows st0 start /\ from_meta dbg' cur (Some (joined ps)) = run dbg' st0 (concat opss)).
  { intro dbg'. destruct (from_meta_run dbg' cur ps opss NE NC F) as [R1 R2].
    destruct (in_dec Ascii.ascii_dec "+"%char (joined ps)) as [P|P];
      [|destruct (in_dec Ascii.ascii_dec "-"%char (joined ps)) as [M|M]].
    - exists cur. rewrite H1, R1 by tauto. auto.
    - exists cur. rewrite H1, R1 by tauto. auto.
    - exists none. rewrite H2, R2 by tauto. split; [apply none_shows|reflexivity]. }
  split; [|split].
  - intro NO. destruct (D dbg) as (st0 & S0 & E). rewrite E. apply shows_run; assumption.
  - destruct (D false) as (st0 & S0 & E). rewrite E. apply release_shows. exact S0.
  - destruct (D true) as (st0 & S0 & E). rewrite E. rewrite (run_debug_panic_iff st0 start _ S0). split.
    + intros (h1 & o & h2 & E' & O) NO. exact (NO h1 o h2 E' O).
    + intro NN. destruct (run true st0 (concat opss)) as [st'|] eqn:R.
      * exfalso. apply NN. intros h1 o h2 E' O.
        assert (P : run true st0 (concat opss) = Panic).
        { apply (run_debug_panic_iff st0 start _ S0). exists h1, o, h2. auto. }
        congruence.
      * apply (run_debug_panic_iff st0 start _ S0). exact R.
Qed.

Lemma parts_exist v : exists ps opss, ps <> [] /\ Forall no_comma ps /\ joined ps = v /\ Forall2 asks ps opss.
Proof.
  destruct (split_parts v) as (ps & NE & NC & E). exists ps.
  assert (X : exists opss, Forall2 asks ps opss).
  { clear. induction ps as [|p ps (opss & F)]; [exists []; constructor|].
    destruct (asks_total p) as (o & A). exists (o :: opss). constructor; assumption. }
  destruct X as (opss & F). exists opss. auto.
Qed.
