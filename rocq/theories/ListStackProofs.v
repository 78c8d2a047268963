From Verif Require Import Base ListStackModel ListStackSpec.

Lemma marker_eqb_eq x y : marker_eqb x y = true <-> x = y.
Proof.
  destruct x as [a|a| |a|a| |[a|]], y as [c|c| |c|c| |[c|]]; cbn; rewrite ?Nat.eqb_eq; split; intro H; try discriminate; try reflexivity; try (subst; reflexivity); try (injection H as ->; reflexivity); try (injection H; trivial).
Qed.
Lemma same_sym x y : same x y -> same y x. Proof. destruct 1; constructor. Qed.
Lemma same_trans x y z : same x y -> same y z -> same x z.
Proof. destruct 1 as [a c|a c|m]; intro H; [inversion H; constructor|inversion H; constructor|exact H]. Qed.
Lemma continues_spec m s x : continues_current_list (m :: s) x = true <-> same m x.
Proof.
  cbn [continues_current_list]. split.
  - destruct m, x; intro H; try (constructor; fail); try (apply marker_eqb_eq in H; rewrite H; constructor).
  - destruct 1 as [a c|a c|m]; [reflexivity|reflexivity|]. destruct m; try reflexivity; apply marker_eqb_eq; reflexivity.
Qed.
Lemma nested_spec m s x : starts_nested_list (m :: s) x = true <-> ~ is_open (m :: s) x.
Proof.
  unfold starts_nested_list. generalize (m :: s). intro l.
  assert (D : forall n, forallb (fun m => negb (is_digits m)) l = true <-> ~ is_open l (Digits n)).
  { intro n. rewrite forallb_forall. split.
    - intros H (o & I & S). specialize (H o I). inversion S; subst; discriminate H.
    - intros H o I. destruct (is_digits o) eqn:E; [|reflexivity]. exfalso. apply H. exists o. split; [exact I|]. destruct o; try discriminate. constructor. }
  assert (C : forall n, forallb (fun m => negb (is_callout m)) l = true <-> ~ is_open l (Callout n)).
  { intro n. rewrite forallb_forall. split.
    - intros H (o & I & S). specialize (H o I). inversion S; subst; discriminate H.
    - intros H o I. destruct (is_callout o) eqn:E; [|reflexivity]. exfalso. apply H. exists o. split; [exact I|]. destruct o; try discriminate. constructor. }
  assert (O : (forall n, x <> Digits n) -> (forall n, x <> Callout n) -> negb (existsb (marker_eqb x) l) = true <-> ~ is_open l x).
  { intros ND NC. rewrite negb_true_iff. split.
    - intros H (o & I & S). assert (o = x) by (inversion S; subst; [exfalso; exact (ND _ eq_refl)|exfalso; exact (NC _ eq_refl)|reflexivity]). subst o.
      assert (T : existsb (marker_eqb x) l = true) by (apply existsb_exists; exists x; split; [exact I|apply marker_eqb_eq; reflexivity]). congruence.
    - intro H. destruct (existsb _ l) eqn:E; [|reflexivity]. exfalso. apply H. apply existsb_exists in E. destruct E as (o & I & E). apply marker_eqb_eq in E. subst o. exists x. split; [exact I|constructor]. }
  destruct x; try (apply O; discriminate); [apply D|apply C].
Qed.
Lemma nested_false m s x : starts_nested_list (m :: s) x = false -> is_open (m :: s) x.
Proof.
  intro H. destruct (continues_current_list (m :: s) x) eqn:E; [exists m; split; [left; reflexivity|apply continues_spec in E; exact E]|].
  assert (forall l, (forall o, In o l -> ~ same o x) \/ is_open l x).
  { assert (dec : forall o, same o x \/ ~ same o x).
    { intro o. destruct (continues_current_list [o] x) eqn:F; [left; apply continues_spec in F; exact F|right; intro S; apply (continues_spec o [] x) in S; congruence]. }
    induction l as [|o l [IH|(p & I & S)]]; [left; intros o []| |right; exists p; split; [right; exact I|exact S]].
    destruct (dec o) as [D|D]; [right; exists o; split; [left; reflexivity|exact D]|left; intros q [<-|I]; auto]. }
  destruct (H0 (m :: s)) as [N|O]; [|exact O]. exfalso.
  assert (starts_nested_list (m :: s) x = true); [|congruence]. apply nested_spec. intros (o & I & S). exact (N o I S).
Qed.

(** ** trees *)
Lemma item_markers_eq m sub : item_markers (Item m sub) = m :: markers sub.
Proof. reflexivity. Qed.
Lemma markers_cons m sub r : markers (Item m sub :: r) = m :: markers sub ++ markers r.
Proof. unfold markers at 1. cbn [flat_map]. rewrite item_markers_eq. reflexivity. Qed.

Definition seq_head_in (s : list marker) (q : seq) : Prop := match q with inl x :: _ => is_open s x | _ => True end.
Definition V (l : list item) : seq := map inl (markers l).
Lemma V_cons m sub r : V (Item m sub :: r) = inl m :: V sub ++ V r.
Proof. unfold V. rewrite markers_cons. cbn [map]. rewrite map_app. reflexivity. Qed.
Lemma open_cons m s x : is_open s x -> is_open (m :: s) x.
Proof. intros (o & I & S). exists o. split; [right; exact I|exact S]. Qed.

Lemma inl_inv (x y : marker) (p q : seq) : inl x :: p = inl y :: q -> x = y /\ p = q.
Proof. intro H. injection H as -> ->. auto. Qed.
(** the part of a sequence that is a list is determined *)
Lemma nested_unique s m l1 : nested s m l1 -> forall l2 r1 r2, ~ is_open s m -> nested s m l2 -> seq_head_in s r1 -> seq_head_in s r2 -> V l1 ++ r1 = V l2 ++ r2 -> l1 = l2 /\ r1 = r2.
Proof.
  assert (HD : forall s m rest r, nested s m rest -> seq_head_in s r -> seq_head_in (m :: s) (V rest ++ r)).
  { intros s0 m0 rest r N H. destruct N as [| ? ? i rest S N|? ? i j sub1 subs rest S NO N1 N2].
    - cbn. destruct r as [|[x|x] r]; try exact I. apply open_cons, H.
    - rewrite V_cons. cbn. exists m0. split; [left; reflexivity|exact S].
    - rewrite V_cons. cbn. exists m0. split; [left; reflexivity|exact S]. }
  assert (E0 : forall s m l2 r1 r2, ~ is_open s m -> nested s m l2 -> seq_head_in s r1 -> r1 = V l2 ++ r2 -> l2 = []).
  { intros s0 m0 l2 r1 r2 NO N H E. destruct N as [| ? ? i rest S N|? ? i j sub1 subs rest S NO' N1 N2]; [reflexivity| |]; exfalso; rewrite V_cons in E; subst r1; cbn in H; destruct H as (o & Io & So); apply NO; exists o; (split; [exact Io|]); eapply same_trans; [exact So|apply same_sym, S|exact So|apply same_sym, S]. }
  induction 1 as [s m|s m i rest S N IH|s m i j sub1 subs rest S NO N1 IH1 N2 IH2]; intros l2 r1 r2 NOm M H1 H2 E.
  - change (V []) with (@nil (marker + nat)) in E; cbn [app] in E. assert (l2 = []) by (exact (E0 s m l2 r1 r2 NOm M H1 E)). subst l2. auto.
  - rewrite V_cons in E. change (V []) with (@nil (marker + nat)) in E; cbn [app] in E. destruct M as [| s m i2 rest2 S2 M2|s m i2 j2 sub2 subs2 rest2 S2 NO2 M2 M3].
    + exfalso. change (V []) with (@nil (marker + nat)) in E; cbn [app] in E. subst r2. cbn in H2. apply NOm. destruct H2 as (o & Io & So). exists o. split; [exact Io|]. eapply same_trans; [exact So|apply same_sym, S].
    + rewrite V_cons in E. change (V []) with (@nil (marker + nat)) in E; cbn [app] in E. destruct (inl_inv _ _ _ _ E) as [EI EE]; clear E; rename EE into E; subst i2. destruct (IH rest2 r1 r2 NOm M2 H1 H2 E) as [-> ->]. auto.
    + exfalso. rewrite (V_cons i2) in E. cbn [app] in E. destruct (inl_inv _ _ _ _ E) as [EI EE]; clear E; rename EE into E; subst i2. rewrite <- app_assoc in E. rewrite V_cons in E. cbn [app] in E.
      pose proof (HD s m rest r1 N H1) as HH. rewrite E in HH. cbn in HH. contradiction.
  - rewrite V_cons in E. cbn [app] in E. destruct M as [| s m i2 rest2 S2 M2|s m i2 j2 sub2 subs2 rest2 S2 NO2 M2 M3].
    + exfalso. change (V []) with (@nil (marker + nat)) in E; cbn [app] in E. subst r2. cbn in H2. apply NOm. destruct H2 as (o & Io & So). exists o. split; [exact Io|]. eapply same_trans; [exact So|apply same_sym, S].
    + exfalso. rewrite (V_cons i2) in E. cbn [app] in E. destruct (inl_inv _ _ _ _ E) as [EI EE]; clear E; rename EE into E; subst i2. rewrite <- app_assoc in E. rewrite V_cons in E. cbn [app] in E. symmetry in E.
      pose proof (HD s m rest2 r2 M2 H2) as HH. change (V rest2 ++ r2) with ((V [] ++ V rest2) ++ r2) in HH. rewrite E in HH. cbn in HH. contradiction.
    + rewrite (V_cons i2) in E. cbn [app] in E. destruct (inl_inv _ _ _ _ E) as [EI EE]; clear E; rename EE into E; subst i2. rewrite <- !app_assoc in E.
      assert (j2 = j) by (rewrite !V_cons in E; cbn [app] in E; injection E as E _; congruence). subst j2.
      destruct (IH1 (Item j sub2 :: subs2) (V rest ++ r1) (V rest2 ++ r2) NO M2 (HD _ _ _ _ N2 H1) (HD _ _ _ _ M3 H2) E) as [E1 E2].
      destruct (IH2 rest2 r1 r2 NOm M3 H1 H2 E2) as [-> ->]. rewrite E1. auto.
Qed.

(** ** the parser *)
Lemma group_seq_restore ms rest : input_seq (restore ms rest) = map inl ms ++ input_seq rest.
Proof. destruct ms; reflexivity. Qed.
Lemma no_empty_restore ms rest : no_empty_group rest -> no_empty_group (restore ms rest).
Proof. intro N. destruct ms; [exact N|]. constructor; [discriminate|exact N]. Qed.
Lemma seq_head_group m ms rest s : seq_head_in s (input_seq (Items (m :: ms) :: rest)) = is_open s m. Proof. reflexivity. Qed.

Lemma run_items : forall f m s inp items rest, no_empty_group inp -> length (input_seq inp) <= f -> ~ is_open s m -> seq_head_in (m :: s) (input_seq inp) -> parse_items f (m :: s) inp = (items, rest) ->
  nested s m items /\ V items ++ input_seq rest = input_seq inp /\ seq_head_in s (input_seq rest) /\ no_empty_group rest.
Proof.
  induction f as [|f IH]; intros m s inp items rest NE L NO H P.
  - cbn in P. injection P as <- <-. split; [constructor|]. split; [reflexivity|]. destruct (input_seq inp) as [|x q]; [split; [exact I|exact NE]|cbn in L; lia].
  - destruct inp as [|[[|x ms]|n] rest0].
    + cbn in P. injection P as <- <-. split; [constructor|]. repeat split. exact NE.
    + inversion NE as [|? ? X _]; subst. congruence.
    + cbn [parse_items] in P. destruct (continues_current_list (m :: s) x) eqn:C.
      * apply continues_spec in C.
        set (subres := match ms with
              | m2 :: _ => if starts_nested_list (m :: s) m2 then parse_items f (m2 :: m :: s) (Items ms :: rest0) else ([], restore ms rest0)
              | [] => match rest0 with Items (m2 :: ms2) :: rest2 => if starts_nested_list (m :: s) m2 then parse_items f (m2 :: m :: s) (Items (m2 :: ms2) :: rest2) else ([], rest0) | _ => ([], rest0) end
              end) in P.
        assert (NE0 : no_empty_group rest0) by (inversion NE; assumption).
        assert (Q : input_seq (Items (x :: ms) :: rest0) = inl x :: input_seq (restore ms rest0)) by (rewrite group_seq_restore; reflexivity).
        rewrite Q in L. cbn [length] in L.
        (* either nothing is nested, or a list *)
        assert (R : exists sub input1, subres = (sub, input1) /\ V sub ++ input_seq input1 = input_seq (restore ms rest0) /\ seq_head_in (m :: s) (input_seq input1) /\ no_empty_group input1 /\
          (sub = [] \/ exists j s1 ss, sub = Item j s1 :: ss /\ ~ is_open (m :: s) j /\ nested (m :: s) j sub)).
        { assert (G : forall m2 ms2 rest2, restore ms rest0 = Items (m2 :: ms2) :: rest2 -> subres = (if starts_nested_list (m :: s) m2 then parse_items f (m2 :: m :: s) (Items (m2 :: ms2) :: rest2) else ([], Items (m2 :: ms2) :: rest2)) ->
            exists sub input1, subres = (sub, input1) /\ V sub ++ input_seq input1 = input_seq (restore ms rest0) /\ seq_head_in (m :: s) (input_seq input1) /\ no_empty_group input1 /\
            (sub = [] \/ exists j s1 ss, sub = Item j s1 :: ss /\ ~ is_open (m :: s) j /\ nested (m :: s) j sub)).
          { intros m2 ms2 rest2 ER ES. destruct (starts_nested_list (m :: s) m2) eqn:SN.
            - apply nested_spec in SN. destruct (parse_items f (m2 :: m :: s) (Items (m2 :: ms2) :: rest2)) as [sub input1] eqn:PI. exists sub, input1. split; [exact ES|].
              rewrite ER in L. assert (NR : no_empty_group (Items (m2 :: ms2) :: rest2)) by (rewrite <- ER; apply no_empty_restore, NE0).
              destruct (IH m2 (m :: s) (Items (m2 :: ms2) :: rest2) sub input1 NR (le_S_n _ _ L) SN) as (N1 & E1 & H1 & N2); [rewrite seq_head_group; exists m2; split; [left; reflexivity|constructor]|exact PI|].
              rewrite ER. split; [exact E1|]. split; [exact H1|]. split; [exact N2|]. destruct sub as [|[j s1] ss]; [left; reflexivity|]. right. exists j, s1, ss.
              assert (j = m2) as -> by (rewrite V_cons in E1; cbn in E1; injection E1 as E1 _; exact E1). split; [reflexivity|]. split; [exact SN|exact N1].
            - exists [], (Items (m2 :: ms2) :: rest2). split; [exact ES|]. rewrite ER. split; [reflexivity|]. split; [rewrite seq_head_group; apply nested_false, SN|]. split; [|left; reflexivity].
              rewrite <- ER. apply no_empty_restore, NE0. }
          unfold subres. destruct ms as [|m2 ms].
          - destruct rest0 as [|[[|m2 ms2]|n] rest2].
            + exists [], []. split; [reflexivity|]. split; [reflexivity|]. split; [exact I|]. split; [exact NE0|left; reflexivity].
            + inversion NE0 as [|? ? X _]; subst. congruence.
            + apply (G m2 ms2 rest2); reflexivity.
            + exists [], (Other n :: rest2). split; [reflexivity|]. split; [reflexivity|]. split; [exact I|]. split; [exact NE0|left; reflexivity].
          - apply (G m2 ms rest0); reflexivity. }
        destruct R as (sub & input1 & ES & E1 & H1 & N1 & SB). rewrite ES in P. destruct (parse_items f (m :: s) input1) as [items2 rest2] eqn:P2. injection P as <- <-.
        assert (L1 : length (input_seq input1) <= f) by (rewrite <- E1, app_length in L; lia).
        destruct (IH m s input1 items2 rest2 N1 L1 NO H1 P2) as (N2 & E2 & H2 & N3).
        split; [|split; [|split; [exact H2|exact N3]]].
        -- destruct SB as [->|(j & s1 & ss & -> & NJ & NS)]; [apply nested_leaf; [exact C|exact N2]|apply nested_sub; assumption].
        -- rewrite V_cons, Q. cbn [app]. rewrite <- app_assoc, E2, E1. reflexivity.
      * injection P as <- <-. split; [constructor|]. split; [reflexivity|]. split; [|exact NE]. rewrite seq_head_group in *.
        destruct H as (o & [<-|Io] & So); [apply (continues_spec m s x) in So; congruence|]. exists o. auto.
    + cbn in P. injection P as <- <-. split; [constructor|]. repeat split. exact NE.
Qed.

Lemma run_blocks : forall f inp, no_empty_group inp -> length (input_seq inp) < f -> good_blocks (parse_blocks f inp) /\ output_seq (parse_blocks f inp) = input_seq inp.
Proof.
  induction f as [|f IH]; intros inp NE L; [lia|]. destruct inp as [|[[|m ms]|n] rest].
  - split; [exact I|reflexivity].
  - inversion NE as [|? ? X _]; subst. congruence.
  - cbn [parse_blocks]. destruct (parse_items f [m] (Items (m :: ms) :: rest)) as [items input1] eqn:P.
    destruct (run_items f m [] (Items (m :: ms) :: rest) items input1 NE) as (N & E & H & N1); [lia|intros (o & [] & _)|rewrite seq_head_group; exists m; split; [left; reflexivity|constructor]|exact P|].
    assert (NI : input_seq input1 = [] \/ exists n q, input_seq input1 = inr n :: q).
    { destruct (input_seq input1) as [|[x|n] q]; [left; reflexivity|destruct H as (o & [] & _)|right; eauto]. }
    assert (exists m' sub r, items = Item m' sub :: r) as (m' & sub & r & EI).
    { destruct items as [|[m' sub] r]; [|eauto]. change (V []) with (@nil (marker + nat)) in E; cbn [app] in E. exfalso. rewrite E in NI. destruct NI as [X|(n & q & X)]; discriminate X. }
    assert (m' = m) by (rewrite EI in E; rewrite V_cons in E; cbn in E; injection E as E _; exact E). subst m'.
    assert (L1 : length (input_seq input1) < f) by (rewrite <- E, app_length in L; rewrite EI, V_cons in L; cbn [length] in L; lia).
    destruct (IH input1 N1 L1) as [G O]. split.
    + cbn [good_blocks]. split; [rewrite EI; unfold good_list; rewrite <- EI; exact N|]. split; [|exact G].
      destruct (parse_blocks f input1) as [|[l|n] bs] eqn:PB; try exact I. exfalso. cbn [good_blocks] in G. destruct G as [GL _]. destruct l as [|[x sx] l]; [exact GL|].
      cbn [output_seq flat_map block_seq] in O. fold (V (Item x sx :: l)) in O. rewrite V_cons in O. cbn [app] in O. destruct NI as [X|(n & q & X)]; rewrite X in O; discriminate O.
    + cbn [output_seq flat_map block_seq]. fold (output_seq (parse_blocks f input1)). fold (V items). rewrite O. exact E.
  - cbn [parse_blocks]. destruct (IH rest) as [G O]; [inversion NE; assumption|cbn in L; unfold input_seq; lia|]. split; [exact G|]. cbn [output_seq flat_map block_seq]. fold (output_seq (parse_blocks f rest)). rewrite O. reflexivity.
Qed.
Lemma count_seq inp : length (input_seq inp) <= count inp.
Proof. induction inp as [|[ms|n] r IH]; [apply le_n| |]; cbn [input_seq flat_map group_seq count fold_right]; rewrite app_length; fold (input_seq r); fold (count r); rewrite ?map_length; cbn [length]; lia. Qed.

Lemma good_unique : forall bs1 bs2, good_blocks bs1 -> good_blocks bs2 -> output_seq bs1 = output_seq bs2 -> bs1 = bs2.
Proof.
  assert (HN : forall r, match r with BList _ :: _ => False | _ => True end -> seq_head_in [] (output_seq r)).
  { intros [|[l|n] r]; cbn; intro H; try exact I. destruct H. }
  assert (NL : forall l q n t, good_list l -> V l ++ q = inr n :: t -> False).
  { intros [|[m sub] l] q n t G E; [exact G|]. rewrite V_cons in E. discriminate E. }
  assert (NN : forall l q, good_list l -> V l ++ q = [] -> False).
  { intros [|[m sub] l] q G E; [exact G|]. rewrite V_cons in E. discriminate E. }
  induction bs1 as [|b1 bs1 IH]; intros bs2 G1 G2 E.
  - destruct bs2 as [|[l|n] bs2]; [reflexivity| |discriminate E]. exfalso. symmetry in E. cbn [output_seq flat_map block_seq] in E. apply NN in E; [exact E|apply G2].
  - destruct bs2 as [|b2 bs2].
    + destruct b1 as [l|n]; [|discriminate E]. exfalso. cbn [output_seq flat_map block_seq] in E. apply NN in E; [exact E|apply G1].
    + destruct b1 as [l1|n1], b2 as [l2|n2]; cbn [output_seq flat_map block_seq] in E; fold (output_seq bs1) in E; fold (output_seq bs2) in E.
      * fold (V l1) in E. fold (V l2) in E. destruct G1 as (GL1 & A1 & G1). destruct G2 as (GL2 & A2 & G2).
        destruct l1 as [|[m1 s1] l1]; [destruct GL1|]. destruct l2 as [|[m2 s2] l2]; [destruct GL2|].
        assert (m1 = m2) by (rewrite !V_cons in E; cbn in E; injection E as E _; exact E). subst m2. unfold good_list in *.
        destruct (nested_unique [] m1 _ GL1 _ _ _ (fun X => match X with ex_intro _ o (conj Hi _) => Hi end) GL2 (HN _ A1) (HN _ A2) E) as [-> E2]. rewrite (IH bs2 G1 G2 E2). reflexivity.
      * exfalso. cbn [app] in E. destruct G1 as (GL1 & _). exact (NL _ _ _ _ GL1 E).
      * exfalso. cbn [app] in E. symmetry in E. destruct G2 as (GL2 & _). exact (NL _ _ _ _ GL2 E).
      * cbn [app] in E. injection E as <- E. rewrite (IH bs2 G1 G2 E). reflexivity.
Qed.

(** ** depth *)
Lemma item_depth_eq m sub : item_depth (Item m sub) = S (depth sub).
Proof. reflexivity. Qed.
Definition distinct (s : list marker) : Prop := forall i j a c, nth_error s i = Some a -> nth_error s j = Some c -> same a c -> i = j.
Lemma distinct_cons m s : distinct s -> ~ is_open s m -> distinct (m :: s).
Proof.
  intros D N i j a c A C S. destruct i as [|i], j as [|j]; cbn in A, C; [reflexivity| | |f_equal; exact (D i j a c A C S)]; exfalso; apply N.
  - injection A as <-. exists c. split; [exact (nth_error_In _ _ C)|apply same_sym, S].
  - injection C as <-. exists a. split; [exact (nth_error_In _ _ A)|exact S].
Qed.
(** markers that are pairwise different need as many classes *)
Lemma pigeon s : forall classes, distinct s -> (forall m, In m s -> is_open classes m) -> length s <= length classes.
Proof.
  induction s as [|m s IH]; intros classes D C; [cbn; lia|]. destruct (C m (or_introl eq_refl)) as (o & Io & So). destruct (in_split _ _ Io) as (l1 & l2 & ->).
  assert (L : length s <= length (l1 ++ l2)).
  { apply IH.
    - intros i j a c A B Sac. assert (X : S i = S j) by (apply (D (S i) (S j) a c A B Sac)). congruence.
    - intros x Ix. destruct (C x (or_intror Ix)) as (p & Ip & Sp). exists p. split; [|exact Sp]. rewrite in_app_iff in *. destruct Ip as [Ip|[Ep|Ip]]; [left; exact Ip| |right; exact Ip]. subst p. exfalso.
      destruct (In_nth_error _ _ Ix) as (k & Nk). assert (X : 0 = S k) by (apply (D 0 (S k) m x eq_refl Nk); eapply same_trans; [apply same_sym, So|exact Sp]). discriminate X. }
  rewrite app_length in *. cbn [length] in *. lia.
Qed.
Lemma nested_depth s m l : nested s m l -> forall classes, distinct (m :: s) -> (forall x, In x (m :: s) -> is_open classes x) -> (forall x, In x (markers l) -> is_open classes x) -> length s + depth l <= length classes.
Proof.
  induction 1 as [s m|s m i rest S N IH|s m i j sub1 subs rest S NO N1 IH1 N2 IH2]; intros classes D C M.
  - pose proof (pigeon (m :: s) classes D C) as P. cbn in P |- *. lia.
  - pose proof (pigeon (m :: s) classes D C) as P. cbn [length] in P. rewrite markers_cons in M. cbn [markers flat_map app] in M. 
    assert (X : length s + depth rest <= length classes) by (apply IH; [exact D|exact C|intros x I; apply M; right; exact I]). unfold depth in *. cbn [fold_right]. rewrite item_depth_eq. cbn [depth fold_right]. lia.
  - rewrite markers_cons in M. assert (X : length s + depth rest <= length classes) by (apply IH2; [exact D|exact C|intros x I; apply M; right; apply in_or_app; right; exact I]).
    assert (Y : length (m :: s) + depth (Item j sub1 :: subs) <= length classes).
    { apply IH1; [apply distinct_cons; assumption| |intros x I; apply M; right; apply in_or_app; left; exact I].
      intros x [<-|I]; [|exact (C x I)]. apply M. right. apply in_or_app. left. rewrite markers_cons. left. reflexivity. }
    cbn [length] in Y. unfold depth at 1. cbn [fold_right]. rewrite item_depth_eq. fold (depth rest). lia.
Qed.
