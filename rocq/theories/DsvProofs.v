From Verif Require Import ValueSpec Text ColsModel PsvProofs PsvRowProofs PsvTableProofs PsvEndProofs PsvStreamProofs ValueProofs ValueEndProofs.
Open Scope nat_scope.

Section Split.
  Variables (sep : bytes) (k : kind) (SK : sep_kind sep = Some k).
  Lemma delim_cases (t : ttok) r : (ends_field sep t /\ consume_dsv_delimiter sep (t :: r) = (true, r, last_of t)) \/ (no_delim sep t /\ consume_dsv_delimiter sep (t :: r) = (false, t :: r, LOther)).
  Proof.
    unfold consume_dsv_delimiter, ends_field, no_delim, last_of. rewrite SK. destruct (nl t) eqn:N; [left; auto|]. destruct (is_k k t) eqn:K.
    - left. apply is_k_tk in K. split; [right; exists k; auto|reflexivity].
    - right. split; [|reflexivity]. split; [reflexivity|]. intro X. rewrite (tk_is_k _ _ X) in K. discriminate.
  Qed.
  Lemma ends_not (t : ttok) : ends_field sep t -> no_delim sep t -> False.
  Proof. intros [N|(k' & K & T)] [N' D]; [congruence|]. rewrite K in D. contradiction. Qed.
  Lemma text_split : forall fuel count last ps l s, dsv_text fuel sep count last ps l = Done s ->
    (exists b e, l = b ++ e :: sc_rest s /\ dsv_body sep b (sc_cell s) /\ ends_field sep e /\ sc_last s = last_of e) \/ (sc_rest s = [] /\ dsv_open sep l (sc_cell s)).
  Proof.
    assert (EM : embeddable sep = None) by (unfold embeddable; rewrite SK; reflexivity).
    induction fuel as [|fuel IH]; intros count last ps l s; [discriminate|]. cbn [dsv_text]. destruct l as [|t r]; [intro H; injection H as <-; right; split; [reflexivity|left; constructor]|].
    destruct (delim_cases t r) as [[E C]|[E C]]; rewrite C.
    - intro H. injection H as <-. left. exists [], t. cbn [sc_rest sc_cell sc_last]. repeat split; auto. constructor.
    - rewrite EM. cbn [consume_splitting rbind]. destruct (is_k Backslash t) eqn:B; cbn [negb].
      + apply is_k_tk in B. destruct r as [|next r].
        * intro H. destruct fuel; [discriminate|]. cbn [dsv_text] in H. injection H as <-. right. split; [reflexivity|]. right. exists [], t. repeat split; auto; try apply E. constructor.
        * destruct (dsv_text fuel _ _ _ _ r) as [s'| |] eqn:R; try discriminate. cbn [rbind]. intro H. injection H as <-. cbn [add_tok sc_rest sc_cell sc_last]. apply IH in R. destruct R as [(b & e & X & Y & Z & W)|[X Y]].
          -- left. exists (t :: next :: b), e. rewrite X. cbn [app]. repeat split; auto. apply d_esc; auto.
          -- right. split; [exact X|]. destruct Y as [Y|(b' & e & Y1 & Y2 & Y3 & Y4)]; [left; apply d_esc; auto|right]. exists (t :: next :: b'), e. rewrite Y1. repeat split; auto; try apply Y3. apply d_esc; auto.
      + destruct (dsv_text fuel _ _ _ _ r) as [s'| |] eqn:R; try discriminate. cbn [rbind]. intro H. injection H as <-. cbn [add_tok sc_rest sc_cell sc_last]. apply IH in R.
        assert (NB : tk t <> Backslash) by (intro X; rewrite (tk_is_k _ _ X) in B; discriminate). destruct R as [(b & e & X & Y & Z & W)|[X Y]].
          -- left. exists (t :: b), e. rewrite X. cbn [app]. repeat split; auto. apply d_tok; auto.
          -- right. split; [exact X|]. destruct Y as [Y|(b' & e & Y1 & Y2 & Y3 & Y4)]; [left; apply d_tok; auto|right]. exists (t :: b'), e. rewrite Y1. repeat split; auto; try apply Y3. apply d_tok; auto.
  Qed.
  Lemma mid_nil {A} (a : list A) x r : a ++ x :: r <> [].
  Proof. destruct a; discriminate. Qed.
  Lemma splits_nil a vs : splits sep a [] vs -> vs = [].
  Proof.
    remember [] as l eqn:E. destruct 1 as [|a white b v e l vs|white e more l vs|a white b v]; [reflexivity|exfalso..]; revert E.
    - rewrite app_assoc. apply mid_nil.
    - apply mid_nil.
    - assumption.
  Qed.
  Definition after_delimiter (l : last_consumed) : bool := match l with LDelimiter => true | _ => false end.
  Definition split_into (last : last_consumed) (l : list ttok) (ss : list shape) : Prop := exists vs, splits sep (after_delimiter last) l vs /\ ss = map value_shape vs.
  Lemma take_drop {A} (f : A -> bool) l : l = take_while f l ++ drop_while f l.
  Proof. induction l as [|a l IH]; [reflexivity|]. cbn [take_while drop_while]. destruct (f a); [cbn [app]; congruence|reflexivity]. Qed.
  Lemma take_all {A} (f : A -> bool) l : Forall (fun a => f a = true) (take_while f l).
  Proof. induction l as [|a l IH]; [constructor|]. cbn [take_while]. destruct (f a) eqn:E; constructor; auto. Qed.
  Lemma drop_plain l : starts_plain (drop_while wsish l).
  Proof. unfold starts_plain. induction l as [|a l IH]; [exact I|]. cbn [drop_while]. destruct (wsish a) eqn:E; [exact IH|exact E]. Qed.
  Lemma first_nl l : Forall (fun t => wsish t = true) l -> existsb nl l = true -> exists w e m, l = w ++ e :: m /\ Forall (fun t => ws t = true) w /\ nl e = true /\ Forall (fun t => wsish t = true) m.
  Proof.
    induction 1 as [|t l W F IH]; [discriminate|]. cbn [existsb]. destruct (nl t) eqn:N.
    - intros _. exists [], t, l. repeat split; auto.
    - cbn [orb]. intro X. destruct (IH X) as (w & e & m & -> & A & B & C). exists (t :: w), e, m. repeat split; auto. constructor; [|exact A]. unfold wsish in W. fold (ws t) (nl t) in W. rewrite N, orb_false_r in W. exact W.
  Qed.
  Lemma split_step cs v i c v' : parse_dsv_table_cell Delimited sep cs v i = Done (Some c, v') -> forall ss, split_into (dsv_last v') (toks (vr v')) ss -> split_into (dsv_last v) (toks (vr v)) (shape_of_cell c :: ss).
  Proof.
    intros P ss (vs & SP & ->). unfold parse_dsv_table_cell in P. destruct (toks (vr v)) as [|t0 l0] eqn:T; [discriminate|]. rewrite <- T in *. set (l := toks (vr v)) in *. cbv zeta in P.
    assert (NE : l <> []) by (rewrite T; discriminate). pose proof (take_drop wsish l) as TD. pose proof (take_all wsish l) as TA. pose proof (drop_plain l) as DP.
    assert (SH : forall h x c d h', finish_cell Delimited cs h default_cell x i = (c, d, h') -> shape_of_cell c = value_shape x).
    { intros h x c1 d h' FIN. unfold finish_cell in FIN. cbv zeta in FIN. destruct (if is_unknown (hdr h) && false then _ else _) as [h1 tr]. injection FIN as <- _ _. apply shape_new. }
    destruct (_ && existsb nl (take_while wsish l)) eqn:B.
    - apply andb_true_iff in B as [LD NW]. destruct (finish_cell _ _ _ _ _ _) as [[c1 d] h1] eqn:FIN. injection P as <- <-. cbn [vr toks dsv_last] in SP. apply SH in FIN. exists ([] :: vs). cbn [map]. rewrite FIN. split; [|reflexivity].
      assert (after_delimiter (dsv_last v) = true) as A by (destruct (dsv_last v); congruence || reflexivity). rewrite A in *. destruct (first_nl _ TA NW) as (w & e & m & E & F1 & F2 & F3). rewrite TD, E, <- app_assoc. cbn [app]. apply sp_empty; auto.
    - destruct (dsv_text _ _ _ _ _ _) as [s| |] eqn:R; try discriminate. cbn [rbind] in P. destruct (finish_cell _ _ _ _ _ _) as [[c1 d] h1] eqn:FIN. injection P as <- <-. cbn [vr toks dsv_last] in SP. apply SH in FIN.
      assert (LO : lead_ok (after_delimiter (dsv_last v)) (take_while wsish l)) by (split; [exact TA|]; intro A; destruct (dsv_last v); try discriminate; exact B).
      exists (sc_cell s :: vs). cbn [map]. rewrite FIN. split; [|reflexivity]. apply text_split in R. destruct R as [(b & e & X & Y & Z & W)|[X Y]].
      + rewrite TD, X. rewrite X in DP. apply sp_field; auto.
        * unfold starts_plain in *. destruct b; exact DP.
        * rewrite W in SP. unfold last_of in SP. destruct (nl e); exact SP.
      + rewrite X in SP. apply splits_nil in SP. subst vs.
        rewrite TD. apply sp_open; auto. rewrite <- TD. exact NE.
  Qed.
  Ltac clash := match goal with A : ends_field _ ?t, B : no_delim _ ?t |- _ => destruct (ends_not _ A B) end.
  (** the fields are determined *)
  Lemma body_unique b v : dsv_body sep b v -> forall b' v' e e' r r', dsv_body sep b' v' -> ends_field sep e -> ends_field sep e' -> b ++ e :: r = b' ++ e' :: r' -> b = b' /\ v = v' /\ e = e' /\ r = r'.
  Proof.
    induction 1 as [|t b v D NB _ IH|x t b v BS D _ IH]; intros b' v' e e' r r' B' E E' EQ; destruct B' as [|t' b' v' D' NB' B'|x' t' b' v' BS' D' B']; cbn [app] in EQ; injection EQ as H1 H2; subst; try clash; try congruence.
    - repeat split; auto.
    - destruct (IH _ _ _ _ _ _ B' E E' H2) as (-> & -> & -> & ->). auto.
    - match goal with H : b ++ _ = b' ++ _ |- _ => destruct (IH _ _ _ _ _ _ B' E E' H) as (-> & -> & -> & ->) end. auto.
  Qed.
  Lemma body_open b v : dsv_body sep b v -> forall e r, ends_field sep e -> forall v', ~ dsv_open sep (b ++ e :: r) v'.
  Proof.
    induction 1 as [|t b v D NB _ IH|x t b v BS D _ IH]; intros e r E v' [O|(b' & z & EQ & ZB & ZD & O)]; cbn [app] in *.
    - inversion O; subst; clash.
    - destruct b' as [|y b']; injection EQ as -> EQ; [clash|]. inversion O; subst; clash.
    - inversion O; subst; [|congruence]. eapply IH; [exact E|left; eassumption].
    - destruct b' as [|y b']; injection EQ as <- EQ; [congruence|]. inversion O; subst; [|congruence]. eapply IH; [exact E|right; do 2 eexists; split; [exact EQ|]; eauto].
    - inversion O; subst; [congruence|]. eapply IH; [exact E|left; eassumption].
    - destruct b' as [|y b']; injection EQ as <- EQ; [discriminate|]. inversion O; subst; [congruence|]. cbn [app] in EQ. injection EQ as <- EQ. eapply IH; [exact E|right; do 2 eexists; split; [exact EQ|]; eauto].
  Qed.
  Lemma open_unique b v : dsv_body sep b v -> forall v', dsv_body sep b v' -> v = v'.
  Proof. induction 1 as [|t b v D NB _ IH|x t b v BS D _ IH]; intros v' B; inversion B; subst; try congruence; f_equal; auto. Qed.
  Lemma open_both b v : dsv_body sep b v -> forall (e : ttok), tk e = Backslash -> no_delim sep e -> forall v', ~ dsv_body sep (b ++ [e]) v'.
  Proof.
    induction 1 as [|t b v D NB _ IH|x t b v BS D _ IH]; intros e E N v' B; cbn [app] in B; inversion B; subst; try congruence.
    all: match goal with H : dsv_body sep (_ ++ [_]) _ |- _ => exact (IH _ E N _ H) end.
  Qed.
  Lemma white_unique w w' x x' : Forall (fun t => wsish t = true) w -> Forall (fun t => wsish t = true) w' -> starts_plain x -> starts_plain x' -> w ++ x = w' ++ x' -> w = w' /\ x = x'.
  Proof.
    intro W. revert w'. induction W as [|t w T _ IH]; intros w' W' S S' E; destruct W' as [|t' w' T' W']; cbn [app] in E.
    - auto.
    - subst x. cbn in S. congruence.
    - subst x'. cbn in S'. congruence.
    - injection E as -> E. destruct (IH w' W' S S' E) as [-> ->]. auto.
  Qed.
  Lemma lead_wsish a w : lead_ok a w -> Forall (fun t => wsish t = true) w.
  Proof. intros [H _]. exact H. Qed.
  Lemma plain_app b (e : ttok) l : starts_plain (b ++ [e]) -> starts_plain (b ++ e :: l).
  Proof. destruct b; exact (fun x => x). Qed.
  Lemma empty_white w (e : ttok) m : Forall (fun t => ws t = true) w -> nl e = true -> Forall (fun t => wsish t = true) m -> Forall (fun t => wsish t = true) (w ++ e :: m) /\ existsb nl (w ++ e :: m) = true.
  Proof.
    intros W N M. split.
    - apply Forall_app. split; [eapply Forall_impl; [|exact W]; intros a X; apply ws_wsish, X|]. constructor; [|exact M]. unfold wsish. fold (nl e). rewrite N. apply orb_true_r.
    - rewrite existsb_app. cbn [existsb]. rewrite N. apply orb_true_r.
  Qed.
  Lemma splits_unique a l vs : splits sep a l vs -> forall vs', splits sep a l vs' -> vs = vs'.
  Proof.
    induction 1 as [a|a white b v e l vs LO B SP E _ IH|white e more l vs W N M SP _ IH|a white b v LO O SP NE]; intros vs' S'.
    - apply splits_nil in S'. congruence.
    - remember (white ++ b ++ e :: l) as src eqn:EQ. destruct S' as [a'|a' white' b' v' e' l' vs' LO' B' SP' E' S'|white' e' more' l' vs' W' N' M' SP' S'|a' white' b' v' LO' O' SP' NE'].
      + rewrite app_assoc in EQ. symmetry in EQ. apply mid_nil in EQ. contradiction.
      + apply white_unique in EQ as [-> EQ]; eauto using lead_wsish, plain_app. symmetry in EQ. destruct (body_unique _ _ B _ _ _ _ _ _ B' E E' EQ) as (-> & -> & -> & ->). f_equal. apply IH, S'.
      + destruct (empty_white _ _ _ W' N' M') as [X1 X2]. change (white' ++ e' :: more' ++ l') with (white' ++ (e' :: more') ++ l') in EQ. rewrite app_assoc in EQ. apply white_unique in EQ as [EQ _]; eauto using lead_wsish, plain_app. destruct LO as [_ LO]. rewrite <- EQ in LO. rewrite LO in X2; [discriminate|reflexivity].
      + apply white_unique in EQ as [_ EQ]; eauto using lead_wsish, plain_app. rewrite EQ in O'. destruct (body_open _ _ B _ _ E _ O').
    - remember (white ++ e :: more ++ l) as src eqn:EQ. destruct (empty_white _ _ _ W N M) as [X1 X2]. change (white ++ e :: more ++ l) with (white ++ (e :: more) ++ l) in EQ. rewrite app_assoc in EQ. remember true as tr eqn:TR in S'. destruct S' as [a'|a' white' b' v' e' l' vs' LO' B' SP' E' S'|white' e' more' l' vs' W' N' M' SP' S'|a' white' b' v' LO' O' SP' NE'].
      + rewrite <- app_assoc in EQ. symmetry in EQ. apply mid_nil in EQ. contradiction.
      + apply white_unique in EQ as [EQ _]; eauto using lead_wsish, plain_app. subst. destruct LO' as [_ LO']. rewrite LO' in X2; [discriminate|reflexivity].
      + destruct (empty_white _ _ _ W' N' M') as [X1' _]. change (white' ++ e' :: more' ++ l') with (white' ++ (e' :: more') ++ l') in EQ. rewrite app_assoc in EQ. apply white_unique in EQ as [_ EQ]; auto. subst l'. f_equal. apply IH, S'.
      + apply white_unique in EQ as [EQ _]; eauto using lead_wsish. subst. destruct LO' as [_ LO']. rewrite LO' in X2; [discriminate|reflexivity].
    - remember (white ++ b) as src eqn:EQ. destruct S' as [a'|a' white' b' v' e' l' vs' LO' B' SP' E' S'|white' e' more' l' vs' W' N' M' SP' S'|a' white' b' v' LO' O' SP' NE'].
      + congruence.
      + apply white_unique in EQ as [_ EQ]; eauto using lead_wsish, plain_app. rewrite <- EQ in O. destruct (body_open _ _ B' _ _ E' _ O).
      + destruct (empty_white _ _ _ W' N' M') as [X1 X2]. change (white' ++ e' :: more' ++ l') with (white' ++ (e' :: more') ++ l') in EQ. rewrite app_assoc in EQ. apply white_unique in EQ as [EQ _]; eauto using lead_wsish. destruct LO as [_ LO]. rewrite <- EQ in LO. rewrite LO in X2; [discriminate|reflexivity].
      + apply white_unique in EQ as [_ EQ]; eauto using lead_wsish. subst b'. f_equal. destruct O as [O|(b1 & z & -> & ZB & ZD & O)], O' as [O'|(b2 & z' & EQ & ZB' & ZD' & O')].
        * eapply open_unique; eassumption.
        * subst b. destruct (open_both _ _ O' _ ZB' ZD' _ O).
        * destruct (open_both _ _ O _ ZB ZD _ O').
        * apply app_inj_tail in EQ as [-> _]. eapply open_unique; eassumption.
  Qed.
End Split.
