From Verif Require Import Base FootnotesModel FootnotesSpec.

Lemma same_id_spec x y : same_id x y = true <-> x <> None /\ x = y.
Proof.
  destruct x as [a|], y as [c|]; simpl; rewrite ?bytes_eqb_eq; split; try (intros []; discriminate || congruence); try discriminate; try (intros; split; congruence).
Qed.

Lemma prev_from_none i ns x : prev_from i ns (Some x) = None <-> ~ exists t, In (Some x, t) ns.
Proof.
  revert i; induction ns as [|[p t] ns IH]; intro i; cbn [prev_from].
  - split; auto. intros _ [t []].
  - destruct (same_id p (Some x)) eqn:E.
    + apply same_id_spec in E as [N ->]. split; [discriminate|]. intros H. destruct H. exists t. now left.
    + rewrite IH. split; intros H [t' H'].
      * destruct H' as [H'|H']; [|apply H; eauto]. injection H' as -> ->.
        assert (same_id (Some x) (Some x) = true) by (apply same_id_spec; split; congruence). congruence.
      * apply H. exists t'. now right.
Qed.
Lemma prev_from_anon i ns : prev_from i ns None = None.
Proof.
  revert i; induction ns as [|[p t] ns IH]; intro i; cbn [prev_from]; auto.
  destruct p; simpl; auto.
Qed.
Lemma prev_from_app i ns ms id :
  prev_from i (ns ++ ms) id = match prev_from i ns id with Some n => Some n | None => prev_from (i + length ns) ms id end.
Proof.
  revert i; induction ns as [|[p t] ns IH]; intro i; cbn [prev_from app length].
  - now rewrite Nat.add_0_r.
  - destruct (same_id p id); auto. rewrite IH. destruct (prev_from (S i) ns id); auto. f_equal. lia.
Qed.

Lemma numbering_len os ns ds : numbering os ns ds -> length os = length ns.
Proof. induction 1; rewrite ?app_length; simpl; lia. Qed.
Lemma numbering_ids os ns ds : numbering os ns ds -> forall x, (exists t, In (Some x, t) os) <-> (exists t, In (Some x, t) ds).
Proof.
  induction 1; intro y; [reflexivity| |].
  - split; intros [u H']; apply in_app_or in H' as [H'|H'].
    + destruct (proj1 (IHnumbering y) (ex_intro _ u H')) as [v]. exists v. apply in_or_app; auto.
    + exists u. apply in_or_app; auto.
    + destruct (proj2 (IHnumbering y) (ex_intro _ u H')) as [v]. exists v. apply in_or_app; auto.
    + exists u. apply in_or_app; auto.
  - rewrite <- IHnumbering. split; intros [u H'].
    + apply in_app_or in H' as [H'|[H'|[]]]; eauto. injection H' as -> ->. apply nth_error_In in H0. eauto.
    + exists u. apply in_or_app; auto.
Qed.
Lemma numbering_prev os ns ds : numbering os ns ds -> forall i x t n own,
  nth_error os i = Some (Some x, t) -> nth_error ns i = Some (n, own) -> prev_from 0 ds (Some x) = Some n.
Proof.
  induction 1 as [|os ns ds id t N IH F|os ns ds x t i t' n own N IH Hi Hn]; intros j y u m ow Hj Hm.
  - destruct j; discriminate.
  - pose proof (numbering_len _ _ _ N) as L.
    destruct (Nat.lt_ge_cases j (length os)) as [C|C].
    + rewrite nth_error_app1 in Hj by auto. rewrite nth_error_app1 in Hm by lia.
      rewrite prev_from_app, (IH _ _ _ _ _ Hj Hm). reflexivity.
    + rewrite nth_error_app2 in Hj by auto. rewrite nth_error_app2 in Hm by lia. rewrite L in Hj.
      destruct (j - length ns) as [|k] eqn:E; [|destruct k; discriminate].
      injection Hj as -> ->. injection Hm as <- <-.
      destruct F as [F|F]; [discriminate|].
      rewrite prev_from_app. rewrite (proj2 (prev_from_none 0 ds y)) by (rewrite <- (numbering_ids _ _ _ N); auto).
      cbn. now rewrite (proj2 (bytes_eqb_eq y y) eq_refl).
  - pose proof (numbering_len _ _ _ N) as L.
    destruct (Nat.lt_ge_cases j (length os)) as [C|C].
    + rewrite nth_error_app1 in Hj by auto. rewrite nth_error_app1 in Hm by lia. eauto.
    + rewrite nth_error_app2 in Hj by auto. rewrite nth_error_app2 in Hm by lia. rewrite L in Hj.
      destruct (j - length ns) as [|k] eqn:E; [|destruct k; discriminate].
      injection Hj as <- ->. injection Hm as <- <-. eauto.
Qed.

Lemma numbering_functional os ns ds : numbering os ns ds -> forall ns' ds', numbering os ns' ds' -> ns = ns' /\ ds = ds'.
Proof.
  induction 1 as [|os ns ds id t N IH F|os ns ds x t i t' n own N IH Hi Hn]; intros ns' ds' H.
  - inversion H; auto; destruct os; discriminate.
  - inversion H as [E|os1 ns1 ds1 id1 t1 N1 F1 E|os1 ns1 ds1 x1 t1 i1 t1' n1 own1 N1 Hi1 Hn1 E].
    + destruct os; discriminate.
    + apply app_inj_tail in E as [-> E]. injection E as -> ->. destruct (IH _ _ N1) as [-> ->]. auto.
    + apply app_inj_tail in E as [-> E]. injection E as <- ->. exfalso. destruct F as [F|F]; [discriminate|].
      apply F. eauto using nth_error_In.
  - inversion H as [E|os1 ns1 ds1 id1 t1 N1 F1 E|os1 ns1 ds1 x1 t1 i1 t1' n1 own1 N1 Hi1 Hn1 E].
    + destruct os; discriminate.
    + apply app_inj_tail in E as [-> E]. injection E as -> ->. exfalso. destruct F1 as [F1|F1]; [discriminate|].
      apply F1. eauto using nth_error_In.
    + apply app_inj_tail in E as [-> E]. injection E as -> ->. destruct (IH _ _ N1) as [-> ->]. split; auto.
      pose proof (numbering_prev _ _ _ N _ _ _ _ _ Hi Hn). pose proof (numbering_prev _ _ _ N _ _ _ _ _ Hi1 Hn1). congruence.
Qed.

(** an induction principle for nodes *)
Fixpoint size (n : node) : nat :=
  match n with Txt _ => 1 | Wrap _ _ ch => S (list_sum (map size ch)) | Foot _ ch => S (list_sum (map size ch)) end.
Definition sizes (l : list node) : nat := list_sum (map size l).
Lemma size_pos n : 1 <= size n.
Proof. destruct n; simpl; lia. Qed.

Lemma eval_wrap st d o c ch s :
  eval_inline st d (Wrap o c ch) s = obind (eval_inlines st d ch (push o s)) (fun s' => Ret (push c s')).
Proof. cbn [eval_inline]. f_equal. generalize (push o s). induction ch as [|x r IH]; intro u; cbn; auto. destruct (eval_inline st d x u); cbn; auto. Qed.
Lemma eval_foot st d id ch s :
  eval_inline st d (Foot id ch) s =
  obind (enter_footnote st d id s) (fun s1 => obind (eval_inlines st d ch s1) (fun s2 => Ret (exit_footnote st id s2))).
Proof.
  cbn [eval_inline]. destruct (enter_footnote st d id s) as [s1|]; cbn; auto. f_equal.
  revert s1. induction ch as [|x r IH]; intro u; cbn; auto. destruct (eval_inline st d x u); cbn; auto.
Qed.

Lemma push_nil s : push [] s = s.
Proof. destruct s; unfold push; cbn. now rewrite app_nil_r. Qed.
Lemma push_push a c s : push c (push a s) = push (a ++ c) s.
Proof. unfold push; cbn. now rewrite app_assoc. Qed.

Lemma eval_plain st d : forall m l, sizes l <= m -> Forall plain l -> exists h, written st l [] [] h /\ forall s, eval_inlines st d l s = Ret (push h s).
Proof.
  induction m as [|m IH]; intros l Hm HP.
  - destruct l as [|x l]; [|unfold sizes in Hm; simpl in Hm; pose proof (size_pos x); lia].
    exists []. split; [constructor|]. intros s. cbn. now rewrite push_nil.
  - destruct l as [|x l].
    + exists []. split; [constructor|]. intros s. cbn. now rewrite push_nil.
    + inversion HP as [|? ? Px Pl]; subst. unfold sizes in Hm; cbn [map list_sum fold_right] in Hm. fold (list_sum (map size l)) in Hm.
      destruct (IH l) as (h & W & E); [pose proof (size_pos x); unfold sizes; lia|auto|].
      destruct x as [t|o c ch|]; [| |inversion Px].
      * exists (t ++ h). split; [now constructor|]. intros s. cbn. rewrite E, push_push. reflexivity.
      * inversion Px as [|? ? ? Pch]; subst. destruct (IH ch) as (h1 & W1 & E1); [cbn [size] in Hm; unfold sizes; lia|auto|].
        exists ((o ++ h1 ++ c) ++ h). split.
        -- exact (W_wrap st o c ch l [] [] h1 [] [] h W1 W).
        -- intros s. cbn [eval_inlines]. rewrite eval_wrap, E1. cbn [obind]. rewrite E, !push_push. f_equal. f_equal. now rewrite !app_assoc.
Qed.

Lemma eval_flat st d : forall m l, sizes l <= m -> Forall flat l -> forall os ns ds, numbering os ns ds -> forall h0,
  exists os' rs' ds' h, written st l os' rs' h /\ numbering (os ++ os') (ns ++ rs') ds' /\
    eval_inlines st d l (State h0 [] ds) = Ret (State (h0 ++ h) [] ds').
Proof.
  induction m as [|m IH]; intros l Hm HP os ns ds N h0.
  - destruct l as [|x l]; [|unfold sizes in Hm; simpl in Hm; pose proof (size_pos x); lia].
    exists [], [], ds, []. rewrite !app_nil_r. split; [constructor|]. auto.
  - destruct l as [|x l].
    + exists [], [], ds, []. rewrite !app_nil_r. split; [constructor|]. auto.
    + inversion HP as [|? ? Px Pl]; subst. unfold sizes in Hm; cbn [map list_sum fold_right] in Hm. fold (list_sum (map size l)) in Hm.
      pose proof (size_pos x) as SP.
      assert (Hl : sizes l <= m) by (unfold sizes; lia).
      destruct x as [t|o c ch|id text].
      * destruct (IH l Hl Pl _ _ _ N (h0 ++ t)) as (os' & rs' & ds' & h & W & N' & E).
        exists os', rs', ds', (t ++ h). split; [now constructor|]. split; auto.
        cbn. unfold push; cbn. rewrite E. now rewrite app_assoc.
      * inversion Px as [|? ? ? Pch|]; subst.
        destruct (IH ch) with (os := os) (ns := ns) (ds := ds) (h0 := h0 ++ o) as (os1 & rs1 & ds1 & h1 & W1 & N1 & E1); [cbn [size] in Hm; unfold sizes; lia|auto|auto|].
        destruct (IH l Hl Pl _ _ _ N1 (((h0 ++ o) ++ h1) ++ c)) as (os' & rs' & ds' & h & W & N' & E).
        exists (os1 ++ os'), (rs1 ++ rs'), ds', ((o ++ h1 ++ c) ++ h).
        split; [now constructor|]. rewrite !app_assoc. split; [now rewrite <- !app_assoc in *|].
        cbn [eval_inlines]. rewrite eval_wrap. unfold push at 1. cbn [html alt notes]. rewrite E1. cbn [obind]. unfold push; cbn [html alt notes].
        rewrite E. repeat rewrite <- app_assoc. reflexivity.
      * inversion Px as [| |? ? Pt]; subst.
        destruct (eval_plain st d (sizes text) text (le_n _) Pt) as (th & Wt & Et).
        cbn [eval_inlines]. rewrite eval_foot. unfold enter_footnote, prev_footnote_ref_num. cbn [notes].
        destruct (prev_from 0 ds id) as [n|] eqn:EP.
        -- destruct id as [y|]; [|rewrite prev_from_anon in EP; discriminate].
           assert (X : exists t, In (Some y, t) os).
           { apply (numbering_ids _ _ _ N). destruct (prev_from_none 0 ds y) as [_ H].
             assert (D : ~ ~ exists t, In (Some y, t) ds) by (intros C; apply H in C; congruence).
             clear - D. induction ds as [|[p t] ds IHd]; [destruct D; intros [t []]|].
             destruct (same_id p (Some y)) eqn:E.
             - apply same_id_spec in E as [_ ->]. exists t. now left.
             - destruct IHd as [t' H'].
               + intros C. apply D. intros [t' [H'|H']]; [|eauto]. injection H' as -> ->. cbn in E. now rewrite (proj2 (bytes_eqb_eq y y) eq_refl) in E.
               + exists t'. now right. }
           destruct X as [t X]. apply In_nth_error in X as [i Hi].
           assert (L : i < length ns) by (rewrite <- (numbering_len _ _ _ N); apply nth_error_Some; congruence).
           apply nth_error_Some in L. destruct (nth_error ns i) as [[n' own]|] eqn:Hn; [|congruence].
           pose proof (numbering_prev _ _ _ N _ _ _ _ _ Hi Hn) as Q. assert (n' = n) by congruence. subst n'.
           pose proof (N_again os ns ds y th i t n own N Hi Hn) as N1.
           destruct (IH l Hl Pl _ _ _ N1 (h0 ++ ref_again st n)) as (os' & rs' & ds' & h & W & N' & E).
           exists ((Some y, th) :: os'), ((n, false) :: rs'), ds', (ref_again st n ++ h).
           split; [apply (W_foot st (Some y) text th (n, false)); auto|].
           rewrite <- !app_assoc in N'. cbn [app] in N'. split; [exact N'|].
           unfold push at 1, start_buffering; cbn [html alt notes]. cbn [obind swap_buffers html alt notes].
           rewrite Et. cbn [obind]. unfold exit_footnote, prev_footnote_ref_num, push, swap_buffers; cbn [html alt notes]. rewrite EP. cbn.
           rewrite E. now rewrite app_assoc.
        -- assert (F : id = None \/ ~ exists t', In (id, t') os).
           { destruct id as [y|]; auto. right. rewrite (numbering_ids _ _ _ N). now apply prev_from_none in EP. }
           pose proof (N_first os ns ds id th N F) as N1.
           destruct (IH l Hl Pl _ _ _ N1 (h0 ++ ref_first st id (length ds + 1))) as (os' & rs' & ds' & h & W & N' & E).
           exists ((id, th) :: os'), ((length ds + 1, true) :: rs'), ds', (ref_first st id (length ds + 1) ++ h).
           split; [apply (W_foot st id text th (length ds + 1, true)); auto|].
           rewrite <- !app_assoc in N'. cbn [app] in N'. split; [exact N'|].
           unfold start_buffering; cbn [html alt notes]. cbn [obind swap_buffers html alt notes].
           rewrite Et. cbn [obind]. unfold exit_footnote, prev_footnote_ref_num, push, swap_buffers; cbn [html alt notes]. rewrite EP.
           cbn [swap_take_buffer html alt notes app]. cbn [app] in E. rewrite E. now rewrite app_assoc.
Qed.

Lemma eval_block_step st d op t mid bd cl :
  match t with Some tl => Forall plain tl | None => True end ->
  exists th, (match t with Some tl => exists x, written st tl [] [] x /\ th = title_open st ++ x ++ title_close st | None => th = [] end) /\
    forall h0 ds, eval_block st d (Block op t mid bd cl) (State h0 [] ds) =
      obind (eval_inlines st d bd (State (h0 ++ op ++ th ++ mid) [] ds)) (fun s4 => Ret (push cl s4)).
Proof.
  intros Ft. destruct t as [tl|].
  - destruct (eval_plain st d (sizes tl) tl (le_n _) Ft) as (x & W & E). exists (title_open st ++ x ++ title_close st). split; eauto.
    intros h0 ds. unfold eval_block, start_buffering. cbn [title body opening middle closing alt obind]. rewrite E. cbn [obind].
    unfold push, swap_buffers, take_buffer; cbn [html alt notes app]. f_equal. f_equal. f_equal. now rewrite <- !app_assoc.
  - exists []. split; auto. intros h0 ds. unfold eval_block. cbn [title body opening middle closing alt obind]. unfold push; cbn [html alt notes app].
    now rewrite <- !app_assoc.
Qed.

Lemma eval_blocks_flat st d : forall l, Forall flat_block l -> forall os ns ds, numbering os ns ds -> forall h0,
  exists os' rs' ds' h, written_blocks st l os' rs' h /\ numbering (os ++ os') (ns ++ rs') ds' /\
    eval_blocks st d l (State h0 [] ds) = Ret (State (h0 ++ h) [] ds').
Proof.
  induction 1 as [|[op t mid bd cl] l [Ft Fb] Fl IH]; intros os ns ds N h0; cbn [title body] in *.
  - exists [], [], ds, []. rewrite !app_nil_r. split; [constructor|]. auto.
  - cbn [eval_blocks]. destruct (eval_block_step st d op t mid bd cl Ft) as (th & HT & ET). rewrite ET.
    destruct (eval_flat st d (sizes bd) bd (le_n _) Fb _ _ _ N (h0 ++ op ++ th ++ mid)) as (os1 & rs1 & ds1 & h1 & W1 & N1 & E1).
    rewrite E1. cbn [obind]. unfold push; cbn [html alt notes].
    destruct (IH _ _ _ N1 (((h0 ++ op ++ th ++ mid) ++ h1) ++ cl)) as (os' & rs' & ds' & h & W & N' & E).
    exists (os1 ++ os'), (rs1 ++ rs'), ds', (op ++ th ++ mid ++ h1 ++ cl ++ h).
    split; [econstructor; eauto|]. split; [now rewrite <- !app_assoc in *|].
    rewrite E. repeat rewrite <- app_assoc. reflexivity.
Qed.

Lemma entries_spec st ds : forall i, entries st i ds = concat (map (fun p => entry st (fst p) (snd (snd p))) (combine (seq (S i) (length ds)) ds)).
Proof. induction ds as [|[id t] ds IH]; intro i; cbn; auto. rewrite IH. now rewrite Nat.add_1_r. Qed.

Lemma convert_flat st d l : Forall flat_block l ->
  exists os rs ds h, written_blocks st l os rs h /\ numbering os rs ds /\ convert st d l = Ret (h ++ listed st ds).
Proof.
  intros F. destruct (eval_blocks_flat st d l F [] [] [] N_nil []) as (os & rs & ds & h & W & N & E).
  exists os, rs, ds, h. split; auto. split; auto. unfold convert. rewrite E. cbn [obind app].
  unfold render_footnotes, listed; cbn [notes]. destruct ds as [|o ds].
  - cbn. now rewrite app_nil_r.
  - unfold push; cbn [html]. now rewrite entries_spec.
Qed.

(** consequences of the numbering *)
Lemma numbering_range os ns ds : numbering os ns ds -> forall n own, In (n, own) ns -> 1 <= n <= length ds.
Proof.
  induction 1 as [|os ns ds id t N IH F|os ns ds x t i t' n own N IH Hi Hn]; intros m ow H; [destruct H| |].
  - rewrite app_length; cbn. apply in_app_or in H as [H|[H|[]]].
    + specialize (IH _ _ H). lia.
    + injection H as <- <-. lia.
  - apply in_app_or in H as [H|[H|[]]]; eauto. injection H as <- <-. eapply IH. eapply nth_error_In; eauto.
Qed.
Lemma numbering_own os ns ds : numbering os ns ds -> map fst (filter snd ns) = seq 1 (length ds).
Proof.
  induction 1 as [|os ns ds id t N IH F|os ns ds x t i t' n own N IH Hi Hn]; auto.
  - rewrite filter_app, map_app, IH. cbn [filter snd map fst]. rewrite app_length; cbn [length].
    replace (length ds + 1) with (S (length ds)) by lia. now rewrite seq_S.
  - rewrite filter_app, map_app, IH. cbn. now rewrite app_nil_r.
Qed.

Lemma written_flat st l os rs h : written st l os rs h -> Forall flat l.
Proof.
  induction 1; constructor; auto; constructor; auto.
  clear IHwritten1 IHwritten2 H0. remember [] as e1 in H at 1. remember [] as e2 in H at 1. revert Heqe1 Heqe2.
  induction H; intros E1 E2; try discriminate; constructor; auto; try (constructor; auto).
  - apply app_eq_nil in E1 as []. apply app_eq_nil in E2 as []. auto.
  - apply app_eq_nil in E1 as []. apply app_eq_nil in E2 as []. auto.
Qed.
