(** The inline parser ends: lemmas for InlineTermProps.v. *)
From Verif Require Import Base InlineModel InlineTermSpec.

(** ** Tokens taken from tokens *)
Inductive sub : list tok -> list tok -> Prop :=
| sub_nil l : sub [] l
| sub_take t a b : sub a b -> sub (t :: a) (t :: b)
| sub_drop t a b : sub a b -> sub a (t :: b).
Lemma sub_refl l : sub l l.
Proof. induction l; constructor; assumption. Qed.
Lemma sub_trans a b c : sub a b -> sub b c -> sub a c.
Proof.
  intros X Y. revert a X. induction Y as [l|t b c Y IH|t b c Y IH]; intros a X; [inversion X; constructor| |constructor; auto].
  inversion X; subst; constructor; auto.
Qed.
Lemma sub_app_l a b : sub a (a ++ b).
Proof. induction a; constructor; assumption. Qed.
Lemma sub_app_r a b : sub b (a ++ b).
Proof. induction a; [apply sub_refl|constructor; assumption]. Qed.
Lemma sub_skipn n l : sub (skipn n l) l.
Proof. rewrite <- (firstn_skipn n l) at 2. apply sub_app_r. Qed.
Lemma sub_firstn n l : sub (firstn n l) l.
Proof. rewrite <- (firstn_skipn n l) at 2. apply sub_app_l. Qed.
Lemma sub_tl l : sub (tl l) l.
Proof. destruct l; [constructor|apply sub_drop, sub_refl]. Qed.
Lemma sub_removelast l : sub (removelast l) l.
Proof. induction l as [|t [|u l] IH]; [constructor|constructor|]. cbn [removelast] in *. constructor. exact IH. Qed.
Lemma sub_filter f l : sub (filter f l) l.
Proof. induction l as [|t l IH]; cbn; [constructor|]. destruct (f t); constructor; exact IH. Qed.
Lemma sub_app a b c d : sub a b -> sub c d -> sub (a ++ c) (b ++ d).
Proof. intros X Y. induction X; cbn; [|constructor; assumption..]. eapply sub_trans; [exact Y|apply sub_app_r]. Qed.
Lemma sub_rev a b : sub a b -> sub (rev a) (rev b).
Proof.
  induction 1; cbn; [constructor|apply sub_app; [assumption|apply sub_refl]|]. eapply sub_trans; [eassumption|apply sub_app_l].
Qed.
Lemma sub_trim_front l : sub (trim_front l) l.
Proof. induction l as [|t l IH]; cbn; [constructor|]. destruct (is_k Whitespace t); [constructor; exact IH|apply sub_refl]. Qed.
Lemma sub_trim_back l : sub (rev (trim_front (rev l))) l.
Proof. rewrite <- (rev_involutive l) at 2. apply sub_rev, sub_trim_front. Qed.
Lemma sub_trim l : sub (trim l) l.
Proof. eapply sub_trans; [apply sub_trim_back|apply sub_trim_front]. Qed.
Lemma sub_unquote l : sub (unquote l) l.
Proof. unfold unquote. destruct (_ && _); [|apply sub_refl]. eapply sub_trans; [apply sub_removelast|apply sub_tl]. Qed.
Lemma weight_cons t l : weight (t :: l) = S (length (tx t)) + weight l.
Proof. reflexivity. Qed.
Lemma weight_app a b : weight (a ++ b) = weight a + weight b.
Proof. unfold weight. now rewrite map_app, list_sum_app. Qed.
Lemma sub_weight a b : sub a b -> weight a <= weight b.
Proof. induction 1; rewrite ?weight_cons; [cbn; lia|lia..]. Qed.

(** ** Attribute lists *)
Lemma key_rest_sub l x m : key_rest l = Ret (x, m) -> sub m l.
Proof.
  revert x m. induction l as [|t l IH]; cbn; intros x m E; [discriminate|]. destruct (is_k EqualSigns t); [injection E as <- <-; apply sub_drop, sub_refl|].
  destruct (key_rest l) as [[y n]|]; [|discriminate]. injection E as <- <-. apply sub_drop. eauto.
Qed.
Lemma key_value_sub l ir : key_value l = Ret ir -> match ir with INamed _ ts => sub ts l | IPositional ts _ => False | _ => True end.
Proof.
  unfold key_value. destruct l as [|t l]; [discriminate|]. destruct (key_rest l) as [[x m]|] eqn:K; [|discriminate]. intros E. injection E as <-.
  apply key_rest_sub in K. cbv zeta. destruct (_ || _); [exact I|]. destruct (bytes_eqb _ _); [exact I|]. destruct (bytes_eqb _ _); [exact I|].
  apply sub_drop. eapply sub_trans; [apply sub_unquote|]. eapply sub_trans; [|exact K]. destruct (at_k _ _); [apply sub_tl|apply sub_refl].
Qed.
Lemma before_symbol_sub l x m : before_symbol l = Ret (x, m) -> sub x l /\ sub m l.
Proof.
  revert x m. induction l as [|t l IH]; cbn [before_symbol]; intros x m E; [discriminate|]. destruct (one_of _ t); [injection E as <- <-; split; [constructor|apply sub_refl]|].
  destruct (before_symbol l) as [[y n]|]; [|discriminate]. injection E as <- <-. destruct (IH _ _ eq_refl). split; [|now apply sub_drop].
  destruct (is_k AttrRef t); constructor; assumption.
Qed.
Lemma values_positional v a : values_of (push_positional v a) = flat_map (fun o => match o with Some v => [v] | None => [] end) (positional a) ++ match v with Some v => [v] | None => [] end ++ map snd (named a).
Proof. unfold values_of. cbn. rewrite flat_map_app, <- app_assoc. cbn. destruct v; reflexivity. Qed.
Lemma shorthands_values f l a a' : shorthands f l a = Ret a' -> values_of a' = values_of a.
Proof.
  revert l a. induction f as [|f IH]; [discriminate|]. intros [|t [|u l]] a E; [now injection E as <-|now injection E as <-|].
  cbn [shorthands] in E. destruct (until_one_of stop (u :: l)) as [x m].
  destruct (is_k Dots t && len_is 1 t); [apply IH in E; exact E|]. destruct (is_k Hash t).
  { destruct (aid a); [now injection E as <-|apply IH in E; exact E]. }
  destruct (is_k Percent t); [apply IH in E; exact E|discriminate].
Qed.
Lemma parse_attr_values f fm sh : forall l a a', parse_attr f fm sh l a = Ret a' -> forall v, In v (values_of a') -> In v (values_of a) \/ sub v l.
Proof.
  revert sh. induction f as [|f IH]; [discriminate|]. intros sh l a a' E v Hv. cbn [parse_attr] in E. pose proof (sub_trim l) as T. destruct (trim l) as [|t0 l0].
  { injection E as <-. rewrite values_positional in Hv. left. unfold values_of. cbn in Hv. exact Hv. }
  assert (P : forall ts, sub ts l -> In v (values_of (push_positional (Some ts) a)) -> In v (values_of a) \/ sub v l).
  { intros ts S H. rewrite values_positional in H. apply in_app_iff in H. cbn in H. unfold values_of. rewrite in_app_iff. destruct H as [H|[<-|H]]; auto. }
  destruct (item_ir sh (t0 :: l0)) as [ir|] eqn:I; [|discriminate].
  assert (Q : match ir with INamed _ ts | IPositional ts _ => sub ts (t0 :: l0) | _ => True end).
  { unfold item_ir in I. destruct (decide _ _ _ _ _) as [[[| |]|] saw]; try (injection I as <-; cbn; try exact Logic.I; apply sub_unquote).
    apply key_value_sub in I. destruct ir; tauto. }
  destruct ir as [ts ws|k ts|gs|gs|ts|ts].
  - assert (S : sub ts l) by (eapply sub_trans; eassumption).
    destruct fm.
    + destruct (roles a), ts; try discriminate E; injection E as <-; left; exact Hv.
    + destruct (ws && sh); [|injection E as <-; eauto].
      destruct (before_symbol ts) as [[p m]|] eqn:B; [|discriminate]. apply before_symbol_sub in B. destruct B as [B1 B2].
      destruct p as [|p0 p]; [injection E as <-; left; exact Hv|]. destruct (IH true _ _ _ E v Hv) as [H|H].
      * apply (P (p0 :: p)); [eapply sub_trans; eassumption|exact H].
      * right. eapply sub_trans; [exact H|]. eapply sub_trans; eassumption.
  - assert (S : sub ts l) by (eapply sub_trans; eassumption).
    destruct fm; injection E as <-; [left; exact Hv|]. unfold values_of in *. cbn in Hv. rewrite flat_map_app, map_app in Hv. cbn in Hv.
    rewrite app_nil_r, !in_app_iff in Hv. rewrite in_app_iff. cbn in Hv. destruct Hv as [H|[H|[<-|[]]]]; auto.
  - destruct fm; [destruct gs; [discriminate|]|]; injection E as <-; left; exact Hv.
  - destruct fm; [destruct gs; [discriminate|]|]; injection E as <-; left; exact Hv.
  - apply shorthands_values in E. rewrite E in Hv. now left.
  - destruct fm; destruct ts; try discriminate E; [injection E as <-; left; exact Hv..|]. destruct (aid a); injection E as <-; left; exact Hv.
Qed.
Lemma parse_items_values fm sh : forall items a a', parse_items fm sh items a = Ret a' -> forall v, In v (values_of a') -> In v (values_of a) \/ exists i, In i items /\ sub v i.
Proof.
  assert (One : forall i a a', parse_item fm sh i a = Ret a' -> forall v, In v (values_of a') -> In v (values_of a) \/ sub v i).
  { intros i a a' E v Hv. unfold parse_item in E. destruct (parse_attr_values _ _ _ _ _ _ E v Hv) as [H|H]; [now left|right]. eapply sub_trans; [exact H|apply sub_filter]. }
  induction items as [|i [|j items] IH]; intros a a' E v Hv.
  - injection E as <-. now left.
  - cbn in E. destruct (_ || _); [|injection E as <-; now left]. destruct (One _ _ _ E v Hv) as [H|H]; [now left|right]. exists i. cbn. auto.
  - change (match parse_item fm sh i a with Ret a => parse_items fm sh (j :: items) a | Panic => Panic end = Ret a') in E.
    destruct (parse_item fm sh i a) as [a1|] eqn:E1; [|discriminate]. destruct (IH _ _ E v Hv) as [H|(x & H & S)]; [|right; exists x; cbn in *; auto].
    destruct (One _ _ _ E1 v H) as [H'|H']; [now left|right; exists i; cbn; auto].
Qed.
Lemma take_items_sub ds : forall l items rest, take_items ds l = Ret (items, rest) -> (forall i, In i items -> sub i l) /\ sub rest l.
Proof.
  induction ds as [|d ds IH]; intros l items rest E; cbn in E.
  - injection E as <- <-. split; [intros i []|apply sub_refl].
  - pose proof (sub_skipn d l) as S. destruct (skipn d l) as [|t m]; [discriminate|]. destruct (is_k Comma t); [|discriminate].
    destruct (take_items ds m) as [[is r]|] eqn:E'; [|discriminate]. injection E as <- <-. destruct (IH _ _ _ E') as [A B].
    assert (Sm : sub m l) by (eapply sub_trans; [apply sub_drop, sub_refl|exact S]). split; [|eapply sub_trans; eassumption].
    intros i [<-|H]; [apply sub_firstn|]. eapply sub_trans; eauto.
Qed.
Lemma take_open_sub l : forall i rest, take_open l = Ret (i, rest) -> sub i l /\ sub rest l.
Proof.
  induction l as [|t l IH]; intros i rest E; cbn in E; [discriminate|]. destruct (_ && _).
  - injection E as <- <-. split; [constructor; constructor|apply sub_drop, sub_refl].
  - destruct (take_open l) as [[x m]|]; [|discriminate]. injection E as <- <-. destruct (IH _ _ eq_refl). split; constructor; assumption.
Qed.
Lemma split_items_sub full l items rest : split_items full l = Ret (items, rest) -> (forall i, In i items -> sub i l) /\ sub rest l.
Proof.
  unfold split_items. destruct (take_items _ l) as [[is m]|] eqn:E; [|discriminate]. apply take_items_sub in E. destruct E as [A B].
  unfold take_last. destruct m as [|t m]; [discriminate|]. 
  assert (F : forall i r, sub i (t :: m) -> sub r (t :: m) -> Ret (is ++ [i], r) = Ret (items, rest) -> (forall i, In i items -> sub i l) /\ sub rest l).
  { intros i r S1 S2 E. injection E as <- <-. split; [|eapply sub_trans; eassumption]. intros x H. apply in_app_iff in H. destruct H as [H|[<-|[]]]; [auto|]. eapply sub_trans; eassumption. }
  destruct full; [apply F; [apply sub_removelast|apply sub_skipn]|]. destruct (current_is _ _); [apply F; [constructor|apply sub_refl]|].
  destruct (take_open (t :: m)) as [[i r]|] eqn:E; [|discriminate]. apply take_open_sub in E. apply F; tauto.
Qed.
Lemma parse_attr_list_sub full fm sh l a m : parse_attr_list full fm sh l = Ret (a, m) -> (forall v, In v (values_of a) -> sub v l) /\ sub m l.
Proof.
  unfold parse_attr_list. destruct l as [|t r]; [discriminate|]. destruct (is_k CloseBracket t).
  - intros E. injection E as <- <-. split; [intros v []|apply sub_drop, sub_refl].
  - destruct (split_items full (t :: r)) as [[items rest]|] eqn:S; [|discriminate]. apply split_items_sub in S. destruct S as [A B].
    destruct (parse_items fm sh items no_attrs) as [a'|] eqn:P; [|discriminate]. destruct rest as [|c rest]; [discriminate|].
    destruct (is_k CloseBracket c); [|discriminate]. intros E. injection E as <- <-. split.
    + intros v H. destruct (parse_items_values _ _ _ _ _ P v H) as [[]|(i & Hi & Si)]. eapply sub_trans; eauto.
    + eapply sub_trans; [|exact B]. apply sub_drop, sub_refl.
Qed.
Lemma until_close_sub l : forall x m, until_close l = Ret (x, m) -> sub x l /\ sub m l.
Proof.
  induction l as [|t l IH]; intros x m E; cbn in E; [discriminate|]. destruct (is_k _ t); [injection E as <- <-; split; [constructor|apply sub_refl]|].
  destruct (until_close l) as [[y n]|]; [|discriminate]. injection E as <- <-. destruct (IH _ _ eq_refl). split; constructor; assumption.
Qed.
Lemma until_one_of_sub q l : sub (snd (until_one_of q l)) l.
Proof. induction l as [|t l IH]; cbn; [constructor|]. destruct (existsb _ _); [apply sub_refl|]. destruct (until_one_of q l). apply sub_drop. exact IH. Qed.
Lemma parse_anchor_sub l o m : parse_anchor false l = Ret (o, m) -> sub m l /\ match o with Some (_, ref) => sub ref l | None => True end.
Proof.
  unfold parse_anchor. destruct l as [|c l0]; [discriminate|]. destruct (one_of _ c); [intros E; injection E as <- <-; split; [apply sub_refl|exact I]|].
  pose proof (until_one_of_sub [Kind Comma; Kind CloseBracket] (c :: l0)) as U. destruct (until_one_of _ (c :: l0)) as [id r]. cbn [snd] in U.
  destruct id as [|b id]; [discriminate|]. destruct r as [|t r]; [discriminate|].
  assert (U' : sub r (c :: l0)) by (eapply sub_trans; [apply sub_drop, sub_refl|exact U]).
  destruct (is_k CloseBracket t); [intros E; injection E as <- <-; split; [eapply sub_trans; [apply sub_tl|exact U']|constructor]|].
  cbv zeta. set (r' := match r with [] => r | _ => _ end). assert (R : sub r' (c :: l0)).
  { eapply sub_trans; [|exact U']. subst r'. destruct r as [|w r]; [constructor|]. destruct (is_k Whitespace w); [apply sub_drop, sub_refl|apply sub_refl]. }
  destruct (until_close r') as [[ref [|x [|y n]]]|] eqn:E; try discriminate. destruct (is_k CloseBracket y); [|discriminate]. intros H. injection H as <- <-.
  apply until_close_sub in E. destruct E as [A B]. split; [|eapply sub_trans; eassumption]. eapply sub_trans; [|exact R]. eapply sub_trans; [|exact B]. do 2 apply sub_drop. apply sub_refl.
Qed.

(** ** The measure *)
Definition flagged (l : iline) : nat := Nat.b2n (passm l || (0 <? pluses l)).
Definition lm (l : iline) : nat := 4 * weight (toks l) + 2 * flagged l + 3.
Fixpoint LM (ls : list iline) : nat := match ls with l :: r => lm l + LM r | [] => 0 end.
Definition M (cur : option iline) (ls : list iline) : nat := match cur with Some l => 4 * weight (toks l) + 2 * flagged l + 2 + LM ls | None => LM ls end.
Inductive dec (n : nat) : act -> Prop :=
| dec_crash : dec n Crash
| dec_fin s ns ls : LM ls <= n -> dec n (Fin s ns ls)
| dec_go s a ia cur ls : M cur ls < n -> dec n (Go s a ia cur ls)
| dec_call s q ls k : LM ls < n -> (forall ns s' ls', LM ls' <= LM ls -> dec n (k ns s' ls')) -> dec n (Call s q ls k).
Lemma flagged_le l : flagged l <= 1.
Proof. unfold flagged. destruct (_ || _); cbn; lia. Qed.
Lemma flagged_adv l r : flagged (adv l r) = flagged l.
Proof. reflexivity. Qed.
Lemma LM_app a b : LM (a ++ b) = LM a + LM b.
Proof. induction a; cbn; lia. Qed.
Lemma LM_restore l ls : LM (restore l ls) <= lm l + LM ls.
Proof. unfold restore. destruct (toks l); cbn; lia. Qed.
Lemma LM_restore0 l ls : LM (restore l ls) <= (match toks l with [] => 0 | _ => lm l end) + LM ls.
Proof. unfold restore. destruct (toks l); cbn; lia. Qed.
Lemma dec_try {A} n (o : outcome A) k : (forall x, o = Ret x -> dec n (k x)) -> dec n (try o k).
Proof. destruct o; cbn; [auto|constructor]. Qed.
Lemma size_cons l ls : size (l :: ls) = weight (toks l) + size ls.
Proof. reflexivity. Qed.
Lemma total_cons l ls : total (l :: ls) = length (toks l) + total ls.
Proof. reflexivity. Qed.
Lemma size_LM ls : 4 * size ls <= LM ls.
Proof. induction ls as [|l ls IH]; [cbn; lia|]. rewrite size_cons. cbn [LM]. unfold lm. lia. Qed.
Lemma size_restore l ls : size (restore l ls) = weight (toks l) + size ls.
Proof. unfold restore. destruct (toks l) eqn:E; [reflexivity|]. unfold size. cbn. now rewrite E. Qed.
Lemma LM_new l : LM [new_line l] = 4 * weight l + 3.
Proof. cbn [LM]. unfold lm, flagged. cbn [passm pluses new_line toks orb Nat.ltb Nat.leb Nat.b2n]. lia. Qed.

(** ** Values *)
Lemma dec_value n s ts k : 4 * weight ts + 3 < n -> (forall ns s, dec n (k ns s)) -> dec n (call_value s ts k).
Proof.
  intros H K. unfold call_value. destruct ts as [|t [|u ts]]; [apply K| |]; [destruct (is_k Word t); [apply K|]|]; (constructor; [rewrite LM_new; exact H|intros; apply K]).
Qed.
Lemma dec_values n vs : forall s k, (forall v, In v vs -> 4 * weight v + 3 < n) -> (forall nss s, dec n (k nss s)) -> dec n (call_values s vs k).
Proof.
  induction vs as [|v vs IH]; intros s k H K; [apply K|]. cbn [call_values]. apply dec_value; [apply H; now left|]. intros ns s'. apply IH; [|intros; apply K].
  intros x X. apply H. now right.
Qed.
Lemma dec_with_attrs n s r k : 4 * weight r + 3 < n -> (forall al a s m, weight m <= weight r -> dec n (k al a s m)) -> dec n (with_attrs s r k).
Proof.
  intros H K. unfold with_attrs. apply dec_try. intros [a m] E. apply parse_attr_list_sub in E. destruct E as [V S].
  apply dec_values; [|intros; apply K; now apply sub_weight]. intros v X. apply V, sub_weight in X. lia.
Qed.
Lemma dec_link_attrs n E s r k : 4 * weight r + 3 < n -> (forall al b s m, weight m <= weight r -> dec n (k al b s m)) -> dec n (with_link_attrs E s r k).
Proof.
  intros H K. unfold with_link_attrs. destruct r as [|c m]; [constructor|]. destruct (link_scan _ _ _ _ _) as [j|].
  - destruct (is_k CloseBracket c); [apply K; rewrite weight_cons; lia|]. constructor.
    + rewrite LM_new. assert (W : sub (unquote (non_attr (firstn j (c :: m)))) (c :: m)).
      { eapply sub_trans; [apply sub_unquote|]. eapply sub_trans; [apply sub_filter|apply sub_firstn]. }
      apply sub_weight in W. lia.
    + intros ns s' ls' _. pose proof (sub_skipn j (c :: m)) as S. destruct (skipn j (c :: m)) as [|t rest]; [constructor|]. destruct (dbg E && _); [constructor|].
      apply sub_weight in S. rewrite weight_cons in S. destruct (existsb _ _); [destruct (blank_window ns)|]; apply K; lia.
  - apply dec_with_attrs; [exact H|]. intros. now apply K.
Qed.

(** ** Passthroughs *)
Lemma cut_weight n l : weight (firstn n l) + weight (skipn (S n) l) <= weight l.
Proof.
  pose proof (weight_app (firstn n l) (skipn n l)) as A. rewrite firstn_skipn in A.
  assert (S : sub (skipn (S n) l) (skipn n l)) by (clear A; revert l; induction n as [|n IH]; intros [|t l]; [constructor|apply sub_drop, sub_refl|constructor|apply IH]).
  apply sub_weight in S. lia.
Qed.
Lemma take_pass_ok n : forall l ls done pls l' ls', take_pass n l ls done = Ret (pls, l', ls') ->
  LM pls + 4 * weight (toks l') + LM ls' <= LM done + 4 * weight (toks l) + 3 + LM ls /\ length (toks l') + total ls' <= length (toks l) + total ls.
Proof.
  intros l ls. revert n l. induction ls as [|l1 ls IH]; intros n l done pls l' ls' E.
  - cbn [take_pass] in E. destruct (n <=? length (toks l)); [|discriminate]. injection E as <- <- <-. rewrite LM_app, LM_new. cbn [toks adv].
    pose proof (cut_weight n (toks l)). cbn [LM]. pose proof (skipn_length (S n) (toks l)). cbn [skipn] in *. split; lia.
  - cbn [take_pass] in E. destruct (n <=? length (toks l)).
    + injection E as <- <- <-. rewrite LM_app, LM_new. cbn [toks adv].
      pose proof (cut_weight n (toks l)). cbn [LM]. pose proof (skipn_length (S n) (toks l)). cbn [skipn] in *. split; lia.
    + apply IH in E. rewrite total_cons. cbn [LM]. unfold lm at 1.
      destruct (toks l) as [|t ts] eqn:T; [change (weight []) with 0; cbn [length]; lia|]. rewrite LM_app, LM_new in E. cbn [length]. lia.
Qed.

Lemma dec_placeholder n s t count l ls j sb k : LM ls + 4 * weight (toks l) + 3 < n ->
  (forall p s l' ls', length (tx p) = 1 -> 4 + 4 * weight (toks l') + LM ls' <= 4 * weight (toks l) + LM ls -> length (toks l') + total ls' <= length (toks l) + total ls -> dec n (k p s l' ls')) ->
  dec n (pass_placeholder s t count l ls j sb k).
Proof.
  intros H K. unfold pass_placeholder. destruct (j <? count - 1); [constructor|]. apply dec_try. intros [[pls l'] ls'] E. apply take_pass_ok in E. cbn [toks adv LM] in E.
  pose proof (sub_weight _ _ (sub_skipn (count - 1) (toks l))) as S1. pose proof (skipn_length (count - 1) (toks l)) as S2.
  pose proof (sub_weight _ _ (sub_skipn (count - 1) (toks l'))) as S3. pose proof (skipn_length (count - 1) (toks l')) as S4.
  destruct (rev pls) as [|q w] eqn:R; [constructor|]. destruct (toks q) as [|x y] eqn:Q; [constructor|].
  assert (P : 7 <= LM pls).
  { rewrite <- (rev_involutive pls), R. cbn [rev]. rewrite LM_app. cbn [LM]. unfold lm. rewrite Q, weight_cons. lia. }
  constructor; [lia|]. intros ns s' lz _. apply K; cbn [toks adv tx length]; [reflexivity|lia|lia].
Qed.
Lemma dec_replace E n fuel : forall s done prev skip l ls k, length (toks l) + total ls <= fuel -> 4 * weight done + 4 * weight (toks l) + 3 + LM ls < n ->
  (forall s ls', LM ls' < n -> dec n (k s ls')) -> dec n (replace_pass fuel E s done prev skip l ls k).
Proof.
  induction fuel as [|f IH]; intros s done prev skip l ls k F H K.
  - cbn [replace_pass]. destruct (toks l) as [|t r]; [|cbn in F; lia]. apply K. pose proof (LM_restore (new_line done) ls) as R.
    pose proof (LM_new done) as N. cbn [LM] in N. lia.
  - cbn [replace_pass]. destruct (toks l) as [|t r] eqn:T.
    { apply K. pose proof (LM_restore (new_line done) ls) as R. pose proof (LM_new done) as N. cbn [LM] in N. lia. }
    rewrite weight_cons in H. cbn [length] in F.
    assert (Step : forall p sk, dec n (replace_pass f E s (done ++ [t]) p sk (adv l r) ls k)).
    { intros p sk. apply IH; [cbn [toks adv]; lia| |exact K]. rewrite weight_app, weight_cons. cbn [toks adv]. change (weight []) with 0. lia. }
    destruct skip as [|sk]; [|apply Step]. cbv zeta.
    assert (Ph : forall count m j sb sk pv, sub m r -> dec n (pass_placeholder s t count (adv l m) ls j sb (fun p s l ls => replace_pass f E s (done ++ [p]) pv sk l ls k))).
    { intros count m j sb sk pv S. pose proof (sub_weight _ _ S) as Sw. assert (Sl : length m <= length r) by (clear - S; induction S; cbn; lia).
      apply dec_placeholder; [cbn [toks adv]; lia|]. cbn [toks adv]. intros p s' l' ls' P W L. apply IH; [lia| |exact K].
      rewrite weight_app, weight_cons, P. change (weight []) with 0. lia. }
    destruct (is_k MacroName t && _).
    { destruct (pass_macro_end r ls) as [[d j]|]; [|apply Step]. apply dec_try. intros m Dm. apply dec_try. intros sb _. apply Ph.
      eapply sub_trans; [|apply (sub_skipn d)]. unfold discard_assert in Dm. destruct (skipn d r) as [|x y]; [discriminate|]. destruct (is_k OpenBracket x); [|discriminate].
      injection Dm as <-. apply sub_drop, sub_refl. }
    destruct (is_k Plus t && _); [|apply Step]. apply dec_try. intros [j|] _; [|apply Step]. apply Ph. apply sub_refl.
Qed.

(** ** Index terms *)
Lemma consume_LM ls t m : consume_tok ls = Some (t, m) -> LM m + 4 * S (length (tx t)) <= LM ls /\ S (total m) = total ls /\ size m + S (length (tx t)) = size ls.
Proof.
  destruct ls as [|l r]; [discriminate|]. cbn [consume_tok]. destruct (toks l) as [|u v] eqn:T; [discriminate|]. intros E. injection E as <- <-.
  rewrite size_restore, size_cons. cbn [LM toks adv]. rewrite T, weight_cons. unfold lm. rewrite T, weight_cons, total_cons, T.
  split; [|split; [|lia]].
  - unfold restore. cbn [toks adv]. destruct v as [|x y]; [lia|]. cbn [LM]. unfold lm. cbn [toks adv]. rewrite flagged_adv. lia.
  - unfold restore. cbn [toks adv]. destruct v as [|x y]; [reflexivity|]. rewrite total_cons. reflexivity.
Qed.
Lemma skip_blank_LM f : forall ls, LM (skip_blank f ls) <= LM ls.
Proof.
  induction f as [|f IH]; intros ls; cbn [skip_blank]; [lia|]. destruct (whitespaceish _); [|lia]. destruct (consume_tok ls) as [[t m]|] eqn:E; [|lia].
  apply consume_LM in E. specialize (IH m). lia.
Qed.
Lemma skip_ws_le f : forall ls, LM (skip_ws f ls) <= LM ls /\ total (skip_ws f ls) <= total ls /\ size (skip_ws f ls) <= size ls.
Proof.
  induction f as [|f IH]; intros ls; cbn [skip_ws]; [lia|]. destruct (at_k _ _); [|lia]. destruct (consume_tok ls) as [[t m]|] eqn:E; [|lia].
  apply consume_LM in E. specialize (IH m). lia.
Qed.
Lemma add_term_weight cur v : In v (add_term cur) -> weight v <= weight cur.
Proof.
  unfold add_term. intros H. assert (v = trim_back cur) as -> by (destruct (trim_back cur); [destruct H|destruct H as [<-|[]]; reflexivity]).
  apply sub_weight. apply sub_trim_back.
Qed.
Lemma split_csv_ok stop f : forall quoted cur ls, total ls <= f -> exists ts ls', split_csv f stop quoted cur ls = Some (ts, ls') /\ LM ls' <= LM ls /\
  (forall v, In v ts -> weight v + size ls' <= weight cur + size ls) /\ size ls' <= size ls.
Proof.
  induction f as [|f IH]; intros quoted cur ls F; cbn [split_csv]; destruct (consume_tok ls) as [[t m]|] eqn:C.
  - destruct (satisfies stop t); [|apply consume_LM in C; lia]. exists (add_term cur), ls. repeat split; [lia| |lia]. intros v H. apply add_term_weight in H. lia.
  - exists (add_term cur), ls. repeat split; [lia| |lia]. intros v H. apply add_term_weight in H. lia.
  - destruct (satisfies stop t).
    { exists (add_term cur), ls. repeat split; [lia| |lia]. intros v H. apply add_term_weight in H. lia. }
    apply consume_LM in C. destruct C as (C1 & C2 & C3). destruct (is_k Comma t && negb quoted).
    { pose proof (skip_ws_le (total m) m) as (S1 & S2 & S3). destruct (IH quoted [] (skip_ws (total m) m) ltac:(lia)) as (ts & ls' & E & A & B & D). rewrite E.
      exists (add_term cur ++ ts), ls'. change (weight []) with 0 in B. repeat split; [lia| |lia]. intros v H. apply in_app_iff in H. destruct H as [H|H].
      - apply add_term_weight in H. lia.
      - apply B in H. lia. }
    destruct (is_k DoubleQuote t).
    { destruct (IH (negb quoted) cur m ltac:(lia)) as (ts & ls' & E & A & B & D). exists ts, ls'. repeat split; [exact E|lia| |lia]. intros v H. apply B in H. lia. }
    destruct (IH quoted (cur ++ [t]) m ltac:(lia)) as (ts & ls' & E & A & B & D). exists ts, ls'. repeat split; [exact E|lia| |lia].
    intros v H. apply B in H. rewrite weight_app, weight_cons in H. change (weight []) with 0 in H. lia.
  - exists (add_term cur), ls. repeat split; [lia| |lia]. intros v H. apply add_term_weight in H. lia.
Qed.
Lemma dec_terms n ts : forall s k, (forall v, In v ts -> 4 * weight v + 3 < n) -> (forall nss s, dec n (k nss s)) -> dec n (call_terms s ts k).
Proof.
  induction ts as [|v vs IH]; intros s k H K; [apply K|]. cbn [call_terms]. constructor; [rewrite LM_new; apply H; now left|]. intros ns s' _ _. apply IH; [|intros; apply K].
  intros x X. apply H. now right.
Qed.
Lemma dec_visible n s e l ls k : lm l + LM ls < n -> (forall nd s ls', LM ls' < n -> dec n (k nd s ls')) -> dec n (index_visible s e l ls k).
Proof.
  intros H K. unfold index_visible. pose proof (skip_blank_LM (total (restore l ls)) (restore l ls)) as S. pose proof (LM_restore l ls) as R.
  constructor; [lia|]. intros ns s' ls' L. apply K. lia.
Qed.
Lemma dec_concealed n E s e l ls k : lm l + LM ls < n -> (forall nd s ls', LM ls' < n -> dec n (k nd s ls')) -> dec n (index_concealed E s e l ls k).
Proof.
  intros H K. unfold index_concealed. destruct (split_csv_ok (Len (e mod 256) CloseParens) (total (restore l ls)) false [] (restore l ls) (le_n _)) as (ts & ls' & Es & A & B & D).
  rewrite Es. cbv zeta. pose proof (LM_restore l ls) as R. rewrite size_restore in B. change (weight []) with 0 in B. pose proof (size_LM ls) as Z. unfold lm in H, R.
  destruct (consume_tok ls') as [[c m]|] eqn:C; [|constructor]. destruct (dbg E && _); [constructor|]. apply consume_LM in C.
  assert (B' : forall v, In v (firstn 3 ts) -> weight v + size ls' <= 0 + (weight (toks l) + size ls)) by (intros v V; apply B; rewrite <- (firstn_skipn 3 ts); apply in_app_iff; now left).
  apply dec_terms; [|intros; apply K; lia]. destruct (3 <? length (tx c)).
  - unfold add_last. destruct (rev (firstn 3 ts)) as [|x w] eqn:Rv; [intros v []|]. intros v V. apply in_app_iff in V. destruct V as [V|[<-|[]]].
    + assert (X : In v (firstn 3 ts)) by (apply in_rev; rewrite Rv; right; now apply in_rev). apply B' in X. lia.
    + assert (X : In x (firstn 3 ts)) by (apply in_rev; rewrite Rv; now left). apply B' in X. rewrite weight_app, weight_cons. cbn [cut tx]. rewrite firstn_length. change (weight []) with 0. lia.
  - intros v V. apply B' in V. lia.
Qed.
Lemma dec_shorthand n E s j e t l ls a k : 2 <= j -> 4 * S j + 4 * weight (toks l) + 2 * flagged l + 2 + LM ls <= n -> (forall a nd s ls', LM ls' < n -> dec n (k a nd s ls')) ->
  dec n (index_shorthand E s j e t l ls a k).
Proof.
  intros J H K. unfold index_shorthand. destruct (j =? 2) eqn:J2; [apply dec_visible; [unfold lm; lia|intros; now apply K]|]. apply Nat.eqb_neq in J2.
  destruct (e =? 2); [apply dec_visible; [unfold lm; lia|intros; now apply K]|].
  destruct ((j =? 3) && (e =? 3)); [apply dec_concealed; [unfold lm; lia|intros; now apply K]|].
  apply dec_concealed; [|intros; now apply K]. destruct (_ || _); unfold lm; [|lia]. rewrite flagged_adv. cbn [toks adv]. rewrite weight_cons. cbn [cut tx]. rewrite firstn_length. lia.
Qed.

(** ** Macros *)
Lemma string_until_sub k l : sub (snd (string_until k l)) l.
Proof. induction l as [|t l IH]; cbn [string_until]; [constructor|]. destruct (is_k k t); [apply sub_refl|]. destruct (string_until k l). apply sub_drop. exact IH. Qed.
Lemma consume_until_sub k l x m : consume_until k l = Ret (x, m) -> sub m l.
Proof.
  unfold consume_until. destruct l as [|t l]; [discriminate|]. intros E. pose proof (string_until_sub k (t :: l)) as S.
  destruct (string_until k (t :: l)) as [y w]. injection E as <- <-. exact S.
Qed.
Lemma discard_sub k l m : discard_assert k l = Ret m -> sub m l.
Proof. unfold discard_assert. destruct l as [|t l]; [discriminate|]. destruct (is_k k t); [|discriminate]. intros E. injection E as <-. apply sub_drop, sub_refl. Qed.
Lemma macro_target_sub l x m : macro_target l = Ret (x, m) -> sub m l.
Proof.
  unfold macro_target. destruct (consume_until OpenBracket l) as [[y n]|] eqn:C; [|discriminate]. destruct (discard_assert OpenBracket n) eqn:D; [|discriminate].
  intros E. injection E as <- <-. eapply sub_trans; [apply discard_sub in D; exact D|apply consume_until_sub in C; exact C].
Qed.
Lemma optional_target_sub l x m : optional_target l = Ret (x, m) -> sub m l.
Proof.
  unfold optional_target. destruct (current_is OpenBracket l); [intros E; injection E as <- <-; apply sub_tl|]. destruct (macro_target l) as [[y n]|] eqn:C; [|discriminate].
  intros E. injection E as <- <-. apply macro_target_sub in C. exact C.
Qed.
Lemma kbd_keys_sub l : forall last, sub (snd (kbd_keys last l)) l.
Proof.
  induction l as [|t l IH]; intros last; cbn [kbd_keys]; [constructor|]. destruct (_ || _); [apply sub_drop, IH|]. destruct (_ && _); [apply sub_refl|].
  specialize (IH (Some (tk t))). destruct (kbd_keys _ l). apply sub_drop. exact IH.
Qed.
(** a number big enough for the line [l] after a token, and the lines after it *)
Definition room (n : nat) (l : iline) (ls : list iline) : Prop := 4 * weight (toks l) + 2 * flagged l + 6 + LM ls <= n.
Ltac go_on := constructor; cbn [M LM toks adv]; rewrite ?flagged_adv; unfold room in *; lia.
Lemma go_sub n s a ia l m ls : room n l ls -> sub m (toks l) -> dec n (Go s a ia (Some (adv l m)) ls).
Proof. intros R S. apply sub_weight in S. go_on. Qed.
Lemma go_le n s a ia l m ls : room n l ls -> weight m <= weight (toks l) -> dec n (Go s a ia (Some (adv l m)) ls).
Proof. intros R S. go_on. Qed.
Lemma go_same n s a ia l ls : room n l ls -> dec n (Go s a ia (Some l) ls).
Proof. intros R. go_on. Qed.
Lemma restore_room n l m ls : room n l ls -> weight m <= weight (toks l) -> LM (restore (adv l m) ls) < n.
Proof. intros R S. pose proof (LM_restore (adv l m) ls) as L. unfold lm in L. cbn [toks adv] in L. rewrite flagged_adv in L. unfold room in R. lia. Qed.
Lemma dec_index_macro n s v t r k : 4 * weight r + 3 < n -> (forall nd s m, weight m <= weight r -> dec n (k nd s m)) -> dec n (index_macro s v t r k).
Proof.
  intros H K. unfold index_macro. apply dec_try. intros m E. apply discard_sub, sub_weight in E. apply dec_with_attrs; [lia|]. intros al a s' m' L. destruct (positional0 a); apply K; lia.
Qed.
Lemma dec_macro n E s a0 ia t l ls : room n l ls -> dec n (inline_macro E s a0 ia t l ls).
Proof.
  intros R. unfold inline_macro. cbv zeta.
  assert (A : forall (nm : bytes -> alist -> inode) tg m, sub m (toks l) -> dec n (with_attrs s m (fun al _ s m => Go s (push_node (nm tg al) (commit a0)) ia (Some (adv l m)) ls))).
  { intros nm tg m S. apply sub_weight in S. apply dec_with_attrs; [unfold room in R; lia|]. intros al a s' m' L. apply go_le; [exact R|lia]. }
  assert (L : forall s m k, sub m (toks l) -> dec n (with_link_attrs E s m (fun al c s m => Go s (push_node (k al c) (commit a0)) ia (Some (adv l m)) ls))).
  { intros s0 m k S. apply sub_weight in S. apply dec_link_attrs; [unfold room in R; lia|]. intros al b s' m' L. apply go_le; [exact R|lia]. }
  destruct (_ || _).
  { apply dec_try. intros [x m] T. apply macro_target_sub in T. exact (A (NMacro (tx t)) x m T). }
  destruct (_ && _).
  { pose proof (kbd_keys_sub (tl (toks l)) None) as K. destruct (kbd_keys None (tl (toks l))) as [x m]. cbn [snd] in K. apply dec_try. intros m' D. apply discard_sub in D.
    apply go_sub; [exact R|]. eapply sub_trans; [exact D|]. eapply sub_trans; [exact K|apply sub_tl]. }
  destruct (bytes_eqb _ _).
  { apply dec_try. intros [id m] T. apply optional_target_sub, sub_weight in T. constructor; [now apply restore_room|]. intros ns s' ls' Ls.
    pose proof (restore_room n l m ls R T) as Rr.
    destruct (aps_of s') as [sb|].
    - destruct (consume_tok ls') as [[c ls2]|] eqn:C; [|constructor]. destruct (is_k CloseBracket c); [|constructor]. apply consume_LM in C. constructor. cbn [M]. lia.
    - constructor. cbn [M]. lia. }
  destruct (bytes_eqb _ _).
  { apply dec_try. intros [x m] T. apply macro_target_sub, sub_weight in T. pose proof (restore_room n l m ls R T) as Rr. constructor; [exact Rr|]. intros ns s' ls' Ls. constructor. cbn [M]. lia. }
  destruct (bytes_eqb _ _).
  { destruct (negb _).
    { destruct (toks l) as [|u m] eqn:T; [constructor|]. apply go_sub; [exact R|]. rewrite T. apply sub_drop, sub_refl. }
    assert (D : dec n (try (macro_target (toks l)) (fun '(x, m) => with_link_attrs E s m (fun al c s m => Go s (push_node (NLink None x (Some al) c) (commit a0)) ia (Some (adv l m)) ls)))).
    { apply dec_try. intros [x m] T. apply macro_target_sub in T. exact (L s m (fun al c => NLink None x (Some al) c) T). }
    destruct (toks l) as [|p [|u m]] eqn:T; try exact D. destruct (starts_with_seq _ _); [|exact D]. destruct (take_passthru s p) as [[ns s']|]; [|constructor].
    apply (L s' m (fun al c => NLinkPass ns al c)). do 2 apply sub_drop. apply sub_refl. }
  destruct (bytes_eqb _ _).
  { apply dec_try. intros r D. apply discard_sub in D. apply dec_try. intros [x m] C. apply consume_until_sub in C. apply dec_try. intros m' D'. apply discard_sub in D'.
    apply go_sub; [exact R|]. eapply sub_trans; [exact D'|]. eapply sub_trans; eassumption. }
  destruct (bytes_eqb _ _).
  { apply dec_try. intros [x m] T. apply macro_target_sub in T. apply dec_try. intros [y m1] C. apply consume_until_sub in C. apply dec_try. intros m' D'. apply discard_sub in D'.
    apply go_sub; [exact R|]. eapply sub_trans; [exact D'|]. eapply sub_trans; eassumption. }
  destruct (bytes_eqb _ _).
  { apply dec_try. intros [x m] T. apply macro_target_sub in T. exact (A (fun x al => NAnchorMacro x al) x m T). }
  destruct (bytes_eqb _ _); [apply dec_index_macro; [unfold room in R; lia|intros; now apply go_le]|].
  destruct (bytes_eqb _ _); [apply dec_index_macro; [unfold room in R; lia|intros; now apply go_le]|].
  apply dec_try. intros [x m] T. apply (A (NMacro (tx t)) x m). destruct (current_is _ _); [injection T as <- <-; apply sub_tl|]. apply macro_target_sub in T. exact T.
Qed.

(** ** One token *)
Lemma dec_node n E s a wrap after ia q l ls : room n l ls -> dec n (parse_node E s a wrap after ia q l ls).
Proof.
  intros R. unfold parse_node. destruct (_ <? _); [constructor|]. pose proof (restore_room n l (skipn (length q - 1) (toks l)) ls R (sub_weight _ _ (sub_skipn _ _))) as L.
  constructor; [exact L|]. intros ns s' ls' H. constructor. cbn [M]. lia.
Qed.
Lemma dec_simple n s nd a ia l ls : room n l ls -> dec n (push_simple s nd a ia l ls).
Proof. intros R. unfold push_simple. constructor. cbn [M]. apply restore_room; [exact R|]. apply sub_weight, sub_tl. Qed.
Lemma dec_tuck n s t a ia l ls : room n l ls -> dec n (callout_tuck s t a ia l ls).
Proof. intros R. unfold callout_tuck. apply dec_try. intros m D. apply discard_sub in D. now apply go_sub. Qed.
Lemma line_before_ok q : forall l x y m, line_before q x l = Some (y, m) -> sub m l /\ exists w, toks y = toks x ++ w /\ sub w l /\ (q <> [] -> l <> []).
Proof.
  induction l as [|t l IH]; intros x y m E; cbn [line_before] in E.
  - destruct (starts_with_seq q []) eqn:Q; [|discriminate]. injection E as <- <-. split; [apply sub_refl|]. exists []. rewrite app_nil_r. split; [reflexivity|]. split; [constructor|].
    intros H. destruct q; [contradiction|discriminate].
  - destruct (starts_with_seq q (t :: l)).
    + injection E as <- <-. split; [apply sub_refl|]. exists []. rewrite app_nil_r. split; [reflexivity|]. split; [constructor|discriminate].
    + apply IH in E. destruct E as [A (w & B & C & _)]. split; [now apply sub_drop|]. exists (t :: w). cbn [toks push_tok] in B. rewrite B, <- app_assoc. split; [reflexivity|].
      split; [now constructor|discriminate].
Qed.
Lemma fold_push ts : forall l, toks (fold_left push_tok ts l) = toks l ++ ts.
Proof. induction ts as [|t ts IH]; intros l; cbn [fold_left]; [now rewrite app_nil_r|]. rewrite IH. cbn [toks push_tok]. now rewrite <- app_assoc. Qed.
Lemma dec_anchor n s r none k : 4 * weight r + 5 < n -> (forall s, dec n (none s)) -> (forall id ns s m, sub m r -> dec n (k id ns s m)) -> dec n (anchor_node s r none k).
Proof.
  intros H N K. unfold anchor_node. apply dec_try. intros [o m] E. apply parse_anchor_sub in E. destruct E as [A B]. destruct o as [[id ref]|]; [|apply N].
  destruct ref as [|t ref]; [now apply K|]. constructor; [|intros; now apply K]. cbn [LM]. unfold lm. pose proof (flagged_le (fold_left push_tok (t :: ref) (new_line []))) as F.
  revert F. rewrite fold_push. generalize (flagged (fold_left push_tok (t :: ref) (new_line []))). intros g F. cbn [toks new_line app]. apply sub_weight in B. lia.
Qed.
Lemma skip_at_sub n l : sub (skip_at n l) l.
Proof. induction l as [|t l IH]; cbn [skip_at]; [constructor|]. destruct (_ =? n); [now apply sub_drop|apply sub_refl]. Qed.
Lemma dec_xref n s a ia l ls : room n l ls -> dec n (xref_shorthand s a ia l ls).
Proof.
  intros R. unfold xref_shorthand. destruct (line_before _ _ _) as [[y m]|] eqn:E; [|constructor]. apply line_before_ok in E. destruct E as [A (w & B & C & D)].
  specialize (D ltac:(discriminate)). cbn [toks new_line app] in B. destruct (toks l) as [|u v] eqn:T; [contradiction|]. cbn [tl] in *.
  apply dec_try. intros [x rest] U. apply consume_until_sub in U. rewrite B in U.
  assert (G : forall tx s, dec n (Go s (push_node (NXref x tx true) a) ia (Some (adv l (skipn 2 m))) ls)).
  { intros tg s'. apply go_sub; [exact R|]. rewrite T. apply sub_drop. eapply sub_trans; [apply sub_skipn|exact A]. }
  destruct rest as [|c rest]; [apply G|]. pose proof (sub_trim_front rest) as F. destruct (trim_front rest) as [|z rest']; [apply G|]. constructor; [|intros; apply G].
  cbn [LM]. unfold lm. rewrite flagged_adv. cbn [toks adv]. pose proof (flagged_le y) as Fy.
  assert (S : sub (z :: rest') v) by (eapply sub_trans; [exact F|]; eapply sub_trans; [apply sub_drop, sub_refl|]; eapply sub_trans; eassumption).
  apply sub_weight in S. unfold room in R. rewrite T, weight_cons in R. lia.
Qed.
Lemma dec_autolink n sb s t a ia l ls : room n l ls -> dec n (autolink sb s t a ia l ls).
Proof.
  intros R. unfold autolink. destruct (toks l) as [|u r] eqn:T; [constructor|]. destruct r as [|u' r']; [constructor|]. set (r := u' :: r') in *.
  destruct (url_to GreaterThan r) as [|j]; [apply go_sub; [exact R|rewrite T; apply sub_drop, sub_refl]|]. destruct (url_scheme u); [|constructor].
  pose proof (sub_skipn (S j) r) as S. destruct (skipn (Datatypes.S j) r) as [|x m]; [constructor|]. apply go_sub; [exact R|]. rewrite T. apply sub_drop.
  eapply sub_trans; [apply sub_drop, sub_refl|exact S].
Qed.
Lemma dec_bare n s t a ia l ls : room n l ls -> dec n (bare_link s t a ia l ls).
Proof.
  intros R. unfold bare_link. destruct (toks l) as [|u r] eqn:T; [constructor|]. rewrite <- T. destruct (bare_url (toks l)); [now apply go_same|]. destruct (url_scheme t); [|constructor].
  apply go_sub; [exact R|apply sub_skipn].
Qed.
Lemma dec_uri n E s t a ia l ls : room n l ls -> dec n (uri_macro E s t a ia l ls).
Proof.
  intros R. unfold uri_macro. cbv zeta. apply dec_try. intros m D. apply discard_sub in D. assert (S : weight m <= weight (toks l)) by (apply sub_weight; eapply sub_trans; [exact D|apply sub_skipn]).
  apply dec_link_attrs; [unfold room in R; lia|]. intros al b s' m' L. destruct (url_scheme t); [|constructor]. apply go_le; [exact R|lia].
Qed.
Lemma dec_backslash n E sb s t a ia l ls : room n l ls -> dec n (backslash E sb s t a ia l ls).
Proof.
  intros R. unfold backslash. cbv zeta. destruct (toks l) as [|u m] eqn:T; [now apply go_same|]. destruct (is_k Word u); [now apply go_same|].
  destruct (is_k OpenParens u && (2 <? length (tx u)) && _) eqn:C.
  - destruct (ends_term m ls) as [e|]; [|constructor]. apply andb_prop in C. destruct C as [C _]. apply andb_prop in C. destruct C as [_ C]. apply Nat.ltb_lt in C.
    apply dec_shorthand; [lia| |].
    + unfold room in R. rewrite T, weight_cons in R. rewrite flagged_adv. cbn [toks adv]. lia.
    + intros. constructor. cbn [M]. lia.
  - destruct (_ || _); [|apply go_sub; [exact R|rewrite T; apply sub_skipn]].
    pose proof (sub_skipn (backslashes (u :: m)) (u :: m)) as S. destruct (skipn _ (u :: m)) as [|x w]; [constructor|]. apply go_sub; [exact R|]. rewrite T.
    eapply sub_trans; [apply sub_drop, sub_refl|exact S].
Qed.
Lemma dec_emdash n E s a ia t l ls : room n l ls -> dec n (try (emdash E a t (toks l)) (fun '(a, m) => Go s a ia (Some (adv l m)) ls)).
Proof.
  intros R. apply dec_try. intros [a' m] H. apply go_le; [exact R|]. revert H. unfold emdash. cbv zeta. destruct (negb _ && _); [intros H; injection H as _ <-; lia|].
  destruct (_ && _); [intros H; injection H as _ <-; lia|]. destruct (_ && _); [|intros H; injection H as _ <-; lia].
  match goal with |- (let '(_, _) := ?x in _) = _ -> _ => destruct x as [a1 nl] end. destruct (toks l) as [|u w]; [intros H; injection H as _ <-; lia|].
  destruct (tx u) eqn:X; [discriminate|]. intros H. injection H as _ <-. rewrite !weight_cons. unfold drop_byte. cbn [tx]. rewrite X. cbn. lia.
Qed.
Ltac sub_of := first [apply sub_refl | apply sub_tl | apply sub_skipn | apply skip_at_sub].
Lemma dec_token n E q sb s a ia t l ls : 4 * S (length (tx t)) + 4 * weight (toks l) + 2 * flagged l + 2 + LM ls <= n -> dec n (token_step E q sb s a ia t l ls).
Proof.
  intros H. assert (R : room n l ls) by (unfold room; lia). unfold token_step. cbv zeta.
  repeat match goal with
  | |- dec _ (if ?b then _ else _) => destruct b eqn:?; [try (first [now apply go_same | apply go_sub; [exact R|solve [sub_of]] | now apply dec_node | now apply dec_simple | now apply dec_tuck | now apply dec_macro | now apply dec_uri
      | now apply dec_xref | now apply dec_autolink | now apply dec_emdash | now apply dec_backslash | now apply dec_bare])|try now apply go_same]
  end.
  - apply dec_try. intros [al m] A. apply parse_attr_list_sub in A. apply go_sub; tauto.
  - destruct (ends_term (toks l) ls); [|now apply go_same]. apply dec_shorthand; [|lia|intros; constructor; cbn [M]; lia].
    repeat match goal with X : _ && _ = true |- _ => apply andb_prop in X; destruct X end. now apply Nat.leb_le.
  - destruct (toks l) as [|u m] eqn:T; [constructor|]. apply go_sub; [exact R|]. rewrite T. apply sub_drop, sub_refl.
  - apply dec_try. intros [x m] C. apply consume_until_sub in C. apply dec_try. intros m' D. apply discard_sub in D. apply dec_try. intros ps _. apply go_sub; [exact R|].
    eapply sub_trans; eassumption.
  - pose proof (sub_weight _ _ (sub_skipn 2 (toks l))) as S. apply dec_anchor; [unfold room in R; lia|intros; apply go_sub; [exact R|apply sub_skipn]|].
    intros id ns s' m A. destruct m as [|x m]; [constructor|]. apply go_sub; [exact R|]. eapply sub_trans; [apply sub_drop, sub_refl|]. eapply sub_trans; [exact A|apply sub_skipn].
  - pose proof (sub_weight _ _ (sub_tl (toks l))) as S. apply dec_anchor; [unfold room in R; lia|intros; apply go_sub; [exact R|apply sub_tl]|].
    intros id ns s' m A. apply go_sub; [exact R|]. eapply sub_trans; [exact A|apply sub_tl].
  - apply dec_try. intros x _. apply dec_try. intros y _. now apply dec_node.
  - destruct (if contains sb SpecialChars then special_of (tk t) else None); [now apply go_same|].
    repeat match goal with
    | |- dec _ (if ?b then _ else _) => destruct b eqn:?; [try (first [now apply go_same | now apply dec_backslash | now apply dec_bare])|try now apply go_same]
    end.
    + pose proof (sub_tl (toks l)) as S. destruct (tl (toks l)) as [|x m]; [go_on|]. apply go_sub; [exact R|]. eapply sub_trans; [apply sub_drop, sub_refl|exact S].
    + destruct (take_passthru s t) as [[ns s']|]; [now apply go_same|constructor].
Qed.
Lemma dec_step E q sb s a ia cur ls : dec (M cur ls) (step E q sb s a ia cur ls).
Proof.
  unfold step. destruct cur as [l|].
  - destruct (at_stop q (toks l)) eqn:A.
    { constructor. cbn [M]. pose proof (LM_restore0 (adv l (skipn (length q) (toks l))) ls) as L. cbn [toks adv] in L. unfold lm in L. rewrite flagged_adv in L. cbn [toks adv] in L.
      destruct q as [|x q]; [discriminate|]. destruct (toks l) as [|t r] eqn:T; [discriminate|]. cbn [length skipn] in *.
      pose proof (sub_weight _ _ (sub_skipn (length q) r)) as S. rewrite weight_cons. destruct (skipn (length q) r); lia. }
    apply dec_try. intros b B. destruct b.
    + apply dec_replace; [lia| |intros; constructor; cbn [M]; assumption]. cbn [M]. change (weight []) with 0.
      assert (F : flagged l = 1).
      { unfold may_contain_pass in B. unfold flagged. destruct (passm l), (pluses l) as [|p]; try reflexivity. discriminate B. }
      lia.
    + destruct (toks l) as [|t r] eqn:T; [constructor; cbn [M]; lia|]. apply dec_token. cbn [M toks adv]. rewrite flagged_adv, T, weight_cons. lia.
  - destruct ls as [|l ls]; [constructor; cbn; lia|]. cbn [M LM]. destruct (stops E l); [constructor; apply LM_restore|].
    destruct (_ && _); constructor; cbn [M]; unfold lm; lia.
Qed.

(** ** The whole *)
Lemma go_ends E : forall fuel q sb s a ia cur ls, M cur ls < fuel -> exists r, go fuel E q sb s a ia cur ls = r /\ match r with Loops => False | Crashed => True | Done _ _ ls' => LM ls' <= M cur ls end.
Proof.
  induction fuel as [|f IH]; intros q sb s a ia cur ls H; [lia|]. cbn [go].
  pose proof (dec_step E q sb s a ia cur ls) as D. revert D. generalize (step E q sb s a ia cur ls) as x. intros x D.
  set (n := M cur ls) in *. clearbody n. clear s a ia cur ls. induction D as [|s ns ls L|s a ia cur ls L|s q' ls k L K IHk].
  - eexists. split; [reflexivity|exact I].
  - eexists. split; [reflexivity|exact L].
  - destruct (IH q sb s a ia cur ls ltac:(lia)) as (r & E1 & E2). exists r. split; [exact E1|]. destruct r; [lia|auto..].
  - destruct ls as [|l ls]; [apply IHk; lia|]. destruct (toks l); [eexists; split; [reflexivity|exact I]|].
    destruct (IH q' (subs_of s) s acc0 None None (l :: ls) ltac:(cbn [M]; lia)) as (r & E1 & E2). rewrite E1. destruct r as [s' ns ls'| |]; [|eexists; split; [reflexivity|exact I]|destruct E2].
    apply IHk. exact E2.
Qed.
Lemma LM_enough ls : LM ls < enough ls.
Proof.
  unfold enough. assert (LM ls <= 4 * size ls + 5 * length ls); [|lia]. induction ls as [|l ls IH]; [cbn; lia|]. rewrite size_cons. cbn [LM length]. unfold lm. pose proof (flagged_le l). lia.
Qed.
Lemma parse_ends E q s ls fuel : enough ls <= fuel -> parse_inlines_until fuel E q s ls <> Loops.
Proof.
  intros H. unfold parse_inlines_until. destruct ls as [|l ls]; [discriminate|]. destruct (toks l); [discriminate|].
  destruct (go_ends E fuel q (subs_of s) s acc0 None None (l :: ls)) as (r & -> & R); [cbn [M]; pose proof (LM_enough (l :: ls)); lia|]. destruct r; [discriminate..|destruct R].
Qed.
(** more fuel changes nothing *)
Lemma go_more E : forall fuel q sb s a ia cur ls, go fuel E q sb s a ia cur ls <> Loops -> forall fuel', fuel <= fuel' -> go fuel' E q sb s a ia cur ls = go fuel E q sb s a ia cur ls.
Proof.
  induction fuel as [|f IH]; intros q sb s a ia cur ls N fuel' L; [contradiction N; reflexivity|]. destruct fuel' as [|f']; [lia|]. cbn [go] in *.
  revert N. generalize (step E q sb s a ia cur ls). clear s a ia cur ls. fix IHx 1. intros x. destruct x as [| |s ns ls|s a ia cur ls|s q' ls k]; intros N; [reflexivity..| |].
  - apply IH; [exact N|lia].
  - destruct ls as [|l ls]; [apply IHx; exact N|]. destruct (toks l); [reflexivity|].
    assert (G : go f E q' (subs_of s) s acc0 None None (l :: ls) <> Loops) by (intros G; rewrite G in N; now apply N).
    rewrite (IH _ _ _ _ _ _ _ G f' ltac:(lia)). destruct (go f E q' (subs_of s) s acc0 None None (l :: ls)); [apply IHx; exact N|reflexivity|contradiction].
Qed.
