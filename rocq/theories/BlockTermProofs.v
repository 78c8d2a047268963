(** The block parser ends. *)
From Verif Require Import Base BlockModel BlockSpec InlineTermProofs VerbatimProofs.
From Coq Require Import Lia.

Definition fine {A} (Q : A -> pst -> Prop) (o : out A) : Prop := match o with Yes a s => Q a s | Panics => True | More => False end.
Lemma fine_bind {A B} (Q : A -> pst -> Prop) (R : B -> pst -> Prop) o k : fine Q o -> (forall a s, Q a s -> fine R (k a s)) -> fine R (bind o k).
Proof. destruct o; cbn; auto. Qed.
Lemma fine_weaken {A} (Q R : A -> pst -> Prop) o : fine Q o -> (forall a s, Q a s -> R a s) -> fine R o.
Proof. destruct o; cbn; auto. Qed.

(** ** The measure *)
Definition sl (x : list tok) : nat := 4 * weight x + 5.
Fixpoint SL (l : list (list tok)) : nat := match l with x :: r => sl x + SL r | [] => 0 end.
Definition mu (s : pst) : nat := LM (peeked s) + SL (src s).
Lemma lm_line_of x : lm (line_of x) <= sl x.
Proof. unfold lm, sl. destruct (line_of_spec x) as [-> _]. pose proof (flagged_le (line_of x)). lia. Qed.
Lemma lm_pos l : 3 <= lm l.
Proof. unfold lm. lia. Qed.
Lemma LM_cons l r : LM (l :: r) = lm l + LM r.
Proof. reflexivity. Qed.
Lemma LM_nonempty ls : ls <> [] -> 0 < LM ls.
Proof. destruct ls as [|l r]; [congruence|]. rewrite LM_cons. pose proof (lm_pos l). lia. Qed.

Lemma group_mu l g m : group l = (g, m) -> LM g + SL m <= SL l.
Proof.
  revert g m. induction l as [|x r IH]; intros g m; cbn [group]; [injection 1 as <- <-; cbn; lia|]. destruct x as [|t x]; [injection 1 as <- <-; cbn; lia|].
  destruct (emptyish (t :: x)); [injection 1 as <- <-; cbn [SL LM]; lia|]. destruct (group r) as [g' m'] eqn:G. injection 1 as <- <-. specialize (IH _ _ eq_refl). rewrite LM_cons. cbn [SL].
  pose proof (lm_line_of (t :: x)). lia.
Qed.
Lemma skip_empty_mu l : SL (skip_empty l) <= SL l.
Proof. induction l as [|x r IH]; cbn; [lia|]. destruct (emptyish x); cbn; unfold sl in *; lia. Qed.
Lemma read_mu s ls s' : read_lines s = (ls, s') -> LM ls + mu s' <= mu s /\ peeked s' = [] /\ stk s' = stk s.
Proof.
  unfold read_lines, mu. destruct (peeked s) as [|l r] eqn:P.
  - destruct (skip_empty (src s)) as [|x r] eqn:K.
    + injection 1 as <- <-. cbn [with_src peeked src stk LM SL]. rewrite P. cbn [LM]. auto with arith.
    + destruct (group r) as [g m] eqn:G. injection 1 as <- <-. cbn [with_src peeked src stk]. rewrite P. pose proof (group_mu _ _ _ G). pose proof (skip_empty_mu (src s)) as H0. rewrite K in H0. cbn [SL LM] in *.
      pose proof (lm_line_of x). repeat split. lia.
  - injection 1 as <- <-. cbn [with_peeked peeked src stk]. cbn [LM]. repeat split. lia.
Qed.
Lemma until_mu d l g m : until_delim d l = (g, m) -> LM g + SL m <= SL l.
Proof.
  revert g m. induction l as [|x r IH]; intros g m; cbn [until_delim]; [injection 1 as <- <-; cbn; lia|].
  destruct (opens_with d x); [injection 1 as <- <-; cbn; lia|]. destruct (until_delim d r) as [g' m'] eqn:G. injection 1 as <- <-. specialize (IH _ _ eq_refl). rewrite LM_cons. cbn [SL].
  pose proof (lm_line_of x). lia.
Qed.
Lemma LM_rev l : LM (rev l) = LM l.
Proof. induction l as [|x r IH]; [reflexivity|]. cbn [rev]. rewrite LM_app, IH, LM_cons. cbn [LM]. lia. Qed.
Lemma drop_empty_LM l : LM (drop_empty l) <= LM l.
Proof. induction l as [|x r IH]; [reflexivity|]. cbn [drop_empty]. destruct (toks x); rewrite ?LM_cons; lia. Qed.
Lemma drop_comments_LM l : LM (drop_comments l) <= LM l.
Proof. induction l as [|x r IH]; [reflexivity|]. cbn [drop_comments]. destruct (is_comment x); rewrite ?LM_cons; lia. Qed.
Lemma drop_until_LM p l : LM (drop_until p l) <= LM l.
Proof. induction l as [|x r IH]; [reflexivity|]. cbn [drop_until]. destruct (p x); rewrite ?LM_cons; lia. Qed.
Lemma read_until_mu d s ls s' : read_until d s = (ls, s') -> LM ls + mu s' <= mu s /\ peeked s' = [] /\ stk s' = stk s.
Proof.
  unfold read_until. destruct (read_lines s) as [rs s1] eqn:R. destruct (read_mu _ _ _ R) as (H & P & K). destruct rs as [|l r]; [injection 1 as <- <-; auto|].
  destruct (existsb _ _); [injection 1 as <- <-; auto|]. destruct (until_delim d (src s1)) as [g m] eqn:U. injection 1 as <- <-. pose proof (until_mu _ _ _ _ U).
  rewrite LM_rev. pose proof (drop_empty_LM (rev ((l :: r) ++ g))) as D. rewrite LM_rev, LM_app in D. unfold mu in *. cbn [with_src peeked src stk]. rewrite P in H |- *. change (LM []) with 0 in *. change (rev ((l :: r) ++ g)) with (rev (r ++ g) ++ [l]) in D. repeat split; [lia|assumption].
Qed.
Lemma restore_ok P ls s : fine (fun _ s' => mu s' <= LM ls + mu s /\ (ls <> [] -> peeked s' = ls) /\ stk s' = stk s) (restore_lines P ls s).
Proof.
  unfold restore_lines. destruct (peeked s) as [|l r] eqn:K.
  - cbn [fine with_peeked peeked stk]. unfold mu. cbn [with_peeked peeked src]. rewrite K. cbn [LM]. repeat split. lia.
  - destruct (dbg _); [exact I|]. destruct ls as [|x y]; cbn [fine]; unfold mu; cbn [with_peeked peeked src stk]; rewrite ?K; cbn [LM]; repeat split; try congruence; lia.
Qed.
Lemma restore_meta_ok P m s : fine (fun _ s' => mu s' = mu s /\ peeked s' = peeked s /\ stk s' = stk s) (restore_meta P m s).
Proof. unfold restore_meta. destruct (meta_empty m); [cbn; auto|]. destruct (pmeta s); [destruct (dbg _)|]; cbn; auto. Qed.
Lemma restore_peeked_ok P ls m s : fine (fun _ s' => mu s' <= LM ls + mu s /\ (ls <> [] -> peeked s' = ls) /\ stk s' = stk s) (restore_peeked P ls m s).
Proof.
  unfold restore_peeked. eapply fine_bind; [apply restore_ok|]. intros [] s1 (H1 & H2 & H3). eapply fine_weaken; [apply restore_meta_ok|]. intros [] s2 (G1 & G2 & G3). rewrite G1, G2, G3. auto.
Qed.

(** ** Texts *)
Lemma first_line E fuel q s ls : LM ls < fuel -> match parse_inlines_until fuel E q s ls with Loops => False | Crashed => True | Done _ ns ls' => LM ls' <= LM ls /\ (ns <> [] -> LM ls' < LM ls) end.
Proof.
  intros H. unfold parse_inlines_until. destruct ls as [|l ls]; [split; [lia|congruence]|]. destruct (toks l); [exact I|].
  destruct fuel as [|f]; [lia|]. cbn [go]. unfold InlineModel.step. destruct (stops E l) eqn:S.
  - cbv beta iota. split; [rewrite LM_cons; apply LM_restore|]. intros C. exfalso. apply C. reflexivity.
  - rewrite LM_cons in *. pose proof (lm_pos l). destruct (is_comment l && _); cbv beta iota zeta.
    + edestruct (go_ends E f q (subs_of s)) as (r & -> & R); [cbn [M]; unfold lm in H; lia|]. destruct r; [|exact I|exact R]. cbn [M] in R. split; [|intros _]; unfold lm; lia.
    + edestruct (go_ends E f q (subs_of s) s acc0 None (Some l) ls) as (r & -> & R); [cbn [M]; unfold lm in H; lia|]. destruct r; [|exact I|exact R]. cbn [M] in R. split; [|intros _]; unfold lm; lia.
Qed.
Lemma inlines_ok P ls s : fine (fun x s' => LM (snd x) <= LM ls /\ (fst x <> [] -> LM (snd x) < LM ls) /\ mu s' = mu s /\ peeked s' = peeked s /\ stk s' = stk s) (inlines P ls s).
Proof.
  unfold inlines. pose proof (first_line (env_of P s) (enough ls) [] (ist s) ls (LM_enough ls)) as H. destruct (parse_inlines_until _ _ _ _ _); cbn; [|exact I|exact H]. destruct H. repeat split; auto.
Qed.

(** ** Before a block *)
Lemma meta_lines_ok P : forall ls m s, fine (fun x s' => LM (snd x) <= LM ls /\ mu s' = mu s /\ peeked s' = peeked s /\ stk s' = stk s) (meta_lines P ls m s).
Proof.
  induction ls as [|l r IH]; intros m s; [cbn; auto|]. cbn [meta_lines].
  assert (W : forall m s0, mu s0 = mu s -> peeked s0 = peeked s -> stk s0 = stk s -> fine (fun x s' => LM (snd x) <= LM (l :: r) /\ mu s' = mu s /\ peeked s' = peeked s /\ stk s' = stk s) (meta_lines P r m s0)).
  { intros m0 s0 H1 H2 H3. eapply fine_weaken; [apply IH|]. intros x s1 (G1 & G2 & G3 & G4). rewrite LM_cons. repeat split; [lia|congruence..]. }
  destruct (chunk_title l).
  { eapply fine_bind; [apply inlines_ok|]. intros x s1 (_ & _ & H1 & H2 & H3). apply W; assumption. }
  destruct (attr_list_line l). { destruct (block_attr_list _) as [[a y]|]; [apply W; reflexivity|exact I]. }
  destruct (anchor_line l). { destruct (parse_anchor _ _) as [[[[i ref]|] y]|]; [apply W; reflexivity| |exact I]. cbn [fine fst snd]. rewrite LM_cons. repeat split. lia. }
  destruct (_ && _); [apply W; reflexivity|]. cbn. auto.
Qed.
Lemma chunk_meta_ok P ls s : fine (fun x s' => LM (snd x) <= LM ls /\ mu s' = mu s /\ peeked s' = peeked s /\ stk s' = stk s) (chunk_meta P ls s).
Proof.
  unfold chunk_meta. destruct (pmeta s) as [m|]; [destruct (heading_first P ls); cbn; auto|]. destruct ls as [|l r]; [exact I|]. destruct (toks l); [exact I|]. destruct (unconsumed l); [apply meta_lines_ok|cbn; auto].
Qed.
Lemma comment_block_LM ls ls' : comment_block ls = Some ls' -> LM ls' <= LM ls.
Proof.
  unfold comment_block. destruct ls as [|l r]; [injection 1 as <-; lia|]. destruct (is_comment l); [|injection 1 as <-; lia].
  pose proof (drop_empty_LM (drop_comments r)). pose proof (drop_comments_LM r). destruct (drop_empty (drop_comments r)); [discriminate|]. injection 1 as <-. rewrite !LM_cons in *. lia.
Qed.

(** ** Lines with fewer or other tokens *)
Lemma lm_adv l r : lm (adv l r) = 4 * weight r + 2 * flagged l + 3.
Proof. unfold lm. rewrite flagged_adv. reflexivity. Qed.
Lemma lm_adv_le l r : weight r <= weight (toks l) -> lm (adv l r) <= lm l.
Proof. intros H. rewrite lm_adv. unfold lm. lia. Qed.
Lemma lm_adv_lt l r : weight r < weight (toks l) -> lm (adv l r) < lm l.
Proof. intros H. rewrite lm_adv. unfold lm. lia. Qed.
Lemma weight_tl l : weight (tl l) <= weight l.
Proof. destruct l; cbn [tl]; rewrite ?weight_cons; lia. Qed.
Lemma weight_skipn n l : weight (skipn n l) <= weight l.
Proof. apply sub_weight, sub_skipn. Qed.
Lemma weight_trim l : weight (trim_front l) <= weight l.
Proof. induction l as [|t r IH]; cbn [trim_front]; [lia|]. destruct (is_k Whitespace t); rewrite ?weight_cons; lia. Qed.
Lemma lm_discard l : lm (discard_leading l) = lm l.
Proof.
  unfold discard_leading. destruct (toks l) as [|t r] eqn:T; [reflexivity|]. destruct (is_k Whitespace t); [|reflexivity]. rewrite lm_adv. unfold lm. rewrite T, !weight_cons. reflexivity.
Qed.
Lemma paragraph_context_LM m ls : LM (snd (paragraph_context m ls)) <= LM ls.
Proof.
  unfold paragraph_context. destruct (trim_uniform ls) as [x|] eqn:U.
  - assert (H : LM x <= LM ls).
    { unfold trim_uniform in U. destruct ls as [|l r]; [discriminate|]. destruct (toks l) eqn:T; [discriminate|]. destruct (_ && _); [|discriminate]. injection U as <-.
      assert (forall ls, LM (map (fun l => adv l (tl (toks l))) ls) <= LM ls) as M; [|apply (M (l :: r))]. intros l1. induction l1 as [|y z IH]; [cbn; lia|]. cbn [map]. rewrite !LM_cons.
      pose proof (lm_adv_le y (tl (toks y)) (weight_tl _)). lia. }
    destruct (block_style CParagraph m); [exact H|]. destruct x as [|l r]; [exact H|]. destruct (starts_with_seq _ _); [|exact H]. destruct (toks l) eqn:T; [exact H|]. destruct (admonition _); [|exact H].
    cbn [snd]. rewrite <- T. pose proof (LM_restore (adv l (skipn 3 (toks l))) r). pose proof (lm_adv_le l (skipn 3 (toks l)) (weight_skipn _ _)). rewrite LM_cons in H. lia.
  - destruct (block_style CParagraph m); [reflexivity|]. destruct ls as [|l r]; [reflexivity|]. destruct (starts_with_seq _ _); [|reflexivity]. destruct (toks l) eqn:T; [reflexivity|]. destruct (admonition _); [|reflexivity].
    cbn [snd]. rewrite <- T. pose proof (LM_restore (adv l (skipn 3 (toks l))) r). pose proof (lm_adv_le l (skipn 3 (toks l)) (weight_skipn _ _)). rewrite LM_cons. lia.
Qed.

(** ** The calls *)
Definition begins (s : pst) : Prop := exists l r mk, peeked s = l :: r /\ list_marker l = Some mk /\ LS.continues_current_list (stk s) mk = true.
Definition rank {A} (c : call A) : nat := match c with Peek => 1 | ItemLoop _ => 1 | ExtraTerms _ => 1 | Block => 2 | Continuations => 2 | BlockLoop => 3 | SectionLoop => 3 | SpecialLoop => 3 | PartLoop => 3 | Book => 4 end.
Definition is_book {A} (c : call A) : bool := match c with Book => true | _ => false end.
Definition prog {A} (c : call A) : pst -> A -> pst -> Prop :=
  match c in call T return pst -> T -> pst -> Prop with
  | Block => fun s b s' => mu s' <= mu s /\ (b <> None -> mu s' < mu s)
  | ItemLoop _ => fun s _ s' => mu s' <= mu s /\ (begins s -> mu s' < mu s)
  | Peek => fun s p s' => match p with Some p => LM (ps_lines p) + mu s' <= mu s /\ ps_lines p <> [] | None => mu s' <= mu s end
  | _ => fun s _ s' => mu s' <= mu s
  end.
Definition ok (n : nat) (rec : parser) : Prop := forall (A : Set) (c : call A) s, is_book c = false -> 4 * mu s + rank c < n -> fine (prog c s) (rec A c s).

Lemma marker_eqb_refl m : LS.marker_eqb m m = true.
Proof. destruct m as [n|n| |n|n| |[n|]]; cbn; rewrite ?Nat.eqb_refl; reflexivity. Qed.
Lemma continues_refl m s : LS.continues_current_list (m :: s) m = true.
Proof. cbn. destruct m; try reflexivity; apply marker_eqb_refl. Qed.
Lemma marker_nonempty l m : list_marker l = Some m -> toks l <> [].
Proof. unfold list_marker. destruct (toks l); [|discriminate]. destruct (_ || _); cbn; discriminate. Qed.
Lemma table_lines_LM d : forall ls x r, table_lines d ls = (x, Some r) -> LM r <= LM ls.
Proof.
  induction ls as [|l ls IH]; intros x r; cbn [table_lines]; [discriminate|]. destruct (src_eq (toks l) d); [injection 1 as _ <-; rewrite LM_cons; lia|].
  destruct (table_lines d ls) as [y e]. injection 1 as _ ->. rewrite LM_cons. specialize (IH _ _ eq_refl). lia.
Qed.
Lemma table_src_SL d : forall ls x e r, table_src d ls = (x, e, r) -> SL r <= SL ls.
Proof.
  induction ls as [|l ls IH]; intros x e r; cbn [table_src]; [injection 1 as _ _ <-; lia|]. destruct (_ && _); [injection 1 as _ _ <-; cbn [SL]; lia|].
  destruct (table_src d ls) as [[y e'] m]. injection 1 as _ _ <-. specialize (IH _ _ _ eq_refl). cbn [SL]. lia.
Qed.
Definition sumLM (ps : list (list iline)) : nat := list_sum (map LM ps).
Lemma quote_paragraphs_LM : forall ls cur, sumLM (quote_paragraphs ls cur) <= LM ls + LM cur /\ (forall l r, ls = l :: r -> current_is GreaterThan (toks l) = true -> sumLM (quote_paragraphs ls cur) < LM ls + LM cur).
Proof.
  induction ls as [|l r IH]; intros cur; cbn [quote_paragraphs].
  - split; [|discriminate]. destruct cur; cbn; lia.
  - set (l' := match toks l with [] => l | _ => _ end).
    assert (W : lm l' <= lm l /\ (current_is GreaterThan (toks l) = true -> lm l' < lm l)).
    { unfold l'. clear. destruct (toks l) as [|g x] eqn:T; [split; [lia|discriminate]|]. destruct (is_k GreaterThan g) eqn:G.
      - unfold lm, flagged. cbn [toks passm pluses]. rewrite T, !weight_cons. destruct x as [|w y]; [change (weight []) with 0|destruct (is_k Whitespace w); rewrite ?weight_cons]; split; lia.
      - split; [lia|]. unfold current_is, hd_error, at_k. rewrite G. discriminate. }
    clearbody l'. destruct W as [W1 W2].
    assert (X : sumLM (match toks l' with [] => match cur with [] => quote_paragraphs r [] | _ :: _ => cur :: quote_paragraphs r [] end | _ :: _ => quote_paragraphs r (cur ++ [l']) end) <= lm l' + LM r + LM cur).
    { destruct (toks l').
      - destruct (IH []) as [I1 _]. change (LM []) with 0 in I1. pose proof (lm_pos l'). destruct cur as [|y z]; [cbn [LM]; lia|]. unfold sumLM in *. cbn [map list_sum fold_right]. unfold list_sum in *. lia.
      - destruct (IH (cur ++ [l'])) as [I1 _]. rewrite LM_app in I1. cbn [LM] in I1. lia. }
    rewrite LM_cons. split; [lia|]. intros l0 r0 [= <- <-] G. specialize (W2 G). lia.
Qed.
Lemma before_term_weight : forall l acc b r, before_term acc l = Some (b, r) -> weight r < weight l.
Proof. induction l as [|t l IH]; intros acc b r; cbn [before_term]; [discriminate|]. rewrite weight_cons. destruct (is_k TermDelimiter t); [injection 1 as _ <-; lia|]. intros H. apply IH in H. lia. Qed.
Lemma principle_LM : forall ls a b, principle_lines ls = (a, b) -> LM a + LM b <= LM ls.
Proof.
  induction ls as [|l r IH]; intros a b; cbn [principle_lines]; [injection 1 as <- <-; cbn; lia|]. destruct (continues_principle l); [|injection 1 as <- <-; cbn [LM]; lia].
  destruct (principle_lines r) as [a' b'] eqn:E. injection 1 as <- <-. specialize (IH _ _ eq_refl). rewrite !LM_cons, lm_discard. lia.
Qed.
Lemma string_until_weight k : forall l x r, string_until k l = (x, r) -> weight r <= weight l.
Proof.
  induction l as [|u l IH]; intros x r; cbn [string_until]; [injection 1 as _ <-; lia|]. destruct (is_k k u); [injection 1 as _ <-; lia|]. destruct (string_until k l) as [y z] eqn:E. specialize (IH _ _ eq_refl).
  destruct (one_of _ _); injection 1 as _ <-; rewrite weight_cons; lia.
Qed.
Lemma consume_weight k l x r : consume_until k l = Ret (x, r) -> weight r <= weight l.
Proof. unfold consume_until. destruct l as [|t l]; [discriminate|]. injection 1 as H. eapply string_until_weight. exact H. Qed.
Lemma assert_weight k l r : discard_assert k l = Ret r -> weight r < weight l.
Proof. unfold discard_assert. destruct l as [|t l]; [discriminate|]. destruct (is_k k t); [|discriminate]. injection 1 as <-. rewrite weight_cons. lia. Qed.
Lemma checklist_weight l b r : checklist l = Some (b, r) -> weight r <= weight l.
Proof.
  unfold checklist. destruct l as [|o [|x [|c [|w l]]]]; try discriminate. destruct (_ && _ && _); [|discriminate]. rewrite !weight_cons.
  destruct (is_k Star x); [injection 1 as _ <-|destruct (is_k Whitespace x); [injection 1 as _ <-|destruct (_ && _); [injection 1 as _ <-|discriminate]]]; rewrite weight_cons; lia.
Qed.

Ltac bi L := eapply fine_bind; [apply L|].
Ltac lia := cbv beta in *; Lia.lia.
Section Steps.
Variables (P : params) (rec : parser) (n : nat).
Hypothesis R : ok n rec.
Lemma use_block s : 4 * mu s + 2 < n -> fine (fun b s' => mu s' <= mu s /\ (b <> None -> mu s' < mu s)) (rec _ Block s).
Proof. intros H. exact (R _ Block s eq_refl H). Qed.
Lemma use_blocks s : 4 * mu s + 3 < n -> fine (fun _ s' => mu s' <= mu s) (rec _ BlockLoop s).
Proof. intros H. exact (R _ BlockLoop s eq_refl H). Qed.

Lemma paragraph_ok ls m s : fine (fun b s' => mu s' <= LM ls + mu s /\ (b <> None -> mu s' < LM ls + mu s)) (paragraph P ls m s).
Proof.
  unfold paragraph. set (ls' := if simple_desc_def s then _ else ls).
  assert (H : LM ls' = LM ls). { unfold ls'. destruct (simple_desc_def s); [|reflexivity]. destruct ls as [|l r]; [reflexivity|]. rewrite !LM_cons, lm_discard. reflexivity. }
  clearbody ls'. pose proof (paragraph_context_LM m ls') as C. destruct (paragraph_context m ls') as [c ls2]. cbn [snd] in C.
  bi inlines_ok. intros x s1 (I1 & I2 & I3 & _ & _). destruct (fst x) as [|y z] eqn:F; (bi restore_ok; intros [] s2 (G1 & _ & _)); cbn [fine]; change (mu (set_ist_subs _ s)) with (mu s) in I3.
  - change (mu (one_empty s2)) with (mu s2). change (mu (set_ist_subs (subs_of (ist s)) s1)) with (mu s1) in G1. split; [lia|congruence].
  - change (mu (set_ist_subs (subs_of (ist s)) s1)) with (mu s1) in G1. specialize (I2 ltac:(congruence)). split; [lia|]. intros _. lia.
Qed.
Lemma quoted_ok ls m s : fine (fun _ s' => mu s' < LM ls + mu s) (quoted P ls m s).
Proof.
  unfold quoted. destruct (rev ls) as [|last front] eqn:V; [exact I|]. destruct (toks last) as [|d [|w r]]; [exact I..|]. destruct (_ && _); [|exact I]. destruct (split_comma r) as [at_ ci].
  assert (0 < LM ls). { apply LM_nonempty. intros ->. discriminate. }
  bi inlines_ok. intros a s1 (_ & _ & I1 & _). eapply fine_bind with (Q := fun _ s' => mu s' = mu s).
  { destruct ci; [exact I1|]. bi inlines_ok. intros c s2 (_ & _ & I2 & _). cbn. lia. }
  intros c s2 I2. assert (Q : forall ls0 : list iline, fine (fun _ s' => mu s' < LM ls + mu s) (take (q, s3) := inlines P ls0 s2 in Yes (Some (BQuoted m (fst q) (fst a) c)) s3)).
  { intros ls0. bi inlines_ok. intros q s3 (_ & _ & I3 & _). cbn. lia. }
  destruct (rev front) as [|l more]; [exact I|]. destruct (toks l) as [|t u]; [exact I|]. destruct (inmd s2); [apply Q|]. destruct (is_k DoubleQuote t); [|exact I]. destruct (_ && _); [exact I|]. apply Q.
Qed.
Lemma of_line_ok f ls s : fine (fun _ s' => mu s' < LM ls + mu s) (of_line P f ls s).
Proof. unfold of_line. destruct ls as [|l r]; [exact I|]. bi restore_ok. intros [] s1 (H & _). cbn [fine]. rewrite LM_cons. pose proof (lm_pos l). lia. Qed.
Lemma plugin_ok ls m s : fine (fun _ s' => mu s' < LM ls + mu s) (plugin_macro ls m s).
Proof. unfold plugin_macro. destruct ls as [|l r]; [exact I|]. cbn [fine]. rewrite LM_cons. pose proof (lm_pos l). lia. Qed.
Lemma discrete_ok ls m s : fine (fun _ s' => mu s' < LM ls + mu s) (discrete_heading P ls m s).
Proof.
  unfold discrete_heading. destruct ls as [|l r]; [exact I|]. destruct (toks l) as [|t [|w x]]; [exact I..|]. destruct (_ && _); [|exact I]. bi inlines_ok. intros h s1 (_ & _ & I1 & _).
  bi restore_ok. intros [] s2 (H & _). cbn [fine]. rewrite LM_cons. pose proof (lm_pos l). lia.
Qed.
Lemma table_ok ls m s : fine (fun _ s' => mu s' < LM ls + mu s) (table P ls m s).
Proof.
  unfold table. destruct ls as [|l r]; [exact I|]. pose proof (lm_pos l). rewrite LM_cons. destruct (table_lines (toks l) r) as [x [rest|]] eqn:T.
  - apply table_lines_LM in T. bi restore_ok. intros [] s1 (H1 & _). cbn [fine]. lia.
  - destruct (table_src (toks l) (src s)) as [[y e] rest] eqn:U. apply table_src_SL in U. cbn [fine]. assert (mu (with_src rest s) <= mu s) by (unfold mu; cbn [with_src peeked src]; lia).
    destruct e; [|change (mu (problem_at TableNeverClosed (with_src rest s))) with (mu (with_src rest s))]; lia.
Qed.
Lemma each_ok : forall ps s, 4 * (sumLM ps + mu s) + 2 < n -> fine (fun _ s' => mu s' <= sumLM ps + mu s) (each_paragraph P rec ps s).
Proof.
  induction ps as [|p r IH]; intros s H; cbn [each_paragraph]; [cbn; lia|]. assert (E : sumLM (p :: r) = LM p + sumLM r) by reflexivity.
  bi restore_ok. intros [] s1 (H1 & _). eapply fine_bind; [apply use_block; lia|]. intros b s2 (H2 & _). eapply fine_bind; [apply IH; lia|]. intros bs s3 H3. cbn [fine]. lia.
Qed.
Lemma markdown_ok ls m s : 4 * (LM ls + mu s) < n + 2 -> (exists l r, ls = l :: r /\ current_is GreaterThan (toks l) = true) -> fine (fun _ s' => mu s' < LM ls + mu s) (markdown_quote P rec ls m s).
Proof.
  intros H (l & r & E & G). unfold markdown_quote. destruct (peeked s); [|exact I]. destruct (quote_paragraphs_LM ls []) as [_ Q]. specialize (Q _ _ E G). change (LM []) with 0 in Q.
  eapply fine_bind; [apply each_ok; change (mu (with_inmd true s)) with (mu s); lia|]. intros bs s1 H1. change (mu (with_inmd true s)) with (mu s) in H1. cbn [fine]. change (mu (with_inmd false s1)) with (mu s1). lia.
Qed.
Lemma delimited_ok ls m s : 4 * (LM ls + mu s) < n + 2 -> fine (fun _ s' => mu s' < LM ls + mu s) (delimited P rec ls m s).
Proof.
  intros H. unfold delimited. destruct ls as [|l r]; [exact I|]. destruct (toks l) as [|t af]; [exact I|]. destruct (to_delimiter t) as [d|]; [|exact I]. destruct (fence d af); [|exact I].
  rewrite LM_cons in *. pose proof (lm_pos l). bi restore_ok. intros [] s1 (H1 & _). change (mu (with_delim (Some d) s)) with (mu s) in H1.
  set (c := match block_style _ m with Some c => c | None => _ end). clearbody c. set (s2 := set_ist_subs _ s1). assert (M2 : mu s2 = mu s1) by reflexivity. clearbody s2.
  eapply fine_bind with (Q := fun _ s' => mu s' <= mu s2).
  { destruct (verbatim_context c).
    - destruct (read_until d s2) as [vs s3] eqn:V. destruct (read_until_mu _ _ _ _ V) as (V1 & _). set (s4 := match c with CListing | CLiteral => _ | _ => s3 end).
      assert (M4 : mu s4 = mu s3) by (unfold s4; destruct c; try reflexivity; destruct (named_at _ m); reflexivity). clearbody s4.
      assert (D : fine (fun _ s' => mu s' <= mu s2) (take (x, s5) := inlines P vs (with_nests false s4) in take (_, s6) := restore_lines P (snd x) (with_cmt None (with_nests true s5)) in Yes (Simple (fst x)) s6)).
      { bi inlines_ok. intros x s5 (I1 & _ & I2 & _). change (mu (with_nests false s4)) with (mu s4) in I2. bi restore_ok. intros [] s6 (G & _). change (mu (with_cmt None (with_nests true s5))) with (mu s5) in G. cbn [fine]. lia. }
      destruct c; try exact D. bi restore_ok. intros [] s5 (G & _). cbn [fine]. pose proof (drop_until_LM (fun l0 => is_delimiter d (toks l0)) vs). lia.
    - eapply fine_bind; [apply use_blocks; lia|]. intros bs s3 G. exact G. }
  intros x s3 M3. set (s4 := set_ist_subs _ s3). assert (M4 : mu s4 = mu s3) by reflexivity. clearbody s4. destruct (read_lines s4) as [es s5] eqn:E. destruct (read_mu _ _ _ E) as (E1 & _).
  destruct es as [|e more]; [cbn [fine]; change (mu (with_delim _ _)) with (mu s5); lia|]. destruct (match delim s5 with Some _ => _ | None => _ end).
  - bi restore_ok. intros [] s6 (G & _). cbn [fine]. change (mu (with_delim (delim s) s6)) with (mu s6). rewrite LM_cons in E1. lia.
  - cbn [fine]. change (mu (with_delim _ _)) with (mu s5). lia.
Qed.

(** *** Lists *)
Lemma a_list_ok ls m s : 4 * (LM ls + mu s) + 1 < n -> fine (fun _ s' => mu s' < LM ls + mu s) (a_list P rec ls m s).
Proof.
  intros H. unfold a_list. destruct ls as [|l r]; [exact I|]. destruct (list_marker l) as [mk|] eqn:K; [|exact I]. assert (E : InlineModel.restore l r = l :: r). { unfold InlineModel.restore. pose proof (marker_nonempty _ _ K). destruct (toks l); congruence. }
  rewrite E. bi restore_ok. intros [] s1 (H1 & H2 & H3). specialize (H2 ltac:(discriminate)).
  set (s2 := if (_ : bool) then with_bib InList _ else _). assert (M2 : mu s2 = mu s1) by (unfold s2; destruct (_ && _); reflexivity).
  assert (B2 : begins s2). { exists l, r, mk. unfold s2. destruct (_ && _); cbn [with_bib with_stk peeked stk]; (repeat split; [exact H2|exact K|apply continues_refl]). }
  clearbody s2. eapply fine_bind with (Q := fun _ s' => mu s' < mu s2).
  { pose proof (R _ (ItemLoop mk) s2 eq_refl) as I. eapply fine_weaken; [apply I; cbn [rank]; lia|]. intros x s3 [_ G]. auto. }
  intros items s3 M3. cbn [fine]. set (s4 := match bib s3 with InList => with_bib InSection s3 | _ => s3 end). assert (M4 : mu s4 = mu s3) by (unfold s4; destruct (bib s3); reflexivity).
  change (mu (with_stk (tl (stk s4)) s4)) with (mu s4). lia.
Qed.
Lemma use_conts s : 4 * mu s + 2 < n -> fine (fun _ s' => mu s' <= mu s) (rec _ Continuations s).
Proof. intros H. exact (R _ Continuations s eq_refl H). Qed.
Lemma use_extra m s : 4 * mu s + 1 < n -> fine (fun _ s' => mu s' <= mu s) (rec _ (ExtraTerms m) s).
Proof. intros H. exact (R _ (ExtraTerms m) s eq_refl H). Qed.
Lemma item_blocks_ok ls s : 4 * (LM ls + mu s) + 2 < n -> fine (fun _ s' => mu s' <= LM ls + mu s) (item_blocks P rec ls s).
Proof.
  intros H. unfold item_blocks. destruct (starts_nested _ _ _).
  { bi restore_ok. intros [] s1 (H1 & _). eapply fine_bind; [apply use_block; lia|]. intros b s2 (H2 & _). cbn [fine]. lia. }
  destruct (starts_continuation ls). { bi restore_ok. intros [] s1 (H1 & _). eapply fine_weaken; [apply use_conts; lia|]. cbn. intros. lia. }
  destruct ls as [|l r]; [|bi restore_ok; intros [] s1 (H1 & _); cbn [fine]; lia].
  destruct (read_lines s) as [ls s1] eqn:E. destruct (read_mu _ _ _ E) as (E1 & _). change (LM []) with 0 in *. destruct ls as [|l r]; [cbn [fine LM] in *; lia|]. destruct (starts_nested _ _ _).
  - eapply fine_bind; [apply a_list_ok; lia|]. intros b s2 H2. cbn [fine]. lia.
  - bi restore_ok. intros [] s2 (H1 & _). cbn [fine]. lia.
Qed.
Lemma continuations_ok s : 4 * mu s + 2 < S n -> fine (fun _ s' => mu s' <= mu s) (continuations P rec s).
Proof.
  intros H. unfold continuations. destruct (read_lines s) as [ls s1] eqn:E. destruct (read_mu _ _ _ E) as (E1 & _). destruct ls as [|l r]; [cbn [fine LM] in *; lia|]. destruct (starts_nested _ _ _).
  { eapply fine_bind; [apply a_list_ok; lia|]. intros b s2 H2. cbn [fine]. lia. }
  destruct (negb _). { bi restore_ok. intros [] s2 (H1 & _). cbn [fine]. lia. }
  rewrite LM_cons in E1. pose proof (lm_pos l). destruct (match r with [] => _ | _ => _ end).
  { bi restore_ok. intros [] s2 (H1 & _). change (mu (problem_at Dangling s1)) with (mu s1) in H1. cbn [fine]. lia. }
  bi restore_ok. intros [] s2 (H1 & _). eapply fine_bind; [apply use_block; change (mu (with_conts true s2)) with (mu s2); lia|]. intros b s3 (H3 & _). change (mu (with_conts true s2)) with (mu s2) in H3.
  eapply fine_bind; [apply use_conts; change (mu (with_conts false s3)) with (mu s3); lia|]. intros bs s4 H4. change (mu (with_conts false s3)) with (mu s3) in H4. cbn [fine]. lia.
Qed.
Lemma desc_term_ok l s : fine (fun x s' => lm (snd x) < lm l /\ mu s' = mu s) (desc_term P l s).
Proof.
  unfold desc_term. destruct (before_term _ _) as [[b r]|] eqn:B; [|exact I]. apply before_term_weight in B. bi inlines_ok. intros x s1 (_ & _ & I1 & _). cbn [fine snd]. split; [|exact I1].
  unfold trim_leading. cbn [toks adv]. pose proof (weight_trim r). unfold lm. cbn [toks adv]. change (flagged (adv (adv l r) (trim_front r))) with (flagged l). lia.
Qed.
Lemma extra_ok m s : 4 * mu s + 1 < S n -> fine (fun _ s' => mu s' <= mu s) (extra_terms P rec m s).
Proof.
  intros H. unfold extra_terms. destruct (read_lines s) as [ls s1] eqn:E. destruct (read_mu _ _ _ E) as (E1 & _). destruct ls as [|l r]; [cbn [fine LM] in *; lia|]. set (ls := l :: r) in *. clearbody ls.
  destruct (starts_extra m ls).
  - pose proof (drop_comments_LM ls) as D. destruct (drop_comments ls) as [|l1 r1]; [exact I|]. rewrite LM_cons in D. bi desc_term_ok. intros x s2 (T1 & T2). bi restore_ok. intros [] s3 (H1 & _).
    pose proof (LM_restore (snd x) r1). eapply fine_bind; [apply use_extra; lia|]. intros ts s4 H4. cbn [fine]. lia.
  - bi restore_ok. intros [] s2 (H1 & _). cbn [fine]. lia.
Qed.
Lemma desc_blocks_ok s : 4 * mu s + 2 < n -> fine (fun _ s' => mu s' <= mu s) (desc_blocks P rec s).
Proof.
  intros H. unfold desc_blocks. destruct (read_lines s) as [ls s1] eqn:E. destruct (read_mu _ _ _ E) as (E1 & _). destruct ls as [|l r]; [cbn [fine LM] in *; lia|].
  bi restore_ok. intros [] s2 (H1 & _). destruct (starts_continuation _); [eapply fine_weaken; [apply use_conts; lia|]; cbn; intros; lia|]. destruct (starts_nested _ _ _); [|cbn [fine]; lia].
  eapply fine_bind; [apply use_block; lia|]. intros b s3 (H3 & _). cbn [fine]. lia.
Qed.
Lemma desc_item_ok mk l r s : 4 * (lm l + LM r + mu s) < n + 2 -> fine (fun _ s' => mu s' < lm l + LM r + mu s) (desc_item P rec mk l r s).
Proof.
  intros H. unfold desc_item. bi desc_term_ok. intros x s1 (T1 & T2). eapply fine_bind with (Q := fun _ s' => mu s' < lm l + LM r + mu s).
  { destruct (toks (snd x)) eqn:T.
    - bi restore_ok. intros [] s2 (H1 & _). pose proof (lm_pos l). eapply fine_weaken; [apply use_extra; lia|]. cbn. intros. lia.
    - bi restore_ok. intros [] s2 (H1 & _). pose proof (LM_restore (snd x) r). cbn [fine]. lia. }
  intros more s2 M2. eapply fine_bind; [apply use_block; lia|]. intros d s3 (H3 & _). eapply fine_bind; [apply desc_blocks_ok; lia|]. intros bs s4 H4. cbn [fine]. lia.
Qed.
Lemma list_item_ok m s : 4 * mu s + 1 < S n -> fine (fun i s' => mu s' <= mu s /\ (i <> None -> mu s' < mu s) /\ (begins s -> i <> None)) (list_item P rec m s).
Proof.
  intros H. unfold list_item. destruct (read_lines s) as [ls s1] eqn:E. destruct (read_mu _ _ _ E) as (E1 & _ & E3).
  assert (B : begins s -> exists l r mk, ls = l :: r /\ list_marker l = Some mk /\ LS.continues_current_list (stk s1) mk = true).
  { intros (l & r & mk & B1 & B2 & B3). unfold read_lines in E. rewrite B1 in E. injection E as <- <-. exists l, r, mk. auto. }
  destruct ls as [|l r]. { cbn [fine LM] in *. split; [lia|]. split; [congruence|]. intros Hb. destruct (B Hb) as (? & ? & ? & ? & _). discriminate. }
  destruct (list_marker l) as [mk|] eqn:K.
  2:{ bi restore_ok. intros [] s2 (H1 & _). cbn [fine]. split; [lia|]. split; [congruence|]. intros Hb. destruct (B Hb) as (? & ? & ? & [= <- <-] & Q & _). congruence. }
  destruct (LS.continues_current_list (stk s1) mk) eqn:C; cbn [negb].
  2:{ bi restore_ok. intros [] s2 (H1 & _). cbn [fine]. split; [lia|]. split; [congruence|]. intros Hb. destruct (B Hb) as (? & ? & ? & [= <- <-] & Q & Z). congruence. }
  clear B. rewrite LM_cons in E1. assert (T : lm (trim_leading l) <= lm l) by (apply lm_adv_le, weight_trim). destruct (is_description m).
  { eapply fine_bind; [apply desc_item_ok; lia|]. intros i s2 H2. cbn [fine]. repeat split; try congruence; lia. }
  destruct (consume_until Whitespace _) as [[x rest]|] eqn:U; [|exact I]. apply consume_weight in U. destruct (discard_assert Whitespace rest) as [rest2|] eqn:D; [|exact I]. apply assert_weight in D.
  set (cr := match m with LS.Star _ | LS.Dash => _ | _ => _ end). assert (W : weight (snd cr) <= weight rest2).
  { unfold cr. destruct m; cbn [snd]; try lia; (destruct (checklist rest2) as [[b q]|] eqn:Q; [apply checklist_weight in Q; exact Q|cbn [snd]; lia]). }
  clearbody cr. destruct cr as [check rest3]. cbn [snd] in W. destruct (principle_lines r) as [more r2] eqn:PL. apply principle_LM in PL.
  bi inlines_ok. intros y s2 (_ & _ & I1 & _). pose proof (lm_pos l). eapply fine_bind; [apply item_blocks_ok; lia|]. intros bs s3 H3. cbn [fine]. repeat split; try congruence; lia.
Qed.

(** *** Sections *)
Lemma peek_ok s : 4 * mu s + 1 < S n -> fine (prog Peek s) (peek_section P rec s).
Proof.
  intros H. unfold peek_section. destruct (read_lines s) as [ls s1] eqn:E. destruct (read_mu _ _ _ E) as (E1 & _). destruct ls as [|l r]; [cbn [fine LM prog] in *; lia|].
  pose proof (drop_comments_LM (l :: r)) as D. destruct (drop_comments (l :: r)) as [|l1 r1] eqn:DC.
  - rewrite LM_cons in E1. pose proof (lm_pos l). eapply fine_weaken; [apply (R _ Peek s1 eq_refl); cbn [rank]; lia|]. intros p s2. cbn [prog]. destruct p; intros; lia || (destruct H1; split; [lia|assumption]).
  - bi chunk_meta_ok. intros x s2 (M1 & M2 & _). destruct (snd x) as [|l2 r2] eqn:X.
    + bi restore_meta_ok. intros [] s3 (G & _). cbn [fine prog]. destruct (meta_empty (fst x)); [|change (mu (problem_at Unattached s2)) with (mu s2) in G]; lia.
    + destruct (heading_level P (toks l2)); [cbn [fine prog ps_lines]; split; [lia|discriminate]|]. bi restore_peeked_ok. intros [] s3 (G & _). cbn [fine prog]. lia.
Qed.
Lemma peeked_ok p s : 4 * (LM (ps_lines p) + mu s) < n + 2 -> fine (fun _ s' => mu s' < LM (ps_lines p) + mu s) (peeked_to_section P rec p s).
Proof.
  intros H. unfold peeked_to_section. destruct (ps_lines p) as [|l r]; [exact I|]. destruct (heading_text l) as [h|]; [|exact I]. rewrite LM_cons in *. pose proof (lm_pos l).
  set (s1 := if (_ : bool) then problem_at OutOfSequence _ else _). assert (M1 : mu s1 = mu s) by (unfold s1; destruct (_ && _); reflexivity). clearbody s1. bi inlines_ok. intros x s2 (_ & _ & I1 & _).
  set (s3 := match positional_at 0 (ps_meta p) with Some y => _ | None => s2 end). assert (M3 : mu s3 = mu s2) by (unfold s3; destruct (positional_at 0 (ps_meta p)) as [y|]; [destruct (bytes_eqb _ _)|]; reflexivity). clearbody s3.
  bi restore_ok. intros [] s4 (H4 & _). eapply fine_bind; [apply use_blocks; lia|]. intros bs s5 H5. cbn [fine]. change (mu (with_level (level s) (with_bib NoBib s5))) with (mu s5). lia.
Qed.
Lemma use_peek s : 4 * mu s + 1 < n -> fine (prog Peek s) (rec _ Peek s).
Proof. intros H. exact (R _ Peek s eq_refl H). Qed.
Lemma section_ok s : 4 * mu s + 1 < n -> fine (fun x s' => mu s' <= mu s /\ (x <> None -> mu s' < mu s)) (section P rec s).
Proof.
  intros H. unfold section. eapply fine_bind; [apply use_peek; lia|]. intros p s1 Q. cbn [prog] in Q. destruct p as [p|]; [|cbn [fine]; split; [lia|congruence]]. destruct Q as [Q _]. destruct (semantic p =? 0).
  - destruct (book P); [bi restore_peeked_ok; intros [] s2 (G & _); cbn [fine]; split; [lia|congruence]|].
    eapply fine_bind; [apply peeked_ok; change (mu (problem_at LevelZero s1)) with (mu s1); lia|]. intros x s2 G. change (mu (problem_at LevelZero s1)) with (mu s1) in G. cbn [fine]. split; [lia|]. intros _. lia.
  - eapply fine_bind; [apply peeked_ok; lia|]. intros x s2 G. cbn [fine]. split; [lia|]. intros _. lia.
Qed.

(** *** Blocks *)
Lemma chunk_ok ls m s : 4 * (LM ls + mu s) + 2 < S n -> fine (fun b s' => mu s' <= LM ls + mu s /\ (b <> None -> mu s' < LM ls + mu s)) (chunk P rec ls m s).
Proof.
  intros H.
  assert (W : forall o : out (option blk), fine (fun _ s' => mu s' < LM ls + mu s) o -> fine (fun b s' => mu s' <= LM ls + mu s /\ (b <> None -> mu s' < LM ls + mu s)) o).
  { intros o F. eapply fine_weaken; [exact F|]. cbn. intros. split; [lia|auto]. }
  unfold chunk. destruct ls as [|l r] eqn:L; [exact I|]. destruct (toks l) as [|t ts] eqn:T; [exact I|]. rewrite <- L in *. rewrite <- T.
  destruct (is_block_macro (toks l)). { destruct (existsb _ _); apply W; [apply of_line_ok|apply plugin_ok]. }
  destruct (starts_list ls). { apply W. eapply fine_bind; [apply a_list_ok; lia|]. intros b s1 G. exact G. }
  destruct (_ && is_discrete m); [apply W, discrete_ok|].
  destruct (is_k DelimiterLine t). { destruct (match delim s with Some _ => _ | None => _ end); [|apply W, delimited_ok; lia]. bi restore_ok. intros [] s1 (G & _). cbn [fine]. split; [lia|congruence]. }
  destruct (LineModel.one_of _ t && _); [apply W, table_ok|].
  destruct (is_k GreaterThan t && _) eqn:G. { apply W, markdown_ok; [lia|]. exists l, r. split; [exact L|]. rewrite T. apply andb_prop in G. unfold current_is, hd_error, at_k. tauto. }
  destruct (is_k AttrDef t). { bi restore_ok. intros [] s1 (G1 & _). cbn [fine]. rewrite L, LM_cons. pose proof (lm_pos l). split; [lia|]. intros _. lia. }
  destruct (_ && thematic _); [apply W, of_line_ok|]. destruct (is_quoted _ _); [apply W, quoted_ok|]. apply paragraph_ok.
Qed.
Lemma block_ok s : 4 * mu s + 2 < S n -> fine (prog Block s) (block P rec s).
Proof.
  intros H. unfold block. destruct (read_lines s) as [ls s1] eqn:E. destruct (read_mu _ _ _ E) as (E1 & _). destruct ls as [|l r]; [cbn [fine LM prog] in *; split; [lia|congruence]|].
  destruct (comment_block (l :: r)) as [ls2|] eqn:C.
  2:{ rewrite LM_cons in E1. pose proof (lm_pos l). destruct (pmeta s1) as [m|]; [destruct (meta_empty m); [|exact I]|]; cbn [fine prog]; [change (mu (with_pmeta None s1)) with (mu s1)|]; (split; [lia|intros _; lia]). }
  apply comment_block_LM in C. assert (0 < LM (l :: r)) by (apply LM_nonempty; discriminate). bi chunk_meta_ok. intros x s2 (M1 & M2 & _).
  assert (K : forall n0 : nat, 4 * (LM (snd x) + mu s2) + 2 < S n -> fine (prog Block s) (chunk P rec (snd x) (fst x) s2)).
  { intros _ K. eapply fine_weaken; [apply chunk_ok; exact K|]. intros b s3 (G1 & G2). cbn [prog]. split; [lia|]. intros G. specialize (G2 G). lia. }
  destruct (snd x) as [|l2 r2] eqn:X.
  - eapply fine_weaken; [apply use_block; change (mu (problem_at Unattached s2)) with (mu s2); lia|]. intros b s3 (G1 & G2). change (mu (problem_at Unattached s2)) with (mu s2) in *. cbn [prog]. split; [lia|]. intros G. specialize (G2 G). lia.
  - destruct (section_start P (l2 :: r2) (fst x)) as [lv|]; [|apply (K 0); lia]. destruct (_ && is_some _); [apply (K 0); lia|]. bi restore_peeked_ok. intros [] s3 (G & _).
    destruct (_ || _); [cbn [fine prog]; split; [lia|congruence]|]. eapply fine_bind; [apply section_ok; lia|]. intros y s4 (G1 & G2). destruct y as [z|]; [|exact I]. cbn [fine prog]. specialize (G2 ltac:(discriminate)). split; [lia|intros _; lia].
Qed.

(** *** Documents *)
Lemma use_sections s : 4 * mu s + 3 < n -> fine (fun _ s' => mu s' <= mu s) (rec _ SectionLoop s).
Proof. intros H. exact (R _ SectionLoop s eq_refl H). Qed.
Lemma sectioned_ok s : 4 * mu s + 3 < n -> fine (fun _ s' => mu s' <= mu s) (sectioned rec s).
Proof. intros H. unfold sectioned. eapply fine_bind; [apply use_blocks; lia|]. intros bs s1 H1. eapply fine_bind; [apply use_sections; lia|]. intros ss s2 H2. cbn [fine]. lia. Qed.
Lemma special_ok s : 4 * mu s + 1 < n -> fine (fun x s' => mu s' <= mu s /\ (x <> None -> mu s' < mu s)) (special_sect P rec s).
Proof.
  intros H. unfold special_sect. eapply fine_bind; [apply use_peek; lia|]. intros p s1 Q. cbn [prog] in Q. destruct p as [p|]; [|cbn [fine]; split; [lia|congruence]]. destruct Q as [Q _]. destruct (special P p).
  - eapply fine_bind; [apply peeked_ok; cbn [ps_lines]; lia|]. intros x s2 G. cbn [ps_lines] in G. cbn [fine]. split; [lia|]. intros _. lia.
  - bi restore_peeked_ok. intros [] s2 (G & _). cbn [fine]. split; [lia|congruence].
Qed.
Lemma part_ok s : 4 * mu s + 1 < n -> fine (fun x s' => mu s' <= mu s /\ (x <> None -> mu s' < mu s)) (book_part P rec s).
Proof.
  intros H. unfold book_part. eapply fine_bind; [apply use_peek; lia|]. intros p s1 Q. cbn [prog] in Q. destruct p as [p|]; [|cbn [fine]; split; [lia|congruence]]. destruct Q as [Q _]. destruct (_ || special P p).
  - bi restore_peeked_ok. intros [] s2 (G & _). cbn [fine]. split; [lia|congruence].
  - destruct (ps_lines p) as [|l r]; [exact I|]. destruct (toks l) as [|t ts]; [exact I|]. destruct (discard_assert Whitespace ts) as [ts2|]; [|exact I]. rewrite LM_cons in Q. pose proof (lm_pos l).
    bi inlines_ok. intros h s2 (_ & _ & I1 & _). eapply fine_bind; [apply sectioned_ok; lia|]. intros x s3 G. cbn [fine].
    assert (mu (match snd x with [] => problem_at EmptyPart s3 | _ :: _ => s3 end) = mu s3) by (destruct (snd x); reflexivity). split; [lia|]. intros _. lia.
Qed.
Lemma one_more_ok {A : Set} (loop : call (list A)) (x : option A) s s0 :
  (forall s, 4 * mu s + rank loop < n -> fine (fun _ s' => mu s' <= mu s) (rec _ loop s)) -> mu s <= mu s0 -> (x <> None -> mu s < mu s0) -> 4 * mu s0 + rank loop < S n -> rank loop < 4 ->
  fine (fun _ s' => mu s' <= mu s /\ mu s' <= mu s0) (one_more rec loop x s).
Proof.
  intros L H1 H2 H3 H4. unfold one_more. destruct x as [a|]; [|cbn [fine]; lia]. specialize (H2 ltac:(discriminate)). eapply fine_bind; [apply L; lia|]. intros r s2 G. cbn [fine]. cbn in G. lia.
Qed.
Lemma step_ok (A : Set) (c : call A) s : is_book c = false -> 4 * mu s + rank c < S n -> fine (prog c s) (step P rec A c s).
Proof.
  intros B H. destruct c; cbn [is_book rank step prog] in *; try discriminate B.
  - apply block_ok. exact H.
  - eapply fine_bind; [apply use_block; lia|]. intros b s1 (G1 & G2). eapply fine_weaken; [apply (one_more_ok BlockLoop b s1 s); [exact use_blocks|exact G1|exact G2|exact H|cbn; lia]|]. cbn. intros. lia.
  - eapply fine_bind; [apply list_item_ok; lia|]. intros i s1 (G1 & G2 & G3).
    eapply fine_weaken; [apply (one_more_ok (ItemLoop m) i s1 s)|]; [|exact G1|exact G2|exact H|cbn; lia|].
    + intros s2 L. eapply fine_weaken; [apply (R _ (ItemLoop m) s2 eq_refl L)|]. intros x s3 [G _]. exact G.
    + cbn. intros x s2 (Q1 & Q2). split; [exact Q2|]. intros Hb. specialize (G2 (G3 Hb)). lia.
  - apply continuations_ok. exact H.
  - apply extra_ok. exact H.
  - apply peek_ok. exact H.
  - eapply fine_bind; [apply section_ok; lia|]. intros b s1 (G1 & G2). eapply fine_weaken; [apply (one_more_ok SectionLoop b s1 s); [exact use_sections|exact G1|exact G2|exact H|cbn; lia]|]. cbn. intros. lia.
  - eapply fine_bind; [apply special_ok; lia|]. intros b s1 (G1 & G2). eapply fine_weaken; [apply (one_more_ok SpecialLoop b s1 s); [|exact G1|exact G2|exact H|cbn; lia]|]; [intros s2 L; exact (R _ SpecialLoop s2 eq_refl L)|]. cbn. intros. lia.
  - eapply fine_bind; [apply part_ok; lia|]. intros b s1 (G1 & G2). eapply fine_weaken; [apply (one_more_ok PartLoop b s1 s); [|exact G1|exact G2|exact H|cbn; lia]|]; [intros s2 L; exact (R _ PartLoop s2 eq_refl L)|]. cbn. intros. lia.
Qed.
End Steps.
Lemma run_ok P : forall n, ok n (run n P).
Proof. induction n as [|n IH]; intros A c s B H; [lia|]. cbn [run]. apply (step_ok P (run n P) n IH A c s B H). Qed.
