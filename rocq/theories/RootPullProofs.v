(** Lemmas about reading lines and pulling a whole document through includes. *)
From Verif Require Import Base Utf8 LexerModel LexerSpec LexerProofs RootModel RootSpec RootProofs RootStepProofs.
From Coq Require Import Sorted.

(** *** the fuel of the token loop is enough *)
Definition upto (g : nat -> nat) (n : nat) : nat := list_sum (map g (seq 0 n)).
Lemma upto_S g n : upto g (S n) = upto g n + g n.
Proof. unfold upto. rewrite seq_S, map_app, list_sum_app. cbn. lia. Qed.
Lemma upto_le g m n : m <= n -> upto g m <= upto g n.
Proof. induction 1; [lia|]. rewrite upto_S. lia. Qed.
Lemma sorted_upto g l n : StronglySorted (fun i j => j < i) l -> (forall i, In i l -> i < n) -> list_sum (map g l) <= upto g n.
Proof.
  intro SS. revert n. induction SS as [|i l SS IH F]; intros n H; [cbn; lia|]. cbn [map list_sum fold_right].
  rewrite Forall_forall in F. specialize (IH i F). pose proof (H i (or_introl eq_refl)) as L.
  pose proof (upto_le g (S i) n L). rewrite upto_S in *. unfold list_sum in *. lia.
Qed.
Lemma upto_shift g n : upto g (S n) = g 0 + upto (fun i => g (S i)) n.
Proof. unfold upto. cbn [seq map list_sum fold_right]. rewrite <- seq_shift, map_map. reflexivity. Qed.
Lemma upto_list {A} (f : A -> nat) l : list_sum (map f l) = upto (fun i => match nth_error l i with Some x => f x | None => 0 end) (length l).
Proof. induction l as [|a l IH]; [reflexivity|]. cbn [length]. rewrite upto_shift. cbn [nth_error map list_sum fold_right]. fold (list_sum (map f l)). rewrite IH. reflexivity. Qed.
Definition every (_ : nat) : bool := true.
Lemma W_left r : inv r -> tmp r = None -> W every r <= left_over r.
Proof.
  intros [C T G Nx] ET. unfold left_over, W, weigh. rewrite ET. cbn [Nat.add]. destruct C as [S F].
  rewrite (upto_list (fun s => left_in (s_lex s)) (sources r)). etransitivity; [apply (sorted_upto _ _ (length (sources r)) S)|].
  - intros i I. rewrite Forall_forall in F. destruct (F i I) as (s & E & _). apply nth_error_Some. congruence.
  - unfold upto. apply Nat.eq_le_incl. f_equal. apply map_ext. intro i. cbn. destruct (nth_error (sources r) i); reflexivity.
Qed.
Lemma W_text r : tmp r = None -> W every r = length (unread r).
Proof.
  intro ET. rewrite unread_text, ET. cbn [app]. unfold W, weigh, text, every. induction (live r) as [|i l IH]; [reflexivity|].
  cbn [map list_sum fold_right concat]. rewrite app_length. fold (list_sum (map (fun i => length (match nth_error (sources r) i with Some s => rest (s_lex s) | None => [] end)) l)).
  cbn in IH. rewrite <- IH. reflexivity.
Qed.

(** *** a line *)
Lemma read_tokens_good plugins : forall fuel r, inv r -> tmp r = None -> W every r < fuel ->
  exists ks r', read_tokens plugins fuel r = Ret (ks, r') /\ inv r' /\ unread r = concat (map k_lexeme ks) ++ unread r' /\
    Forall (fun k => k_kind k <> Eof /\ k_lexeme k <> [] /\ lexeme_of plugins (k_kind k) (k_lexeme k)) ks /\
    ((ks = [] /\ r' = r) \/ (calm r r' /\ ate r r')) /\ (exists o, peek r' = Ret o /\ (o = None \/ o = Some LF \/ o = Some CR)).
Proof.
  induction fuel as [|f IH]; intros r I ET L; [lia|]. cbn [read_tokens]. unfold at_newline, is_eof.
  destruct (peek_good r I) as (o & E & S & N). rewrite E. destruct o as [c|].
  - cbn [is]. destruct (Ascii.eqb c LF || Ascii.eqb c CR) eqn:NL.
    + exists [], r. do 3 sp. split; [constructor|]. split; [left; auto|]. exists (Some c). sp.
      apply orb_prop in NL as [H|H]; apply Ascii.eqb_eq in H; subst; auto.
    + destruct (S c eq_refl) as (t & U). destruct (next_tok_good plugins r I) as (k & r1 & E1 & I1 & [U1 K1] & L1). rewrite E1.
      destruct K1 as [(_ & _ & K)|[K1 K2]]; [congruence|].
      assert (KE : k_kind k <> Eof) by (intro Q; rewrite Q in K2; exact (lexeme_not_eof _ _ K2)).
      destruct (next_tok_calm plugins r k r1 I ET E1 KE) as (C1 & A1 & _).
      destruct (IH r1 I1 (c_tmp _ _ C1)) as (ks & r2 & E2 & I2 & U2 & F2 & D2 & P2).
      { specialize (A1 every eq_refl). lia. }
      rewrite E2. exists (k :: ks), r2. do 2 sp. split; [cbn [map concat]; rewrite <- app_assoc, <- U2; exact U1|].
      split; [constructor; auto|]. split; [|exact P2]. right. destruct D2 as [[-> ->]|[C2 A2]]; [auto|].
      split; [eapply calm_trans; eauto|]. intros P H. specialize (A2 P H). pose proof (c_w _ _ C1 P). lia.
  - cbn [is orb]. exists [], r. do 3 sp. split; [constructor|]. split; [left; auto|]. exists None. auto.
Qed.
Lemma read_line_good plugins r : inv r -> tmp r = None ->
  (read_line plugins r = Ret (None, r) /\ peek r = Ret None) \/
  exists ks r' nl, read_line plugins r = Ret (Some ks, r') /\ inv r' /\ calm r r' /\ ate r r' /\
    unread r = concat (map k_lexeme ks) ++ nl ++ unread r' /\ In nl [[]; [LF]; [CR]; [CR; LF]] /\ (nl = [] -> peek r' = Ret None) /\
    Forall (fun k => k_kind k <> Eof /\ k_lexeme k <> [] /\ lexeme_of plugins (k_kind k) (k_lexeme k)) ks.
Proof.
  intros I ET. unfold read_line, is_eof. destruct (peek_good r I) as (o & E & S & N). rewrite E. destruct o as [c|]; [right|left; auto].
  destruct (read_tokens_good plugins (Datatypes.S (left_over r)) r I ET) as (ks & r1 & E1 & I1 & U1 & F1 & D1 & (o & P1 & PO)).
  { pose proof (W_left r I ET). lia. }
  rewrite E1. destruct (skip_newline_good r1 I1) as (r2 & nl & E2 & I2 & L2 & U2 & NL & D2). rewrite E2.
  exists ks, r2, nl. do 2 sp. assert (T1 : tmp r1 = None) by (destruct D1 as [[? ->]|[C1 ?]]; [exact ET|apply (c_tmp _ _ C1)]).
  assert (CA : calm r r2 /\ ate r r2).
  { destruct D2 as [(? & -> & (o' & P2 & Q1 & Q2))|[_ D2]].
    - rewrite P1 in P2. injection P2 as <-. destruct PO as [PO|[PO|PO]]; subst o; [|congruence|congruence].
      destruct D1 as [[? ?]|D1]; [subst; rewrite E in P1; discriminate|exact D1].
    - destruct (D2 T1) as [C2 A2]. destruct D1 as [[-> ->]|[C1 A1]]; [auto|]. split; [eapply calm_trans; eauto|].
      intros P H. specialize (A2 P H). pose proof (c_w _ _ C1 P). lia. }
  destruct CA as [CA AT]. do 2 sp. split; [rewrite U1, U2; reflexivity|]. sp. split; [|exact F1].
  intros ->. destruct D2 as [(? & -> & (o' & P2 & Q1 & Q2))|[Q _]]; [|congruence]. rewrite P1 in P2. injection P2 as <-.
  destruct PO as [-> | [-> | ->]]; [exact P1|congruence|congruence].
Qed.

(** *** the depth check *)
Lemma exceeded_none checked limit r : exceeded checked limit r = Ret None -> idx r < limit.
Proof.
  unfold exceeded. destruct (match max_include_depth r with Some p => p | None => (limit, 0) end) as [rel base].
  destruct (checked && (65535 <? N.of_nat (rel + base))%N); [discriminate|].
  destruct (Nat.min (to_u16 (rel + base)) limit <? idx r + 1) eqn:E; [discriminate|]. intros _. apply Nat.ltb_ge in E. lia.
Qed.

Lemma exceeded_panic checked limit r : exceeded checked limit r = Panic -> checked = true.
Proof.
  unfold exceeded. destruct (match max_include_depth r with Some p => p | None => (limit, 0) end) as [rel base].
  destruct checked; [reflexivity|]. cbn [andb]. discriminate.
Qed.

(** *** pulling ends *)
Lemma exact_after_blank r : (stack r = [] \/ source_rest r (idx r) <> []) -> tmp r = None -> next_idx r = None -> inv r ->
  peek r = Ret None -> unread r = [].
Proof.
  intros H ET EN I P. destruct (peek_good r I) as (o & E & _ & N). rewrite P in E. injection E as <-.
  destruct (N eq_refl) as (_ & _ & R & _). destruct H as [H|H]; [|congruence]. unfold unread, live. rewrite ET, EN, H. cbn. rewrite R. reflexivity.
Qed.
Definition low (limit i : nat) : bool := i <? limit.
Definition high (limit i : nat) : bool := negb (i <? limit).
Lemma push_full s d r : N.of_nat (length (sources r)) = 65535%N -> push_source s d r = Panic.
Proof.
  intro H. unfold push_source. replace (to_u16 _) with 0; [reflexivity|]. unfold to_u16. rewrite app_length. cbn [length].
  rewrite Nat2N.inj_add, H. reflexivity.
Qed.
Definition fits16 (r : root) : Prop := (N.of_nat (length (sources r)) <= 65535)%N.
Definition bad (checked : bool) (w : world) : Prop :=
  checked = true \/ exists seen s, (65535 <= N.of_nat (length seen))%N /\ rp_include (w seen) = Some s.
Lemma pull_ends checked limit w plugins : utf8_world w -> forall m1 m2 m3 (b : bool) r seen, inv r -> tmp r = None -> fits16 r -> length (sources r) <= S (length seen) ->
  limit - length (sources r) <= m1 -> W (low limit) r <= m2 -> W (high limit) r <= m3 ->
  exists fuel, (exists seen' r', pull checked limit w plugins fuel b seen r = Ret (Some (seen', r')) /\ inv r' /\ unread r' = []) \/
    pull checked limit w plugins fuel b seen r = Panic /\ bad checked w.
Proof.
  intro UW. induction m1 as [m1 IH1] using lt_wf_ind. induction m2 as [m2 IH2] using lt_wf_ind. induction m3 as [m3 IH3] using lt_wf_ind.
  assert (STEP : forall r seen, inv r -> tmp r = None -> fits16 r -> length (sources r) <= S (length seen) -> limit - length (sources r) <= m1 -> W (low limit) r <= m2 -> W (high limit) r <= m3 ->
    (read_line plugins r = Ret (None, r) /\ peek r = Ret None) \/
    exists line r1, read_line plugins r = Ret (Some line, r1) /\
      exists fuel, match (match rp_include (w (seen ++ [line])) with Some (s, d) => try_include checked limit s d r1 | None => Ret r1 end) with
                   | Panic => bad checked w
                   | Ret r2 => (exists seen' r', pull checked limit w plugins fuel (rp_skip_blank (w (seen ++ [line]))) (seen ++ [line]) r2 = Ret (Some (seen', r')) /\ inv r' /\ unread r' = []) \/
                       pull checked limit w plugins fuel (rp_skip_blank (w (seen ++ [line]))) (seen ++ [line]) r2 = Panic /\ bad checked w
                   end).
  { intros r seen I ET F16 LN L1 L2 L3. destruct (read_line_good plugins r I ET) as [H|(ks & r1 & nl & E & I1 & C1 & A1 & _)]; [left; exact H|right].
    exists ks, r1. split; [exact E|].
    assert (GO : forall r2 b2 seen2, inv r2 -> tmp r2 = None -> fits16 r2 -> length (sources r2) <= S (length seen2) -> limit - length (sources r2) <= m1 ->
       ((W (low limit) r2 < W (low limit) r) \/ (W (low limit) r2 <= W (low limit) r /\ W (high limit) r2 < W (high limit) r)) ->
       exists fuel, (exists seen' r', pull checked limit w plugins fuel b2 seen2 r2 = Ret (Some (seen', r')) /\ inv r' /\ unread r' = []) \/
         pull checked limit w plugins fuel b2 seen2 r2 = Panic /\ bad checked w).
    { intros r2 b2 seen2 I2 T2 S2 LN2 M1 [M2|[M2 M3]].
      - apply (IH2 (W (low limit) r2)) with (m3 := W (high limit) r2); auto; lia.
      - apply (IH3 (W (high limit) r2)); auto; lia. }
    assert (PR : (W (low limit) r1 < W (low limit) r) \/ (W (low limit) r1 <= W (low limit) r /\ W (high limit) r1 < W (high limit) r)).
    { pose proof (A1 (low limit)) as X. pose proof (A1 (high limit)) as Y. pose proof (c_w _ _ C1 (low limit)). unfold low, high in *.
      destruct (idx r1 <? limit); auto. }
    pose proof (c_len _ _ C1) as LL. pose proof (c_tmp _ _ C1) as T1. assert (F1 : fits16 r1) by (unfold fits16; rewrite LL; exact F16).
    set (seen2 := seen ++ [ks]). assert (LEN : length seen2 = S (length seen)) by (unfold seen2; rewrite app_length; cbn; lia). set (b2 := rp_skip_blank _). clearbody b2.
    destruct (rp_include (w seen2)) as [[s d]|] eqn:EI; [|apply GO; auto; lia].
    unfold try_include. destruct (exceeded checked limit r1) as [[x|]|] eqn:EX; [apply GO; auto; lia| |exists 0; left; eapply exceeded_panic; eauto].
    pose proof (exceeded_none _ _ _ EX) as LT.
    destruct (N.ltb_spec (N.of_nat (length (sources r1))) 65535) as [SZ|SZ].
    - destruct (push_good s d r1 I1 (c_next _ _ C1) SZ (UW _ _ _ EI)) as (r2 & E2 & I2 & S2 & N2 & _ & _ & T2 & _ & _ & W2). rewrite E2.
      assert (LS : length (sources r2) = S (length (sources r1))) by (rewrite S2, app_length; cbn; lia).
      assert (F2 : fits16 r2) by (unfold fits16 in *; rewrite LS; lia).
      destruct (Nat.lt_ge_cases (length (sources r1)) limit) as [LO|HI].
      + assert (MM : limit - length (sources r2) < m1) by lia.
        destruct (IH1 _ MM (W (low limit) r2) (W (high limit) r2) b2 r2 seen2 I2) as (fuel & H); try congruence; try lia. exists fuel. exact H.
      + apply GO; [exact I2|congruence|exact F2|lia|lia|]. left. rewrite W2. unfold low at 1.
        replace (length (sources r1) <? limit) with false by (symmetry; apply Nat.ltb_ge; exact HI).
        pose proof (A1 (low limit)) as X. unfold low in *. apply Nat.ltb_lt in LT. specialize (X LT). cbn [Nat.add]. exact X.
    - rewrite push_full; [exists 0; right|unfold fits16 in F1; lia]. exists seen2, (s, d). split; [|exact EI]. rewrite LEN. unfold fits16 in F1. lia. }
  assert (FINISH : forall r seen line r1 fuel, 
    match (match rp_include (w (seen ++ [line])) with Some (s, d) => try_include checked limit s d r1 | None => Ret r1 end) with
                   | Panic => bad checked w
                   | Ret r2 => (exists seen' r', pull checked limit w plugins fuel (rp_skip_blank (w (seen ++ [line]))) (seen ++ [line]) r2 = Ret (Some (seen', r')) /\ inv r' /\ unread r' = []) \/
                       pull checked limit w plugins fuel (rp_skip_blank (w (seen ++ [line]))) (seen ++ [line]) r2 = Panic /\ bad checked w
                   end ->
    read_line plugins r = Ret (Some line, r1) -> forall (b : bool) r0, (if b then consume_empty_lines r0 else Ret r0) = Ret r ->
    (exists seen' r', pull checked limit w plugins (S fuel) b seen r0 = Ret (Some (seen', r')) /\ inv r' /\ unread r' = []) \/
    pull checked limit w plugins (S fuel) b seen r0 = Panic /\ bad checked w).
  { intros r seen line r1 fuel H E b r0 E0. cbn [pull]. rewrite E0, E.
    destruct (match rp_include (w (seen ++ [line])) with Some (s, d) => try_include checked limit s d r1 | None => Ret r1 end) as [r2|]; [|right; split; [reflexivity|exact H]].
    destruct H as [(seen' & r' & H & H')|[H HB]]; rewrite H; [left; exists seen', r'; auto|right; auto]. }
  assert (BLANK : forall r seen, inv r -> tmp r = None -> fits16 r -> length (sources r) <= S (length seen) -> limit - length (sources r) <= m1 -> W (low limit) r <= m2 -> W (high limit) r <= m3 ->
    exists fuel, (exists seen' r', pull checked limit w plugins fuel true seen r = Ret (Some (seen', r')) /\ inv r' /\ unread r' = []) \/
      pull checked limit w plugins fuel true seen r = Panic /\ bad checked w).
  { intros r seen I ET F16 LN L1 L2 L3. destruct (consume_good r I) as (r0 & bl & E0 & I0 & LL & _ & T0 & N0 & _ & C0 & X0).
    specialize (C0 ET). pose proof (c_w _ _ C0 (low limit)). pose proof (c_w _ _ C0 (high limit)).
    assert (F0 : fits16 r0) by (unfold fits16; rewrite LL; exact F16).
    destruct (STEP r0 seen I0 (c_tmp _ _ C0) F0) as [[E P]|(line & r1 & E & fuel & H1)]; try lia.
    - exists 1. left. exists seen, r0. cbn [pull]. rewrite E0, E. split; [reflexivity|]. split; [exact I0|].
      apply exact_after_blank; auto. congruence.
    - exists (S fuel). exact (FINISH _ _ _ _ _ H1 E true r E0). }
  intros [|] r seen I ET F16 LN L1 L2 L3; [apply BLANK; auto|].
  destruct (STEP r seen I ET F16 LN L1 L2 L3) as [[E P]|(line & r1 & E & fuel & H1)].
  - destruct (BLANK r seen I ET F16 LN L1 L2 L3) as (fuel & H). exists (S fuel). cbn [pull]. rewrite E. exact H.
  - exists (S fuel). exact (FINISH _ _ _ _ _ H1 E false r eq_refl).
Qed.

(** *** nesting *)
Definition shallow (limit : nat) (r : root) : Prop := Forall (fun i => i < limit) (tl (live r)).
Lemma shallow_suffix limit r r' pre : live r = pre ++ live r' -> live r' <> [] -> shallow limit r -> shallow limit r'.
Proof.
  unfold shallow. intros -> NE H. destruct pre as [|a pre]; [exact H|]. cbn [app tl] in H. apply Forall_app in H as [_ H].
  destruct (live r'); [congruence|]. inversion H; assumption.
Qed.
Lemma live_nonempty r : live r <> [].
Proof. unfold live. destruct (next_idx r); discriminate. Qed.
Lemma shallow_bound limit r : inv r -> shallow limit r -> nesting r <= limit.
Proof.
  intros [[SS _] _ _ _] H. unfold nesting, shallow in *. destruct (live r) as [|i l]; [cbn; lia|]. cbn [tl length] in *.
  inversion SS as [|? ? S2 _]; subst. pose proof (sorted_upto (fun _ => 1) l limit S2) as X. rewrite Forall_forall in H. specialize (X H).
  assert (E1 : forall q : list nat, list_sum (map (fun _ => 1) q) = length q) by (induction q as [|? ? IHq]; cbn in *; auto).
  rewrite E1 in X. unfold upto in X. rewrite E1, seq_length in X. lia.
Qed.
Lemma next_tok_live plugins r k r' : inv r -> next_tok plugins r = Ret (k, r') -> exists pre, live r = pre ++ live r'.
Proof.
  intros [C T G Nx]. unfold next_tok. destruct (tmp r) as [[l b]|] eqn:ET.
  - destruct G as [Gl NE]. destruct (next_more [] l Gl NE) as (k' & s & z & N & _). rewrite N. intro E. injection E as _ <-. exists []. reflexivity.
  - destruct (advance_same r) as (A1 & A2 & A3 & A4). set (r1 := maybe_advance_source r) in *. clearbody r1.
    rewrite <- A4, <- A1 in C.
    destruct (read_from_good plugins _ _ _ C) as (k' & i' & st' & srcs' & H1 & _ & _ & (pre & H4) & _). rewrite H1.
    intro E. injection E as _ <-. exists pre. rewrite <- A4. exact H4.
Qed.
Lemma skip_byte_live r c t r' : inv r -> unread r = c :: t -> between 0 127 c = true -> skip_byte r = Ret r' -> exists pre, live r = pre ++ live r'.
Proof.
  intros I U A E. destruct (skip_byte_good r c t I U A) as (r'' & E' & _ & _ & _ & H). rewrite E in E'. injection E' as <-.
  unfold skip_byte in E. destruct (tmp r) as [[l b]|] eqn:ET; [injection E as <-; exists []; reflexivity|]. exact (c_live _ _ (proj1 (H eq_refl))).
Qed.
Lemma skip_if_live r c r' : inv r -> between 0 127 c = true -> skip_if c r = Ret r' -> exists pre, live r = pre ++ live r'.
Proof.
  intros I A. unfold skip_if, peek_is. destruct (peek_good r I) as (o & E & S & N). rewrite E. destruct o as [d|]; cbn [is].
  - destruct (Ascii.eqb_spec d c) as [->|ND]; [|intro Q; injection Q as <-; exists []; reflexivity].
    destruct (S c eq_refl) as (t & U). apply (skip_byte_live r c t r' I U A).
  - intro Q; injection Q as <-; exists []; reflexivity.
Qed.
Lemma skip_newline_live r r' : inv r -> skip_newline r = Ret r' -> exists pre, live r = pre ++ live r'.
Proof.
  intros I. unfold skip_newline. destruct (skip_if_good r CR I cr_ascii) as (r1 & E1 & I1 & _). rewrite E1. intro E.
  destruct (skip_if_live r CR r1 I cr_ascii E1) as (p & H). destruct (skip_if_live r1 LF r' I1 lf_ascii E) as (q & H').
  exists (p ++ q). rewrite H, H', app_assoc. reflexivity.
Qed.
Lemma consume_live r r' : inv r -> consume_empty_lines r = Ret r' -> exists pre, live r = pre ++ live r'.
Proof.
  intros [C T G Nx]. unfold consume_empty_lines. destruct (advance_same r) as (A1 & A2 & A3 & A4). set (r1 := maybe_advance_source r) in *. clearbody r1.
  rewrite <- A4, <- A1 in C. destruct (consume_from_good _ _ _ C) as (i' & st' & srcs' & H1 & _ & _ & _ & _ & (pre & H6) & _).
  rewrite H1. intro E. injection E as <-. exists pre. rewrite <- A4. exact H6.
Qed.
Lemma pulled_good checked limit plugins r : pulled checked limit plugins r -> inv r /\ shallow limit r.
Proof.
  induction 1 as [s U|r k r' R [I S] E|r r' R [I S] E|r r' R [I S] E|r s d r' R [I S] EN L U E|r s l R [I S] NE U].
  - split; [apply new_inv, U|constructor].
  - destruct (next_tok_live _ _ _ _ I E) as (pre & H). split; [|eapply shallow_suffix; eauto using live_nonempty].
    destruct (next_tok_good plugins r I) as (k' & r'' & E' & I' & _). rewrite E in E'. injection E' as _ <-. exact I'.
  - destruct (skip_newline_live _ _ I E) as (pre & H). split; [|eapply shallow_suffix; eauto using live_nonempty].
    destruct (skip_newline_good r I) as (r'' & nl & E' & I' & _). rewrite E in E'. injection E' as <-. exact I'.
  - destruct (consume_live _ _ I E) as (pre & H). split; [|eapply shallow_suffix; eauto using live_nonempty].
    destruct (consume_good r I) as (r'' & nl & E' & I' & _). rewrite E in E'. injection E' as <-. exact I'.
  - unfold try_include in E. destruct (exceeded checked limit r) as [[x|]|] eqn:EX; [injection E as <-; auto| |discriminate].
    destruct (push_good s d r I EN L U) as (r'' & E' & I' & _ & _ & _ & _ & _ & LV & _). rewrite E in E'. injection E' as <-. split; [exact I'|].
    unfold shallow. rewrite LV. cbn [tl]. unfold shallow, live in S. unfold live. rewrite EN in *. cbn [app tl] in *.
    constructor; [eapply exceeded_none; eauto|exact S].
  - split; [|exact S]. destruct I as [C T G Nx]. constructor; [exact C|exact T| |exact Nx]. split; [split; [reflexivity|exact U]|exact NE].
Qed.

Lemma read_tokens_reachable plugins : forall f r ks r', reachable plugins r -> read_tokens plugins f r = Ret (ks, r') -> reachable plugins r'.
Proof.
  induction f as [|f IH]; intros r ks r' R; [discriminate|]. cbn [read_tokens]. destruct (at_newline r) as [[]|], (is_eof r) as [[]|]; try discriminate;
    try (intro E; injection E as _ <-; exact R).
  destruct (next_tok plugins r) as [[k r1]|] eqn:N; [|discriminate]. destruct (read_tokens plugins f r1) as [[ks' r2]|] eqn:T; [|discriminate].
  intro E. injection E as _ <-. eapply IH; [|exact T]. eapply R_read; eauto.
Qed.
Lemma read_line_reachable plugins r o r' : reachable plugins r -> read_line plugins r = Ret (o, r') -> reachable plugins r'.
Proof.
  intros R. unfold read_line. destruct (is_eof r) as [[]|]; [intro E; injection E as _ <-; exact R| |discriminate].
  destruct (read_tokens plugins (S (left_over r)) r) as [[ks r1]|] eqn:T; [|discriminate]. destruct (skip_newline r1) as [r2|] eqn:N; [|discriminate].
  intro E. injection E as _ <-. eapply R_newline; [|exact N]. eapply read_tokens_reachable; eauto.
Qed.

Lemma read_tokens_pulled c limit plugins : forall f r ks r', pulled c limit plugins r -> read_tokens plugins f r = Ret (ks, r') -> pulled c limit plugins r'.
Proof.
  induction f as [|f IH]; intros r ks r' R; [discriminate|]. cbn [read_tokens]. destruct (at_newline r) as [[]|], (is_eof r) as [[]|]; try discriminate;
    try (intro E; injection E as _ <-; exact R).
  destruct (next_tok plugins r) as [[k r1]|] eqn:N; [|discriminate]. destruct (read_tokens plugins f r1) as [[ks' r2]|] eqn:T; [|discriminate].
  intro E. injection E as _ <-. eapply IH; [|exact T]. eapply P_read; eauto.
Qed.
Lemma read_line_pulled c limit plugins r o r' : pulled c limit plugins r -> read_line plugins r = Ret (o, r') -> pulled c limit plugins r'.
Proof.
  intros R. unfold read_line. destruct (is_eof r) as [[]|]; [intro E; injection E as _ <-; exact R| |discriminate].
  destruct (read_tokens plugins (S (left_over r)) r) as [[ks r1]|] eqn:T; [|discriminate]. destruct (skip_newline r1) as [r2|] eqn:N; [|discriminate].
  intro E. injection E as _ <-. eapply P_newline; [|exact N]. eapply read_tokens_pulled; eauto.
Qed.
(** A play is legal when no two includes follow each other directly, and the texts are UTF-8; checked by computation. *)
Fixpoint legal (c : bool) (limit : nat) (acts : list act) (r : root) : bool :=
  match acts with
  | [] => true
  | ALine :: t => match read_line [] r with Ret (_, r') => legal c limit t r' | Panic => true end
  | AInclude s d :: t => match next_idx r with None => true | _ => false end && (N.of_nat (length (sources r)) <? 65535)%N && is_utf8 s &&
      match try_include c limit s d r with Ret r' => legal c limit t r' | Panic => true end
  end.
Lemma play_pulled c limit : forall acts r r', legal c limit acts r = true -> pulled c limit [] r -> play c limit acts r = Ret r' -> pulled c limit [] r'.
Proof.
  induction acts as [|[|s d] t IH]; cbn [play legal]; intros r r' L P E.
  - injection E as <-. exact P.
  - destruct (read_line [] r) as [[o r1]|] eqn:Q; [|discriminate]. eapply IH; eauto. eapply read_line_pulled; eauto.
  - destruct (try_include c limit s d r) as [r1|] eqn:Q; [|discriminate]. apply andb_prop in L as [L L4]. apply andb_prop in L as [L L3]. apply andb_prop in L as [L1 L2].
    eapply IH; eauto. eapply P_include; eauto; [destruct (next_idx r); congruence|apply N.ltb_lt, L2|apply is_utf8_spec, L3].
Qed.
