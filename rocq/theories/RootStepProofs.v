(** Lemmas about whole steps of the root lexer. *)
From Verif Require Import Base Utf8 LexerModel LexerSpec LexerProofs RootModel RootSpec RootProofs.
From Coq Require Import Sorted.

Record inv (r : root) : Prop := mkInv {
  i_chain : chain (sources r) (live r); i_tight : tight (sources r) (live r); i_tmp : good_tmp (tmp r);
  i_next : forall n, next_idx r = Some n -> source_rest r n <> [] }.
Lemma live_advance r : live (maybe_advance_source r) = live r.
Proof. unfold maybe_advance_source, live. destruct (next_idx r) eqn:E; cbn; rewrite ?E; reflexivity. Qed.
Lemma advance_same r : sources (maybe_advance_source r) = sources r /\ tmp (maybe_advance_source r) = tmp r /\
  next_idx (maybe_advance_source r) = None /\ idx (maybe_advance_source r) :: stack (maybe_advance_source r) = live r.
Proof. unfold maybe_advance_source, live. destruct (next_idx r) eqn:E; repeat split; auto. Qed.

Lemma lexeme_plugins ps k s : lexeme_of [] k s -> lexeme_of ps k s.
Proof.
  intro H. inversion H; subst; try (econstructor; eassumption); try (econstructor; eauto; fail).
  apply L_macro. match goal with H : _ \/ _ |- _ => destruct H as [[]|?] end. right. assumption.
Qed.
Lemma lexeme_not_eof ps s : ~ lexeme_of ps Eof s.
Proof.
  intro H. inversion H; subst; match goal with I : In _ _ |- _ => cbn in I; repeat (destruct I as [I|I]; [discriminate I|]); exact I end.
Qed.

(** What one read does. *)
Definition took (plugins : list bytes) (r : root) (k : rtok) (r' : root) : Prop :=
  unread r = k_lexeme k ++ unread r' /\
  ((k_kind k = Eof /\ k_lexeme k = [] /\ unread r = []) \/ (k_lexeme k <> [] /\ lexeme_of plugins (k_kind k) (k_lexeme k))).
Lemma next_tok_good plugins r : inv r -> exists k r', next_tok plugins r = Ret (k, r') /\ inv r' /\ took plugins r k r' /\
  length (sources r') = length (sources r).
Proof.
  intros [C T G Nx]. unfold next_tok. destruct (tmp r) as [[l b]|] eqn:ET.
  - destruct G as [Gl NE]. destruct (next_more [] l Gl NE) as (k & s & z & N & R & Ns & Uz & L & M). rewrite N.
    eexists _, _. split; [reflexivity|].
    assert (Q : lex_eof (move (length s) l) = true <-> z = []).
    { unfold lex_eof. rewrite Nat.eqb_eq, <- M, <- length_zero_iff_nil, rest_len.
      assert (F : fits (move (length s) l)) by (apply fits_move; [rewrite R, app_length; lia|apply fits_rest, NE]). unfold fits in F. lia. }
    split; [|split; [|reflexivity]].
    + constructor; [exact C|exact T| |exact Nx]. cbn [tmp]. destruct (lex_eof (move (length s) l)) eqn:EO; [exact I|].
      split; [split; [apply Gl|rewrite M; exact Uz]|]. rewrite M. intro Z. apply Q in Z. discriminate.
    + split.
      * rewrite !unread_text, ET. cbn [relocate k_lexeme tmp sources t_lexeme]. rewrite R, <- app_assoc. f_equal.
        destruct (lex_eof (move (length s) l)) eqn:EO; [|rewrite M; reflexivity].
        rewrite (proj1 Q eq_refl). reflexivity.
      * right. cbn [relocate k_lexeme k_kind t_kind t_lexeme]. split; [exact Ns|apply lexeme_plugins, L].
  - destruct (advance_same r) as (A1 & A2 & A3 & A4). set (r1 := maybe_advance_source r) in *. clearbody r1.
    rewrite <- A4 in C, T. rewrite <- A1 in C, T.
    destruct (read_from_good plugins _ _ _ C) as (k & i' & st' & srcs' & H1 & H2 & H3 & H4 & H5 & H6).
    rewrite H1. exists k, (mkRoot i' None st' srcs' None). split; [reflexivity|].
    split; [constructor; [exact H3| |exact I|discriminate]|split].
    + exact (read_from_tight plugins _ _ _ _ _ _ _ C T H1).
    + unfold took. rewrite !unread_text, ET, <- A4, <- A1. cbn [sources tmp app]. unfold live at 1. cbn [next_idx idx stack app].
      destruct H6 as [(B1 & B2 & B3 & B4 & _)|(B1 & B2 & B3 & _)].
      * rewrite B1, B3, B4. split; [reflexivity|]. left. repeat split; assumption.
      * split; [exact B3|]. right. split; assumption.
    + cbn [sources]. rewrite H2, A1. reflexivity.
Qed.

(** *** lookahead *)
Lemma peek_good r : inv r -> exists o, peek r = Ret o /\ (forall c, o = Some c -> exists t, unread r = c :: t) /\
  (o = None -> tmp r = None /\ next_idx r = None /\ source_rest r (idx r) = [] /\ forall j, hd_error (stack r) = Some j -> source_rest r j = []).
Proof.
  intros [C T G Nx]. unfold peek. rewrite unread_text. destruct (tmp r) as [[l b]|] eqn:ET.
  - destruct G as [Gl NE]. exists (lex_peek l). split; [reflexivity|]. rewrite peek_rest. destruct (rest l) as [|c t]; [congruence|]. cbn [hd_error].
    split; [intros d E; injection E as <-; eexists; reflexivity|discriminate].
  - unfold live in *. destruct (next_idx r) as [n|] eqn:EN; cbn [app] in *.
    + unfold source_peek. destruct (chain_head _ _ _ C) as (s & E & Gs). rewrite E, peek_rest.
      destruct (rest (s_lex s)) as [|c t] eqn:R; cbn [hd_error].
      * exfalso. apply (Nx n eq_refl). unfold source_rest. rewrite E. exact R.
      * exists (Some c). split; [reflexivity|]. rewrite (text_cons _ _ _ _ E), R. split; [intros d H; injection H as <-; eexists; reflexivity|discriminate].
    + unfold source_peek. destruct (chain_head _ _ _ C) as (s & E & Gs). rewrite E, peek_rest.
      destruct (rest (s_lex s)) as [|c t] eqn:R; cbn [hd_error].
      * destruct (stack r) as [|j st] eqn:ES.
        -- exists None. split; [reflexivity|]. split; [discriminate|]. intros _. unfold source_rest. rewrite E. repeat split; auto. discriminate.
        -- destruct (chain_head _ _ _ (chain_tail _ _ _ C)) as (s' & E' & Gs'). rewrite E', peek_rest.
           exists (hd_error (rest (s_lex s'))). split; [reflexivity|].
           rewrite (text_cons _ _ _ _ E), R, (text_cons _ _ _ _ E'). cbn [app].
           split; [intros d H; destruct (rest (s_lex s')) as [|c' t']; [discriminate|]; injection H as <-; eexists; reflexivity|].
           intro H. unfold source_rest. rewrite E. repeat split; auto. cbn [hd_error]. intros q Q. injection Q as <-. rewrite E'.
           destruct (rest (s_lex s')); [reflexivity|discriminate].
      * exists (Some c). split; [reflexivity|]. rewrite (text_cons _ _ _ _ E), R. split; [intros d H; injection H as <-; eexists; reflexivity|discriminate].
Qed.

(** *** progress without a temporary buffer *)
Definition W (P : nat -> bool) (r : root) : nat := weigh P (sources r) (live r).
Record calm (r r' : root) : Prop := mkCalm {
  c_tmp : tmp r' = None; c_next : next_idx r' = None; c_len : length (sources r') = length (sources r);
  c_max : map s_max (sources r') = map s_max (sources r); c_live : exists pre, live r = pre ++ live r';
  c_w : forall P, W P r' <= W P r }.
Definition ate (r r' : root) : Prop := forall P, P (idx r') = true -> W P r' < W P r.
Lemma calm_trans a c d : calm a c -> calm c d -> calm a d.
Proof.
  intros [A1 A2 A3 A4 [p A5] A6] [B1 B2 B3 B4 [q B5] B6]. constructor; try assumption; try congruence.
  - exists (p ++ q). rewrite A5, B5, app_assoc. reflexivity.
  - intro P. specialize (A6 P). specialize (B6 P). lia.
Qed.
Lemma calm_refl r : tmp r = None -> next_idx r = None -> calm r r.
Proof. intros A B. constructor; auto. exists []. reflexivity. Qed.

Lemma next_tok_calm plugins r k r' : inv r -> tmp r = None -> next_tok plugins r = Ret (k, r') -> k_kind k <> Eof ->
  calm r r' /\ ate r r' /\
  exists s, nth_error (sources r) (idx r') = Some s /\
    k_loc k = mkLoc (pos (s_lex s)) (pos (s_lex s) + length (k_lexeme k)) (idx r') /\
    rest (s_lex s) = k_lexeme k ++ rest (move (length (k_lexeme k)) (s_lex s)).
Proof.
  intros [C T G Nx] ET. unfold next_tok. rewrite ET.
  destruct (advance_same r) as (A1 & A2 & A3 & A4). set (r1 := maybe_advance_source r) in *. clearbody r1.
  rewrite <- A4 in C, T. rewrite <- A1 in C, T.
  destruct (read_from_good plugins _ _ _ C) as (k' & i' & st' & srcs' & H1 & H2 & H3 & (pre & H4) & H5 & H6).
  rewrite H1. intros E NE. injection E as <- <-.
  destruct H6 as [(_ & B & _)|(B1 & B2 & B3 & B4 & B5 & B6)]; [contradiction|].
  assert (LV : live (mkRoot i' None st' srcs' None) = i' :: st') by reflexivity.
  split; [|split].
  - constructor; cbn [tmp next_idx sources]; try reflexivity.
    + rewrite H2, A1. reflexivity.
    + rewrite H5, A1. reflexivity.
    + exists pre. rewrite LV, <- A4. exact H4.
    + intro P. unfold W. rewrite LV, <- A4, <- A1. cbn [sources]. apply B5.
  - intros P H. unfold W. rewrite LV, <- A4, <- A1. cbn [sources]. apply B6, H.
  - cbn [idx]. rewrite <- A1. exact B4.
Qed.

Lemma skip_byte_good r c t : inv r -> unread r = c :: t -> between 0 127 c = true ->
  exists r', skip_byte r = Ret r' /\ inv r' /\ unread r' = t /\ length (sources r') = length (sources r) /\
    (tmp r = None -> calm r r' /\ ate r r').
Proof.
  intros [C T G Nx] U A. unfold skip_byte. rewrite unread_text in U. destruct (tmp r) as [[l b]|] eqn:ET.
  - destruct G as [Gl NE]. destruct (rest l) as [|d y] eqn:R; [congruence|]. cbn [app] in U. injection U as -> U.
    eexists. split; [reflexivity|].
    assert (M : rest (move 1 l) = y) by (rewrite rest_move, R; reflexivity).
    assert (Q : lex_eof (move 1 l) = true <-> y = []).
    { unfold lex_eof. rewrite Nat.eqb_eq, <- M, <- length_zero_iff_nil, rest_len.
      assert (F : fits (move 1 l)) by (apply fits_move; [rewrite R; cbn; lia|apply fits_rest; congruence]). unfold fits in F. lia. }
    split; [|split; [|split; [reflexivity|discriminate]]].
    + constructor; [exact C|exact T| |exact Nx]. cbn [tmp]. destruct (lex_eof (move 1 l)) eqn:EO; [exact I|].
      split; [split; [apply Gl|rewrite M; apply (utf8_tl c); [exact A|rewrite <- R; apply Gl]]|]. rewrite M. intro Z. apply Q in Z. discriminate.
    + rewrite unread_text. cbn [tmp sources]. rewrite <- U. destruct (lex_eof (move 1 l)) eqn:EO; [rewrite (proj1 Q eq_refl)|rewrite M]; reflexivity.
  - cbn [app] in U. destruct (advance_same r) as (A1 & A2 & A3 & A4). set (r1 := maybe_advance_source r) in *. clearbody r1.
    rewrite <- A4 in C, T, U. rewrite <- A1 in C, T, U.
    destruct (skip_from_good _ _ _ C) as (i' & st' & srcs' & H1 & H2 & H3 & H4 & H5 & (pre & H6) & H7).
    { intros d q E. rewrite U in E. injection E as <- _. exact A. }
    rewrite H1. eexists. split; [reflexivity|]. destruct H7 as [(B & _)|(d & B1 & B2 & B3)]; [congruence|].
    rewrite U in B1. injection B1 as <- B1.
    assert (LV : live (mkRoot i' None st' srcs' None) = i' :: st') by reflexivity.
    split; [constructor; [exact H4|apply H5, T|exact I|discriminate]|]. split; [rewrite unread_text, LV; symmetry; exact B1|].
    split; [cbn; rewrite H2, A1; reflexivity|]. intros _. split.
    + constructor; cbn [tmp next_idx sources]; try reflexivity.
      * rewrite H2, A1. reflexivity.
      * rewrite H3, A1. reflexivity.
      * exists pre. rewrite LV, <- A4. exact H6.
      * intro P. unfold W. rewrite LV, <- A4, <- A1. cbn [sources]. apply B2.
    + intros P H. unfold W. rewrite LV, <- A4, <- A1. cbn [sources]. apply B3, H.
Qed.

(** A step that may do nothing: either the state is the same, or it ate. *)
Ltac sp := split; [solve [auto | congruence]|].
Lemma skip_if_good r c : inv r -> between 0 127 c = true ->
  exists r', skip_if c r = Ret r' /\ inv r' /\ length (sources r') = length (sources r) /\
    ((r' = r /\ exists o, peek r = Ret o /\ o <> Some c) \/
     (peek r = Ret (Some c) /\ unread r = c :: unread r' /\ (tmp r = None -> calm r r' /\ ate r r'))).
Proof.
  intros I A. unfold skip_if, peek_is. destruct (peek_good r I) as (o & E & S & N). rewrite E.
  destruct o as [d|]; cbn [is].
  - destruct (Ascii.eqb_spec d c) as [->|ND].
    + destruct (S c eq_refl) as (t & U). destruct (skip_byte_good r c t I U A) as (r' & H1 & H2 & H3 & H4 & H5).
      exists r'. rewrite H1. do 3 sp. right. rewrite U, H3. do 2 sp. exact H5.
    + exists r. do 3 sp. left. sp. exists (Some d). sp. congruence.
  - exists r. do 3 sp. left. sp. exists None. sp. discriminate.
Qed.
Lemma lf_ascii : between 0 127 LF = true. Proof. reflexivity. Qed.
Lemma cr_ascii : between 0 127 CR = true. Proof. reflexivity. Qed.
(** what skip_newline removes: a line break, or nothing when none comes next *)
Lemma skip_newline_good r : inv r ->
  exists r' nl, skip_newline r = Ret r' /\ inv r' /\ length (sources r') = length (sources r) /\ unread r = nl ++ unread r' /\
    In nl [[]; [LF]; [CR]; [CR; LF]] /\
    ((nl = [] /\ r' = r /\ exists o, peek r = Ret o /\ o <> Some CR /\ o <> Some LF) \/
     (nl <> [] /\ (tmp r = None -> calm r r' /\ ate r r'))).
Proof.
  intro I. unfold skip_newline. destruct (skip_if_good r CR I cr_ascii) as (r1 & H1 & I1 & L1 & [[-> (o & P & N)]|(P & U & K)]); rewrite H1.
  - destruct (skip_if_good r LF I lf_ascii) as (r2 & H2 & I2 & L2 & [[-> (o' & P' & N')]|(P2 & U2 & K2)]); rewrite H2.
    + exists r, []. rewrite P' in P. injection P as <-. do 4 sp. split; [left; reflexivity|]. left. do 2 sp. exists o'. auto.
    + exists r2, [LF]. do 4 sp. split; [right; left; reflexivity|]. right. split; [discriminate|exact K2].
  - destruct (skip_if_good r1 LF I1 lf_ascii) as (r2 & H2 & I2 & L2 & [[-> _]|(P2 & U2 & K2)]); rewrite H2.
    + exists r1, [CR]. do 4 sp. split; [do 2 right; left; reflexivity|]. right. split; [discriminate|exact K].
    + exists r2, [CR; LF]. do 3 sp. split; [rewrite U, U2; reflexivity|]. split; [do 3 right; left; reflexivity|]. right. split; [discriminate|].
      intro ET. destruct (K ET) as [C1 A1]. destruct (K2 (c_tmp _ _ C1)) as [C2 A2]. split; [eapply calm_trans; eauto|].
      intros Q H. specialize (A2 Q H). pose proof (c_w _ _ C1 Q). lia.
Qed.

Lemma consume_good r : inv r ->
  exists r' bl, consume_empty_lines r = Ret r' /\ inv r' /\ length (sources r') = length (sources r) /\
    all_of blank_byte bl /\ (tmp r' = tmp r) /\ next_idx r' = None /\
    text (sources r) (live r) = bl ++ text (sources r') (live r') /\
    (tmp r = None -> calm r r') /\ (stack r' = [] \/ source_rest r' (idx r') <> []).
Proof.
  intros [C T G Nx]. unfold consume_empty_lines. destruct (advance_same r) as (A1 & A2 & A3 & A4). set (r1 := maybe_advance_source r) in *. clearbody r1.
  rewrite <- A4 in C, T. rewrite <- A1 in C, T.
  destruct (consume_from_good _ _ _ C) as (i' & st' & srcs' & H1 & H2 & H3 & H4 & H5 & (pre & H6) & (bl & H7 & H8) & H9 & H10).
  rewrite H1. exists (mkRoot i' None st' srcs' (tmp r1)), bl. split; [reflexivity|].
  assert (LV : live (mkRoot i' None st' srcs' (tmp r1)) = i' :: st') by reflexivity.
  split; [constructor; [exact H4|apply H5, T|cbn; rewrite A2; exact G|discriminate]|].
  split; [cbn; congruence|]. split; [exact H7|]. split; [exact A2|]. split; [reflexivity|].
  split; [rewrite LV, <- A4, <- A1; exact H8|]. split.
  - intro ET. constructor; cbn [tmp next_idx sources]; try congruence.
    + exists pre. rewrite LV, <- A4. exact H6.
    + intro P. unfold W. rewrite LV, <- A4, <- A1. cbn [sources]. apply H9.
  - exact (H10 T).
Qed.

(** *** pushing *)
Lemma last_ends s c : is (last (map Some s) None) c = ends_with s [c].
Proof.
  unfold ends_with. destruct s as [|a s] using rev_ind; [reflexivity|]. rewrite map_app, rev_app_distr. cbn [map rev app]. rewrite last_last. cbn.
  rewrite andb_true_r, Ascii.eqb_sym. reflexivity.
Qed.
Lemma utf8_lf s : utf8 s -> utf8 (s ++ [LF]).
Proof. intro U. apply utf8_app; [exact U|]. apply utf8_ascii. repeat constructor. Qed.
Lemma whole_nonempty s : whole_lines s <> [].
Proof. unfold whole_lines. destruct (ends_with s [newline]) eqn:E; [|destruct s; discriminate]. destruct s; [discriminate|discriminate]. Qed.
Lemma utf8_whole s : utf8 s -> utf8 (whole_lines s).
Proof. intro U. unfold whole_lines. destruct (ends_with s [newline]); [exact U|apply utf8_lf, U]. Qed.
Lemma push_good s d r : inv r -> next_idx r = None -> (N.of_nat (length (sources r)) < 65535)%N -> utf8 s ->
  exists r', push_source s d r = Ret r' /\ inv r' /\ sources r' = sources r ++ [mkSource (from_bytes (whole_lines s)) d] /\
    next_idx r' = Some (length (sources r)) /\ idx r' = idx r /\ stack r' = stack r /\ tmp r' = tmp r /\
    live r' = length (sources r) :: live r /\ text (sources r') (live r') = whole_lines s ++ text (sources r) (live r) /\
    (forall P, W P r' = (if P (length (sources r)) then length (whole_lines s) else 0) + W P r).
Proof.
  intros [C T G Nx] EN L U. unfold push_source.
  assert (TW : (if is (last (map Some s) None) LF then s else s ++ [LF]) = whole_lines s) by (rewrite last_ends; reflexivity). rewrite TW.
  assert (T16 : to_u16 (length (sources r ++ [mkSource (from_bytes (whole_lines s)) d])) = S (length (sources r))).
  { unfold to_u16. rewrite app_length. cbn [length]. rewrite N.mod_small by lia. lia. }
  rewrite T16. cbn [Nat.eqb]. replace (S (length (sources r)) - 1) with (length (sources r)) by lia.
  set (srcs' := sources r ++ _). eexists. split; [reflexivity|].
  assert (LV : live (mkRoot (idx r) (Some (length (sources r))) (stack r) srcs' (tmp r)) = length (sources r) :: live r).
  { unfold live. rewrite EN. reflexivity. }
  assert (FR : forall j, In j (live r) -> nth_error srcs' j = nth_error (sources r) j).
  { intros j I. destruct C as [_ F]. rewrite Forall_forall in F. destruct (F j I) as (s0 & E0 & _). unfold srcs'. apply nth_error_app1. apply nth_error_Some. congruence. }
  assert (EN' : nth_error srcs' (length (sources r)) = Some (mkSource (from_bytes (whole_lines s)) d)).
  { unfold srcs'. rewrite nth_error_app2 by lia. rewrite Nat.sub_diag. reflexivity. }
  destruct (frame _ _ _ FR C) as (C' & T' & W').
  assert (RS : rest (from_bytes (whole_lines s)) = whole_lines s) by reflexivity.
  split; [|split; [reflexivity|split; [reflexivity|split; [reflexivity|split; [reflexivity|split; [reflexivity|split; [exact LV|split]]]]]]].
  - constructor; rewrite ?LV.
    + destruct C as [S F], C' as [S' F']. cbn [sources]. split.
      * constructor; [exact S|]. rewrite Forall_forall in *. intros j I. destruct (F j I) as (s0 & E0 & _). apply nth_error_Some. congruence.
      * constructor; [|exact F']. eexists. split; [exact EN'|]. split; [reflexivity|]. cbn [s_lex]. rewrite RS. apply utf8_whole, U.
    + cbn [sources]. apply tight_cons; [|eapply tight_frame; eauto]. eexists. split; [exact EN'|]. unfold fits. cbn. lia.
    + exact G.
    + cbn [next_idx]. intros n E. injection E as <-. unfold source_rest. cbn [sources]. rewrite EN'. cbn [s_lex]. rewrite RS. apply whole_nonempty.
  - rewrite LV. cbn [sources]. rewrite (text_cons _ _ _ _ EN'), T'. reflexivity.
  - intro P. unfold W. rewrite LV. cbn [sources]. rewrite (weigh_cons _ _ _ _ _ EN'), W'. reflexivity.
Qed.

Lemma new_inv s : utf8 s -> inv (new_root s).
Proof.
  intro U. constructor; [|apply tight_nil|exact I|discriminate]. split; [repeat constructor|]. constructor; [|constructor].
  eexists. split; [reflexivity|]. split; [reflexivity|exact U].
Qed.
Lemma reachable_inv plugins r : reachable plugins r -> inv r.
Proof.
  induction 1 as [s U|r k r' R IH E|r r' R IH E|r r' R IH E|r s d r' R IH EN L U E|r s l R IH NE U].
  - apply new_inv, U.
  - destruct (next_tok_good plugins r IH) as (k' & r'' & E' & I & _). rewrite E in E'. injection E' as _ <-. exact I.
  - destruct (skip_newline_good r IH) as (r'' & nl & E' & I & _). rewrite E in E'. injection E' as <-. exact I.
  - destruct (consume_good r IH) as (r'' & nl & E' & I & _). rewrite E in E'. injection E' as <-. exact I.
  - destruct (push_good s d r IH EN L U) as (r'' & E' & I & _). rewrite E in E'. injection E' as <-. exact I.
  - destruct IH as [C T G Nx]. constructor; [exact C|exact T| |exact Nx]. split; [split; [reflexivity|exact U]|exact NE].
Qed.
