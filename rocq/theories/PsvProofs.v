From Verif Require Import PsvSpec Text ColsModel.
Open Scope nat_scope.

(** ** Lists *)
Lemma skipn_app_len {A} (a b : list A) : skipn (length a) (a ++ b) = b.
Proof. rewrite skipn_app, skipn_all, Nat.sub_diag. reflexivity. Qed.
Lemma skipn_skipn {A} n : forall m (l : list A), skipn n (skipn m l) = skipn (m + n) l.
Proof. induction m as [|m IH]; intro l; [reflexivity|]. destruct l as [|x l]; cbn [skipn Nat.add]; [destruct n; reflexivity|apply IH]. Qed.
Lemma size_app a b : size (a ++ b) = size a + size b.
Proof. unfold size. rewrite map_app, list_sum_app. reflexivity. Qed.
Lemma size_cons t l : size (t :: l) = S (length (tx t)) + size l.
Proof. reflexivity. Qed.
Lemma contains_refl (sep : bytes) : exists a z, sep = a ++ sep ++ z.
Proof. exists [], []. cbn [app]. rewrite app_nil_r. reflexivity. Qed.

(** ** Cell starts *)
(** the kinds of the tokens of a specification *)
Definition spec_kinds : list kind := [Digits; Star; Plus; Dots; LessThan; GreaterThan; Caret; CalloutNumber; Word].
Definition speck (t : ttok) : Prop := In (tk t) spec_kinds.
Lemma is_k_tk k (t : ttok) : is_k k t = true -> tk t = k.
Proof. unfold is_k. destruct (kind_eqb_spec (tk t) k); [auto|discriminate]. Qed.
Lemma tk_is_k k (t : ttok) : tk t = k -> is_k k t = true.
Proof. unfold is_k. intros <-. destruct (kind_eqb_spec (tk t) (tk t)); congruence. Qed.
Lemma tk_not_k k (t : ttok) : tk t <> k -> is_k k t = false.
Proof. unfold is_k. destruct (kind_eqb_spec (tk t) k); congruence. Qed.

Definition split_at (l : list ttok) (n : nat) : Prop := exists a b, l = a ++ b /\ length a = n /\ Forall speck a.
Lemma split_at_0 l : split_at l 0.
Proof. exists [], l. auto. Qed.
Lemma split_at_add l n m : split_at l n -> split_at (skipn n l) m -> split_at l (n + m).
Proof.
  intros (a & b & -> & <- & F) (c & d & E & <- & G). rewrite skipn_app_len in E. subst b. exists (a ++ c), d. rewrite <- app_assoc, app_length.
  split; [reflexivity|]. split; [reflexivity|]. apply Forall_app. auto.
Qed.
Lemma kinds_at_split ks : forall l, Forall (fun k => In k spec_kinds) ks -> kinds_at ks l = true -> split_at l (length ks).
Proof.
  induction ks as [|k ks IH]; intros l F E; [apply split_at_0|]. destruct l as [|t l]; [discriminate|]. cbn [kinds_at] in E. apply andb_true_iff in E as [A B].
  apply is_k_tk in A. inversion F; subst. destruct (IH l H2 B) as (a & b & -> & N & G). exists (t :: a), b. cbn [length]. rewrite N. repeat split. constructor; [|exact G].
  unfold speck. congruence.
Qed.
Ltac in_specs := cbn; tauto.
Ltac all_specs := repeat (apply Forall_cons; [in_specs|]); apply Forall_nil.
Lemma dup_split s l s' n : parse_duplication s l = (s', n) -> split_at l n.
Proof.
  unfold parse_duplication. destruct (kinds_at _ l) eqn:E; [|intro H; injection H as <- <-; apply split_at_0].
  destruct (u8_at l); intro H; injection H as <- <-; [|apply split_at_0]. apply (kinds_at_split [Digits; Star]); [|exact E]. all_specs.
Qed.
Lemma span_split s l s' n : parse_span s l = (s', n) -> split_at l n.
Proof.
  unfold parse_span.
  destruct (kinds_at [Digits; Plus] l) eqn:E.
  { destruct (u8_at l); intro H; injection H as <- <-; [|apply split_at_0]. apply (kinds_at_split [Digits; Plus]); [|exact E]. all_specs. }
  destruct (kinds_at [Dots; Digits; Plus] l) eqn:E2.
  { destruct (is_dot _); [|intro H; injection H as <- <-; apply split_at_0]. destruct (u8_at _); intro H; injection H as <- <-; [|apply split_at_0].
    apply (kinds_at_split [Dots; Digits; Plus]); [|exact E2]. all_specs. }
  destruct (kinds_at [Digits; Dots; Digits; Plus] l) eqn:E3; [|intro H; injection H as <- <-; apply split_at_0].
  destruct (is_dot _); [|intro H; injection H as <- <-; apply split_at_0]. destruct (u8_at l); [destruct (u8_at _)|]; intro H; injection H as <- <-; try apply split_at_0.
  apply (kinds_at_split [Digits; Dots; Digits; Plus]); [|exact E3]. all_specs.
Qed.
Lemma one_split (t : ttok) l : speck t -> split_at (t :: l) 1.
Proof. intro H. exists [t], l. repeat split. constructor; auto. Qed.
Lemma h_split s l s' n : parse_h s l = (s', n) -> split_at l n.
Proof.
  unfold parse_h. destruct l as [|t l]; [intro H; injection H as <- <-; apply split_at_0|].
  destruct (tk t) eqn:K; try (intro H; injection H as <- <-; first [apply split_at_0 | apply one_split; unfold speck; rewrite K; in_specs]).
  destruct (bytes_eqb _ _); intro H; injection H as <- <-; [|apply split_at_0]. apply one_split. unfold speck. rewrite K. in_specs.
Qed.
Lemma dot_kind (t : ttok) : is_dot (Some t) = true -> tk t = Dots /\ length (tx t) = 1.
Proof. cbn. intro H. apply andb_true_iff in H as [A B]. split; [apply is_k_tk; exact A|apply Nat.eqb_eq; exact B]. Qed.
Lemma v_split s l s' n : parse_v s l = (s', n) -> split_at l n.
Proof.
  unfold parse_v. destruct l as [|d [|t l]]; cbn [nth_error].
  - cbn. intro H. injection H as <- <-. apply split_at_0.
  - destruct (is_dot (Some d)); intro H; injection H as <- <-; apply split_at_0.
  - destruct (is_dot (Some d)) eqn:D; [|intro H; injection H as <- <-; apply split_at_0]. apply dot_kind in D as [D _].
    destruct (tk t) eqn:K; intro H; injection H as <- <-; try apply split_at_0; exists [d; t], l; repeat split;
      (constructor; [unfold speck; rewrite D; in_specs|constructor; [unfold speck; rewrite K; in_specs|constructor]]).
Qed.
Lemma style_split s l s' n w : parse_style s l = (s', n, w) -> split_at l n.
Proof.
  unfold parse_style. destruct l as [|t l]; [intro H; injection H as <- <- <-; apply split_at_0|].
  destruct (is_k Word t) eqn:K; [|intro H; injection H as <- <- <-; apply split_at_0]. apply is_k_tk in K.
  destruct (tx t) as [|c r] eqn:X; [intro H; injection H as <- <- <-; apply split_at_0|].
  destruct (cell_style_of c); [|intro H; injection H as <- <- <-; apply split_at_0].
  destruct (length (c :: r) =? 1); intro H; injection H as <- <- <-; [|apply split_at_0]. apply one_split. unfold speck. rewrite K. in_specs.
Qed.

(** Where a cell starts there is a separator, after tokens that a specification may have. *)
Lemma starts_with_app p s : starts_with p s = true -> exists r, s = p ++ r.
Proof. apply starts_with_spec. Qed.
Lemma peek_some sep l st : peek_cell_start sep l = Some st ->
  exists pre (t : ttok) post, l = pre ++ t :: post /\ Forall speck pre /\ (exists a z, tx t = a ++ sep ++ z) /\
    ((drop_tokens st = S (length pre) /\ drop_bytes st = 0) \/ (drop_tokens st = length pre /\ length sep <= drop_bytes st <= length (tx t))).
Proof.
  unfold peek_cell_start. destruct l as [|t l]; [discriminate|]. destruct (ar t); [discriminate|].
  destruct (starts_with sep (tx t)) eqn:S.
  - apply starts_with_app in S as [r R]. intro H. exists [], t, l. split; [reflexivity|]. split; [constructor|]. split; [exists [], r; exact R|].
    destruct (length (tx t) =? length sep) eqn:L; injection H as <-; cbn [drop_tokens drop_bytes length]; [left; auto|right].
    rewrite R, app_length. lia.
  - match goal with |- (if ?b then _ else _) = _ -> _ => destruct b; [|discriminate] end.
    destruct (parse_duplication default_cell (t :: l)) as [s1 n1] eqn:E1. pose proof (dup_split _ _ _ _ E1) as P1.
    destruct (parse_span s1 (skipn n1 (t :: l))) as [s2 n2] eqn:E2. pose proof (span_split _ _ _ _ E2) as P2.
    pose proof (split_at_add _ _ _ P1 P2) as Q2.
    destruct (parse_h s2 (skipn (n1 + n2) (t :: l))) as [s3 n3] eqn:E3. pose proof (h_split _ _ _ _ E3) as P3.
    pose proof (split_at_add _ _ _ Q2 P3) as Q3.
    destruct (parse_v s3 (skipn (n1 + n2 + n3) (t :: l))) as [s4 n4] eqn:E4. pose proof (v_split _ _ _ _ E4) as P4.
    pose proof (split_at_add _ _ _ Q3 P4) as Q4.
    destruct (parse_style s4 (skipn (n1 + n2 + n3 + n4) (t :: l))) as [[s5 n5] w] eqn:E5. pose proof (style_split _ _ _ _ _ E5) as P5.
    pose proof (split_at_add _ _ _ Q4 P5) as (pre & post & L & N & F). cbv zeta.
    set (cur := n1 + n2 + n3 + n4 + n5) in *. destruct (cur =? 0); [discriminate|].
    destruct (nth_error (t :: l) cur) as [c|] eqn:C; [|discriminate].
    rewrite L, <- N, nth_error_app2, Nat.sub_diag in C by lia. destruct post as [|c' post]; [discriminate|]. cbn [nth_error] in C. injection C as ->.
    intro H. exists pre, c, post. split; [exact L|]. split; [exact F|].
    destruct w; cbn [negb] in H.
    + destruct (_ && _) eqn:B in H.
      * apply andb_true_iff in B as [_ B]. apply starts_with_app in B as [r R]. destruct (tx c) as [|x y] eqn:X; cbn [skipn] in R.
        -- injection H as <-. cbn [drop_tokens drop_bytes]. destruct sep; [|discriminate]. split; [exists [], []; reflexivity|left; lia].
        -- injection H as <-. cbn [drop_tokens drop_bytes]. split; [exists [x], r; rewrite R; reflexivity|left; lia].
      * destruct (_ && _) eqn:B' in H; [|discriminate]. apply andb_true_iff in B' as [N2 B']. apply starts_with_app in B' as [r R]. destruct (tx c) as [|x y] eqn:X; [discriminate|]. cbn [skipn] in R.
        injection H as <-. cbn [drop_tokens drop_bytes]. split; [exists [x], r; rewrite R; reflexivity|right]. rewrite R. cbn [length]. rewrite app_length. lia.
    + destruct (bytes_eqb (tx c) sep) eqn:B; [|discriminate]. apply bytes_eqb_eq in B. injection H as <-. cbn [drop_tokens drop_bytes].
      split; [rewrite B; apply contains_refl|left; lia].
Qed.

(** ** Reading a written cell *)
Lemma number_u8 n (t : ttok) l : number n t -> u8_at (t :: l) = Some n.
Proof. intros [_ H]. unfold u8_at. apply parse_bounded_spec in H. rewrite H. cbn. rewrite Nnat.Nat2N.id. reflexivity. Qed.
Lemma dot_is (t : ttok) : dot t -> is_dot (Some t) = true.
Proof. intros [K L]. cbn. unfold len_is. rewrite (tk_is_k _ _ K), L. reflexivity. Qed.
(** What can follow each part of a specification *)
Definition head_not (ks : list kind) (l : list ttok) : Prop := match l with t :: _ => ~ In (tk t) ks | [] => True end.
Ltac not_kind := match goal with
  | H : tk ?t = ?k |- context [is_k ?j ?t] => first [rewrite (tk_is_k j t H) | rewrite (tk_not_k j t) by (rewrite H; discriminate)]
  end.
Lemma head_not_k ks k l (t : ttok) : head_not ks (t :: l) -> In k ks -> is_k k t = false.
Proof. cbn. intros N I. apply tk_not_k. intro E. apply N. rewrite E. exact I. Qed.
Lemma dup_written d a rest : wr_dup d a -> kinds_at [Digits; Star] rest = false -> parse_duplication default_cell (a ++ rest) = (CellSpec d None None None None None, length a).
Proof.
  intros W N. unfold parse_duplication. destruct W as [|n x y X Y]; cbn [app].
  - rewrite N. reflexivity.
  - cbn [kinds_at]. destruct X as [K V]. unfold of_kind in Y. do 2 not_kind. cbn [andb]. rewrite (number_u8 n) by (split; assumption). reflexivity.
Qed.
Definition no_span (l : list ttok) : Prop := kinds_at [Digits; Plus] l = false /\ kinds_at [Dots; Digits; Plus] l = false /\ kinds_at [Digits; Dots; Digits; Plus] l = false.
Lemma span_written dup c r b rest : wr_span c r b -> no_span rest -> parse_span (CellSpec dup None None None None None) (b ++ rest) = (CellSpec dup c r None None None, length b).
Proof.
  intros W (N1 & N2 & N3). unfold parse_span. destruct W as [|n a p [K V] Y|n d a p [K V] [D D1] Y|n m a d b p [K V] [D D1] [K2 V2] Y]; cbn [app]; unfold of_kind in *.
  - rewrite N1, N2, N3. reflexivity.
  - cbn [kinds_at]. do 2 not_kind. cbn [andb]. rewrite (number_u8 n) by (split; assumption). reflexivity.
  - cbn [kinds_at nth_error skipn]. repeat not_kind. cbn [andb]. rewrite dot_is by (split; assumption). rewrite (number_u8 n) by (split; assumption). reflexivity.
  - cbn [kinds_at nth_error skipn]. repeat not_kind. cbn [andb]. rewrite dot_is by (split; assumption). rewrite (number_u8 n), (number_u8 m) by (split; assumption). reflexivity.
Qed.
Definition align_kinds : list kind := [LessThan; GreaterThan; Caret; CalloutNumber; Dots].
Lemma h_inert s l : head_not align_kinds l -> parse_h s l = (s, 0).
Proof. unfold parse_h. destruct l as [|t l]; [reflexivity|]. cbn [head_not]. intro N. destruct (tk t); try reflexivity; destruct N; in_specs. Qed.
Lemma v_inert s l : head_not align_kinds l -> parse_v s l = (s, 0).
Proof. unfold parse_v. destruct l as [|t l]; [reflexivity|]. intro N. cbn [nth_error]. unfold is_dot. rewrite (head_not_k _ Dots _ _ N) by in_specs. reflexivity. Qed.
Lemma align_written dup c r h v a rest : wr_align h v a -> head_not align_kinds rest ->
  exists s n m, parse_h (CellSpec dup c r None None None) (a ++ rest) = (s, n) /\ parse_v s (skipn n (a ++ rest)) = (CellSpec dup c r h v None, m) /\ n + m = length a.
Proof.
  intros W N. destruct W as [|h a H|v d a [D D1] H|h v a d b H [D D1] G|a K X]; unfold of_kind in *; cbn [app].
  - rewrite (h_inert _ _ N). eexists _, 0, 0. split; [reflexivity|]. cbn [skipn]. rewrite (v_inert _ _ N). auto.
  - exists (CellSpec dup c r (Some h) None None), 1, 0. split; [unfold parse_h; rewrite H; destruct h; reflexivity|]. cbn [skipn]. rewrite (v_inert _ _ N). auto.
  - exists (CellSpec dup c r None None None), 0, 2. split; [unfold parse_h; rewrite D; reflexivity|]. cbn [skipn]. split; [|reflexivity].
    unfold parse_v. cbn [nth_error]. rewrite dot_is by (split; assumption). rewrite H. destruct v; reflexivity.
  - exists (CellSpec dup c r (Some h) None None), 1, 2. split; [unfold parse_h; rewrite H; destruct h; reflexivity|]. cbn [skipn]. split; [|reflexivity].
    unfold parse_v. cbn [nth_error]. rewrite dot_is by (split; assumption). rewrite G. destruct v; reflexivity.
  - exists (CellSpec dup c r (Some HLeft) (Some VBottom) None), 1, 0. split; [unfold parse_h; rewrite K, X; reflexivity|]. cbn [skipn]. rewrite (v_inert _ _ N). auto.
Qed.
Lemma style_written dup c r h v st d (t : ttok) rest : wr_style st d -> (tk t = Word -> forall c r, tx t = c :: r -> ~ In c ($"adehlmsv")) ->
  parse_style (CellSpec dup c r h v None) (d ++ t :: rest) = (CellSpec dup c r h v st, length d, false).
Proof.
  intros W N. destruct W as [|st x a I K X]; cbn [app]; unfold parse_style.
  - destruct (is_k Word t) eqn:K; [|reflexivity]. apply is_k_tk in K. destruct (tx t) as [|x y] eqn:X; [reflexivity|].
    assert (E : cell_style_of x = None); [|rewrite E; reflexivity]. specialize (N K x y eq_refl). unfold cell_style_of, style_of.
    destruct x as [[] [] [] [] [] [] [] []]; try reflexivity; destruct N; cbn; tauto.
  - rewrite (tk_is_k _ _ K), X. cbn [length Nat.eqb]. assert (E : cell_style_of x = Some st); [|rewrite E; reflexivity].
    cbn in I. repeat destruct I as [I|I]; try contradiction; injection I as <- <-; reflexivity.
Qed.
Lemma starts_with_false p s : (forall a z, s <> a ++ p ++ z) -> starts_with p s = false.
Proof. intro N. destruct (starts_with p s) eqn:E; [|reflexivity]. apply starts_with_app in E as [r R]. destruct (N [] r R). Qed.
Lemma peek_written sep s l (t : ttok) rest : wr_spec s l -> Forall (fun t => ar t = false /\ forall a z, tx t <> a ++ sep ++ z) l -> is_sep sep t ->
  peek_cell_start sep (l ++ t :: rest) = Some (CellStart s (length l + 1) 0).
Proof.
  intros (a & b & c & d & -> & WD & WS & WA & WY) F (X & AR & NK & NW).
  assert (REST : head_not align_kinds (d ++ t :: rest)).
  { destruct WY as [|st x y I K Y]; cbn [app head_not]; [intro H; apply NK; cbn in *; tauto|rewrite K; cbn; intuition discriminate]. }

  assert (NOS : no_span (c ++ d ++ t :: rest)).
  { assert (HD : forall (x : ttok) y, ~ In (tk x) [Digits; Dots] -> no_span (x :: y)).
    { intros x y N. unfold no_span. cbn [kinds_at]. rewrite (tk_not_k Digits x), (tk_not_k Dots x) by (intro E; apply N; rewrite E; in_specs). auto. }
    assert (HV : forall (x k : ttok) y, tk x = Dots -> tk k <> Digits -> no_span (x :: k :: y)).
    { intros x k y D N. unfold no_span. cbn [kinds_at]. rewrite (tk_not_k Digits x), (tk_not_k Digits k) by congruence. rewrite andb_false_r. auto. }
    destruct WA as [|h x H|v x y [D D1] H|h v x y z H [D D1] G|x K Y]; unfold of_kind in *; cbn [app].
    - destruct WY as [|st x y I K Y]; cbn [app]; apply HD; [intro H; apply NK; cbn in *; tauto|rewrite K; cbn; intuition discriminate].
    - apply HD. rewrite H. destruct h; cbn; intuition discriminate.
    - apply HV; [exact D|]. rewrite H. destruct v; discriminate.
    - apply HD. rewrite H. destruct h; cbn; intuition discriminate.
    - apply HD. rewrite K. cbn; intuition discriminate. }
  assert (NOD : kinds_at [Digits; Star] (b ++ c ++ d ++ t :: rest) = false).
  { destruct WS as [|n x p [K V] Y|n x y p [K V] [D D1] Y|n m x y z p [K V] [D D1] [K2 V2] Y]; unfold of_kind in *; cbn [app].
    - destruct NOS as (_ & _ & _). assert (HD : forall (x : ttok) y, ~ In (tk x) [Digits] -> kinds_at [Digits; Star] (x :: y) = false).
      { intros x y N. cbn [kinds_at]. rewrite (tk_not_k Digits x) by (intro E; apply N; rewrite E; in_specs). reflexivity. }
      destruct WA as [|h x H|v x y [D D1] H|h v x y z H [D D1] G|x K Y]; unfold of_kind in *; cbn [app].
      + destruct WY as [|st x y I K Y]; cbn [app]; apply HD; [intro H; apply NK; cbn in *; tauto|rewrite K; cbn; intuition discriminate].
      + apply HD. rewrite H. destruct h; cbn; intuition discriminate.
      + apply HD. rewrite D. cbn; intuition discriminate.
      + apply HD. rewrite H. destruct h; cbn; intuition discriminate.
      + apply HD. rewrite K. cbn; intuition discriminate.
    - cbn [kinds_at]. repeat not_kind. reflexivity.
    - cbn [kinds_at]. repeat not_kind. reflexivity.
    - cbn [kinds_at]. repeat not_kind. reflexivity. }
  pose proof (dup_written _ _ _ WD NOD) as P1.
  pose proof (span_written (duplication s) _ _ _ _ WS NOS) as P2.
  destruct (align_written (duplication s) (col_span s) (row_span s) _ _ _ _ WA REST) as (s3 & n3 & n4 & P3 & P4 & P34).
  pose proof (style_written (duplication s) (col_span s) (row_span s) (spec_h s) (spec_v s) _ _ t rest WY NW) as P5.
  set (l := (a ++ b ++ c ++ d) ++ t :: rest).
  assert (L : l = a ++ b ++ c ++ d ++ t :: rest) by (unfold l; rewrite <- !app_assoc; reflexivity).
  assert (S2 : skipn (length a) l = b ++ c ++ d ++ t :: rest) by (rewrite L; apply skipn_app_len).
  assert (S3 : skipn (length a + length b) l = c ++ d ++ t :: rest) by (rewrite L, app_assoc, <- app_length; apply skipn_app_len).
  assert (S4 : skipn (length a + length b + n3) l = skipn n3 (c ++ d ++ t :: rest)) by (rewrite <- S3, skipn_skipn; reflexivity).
  assert (S5 : skipn (length a + length b + n3 + n4) l = d ++ t :: rest).
  { replace (length a + length b + n3 + n4) with (length (a ++ b ++ c)) by (rewrite !app_length; lia). rewrite L.
    replace (a ++ b ++ c ++ d ++ t :: rest) with ((a ++ b ++ c) ++ d ++ t :: rest) by (rewrite <- !app_assoc; reflexivity). apply skipn_app_len. }
  assert (NTH : nth_error l (length (a ++ b ++ c ++ d)) = Some t) by (unfold l; rewrite nth_error_app2, Nat.sub_diag by lia; reflexivity).
  assert (SS : s = CellSpec (duplication s) (col_span s) (row_span s) (spec_h s) (spec_v s) (spec_style s)) by (destruct s; reflexivity).
  destruct (a ++ b ++ c ++ d) as [|x y] eqn:ABCD.
  - (* no specification *)
    apply app_eq_nil in ABCD as [-> ABCD]. apply app_eq_nil in ABCD as [-> ABCD]. apply app_eq_nil in ABCD as [-> ->].
    unfold l. cbn [app peek_cell_start]. rewrite AR, X. rewrite (proj2 (starts_with_spec _ _)) by (exists []; rewrite app_nil_r; reflexivity). rewrite Nat.eqb_refl. cbn [length Nat.add].
    inversion WD; inversion WS; inversion WA; inversion WY. destruct s; cbn in *; subst. reflexivity.
  - assert (LX : l = x :: (y ++ t :: rest)) by reflexivity.
    assert (FX : ar x = false /\ forall a z, tx x <> a ++ sep ++ z) by (inversion F; assumption). destruct FX as [AX NX].
    assert (ST : (if is_k Word x then match tx x with c :: _ => mem c ($"adehlmsv") | [] => false end else one_of [Digits; Dots; LessThan; GreaterThan; Caret; CalloutNumber] x) = true).
    { assert (HK : In (tk x) [Digits; Dots; LessThan; GreaterThan; Caret; CalloutNumber] \/ (tk x = Word /\ exists ch, tx x = [ch] /\ In ch ($"adehlms"))).
      { destruct WD as [|n x1 x2 [K V] Y1].
        2:{ injection ABCD as <- _. left. rewrite K. in_specs. }
        cbn [app] in ABCD. destruct WS as [|n x1 p [K V] Y|n x1 y1 p [K V] [D D1] Y|n m x1 y1 z p [K V] [D D1] [K2 V2] Y]; unfold of_kind in *.
        2,3,4: injection ABCD as <- _; left; first [rewrite K|rewrite D]; in_specs.
        cbn [app] in ABCD. destruct WA as [|h x1 H|v x1 y1 [D D1] H|h v x1 y1 z H [D D1] G|x1 K Y]; unfold of_kind in *.
        2,3,4,5: injection ABCD as <- _; left; first [rewrite H; destruct h; in_specs|rewrite D; in_specs|rewrite K; in_specs].
        cbn [app] in ABCD. destruct WY as [|st x1 y1 I K Y]; [discriminate|]. injection ABCD as <- _. right. split; [exact K|]. exists x1. split; [exact Y|].
        cbn in I. repeat destruct I as [I|I]; try contradiction; injection I as <- <-; cbn; tauto. }
      destruct HK as [HK|(K & ch & E & I)].
      - rewrite (tk_not_k Word x) by (intro E; rewrite E in HK; cbn in HK; intuition discriminate). unfold LineModel.one_of. apply existsb_exists. exists (tk x). split; [exact HK|].
        destruct (kind_eqb_spec (tk x) (tk x)); congruence.
      - rewrite (tk_is_k _ _ K), E. cbn in I. repeat destruct I as [I|I]; try contradiction; subst ch; reflexivity. }
    cbn [peek_cell_start]. rewrite LX. cbn [peek_cell_start]. rewrite AX, (starts_with_false _ _ NX), ST. rewrite <- LX.
    rewrite L at 1. rewrite P1. cbv zeta. rewrite S2, P2, S3, P3, S4, P4, S5, P5.
    replace (length a + length b + n3 + n4 + length d) with (length (x :: y)) by (rewrite <- ABCD, !app_length; lia).
    rewrite NTH. cbn [length Nat.eqb negb]. rewrite X. rewrite (proj2 (bytes_eqb_eq sep sep) eq_refl), <- SS. reflexivity.
Qed.

Lemma no_start sep : forall x w rest, Forall (item_ok sep) x -> wsish w = true -> (forall a z, tx w <> a ++ sep ++ z) ->
  starts_psv_cell sep (flat_map item_src (x ++ [Plain w]) ++ rest) = false.
Proof.
  intros x w rest F W NW. unfold starts_psv_cell. destruct (peek_cell_start _ _) as [st|] eqn:P; [exfalso|reflexivity].
  apply peek_some in P as (pre & t & post & E & FP & C & _). revert pre E FP.
  assert (NS : ~ speck w).
  { unfold speck. unfold wsish in W. apply orb_true_iff in W as [W|W]; apply is_k_tk in W; rewrite W; cbn; intuition discriminate. }
  induction x as [|i x IH]; intros pre E FP; cbn [app flat_map item_src] in E.
  - destruct pre as [|p pre]; cbn [app] in E; injection E as E1 E2; subst; [destruct C as (a & z & C); destruct (NW a z C)|inversion FP; contradiction].
  - inversion F as [|? ? I F']; subst. destruct i as [p|b s]; cbn [item_src app] in E.
    + destruct pre as [|q pre]; cbn [app] in E; injection E as E1 E2; subst; [destruct C as (a & z & C); destruct (I a z C)|].
      apply (IH F' pre E2). inversion FP; assumption.
    + destruct I as (K & N & _). destruct pre as [|q pre]; cbn [app] in E; injection E as E1 E2; subst; [destruct C as (a & z & C); destruct (N a z C)|].
      inversion FP as [|? ? H]; subst. unfold speck in H. rewrite K in H. cbn in H. intuition discriminate.
Qed.
Lemma find_sub_free p s : (forall a z, s <> a ++ p ++ z) -> find_sub p s = None.
Proof. intro N. destruct (find_sub p s) as [i|] eqn:E; [|reflexivity]. apply find_sub_spec in E as (a & z & E & _). destruct (N a z E). Qed.
Lemma consume_plain sep (t : ttok) r : (forall a z, tx t <> a ++ sep ++ z) -> consume_splitting (embeddable sep) (t :: r) = Done (Some (t, r)).
Proof. intro N. unfold consume_splitting, embeddable. destruct (sep_kind sep); [reflexivity|]. rewrite (find_sub_free _ _ N). destruct (is_k Word t); reflexivity. Qed.
Lemma sep_starts sep (s : ttok) r : is_sep sep s -> starts_psv_cell sep (s :: r) = true.
Proof. intros (X & AR & _). unfold starts_psv_cell, peek_cell_start. rewrite AR, X. rewrite (proj2 (starts_with_spec _ _)) by (exists []; rewrite app_nil_r; reflexivity). reflexivity. Qed.

(** the text of a cell, from any item on *)
Definition stops (sep : bytes) (rest : list ttok) : Prop := rest = [] \/ starts_psv_cell sep rest = true.
Lemma sep_not_nl sep s : is_sep sep s -> nl s = false.
Proof. intros (_ & _ & N & _). apply tk_not_k. intro E. apply N. rewrite E. in_specs. Qed.
Lemma body_written sep rest : stops sep rest -> forall x w fuel count, Forall (item_ok sep) x -> wsish w = true -> (forall a z, tx w <> a ++ sep ++ z) -> length x + 1 < fuel ->
  psv_body fuel sep count (flat_map item_src (x ++ [Plain w]) ++ rest) = Done (map item_val x ++ [w], rest, count && no_nl (map item_val x ++ [w])).
Proof.
  intros R. assert (END : forall fuel count, 0 < fuel -> psv_body fuel sep count rest = Done ([], rest, count)).
  { intros fuel count L. destruct fuel; [lia|]. cbn [psv_body]. destruct R as [->|R]; [reflexivity|]. rewrite R. reflexivity. }
  induction x as [|i x IH]; intros w fuel count F W NW L; cbn [length] in L; (destruct fuel as [|fuel]; [lia|]).
  - pose proof (no_start sep [] w rest F W NW) as NS. cbn [app flat_map item_src map] in NS |- *. cbn [psv_body]. rewrite NS, (consume_plain _ _ _ NW). cbn [rbind].
    assert (B : is_k Backslash w = false) by (unfold wsish in W; apply orb_true_iff in W as [W|W]; apply is_k_tk in W; apply tk_not_k; rewrite W; discriminate).
    rewrite B. cbn [negb orb]. rewrite END by lia. cbn [rbind]. unfold no_nl. cbn [forallb]. rewrite andb_true_r. reflexivity.
  - pose proof (no_start sep (i :: x) w rest F W NW) as NS. inversion F as [|? ? I F']; subst. cbn [psv_body]. rewrite NS. cbn [app flat_map map].
    destruct i as [t|b s]; cbn [item_src item_val app].
    + rewrite (consume_plain _ _ _ I). cbn [rbind]. rewrite (no_start sep x w rest F' W NW). cbn [negb]. rewrite orb_true_r. rewrite IH by (assumption || lia). cbn [rbind].
      unfold no_nl. cbn [forallb]. rewrite andb_assoc. reflexivity.
    + destruct I as (K & N & S). rewrite (consume_plain _ _ _ N). cbn [rbind]. rewrite (tk_is_k _ _ K), (sep_starts _ _ _ S). cbn [negb orb].
      rewrite (IH w fuel) by (assumption || lia). cbn [rbind]. unfold no_nl. cbn [forallb]. fold (nl s). rewrite (sep_not_nl _ _ S).
      assert (NB : nl b = false) by (apply tk_not_k; rewrite K; discriminate). rewrite NB. cbn [negb andb]. rewrite andb_true_r. reflexivity.
Qed.
Lemma drop_ws_app a l : Forall (fun t => ws t = true) a -> drop_while ws (a ++ l) = drop_while ws l.
Proof. induction 1 as [|t a H _ IH]; [reflexivity|]. cbn [app drop_while]. rewrite H. exact IH. Qed.
Lemma drop_ws_head t l : ws t = false -> drop_while ws (t :: l) = t :: l.
Proof. intro H. cbn [drop_while]. rewrite H. reflexivity. Qed.
Lemma drop_ws_stop sep rest : stops sep rest -> lexed sep rest -> (forall t, In t rest -> ws t = true -> starts_with sep (tx t) = false) -> drop_while ws rest = rest.
Proof.
  intros [->|S] _ N; [reflexivity|]. destruct rest as [|t r]; [reflexivity|]. apply drop_ws_head. destruct (ws t) eqn:W; [exfalso|reflexivity].
  unfold starts_psv_cell in S. destruct (peek_cell_start sep (t :: r)) as [st|] eqn:P; [|discriminate]. cbn [peek_cell_start] in P. destruct (ar t); [discriminate|].
  rewrite (N t (or_introl eq_refl) W) in P. apply is_k_tk in W. rewrite (tk_not_k Word t) in P by (rewrite W; discriminate). unfold LineModel.one_of in P. rewrite W in P. discriminate.
Qed.
(** the leading white space of a text *)
Lemma text_drop sep x w rest : Forall (item_ok sep) x -> drop_while ws rest = rest ->
  (exists x1 x2, x = x1 ++ x2 /\ drop_while ws (flat_map item_src (x ++ [Plain w]) ++ rest) = flat_map item_src (x2 ++ [Plain w]) ++ rest /\
     drop_while ws (map item_val (x ++ [Plain w])) = map item_val (x2 ++ [Plain w])) \/
  (drop_while ws (flat_map item_src (x ++ [Plain w]) ++ rest) = rest /\ drop_while ws (map item_val (x ++ [Plain w])) = []).
Proof.
  intros F R. induction x as [|i x IH]; cbn [app flat_map item_src map item_val].
  - destruct (ws w) eqn:W; [right; cbn [drop_while]; rewrite W; auto|left]. exists [], []. cbn [app flat_map item_src map item_val drop_while]. rewrite W. auto.
  - inversion F as [|? ? I F']; subst. destruct i as [t|b s]; cbn [item_src item_val app].
    + destruct (ws t) eqn:W.
      * cbn [drop_while]. rewrite W. destruct (IH F') as [(x1 & x2 & -> & A & B)|[A B]]; [left; exists (Plain t :: x1), x2; auto|right; auto].
      * left. exists [], (Plain t :: x). cbn [app flat_map item_src map item_val drop_while]. rewrite W. auto.
    + destruct I as (K & N & X & AR & NK & _). left. exists [], (Escaped b s :: x). cbn [app flat_map item_src map item_val drop_while].
      assert (WB : ws b = false) by (apply tk_not_k; rewrite K; discriminate). assert (WS : ws s = false) by (apply tk_not_k; intro E; apply NK; rewrite E; in_specs).
      rewrite WB, WS. auto.
Qed.
Lemma len_items x : length x <= size (flat_map item_src x).
Proof. induction x as [|i x IH]; [cbn; lia|]. cbn [flat_map]. rewrite size_app. destruct i; cbn [item_src length]; rewrite ?size_cons; lia. Qed.
Lemma source_starts sep w rest : cell_ok sep w -> peek_cell_start sep (source w ++ rest) = Some (CellStart (w_spec w) (length (w_toks w) + 1) 0).
Proof. intros (S & T & _ & F). unfold source. rewrite <- app_assoc. cbn [app]. apply peek_written; assumption. Qed.
Lemma source_stops sep w rest : cell_ok sep w -> stops sep (source w ++ rest).
Proof. intro H. right. unfold starts_psv_cell. rewrite (source_starts _ _ _ H). reflexivity. Qed.
Lemma wr_spec_kinds s l : wr_spec s l -> Forall speck l.
Proof.
  intros (a & b & c & d & -> & WD & WS & WA & WY). unfold speck. rewrite !Forall_app. split; [|split; [|split]].
  - destruct WD as [|n x y [K _] Y]; unfold of_kind in *; repeat (apply Forall_cons; [first [rewrite K|rewrite Y]; in_specs|]); apply Forall_nil.
  - destruct WS as [|n x p [K V] Y|n x y p [K V] [D D1] Y|n m x y z p [K V] [D D1] [K2 V2] Y]; unfold of_kind in *;
      repeat (apply Forall_cons; [first [rewrite K|rewrite D|rewrite K2|rewrite Y]; in_specs|]); apply Forall_nil.
  - destruct WA as [|h x H|v x y [D D1] H|h v x y z H [D D1] G|x K Y]; unfold of_kind in *;
      repeat (apply Forall_cons; [first [rewrite K; in_specs|rewrite D; in_specs|rewrite H; first [destruct h|destruct v]; in_specs|rewrite G; destruct v; in_specs]|]); apply Forall_nil.
  - destruct WY as [|st x y I K Y]; repeat (apply Forall_cons; [rewrite K; in_specs|]); apply Forall_nil.
Qed.
Lemma source_drop sep w rest : cell_ok sep w -> drop_while ws (source w ++ rest) = source w ++ rest.
Proof.
  intros (S & T & _ & _). unfold source. apply wr_spec_kinds in S. destruct (w_toks w) as [|t l]; cbn [app].
  - apply drop_ws_head. destruct T as (_ & _ & N & _). apply tk_not_k. intro E. apply N. rewrite E. in_specs.
  - apply drop_ws_head. inversion S as [|? ? H]; subst. apply tk_not_k. intro E. unfold speck in H. rewrite E in H. cbn in H. intuition discriminate.
Qed.
(** what may follow a cell: another cell, or the end *)
Definition follows (sep : bytes) (rest : list ttok) : Prop := rest = [] \/ exists w r, cell_ok sep w /\ rest = source w ++ r.
Lemma follows_stops sep rest : follows sep rest -> stops sep rest.
Proof. intros [->|(w & r & H & ->)]; [left; reflexivity|apply source_stops; exact H]. Qed.
Lemma follows_drop sep rest : follows sep rest -> drop_while ws rest = rest.
Proof. intros [->|(w & r & H & ->)]; [reflexivity|apply (source_drop sep); exact H]. Qed.
Lemma cell_written sep n count ps w rest fuel : cell_ok sep w -> follows sep rest ->
  (count = true \/ or_default (col_span (w_spec w)) 0 <= n mod 256) -> 0 < fuel ->
  psv_cell fuel sep n count ps (source w ++ rest) = Done (Some (content w), rest, count && no_nl (snd (content w)), ps).
Proof.
  intros H FO NAR FU. destruct fuel as [|fuel]; [lia|]. cbn [psv_cell].
  destruct (source w ++ rest) as [|t0 l0] eqn:SR.
  { unfold source in SR. destruct (w_toks w); discriminate. }
  rewrite <- SR. unfold consume_cell_start. rewrite (source_starts _ _ _ H). cbn [st_spec drop_bytes drop_tokens].
  assert (SK : skipn (length (w_toks w) + 1) (source w ++ rest) = flat_map item_src (w_text w) ++ rest).
  { unfold source. replace ((w_toks w ++ w_sep w :: flat_map item_src (w_text w)) ++ rest) with ((w_toks w ++ [w_sep w]) ++ flat_map item_src (w_text w) ++ rest)
      by (rewrite <- !app_assoc; reflexivity). replace (length (w_toks w) + 1) with (length (w_toks w ++ [w_sep w])) by (rewrite app_length; reflexivity). apply skipn_app_len. }
  rewrite SK. assert (DR : forall l, drop_leading_bytes 0 l = l) by (intros [|[? ?] ?]; reflexivity). rewrite DR.
  assert (DP : negb count && (n mod 256 <? or_default (col_span (w_spec w)) 0) = false).
  { destruct NAR as [->|NAR]; [reflexivity|]. rewrite (proj2 (Nat.ltb_ge _ _) NAR). apply andb_false_r. }
  rewrite DP. cbv zeta. destruct H as (_ & _ & (F & x & z & E & WZ) & _). rewrite E in *. apply Forall_app in F as [F FZ].
  assert (NZ : forall a b, tx z <> a ++ sep ++ b) by (inversion FZ; assumption).
  unfold content. rewrite E. cbn [snd].
  destruct (text_drop sep x z rest F (follows_drop _ _ FO)) as [(x1 & x2 & -> & A & B)|[A B]]; rewrite A, B.
  - apply Forall_app in F as [_ F2]. rewrite (body_written sep rest (follows_stops _ _ FO) x2 z).
    + cbn [rbind]. rewrite map_app. reflexivity.
    + exact F2.
    + exact WZ.
    + exact NZ.
    + pose proof (len_items (x2 ++ [Plain z])) as LI. rewrite <- app_assoc, flat_map_app, !size_app. rewrite app_length in LI. cbn [length] in LI. lia.
  - assert (EN : psv_body (S (size (flat_map item_src (x ++ [Plain z]) ++ rest))) sep count rest = Done ([], rest, count)).
    { cbn [psv_body]. destruct (follows_stops _ _ FO) as [->|S]; [reflexivity|]. rewrite S. reflexivity. }
    rewrite EN. cbn [rbind no_nl forallb]. rewrite andb_true_r. reflexivity.
Qed.
