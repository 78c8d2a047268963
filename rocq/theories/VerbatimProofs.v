From Verif Require Import InlineModel InlineSpec VerbatimSpec.

Lemma reads_app e a x b y : reads e a x -> reads e b y -> reads e (a ++ b) (x ++ y).
Proof. induction 1; intros; cbn [app]; [assumption|rewrite <- app_assoc|..]; constructor; auto. Qed.
Lemma reads_app_inv e a : forall b z, reads e (a ++ b) z -> exists x y, z = x ++ y /\ reads e a x /\ reads e b y.
Proof.
  induction a as [|n a IH]; cbn [app]; intros b z H; [exists [], z; repeat split; [constructor|assumption]|].
  inversion H; subst; match goal with H : reads _ (a ++ b) _ |- _ => destruct (IH _ _ H) as (u & v & -> & Hu & Hv) end.
  - exists (x ++ u), v. rewrite app_assoc. repeat split; [constructor|]; assumption.
  - exists (LF :: u), v. repeat split; [constructor|]; assumption.
  - exists (special_char k :: u), v. repeat split; [constructor|]; auto.
Qed.
Definition fit (e : bool) (x : bytes) : Prop := e = true -> harmless x.
Lemma fit_app e x y : fit e x -> fit e y -> fit e (x ++ y).
Proof. intros X Y E k H. apply in_app_or in H as [H|H]; [now apply (X E k)|now apply (Y E k)]. Qed.
Lemma reads_text1 e x : fit e x -> reads e [NText x] x.
Proof. intros F. rewrite <- (app_nil_r x) at 2. constructor; [exact F|constructor]. Qed.
Lemma reads_add e ns x y : reads e ns x -> fit e y -> reads e (add_text ns y) (x ++ y).
Proof.
  intros H F. unfold add_text. destruct y as [|c y]; [now rewrite app_nil_r|].
  assert (D : reads e (ns ++ [NText (c :: y)]) (x ++ c :: y)) by (apply reads_app; [assumption|now apply reads_text1]).
  destruct (rev ns) as [|n r] eqn:R; [assumption|]. destruct n; try assumption.
  assert (N : ns = rev r ++ [NText x0]) by (rewrite <- (rev_involutive ns), R; reflexivity). rewrite N in H.
  apply reads_app_inv in H as (u & v & -> & Hu & Hv). inversion Hv as [|x' ns' y' F0 H0| |]; subst. inversion H0; subst. rewrite app_nil_r, <- app_assoc.
  apply reads_app; [assumption|apply reads_text1; now apply fit_app].
Qed.
(** what has been collected reads [x] *)
Definition so_far (e : bool) (a : accum) (x : bytes) : Prop := exists u, reads e (nodes_of a) u /\ x = u ++ text a /\ fit e (text a).
Lemma so_far_text e a x y : so_far e a x -> fit e y -> so_far e (push_text y a) (x ++ y).
Proof. intros (u & R & -> & F) G. exists u. split; [assumption|]. cbn. rewrite app_assoc. split; [reflexivity|now apply fit_app]. Qed.
Lemma so_far_commit e a x : so_far e a x -> reads e (nodes_of (commit a)) x.
Proof. intros (u & R & -> & F). now apply reads_add. Qed.
Lemma nil_fit e : fit e [].
Proof. intros _ k []. Qed.
Lemma so_far_node e a x n y : so_far e a x -> reads e [n] y -> so_far e (push_node n a) (x ++ y).
Proof. intros H R. exists (x ++ y). split; [apply reads_app; [now apply so_far_commit|assumption]|split; [now rewrite app_nil_r|apply nil_fit]]. Qed.
Lemma so_far_finish e a x : so_far e a x -> reads e (finish a None) x.
Proof.
  intros H. unfold finish. cbn [push_unused]. apply so_far_commit in H. revert H. generalize (nodes_of (commit a)). intros ns H.
  assert (T : trimmed (length ns) (rev ns) = rev ns).
  { destruct (length ns); [reflexivity|]. cbn. destruct (rev ns) as [|m r] eqn:R; [reflexivity|]. destruct m; try reflexivity.
    exfalso. assert (N : ns = rev r ++ [NComment x0]) by (rewrite <- (rev_involutive ns), R; reflexivity). rewrite N in H. apply reads_app_inv in H as (u & v & _ & _ & Hv). inversion Hv. }
  rewrite T, rev_involutive. assumption.
Qed.

Lemma index_seq_split q l n : index_of_seq q l = Some n -> exists a b, l = a ++ b /\ starts_with_seq q b = true.
Proof.
  revert n. induction l as [|t r IH]; cbn [index_of_seq]; intros n H; [discriminate|].
  destruct (starts_with_seq q (t :: r)) eqn:S; [exists [], (t :: r); auto|].
  destruct (index_of_seq q r); [|discriminate]. destruct (IH _ eq_refl) as (a & b & -> & Hb). exists (t :: a), b. auto.
Qed.
Lemma contains_split q l : contains_seq q l = true -> exists a b, l = a ++ b /\ starts_with_seq q b = true.
Proof. unfold contains_seq. destruct (index_of_seq q l) eqn:H; [intros _; eapply index_seq_split; eassumption|discriminate]. Qed.
Lemma starts2 k1 k2 l : starts_with_seq [Kind k1; Kind k2] l = true -> exists t1 t2 r, l = t1 :: t2 :: r /\ tk t1 = k1 /\ tk t2 = k2.
Proof.
  destruct l as [|t1 [|t2 r]]; cbn; try discriminate; [rewrite andb_false_r; discriminate|].
  intros H. apply andb_prop in H as [A B]. apply andb_prop in B as [B _].
  exists t1, t2, r. unfold is_k in *. split; [reflexivity|]. split; [now destruct (kind_eqb_spec (tk t1) k1)|now destruct (kind_eqb_spec (tk t2) k2)].
Qed.
Lemma is_k_refl k t : tk t = k -> is_k k t = true.
Proof. intros <-. unfold is_k. destruct (kind_eqb_spec (tk t) (tk t)); congruence. Qed.
Lemma is_k_true k t : is_k k t = true -> tk t = k.
Proof. unfold is_k. now destruct (kind_eqb_spec (tk t) k). Qed.
Lemma doubled_intro x y t l : x <> y -> tk t = x -> current_is x l = true -> contains_seq [Kind y; Kind y] l = true -> doubled x y (t :: l).
Proof.
  intros N T C S. destruct l as [|t2 r]; [discriminate|]. unfold current_is in C. cbn [hd_error at_k] in C. apply is_k_true in C.
  apply contains_split in S as (a & b & E & B). apply starts2 in B as (t3 & t4 & c & -> & T3 & T4).
  destruct a as [|z a]; cbn [app] in E; injection E as -> E; [congruence|].
  subst r. exists [], t, z, a, t3, t4, c. auto.
Qed.
Lemma doubled_cons x y t l : doubled x y l -> doubled x y (t :: l).
Proof. intros (a & t1 & t2 & b & t3 & t4 & c & -> & H). exists (t :: a), t1, t2, b, t3, t4, c. auto. Qed.
Lemma ends_cons ks t l : ends_in ks l -> ends_in ks (t :: l).
Proof. intros (a & b & -> & H). exists (t :: a), b. auto. Qed.
Lemma alone_tail e t r : left_alone e (t :: r) -> left_alone e r.
Proof.
  intros [K R X A B W P S]. split; intros.
  - intros (u & U & T). apply (K k H). exists u. split; [now right|assumption].
  - intros (a & b & c & -> & D). apply R; [assumption|]. exists (t :: a), b, c. auto.
  - intros D. apply X. now apply doubled_cons.
  - intros D. apply A. now apply doubled_cons.
  - intros D. apply B. now apply ends_cons.
  - intros D. apply W. now apply ends_cons.
  - apply P; [now right|assumption].
  - now apply S in H; inversion H.
Qed.
(** white space and callouts only, from a line of this sort: nothing *)
Lemma no_callouts e r : left_alone e r -> current_is Whitespace r = true -> callouts_only r = false.
Proof.
  intros L C. destruct (callouts_only r) eqn:O; [|reflexivity]. exfalso.
  assert (N : r <> []) by (intros ->; discriminate).
  destruct (exists_last N) as (a & t & ->). unfold callouts_only in O. rewrite forallb_app in O. apply andb_prop in O as [_ O]. cbn in O.
  rewrite andb_true_r in O. unfold one_of in O. cbn in O. rewrite orb_false_r in O. apply orb_prop in O as [O|O].
  - apply (no_space _ _ L). exists a, [t]. split; [reflexivity|]. cbn. now destruct (kind_eqb_spec (tk t) Whitespace) as [->|].
  - apply (kinds _ _ L CalloutNumber); [cbn; auto|]. exists t. split; [apply in_or_app; right; now left|]. now destruct (kind_eqb_spec (tk t) CalloutNumber).
Qed.

Ltac alone_absurd L k := exfalso; apply (kinds _ _ L k); [cbn; tauto|]; eexists; split; [left; reflexivity|reflexivity].
Lemma token_alone E sb s a t r l ls x :
  literal_subs sb -> tk t <> AttrRef -> left_alone (contains sb SpecialChars) (t :: r) -> so_far (contains sb SpecialChars) a x ->
  exists a', token_step E [] sb s a None t (adv l r) ls = Go s a' None (Some (adv l r)) ls /\ so_far (contains sb SpecialChars) a' (x ++ tx t).
Proof.
  intros (F & M & C & RR) NAR L A.
  assert (W : fit (contains sb SpecialChars) (tx t) -> exists a', Go s (push_text (tx t) a) None (Some (adv l r)) ls = Go s a' None (Some (adv l r)) ls /\ so_far (contains sb SpecialChars) a' (x ++ tx t)) by (intros FT; eexists; split; [reflexivity|now apply so_far_text]).
  assert (SP : forall k, contains sb SpecialChars = true -> tx t = [special_char k] ->
     exists a', Go s (push_node (NSpecial k) a) None (Some (adv l r)) ls = Go s a' None (Some (adv l r)) ls /\ so_far (contains sb SpecialChars) a' (x ++ tx t)).
  { intros k SE T. eexists; split; [reflexivity|]. rewrite T. apply so_far_node; [assumption|]. constructor; [assumption|constructor]. }
  assert (X : is_k LessThan t = true -> continues_xref r = false).
  { intros T. destruct (continues_xref r) eqn:X; [|reflexivity]. exfalso. apply (no_xref _ _ L). unfold continues_xref in X.
    apply andb_prop in X as [X _]. apply andb_prop in X as [X X2]. apply andb_prop in X as [X1 _]. apply doubled_intro; [discriminate|now apply is_k_true|assumption..]. }
  assert (B : is_k OpenBracket t = true -> contains_seq [Kind CloseBracket; Kind CloseBracket; Kind CloseBracket] r = true -> starts_with_seq (double OpenBracket) r = true -> False).
  { intros T H S. apply (no_anchor _ _ L). apply doubled_intro; [discriminate|now apply is_k_true| |].
    - apply starts2 in S as (t1 & t2 & m & -> & T1 & _). unfold current_is. cbn. unfold is_k. now rewrite T1.
    - apply contains_split in H as (u & v & -> & H). destruct v as [|v1 [|v2 v]]; [discriminate H|cbn in H; now rewrite andb_false_r in H|].
      cbn in H. apply andb_prop in H as [H1 H]. apply andb_prop in H as [H2 _]. unfold contains_seq.
      assert (Z : index_of_seq [Kind CloseBracket; Kind CloseBracket] (u ++ v1 :: v2 :: v) <> None).
      { clear -H1 H2. induction u as [|w u IH]; cbn [app index_of_seq].
        - cbn [starts_with_seq satisfies]. rewrite H1, H2. discriminate.
        - destruct (starts_with_seq _ _); [discriminate|]. destruct (index_of_seq _ (u ++ v1 :: v2 :: v)); [discriminate|congruence]. }
      destruct (index_of_seq _ _); [reflexivity|congruence]. }
  assert (NA : is_k OpenBracket t = true -> continues_inline_anchor r = false).
  { intros T. destruct (continues_inline_anchor r) eqn:H; [|reflexivity]. exfalso. apply (no_anchor _ _ L). unfold continues_inline_anchor in H.
    destruct (starts_with_seq [Kind OpenBracket; OneOf [Word; Colon]] r) eqn:S; [|discriminate].
    destruct (index_of_seq [Kind CloseBracket; Kind CloseBracket] r) eqn:I; [|discriminate].
    apply doubled_intro; [discriminate|now apply is_k_true| |unfold contains_seq; now rewrite I].
    destruct r as [|t2 r]; [discriminate|]. cbn in S. apply andb_prop in S as [S _]. exact S. }
  assert (WP : is_k Whitespace t = true -> current_is Plus r && match r with _ :: n :: _ => is_k Newline n | _ => true end = false).
  { intros T. destruct r as [|p r]; [reflexivity|]. unfold current_is; cbn [hd_error at_k]. destruct (is_k Plus p) eqn:P; [|reflexivity].
    destruct r as [|n r]; cbn [andb].
    - exfalso. apply (no_break _ _ L). exists [], [t; p]. split; [reflexivity|]. cbn. now rewrite (is_k_true _ _ T), (is_k_true _ _ P).
    - destruct (is_k Newline n) eqn:N; [|reflexivity]. exfalso. apply (kinds _ _ L Newline); [cbn; tauto|]. exists n. split; [cbn; auto|now apply is_k_true]. }
  assert (CO : current_is Whitespace r && callouts_only r = false).
  { destruct (current_is Whitespace r) eqn:Y; [|reflexivity]. now rewrite (no_callouts _ r (alone_tail _ _ _ L) Y). }
  assert (ST : contains sb SpecialChars = true -> special_text t) by (intros SE; exact (Forall_inv (specials _ _ L SE))). unfold special_text in ST.
  unfold token_step. cbn [toks adv]. rewrite F, M, C. destruct t as [k tx0 i0]. cbn [tk tx inf] in *. unfold is_k at 1 in X; unfold is_k at 1 in NA; unfold is_k at 1 in B; unfold is_k at 1 in WP. cbn [tk] in *.
  rewrite !andb_false_r. cbn [andb]. assert (RF : contains sb SpecialChars = true -> kind_eqb k Ampersand = true -> starts_with_seq [Kind Hash; Kind Digits; Kind SemiColon] r = false).
  { intros SE T. destruct (starts_with_seq [Kind Hash; Kind Digits; Kind SemiColon] r) eqn:S; [|reflexivity]. exfalso. apply (no_ref _ _ L SE). destruct r as [|h [|d [|m r]]]; try (cbn in S; rewrite ?andb_false_r in S; discriminate S).
    cbn [starts_with_seq satisfies] in S. apply andb_prop in S as [S1 S]. apply andb_prop in S as [S2 S]. apply andb_prop in S as [S3 _].
    exists [], [TokI k tx0 i0; h; d; m], r. split; [reflexivity|]. cbn [map tk]. rewrite (is_k_true _ _ S1), (is_k_true _ _ S2), (is_k_true _ _ S3).
    destruct (kind_eqb_spec k Ampersand) as [->|]; [reflexivity|discriminate]. }
  destruct (contains sb SpecialChars), (contains sb Callouts).
  all: assert (WF : (match k with Ampersand => true | LessThan => true | GreaterThan => true | _ => false end) = false ->
      exists a', Go s (push_text tx0 a) None (Some (adv l r)) ls = Go s a' None (Some (adv l r)) ls /\ so_far _ a' (x ++ tx0))
    by (intros NK; apply W; intros SE; specialize (ST SE); clear -ST NK; destruct k; first [exact ST|discriminate NK]).
  all: destruct k; unfold is_k; cbn [kind_eqb kind_beq tk andb negb orb special_of]; try exact (WF eq_refl);
    try (now alone_absurd L Backslash); try (now alone_absurd L CalloutNumber); try (now (exfalso; apply NAR; reflexivity)); try (now alone_absurd L AttrPassDbl);
    try (now alone_absurd L PreprocPassthru); try (now alone_absurd L Discard); try (now alone_absurd L Newline).
  all: try (rewrite (RF eq_refl eq_refl)).
  all: try (now (destruct (starts_with_seq [Kind Hash; Kind Digits; Kind SemiColon] r); exact (W ltac:(discriminate)))).
  all: try (now (rewrite X by reflexivity; cbn [andb]; first [exact (W ltac:(discriminate))|apply SP; [reflexivity|exact (ST eq_refl)]])).
  all: try (now (first [exact (W ltac:(discriminate))|apply SP; [reflexivity|exact (ST eq_refl)]])).
  all: try (now (rewrite <- andb_assoc, CO, andb_false_r; exact (WF eq_refl))).
  all: try (now (rewrite CO; exact (WF eq_refl))).
  all: try (now (destruct (current_is Whitespace r) eqn:Y; [rewrite (no_callouts _ r (alone_tail _ _ _ L) Y)|]; rewrite ?andb_false_r; exact (WF eq_refl))).
  all: try (now (unfold is_k in WP; rewrite WP by reflexivity; exact (WF eq_refl))).
  all: try (now (destruct (starts_with_seq (double OpenBracket) r) eqn:S2;
    [destruct (contains_seq [Kind CloseBracket; Kind CloseBracket; Kind CloseBracket] r) eqn:S3; [exfalso; now apply B|rewrite andb_false_r; exact (WF eq_refl)]
    |cbn [andb]; rewrite NA by reflexivity; exact (WF eq_refl)])).
  all: match goal with |- ?G => idtac G end.
Qed.

Lemma may_pass_plain l : passm l = false -> pluses l = 0 -> may_contain_pass l = Ret false.
Proof. unfold may_contain_pass. intros -> ->. reflexivity. Qed.
Lemma joining e a x ls : so_far e a x -> so_far e (joining_newline a ls) (x ++ match ls with [] => [] | _ => [LF] end).
Proof.
  intros H. unfold joining_newline. destruct ls; [now rewrite app_nil_r|].
  pose proof (so_far_commit _ _ _ H) as R.
  assert (N : so_far e (push_node NNewline (commit a)) (x ++ [LF])).
  { apply so_far_node; [exists x; split; [assumption|split; [now rewrite app_nil_r|apply nil_fit]]|repeat constructor]. }
  destruct (rev (nodes_of (commit a))) as [|n r] eqn:V; [assumption|]. destruct n; try assumption.
  exfalso. assert (Z : nodes_of (commit a) = rev r ++ [NDashes n a0]) by (rewrite <- (rev_involutive (nodes_of _)), V; reflexivity).
  rewrite Z in R. apply reads_app_inv in R as (u & v & _ & _ & Hv). inversion Hv.
Qed.
Lemma go_some f E sb s a l t r ls :
  may_contain_pass (adv l (t :: r)) = Ret false ->
  go (S f) E [] sb s a None (Some (adv l (t :: r))) ls =
  match token_step E [] sb s a None t (adv l r) ls with Go s a ia cur ls => go f E [] sb s a ia cur ls | _ => go (S f) E [] sb s a None (Some (adv l (t :: r))) ls end.
Proof. intros H. cbn [go]. unfold step. cbn [toks adv at_stop]. rewrite H. cbn [try]. change (adv (adv l (t :: r)) r) with (adv l r). destruct (token_step _ _ _ _ _ _ _ _ _); reflexivity. Qed.

Lemma ref_alone E sb s a t r l ls x : literal_subs sb -> tk t = AttrRef -> left_alone (contains sb SpecialChars) (t :: r) -> so_far (contains sb SpecialChars) a x ->
  exists a', token_step E [] sb s a None t (adv l r) ls = Go s a' None (Some (adv l (skip_at (at_ (inf t)) r))) ls /\ so_far (contains sb SpecialChars) a' (x ++ tx t).
Proof.
  intros (F & M & C & R) K L A. assert (ST : contains sb SpecialChars = true -> special_text t) by (intros SE; exact (Forall_inv (specials _ _ L SE))). unfold special_text in ST. rewrite K in ST.
  exists (push_text (tx t) a). split; [|apply so_far_text; [assumption|exact ST]].
  unfold token_step. destruct t as [k x0 i]. cbn [tk] in K. subst k. cbn [toks adv tx inf]. rewrite F, M, C, R. unfold is_k. cbn [tk kind_eqb kind_beq andb negb]. rewrite ?andb_false_r. cbn [andb]. reflexivity.
Qed.
Lemma written_skip n : forall r, written (Some n) r = written None (skip_at n r).
Proof. induction r as [|t r IH]; [reflexivity|]. cbn [written skip_at]. destruct (at_ (inf t) =? n); [exact IH|reflexivity]. Qed.
Lemma alone_skip e n r : left_alone e r -> left_alone e (skip_at n r) /\ length (skip_at n r) <= length r.
Proof. induction r as [|t r IH]; intros L; cbn [skip_at length]; [auto|]. destruct (at_ (inf t) =? n); [|auto]. destruct (IH (alone_tail _ _ _ L)). auto. Qed.
Lemma line_alone E sb s ls l : literal_subs sb -> passm l = false -> pluses l = 0 -> forall n r a x, length r <= n -> left_alone (contains sb SpecialChars) r -> so_far (contains sb SpecialChars) a x ->
  exists a' m, so_far (contains sb SpecialChars) a' (x ++ written None r) /\ m <= length r /\
    forall f, go (S m + f) E [] sb s a None (Some (adv l r)) ls = go f E [] sb s (joining_newline a' ls) None None ls.
Proof.
  intros LS P1 P2. induction n as [|n IH]; intros r a x LE L A; (destruct r as [|t r];
    [exists a, 0; cbn [written]; rewrite app_nil_r; split; [exact A|split; [reflexivity|] ]; intros f; cbn [Nat.add go]; unfold step; cbn [toks adv at_stop]; rewrite may_pass_plain by assumption; reflexivity|]);
    cbn [length] in LE; [lia|].
  destruct (kind_eqb_spec (tk t) AttrRef) as [K|K].
  - destruct (ref_alone E sb s a t r l ls x LS K L A) as (a1 & E1 & A1). destruct (alone_skip _ (at_ (inf t)) r (alone_tail _ _ _ L)) as [L2 L3].
    destruct (IH (skip_at (at_ (inf t)) r) a1 _ ltac:(lia) L2 A1) as (a2 & m & A2 & ML & G). exists a2, (S m). split; [|split; [cbn [length]; lia|] ].
    + cbn [written]. rewrite is_k_refl by assumption. rewrite written_skip. now rewrite app_assoc.
    + intros f. change (S (S m) + f) with (S (S m + f)). cbn [go]. unfold step. cbn [toks adv at_stop]. rewrite may_pass_plain by assumption. cbn [try]. change (adv (adv l (t :: r)) r) with (adv l r). rewrite E1. apply G.
  - destruct (token_alone E sb s a t r l ls x LS K L A) as (a1 & E1 & A1).
    destruct (IH r a1 _ ltac:(lia) (alone_tail _ _ _ L) A1) as (a2 & m & A2 & ML & G). exists a2, (S m). split; [|split; [cbn [length]; lia|] ].
    + cbn [written]. replace (is_k AttrRef t) with false by (symmetry; unfold is_k; destruct (kind_eqb_spec (tk t) AttrRef); congruence). now rewrite app_assoc.
    + intros f. change (S (S m) + f) with (S (S m + f)). cbn [go]. unfold step. cbn [toks adv at_stop]. rewrite may_pass_plain by assumption. cbn [try]. change (adv (adv l (t :: r)) r) with (adv l r). rewrite E1. apply G.
Qed.
Lemma term_none c whole : forall l p i, plus_spaced (option_map tk p) l -> term_in [Len 1 Plus] c whole i p l = None.
Proof.
  induction l as [|t r IH]; intros p i S; [reflexivity|]. cbn [term_in]. destruct S as [S1 S2].
  destruct (starts_with_seq [Len 1 Plus] (t :: r)) eqn:PT; [|apply IH; exact S2].
  cbn [starts_with_seq satisfies] in PT. apply andb_prop in PT as [PT _]. apply andb_prop in PT as [PT _]. apply is_k_true in PT.
  destruct p as [p|]; [|reflexivity]. destruct (S1 PT) as [H|H]; [discriminate|]. cbn [option_map] in H. injection H as H.
  cbn [only_spec spec_is andb]. unfold whitespaceish, at_k, is_k. rewrite H. cbn. rewrite orb_true_r. reflexivity.
Qed.
Lemma one_plus_none E : forall ls n, Forall (fun l => plus_spaced None (toks l)) ls -> one_plus_later E n ls = None.
Proof.
  induction ls as [|l ls IH]; intros n H; [reflexivity|]. cbn [one_plus_later]. destruct (at_delimiter E l); [reflexivity|].
  unfold terminates_in. rewrite term_none by (apply (Forall_inv H)). apply IH. now apply Forall_inv_tail in H.
Qed.
Lemma replace_alone E s ls k : Forall (fun l => plus_spaced None (toks l)) ls -> forall r l done prev f,
  toks l = r -> plus_spaced prev r -> (forall t, In t r -> tk t = MacroName -> tx t <> $"pass:") -> length r <= f ->
  replace_pass f E s done prev 0 l ls k = k s (restore (new_line (done ++ r)) ls).
Proof.
  intros F. induction r as [|t r IH]; intros l done prev f T S NP B.
  - destruct f; cbn [replace_pass]; rewrite T; now rewrite app_nil_r.
  - destruct f as [|f]; [cbn in B; lia|]. cbn [replace_pass]. rewrite T. destruct S as [S1 S2].
    assert (K : replace_pass f E s (done ++ [t]) (Some (tk t)) 0 (adv l r) ls k = k s (restore (new_line (done ++ t :: r)) ls)).
    { rewrite (IH (adv l r)); [now rewrite <- app_assoc|reflexivity|assumption|intros u U; apply NP; now right|cbn in B; lia]. }
    destruct (is_k MacroName t && bytes_eqb (tx t) $"pass:") eqn:M.
    { exfalso. apply andb_prop in M as [M1 M2]. apply (NP t (or_introl eq_refl) (is_k_true _ _ M1)). now apply bytes_eqb_eq. }
    destruct (is_k Plus t) eqn:P; cbn [andb]; [|exact K].
    destruct (could_be_plus prev r); [|exact K]. apply is_k_true in P.
    assert (R : plus_run r = 0).
    { destruct r as [|u r]; [reflexivity|]. cbn [plus_run]. destruct (is_k Plus u) eqn:U; [|reflexivity]. exfalso. apply is_k_true in U.
      destruct S2 as [S2 _]. rewrite P in S2. destruct (S2 U); discriminate. }
    rewrite R. unfold plus_end. cbn [Nat.eqb].
    assert (TN : terminates_in [Len 1 Plus] CNone r = None).
    { unfold terminates_in. rewrite P in S2. destruct r as [|u r]; [reflexivity|]. cbn [plus_spaced] in S2. apply term_none. cbn [option_map plus_spaced]. split; [now left|apply S2]. }
    rewrite TN. destruct (current_is Newline r); cbn [try]; [exact K|]. rewrite one_plus_none by assumption. exact K.
Qed.

Lemma line_of_spec ts : toks (line_of ts) = ts /\ orig (line_of ts) = length ts.
Proof.
  unfold line_of. enough (H : forall l, toks (fold_left push_tok ts l) = toks l ++ ts /\ orig (fold_left push_tok ts l) = orig l + length ts) by apply (H (new_line [])).
  induction ts as [|t r IH]; intros l; cbn [fold_left length]; [now rewrite app_nil_r, Nat.add_0_r|].
  destruct (IH (push_tok l t)) as [-> ->]. cbn [push_tok toks orig]. rewrite <- app_assoc. split; [reflexivity|lia].
Qed.
Lemma line_of_pass ts : (forall t, In t ts -> tk t = MacroName -> tx t <> $"pass:") -> passm (line_of ts) = false.
Proof.
  unfold line_of. enough (H : forall l, passm l = false -> (forall t, In t ts -> tk t = MacroName -> tx t <> $"pass:") -> passm (fold_left push_tok ts l) = false) by now apply H.
  induction ts as [|t r IH]; intros l P N; cbn [fold_left]; [assumption|]. apply IH; [|intros u U; apply N; now right].
  cbn [push_tok passm]. rewrite P. cbn [orb]. destruct (is_k MacroName t && bytes_eqb (tx t) $"pass:") eqn:M; [|reflexivity].
  exfalso. apply andb_prop in M as [M1 M2]. apply (N t (or_introl eq_refl) (is_k_true _ _ M1)). now apply bytes_eqb_eq.
Qed.
(** a line of tokens is not taken for an empty line when it has a plus sign *)
Lemma may_pass_line ts : pluses (line_of ts) <> 0 -> ts <> [].
Proof. intros H ->. now apply H. Qed.

Lemma lines_alone E sb s : literal_subs sb -> forall lss a x f,
  Forall (fun ts => left_alone (contains sb SpecialChars) ts /\ plus_spaced None ts /\ stops E (line_of ts) = false /\ stops E (new_line ts) = false /\ (contains sb Callouts = false -> ~ comment_line ts)) lss ->
  so_far (contains sb SpecialChars) a x -> fuel_of lss <= f ->
  exists ns, go f E [] sb s a None None (map line_of lss) = Done s ns [] /\ reads (contains sb SpecialChars) ns (x ++ joined (map (written None) lss)).
Proof.
  intros LS. induction lss as [|ts lss IH]; intros a x f H A B.
  - destruct f as [|f]; [unfold fuel_of in B; lia|]. exists (finish a None). split; [reflexivity|]. rewrite app_nil_r. now apply so_far_finish.
  - pose proof (Forall_inv H) as (L & PS & ST1 & ST2 & CM). apply Forall_inv_tail in H.
    destruct (line_of_spec ts) as [T O].
    assert (NC : forall l, toks l = ts -> is_comment l && negb (contains sb Callouts) = false).
    { intros l Tl. destruct (contains sb Callouts); cbn [negb]; [now rewrite andb_false_r|]. rewrite andb_true_r. unfold is_comment. rewrite Tl.
      destruct (starts_with_seq [Len 2 ForwardSlashes] ts) eqn:S; [|now rewrite andb_false_r]. exfalso. apply CM; [reflexivity|].
      destruct ts as [|t r]; [discriminate|]. cbn [starts_with_seq satisfies] in S. apply andb_prop in S as [S _]. apply andb_prop in S as [S1 S2].
      exists t, r. split; [reflexivity|]. split; [now apply is_k_true|now apply Nat.eqb_eq]. }
    (** from an unflagged line on *)
    assert (MAIN : forall l g, toks l = ts -> passm l = false -> pluses l = 0 -> S (length ts) + fuel_of lss <= g ->
      exists ns, go g E [] sb s a None (Some l) (map line_of lss) = Done s ns [] /\ reads (contains sb SpecialChars) ns (x ++ joined (map (written None) (ts :: lss)))).
    { intros l g Tl P1 P2 G. destruct (line_alone E sb s (map line_of lss) l LS P1 P2 (length ts) ts a x (le_n _) L A) as (a1 & m & A1 & ML & G1).
      specialize (G1 (g - S m)). replace (S m + (g - S m)) with g in G1 by lia.
      assert (Al : adv l ts = l) by (destruct l; unfold adv; cbn in *; now subst). rewrite Al in G1. rewrite G1.
      destruct (IH _ _ (g - S m) H (joining _ _ _ (map line_of lss) A1) ltac:(lia)) as (ns & N1 & N2). exists ns. split; [exact N1|].
      destruct lss as [|t2 lss]; cbn [map joined] in N2 |- *; [rewrite ?app_nil_r in *; exact N2|]. rewrite <- !app_assoc in N2. exact N2. }
    unfold fuel_of in B. cbn [map list_sum fold_right] in B. fold (list_sum (map (fun ts => 4 + length ts) lss)) in B.
    destruct f as [|f]; [lia|]. cbn [map go]. unfold step at 1. rewrite ST1, NC by exact T.
    destruct (Nat.eq_dec (pluses (line_of ts)) 0) as [Z|Z].
    + apply MAIN; [assumption|apply line_of_pass, (no_pass _ _ L)|assumption|unfold fuel_of; lia].
    + pose proof (may_pass_line ts Z) as NE. destruct f as [|f]; [lia|]. cbn [go]. unfold step at 1. cbn [at_stop].
      assert (MC : may_contain_pass (line_of ts) = Ret true).
      { unfold may_contain_pass. rewrite line_of_pass by apply (no_pass _ _ L). cbn [negb andb orb]. destruct (pluses (line_of ts)) as [|[|n]]; [congruence| |reflexivity].
        cbn [Nat.eqb Nat.ltb Nat.leb]. rewrite T. destruct (rev ts) as [|t r] eqn:R; [|].
        - exfalso. apply NE. rewrite <- (rev_involutive ts), R. reflexivity.
        - destruct (is_k Plus t && len_is 1 t) eqn:PT; [|reflexivity]. destruct r as [|p r]; [reflexivity|].
          apply andb_prop in PT as [PT _]. unfold whitespaceish, at_k. f_equal. apply negb_true_iff. apply orb_false_iff. split.
          + destruct (is_k Whitespace p) eqn:W; [|reflexivity]. exfalso. apply (no_break _ _ L). exists (rev r), [p; t]. split.
            * rewrite <- (rev_involutive ts), R. cbn. now rewrite <- app_assoc.
            * cbn. now rewrite (is_k_true _ _ W), (is_k_true _ _ PT).
          + destruct (is_k Newline p) eqn:W; [|reflexivity]. exfalso. apply (kinds _ _ L Newline); [cbn; tauto|]. exists p. split; [|now apply is_k_true].
            apply in_rev. rewrite R. right. now left. }
      rewrite MC. cbn [try]. rewrite (replace_alone E s (map line_of lss) _) with (r := ts);
        [|apply Forall_forall; intros l Il; apply in_map_iff in Il as (u & <- & U); rewrite (proj1 (line_of_spec u)); eapply Forall_forall in U; [|exact H]; apply U
         |assumption|assumption|apply (no_pass _ _ L)|rewrite T; lia].
      destruct f as [|f]; [lia|]. unfold restore. cbn [app new_line toks]. destruct ts as [|t0 r0] eqn:Ets; [congruence|]. rewrite <- Ets in *.
      cbn [go]. unfold step at 1. rewrite ST2, NC by reflexivity. apply MAIN; [reflexivity..|unfold fuel_of; lia].
Qed.

(** ** Deciding it, for examples *)
Fixpoint doubledb (x y : kind) (l : list tok) : bool :=
  match l with [] => false | t :: r => is_k x t && current_is x r && contains_seq [Kind y; Kind y] (tl r) || doubledb x y r end.
Lemma contains_there k t1 t2 c : tk t1 = k -> tk t2 = k -> forall b, contains_seq [Kind k; Kind k] (b ++ t1 :: t2 :: c) = true.
Proof.
  intros H1 H2 b. unfold contains_seq. induction b as [|u b IH]; cbn [app index_of_seq].
  - cbn [starts_with_seq satisfies]. rewrite !is_k_refl by assumption. reflexivity.
  - destruct (starts_with_seq _ _); [reflexivity|]. destruct (index_of_seq _ (b ++ _)); [reflexivity|discriminate].
Qed.
Lemma doubledb_sound x y l : doubledb x y l = false -> ~ doubled x y l.
Proof.
  intros H (a & t1 & t2 & b & t3 & t4 & c & -> & K1 & K2 & K3 & K4). induction a as [|u a IH]; cbn [app doubledb] in H.
  - unfold current_is in H. cbn [hd_error at_k tl] in H. rewrite !is_k_refl, contains_there in H by assumption. discriminate H.
  - apply orb_false_iff in H as [_ H]. now apply IH.
Qed.
Fixpoint refb (l : list tok) : bool := match l with [] => false | t :: r => starts_with_seq (map Kind [Ampersand; Hash; Digits; SemiColon]) l || refb r end.
Lemma refb_sound l : refb l = false -> ~ char_ref l.
Proof.
  intros H (a & b & c & -> & K). induction a as [|u a IH]; cbn [app] in *.
  - destruct b as [|b1 [|b2 [|b3 [|b4 [|b5 b]]]]]; try discriminate K. cbn in K. injection K as K1 K2 K3 K4. cbn [app refb map starts_with_seq satisfies] in H.
    rewrite !is_k_refl in H by assumption. discriminate H.
  - cbn [refb] in H. apply orb_false_iff in H as [_ H]. now apply IH.
Qed.
Definition endb (ks : list kind) (l : list tok) : bool := starts_with_seq (map Kind (rev ks)) (rev l).
Lemma endb_sound ks l : endb ks l = false -> ~ ends_in ks l.
Proof.
  unfold endb. intros H (a & b & -> & <-). rewrite rev_app_distr, <- map_rev in H. revert H. generalize (rev b). intros m.
  induction m as [|u m IH]; cbn [map app starts_with_seq satisfies]; [discriminate|]. now rewrite is_k_refl by reflexivity.
Qed.
Definition specialb (t : tok) : bool :=
  match tk t with
  | Ampersand => bytes_eqb (tx t) $"&" | LessThan => bytes_eqb (tx t) $"<" | GreaterThan => bytes_eqb (tx t) $">"
  | _ => negb (existsb (fun c => Ascii.eqb c "&"%char || Ascii.eqb c "<"%char || Ascii.eqb c ">"%char) (tx t))
  end.
Lemma specialb_sound t : specialb t = true -> special_text t.
Proof.
  unfold specialb, special_text. intros H.
  assert (G : negb (existsb (fun c => Ascii.eqb c "&"%char || Ascii.eqb c "<"%char || Ascii.eqb c ">"%char) (tx t)) = true -> harmless (tx t)).
  { clear. intros H k I. apply negb_true_iff in H. assert (existsb (fun c => Ascii.eqb c "&"%char || Ascii.eqb c "<"%char || Ascii.eqb c ">"%char) (tx t) = true); [|congruence].
    apply existsb_exists. exists (special_char k). split; [assumption|]. destruct k; reflexivity. }
  destruct (tk t); first [exact (G H)|now apply bytes_eqb_eq].
Qed.
Definition aloneb (e : bool) (ts : list tok) : bool :=
  negb (existsb (fun t => one_of [Backslash; CalloutNumber; AttrPassDbl; PreprocPassthru; Discard; Newline] t || is_k MacroName t && bytes_eqb (tx t) $"pass:" || e && negb (specialb t)) ts)
  && negb (e && refb ts) && negb (doubledb LessThan GreaterThan ts) && negb (doubledb OpenBracket CloseBracket ts) && negb (endb [Whitespace; Plus] ts) && negb (endb [Whitespace] ts).
Lemma aloneb_sound e ts : aloneb e ts = true -> left_alone e ts.
Proof.
  unfold aloneb. intros H. repeat (let H2 := fresh "H" in apply andb_prop in H as [H H2]; apply negb_true_iff in H2). apply negb_true_iff in H.
  assert (G : forall t, In t ts -> one_of [Backslash; CalloutNumber; AttrPassDbl; PreprocPassthru; Discard; Newline] t || is_k MacroName t && bytes_eqb (tx t) $"pass:" || e && negb (specialb t) = false).
  { intros t T. destruct (_ || e && negb (specialb t)) eqn:Z; [|reflexivity]. rewrite <- H. symmetry. apply existsb_exists. eauto. }
  split.
  - intros k K (t & T & E). specialize (G t T). apply orb_false_iff in G as [G _]. apply orb_false_iff in G as [G _].
    assert (one_of [Backslash; CalloutNumber; AttrPassDbl; PreprocPassthru; Discard; Newline] t = true); [|congruence].
    apply existsb_exists. exists k. split; [assumption|]. now apply is_k_refl.
  - intros ->. now apply refb_sound.
  - now apply doubledb_sound.
  - now apply doubledb_sound.
  - now apply endb_sound.
  - now apply endb_sound.
  - intros t T K E. specialize (G t T). apply orb_false_iff in G as [G _]. apply orb_false_iff in G as [_ G]. rewrite is_k_refl, E, bytes_eqb_refl in G by assumption. discriminate G.
  - intros ->. apply Forall_forall. intros t T. specialize (G t T). apply orb_false_iff in G as [_ G]. cbn [andb] in G. apply negb_false_iff in G. now apply specialb_sound.
Qed.
Fixpoint spacedb (p : option kind) (ts : list tok) : bool :=
  match ts with [] => true | t :: r => (negb (is_k Plus t) || match p with None | Some Whitespace => true | _ => false end) && spacedb (Some (tk t)) r end.
Lemma spacedb_sound ts : forall p, spacedb p ts = true -> plus_spaced p ts.
Proof.
  induction ts as [|t r IH]; intros p H; [exact I|]. cbn [spacedb plus_spaced] in *. apply andb_prop in H as [H1 H2]. split; [|now apply IH].
  intros K. rewrite is_k_refl in H1 by assumption. destruct p as [[]|]; first [discriminate|auto].
Qed.
Definition commentb (ts : list tok) : bool := match ts with t :: _ => is_k ForwardSlashes t && len_is 2 t | [] => false end.
Lemma commentb_sound ts : commentb ts = false -> ~ comment_line ts.
Proof. intros H (t & r & -> & K & L). cbn in H. rewrite is_k_refl in H by assumption. unfold len_is in H. rewrite L in H. discriminate H. Qed.
