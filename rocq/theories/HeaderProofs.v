(** Proofs about the header (C63). *)
From Coq Require Import Lia.
From Verif Require Import Base InlineModel InlineSpec VerbatimProofs InlineTermProofs BlockModel BlockSpec BlockTermProofs BlockReadProofs BlockLinesProps HeaderModel HeaderSpec.
Import ListNotations.

(** ** Lines *)
Definition own (l : iline) : Prop := l = line_of (toks l).
Lemma own_line x : own (line_of x).
Proof. unfold own. now rewrite toks_line. Qed.
Lemma own_map ls : Forall own ls -> ls = map line_of (map toks ls).
Proof. induction 1 as [|l r O _ IH]; [reflexivity|]. cbn. now rewrite <- IH, <- O. Qed.
Lemma entry_iff l : attr_decl l = true <-> an_entry (toks l).
Proof.
  unfold attr_decl, an_entry, current_is. destruct (toks l) as [|t r]; cbn.
  - split; [discriminate|intros (t & r & E & _); discriminate].
  - unfold is_k. split.
    + intros H. exists t, r. split; [reflexivity|]. destruct (tk t); try discriminate; reflexivity.
    + intros (u & v & E & K). injection E as -> ->. rewrite K. reflexivity.
Qed.
Lemma mark_iff l : comment_delimiter l = true <-> a_mark (toks l).
Proof.
  unfold comment_delimiter, a_mark. destruct (toks l) as [|t [|u r]].
  - split; [discriminate|intros (t & n & E & _); discriminate].
  - split.
    + destruct (to_delimiter t) as [[k n]|] eqn:E; [|discriminate]. cbn. intros H. exists t, n. split; [reflexivity|]. destruct k; try discriminate. exact E.
    + intros (u & n & E & K). injection E as ->. rewrite K. reflexivity.
  - split; [discriminate|intros (v & n & E & _); discriminate].
Qed.
Lemma comment_iff l : own l -> is_comment l = true <-> a_comment (toks l).
Proof. intros O. unfold a_comment. rewrite <- O. tauto. Qed.
Lemma not_true (b : bool) : b = false <-> b <> true.
Proof. destruct b; split; congruence. Qed.

(** the end of a group: [w] was read, [r] is left *)
Definition ended (w r : list (list tok)) : Prop := w <> [] \/ r = [] \/ exists z, r = [] :: z.
Lemma blank_nil : a_blank [].
Proof. reflexivity. Qed.
Lemma ended_group w r : blank w -> ended w r -> group_ends (w ++ r).
Proof.
  intros B [W|[->|[z ->]]].
  - destruct w as [|x w]; [congruence|]. right. exists x, (w ++ r). split; [reflexivity|]. apply B. now left.
  - rewrite app_nil_r. destruct w as [|x w]; [now left|]. right. exists x, w. split; [reflexivity|]. apply B. now left.
  - destruct w as [|x w]; [right; exists [], z; split; reflexivity|]. right. exists x, (w ++ [] :: z). split; [reflexivity|]. apply B. now left.
Qed.

(** the source that is still to be read *)
Record remains (L : list (list tok)) (s : pst) : Prop := {
  re_own : Forall own (peeked s);
  re_text : with_text (peeked s);
  re_lines : exists w, L = map toks (peeked s) ++ w ++ src s /\ blank w /\ (peeked s <> [] -> ended w (src s)) }.
Definition same (s s' : pst) : Prop := (pmeta s', delim s') = (pmeta s, delim s).

Lemma group_own : forall l g m, group l = (g, m) -> Forall own g.
Proof.
  induction l as [|x r IH]; cbn [group]; intros g m; [intros [= <- <-]; constructor|]. destruct x as [|t x]; [intros [= <- <-]; constructor|].
  destruct (emptyish (t :: x)); [intros [= <- <-]; constructor|]. destruct (group r) as [g1 m1]. intros [= <- <-]. constructor; [apply own_line|apply (IH _ _ eq_refl)].
Qed.
Lemma read_remains L s ls s' : remains L s -> read_lines s = (ls, s') ->
  exists b w, L = b ++ map toks ls ++ w ++ src s' /\ blank b /\ with_text ls /\ Forall own ls /\ blank w /\ (ls <> [] -> ended w (src s')) /\ peeked s' = [] /\ (ls = [] -> src s' = []) /\ same s s' /\ length ls + length (src s') <= size s /\ (ls <> [] -> src s' = [] \/ length (src s') < length (src s) \/ peeked s <> []).
Proof.
  intros [O T (w & E & B & G)] R. destruct (peeked s) as [|p ps] eqn:K.
  - cbn [map app] in E. destruct (C60_group _ _ _ K R) as (b & w' & E' & B' & T' & BW & L' & N & Z).
    assert (O' : Forall own ls /\ peeked s' = [] /\ same s s').
    { unfold read_lines in R. rewrite K in R. destruct (skip_empty (src s)) as [|x r]; [injection R as <- <-; repeat split; [constructor|exact K]|].
      destruct (group r) as [g m] eqn:Gr. injection R as <- <-. repeat split; [constructor; [apply own_line|apply (group_own _ _ _ Gr)]|exact K]. }
    destruct O' as (O' & P' & S'). exists (w ++ b), w'. rewrite E, E', <- !app_assoc. repeat split; auto.
    + intros x X. apply in_app_or in X as [X|X]; auto.
    + intros X. unfold ended. destruct w' as [|y w']; [|left; discriminate]. right. destruct (N eq_refl) as [->|[z ->]]; eauto.
    + unfold size. rewrite K, E'. cbn [length]. rewrite !app_length, map_length. lia.
    + intros X. right. left. rewrite !app_length, map_length. destruct ls; [congruence|cbn; lia].
  - rewrite C60_put_back in R by now rewrite K. rewrite K in R. injection R as <- <-. exists [], w. cbn [app]. repeat split; auto.
    + intros x [].
    + intros; discriminate.
    + unfold size. rewrite K. cbn. lia.
Qed.

(** ** Parts of groups *)
Lemma drop_comments_split ls : Forall own ls -> exists c, ls = c ++ drop_comments ls /\ Forall (fun l => a_comment (toks l)) c /\ match drop_comments ls with l :: _ => ~ a_comment (toks l) | [] => True end.
Proof.
  induction 1 as [|l r O _ (c & E & C & N)]; [exists []; repeat split; constructor|]. cbn [drop_comments]. destruct (is_comment l) eqn:X.
  - exists (l :: c). split; [cbn; congruence|]. split; [constructor; [exact (proj1 (comment_iff _ O) X)|exact C]|exact N].
  - exists []. repeat split; [constructor|]. rewrite <- comment_iff by exact O. now apply not_true.
Qed.
Lemma skip_attrs_split ls : exists c, ls = c ++ skip_attrs ls /\ Forall (fun l => an_entry (toks l)) c /\ ~ starts_with_kind AttrDef (skip_attrs ls).
Proof.
  induction ls as [|l r (c & E & C & N)]; [exists []; repeat split; [constructor|intros (l & r & t & u & H & _); discriminate]|]. cbn [skip_attrs]. destruct (attr_decl l) eqn:X.
  - exists (l :: c). split; [cbn; congruence|]. split; [constructor; [now apply entry_iff|exact C]|exact N].
  - exists []. repeat split; [constructor|]. intros (l' & r' & t & u & [= -> ->] & H & J). apply not_true in X. apply X, entry_iff. exists t, u. auto.
Qed.
Lemma drop_until_split ls : exists c, ls = c ++ drop_until comment_delimiter ls /\ Forall (fun l => ~ a_mark (toks l)) c /\ match drop_until comment_delimiter ls with l :: _ => a_mark (toks l) | [] => True end.
Proof.
  induction ls as [|l r (c & E & C & N)]; [exists []; repeat split; constructor|]. cbn [drop_until]. destruct (comment_delimiter l) eqn:X.
  - exists []. repeat split; [constructor|now apply mark_iff].
  - exists (l :: c). split; [cbn; congruence|]. split; [constructor; [rewrite <- mark_iff; now apply not_true|exact C]|exact N].
Qed.

Lemma Forall_toks (Q : list tok -> Prop) ls : Forall (fun l => Q (toks l)) ls <-> Forall Q (map toks ls).
Proof. symmetry. apply Forall_map. Qed.
Lemma fm_blanks b l k : blank b -> front_matter l k -> front_matter (b ++ l) k.
Proof. intros B F. induction b as [|x b IH]; [exact F|]. cbn. apply fm_blank; [apply B; now left|]. apply IH. intros y Y. apply B. now right. Qed.
Lemma fm_comments c l k : Forall a_comment c -> front_matter l k -> front_matter (c ++ l) k.
Proof. intros C F. induction C as [|x c X _ IH]; [exact F|]. now apply fm_comment. Qed.
Lemma fm_entries c l k : Forall an_entry c -> front_matter l k -> front_matter (c ++ l) k.
Proof. intros C F. induction C as [|x c X _ IH]; [exact F|]. now apply fm_entry. Qed.

(** ** The end of a comment block *)
Lemma mark_not_blank x : a_mark x -> ~ a_blank x.
Proof.
  intros (t & n & -> & D) B. unfold a_blank, emptyish in B. cbn in B. rewrite andb_true_r in B. unfold to_delimiter in D. destruct (is_k DelimiterLine t) eqn:K; [|discriminate].
  unfold is_k in K. unfold whitespaceish, at_k, is_k in B. destruct (tk t); discriminate.
Qed.
Lemma comment_end_split fuel : forall L s, remains L s -> peeked s = [] -> length (src s) < fuel ->
  match comment_end fuel s with
  | (Some more, s') => exists b c w, L = b ++ c :: map toks more ++ w ++ src s' /\ Forall (fun x => ~ a_mark x) b /\ a_mark c /\ with_text more /\ Forall own more /\ blank w /\ ended w (src s') /\ peeked s' = [] /\ same s s' /\ length (src s') < length (src s)
  | (None, s') => Forall (fun x => ~ a_mark x) L /\ peeked s' = [] /\ src s' = [] /\ same s s'
  end.
Proof.
  induction fuel as [|f IH]; intros L s M K Z; [lia|]. cbn [comment_end]. destruct (read_lines s) as [ls s1] eqn:R.
  destruct (read_remains _ _ _ _ M R) as (b & w & E & B & T & O & BW & N & K1 & N0 & S1 & Le & Dec).
  assert (NB : forall l, blank l -> Forall (fun x => ~ a_mark x) l) by (intros l X; apply Forall_forall; intros x I H; apply mark_not_blank in H; apply H; now apply X).
  destruct ls as [|l r].
  - split; [|split; [exact K1|split; [now apply N0|exact S1]]]. rewrite E, N0 by reflexivity. cbn [map app]. rewrite app_nil_r. apply Forall_app. split; now apply NB.
  - destruct (drop_until_split (l :: r)) as (c & Ec & C & D). destruct (drop_until comment_delimiter (l :: r)) as [|d more].
    + assert (M1 : remains (w ++ src s1) s1).
      { constructor; rewrite K1; [constructor|intros x []|]. exists w. repeat split; auto; congruence. }
      assert (Z1 : length (src s1) < f).
      { unfold size in Le. rewrite K in Le. cbn in Le. lia. }
      specialize (IH _ _ M1 K1 Z1). rewrite app_nil_r in Ec.
      assert (P1 : Forall (fun x => ~ a_mark x) (b ++ map toks (l :: r))).
      { apply Forall_app. split; [now apply NB|]. rewrite Ec. now apply Forall_toks. }
      destruct (comment_end f s1) as [[more|] s'].
      * destruct IH as (b' & c' & w' & E' & B' & C' & T' & O' & BW' & N' & K' & S' & D'). exists ((b ++ map toks (l :: r)) ++ b'), c', w'.
        rewrite E, E', <- !app_assoc. repeat split; auto; [|unfold same in *; congruence|unfold size in Le; rewrite K in Le; cbn in Le; lia].
        rewrite app_assoc. apply Forall_app. split; assumption.
      * destruct IH as (F' & K' & S' & Q'). repeat split; auto; [|unfold same in *; congruence]. rewrite E. rewrite app_assoc. apply Forall_app. split; assumption.
    + exists (b ++ map toks c), (toks d), w. rewrite Ec in *. rewrite E, map_app, <- !app_assoc. cbn [map app].
      assert (T2 : with_text more) by (intros x X; apply T; apply in_or_app; right; now right).
      assert (O2 : Forall own more) by (apply Forall_app in O as [_ O]; now inversion O).
      repeat split; auto.
      * apply Forall_app. split; [now apply NB|now apply Forall_toks].
      * apply N. destruct c; discriminate.
      * unfold size in Le. rewrite K, app_length in Le. cbn in Le. lia.
Qed.

(** ** What stands before the header *)
Definition first_is (Q : iline -> Prop) (b : list iline) : Prop := match b with l :: _ => Q l | [] => True end.
Lemma restored P ls s : peeked s = [] -> restore_lines P ls s = Yes tt (with_peeked ls s).
Proof. intros K. unfold restore_lines. rewrite K. reflexivity. Qed.
Lemma remains_later w s : peeked s = [] -> blank w -> remains (w ++ src s) s.
Proof. intros K B. constructor; rewrite K; [constructor|intros x []|]. exists w. repeat split; auto; congruence. Qed.
Lemma remains_put ls w s : Forall own ls -> with_text ls -> blank w -> ended w (src s) -> remains (map toks ls ++ w ++ src s) (with_peeked ls s).
Proof. intros O T B N. constructor; cbn; auto. exists w. repeat split; auto. Qed.

Definition after_front (L : list (list tok)) (lost : list iline) (s : pst) (b : list iline) (lost' : list iline) (s' : pst) : Prop :=
  exists F k w, L = F ++ map toks b ++ w ++ src s' /\ front_matter F (map toks k) /\ lost' = lost ++ k /\ with_text b /\ Forall own b /\ blank w /\ (b = [] -> w = [] /\ src s' = []) /\ peeked s' = [] /\ same s s' /\
    first_is (fun l => attr_decl l = false /\ comment_delimiter l = false /\ is_comment l = false) b.
Lemma front_split P fuel : forall L lost s, remains L s -> size s < fuel ->
  match front fuel P lost s with Yes (b, lost') s' => after_front L lost s b lost' s' | _ => False end.
Proof.
  induction fuel as [|f IH]; intros L lost s M Z; [lia|]. cbn [front]. destruct (read_lines s) as [ls s1] eqn:R.
  destruct (read_remains _ _ _ _ M R) as (b & w & E & B & T & O & BW & N & K1 & N0 & S1 & Le & _).
  destruct ls as [|l0 r0] eqn:Els.
  { exists (b ++ w), [], []. rewrite E, N0 by reflexivity. cbn [map app]. rewrite !app_nil_r. repeat split; auto; try (intros x []).
    assert (BB : blank (b ++ w)) by (intros x X; apply in_app_or in X as [X|X]; auto). rewrite <- (app_nil_r (b ++ w)). apply fm_blanks; [exact BB|constructor]. }
  rewrite <- Els in *. assert (NE : ls <> []) by (rewrite Els; discriminate). specialize (N NE). assert (L1 : 1 <= length ls) by (rewrite Els; cbn; lia). clear Els l0 r0 NE.
  destruct (drop_comments_split ls O) as (c & Ec & C & NC). apply Forall_toks in C.
  destruct (drop_comments ls) as [|l r] eqn:D.
  { rewrite app_nil_r in Ec. subst c. specialize (IH (w ++ src s1) lost s1 (remains_later _ _ K1 BW)). assert (Z1 : size s1 < f) by (unfold size at 1; rewrite K1; cbn; lia). specialize (IH Z1).
    destruct (front f P lost s1) as [[b1 l1] s2| |]; auto. destruct IH as (F & k & w1 & E1 & F1 & Lk & Rest). exists (b ++ map toks ls ++ F), k, w1. rewrite E, E1, <- !app_assoc. split; [reflexivity|].
    split; [apply fm_blanks; [exact B|]; apply fm_comments; [exact C|exact F1]|]. split; [exact Lk|]. unfold same in *. rewrite <- S1. exact Rest. }
  assert (Tl : with_text (l :: r)) by (intros x X; apply T; rewrite Ec; apply in_or_app; now right).
  assert (Ol : Forall own (l :: r)) by (rewrite Ec in O; now apply Forall_app in O).
  assert (Ll : length ls = length c + S (length r)) by (rewrite Ec, app_length; reflexivity).
  assert (EL : L = b ++ map toks c ++ map toks (l :: r) ++ w ++ src s1) by (rewrite E, Ec, map_app, <- !app_assoc; reflexivity).
  destruct (attr_decl l) eqn:A.
  { destruct (skip_attrs_split (l :: r)) as (a & Ea & Aa & _). apply Forall_toks in Aa. rewrite (restored P _ _ K1). cbn [bind].
    assert (Oa : Forall own (skip_attrs (l :: r))) by (rewrite Ea in Ol; now apply Forall_app in Ol).
    assert (Ta : with_text (skip_attrs (l :: r))) by (intros x X; apply Tl; rewrite Ea; apply in_or_app; now right).
    specialize (IH _ lost _ (remains_put _ _ _ Oa Ta BW N)).
    assert (Z1 : size (with_peeked (skip_attrs (l :: r)) s1) < f).
    { unfold size at 1. cbn [peeked src with_peeked]. assert (X : length (skip_attrs (l :: r)) <= length r). { cbn [skip_attrs]. rewrite A. clear. induction r as [|x r IH]; [cbn; lia|]. cbn [skip_attrs]. destruct (attr_decl x); cbn; lia. } lia. }
    specialize (IH Z1). destruct (front f P lost _) as [[b1 l1] s2| |]; auto. destruct IH as (F & k & w1 & E1 & F1 & Lk & Rest). exists (b ++ map toks c ++ map toks a ++ F), k, w1.
    split; [rewrite EL, Ea at 1; rewrite map_app, <- !app_assoc; do 3 f_equal; exact E1|]. split; [apply fm_blanks; [exact B|]; apply fm_comments; [exact C|]; apply fm_entries; [exact Aa|exact F1]|].
    split; [exact Lk|]. unfold same in *. cbn [pmeta delim with_peeked] in Rest. rewrite <- S1. exact Rest. }
  assert (Ol1 : own l) by now inversion Ol.
  destruct (comment_delimiter l) eqn:Q.
  2: { exists (b ++ map toks c), [], w. rewrite EL, <- !app_assoc. split; [reflexivity|]. split; [apply fm_blanks; [exact B|]; rewrite <- (app_nil_r (map toks c)); apply fm_comments; [exact C|constructor]|].
       split; [now rewrite app_nil_r|]. split; [exact Tl|]. split; [exact Ol|]. split; [exact BW|]. split; [intros; discriminate|]. split; [exact K1|]. split; [exact S1|]. cbn. repeat split; auto.
       apply not_true. now rewrite (comment_iff _ Ol1). }
  apply mark_iff in Q. destruct (drop_until_split r) as (d & Ed & Dd & De). apply (Forall_toks (fun x => ~ a_mark x)) in Dd. destruct (drop_until comment_delimiter r) as [|e more].
  - rewrite app_nil_r in Ed. subst d. assert (M1 := remains_later _ _ K1 BW). pose proof (comment_end_split (S (size s1)) _ _ M1 K1) as CE.
    assert (Z1 : length (src s1) < S (size s1)) by (unfold size; lia). specialize (CE Z1). destruct (comment_end (S (size s1)) s1) as [[more|] s2].
    + destruct CE as (b2 & c2 & w2 & E2 & B2 & C2 & T2 & O2 & BW2 & N2 & K2 & S2 & L2). rewrite (restored P _ _ K2). cbn [bind].
      assert (X : Exists a_blank (map toks r ++ b2)).
      { apply Exists_app. right. pose proof (ended_group _ _ BW N) as [G|(x & z & G & Bx)]; [rewrite G in E2; destruct b2; discriminate|]. rewrite G in E2. destruct b2 as [|y b2].
        - injection E2 as -> _. exfalso. exact (mark_not_blank _ C2 Bx).
        - injection E2 as -> _. now left. }
      pose proof (remains_put [] w2 s2 (Forall_nil _) (fun x (X : In x []) => match X with end) BW2 N2) as M2. cbn [map app] in M2. specialize (IH _ (lost ++ more) _ M2).
      assert (Z2 : size (with_peeked [] s2) < f) by (unfold size at 1; cbn [peeked src with_peeked length]; lia). specialize (IH Z2).
      destruct (front f P (lost ++ more) _) as [[b1 l1] s3| |]; auto. destruct IH as (F & k & w1 & E1 & F1 & Lk & T3 & O3 & BW3 & N3 & K3 & S3 & I3).
      exists (b ++ map toks c ++ toks l :: (map toks r ++ b2) ++ c2 :: map toks more ++ F), (more ++ k), w1. split; [|split; [|split; [now rewrite app_assoc|]]].
      * cbn [src with_peeked] in E1. rewrite EL, E2, E1. cbn [map app]. repeat (rewrite <- !app_assoc; cbn [map app]). reflexivity.
      * apply fm_blanks; [exact B|]. apply fm_comments; [exact C|]. rewrite map_app. apply fm_block_lost; auto.
        -- apply Forall_app. split; auto.
        -- apply Forall_toks. apply Forall_forall. intros x I H. apply T2 in I. unfold a_blank in H. congruence.
        -- pose proof (ended_group _ _ BW2 N2) as G. rewrite E1 in G. destruct F as [|x F]; [now left|]. right. exists x, F. split; [reflexivity|].
           destruct G as [G|(y & z & G & Y)]; [discriminate|]. injection G as -> _. exact Y.
      * unfold same in *. cbn [pmeta delim with_peeked] in S3. repeat split; auto; [apply N3; auto..|congruence].
    + destruct CE as (F2 & K2 & R2 & S2). assert (M2 : remains [] (problem_at NeverClosed s2)).
      { constructor; cbn; rewrite K2; [constructor|intros x []|]. exists []. rewrite R2. repeat split; auto; try (intros x []); try congruence. }
      specialize (IH [] lost _ M2). assert (Z2 : size (problem_at NeverClosed s2) < f) by (unfold size at 1; cbn; rewrite K2, R2; cbn; lia). specialize (IH Z2).
      destruct (front f P lost _) as [[b1 l1] s3| |]; auto. destruct IH as (F & k & w1 & E1 & F1 & Lk & T3 & O3 & BW3 & N3 & K3 & S3 & I3).
      symmetry in E1. apply app_eq_nil in E1 as [-> E1]. apply app_eq_nil in E1 as [E1 E4]. apply map_eq_nil in E1. subst b1. apply app_eq_nil in E4 as [-> E4].
      inversion F1 as [H0 H1| | | | | |]; try (destruct b0; discriminate). symmetry in H1. apply map_eq_nil in H1. subst k.
      exists L, [], []. rewrite E4. cbn [map app]. rewrite !app_nil_r in *. repeat split; auto; [|unfold same in *; cbn in S3; congruence].
      rewrite EL. apply fm_blanks; [exact B|]. apply fm_comments; [exact C|]. cbn [map app]. apply fm_open; [exact Q|]. apply Forall_app. split; auto.
  - rewrite (restored P _ _ K1). cbn [bind].
    assert (Om : Forall own more) by (rewrite Ed in Ol; inversion Ol as [|? ? _ X]; apply Forall_app in X as [_ X]; now inversion X).
    assert (Tm : with_text more) by (intros x X; apply Tl; rewrite Ed; right; apply in_or_app; right; now right).
    specialize (IH _ lost _ (remains_put _ _ _ Om Tm BW N)).
    assert (Z1 : size (with_peeked more s1) < f). { unfold size at 1. cbn [peeked src with_peeked]. rewrite Ed, app_length in Ll. cbn in Ll. lia. }
    specialize (IH Z1). destruct (front f P lost _) as [[b1 l1] s2| |]; auto. destruct IH as (F & k & w1 & E1 & F1 & Lk & Rest). exists (b ++ map toks c ++ toks l :: map toks d ++ toks e :: F), k, w1.
    split; [|split; [|split; [exact Lk|]]].
    + cbn [src with_peeked] in E1. rewrite EL, Ed. cbn [map app]. rewrite map_app. cbn [map app]. repeat (rewrite <- !app_assoc; cbn [map app]). now rewrite E1.
    + apply fm_blanks; [exact B|]. apply fm_comments; [exact C|]. apply fm_block; auto. apply Forall_forall. intros x I. split.
      * rewrite Forall_forall in Dd. now apply Dd.
      * apply in_map_iff in I as (y & <- & I). intros H. assert (X : In y (l :: r)) by (right; rewrite Ed; apply in_or_app; now left). apply Tl in X. unfold a_blank in H. congruence.
    + unfold same in *. cbn [pmeta delim with_peeked] in Rest. rewrite <- S1. exact Rest.
Qed.

(** ** The header *)
Definition moved (s s' : pst) : Prop := src s' = src s /\ peeked s' = peeked s /\ delim s' = delim s.
Lemma moved_trans a b c : moved a b -> moved b c -> moved a c.
Proof. unfold moved. intuition congruence. Qed.
Lemma inlines_moved P ls s : fine (fun _ s' => moved s s' /\ pmeta s' = pmeta s) (inlines P ls s).
Proof. pose proof (inlines_ok P ls s) as H. unfold inlines in *. destruct (parse_inlines_until _ _ _ _ _); cbn in *; auto. repeat split. Qed.
Lemma meta_lines_split P : forall ls m s, fine (fun x s' => moved s s' /\ pmeta s' = pmeta s /\ exists c, ls = c ++ snd x /\ Forall a_meta c) (meta_lines P ls m s).
Proof.
  induction ls as [|l r IH]; intros m s; [cbn; repeat split; exists []; repeat split; constructor|]. cbn [meta_lines].
  assert (W : forall m s0, a_meta l -> moved s s0 -> pmeta s0 = pmeta s -> fine (fun x s' => moved s s' /\ pmeta s' = pmeta s /\ exists c, l :: r = c ++ snd x /\ Forall a_meta c) (meta_lines P r m s0)).
  { intros m0 s0 A M Q. eapply fine_weaken; [apply IH|]. intros x s1 (M1 & Q1 & c & -> & C). split; [eapply moved_trans; eassumption|]. split; [congruence|]. exists (l :: c). split; [reflexivity|]. now constructor. }
  unfold a_meta in W. destruct (chunk_title l) eqn:T.
  - eapply fine_bind; [apply inlines_moved|]. intros x s1 (M & Q). apply W; auto.
  - destruct (attr_list_line l) eqn:A.
    + destruct (block_attr_list _) as [[a z]|]; [|exact I]. apply W; auto; repeat split.
    + destruct (anchor_line l) eqn:N.
      * destruct (parse_anchor _ _) as [[[[i ref]|] z]|]; [| |exact I].
        -- apply W; auto; repeat split.
        -- cbn. repeat split. exists [l]. split; [reflexivity|]. constructor; [unfold a_meta; auto|constructor].
      * destruct (is_comment l && _) eqn:C.
        -- apply andb_true_iff in C as [C _]. apply W; auto; repeat split.
        -- cbn. repeat split. exists []. repeat split; constructor.
Qed.
Lemma chunk_meta_split P ls s : pmeta s = None -> fine (fun x s' => moved s s' /\ pmeta s' = None /\ exists c, ls = c ++ snd x /\ Forall a_meta c) (chunk_meta P ls s).
Proof.
  intros N. unfold chunk_meta. rewrite N. destruct ls as [|l r]; [exact I|]. destruct (toks l); [exact I|]. destruct (unconsumed l).
  - eapply fine_weaken; [apply meta_lines_split|]. intros x s' (M & Q & C). repeat split; try apply M; [congruence|exact C].
  - cbn. repeat split; auto. exists []. repeat split. constructor.
Qed.
Lemma word_iff k l r : current_is k (toks l) = true <-> starts_with_kind k (l :: r).
Proof.
  unfold current_is, starts_with_kind. split.
  - destruct (toks l) as [|t u] eqn:E; cbn; [discriminate|]. unfold is_k. intros H. exists l, r, t, u. repeat split; auto. revert H. destruct (tk t), k; cbn; congruence.
  - intros (l' & r' & t & u & [= <- <-] & -> & <-). cbn. unfold is_k. destruct (tk t); reflexivity.
Qed.
Lemma is_doc_header_iff P ls : is_doc_header P ls = true <-> starts_header P ls.
Proof.
  induction ls as [|l r IH]; [split; [discriminate|intros ([|x a] & y & z & E & _); discriminate]|]. cbn [is_doc_header].
  assert (Nx : (is_comment l || attr_list_line l || anchor_line l = true) -> starts_header P r -> starts_header P (l :: r)).
  { intros H (a & y & z & -> & A & T). exists (l :: a), y, z. split; [reflexivity|]. split; [|exact T]. constructor; [|exact A]. apply orb_true_iff in H as [H|H]; [apply orb_true_iff in H as [H|H]|]; auto. }
  assert (Not : is_comment l || attr_list_line l || anchor_line l = true -> ~ an_entry (toks l)).
  { intros H (t & u & E & K). unfold is_comment, attr_list_line, anchor_line in H. rewrite E in H. destruct t as [k x]. cbn in K. subst k. cbn in H. rewrite ?andb_false_r, ?andb_false_l in H. discriminate. }
  assert (Hd : starts_header P (l :: r) -> heading_level P (toks l) <> Some 0 -> (is_comment l || attr_list_line l || anchor_line l = true /\ starts_header P r) \/ an_entry (toks l)).
  { intros (a & y & z & E & A & T) H. destruct a as [|x a]; injection E as <- ->.
    - unfold a_title in T. tauto.
    - inversion A; subst. left. split; [|exists a, y, z; auto]. rewrite !orb_true_iff. tauto. }
  destruct (heading_level P (toks l)) as [[|n]|] eqn:H.
  - split; auto. intros _. exists [], l, r. repeat split; [constructor|left; exact H].
  - destruct (is_comment l || attr_list_line l || anchor_line l) eqn:C.
    + rewrite IH. split; [auto|]. intros X. destruct (Hd X) as [[_ Y]|Y]; [congruence|exact Y|]. destruct (Not eq_refl Y).
    + rewrite entry_iff. split; [intros E; exists [], l, r; repeat split; [constructor|right; exact E]|]. intros X. destruct (Hd X) as [[Y _]|Y]; [congruence|congruence|exact Y].
  - destruct (is_comment l || attr_list_line l || anchor_line l) eqn:C.
    + rewrite IH. split; [auto|]. intros X. destruct (Hd X) as [[_ Y]|Y]; [congruence|exact Y|]. destruct (Not eq_refl Y).
    + rewrite entry_iff. split; [intros E; exists [], l, r; repeat split; [constructor|right; exact E]|]. intros X. destruct (Hd X) as [[Y _]|Y]; [congruence|congruence|exact Y].
Qed.
Lemma restore_meta_fine P m s : fine (fun _ s' => moved s s') (restore_meta P m s).
Proof. unfold restore_meta. destruct (meta_empty m); [cbn; repeat split|]. destruct (pmeta s); [destruct (dbg _)|]; cbn; auto; repeat split. Qed.
Section Header.
Variables (P : params) (au rv : iline -> bool).
Definition title_parts (ls : list iline) (t : option (meta * list inode)) (a r : option iline) (rest : list iline) : Prop :=
  exists m ti, ls = m ++ ti ++ opt_list a ++ opt_list r ++ rest /\ Forall a_meta m /\ Forall (a_title P) ti /\ length ti = length (opt_list t) /\
    (ti = [] -> a = None) /\ (a <> None -> starts_with_kind Word (opt_list a)) /\ (ti <> [] -> a = None -> ~ starts_with_kind Word rest) /\ (a = None -> r = None) /\ Forall (fun l => rv l = true) (opt_list r).
Lemma title_split ls s : pmeta s = None -> fine (fun y s' => moved s s' /\ let '(t, a, r, rest) := y in title_parts ls t a r rest) (title_author_revision P au rv ls s).
Proof.
  intros N. unfold title_author_revision. assert (M0 : forall s, moved s s) by (intros; repeat split).
  assert (Nothing : forall c rest, Forall a_meta c -> title_parts (c ++ rest) None None None rest).
  { intros c rest C. exists c, []. cbn. repeat split; auto; try congruence. }
  destruct ls as [|l0 r0] eqn:El; [cbn; split; [auto|apply (Nothing [] [] (Forall_nil _))]|]. rewrite <- El. clear El l0 r0.
  eapply fine_bind; [apply chunk_meta_split; exact N|]. intros x s1 (M1 & Q1 & c & E & C). destruct (snd x) as [|l r].
  - eapply fine_bind; [apply restore_meta_fine|]. intros [] s2 M2. cbn. split; [eapply moved_trans; eassumption|]. rewrite E. now apply Nothing.
  - assert (Other : fine (fun y s' => moved s s' /\ let '(t, a, r0, rest) := y in title_parts ls t a r0 rest) (take (_, s) := restore_meta P (fst x) s1 in Yes (None, None, None, l :: r) s)).
    { eapply fine_bind; [apply restore_meta_fine|]. intros [] s2 M2. cbn [fine]. split; [eapply moved_trans; eassumption|]. rewrite E. now apply Nothing. }
    destruct (heading_level P (toks l)) as [[|n]|] eqn:H; [|exact Other|exact Other]. clear Other. destruct (title_text l) as [t|]; [|exact I].
    eapply fine_bind; [apply inlines_moved|]. intros ns s2 (M2 & Q2). assert (M : moved s s2) by (eapply moved_trans; eassumption).
    destruct r as [|a r]; [cbn; split; [exact M|]; exists c, [l]; cbn; repeat split; auto; try congruence; intros _ _ (? & ? & ? & ? & X & _); discriminate|].
    cbn [first_line]. destruct (current_is Word (toks a)) eqn:W.
    + assert (NoRev : title_parts ls (Some (fst x, fst ns)) (Some a) None r).
      { exists c, [l]. cbn. repeat split; auto; try congruence. intros _. now apply word_iff. }
      destruct (au a); [|cbn; split; auto]. destruct r as [|v r]; [cbn; split; auto|]. cbn [first_line]. destruct ((_ || _) && rv v) eqn:V; [|cbn; split; auto].
      apply andb_true_iff in V as [_ V]. cbn. split; [exact M|]. exists c, [l]. cbn. repeat split; auto; try congruence. intros _. now apply word_iff.
    + cbn. split; [exact M|]. exists c, [l]. cbn. repeat split; auto; try congruence. intros _ _ X. apply word_iff in X. congruence.
Qed.
Definition header_parts (L : list (list tok)) (h : header) (s : pst) : Prop := accounted P rv L h s /\ Forall own (peeked s) /\ exists B, SL L = B + SL (map toks (peeked s)) + SL (src s).
Lemma SL_app a b : SL (a ++ b) = SL a + SL b.
Proof. induction a as [|x a IH]; [reflexivity|]. cbn [app SL]. lia. Qed.
Lemma LM_own ls : Forall own ls -> LM ls <= SL (map toks ls).
Proof. induction 1 as [|l r O _ IH]; [cbn; lia|]. rewrite LM_cons. cbn [map SL]. unfold own in O. pose proof (lm_line_of (toks l)). rewrite <- O in H. lia. Qed.
Lemma header_split L s : remains L s -> pmeta s = None -> fine (fun h s' => header_parts L h s' /\ delim s' = delim s) (document_header P au rv s).
Proof.
  intros M N. unfold document_header. pose proof (front_split P (S (S (size s))) L [] s M) as H. assert (Z : size s < S (S (size s))) by lia. specialize (H Z). clear Z.
  destruct (front (S (S (size s))) P [] s) as [[b lost] s1| |]; [|destruct H..]. destruct H as (F & k & w & E & F1 & Lk & T & O & BW & N1 & K & S1 & I1). cbn [bind fst snd]. cbn in Lk. subst lost. unfold same in S1. assert (D : delim s1 = delim s) by congruence.
  destruct b as [|l r] eqn:Eb.
  - destruct (N1 eq_refl) as [-> R]. cbn [map app] in E. rewrite R, app_nil_r in E. cbn [fine]. split; [|exact D]. split; [|split; [rewrite K; constructor|exists (SL L); rewrite K, R; cbn; lia]]. apply acc_nothing; auto. now rewrite E.
  - rewrite <- Eb in *. assert (NE : b <> []) by (rewrite Eb; discriminate). assert (SK : skip_attrs b = b). { rewrite Eb in *. cbn [skip_attrs]. cbn in I1. destruct I1 as [-> _]. reflexivity. }
    clear Eb N1 I1. pose proof (is_doc_header_iff P b) as DH. destruct (is_doc_header P b).
    + rewrite SK. eapply fine_bind; [apply title_split; congruence|]. intros [[[t a] r0] rest] s2 [(MS & MP & MD) (m & ti & Eg & Fm & Ft & Lt & A1 & A2 & A3 & A4 & A5)]. cbn [fine].
      destruct (skip_attrs_split rest) as (e & Ee & Fe & Ne). split; [|congruence]. split.
      * apply (acc_header _ _ _ _ _ F k b m ti e (skip_attrs rest) w); cbn [h_author h_revision h_title h_lost]; auto; try congruence; try (apply DH; reflexivity); rewrite <- Ee; auto.
      * rewrite MP, K. split; [constructor|]. exists (SL (F ++ map toks b ++ w)). rewrite E, MS, !SL_app. cbn. lia.
    + cbn [fine]. split; [|exact D]. split; [|cbn; split; [exact O|exists (SL (F ++ w)); rewrite E, !SL_app; lia]].
      apply (acc_no_header _ _ _ _ _ F w); cbn; auto. rewrite <- DH. discriminate.
Qed.

(** ** The whole document *)
Lemma header_small L s : remains L s -> pmeta s = None -> fine (fun _ s' => mu s' <= SL L) (document_header P au rv s).
Proof.
  intros M N. eapply fine_weaken; [apply header_split; eassumption|]. intros h s' [(_ & O & B & E) _]. unfold mu. pose proof (LM_own _ O). lia.
Qed.
Hypothesis article : book P = false.
Lemma document_ends n s : 4 * mu s + 3 < n -> document n P s <> More.
Proof.
  intros H. unfold document. destruct n as [|n]; [lia|]. assert (E : run (S n) P _ Book s = Yes None s) by (cbn [run step]; unfold parse_book; rewrite article; reflexivity). rewrite E. cbn [bind].
  pose proof (sectioned_ok (run (S n) P) (S n) (run_ok P (S n)) s ltac:(lia)) as F. destruct (sectioned (run (S n) P) s); [discriminate|discriminate|destruct F].
Qed.
Lemma document_reads n s0 c s : delim s0 = None -> document n P s0 = Yes c s -> all_read s \/ irregular s.
Proof.
  intros D0. unfold document. destruct n as [|n]; [discriminate|]. cbn [run step]. unfold parse_book. rewrite article. cbn [negb bind]. unfold sectioned.
  change (step P (run n P)) with (run (S n) P). destruct (run_read P article (S n) s0 D0) as (_ & H & _). destruct (run (S n) P (list blk) BlockLoop s0) as [bs s1| |] eqn:E; [|discriminate..]. cbn [bind post] in *.
  assert (D : delim s1 = None). { pose proof (run_keeps P (S n) _ BlockLoop s0 s0 (keeps_refl _)) as K. rewrite E in K. cbn in K. destruct K as [K _]. congruence. }
  destruct (run_read P article (S n) s1 D) as (_ & _ & G). specialize (G H). destruct (run (S n) P (list sect) SectionLoop s1) as [ss s2| |]; [|discriminate..]. cbn [bind post] in *. injection 1 as _ <-. tauto.
Qed.
End Header.
Lemma remains_fresh sb L : remains L (fresh sb L).
Proof. constructor; cbn; [constructor|intros x []|]. exists []. repeat split; try (intros x []); congruence. Qed.
