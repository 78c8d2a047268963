From Verif Require Import Base Text AttrRefsModel AttrRefsSpec AttrRefsProofs CliArgsModel CliArgsSpec.
From Coq Require Import Lia.

Lemma in_ascii c l : In c l <-> existsb (Ascii.eqb c) l = true.
Proof.
  rewrite existsb_exists. split; [intro H; exists c; split; [exact H|apply Ascii.eqb_refl]|].
  intros (d & H & E). apply Ascii.eqb_eq in E. now subst.
Qed.
Lemma word_char_spec c : word_char c = true <-> word c.
Proof. unfold word. rewrite in_ascii. destruct c as [[] [] [] [] [] [] [] []]; reflexivity. Qed.
Lemma name_char_spec c : name_char c = true <-> word c \/ c = "-"%char.
Proof. unfold name_char. rewrite Bool.orb_true_iff, word_char_spec, Ascii.eqb_eq. reflexivity. Qed.
Lemma word_char_not c : word_char c = true -> c <> "!"%char /\ c <> "@"%char.
Proof. intro H. split; intros ->; discriminate H. Qed.

Lemma take_while_app (f : ascii -> bool) x r : Forall (fun c => f c = true) x -> match r with [] => True | c :: _ => f c = false end -> take_while f (x ++ r) = (x, r).
Proof.
  induction 1 as [|c x Hc Hx IH]; intro H.
  - destruct r as [|c r]; [reflexivity|]. cbn. now rewrite H.
  - cbn. now rewrite Hc, (IH H).
Qed.
Lemma take_while_spec (f : ascii -> bool) s x r : take_while f s = (x, r) -> s = x ++ r /\ Forall (fun c => f c = true) x.
Proof.
  revert x r. induction s as [|c s IH]; cbn; intros x r H; [injection H as <- <-; auto|].
  destruct (f c) eqn:E; [|injection H as <- <-; auto].
  destruct (take_while f s) as [y z]. injection H as <- <-. destruct (IH _ _ eq_refl) as [-> F]. auto.
Qed.
Lemma opt_char_yes c r : opt_char c (c :: r) = (true, r).
Proof. cbn. now rewrite Ascii.eqb_refl. Qed.
Lemma opt_char_no c r : match r with [] => True | d :: _ => d <> c end -> opt_char c r = (false, r).
Proof. destruct r as [|d r]; [reflexivity|]. cbn. intro H. destruct (Ascii.eqb_spec c d); [now destruct H|reflexivity]. Qed.
Lemma opt_char_text c s x r : opt_char c s = (x, r) -> s = (if x then [c] else []) ++ r.
Proof. destruct s as [|d s]; cbn; [intro H; injection H as <- <-; reflexivity|]. destruct (Ascii.eqb_spec c d); intro H; injection H as <- <-; [now subst|reflexivity]. Qed.

Definition not_first (c : ascii) (r : bytes) : Prop := match r with [] => True | d :: _ => d <> c end.
Lemma marks_read b a r : not_first "!"%char r -> not_first "@"%char r ->
  opt_char "!"%char (marks b a ++ r) = (b, (if a then $"@" else []) ++ r) /\ opt_char "@"%char ((if a then $"@" else []) ++ r) = (a, r).
Proof.
  intros H1 H2. split.
  - destruct b; unfold marks; cbn [app]; [apply opt_char_yes|]. apply opt_char_no. destruct a; cbn; [discriminate|exact H1].
  - destruct a; cbn [app]; [apply opt_char_yes|]. now apply opt_char_no.
Qed.
(** the rest of a text behind a name and marks: nothing, or something the expression does not take *)
Definition rest_ok (v : option bytes) (rest : bytes) : Prop :=
  match v with
  | Some v => one_line v /\ (rest = [] \/ exists r, rest = ascii_of_N 10 :: r)
  | None => match rest with [] => True | c :: r => name_char c = false /\ c <> "!"%char /\ c <> "@"%char /\ (c = "="%char -> r = [] \/ exists r', r = ascii_of_N 10 :: r') end
  end.
Lemma match_at_text b1 a1 n b2 a2 v rest : valid_name n -> rest_ok v rest ->
  match_at (definition_text b1 a1 n b2 a2 v ++ rest) = Some (AttrMatch b1 a1 n b2 a2 v).
Proof.
  intros (c & r & -> & Hc & Hr) HR. apply word_char_spec in Hc. destruct (word_char_not c Hc) as [Nb Na].
  unfold definition_text, match_at. repeat rewrite <- app_assoc.
  set (tail := match v with Some v => $"=" ++ v | None => [] end ++ rest).
  destruct (marks_read b1 a1 ((c :: r) ++ marks b2 a2 ++ tail) Nb Na) as [E1 E2]. rewrite E1, E2.
  cbn [app]. rewrite Hc.
  assert (T1 : not_first "!"%char tail /\ not_first "@"%char tail /\ match tail with [] => True | d :: _ => name_char d = false end).
  { subst tail. destruct v as [v|]; cbn [app]; [repeat split; discriminate|]. cbn in HR. destruct rest as [|d rest]; [repeat split|]. cbn. tauto. }
  destruct T1 as (T1 & T2 & T3).
  rewrite take_while_app.
  2:{ eapply Forall_impl; [|exact Hr]. intros d Hd. now apply name_char_spec. }
  2:{ destruct b2, a2; cbn; try reflexivity. exact T3. }
  destruct (marks_read b2 a2 tail T1 T2) as [E3 E4]. rewrite E3, E4. f_equal. f_equal.
  subst tail. destruct v as [v|]; cbn [app].
  - cbn in HR. destruct HR as [[Hv Hl] HR].
    rewrite <- app_assoc. change ($"=" ++ v ++ rest) with ("="%char :: (v ++ rest)). cbv iota beta.
    rewrite take_while_app.
    + cbn [fst]. destruct v; [now destruct Hv|reflexivity].
    + apply Forall_forall. intros d Hd. destruct (Ascii.eqb_spec d (ascii_of_N 10)); [subst; now destruct Hl|reflexivity].
    + destruct HR as [->|[r' ->]]; reflexivity.
  - cbn in HR. destruct rest as [|d rest]; [reflexivity|]. destruct HR as (_ & _ & _ & HR).
    destruct (Ascii.eqb_spec d "="%char) as [->|N].
    + destruct (HR eq_refl) as [->|[r' ->]]; reflexivity.
    + destruct d as [[] [] [] [] [] [] [] []]; try reflexivity. now destruct N.
Qed.
Lemma search_text s m : match_at s = Some m -> search s = Some m.
Proof. intro H. destruct s; cbn [search]; now rewrite H. Qed.

Lemma strip_ats_snoc s : strip_ats (s ++ $"@") = strip_ats s.
Proof. induction s as [|c s IH]; [reflexivity|]. cbn [app strip_ats]. rewrite IH. reflexivity. Qed.
Lemma strip_ats_keep w : (forall w', w <> w' ++ $"@") -> strip_ats w = w.
Proof.
  induction w as [|c w IH]; intro H; [reflexivity|]. cbn [strip_ats].
  destruct w as [|d w].
  - cbn. destruct (Ascii.eqb_spec c "@"%char) as [->|N]; [|reflexivity]. now destruct (H []).
  - rewrite IH; [reflexivity|]. intros w' E. apply (H (c :: w')). cbn. now rewrite E.
Qed.
Lemma repeat_snoc {A} (a : A) n : repeat a (S n) = repeat a n ++ [a].
Proof. induction n; cbn; [reflexivity|]. cbn in IHn. now rewrite <- IHn. Qed.
Lemma strip_ats_spec v w : without_ats v w -> strip_ats v = w.
Proof.
  intros (n & -> & H). induction n as [|n IH]; [cbn; rewrite app_nil_r; now apply strip_ats_keep|].
  rewrite repeat_snoc, app_assoc. change ["@"%char] with ($"@"). now rewrite strip_ats_snoc.
Qed.
Lemma without_ats_exists v : exists w, without_ats v w.
Proof.
  induction v as [|c v IH] using rev_ind.
  - exists [], 0. split; [reflexivity|]. intros [|? ?]; discriminate.
  - destruct (Ascii.eqb_spec c "@"%char) as [->|N].
    + destruct IH as (w & n & -> & H). exists w, (S n). split; [|exact H]. rewrite repeat_snoc. now rewrite app_assoc.
    + exists (v ++ [c]), 0. split; [now rewrite app_nil_r|]. intros w' E. apply app_inj_tail in E. destruct E as [_ E]. now apply N.
Qed.
Lemma ends_with_at_spec v w : without_ats v w -> ends_with_at v = true <-> w <> v.
Proof.
  intros (n & -> & H). unfold ends_with_at. destruct n as [|n].
  - cbn [repeat]. rewrite app_nil_r. split; [|easy]. intro E. exfalso.
    destruct (rev w) as [|c r] eqn:R; [discriminate|]. assert (c = "@"%char) by (destruct c as [[] [] [] [] [] [] [] []]; try discriminate E; reflexivity). subst c.
    apply (f_equal (@rev _)) in R. rewrite rev_involutive in R. cbn in R. now apply (H (rev r)).
  - rewrite repeat_snoc, app_assoc, rev_app_distr. cbn. split; [|reflexivity]. intros _ E. apply (f_equal (@length _)) in E. repeat rewrite app_length in E. cbn in E. lia.
Qed.

(** what a match has of its text *)
Lemma match_at_only s m : match_at s = Some m -> valid_name (key m) /\ (forall v, val m = Some v -> one_line v) /\
  exists rest, s = definition_text (bang1 m) (at1 m) (key m) (bang2 m) (at2 m) (val m) ++ rest.
Proof.
  unfold match_at. destruct (opt_char "!"%char s) as [b1 s1] eqn:E1. apply opt_char_text in E1.
  destruct (opt_char "@"%char s1) as [a1 s2] eqn:E2. apply opt_char_text in E2. destruct s2 as [|c r]; [discriminate|].
  destruct (word_char c) eqn:Ec; [|discriminate]. destruct (take_while name_char r) as [more s3] eqn:E3. apply take_while_spec in E3. destruct E3 as [E3 F3].
  destruct (opt_char "!"%char s3) as [b2 s4] eqn:E4. apply opt_char_text in E4. destruct (opt_char "@"%char s4) as [a2 s5] eqn:E5. apply opt_char_text in E5.
  assert (V : valid_name (c :: more)).
  { exists c, more. split; [reflexivity|]. split; [now apply word_char_spec|]. eapply Forall_impl; [|exact F3]. intros d Hd. now apply name_char_spec. }
  assert (K : forall v rest, s5 = match v with Some v => $"=" ++ v | None => [] end ++ rest -> (forall w, v = Some w -> one_line w) ->
    Some (AttrMatch b1 a1 (c :: more) b2 a2 v) = Some m -> valid_name (key m) /\ (forall v, val m = Some v -> one_line v) /\
    exists rest, s = definition_text (bang1 m) (at1 m) (key m) (bang2 m) (at2 m) (val m) ++ rest).
  { intros v rest Es Hv H. injection H as <-. cbn [key bang1 at1 bang2 at2 val]. split; [exact V|]. split; [exact Hv|]. exists rest.
    unfold definition_text, marks. subst. repeat rewrite <- app_assoc. cbn [app]. repeat rewrite <- app_assoc. reflexivity. }
  assert (K0 := K None s5 eq_refl ltac:(discriminate)).
  destruct s5 as [|d s6]; [exact K0|]. destruct (Ascii.eqb_spec d "="%char) as [->|N].
  - destruct (take_while (fun c => negb (Ascii.eqb c (ascii_of_N 10))) s6) as [v rest] eqn:Ev. apply take_while_spec in Ev. destruct Ev as [Ev Fv]. cbn [fst].
    destruct v as [|x v]; [exact K0|]. apply (K (Some (x :: v)) rest); [now subst|].
    intros w E. injection E as <-. split; [discriminate|]. intro I. rewrite Forall_forall in Fv. apply Fv in I. discriminate I.
  - destruct d as [[] [] [] [] [] [] [] []]; try exact K0. now destruct N.
Qed.
Lemma search_only s m : search s = Some m -> exists x s', s = x ++ s' /\ match_at s' = Some m.
Proof.
  induction s as [|c s IH]; cbn [search].
  - intro H. exists [], []. split; [reflexivity|exact H].
  - destruct (match_at (c :: s)) eqn:E; intro H; [injection H as <-; exists [], (c :: s); auto|].
    destruct (IH H) as (x & s' & -> & M). exists (c :: x), s'. auto.
Qed.
Lemma search_none s : search s = None <-> Forall (fun c => ~ word c) s.
Proof.
  induction s as [|c s IH]; [cbn; split; [constructor|reflexivity]|].
  cbn [search]. split.
  - destruct (match_at (c :: s)) eqn:E; [discriminate|]. intro H. constructor; [|now apply IH].
    intro W. apply word_char_spec in W. destruct (word_char_not c W) as [N1 N2]. unfold match_at in E.
    rewrite opt_char_no in E by exact N1. rewrite opt_char_no in E by exact N2. rewrite W in E.
    destruct (take_while name_char s) as [more s3]. destruct (opt_char "!"%char s3) as [b2 s4]. destruct (opt_char "@"%char s4). discriminate E.
  - intro F. inversion F as [|? ? Hc Hs]; subst. destruct (match_at (c :: s)) as [m|] eqn:E; [|now apply IH].
    exfalso. apply match_at_only in E. destruct E as ((d & r & Ek & Hd & _) & _ & rest & Es).
    rewrite Forall_forall in F. apply (F d); [|exact Hd]. rewrite Es. unfold definition_text. rewrite Ek. repeat rewrite <- app_assoc. apply in_or_app. right. now left.
Qed.
Lemma parse_means s m : search s = Some m -> exists r, means (bang1 m || bang2 m) (at1 m || at2 m) (val m) r /\ parse_attr s = with_key (lowercase (key m)) r.
Proof.
  intro H. unfold parse_attr. rewrite H. destruct (bang1 m || bang2 m) eqn:B, (at1 m || at2 m) eqn:A, (val m) as [v|];
    try (eexists; split; [apply M_flag|reflexivity]); try (eexists; split; [apply M_both; reflexivity|reflexivity]); try (eexists; split; [apply M_soft; reflexivity|reflexivity]).
  destruct (without_ats_exists v) as [w W]. destruct (ends_with_at v) eqn:E.
  - apply (ends_with_at_spec v w W) in E. eexists. split; [apply (M_suffix _ _ v w); auto|]. cbn. now rewrite (strip_ats_spec v w W).
  - assert (w = v). { destruct (list_eq_dec Ascii.ascii_dec w v); [assumption|]. apply (ends_with_at_spec v w W) in n. congruence. }
    subst w. eexists. split; [apply M_value; auto|reflexivity].
Qed.

Lemma valid_name_check c r : word_char c = true -> forallb name_char r = true -> valid_name (c :: r).
Proof.
  intros Hc Hr. exists c, r. split; [reflexivity|]. split; [now apply word_char_spec|].
  apply Forall_forall. intros d I. apply name_char_spec. rewrite forallb_forall in Hr. auto.
Qed.
