(** Proofs for C82. *)
From Coq Require Import Lia.
From Verif Require Import Base SvgModel SvgSpec.
Import ListNotations.

Lemma after_is w l r : after w l = Some r <-> l = w ++ r.
Proof.
  revert l. induction w as [|x w IH]; intros l; cbn; [split; congruence|]. destruct l as [|y l]; [split; discriminate|].
  destruct (Ascii.eqb_spec x y) as [->|N]; [rewrite IH; split; congruence|]. split; [discriminate|]. intros E. injection E. congruence.
Qed.
Lemma begins_is w l : begins w l = true <-> exists r, l = w ++ r.
Proof.
  unfold begins. destruct (after w l) as [r|] eqn:E.
  - split; [|reflexivity]. intros _. exists r. now apply after_is.
  - split; [discriminate|]. intros (r & H). apply after_is in H. congruence.
Qed.
Lemma within_cons w c l : within w l -> within w (c :: l).
Proof. intros (u & v & ->). now exists (c :: u), v. Qed.
Lemma from_last_none l : ~ within $"<svg" l -> from_last l = None.
Proof.
  induction l as [|c l IH]; intros N; [reflexivity|]. cbn [from_last]. rewrite IH by (intros H; apply N; now apply within_cons).
  destruct (begins $"<svg" (c :: l)) eqn:B; [|reflexivity]. apply begins_is in B as (r & E). destruct N. exists [], r. exact E.
Qed.
(** the text after the last [<svg] *)
Lemma from_last_is pre rest : ~ within $"<svg" rest -> from_last (pre ++ $"<svg" ++ rest) = Some ($"<svg" ++ rest).
Proof.
  intros N. induction pre as [|c pre IH].
  - cbn [app]. assert (H : from_last ("s"%char :: "v"%char :: "g"%char :: rest) = None).
    { cbn [from_last]. rewrite (from_last_none rest N). reflexivity. }
    change ($"<svg" ++ rest) with ("<"%char :: "s"%char :: "v"%char :: "g"%char :: rest). cbn [from_last] in H |- *. now rewrite (from_last_none rest N) in *.
  - cbn [app from_last]. now rewrite IH.
Qed.

Lemma trim_start_is l : exists w, l = w ++ trim_start l /\ Forall (fun c => is_blank c = true) w /\ match trim_start l with [] => True | c :: _ => is_blank c = false end.
Proof.
  induction l as [|c l (w & E & F & H)]; cbn [trim_start]; [now exists []|]. destruct (is_blank c) eqn:B; [|now exists []].
  exists (c :: w). split; [now rewrite E at 1|]. split; [now constructor|exact H].
Qed.
Lemma trim_end_is l : trimmed_end l (rev (trim_start (rev l))).
Proof.
  destruct (trim_start_is (rev l)) as (w & E & F & H). exists (rev w). split; [|split].
  - rewrite <- rev_app_distr, <- E. now rewrite rev_involutive.
  - now apply Forall_rev.
  - intros u c K. apply (f_equal (@rev ascii)) in K. rewrite rev_involutive, rev_unit in K. now rewrite K in H.
Qed.
Lemma trim_svg rest : trimmed_end ($"<svg" ++ rest) (trim ($"<svg" ++ rest)).
Proof. unfold trim. change (trim_start ($"<svg" ++ rest)) with ($"<svg" ++ rest). apply trim_end_is. Qed.
Lemma app_last {A} (a b : list A) x y : a ++ [x] = b ++ [y] -> a = b /\ x = y.
Proof. apply app_inj_tail. Qed.
Lemma trimmed_unique l a b : trimmed_end l a -> trimmed_end l b -> a = b.
Proof.
  intros (v & E & F & H) (w & E' & F' & H'). subst l. revert w v E' F F'. induction w as [|x w IH] using rev_ind; intros v E F F'.
  - rewrite app_nil_r in E. destruct v as [|y v _] using rev_ind; [now rewrite app_nil_r in E|]. rewrite app_assoc in E. symmetry in E. apply H' in E.
    apply Forall_app in F as (_ & F). inversion F; congruence.
  - destruct v as [|y v _] using rev_ind.
    + rewrite app_nil_r in E. rewrite app_assoc in E. apply H in E. apply Forall_app in F' as (_ & F'). inversion F'; congruence.
    + rewrite !app_assoc in E. apply app_last in E as (E & _). apply Forall_app in F as (F & _), F' as (F' & _). now apply (IH v).
Qed.
Lemma trim_of rest out : trimmed_end ($"<svg" ++ rest) out -> trim ($"<svg" ++ rest) = out.
Proof. intros T. eapply trimmed_unique; [apply trim_svg|exact T]. Qed.

(** ** Sizes *)
Lemma named_value_within w r n : named_value w r = Some n -> exists t, r = w ++ $"=" ++ t.
Proof.
  unfold named_value. destruct (after (w ++ $"=") r) as [t|] eqn:E; [|discriminate]. intros _. apply after_is in E. exists t. rewrite E. now rewrite <- app_assoc.
Qed.
Lemma size_attr_within l n : size_attr l = Some n -> exists c w t, is_space c = true /\ In w size_names /\ l = c :: w ++ $"=" ++ t.
Proof.
  destruct l as [|c r]; [discriminate|]. unfold size_attr. destruct (is_space c) eqn:S; [|discriminate].
  destruct (named_value $"width" r) as [k|] eqn:E1.
  { intros _. apply named_value_within in E1 as (t & ->). exists c, $"width", t. split; [exact S|]. split; [now left|reflexivity]. }
  destruct (named_value $"height" r) as [k|] eqn:E2.
  { intros _. apply named_value_within in E2 as (t & ->). exists c, $"height", t. split; [exact S|]. split; [right; now left|reflexivity]. }
  intros E3. apply named_value_within in E3 as (t & ->). exists c, $"style", t. split; [exact S|]. split; [right; right; now left|reflexivity].
Qed.
Lemma unsized_tail c l : unsized (c :: l) -> unsized l.
Proof. intros U d n S I W. apply (U d n S I). now apply within_cons. Qed.

(** none of the bytes of a name and its equals sign is a space *)
Definition key_ok (w : bytes) : bool := forallb (fun c => negb (is_space c)) (w ++ $"=").
Lemma names_ok w : In w size_names -> key_ok w = true.
Proof. intros [<-|[<-|[<-|[]]]]; reflexivity. Qed.
(** a word without spaces that begins a text goes no further than the first space *)
Lemma word_stays (k a : bytes) c t x : forallb (fun c => negb (is_space c)) k = true -> is_space c = true -> a ++ c :: t = k ++ x -> exists y, a = k ++ y.
Proof.
  revert a. induction k as [|d k IH]; intros a K S E; [now exists a|]. cbn [forallb] in K. apply andb_true_iff in K as (D & K).
  destruct a as [|b a]; cbn in E; injection E as E1 E2.
  - subst d. rewrite S in D. discriminate.
  - subst b. destruct (IH a K S E2) as (y & ->). now exists y.
Qed.
Lemma strip_front a c t : unsized a -> is_space c = true -> strip 0 (a ++ c :: t) = a ++ strip 0 (c :: t).
Proof.
  intros U S. induction a as [|b a IH]; [reflexivity|]. cbn [app]. cbn [strip]. destruct (size_attr (b :: a ++ c :: t)) as [n|] eqn:E.
  - exfalso. apply size_attr_within in E as (d & w & x & D & I & E). injection E as -> E.
    change (w ++ "="%char :: x) with (w ++ $"=" ++ x) in E. rewrite app_assoc in E. destruct (word_stays (w ++ $"=") a c t x (names_ok w I) S E) as (y & ->).
    apply (U d w D I). exists [], y. cbn. reflexivity.
  - f_equal. apply IH. now apply unsized_tail in U.
Qed.
Lemma strip_unsized a : unsized a -> strip 0 a = a.
Proof.
  induction a as [|b a IH]; intros U; [reflexivity|]. cbn [strip]. destruct (size_attr (b :: a)) as [n|] eqn:E.
  - exfalso. apply size_attr_within in E as (d & w & x & D & I & E). apply (U d w D I). exists [], x. rewrite E. cbn. now rewrite <- app_assoc.
  - f_equal. apply IH. now apply unsized_tail in U.
Qed.
Lemma to_end_is q v l : ~ In q v -> to_end q (v ++ q :: l) = Some (S (length v)).
Proof.
  induction v as [|c v IH]; intros N; cbn [app to_end length].
  - now rewrite Ascii.eqb_refl.
  - destruct (Ascii.eqb_spec c q) as [->|_]; [destruct N; now left|]. rewrite IH; [reflexivity|]. intros I. apply N. now right.
Qed.
Lemma quoted_is q v l : q = quote \/ q = apostrophe -> ~ In q v -> quoted (q :: v ++ q :: l) = Some (S (S (length v))).
Proof. intros Q N. unfold quoted. rewrite (to_end_is q v l N). destruct Q as [-> | ->]; reflexivity. Qed.
Lemma named_value_is w q v l : q = quote \/ q = apostrophe -> ~ In q v -> named_value w (w ++ $"=" ++ q :: v ++ q :: l) = Some (length w + 1 + S (S (length v))).
Proof.
  intros Q N. unfold named_value. assert (E : after (w ++ $"=") (w ++ $"=" ++ q :: v ++ q :: l) = Some (q :: v ++ q :: l)) by (apply after_is; now rewrite <- app_assoc).
  rewrite E. now rewrite (quoted_is q v l Q N).
Qed.
Lemma size_attr_is c n q v l : is_space c = true -> In n size_names -> q = quote \/ q = apostrophe -> ~ In q v ->
  size_attr (c :: n ++ $"=" ++ q :: v ++ q :: l) = Some (length n + 1 + S (S (length v))).
Proof.
  intros S I Q N. unfold size_attr. rewrite S. destruct I as [<-|[<-|[<-|[]]]].
  - now rewrite named_value_is.
  - change (named_value $"width" ($"height" ++ $"=" ++ q :: v ++ q :: l)) with (@None nat). now rewrite named_value_is.
  - change (named_value $"width" ($"style" ++ $"=" ++ q :: v ++ q :: l)) with (@None nat). change (named_value $"height" ($"style" ++ $"=" ++ q :: v ++ q :: l)) with (@None nat). now rewrite named_value_is.
Qed.
Lemma strip_skip u l : strip (length u) (u ++ l) = strip 0 l.
Proof. induction u; [reflexivity|exact IHu]. Qed.
Lemma strip_is l m : loses_sizes l m -> strip 0 l = m.
Proof.
  induction 1 as [a U|a c n q v l m U SP I Q N _ IH]; [now apply strip_unsized|]. rewrite (strip_front a c _ U SP). f_equal.
  cbn [strip]. rewrite (size_attr_is c n q v l SP I Q N).
  assert (E : n ++ $"=" ++ q :: v ++ q :: l = (n ++ $"=" ++ q :: v ++ [q]) ++ l) by (cbn; rewrite <- !app_assoc; cbn; now rewrite <- app_assoc).
  rewrite E. assert (L : length n + 1 + S (S (length v)) = length (n ++ $"=" ++ q :: v ++ [q])) by (rewrite !app_length; cbn; rewrite app_length; cbn; lia).
  rewrite L, strip_skip. exact IH.
Qed.
