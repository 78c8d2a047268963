From Coq Require Import ZArith Lia Zify ZifyN.
From Verif Require Import Base Utf8 Unicode PathModel LexerModel NormModel NormSpec.
Local Ltac Zify.zify_post_hook ::= Z.div_mod_to_equations.

Lemma units_le_bytes us : Forall (fun u => u < 65536)%N us -> units_le (flat_map le_bytes us) = us.
Proof. induction 1 as [|u us B F IH]; [reflexivity|]. cbn [flat_map le_bytes app units_le]. rewrite IH, !val_byte by lia. f_equal. lia. Qed.
Lemma units_be_bytes us : Forall (fun u => u < 65536)%N us -> units_be (flat_map be_bytes us) = us.
Proof. induction 1 as [|u us B F IH]; [reflexivity|]. cbn [flat_map be_bytes app units_be]. rewrite IH, !val_byte by lia. f_equal. lia. Qed.
Lemma byte_eq c n : val c = n -> byte n = c.
Proof. intros <-. apply byte_val. Qed.
Lemma bytes_units_le : forall k s, length s = 2 * k -> flat_map le_bytes (units_le s) = s.
Proof.
  induction k as [|k IH]; intros s L; [destruct s; [reflexivity|discriminate]|]. destruct s as [|a [|c s]]; [discriminate|cbn in L; lia|]. cbn [units_le flat_map]. unfold le_bytes at 1. cbn [app].
  rewrite IH by (cbn [length] in L; lia). pose proof (val_lt a). pose proof (val_lt c). f_equal; [apply byte_eq; lia|f_equal; apply byte_eq; lia].
Qed.
Lemma bytes_units_be : forall k s, length s = 2 * k -> flat_map be_bytes (units_be s) = s.
Proof.
  induction k as [|k IH]; intros s L; [destruct s; [reflexivity|discriminate]|]. destruct s as [|a [|c s]]; [discriminate|cbn in L; lia|]. cbn [units_be flat_map]. unfold be_bytes at 1. cbn [app].
  rewrite IH by (cbn [length] in L; lia). pose proof (val_lt a). pose proof (val_lt c). f_equal; [apply byte_eq; lia|f_equal; apply byte_eq; lia].
Qed.
Lemma units_le_bound : forall k s, length s = 2 * k -> Forall (fun u => u < 65536)%N (units_le s).
Proof.
  induction k as [|k IH]; intros s L; [destruct s; [constructor|discriminate]|]. destruct s as [|a [|c s]]; [discriminate|cbn in L; lia|]. cbn [units_le]. pose proof (val_lt a). pose proof (val_lt c).
  constructor; [lia|]. apply IH. cbn [length] in L. lia.
Qed.
Lemma units_be_bound : forall k s, length s = 2 * k -> Forall (fun u => u < 65536)%N (units_be s).
Proof.
  induction k as [|k IH]; intros s L; [destruct s; [constructor|discriminate]|]. destruct s as [|a [|c s]]; [discriminate|cbn in L; lia|]. cbn [units_be]. pose proof (val_lt a). pose proof (val_lt c).
  constructor; [lia|]. apply IH. cbn [length] in L. lia.
Qed.
Lemma pad_spec s : made_even s (pad s) /\ exists k, length (pad s) = 2 * k.
Proof.
  unfold pad, made_even. destruct (Nat.even (length s)) eqn:E.
  - apply Nat.even_spec in E. split; [left; auto|]. destruct E as [k E]. exists k. exact E.
  - assert (O : Nat.Odd (length s)) by (apply Nat.odd_spec; unfold Nat.odd; rewrite E; reflexivity). split; [right; auto|]. destruct O as [k O]. exists (k + 1). rewrite app_length, O. cbn. lia.
Qed.
Lemma made_even_unique s t : made_even s t -> t = pad s.
Proof.
  unfold made_even, pad. intros [[E ->]|[O ->]].
  - apply Nat.even_spec in E. rewrite E. reflexivity.
  - apply Nat.odd_spec in O. unfold Nat.odd in O. destruct (Nat.even (length s)); [discriminate|]. reflexivity.
Qed.
Lemma units_flat ns : Forall scalar ns -> Forall (fun u => u < 65536)%N (flat_map units ns).
Proof. induction 1 as [|n ns S F IH]; [constructor|]. cbn [flat_map]. apply Forall_app. split; [apply units_bound, S|exact IH]. Qed.
Lemma convert_le_spec s t : convert_utf16_le s = Ok t <-> exists ns, Forall scalar ns /\ made_even s (utf16_le ns) /\ t = utf8_text ns.
Proof.
  unfold convert_utf16_le. destruct (pad_spec s) as [P (k & L)]. split.
  - destruct (decode16 (units_le (pad s))) as [ns|] eqn:E; [|discriminate]. intro H. injection H as <-. exists ns.
    destruct (decode16_sound _ _ _ (le_n _) (units_le_bound k _ L) E) as [F U]. split; [exact F|]. split; [|reflexivity]. unfold utf16_le. rewrite <- U, (bytes_units_le k _ L). exact P.
  - intros (ns & F & M & ->). apply made_even_unique in M. rewrite <- M. unfold utf16_le. rewrite units_le_bytes by (apply units_flat, F). rewrite decode_units by exact F. reflexivity.
Qed.
Lemma convert_be_spec s t : convert_utf16_be s = Ok t <-> exists ns, Forall scalar ns /\ made_even s (utf16_be ns) /\ t = utf8_text ns.
Proof.
  unfold convert_utf16_be. destruct (pad_spec s) as [P (k & L)]. split.
  - destruct (decode16 (units_be (pad s))) as [ns|] eqn:E; [|discriminate]. intro H. injection H as <-. exists ns.
    destruct (decode16_sound _ _ _ (le_n _) (units_be_bound k _ L) E) as [F U]. split; [exact F|]. split; [|reflexivity]. unfold utf16_be. rewrite <- U, (bytes_units_be k _ L). exact P.
  - intros (ns & F & M & ->). apply made_even_unique in M. rewrite <- M. unfold utf16_be. rewrite units_be_bytes by (apply units_flat, F). rewrite decode_units by exact F. reflexivity.
Qed.
Lemma starts_self p s : starts_with p (p ++ s) = true.
Proof. induction p as [|c p IH]; [reflexivity|]. cbn. rewrite Ascii.eqb_refl. exact IH. Qed.

(** cleaning *)
Definition blankb (c : ascii) : bool := mem c [" "%char; TAB].
Lemma blankb_spec c : blankb c = true <-> blank c.
Proof.
  unfold blankb, blank, mem. cbn [existsb]. rewrite orb_false_r, orb_true_iff, !Ascii.eqb_eq. reflexivity.
Qed.
Lemma trim_rev_spec d : exists ws, d = ws ++ trim_rev d /\ Forall blank ws /\ (forall c r, trim_rev d = c :: r -> ~ blank c).
Proof.
  induction d as [|c d (ws & E & F & N)]; [exists []; repeat split; [constructor|discriminate]|]. cbn [trim_rev]. fold (blankb c). destruct (blankb c) eqn:B.
  - exists (c :: ws). split; [cbn; rewrite <- E; reflexivity|]. split; [constructor; [apply blankb_spec, B|exact F]|exact N].
  - exists []. split; [reflexivity|]. split; [constructor|]. intros c' r Q. injection Q as <- <-. rewrite <- blankb_spec, B. discriminate.
Qed.
Lemma trim_rev_app x d : (d = [] \/ exists r, d = LF :: r) -> trim_rev (x ++ d) = trim_rev x ++ d.
Proof.
  intro D. induction x as [|c x IH].
  - destruct D as [->|(r & ->)]; reflexivity.
  - cbn [app trim_rev]. destruct (mem c [" "%char; TAB]); [exact IH|reflexivity].
Qed.
(** drop the carriage return of a line end *)
Definition drop_cr (l : bytes) : bytes := match rev l with c :: r => if Ascii.eqb c CR then rev r else l | [] => [] end.
Lemma drop_cr_cons c l : l <> [] -> drop_cr (c :: l) = c :: drop_cr l.
Proof.
  intro N. unfold drop_cr. cbn [rev]. destruct (rev l) as [|d r] eqn:E; [destruct l; [congruence|]; apply (f_equal (@length ascii)) in E; rewrite rev_length in E; discriminate|].
  cbn [app]. destruct (Ascii.eqb d CR); [|reflexivity]. rewrite rev_app_distr. reflexivity.
Qed.
Lemma clean_line : forall l d s, ~ In LF l -> clean d (l ++ LF :: s) = clean (LF :: trim_rev (rev (drop_cr l) ++ d)) s.
Proof.
  induction l as [|c l IH]; intros d s N; [reflexivity|]. cbn [app clean].
  destruct (Ascii.eqb_spec c LF) as [->|NL]; [destruct N; left; reflexivity|].
  assert (N' : ~ In LF l) by (intro I; apply N; right; exact I).
  destruct l as [|e l].
  - cbn [app hd_error]. unfold is. rewrite Ascii.eqb_refl, andb_true_r. unfold drop_cr. cbn [rev app]. destruct (Ascii.eqb c CR); [reflexivity|]. reflexivity.
  - cbn [app hd_error is]. replace (Ascii.eqb e LF) with false by (symmetry; apply Ascii.eqb_neq; intros ->; apply N'; left; reflexivity). rewrite andb_false_r.
    change (e :: l ++ LF :: s) with ((e :: l) ++ LF :: s). rewrite IH by exact N'. rewrite (drop_cr_cons c (e :: l)) by discriminate. cbn [rev]. rewrite <- app_assoc. reflexivity.
Qed.
Lemma clean_last : forall l d, ~ In LF l -> clean d l = rev d ++ l.
Proof.
  induction l as [|c l IH]; intros d N; [rewrite app_nil_r; reflexivity|]. cbn [clean].
  destruct (Ascii.eqb_spec c LF) as [->|NL]; [destruct N; left; reflexivity|].
  assert (N' : ~ In LF l) by (intro I; apply N; right; exact I).
  replace (is (hd_error l) LF) with false. { rewrite andb_false_r, IH by exact N'. cbn [rev]. rewrite <- app_assoc. reflexivity. }
  destruct l as [|e l]; [reflexivity|]. cbn [hd_error is]. symmetry. apply Ascii.eqb_neq. intros ->. apply N'. left. reflexivity.
Qed.
Definition clean1 (l : bytes) : bytes := rev (trim_rev (rev (drop_cr l))).
Lemma clean_acc : forall ls d, ls <> [] -> Forall (fun l => ~ In LF l) ls -> (d = [] \/ exists r, d = LF :: r) ->
  clean d (join_byte LF ls) = rev d ++ join_byte LF (map clean1 (removelast ls) ++ [last ls []]).
Proof.
  induction ls as [|l ls IH]; intros d NE F D; [congruence|]. inversion F as [|? ? NL F']. subst. destruct ls as [|m ls].
  - cbn [removelast map last app join_byte]. apply clean_last, NL.
  - change (join_byte LF (l :: m :: ls)) with (l ++ LF :: join_byte LF (m :: ls)). rewrite clean_line by exact NL.
    rewrite trim_rev_app by exact D. rewrite IH; [|discriminate|exact F'|right; eauto]. change (removelast (l :: m :: ls)) with (l :: removelast (m :: ls)).
    change (last (l :: m :: ls) []) with (last (m :: ls) []). cbn [map app]. set (rest := map clean1 (removelast (m :: ls)) ++ [last (m :: ls) []]).
    assert (NR : rest <> []) by (unfold rest; intro Q; apply app_eq_nil in Q as [_ Q]; discriminate). destruct rest as [|x rest]; [congruence|].
    change (join_byte LF (clean1 l :: x :: rest)) with (clean1 l ++ LF :: join_byte LF (x :: rest)). cbn [rev]. rewrite rev_app_distr, <- !app_assoc. reflexivity.
Qed.
Lemma clean1_spec l : cleaned l (clean1 l).
Proof.
  unfold cleaned, clean1. destruct (trim_rev_spec (rev (drop_cr l))) as (ws & E & F & N).
  assert (R : drop_cr l = rev (trim_rev (rev (drop_cr l))) ++ rev ws). { apply (f_equal (@rev ascii)) in E. rewrite rev_involutive, rev_app_distr in E. exact E. }
  assert (Q : (l = drop_cr l ++ [CR]) \/ (l = drop_cr l /\ forall x, l <> x ++ [CR])).
  { unfold drop_cr. destruct (rev l) as [|c r] eqn:EL.
    - right. apply (f_equal (@rev ascii)) in EL. rewrite rev_involutive in EL. subst. split; [reflexivity|]. intros [|] X; discriminate.
    - apply (f_equal (@rev ascii)) in EL. rewrite rev_involutive in EL. cbn [rev] in EL. destruct (Ascii.eqb_spec c CR) as [->|NC]; [left; exact EL|right]. split; [reflexivity|].
      intros x X. rewrite X in EL. apply app_inj_tail in EL as [_ EL]. congruence. }
  exists (rev ws). destruct Q as [Q|[Q NQ]].
  - exists [CR]. split; [rewrite app_assoc, <- R; exact Q|]. split; [apply Forall_rev, F|]. split; [|left; reflexivity].
    intros x c X. apply (f_equal (@rev ascii)) in X. rewrite rev_involutive, rev_app_distr in X. exact (N _ _ X).
  - exists []. split; [rewrite app_nil_r, <- R; exact Q|]. split; [apply Forall_rev, F|]. split; [|right; auto].
    intros x c X. apply (f_equal (@rev ascii)) in X. rewrite rev_involutive, rev_app_distr in X. exact (N _ _ X).
Qed.
Lemma join_cons (x : bytes) r : r <> [] -> join_byte LF (x :: r) = x ++ LF :: join_byte LF r.
Proof. destruct r; [congruence|reflexivity]. Qed.
Lemma clean_cleaned s : cleaned_text s (clean [] s).
Proof.
  destruct (split_byte_parts LF s) as [F J]. pose proof (split_byte_nonnil LF s) as NE. rewrite <- J. revert F NE. generalize (split_byte LF s). clear J s.
  intros ls F NE. rewrite clean_acc by auto. cbn [rev app]. induction ls as [|l ls IH]; [congruence|]. inversion F as [|? ? NL F']. subst. destruct ls as [|m ls].
  - cbn [removelast map last app join_byte]. apply CT_last, NL.
  - change (join_byte LF (l :: m :: ls)) with (l ++ LF :: join_byte LF (m :: ls)).
    change (removelast (l :: m :: ls)) with (l :: removelast (m :: ls)). change (last (l :: m :: ls) []) with (last (m :: ls) []). cbn [map app].
    rewrite (join_cons (clean1 l)) by (destruct (map clean1 (removelast (m :: ls))); discriminate). apply CT_line; [exact NL|apply clean1_spec|]. apply IH; [exact F'|discriminate].
Qed.
(** the relation is a function *)
Lemma last_two_runs (t t' ws ws' : bytes) : t ++ ws = t' ++ ws' -> Forall blank ws -> Forall blank ws' ->
  (forall x c, t = x ++ [c] -> ~ blank c) -> (forall x c, t' = x ++ [c] -> ~ blank c) -> t = t'.
Proof.
  revert ws'. induction ws as [|w ws IH] using rev_ind; intros ws' E F F' N N'.
  - rewrite app_nil_r in E. destruct ws' as [|w' ws'] using rev_ind; [rewrite app_nil_r in E; exact E|]. exfalso. apply Forall_app in F' as [_ F']. inversion F' as [|? ? B _]. subst.
    rewrite app_assoc in N. exact (N _ _ eq_refl B).
  - destruct ws' as [|w' ws' _] using rev_ind.
    + rewrite app_nil_r in E. exfalso. apply Forall_app in F as [_ F]. inversion F as [|? ? B _]. subst. rewrite app_assoc in N'. exact (N' _ _ eq_refl B).
    + rewrite !app_assoc in E. apply app_inj_tail in E as [E _]. apply Forall_app in F as [F _]. apply Forall_app in F' as [F' _]. exact (IH _ E F F' N N').
Qed.
Lemma cleaned_fun l t t' : cleaned l t -> cleaned l t' -> t = t'.
Proof.
  intros (ws & cr & E & F & N & C) (ws' & cr' & E' & F' & N' & C'). assert (CE : cr = cr').
  { destruct C as [->|[-> X]], C' as [->|[-> X']]; auto; exfalso.
    - apply (X' (t ++ ws)). rewrite <- app_assoc. exact E.
    - apply (X (t' ++ ws')). rewrite <- app_assoc. exact E'. }
  subst cr'. rewrite E in E'. rewrite !app_assoc in E'. apply app_inv_tail in E'. eapply last_two_runs; eauto.
Qed.
Lemma split_first (c : ascii) : forall a x a' x', ~ In c a -> ~ In c a' -> a ++ c :: x = a' ++ c :: x' -> a = a' /\ x = x'.
Proof.
  induction a as [|d a IH]; intros x [|e a'] x' N N' E; cbn in E.
  - injection E as <-. auto.
  - injection E as <- _. destruct N'. left. reflexivity.
  - injection E as -> _. destruct N. left. reflexivity.
  - injection E as -> E. destruct (IH x a' x') as [-> ->]; auto; intro I; [apply N|apply N']; right; exact I.
Qed.
Lemma cleaned_text_fun s u u' : cleaned_text s u -> cleaned_text s u' -> u = u'.
Proof.
  intro H. revert u'. induction H as [l NL|l t s u NL C H IH]; intros u' H'.
  - inversion H' as [|l' t' s' u'' NL' C' H'' EQ]; [reflexivity|]. subst. destruct NL. apply in_or_app. right. left. reflexivity.
  - inversion H' as [l' NL' EQ|l' t' s' u'' NL' C' H'' EQ]; subst.
    + destruct NL'. apply in_or_app. right. left. reflexivity.
    + apply split_first in EQ as [-> ->]; auto. rewrite (cleaned_fun _ _ _ C C'), (IH _ H''). reflexivity.
Qed.
(** idempotence *)
Lemma cleaned_id t : (forall x c, t = x ++ [c] -> ~ blank c) -> ~ In return_ t -> cleaned t t.
Proof. intros N R. exists [], []. rewrite app_nil_r. repeat split; auto. right. split; [reflexivity|]. intros x ->. apply R, in_or_app. right. left. reflexivity. Qed.
Lemma cleaned_text_id s u : cleaned_text s u -> no_lone_return s -> cleaned_text u u.
Proof.
  induction 1 as [l NL|l t s u NL C H IH]; intro R; [apply CT_last, NL|].
  destruct C as (ws & cr & E & F & N & C). assert (RT : ~ In return_ t).
  { intro I. apply in_split in I as (a & z & ->). destruct (R a (z ++ ws ++ cr ++ newline :: s)) as [y Y].
    - rewrite E. repeat (rewrite <- app_assoc; cbn [app]). reflexivity.
    - destruct z as [|c z]; cbn [app] in Y.
      + destruct ws as [|w ws]; cbn [app] in Y.
        * destruct C as [->|[-> X]]; [discriminate|]. apply (X a). rewrite E. rewrite !app_nil_r. reflexivity.
        * injection Y as -> _. inversion F as [|? ? [B|B] _]; discriminate.
      + injection Y as -> _. apply NL. rewrite E. apply in_or_app. left. apply in_or_app. right. right. left. reflexivity. }
  apply CT_line.
  - intro I. apply NL. rewrite E. apply in_or_app. left. exact I.
  - apply cleaned_id; assumption.
  - apply IH. intros a z Q. destruct (R (l ++ newline :: a) z) as [y Y]; [rewrite Q, <- app_assoc; reflexivity|]. exists y. exact Y.
Qed.
Lemma clean_utf8 s : utf8 s -> utf8 (clean [] s).
Proof.
  intro U. pose proof (clean_cleaned s) as H. revert H. generalize (clean [] s). intros u H. induction H as [l NL|l t s u NL C H IH]; [exact U|].
  assert (A : between 0 127 newline = true) by (vm_compute; reflexivity). destruct (utf8_after_ascii _ _ _ U A) as [U1 U2].
  change (t ++ newline :: u) with (t ++ [newline] ++ u). rewrite app_assoc. apply utf8_app; [|apply IH, U2]. destruct C as (ws & cr & E & F & N & C).
  apply utf8_app; [|apply utf8_ascii; constructor; [exact A|constructor]].
  assert (Q : exists w, l ++ [newline] = t ++ w /\ Forall (fun c => between 0 127 c = true) w /\ w <> []).
  { exists (ws ++ cr ++ [newline]). rewrite E, <- !app_assoc. split; [reflexivity|]. split; [|destruct ws; [destruct cr; discriminate|discriminate]].
    apply Forall_app. split; [eapply Forall_impl; [|exact F]; intros c [->| ->]; vm_compute; reflexivity|]. apply Forall_app. split; [|constructor; [exact A|constructor]].
    destruct C as [->|[-> _]]; repeat constructor. }
  destruct Q as (w & EQ & FW & NW). rewrite EQ in U1. apply utf8_cut in U1 as [X _]; [exact X|]. intros c r ->. inversion FW as [|? ? B _]. subst.
  apply between_spec in B. unfold continuation. destruct (between 128 191 c) eqn:Q; [|reflexivity]. apply between_spec in Q. lia.
Qed.
