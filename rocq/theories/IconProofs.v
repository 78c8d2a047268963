(** Proofs for C81. *)
From Coq Require Import Lia.
From Verif Require Import Base Base64Model Base64Spec Base64Proofs IconModel IconSpec.
Import ListNotations.
Open Scope N_scope.

Lemma uid_sum p : fits p -> uid p = source p * 2 ^ 32 + start p.
Proof.
  intros (A & B). unfold uid. rewrite N.shiftl_mul_pow2.
  rewrite N.mod_small by (change (2 ^ 64) with (2 ^ 32 * 2 ^ 32); change (2 ^ 16) with 65536 in A; change (2 ^ 32) with 4294967296; lia).
  assert (L : N.land (source p * 2 ^ 32) (start p) = 0).
  { apply N.bits_inj. intros n. rewrite N.land_spec, N.bits_0. destruct (N.ltb_spec n 32) as [C|C].
    - now rewrite N.mul_pow2_bits_low.
    - apply andb_false_iff. right. destruct (N.eq_dec (start p) 0) as [->|NZ]; [apply N.bits_0|]. apply N.bits_above_log2.
      apply N.lt_le_trans with 32; [|exact C]. apply N.log2_lt_pow2; [lia|exact B]. }
  rewrite <- N.lxor_lor by exact L. now rewrite <- N.add_nocarry_lxor.
Qed.
Lemma uid_inj p q : fits p -> fits q -> uid p = uid q -> p = q.
Proof.
  intros P Q E. rewrite (uid_sum p P), (uid_sum q Q) in E. destruct P as (_ & P), Q as (_ & Q), p as [a b], q as [c d]. cbn in *.
  change (2 ^ 32) with 4294967296 in *. f_equal; lia.
Qed.

Lemma embeds_is s : embeds s = true <-> wants_data s.
Proof.
  unfold embeds, wants_data. destruct s as [d i t a u]. cbn.
  destruct d as [[x|[|]]|], i as [[y|[|]]|], u, a as [[z|[|]]|]; cbn; split; try discriminate; try (intros (A & B & C); try discriminate A; try discriminate B; destruct C as [C|C]; discriminate C); try (intros _; repeat split; auto); reflexivity.
Qed.
Lemma icon_data_is files s k custom : files_of_bytes files -> wants_data s -> exists x, icon_data files s k custom = Ret x /\ own_icon files s k custom x.
Proof.
  intros F (_ & I & _). assert (X : image_type s (extension s)).
  { unfold image_type, extension, str_or. rewrite I. cbn. destruct (icontype s) as [[[|c r]|[|]]|]; reflexivity. }
  assert (KN : lowercase k = kind_name k) by (now destruct k). unfold icon_data, own_icon, filename. rewrite KN. destruct (files _) as [l|] eqn:E.
  - rewrite (encode_rfc l (F _ _ E)). eexists. split; [reflexivity|]. exists (extension s). split; [exact X|]. rewrite E. unfold media_type. now rewrite <- !app_assoc.
  - eexists. split; [reflexivity|]. exists (extension s). split; [exact X|]. rewrite E. unfold media_type. now rewrite app_nil_r.
Qed.

(** what is in the table after parsing: what was there, and under the number of each admonition paragraph its own icon *)
Lemma parse_get files : files_of_bytes files -> forall l t,
  Forall (fun p => fits (at_place (snd p))) l -> NoDup (map (fun p => at_place (snd p)) l) -> (forall p, In p (map (fun p => at_place (snd p)) l) -> get t (uid p) = None) ->
  exists t', parse files l t = Ret t'
    /\ (forall p, fits p -> ~ In p (map (fun p => at_place (snd p)) l) -> get t' (uid p) = get t (uid p))
    /\ (forall s b, In (s, b) l -> right_icon files s b (found t' b)).
Proof.
  intros F. induction l as [|[s b] l IH]; intros t FT ND N; cbn [map snd parse] in *.
  { exists t. repeat split; intros; try reflexivity; contradiction. }
  inversion FT as [|? ? FB FL]; subst. inversion ND as [|? ? NB NL]; subst. cbn [snd] in FB.
  assert (S : exists t1, set_icon files s b t = Ret t1 /\ (forall p, fits p -> p <> at_place b -> get t1 (uid p) = get t (uid p)) /\ right_icon files s b (found t1 b)).
  { assert (NT : get t (uid (at_place b)) = None) by (apply N; now left).
    unfold set_icon, right_icon, found. destruct (delimited b) eqn:D, (what b) as [k|] eqn:W.
    - exists t. repeat split; auto. discriminate.
    - exists t. auto.
    - destruct (embeds s) eqn:E.
      + apply embeds_is in E. destruct (icon_data_is files s k (icon b) F E) as (x & EX & O). rewrite EX. eexists. split; [reflexivity|]. cbn [get]. split.
        * intros p P NE. destruct (N.eqb_spec (uid (at_place b)) (uid p)) as [U|U]; [|reflexivity]. apply uid_inj in U; [now destruct NE|exact FB|exact P].
        * rewrite N.eqb_refl. split; [intros _ _; now exists x|]. intros [?|?]; [discriminate|contradiction].
      + assert (NW : ~ wants_data s) by (intros H; apply embeds_is in H; congruence). exists t. repeat split; auto. intros _ H. contradiction.
    - exists t. auto. }
  destruct S as (t1 & S1 & K1 & R1). rewrite S1. destruct (IH t1 FL NL) as (t' & P & K & R).
  { intros p I. rewrite K1; [apply N; now right| |intros ->; contradiction]. apply in_map_iff in I as (y & <- & I). rewrite Forall_forall in FL. now apply FL. }
  exists t'. split; [exact P|]. split.
  - intros p FP NI. assert (NE : p <> at_place b) by (intros ->; apply NI; now left). assert (NR : ~ In p (map (fun p => at_place (snd p)) l)) by (intros H; apply NI; now right).
    rewrite (K p FP NR). now apply K1.
  - intros s' b' [E|I]; [|now apply R]. injection E as <- <-. unfold right_icon, found in *. rewrite (K _ FB NB). exact R1.
Qed.
