From Verif Require Import Base Base64Model Base64Spec.
From Coq Require Import ZifyBool ZifyNat ZifyN.
Ltac Zify.zify_post_hook ::= Z.div_mod_to_equations.
Open Scope N_scope.

Definition nseq (n : nat) : list N := map N.of_nat (seq 0 n).
Lemma nseq_In n x : x < N.of_nat n -> In x (nseq n).
Proof.
  intro H. unfold nseq. apply in_map_iff. exists (N.to_nat x). split; [lia|]. apply in_seq. lia.
Qed.
Lemma sweep1 (n : nat) (f : N -> bool) : forallb f (nseq n) = true -> forall x, x < N.of_nat n -> f x = true.
Proof. intros H x Hx. rewrite forallb_forall in H. apply H. apply nseq_In. exact Hx. Qed.
Lemma digit_rfc v : v < 64 -> digit v = Some (rfc_char v).
Proof.
  intro H.
  assert (E : (match digit v with Some c => Ascii.eqb c (rfc_char v) | None => false end) = true).
  { apply (sweep1 64 (fun v => match digit v with Some c => Ascii.eqb c (rfc_char v) | None => false end)); [|exact H].
    vm_compute. reflexivity. }
  destruct (digit v) as [c|]; [|discriminate]. apply Ascii.eqb_eq in E. congruence.
Qed.
Lemma rfc_value_char v : v < 64 -> rfc_value (rfc_char v) = Some v.
Proof.
  intro H.
  assert (E : (match rfc_value (rfc_char v) with Some w => w =? v | None => false end) = true).
  { apply (sweep1 64 (fun v => match rfc_value (rfc_char v) with Some w => w =? v | None => false end)); [|exact H].
    vm_compute. reflexivity. }
  destruct (rfc_value (rfc_char v)); [|discriminate]. apply N.eqb_eq in E. congruence.
Qed.
Lemma rfc_char_not_pad v : v < 64 -> Ascii.eqb (rfc_char v) pad = false.
Proof.
  intro H. apply negb_true_iff.
  apply (sweep1 64 (fun v => negb (Ascii.eqb (rfc_char v) pad))); [|exact H]. vm_compute. reflexivity.
Qed.

Lemma first6 x : x < 256 -> shr8 x 2 = x / 4.
Proof. intros _. unfold shr8. rewrite N.shiftr_div_pow2. reflexivity. Qed.
Lemma lor_sum (n m k : nat) (r q : N) :
  forallb (fun r => forallb (fun q => N.lor (r * N.of_nat k) q =? r * N.of_nat k + q) (nseq m)) (nseq n) = true ->
  r < N.of_nat n -> q < N.of_nat m -> N.lor (r * N.of_nat k) q = r * N.of_nat k + q.
Proof.
  intros H Hr Hq. apply N.eqb_eq.
  pose proof (sweep1 n _ H r Hr) as H1. cbv beta in H1. exact (sweep1 m _ H1 q Hq).
Qed.
Lemma fourth6 x : N.land x 63 = x mod 64.
Proof. change 63 with (N.ones 6). rewrite N.land_ones. reflexivity. Qed.
Lemma second1 x : x < 256 -> N.land (shl8 x 4) 63 = x mod 4 * 16.
Proof.
  intros Hx. apply N.eqb_eq.
  apply (sweep1 256 (fun x => N.land (shl8 x 4) 63 =? x mod 4 * 16)); [vm_compute; reflexivity|exact Hx].
Qed.
Lemma third2 x : x < 256 -> N.land (shl8 x 2) 63 = x mod 16 * 4.
Proof.
  intros Hx. apply N.eqb_eq.
  apply (sweep1 256 (fun x => N.land (shl8 x 2) 63 =? x mod 16 * 4)); [vm_compute; reflexivity|exact Hx].
Qed.
Lemma second6 x y : x < 256 -> y < 256 ->
  N.land (N.lor (shl8 x 4) (shr8 y 4)) 63 = x mod 4 * 16 + y / 16.
Proof.
  intros Hx Hy. rewrite N.land_lor_distr_l, second1 by exact Hx.
  rewrite fourth6. unfold shr8. rewrite N.shiftr_div_pow2. change (2 ^ 4) with 16.
  replace (y / 16 mod 64) with (y / 16) by lia.
  apply (lor_sum 4 16 16); [vm_compute; reflexivity|lia|lia].
Qed.
Lemma third6 x y : x < 256 -> y < 256 ->
  N.land (N.lor (shl8 x 2) (shr8 y 6)) 63 = x mod 16 * 4 + y / 64.
Proof.
  intros Hx Hy. rewrite N.land_lor_distr_l, third2 by exact Hx.
  rewrite fourth6. unfold shr8. rewrite N.shiftr_div_pow2. change (2 ^ 6) with 64.
  replace (y / 64 mod 64) with (y / 64) by lia.
  apply (lor_sum 16 4 4); [vm_compute; reflexivity|lia|lia].
Qed.

Definition is_byte (x : N) : Prop := x < 256.

(** induction in steps of three *)
Lemma chunk_ind (P : list N -> Prop) :
  P [] -> (forall x, P [x]) -> (forall x y, P [x; y]) ->
  (forall x y z r, P r -> P (x :: y :: z :: r)) -> forall l, P l.
Proof.
  intros H0 H1 H2 H3 l.
  assert (G : P l /\ (forall x, P (x :: l)) /\ (forall x y, P (x :: y :: l))).
  { induction l as [|a l [IH1 [IH2 IH3]]]; repeat split; auto. }
  apply G.
Qed.

Lemma emit_app l1 l2 t1 t2 : emit l1 = Ret t1 -> emit l2 = Ret t2 -> emit (l1 ++ l2) = Ret (t1 ++ t2).
Proof.
  revert t1; induction l1 as [|d l1 IH]; intros t1 H1 H2; simpl in *.
  - injection H1 as <-. exact H2.
  - destruct (emit1 d) as [c|]; [|discriminate].
    destruct (emit l1) as [cs|]; [|discriminate]. injection H1 as <-.
    rewrite (IH cs eq_refl H2). reflexivity.
Qed.

Lemma encode_rfc l : Forall is_byte l -> encode l = Ret (rfc_encode l).
Proof.
  unfold encode. induction l as [|x|x y|x y z r IH] using chunk_ind; intro F.
  - reflexivity.
  - inversion F as [|? ? Hx _]; subst. unfold is_byte in Hx.
    cbn [groups group1 emit emit1]. rewrite first6, second1 by assumption.
    rewrite !digit_rfc by lia. cbn [rfc_encode].
    replace (x * 65536 / 262144) with (x / 4) by lia.
    replace (x * 65536 / 4096 mod 64) with (x mod 4 * 16) by lia. reflexivity.
  - inversion F as [|? ? Hx F']; subst. inversion F' as [|? ? Hy _]; subst. unfold is_byte in *.
    cbn [groups group2 emit emit1]. rewrite first6, second6, third2 by assumption.
    rewrite !digit_rfc by lia. cbn [rfc_encode].
    replace ((x * 65536 + y * 256) / 262144) with (x / 4) by lia.
    replace ((x * 65536 + y * 256) / 4096 mod 64) with (x mod 4 * 16 + y / 16) by lia.
    replace ((x * 65536 + y * 256) / 64 mod 64) with (y mod 16 * 4) by lia. reflexivity.
  - inversion F as [|? ? Hx F']; subst. inversion F' as [|? ? Hy F'']; subst.
    inversion F'' as [|? ? Hz F3]; subst. unfold is_byte in *.
    change (groups (x :: y :: z :: r)) with (group3 x y z ++ groups r).
    rewrite (emit_app _ _ [rfc_char (x / 4); rfc_char (x mod 4 * 16 + y / 16); rfc_char (y mod 16 * 4 + z / 64); rfc_char (z mod 64)] (rfc_encode r)).
    + cbn [rfc_encode app].
      replace ((x * 65536 + y * 256 + z) / 262144) with (x / 4) by lia.
      replace ((x * 65536 + y * 256 + z) / 4096 mod 64) with (x mod 4 * 16 + y / 16) by lia.
      replace ((x * 65536 + y * 256 + z) / 64 mod 64) with (y mod 16 * 4 + z / 64) by lia.
      replace ((x * 65536 + y * 256 + z) mod 64) with (z mod 64) by lia. reflexivity.
    + cbn [group3 emit emit1]. rewrite first6, second6, third6, fourth6 by assumption.
      rewrite !digit_rfc by lia. reflexivity.
    + apply IH. exact F3.
Qed.

Lemma decode_rfc l : Forall is_byte l -> rfc_decode (rfc_encode l) = Some l.
Proof.
  induction l as [|x|x y|x y z r IH] using chunk_ind; intro F.
  - reflexivity.
  - inversion F as [|? ? Hx _]; subst. unfold is_byte in Hx. cbn [rfc_encode rfc_decode].
    rewrite !rfc_value_char by lia. change (rfc_value pad) with (@None N).
    change (Ascii.eqb pad pad) with true. cbn [andb]. do 2 f_equal. lia.
  - inversion F as [|? ? Hx F']; subst. inversion F' as [|? ? Hy _]; subst. unfold is_byte in *.
    cbn [rfc_encode rfc_decode]. rewrite !rfc_value_char by lia. change (rfc_value pad) with (@None N).
    change (Ascii.eqb pad pad) with true. cbn [andb].
    replace ((x * 65536 + y * 256) / 262144) with (x / 4) by lia.
    replace ((x * 65536 + y * 256) / 4096 mod 64) with (x mod 4 * 16 + y / 16) by lia.
    replace ((x * 65536 + y * 256) / 64 mod 64) with (y mod 16 * 4) by lia.
    replace (x / 4 * 4 + (x mod 4 * 16 + y / 16) / 16) with x by lia.
    replace ((x mod 4 * 16 + y / 16) mod 16 * 16 + y mod 16 * 4 / 4) with y by lia. reflexivity.
  - inversion F as [|? ? Hx F']; subst. inversion F' as [|? ? Hy F'']; subst.
    inversion F'' as [|? ? Hz F3]; subst. unfold is_byte in *.
    cbn [rfc_encode rfc_decode].
    replace ((x * 65536 + y * 256 + z) / 262144) with (x / 4) by lia.
    replace ((x * 65536 + y * 256 + z) / 4096 mod 64) with (x mod 4 * 16 + y / 16) by lia.
    replace ((x * 65536 + y * 256 + z) / 64 mod 64) with (y mod 16 * 4 + z / 64) by lia.
    replace ((x * 65536 + y * 256 + z) mod 64) with (z mod 64) by lia.
    rewrite !rfc_value_char by lia. rewrite (IH F3).
    replace (x / 4 * 4 + (x mod 4 * 16 + y / 16) / 16) with x by lia.
    replace ((x mod 4 * 16 + y / 16) mod 16 * 16 + (y mod 16 * 4 + z / 64) / 4) with y by lia.
    replace ((y mod 16 * 4 + z / 64) mod 4 * 64 + z mod 64) with z by lia. reflexivity.
Qed.

Lemma rfc_length l : N.of_nat (length (rfc_encode l)) = 4 * ((N.of_nat (length l) + 2) / 3).
Proof.
  induction l as [|x|x y|x y z r IH] using chunk_ind; try reflexivity.
  cbn [rfc_encode length]. lia.
Qed.

Lemma rfc_alphabet l c : Forall is_byte l -> In c (rfc_encode l) -> In c alphabet \/ c = pad.
Proof.
  assert (A : forall v, v < 64 -> In (rfc_char v) alphabet).
  { intros v Hv. apply digit_rfc in Hv. unfold digit in Hv. eapply nth_error_In; eauto. }
  induction l as [|x|x y|x y z r IH] using chunk_ind; intros F H.
  - contradiction.
  - inversion F as [|? ? Hx _]; subst. unfold is_byte in Hx. cbn [rfc_encode In] in H.
    repeat (destruct H as [H|H]; [subst c; first [right; reflexivity|left; apply A; lia]|]). contradiction.
  - inversion F as [|? ? Hx F']; subst. inversion F' as [|? ? Hy _]; subst. unfold is_byte in *. cbn [rfc_encode In] in H.
    repeat (destruct H as [H|H]; [subst c; first [right; reflexivity|left; apply A; lia]|]). contradiction.
  - inversion F as [|? ? Hx F']; subst. inversion F' as [|? ? Hy F'']; subst.
    inversion F'' as [|? ? Hz F3]; subst. unfold is_byte in *. cbn [rfc_encode In] in H.
    do 4 (destruct H as [H|H]; [subst c; left; apply A; lia|]). apply IH; assumption.
Qed.
