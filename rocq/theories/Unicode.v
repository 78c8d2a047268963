(** Unicode scalar values and their UTF-8 and UTF-16 encodings (Unicode standard, tables 3-5 and 3-6). *)
From Coq Require Import ZArith Lia Zify ZifyN.
From Verif Require Import Base Utf8.

Definition scalar (n : N) : Prop := (n < 55296 \/ 57344 <= n < 1114112)%N.
Definition byte (n : N) : ascii := ascii_of_N n.
Definition utf8_enc (n : N) : bytes :=
  (if n <? 128 then [byte n]
   else if n <? 2048 then [byte (192 + n / 64); byte (128 + n mod 64)]
   else if n <? 65536 then [byte (224 + n / 4096); byte (128 + n / 64 mod 64); byte (128 + n mod 64)]
   else [byte (240 + n / 262144); byte (128 + n / 4096 mod 64); byte (128 + n / 64 mod 64); byte (128 + n mod 64)])%N.
Definition utf8_text (ns : list N) : bytes := flat_map utf8_enc ns.
(** 16 bit units of a scalar value *)
Definition units (n : N) : list N :=
  (if n <? 65536 then [n] else [55296 + (n - 65536) / 1024; 56320 + (n - 65536) mod 1024])%N.
Definition le_bytes (u : N) : bytes := [byte (u mod 256); byte (u / 256)].
Definition be_bytes (u : N) : bytes := [byte (u / 256); byte (u mod 256)].
Definition utf16_le (ns : list N) : bytes := flat_map le_bytes (flat_map units ns).
Definition utf16_be (ns : list N) : bytes := flat_map be_bytes (flat_map units ns).

(** [char::decode_utf16], all of it or nothing *)
Fixpoint decode16 (us : list N) : option (list N) :=
  match us with
  | [] => Some []
  | u :: r =>
      (if (u <? 55296) || (57344 <=? u) then option_map (cons u) (decode16 r)
       else if 56320 <=? u then None
       else match r with
            | [] => None
            | v :: r' => if (56320 <=? v) && (v <? 57344) then option_map (cons (65536 + (u - 55296) * 1024 + (v - 56320))) (decode16 r') else None
            end)%N
  end.

Local Ltac Zify.zify_post_hook ::= Z.div_mod_to_equations.
Lemma val_byte n : (n < 256)%N -> val (byte n) = n.
Proof. apply N_ascii_embedding. Qed.
Lemma val_lt c : (val c < 256)%N.
Proof. apply N_ascii_bounded. Qed.
Lemma byte_val c : byte (val c) = c.
Proof. apply ascii_N_embedding. Qed.
Lemma between_byte lo hi n : (n < 256)%N -> (lo <= n <= hi)%N -> between lo hi (byte n) = true.
Proof. intros H L. apply between_spec. rewrite val_byte by exact H. exact L. Qed.
Lemma utf8_enc_char n : scalar n -> utf8_char (utf8_enc n).
Proof.
  unfold scalar, utf8_enc. intro S.
  destruct (n <? 128)%N eqn:E1; [apply N.ltb_lt in E1; apply U1, between_byte; lia|apply N.ltb_ge in E1].
  destruct (n <? 2048)%N eqn:E2; [apply N.ltb_lt in E2; apply U2; apply between_byte; lia|apply N.ltb_ge in E2].
  destruct (n <? 65536)%N eqn:E3; [apply N.ltb_lt in E3|apply N.ltb_ge in E3].
  - destruct (N.eq_dec (224 + n / 4096) 224) as [A|A].
    { apply U3a; [rewrite val_byte; [exact A|lia]|apply between_byte; lia..]. }
    destruct (N.eq_dec (224 + n / 4096) 237) as [B|B].
    { apply U3c; [rewrite val_byte; [exact B|lia]|apply between_byte; lia..]. }
    apply U3b; [|apply between_byte; lia..]. apply orb_true_iff.
    destruct (N.le_gt_cases (224 + n / 4096) 236); [left|right]; apply between_byte; lia.
  - destruct (N.eq_dec (240 + n / 262144) 240) as [A|A].
    { apply U4a; [rewrite val_byte; [exact A|lia]|apply between_byte; lia..]. }
    destruct (N.eq_dec (240 + n / 262144) 244) as [B|B].
    { apply U4c; [rewrite val_byte; [exact B|lia]|apply between_byte; lia..]. }
    apply U4b; apply between_byte; lia.
Qed.
Lemma utf8_text_utf8 ns : Forall scalar ns -> utf8 (utf8_text ns).
Proof. intro F. exists (map utf8_enc ns). split; [|apply flat_map_concat_map]. apply Forall_map. eapply Forall_impl; [|exact F]. exact utf8_enc_char. Qed.
(** every encoded character is the encoding of a scalar value *)
Lemma utf8_char_enc c : utf8_char c -> exists n, scalar n /\ c = utf8_enc n.
Proof.
  assert (B : forall x n, val x = n -> x = byte n) by (intros x n <-; symmetry; apply byte_val).
  intro H. inversion H; subst; repeat match goal with
  | E : between _ _ _ = true |- _ => apply between_spec in E
  | E : (between _ _ _ || between _ _ _)%bool = true |- _ => apply orb_true_iff in E; rewrite !between_spec in E end.
  - exists (val a). unfold scalar, utf8_enc. split; [lia|]. destruct (val a <? 128)%N eqn:E; [|apply N.ltb_ge in E; lia]. rewrite byte_val. reflexivity.
  - exists ((val a - 192) * 64 + (val c0 - 128))%N. unfold scalar, utf8_enc. split; [lia|].
    match goal with |- context [(?x <? 128)%N] => set (n := x) in * end. assert (128 <= n < 2048)%N by lia.
    destruct (n <? 128)%N eqn:E; [apply N.ltb_lt in E; lia|]. destruct (n <? 2048)%N eqn:E2; [|apply N.ltb_ge in E2; lia]. f_equal; [apply B; lia|f_equal; apply B; lia].
  - exists ((val a - 224) * 4096 + (val c0 - 128) * 64 + (val d - 128))%N. unfold scalar, utf8_enc.
    match goal with |- context [(?x <? 128)%N] => set (n := x) in * end. assert (2048 <= n < 55296)%N by lia. split; [lia|].
    destruct (n <? 128)%N eqn:E; [apply N.ltb_lt in E; lia|]. destruct (n <? 2048)%N eqn:E2; [apply N.ltb_lt in E2; lia|]. destruct (n <? 65536)%N eqn:E3; [|apply N.ltb_ge in E3; lia].
    f_equal; [apply B; lia|f_equal; [apply B; lia|f_equal; apply B; lia]].
  - exists ((val a - 224) * 4096 + (val c0 - 128) * 64 + (val d - 128))%N. unfold scalar, utf8_enc.
    match goal with |- context [(?x <? 128)%N] => set (n := x) in * end. assert (2048 <= n < 55296 \/ 57344 <= n < 65536)%N by lia. split; [lia|].
    destruct (n <? 128)%N eqn:E; [apply N.ltb_lt in E; lia|]. destruct (n <? 2048)%N eqn:E2; [apply N.ltb_lt in E2; lia|]. destruct (n <? 65536)%N eqn:E3; [|apply N.ltb_ge in E3; lia].
    f_equal; [apply B; lia|f_equal; [apply B; lia|f_equal; apply B; lia]].
  - exists ((val a - 224) * 4096 + (val c0 - 128) * 64 + (val d - 128))%N. unfold scalar, utf8_enc.
    match goal with |- context [(?x <? 128)%N] => set (n := x) in * end. assert (2048 <= n < 55296)%N by lia. split; [lia|].
    destruct (n <? 128)%N eqn:E; [apply N.ltb_lt in E; lia|]. destruct (n <? 2048)%N eqn:E2; [apply N.ltb_lt in E2; lia|]. destruct (n <? 65536)%N eqn:E3; [|apply N.ltb_ge in E3; lia].
    f_equal; [apply B; lia|f_equal; [apply B; lia|f_equal; apply B; lia]].
  - exists ((val a - 240) * 262144 + (val c0 - 128) * 4096 + (val d - 128) * 64 + (val e - 128))%N. unfold scalar, utf8_enc.
    match goal with |- context [(?x <? 128)%N] => set (n := x) in * end. assert (65536 <= n < 1114112)%N by lia. split; [lia|].
    destruct (n <? 128)%N eqn:E; [apply N.ltb_lt in E; lia|]. destruct (n <? 2048)%N eqn:E2; [apply N.ltb_lt in E2; lia|]. destruct (n <? 65536)%N eqn:E3; [apply N.ltb_lt in E3; lia|].
    f_equal; [apply B; lia|f_equal; [apply B; lia|f_equal; [apply B; lia|f_equal; apply B; lia]]].
  - exists ((val a - 240) * 262144 + (val c0 - 128) * 4096 + (val d - 128) * 64 + (val e - 128))%N. unfold scalar, utf8_enc.
    match goal with |- context [(?x <? 128)%N] => set (n := x) in * end. assert (65536 <= n < 1114112)%N by lia. split; [lia|].
    destruct (n <? 128)%N eqn:E; [apply N.ltb_lt in E; lia|]. destruct (n <? 2048)%N eqn:E2; [apply N.ltb_lt in E2; lia|]. destruct (n <? 65536)%N eqn:E3; [apply N.ltb_lt in E3; lia|].
    f_equal; [apply B; lia|f_equal; [apply B; lia|f_equal; [apply B; lia|f_equal; apply B; lia]]].
  - exists ((val a - 240) * 262144 + (val c0 - 128) * 4096 + (val d - 128) * 64 + (val e - 128))%N. unfold scalar, utf8_enc.
    match goal with |- context [(?x <? 128)%N] => set (n := x) in * end. assert (65536 <= n < 1114112)%N by lia. split; [lia|].
    destruct (n <? 128)%N eqn:E; [apply N.ltb_lt in E; lia|]. destruct (n <? 2048)%N eqn:E2; [apply N.ltb_lt in E2; lia|]. destruct (n <? 65536)%N eqn:E3; [apply N.ltb_lt in E3; lia|].
    f_equal; [apply B; lia|f_equal; [apply B; lia|f_equal; [apply B; lia|f_equal; apply B; lia]]].
Qed.
Lemma utf8_is_text s : utf8 s <-> exists ns, Forall scalar ns /\ s = utf8_text ns.
Proof.
  split; [|intros (ns & F & ->); exact (utf8_text_utf8 ns F)]. intros (cs & F & ->). induction F as [|c cs H F (ns & FN & E)]; [exists []; split; [constructor|reflexivity]|].
  destruct (utf8_char_enc c H) as (n & S & ->). exists (n :: ns). split; [constructor; auto|]. cbn [concat utf8_text flat_map]. rewrite E. reflexivity.
Qed.
Lemma units_bound n : scalar n -> Forall (fun u => u < 65536)%N (units n).
Proof. unfold scalar, units. intro S. destruct (n <? 65536)%N eqn:E; [apply N.ltb_lt in E; repeat constructor; lia|apply N.ltb_ge in E; repeat constructor; lia]. Qed.
Lemma decode_units ns : Forall scalar ns -> decode16 (flat_map units ns) = Some ns.
Proof.
  induction 1 as [|n ns S F IH]; [reflexivity|]. cbn [flat_map]. unfold units at 1. unfold scalar in S. destruct (n <? 65536)%N eqn:E.
  - apply N.ltb_lt in E. cbn [app decode16]. rewrite IH. destruct ((n <? 55296) || (57344 <=? n))%N eqn:Q; [reflexivity|]. apply orb_false_elim in Q as [Q1 Q2]. apply N.ltb_ge in Q1. apply N.leb_gt in Q2. lia.
  - apply N.ltb_ge in E. cbn [app decode16]. rewrite IH. set (u := (55296 + (n - 65536) / 1024)%N). set (v := (56320 + (n - 65536) mod 1024)%N).
    assert (HU : (55296 <= u < 56320)%N) by (unfold u; lia). assert (HV : (56320 <= v < 57344)%N) by (unfold v; lia).
    assert (HN : (65536 + (u - 55296) * 1024 + (v - 56320) = n)%N) by (unfold u, v; lia). clearbody u v.
    replace (u <? 55296)%N with false by (symmetry; apply N.ltb_ge; lia). replace (57344 <=? u)%N with false by (symmetry; apply N.leb_gt; lia).
    replace (56320 <=? u)%N with false by (symmetry; apply N.leb_gt; lia). replace (56320 <=? v)%N with true by (symmetry; apply N.leb_le; lia).
    replace (v <? 57344)%N with true by (symmetry; apply N.ltb_lt; lia). cbn [orb andb option_map]. rewrite HN. reflexivity.
Qed.
Lemma decode16_sound : forall k us ns, length us <= k -> Forall (fun u => u < 65536)%N us -> decode16 us = Some ns -> Forall scalar ns /\ us = flat_map units ns.
Proof.
  induction k as [|k IH]; intros us ns L B E.
  - destruct us; [|cbn in L; lia]. injection E as <-. auto.
  - destruct us as [|u r]; [injection E as <-; auto|]. cbn [decode16] in E. inversion B as [|? ? BU BR]. subst. cbn [length] in L.
    destruct ((u <? 55296) || (57344 <=? u))%N eqn:Q.
    + destruct (decode16 r) as [ns'|] eqn:R; [|discriminate]. injection E as <-. destruct (IH r ns' ltac:(lia) BR R) as [F ->].
      apply orb_prop in Q. rewrite N.ltb_lt, N.leb_le in Q. split; [constructor; [unfold scalar; lia|exact F]|]. cbn [flat_map]. unfold units at 2.
      replace (u <? 65536)%N with true by (symmetry; apply N.ltb_lt; lia). reflexivity.
    + apply orb_false_elim in Q as [Q1 Q2]. apply N.ltb_ge in Q1. apply N.leb_gt in Q2. destruct (56320 <=? u)%N eqn:Q3; [discriminate|]. apply N.leb_gt in Q3.
      destruct r as [|v r]; [discriminate|]. destruct ((56320 <=? v) && (v <? 57344))%N eqn:Q4; [|discriminate]. apply andb_prop in Q4 as [V1 V2]. apply N.leb_le in V1. apply N.ltb_lt in V2.
      remember (65536 + (u - 55296) * 1024 + (v - 56320))%N as n eqn:HN.
      destruct (decode16 r) as [ns'|] eqn:R; [|discriminate]. cbn [option_map] in E. injection E as <-. pose proof (Forall_inv BR) as BV. pose proof (Forall_inv_tail BR) as BR'. cbn beta in BV. cbn [length] in L.
      destruct (IH r ns' ltac:(clear - L; lia) BR' R) as [F ->]. split; [constructor; [unfold scalar; lia|exact F]|].
      cbn [flat_map]. unfold units at 2. replace (n <? 65536)%N with false by (symmetry; apply N.ltb_ge; lia). cbn [app]. f_equal; [lia|]. f_equal. lia.
Qed.
