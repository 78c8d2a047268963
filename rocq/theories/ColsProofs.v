From Verif Require Import Base Text ColsModel ColsSpec.
From Coq Require Import QArith Lia Lqa.
Open Scope nat_scope.

(** ** Widths *)
Lemma sum_widths_ok cws : forall acc, match acc with Some s => s | None => 0 end + total cws <= 255 ->
  sum_widths acc cws = Ret (match acc, forallb is_auto cws with None, true => None | _, _ => Some (match acc with Some s => s | None => 0 end + total cws) end).
Proof.
  induction cws as [|cw cws IH]; intros acc H; cbn [sum_widths].
  - cbn. destruct acc; [f_equal; f_equal; lia|reflexivity].
  - unfold total in *. cbn [map list_sum fold_right] in H. change (fold_right Nat.add 0) with list_sum in H.
    assert (G : forall n, written_width cw = n -> is_auto cw = false ->
      (if (match acc with Some s => s + n | None => n end) <=? 255 then sum_widths (Some (match acc with Some s => s + n | None => n end)) cws else Panic) =
      Ret (match acc, forallb is_auto (cw :: cws) with None, true => None | _, _ => Some (match acc with Some s => s | None => 0 end + list_sum (map written_width (cw :: cws))) end)).
    { intros n E A. rewrite E in H.
      assert (L : (match acc with Some s => s + n | None => n end) <= 255) by (destruct acc; lia).
      rewrite (proj2 (Nat.leb_le _ _) L). rewrite IH by (destruct acc; lia).
      cbn [forallb]. rewrite A. cbn [andb map list_sum fold_right]. change (fold_right Nat.add 0) with list_sum. rewrite E. destruct acc; f_equal; f_equal; lia. }
    destruct cw as [n|n|]; [apply G; reflexivity|apply G; reflexivity|].
    rewrite IH by exact H. cbn [forallb is_auto andb map list_sum fold_right written_width]. reflexivity.
Qed.
Lemma sum_widths_panic cws : 255 < total cws -> sum_widths None cws = Panic.
Proof.
  assert (K : forall cws acc, match acc with Some s => s | None => 0 end <= 255 -> 255 < match acc with Some s => s | None => 0 end + total cws -> sum_widths acc cws = Panic).
  { clear cws. induction cws as [|cw cws IH]; intros acc L H; [unfold total in H; cbn in H; lia|].
    unfold total in *. cbn [map list_sum fold_right] in H. change (fold_right Nat.add 0) with list_sum in H.
    destruct cw as [n|n|]; cbn [sum_widths written_width] in *; [| |apply IH; lia];
    (destruct (Nat.leb_spec (match acc with Some s => s + n | None => n end) 255) as [Q|Q]; [apply IH; destruct acc; lia|reflexivity]). }
  intro H. apply K; [lia|exact H].
Qed.
Lemma Qof_add a c : (Qof (a + c) == Qof a + Qof c)%Q.
Proof. unfold Qof. rewrite Nat2Z.inj_add, inject_Z_plus. reflexivity. Qed.
Lemma Qof_S a : (Qof (S a) == 1 + Qof a)%Q.
Proof. change (S a) with (1 + a). rewrite Qof_add. reflexivity. Qed.
Lemma Qof_le a c : a <= c -> (Qof a <= Qof c)%Q.
Proof. intro H. unfold Qof. rewrite <- Zle_Qle. lia. Qed.
Lemma Qof_pos a : 0 < a -> (0 < Qof a)%Q.
Proof. intro H. unfold Qof. change 0%Q with (inject_Z 0). rewrite <- Zlt_Qlt. lia. Qed.
Lemma Qof_sub a c : c <= a -> (Qof (a - c) == Qof a - Qof c)%Q.
Proof. intro H. unfold Qof. rewrite Nat2Z.inj_sub by exact H. unfold Qminus, Z.sub. rewrite inject_Z_plus, inject_Z_opp. reflexivity. Qed.
Lemma fdiv_ok x n : 0 < n -> fdiv x n = Some (x / Qof n)%Q.
Proof. destruct n; [lia|reflexivity]. Qed.

(** the value of a column, given the divisor and the value of automatic ones *)
Definition col_value (d : nat) (a : Q) (cw : col_width) : Q :=
  match cw with Proportional n | Percentage n => (Qof n * 100 / Qof d)%Q | Auto => a end.
Lemma Qsum_values d a cws : 0 < d -> (Qsum (map (col_value d a) cws) == Qof (total cws) * 100 / Qof d + Qof (length (filter is_auto cws)) * a)%Q.
Proof.
  intro Hd. pose proof (Qof_pos d Hd) as Hp.
  assert (NZ : ~ (Qof d == 0)%Q) by lra.
  induction cws as [|cw cws IH].
  - change (Qsum (map (col_value d a) [])) with 0%Q. change (Qof (total [])) with 0%Q. change (Qof (length (filter is_auto []))) with 0%Q. unfold Qdiv. ring.
  - unfold total in *. cbn [map Qsum fold_right list_sum filter]. change (fold_right Nat.add 0) with list_sum. fold (Qsum (map (col_value d a) cws)).
    rewrite IH. destruct cw as [n|n|]; cbn [col_value written_width is_auto length].
    1,2: rewrite Qof_add; field; exact NZ.
    cbn [Nat.add]. rewrite Qof_S. field. exact NZ.
Qed.
Lemma total_ge cw cws : In cw cws -> written_width cw <= total cws.
Proof. unfold total. induction cws as [|c cws IH]; [easy|]. intros [->|H]; cbn [map list_sum fold_right]; change (fold_right Nat.add 0) with list_sum; [lia|]. apply IH in H. lia. Qed.
Lemma values_of d a cws ds : 0 < d -> ds = map (fun cw => match cw with Proportional n | Percentage n => DPercentage (fdiv (Qof n * 100)%Q d) | Auto => DAuto (Some a) end) cws ->
  map value_of ds = map Some (map (col_value d a) cws) /\ map (fun d => match d with DAuto _ => true | _ => false end) ds = map is_auto cws.
Proof.
  intros Hd ->. rewrite !map_map. split; apply map_ext; intros [n|n|]; cbn [value_of col_value is_auto]; rewrite ?fdiv_ok by exact Hd; reflexivity.
Qed.
Lemma values_range d a cws : 0 < d -> (0 <= a <= 100)%Q -> total cws <= d -> Forall (fun q => 0 <= q <= 100)%Q (map (col_value d a) cws).
Proof.
  intros Hd Ha Ht. apply Forall_forall. intros q H. apply in_map_iff in H. destruct H as (cw & <- & H).
  assert (G : forall n, n <= d -> (0 <= Qof n * 100 / Qof d <= 100)%Q).
  { intros n Hn. pose proof (Qof_pos d Hd) as Hp. apply Qof_le in Hn. assert (H0 := Qof_le 0 n ltac:(lia)). change (Qof 0) with 0%Q in H0.
    split; [apply Qle_shift_div_l; [exact Hp|]; lra|apply Qle_shift_div_r; [exact Hp|]; lra]. }
  pose proof (total_ge cw cws H). destruct cw; cbn [col_value written_width] in *; [apply G; lia|apply G; lia|exact Ha].
Qed.
Lemma no_autos cws : length (filter is_auto cws) = 0 <-> Forall (fun cw => is_auto cw = false) cws.
Proof.
  induction cws as [|cw cws IH]; cbn; [split; constructor|]. destruct (is_auto cw) eqn:E; cbn.
  - split; [lia|]. intro H. inversion H; congruence.
  - rewrite IH. split; [constructor; assumption|intro H; now inversion H].
Qed.
Lemma all_autos cws : forallb is_auto cws = true -> total cws = 0 /\ length (filter is_auto cws) = length cws.
Proof.
  induction cws as [|cw cws IH]; [easy|]. cbn [forallb]. rewrite Bool.andb_true_iff. intros [A H]. apply IH in H. destruct cw; try discriminate.
  destruct H as [H1 H2]. split; [exact H1|]. cbn. now rewrite H2.
Qed.

(** which divisor and which automatic width *)
Inductive division (cws : list col_width) : nat -> Q -> Prop :=
| D_none_auto : length (filter is_auto cws) = 0 -> 0 < total cws -> division cws (total cws) 0
| D_room : 0 < length (filter is_auto cws) -> total cws <= 100 -> division cws 100 (Qof (100 - total cws) / Qof (length (filter is_auto cws)))%Q
| D_overfull : 0 < length (filter is_auto cws) -> 100 < total cws -> division cws (total cws) 0.
Lemma distribute_division cws : cws <> [] -> total cws <= 255 -> 0 < total cws \/ 0 < length (filter is_auto cws) ->
  exists d a, division cws d a /\ 0 < d /\
  distribute cws = Ret (map (fun cw => match cw with Proportional n | Percentage n => DPercentage (fdiv (Qof n * 100)%Q d) | Auto => DAuto (Some a) end) cws).
Proof.
  intros NE HT HP. unfold distribute. rewrite (sum_widths_ok cws None HT). cbn [Nat.add].
  set (na := length (filter is_auto cws)) in *. set (t := total cws) in *.
  destruct (forallb is_auto cws) eqn:EA.
  - destruct (all_autos _ EA) as [E0 EL]. fold na in EL. fold t in E0.
    assert (0 < na) by (destruct cws; [easy|cbn in EL; lia]).
    exists 100, (Qof (100 - t) / Qof na)%Q. split; [apply D_room; fold na; fold t; lia|]. split; [lia|].
    f_equal. rewrite fdiv_ok by exact H. rewrite E0. apply map_ext_in. intros cw I. rewrite forallb_forall in EA. apply EA in I. destruct cw; try discriminate. reflexivity.
  - destruct (Nat.ltb_spec 0 na) as [A|A]; cbn [andb].
    + destruct (Nat.eqb_spec na 0) as [Z|_]; [lia|]. rewrite Bool.orb_false_r. destruct (Nat.ltb_spec 100 t) as [B|B].
      * exists t, 0%Q. split; [apply D_overfull; assumption|]. split; [lia|reflexivity].
      * exists 100, (Qof (100 - t) / Qof na)%Q. split; [apply D_room; assumption|]. split; [lia|]. rewrite fdiv_ok by exact A. reflexivity.
    + destruct (Nat.eqb_spec na 0) as [Z|Z]; [|lia]. rewrite Bool.orb_true_r. exists t, 0%Q. split; [apply D_none_auto; fold na; fold t; lia|]. split; [lia|reflexivity].
Qed.
Lemma division_facts cws d a : division cws d a -> total cws <= d /\ (0 <= a <= 100)%Q /\ (Qsum (map (col_value d a) cws) == 100)%Q.
Proof.
  intros [Z P|P R|P O].
  - split; [lia|]. split; [lra|]. rewrite Qsum_values by exact P. rewrite Z. pose proof (Qof_pos _ P). change (Qof 0) with 0%Q. field. lra.
  - split; [exact R|]. pose proof (Qof_pos _ P) as Hp. assert (L := Qof_le 1 _ P). change (Qof 1) with 1%Q in L.
    assert (HS := Qof_sub 100 _ R). assert (H0 := Qof_le 0 (total cws) ltac:(lia)). change (Qof 0) with 0%Q in H0. change (Qof 100) with 100%Q in HS.
    assert (H1 := Qof_le 0 (100 - total cws) ltac:(lia)). change (Qof 0) with 0%Q in H1.
    split; [split; [apply Qle_shift_div_l; [exact Hp|]; lra|apply Qle_shift_div_r; [exact Hp|]; nra]|].
    rewrite Qsum_values by lia. change (Qof 100) with 100%Q. rewrite HS. field. lra.
  - split; [lia|]. split; [lra|]. rewrite Qsum_values by lia. assert (Hp := Qof_pos (total cws) ltac:(lia)). field. lra.
Qed.

(** ** Text *)
Lemma in_ascii c l : In c l <-> existsb (Ascii.eqb c) l = true.
Proof.
  rewrite existsb_exists. split; [intro H; exists c; split; [exact H|apply Ascii.eqb_refl]|].
  intros (d & H & E). apply Ascii.eqb_eq in E. now subst.
Qed.
Lemma white_blank c : white c = true <-> In c [ascii_of_N 9; ascii_of_N 10; ascii_of_N 11; ascii_of_N 12; ascii_of_N 13; " "%char].
Proof. rewrite in_ascii. destruct c as [[] [] [] [] [] [] [] []]; reflexivity. Qed.
Lemma is_digit_spec c : is_digit c = true <-> Text.digit c.
Proof. unfold Text.digit. rewrite in_ascii. destruct c as [[] [] [] [] [] [] [] []]; reflexivity. Qed.
Definition stops (f : ascii -> bool) (r : bytes) : Prop := match r with [] => True | c :: _ => f c = false end.
Lemma span_app f x r : forallb f x = true -> stops f r -> span f (x ++ r) = (x, r).
Proof.
  induction x as [|c x IH]; cbn [app forallb].
  - intros _ H. destruct r as [|c r]; [reflexivity|]. cbn in *. now rewrite H.
  - rewrite Bool.andb_true_iff. intros [Hc Hx] H. cbn [span]. rewrite Hc, (IH Hx H). reflexivity.
Qed.
Lemma span_spec f s x r : span f s = (x, r) -> s = x ++ r /\ forallb f x = true /\ stops f r.
Proof.
  revert x r. induction s as [|c s IH]; cbn [span]; intros x r H; [injection H as <- <-; repeat split|].
  destruct (f c) eqn:E; [|injection H as <- <-; repeat split; cbn; assumption].
  destruct (span f s) as [x' r'] eqn:Es. injection H as <- <-. destruct (IH _ _ eq_refl) as (-> & F & S0).
  repeat split; [|exact S0]. cbn [forallb]. now rewrite E, F.
Qed.
Lemma blank_white x : blank x <-> forallb white x = true.
Proof.
  unfold blank. rewrite forallb_forall, Forall_forall. split; intros H c I; [apply white_blank|apply white_blank]; auto.
Qed.
Lemma digits_all ds : digits ds -> ds <> [] /\ forallb is_digit ds = true.
Proof. intros [N F]. split; [exact N|]. apply forallb_forall. intros c I. apply is_digit_spec. rewrite Forall_forall in F. auto. Qed.
Definition first_in (f : ascii -> bool) (r : bytes) : Prop := match r with [] => True | c :: _ => f c = true end.
Definition style_set (c : ascii) : bool := match style_of c with Some _ => true | None => white c end.
Definition width_set (c : ascii) : bool := is_digit c || Ascii.eqb c "~"%char || style_set c.
Definition v_set (c : ascii) : bool := Ascii.eqb c "."%char || width_set c.
Lemma letter_style s : style_of (letter s) = Some s. Proof. destruct s; reflexivity. Qed.
Lemma mark_h h : halign_of (h_mark h) = Some h. Proof. destruct h; reflexivity. Qed.
Lemma mark_v v : valign_of (v_mark v) = Some v. Proof. destruct v; reflexivity. Qed.
Lemma style_letter c s : style_of c = Some s -> c = letter s.
Proof. destruct c as [[] [] [] [] [] [] [] []]; cbn; intro H; try discriminate H; injection H as <-; reflexivity. Qed.
Lemma h_of_mark c s : halign_of c = Some s -> c = h_mark s.
Proof. destruct c as [[] [] [] [] [] [] [] []]; cbn; intro H; try discriminate H; injection H as <-; reflexivity. Qed.
Lemma v_of_mark c s : valign_of c = Some s -> c = v_mark s.
Proof. destruct c as [[] [] [] [] [] [] [] []]; cbn; intro H; try discriminate H; injection H as <-; reflexivity. Qed.
Lemma white_not c : white c = true -> style_of c = None.
Proof. destruct c as [[] [] [] [] [] [] [] []]; vm_compute; intro H; try discriminate H; reflexivity. Qed.
Lemma style_set_not c : style_set c = true -> is_digit c = false /\ c <> "%"%char /\ c <> "~"%char /\ c <> "*"%char.
Proof. destruct c as [[] [] [] [] [] [] [] []]; vm_compute; intro H; try discriminate H; repeat split; intro; discriminate. Qed.
Lemma width_set_not c : width_set c = true -> c <> "."%char /\ halign_of c = None.
Proof. destruct c as [[] [] [] [] [] [] [] []]; vm_compute; intro H; try discriminate H; repeat split; intro; discriminate. Qed.
Lemma v_set_not c : v_set c = true -> halign_of c = None.
Proof. destruct c as [[] [] [] [] [] [] [] []]; vm_compute; intro H; try discriminate H; repeat split; intro; discriminate. Qed.
Lemma digit_not_white c : is_digit c = true -> white c = false.
Proof. destruct c as [[] [] [] [] [] [] [] []]; vm_compute; intro H; try discriminate H; reflexivity. Qed.

Lemma first_digits ds r (f : ascii -> bool) : digits ds -> (forall c, is_digit c = true -> f c = true) -> first_in f (ds ++ r).
Proof. intros D H. destruct (digits_all ds D) as [N F]. destruct ds as [|c ds]; [easy|]. cbn in F. rewrite Bool.andb_true_iff in F. cbn. apply H. tauto. Qed.

Lemma take_style_ok o y : blank y -> take_style (match o with Some s => [letter s] | None => [] end ++ y) = (o, y) /\ first_in style_set (match o with Some s => [letter s] | None => [] end ++ y).
Proof.
  intro B. apply blank_white in B. destruct o as [s|]; cbn [app].
  - cbn [take_style first_in]. rewrite letter_style. split; [reflexivity|]. unfold style_set. now rewrite letter_style.
  - destruct y as [|c y]; [split; reflexivity|]. cbn in B. rewrite Bool.andb_true_iff in B. destruct B as [B _].
    cbn [take_style first_in]. unfold style_set. rewrite (white_not c B). split; [reflexivity|exact B].
Qed.
Definition cap_text (w : wwidth) : option bytes := match w with NoWidth => None | _ => Some (width_text w) end.
Lemma take_width_ok w r : match w with Number ds | Percent ds => digits ds | _ => True end -> first_in style_set r ->
  take_width (width_text w ++ r) = (cap_text w, r) /\ first_in width_set (width_text w ++ r).
Proof.
  intros D F.
  assert (SD : stops is_digit r) by (destruct r as [|c r]; [exact Logic.I|]; cbn in *; now apply style_set_not in F).
  assert (NP : forall c r', r = c :: r' -> c <> "%"%char /\ c <> "~"%char) by (intros c r' ->; cbn in F; apply style_set_not in F; tauto).
  destruct w as [|ds|ds|]; cbn [width_text cap_text app].
  - split.
    + unfold take_width. destruct r as [|c r]; [reflexivity|]. cbn [span]. cbn in SD. rewrite SD.
      destruct (NP c r eq_refl) as [_ N]. destruct (Ascii.eqb_spec c "~"%char) as [->|_]; [easy|].
      destruct c as [[] [] [] [] [] [] [] []]; try reflexivity; now destruct N.
    + destruct r as [|c r]; [exact Logic.I|]. cbn in *. unfold width_set. rewrite F. now rewrite Bool.orb_true_r.
  - split; [|apply first_digits; [exact D|]; intros c H; unfold width_set; now rewrite H].
    destruct (digits_all ds D) as [N FD]. unfold take_width. rewrite (span_app is_digit ds r FD SD).
    destruct ds as [|d ds]; [easy|]. destruct r as [|c r]; [reflexivity|]. destruct (NP c r eq_refl) as [N1 _].
    destruct c as [[] [] [] [] [] [] [] []]; try reflexivity; now destruct N1.
  - split; [|rewrite <- app_assoc; apply first_digits; [exact D|]; intros c H; unfold width_set; now rewrite H].
    destruct (digits_all ds D) as [N FD]. unfold take_width. rewrite <- app_assoc. rewrite (span_app is_digit ds ($"%" ++ r) FD eq_refl).
    destruct ds as [|d ds]; [easy|]. reflexivity.
  - split; reflexivity.
Qed.
Lemma first_weaken (f g : ascii -> bool) r : (forall c, f c = true -> g c = true) -> first_in f r -> first_in g r.
Proof. intros H. destruct r; cbn; auto. Qed.
Lemma take_v_ok o r : first_in width_set r ->
  take_v (match o with Some v => "."%char :: [v_mark v] | None => [] end ++ r) = (o, r) /\ first_in v_set (match o with Some v => "."%char :: [v_mark v] | None => [] end ++ r).
Proof.
  intro F. destruct o as [v|]; cbn [app].
  - cbn [take_v first_in]. rewrite mark_v. split; reflexivity.
  - split.
    + destruct r as [|c r]; [reflexivity|]. cbn in F. apply width_set_not in F. destruct F as [N _].
      unfold take_v. destruct c as [[] [] [] [] [] [] [] []]; try reflexivity. now destruct N.
    + apply (first_weaken width_set); [|exact F]. intros c H. unfold v_set. rewrite H. apply Bool.orb_true_r.
Qed.
Lemma take_h_ok o r : first_in v_set r -> take_h (match o with Some h => [h_mark h] | None => [] end ++ r) = (o, r).
Proof.
  intro F. destruct o as [h|]; cbn [app].
  - cbn [take_h]. now rewrite mark_h.
  - destruct r as [|c r]; [reflexivity|]. cbn in F. cbn [take_h]. now rewrite (v_set_not c F).
Qed.
(** the texts from some part on *)
Definition from_style (w : written) (y : bytes) : bytes := match w_style w with Some s => [letter s] | None => [] end ++ y.
Definition from_width (w : written) (y : bytes) : bytes := width_text (w_width w) ++ from_style w y.
Definition from_v (w : written) (y : bytes) : bytes := match w_v w with Some v => "."%char :: [v_mark v] | None => [] end ++ from_width w y.
Definition from_h (w : written) (y : bytes) : bytes := match w_h w with Some h => [h_mark h] | None => [] end ++ from_v w y.
Lemma spec_text_parts w y : spec_text w ++ y = match w_count w with Some ds => ds ++ $"*" | None => [] end ++ from_h w y.
Proof. unfold spec_text, from_h, from_v, from_width, from_style. repeat rewrite <- app_assoc. reflexivity. Qed.
Lemma take_multiplier_none w y : shape_ok w -> blank y -> take_multiplier (from_h w y) = (None, from_h w y).
Proof.
  intros [_ D] B. unfold take_multiplier.
  destruct (take_style_ok (w_style w) y B) as [_ F5]. fold (from_style w y) in F5.
  assert (K : forall s : bytes, stops is_digit s -> match span is_digit s with (c :: ds, "*"%char :: r) => (Some (c :: ds), r) | _ => (None, s) end = (None, s)).
  { intros s H. change s with ([] ++ s) at 1. rewrite span_app by (try reflexivity; exact H). reflexivity. }
  unfold from_h. destruct (w_h w) as [h|]; [apply K; destruct h; reflexivity|]. cbn [app].
  unfold from_v. destruct (w_v w) as [v|]; [apply K; reflexivity|]. cbn [app].
  unfold from_width. destruct (w_width w) as [|ds|ds|] eqn:EW; cbn [width_text app].
  - apply K. destruct (from_style w y) as [|c r]; [exact Logic.I|]. cbn in *. now apply style_set_not in F5.
  - assert (SD : stops is_digit (from_style w y)) by (destruct (from_style w y) as [|c r]; [exact Logic.I|]; cbn in *; now apply style_set_not in F5).
    destruct (digits_all ds D) as [N FD]. rewrite (span_app is_digit ds _ FD SD). destruct ds as [|d ds]; [easy|].
    destruct (from_style w y) as [|c r]; [reflexivity|]. cbn in F5. apply style_set_not in F5. destruct F5 as (_ & _ & _ & N1).
    destruct c as [[] [] [] [] [] [] [] []]; try reflexivity; now destruct N1.
  - destruct (digits_all ds D) as [N FD]. rewrite <- app_assoc. rewrite (span_app is_digit ds ($"%" ++ from_style w y) FD eq_refl). destruct ds as [|d ds]; [easy|]. reflexivity.
  - apply K. reflexivity.
Qed.
Lemma from_h_stops w y : shape_ok w -> blank y -> spec_text w <> [] -> stops white (spec_text w ++ y).
Proof.
  intros [C D] B N. rewrite spec_text_parts. unfold spec_text in N. unfold from_h, from_v, from_width, from_style.
  assert (KD : forall ds r, digits ds -> stops white (ds ++ r)).
  { intros ds r Dd. destruct (digits_all ds Dd) as [Nd Fd]. destruct ds as [|c ds]; [easy|]. cbn in *. rewrite Bool.andb_true_iff in Fd. now apply digit_not_white. }
  destruct (w_count w) as [ds|]; [rewrite <- app_assoc; apply KD; auto|]. cbn [app] in *.
  destruct (w_h w) as [h|]; [destruct h; reflexivity|]. cbn [app] in *.
  destruct (w_v w) as [v|]; [reflexivity|]. cbn [app] in *.
  destruct (w_width w) as [|ds|ds|]; cbn [width_text app] in *; [|apply KD; exact D|rewrite <- app_assoc; apply KD; exact D|reflexivity].
  destruct (w_style w) as [s|]; [destruct s; reflexivity|]. now destruct N.
Qed.
Lemma colspec_re_ok w x y : shape_ok w -> blank x -> blank y -> colspec_re (x ++ spec_text w ++ y) = Some (Captures (w_count w) (w_h w) (w_v w) (cap_text (w_width w)) (w_style w)).
Proof.
  intros SH Bx By. unfold colspec_re.
  assert (E : snd (span white (x ++ spec_text w ++ y)) = (if match spec_text w with [] => true | _ => false end then [] else spec_text w ++ y)).
  { destruct (spec_text w) as [|c l] eqn:Es.
    - cbn [app]. replace (x ++ y) with ((x ++ y) ++ []) by apply app_nil_r. rewrite span_app; [reflexivity| |exact Logic.I].
      rewrite forallb_app. apply blank_white in Bx, By. now rewrite Bx, By.
    - rewrite <- Es. rewrite span_app; [reflexivity|now apply blank_white|]. apply from_h_stops; auto. now rewrite Es. }
  rewrite E. clear E.
  assert (K : forall y, blank y -> (let '(m, s) := take_multiplier (spec_text w ++ y) in
    let '(h, s) := take_h s in let '(v, s) := take_v s in let '(w0, s) := take_width s in let '(st, s) := take_style s in
    if forallb white s then Some (Captures m h v w0 st) else None) = Some (Captures (w_count w) (w_h w) (w_v w) (cap_text (w_width w)) (w_style w))).
  { clear x y Bx By. intros y By.
    destruct (take_style_ok (w_style w) y By) as [E5 F5]. fold (from_style w y) in E5, F5.
    destruct (take_width_ok (w_width w) (from_style w y) (proj2 SH) F5) as [E4 F4]. fold (from_width w y) in E4, F4.
    destruct (take_v_ok (w_v w) (from_width w y) F4) as [E3 F3]. fold (from_v w y) in E3, F3.
    pose proof (take_h_ok (w_h w) (from_v w y) F3) as E2. fold (from_h w y) in E2.
    assert (E1 : take_multiplier (spec_text w ++ y) = (w_count w, from_h w y)).
    { rewrite spec_text_parts. destruct (w_count w) as [ds|] eqn:EC; [|now apply take_multiplier_none].
      destruct (digits_all ds (proj1 SH ds EC)) as [N FD]. unfold take_multiplier. rewrite <- app_assoc. rewrite (span_app is_digit ds ($"*" ++ from_h w y) FD eq_refl).
      destruct ds; [easy|]. reflexivity. }
    rewrite E1, E2, E3, E4, E5. apply blank_white in By. now rewrite By. }
  destruct (spec_text w) as [|c l] eqn:Es; [|now apply K].
  specialize (K [] (Forall_nil _)). cbn [app] in K. exact K.
Qed.
Lemma parse_digits bound ds : digits ds -> (Text.value ds < bound)%N -> parse_bounded bound ds = Some (Text.value ds).
Proof. intros [N F] L. apply parse_bounded_spec. exists ds. auto. Qed.
Lemma rev_last_pct ds : rev (ds ++ $"%") = "%"%char :: rev ds.
Proof. rewrite rev_app_distr. reflexivity. Qed.
Lemma width_meant w : match w with Number ds | Percent ds => digits ds | _ => True end -> match w with Number ds | Percent ds => (Text.value ds < 256)%N | _ => True end ->
  match cap_text w with Some t => width_of t | None => Proportional 1 end = match w with NoWidth => Proportional 1 | Number ds => Proportional (nat_value ds) | Percent ds => Percentage (nat_value ds) | Tilde => Auto end.
Proof.
  intros D L. destruct w as [|ds|ds|]; try reflexivity; cbn [cap_text width_text]; unfold width_of.
  - destruct (bytes_eqb ds ["~"%char]) eqn:E.
    { apply bytes_eqb_eq in E. subst ds. destruct (digits_all _ D). discriminate. }
    assert (P : parse_u8_or_1 ds = nat_value ds) by (unfold parse_u8_or_1; rewrite (parse_digits 256 ds D L); reflexivity).
    rewrite P. destruct (rev ds) as [|c r] eqn:Er; [reflexivity|].
    assert (Hc : is_digit c = true). { destruct (digits_all _ D) as [_ F]. rewrite forallb_forall in F. apply F. apply in_rev. rewrite Er. now left. }
    destruct c as [[] [] [] [] [] [] [] []]; try reflexivity; discriminate Hc.
  - assert (E : bytes_eqb (ds ++ $"%") ["~"%char] = false).
    { destruct (bytes_eqb (ds ++ $"%") ["~"%char]) eqn:E; [|reflexivity]. apply bytes_eqb_eq in E. destruct ds as [|d [|? ?]]; [destruct D as [N _]; easy|discriminate|discriminate]. }
    rewrite E, rev_last_pct, rev_involutive. unfold parse_u8_or_1. rewrite (parse_digits 256 ds D L). reflexivity.
Qed.
Lemma repeat_snoc {A} (a : A) n : repeat a n ++ [a] = repeat a (S n).
Proof. induction n; cbn; [reflexivity|]. cbn in IHn. now rewrite IHn. Qed.
Lemma column_meant w x y : shape_ok w -> numbers_ok w -> blank x -> blank y -> parse_col_spec (x ++ spec_text w ++ y) = meant w.
Proof.
  intros SH NO Bx By. unfold parse_col_spec. pose proof (colspec_re_ok w x y SH Bx By) as E.
  assert (G : match colspec_re (x ++ spec_text w ++ y) with
      | None => [default_spec]
      | Some c =>
          let or {A} (o : option A) (d : A) := match o with Some x => x | None => d end in
          let spec := ColSpec (match cap_width c with Some w => width_of w | None => Proportional 1 end) (or (cap_h c) HLeft) (or (cap_v c) VTop) (or (cap_style c) SDefault) in
          match multiplier c with
          | Some ds => let n := parse_i32_or_1 ds in if 1 <? n then repeat spec (n - 1) ++ [spec] else [spec]
          | None => [spec]
          end
      end = meant w).
  { rewrite E. cbn [cap_width cap_h cap_v cap_style multiplier]. rewrite (width_meant (w_width w) (proj2 SH) (proj2 NO)). cbv zeta.
    unfold meant. change (ColSpec _ _ _ _) with (meant_spec w).
    destruct (w_count w) as [ds|] eqn:EC; [|reflexivity].
    assert (P : parse_i32_or_1 ds = nat_value ds) by (unfold parse_i32_or_1; change 2147483648%N with (2 ^ 31)%N; rewrite (parse_digits (2 ^ 31) ds (proj1 SH ds EC) (proj1 NO ds EC)); reflexivity).
    rewrite P. destruct (Nat.ltb_spec 1 (nat_value ds)) as [L|L].
    - rewrite repeat_snoc. f_equal. lia.
    - replace (max 1 (nat_value ds)) with 1 by lia. reflexivity. }
  destruct (x ++ spec_text w ++ y) as [|c s] eqn:Es; [|exact G].
  rewrite <- G. reflexivity.
Qed.

(** what is not of the form is not matched *)
Lemma take_multiplier_text s m r : take_multiplier s = (m, r) -> (s = match m with Some ds => ds ++ $"*" | None => [] end ++ r) /\ forall ds, m = Some ds -> digits ds.
Proof.
  unfold take_multiplier. destruct (span is_digit s) as [ds r'] eqn:E. apply span_spec in E. destruct E as (-> & F & _).
  assert (D : ds <> [] -> digits ds) by (intro N; split; [exact N|]; apply Forall_forall; intros c I; apply is_digit_spec; rewrite forallb_forall in F; auto).
  destruct ds as [|d ds]; [intro H; injection H as <- <-; split; [reflexivity|discriminate]|].
  destruct r' as [|c r']; [intro H; injection H as <- <-; split; [reflexivity|discriminate]|].
  destruct (Ascii.eqb_spec c "*"%char) as [->|N].
  - intro H. injection H as <- <-. split; [now rewrite <- app_assoc|]. intros ds' H. injection H as <-. apply D. discriminate.
  - destruct c as [[] [] [] [] [] [] [] []]; try (intro H; injection H as <- <-; split; [reflexivity|discriminate]). now destruct N.
Qed.
Lemma take_h_text s h r : take_h s = (h, r) -> s = match h with Some h => [h_mark h] | None => [] end ++ r.
Proof.
  unfold take_h. destruct s as [|c s]; [intro H; injection H as <- <-; reflexivity|].
  destruct (halign_of c) eqn:E; intro H; injection H as <- <-; [|reflexivity]. now rewrite (h_of_mark c _ E).
Qed.
Lemma take_style_text s h r : take_style s = (h, r) -> s = match h with Some h => [letter h] | None => [] end ++ r.
Proof.
  unfold take_style. destruct s as [|c s]; [intro H; injection H as <- <-; reflexivity|].
  destruct (style_of c) eqn:E; intro H; injection H as <- <-; [|reflexivity]. now rewrite (style_letter c _ E).
Qed.
Lemma take_v_text s v r : take_v s = (v, r) -> s = match v with Some v => "."%char :: [v_mark v] | None => [] end ++ r.
Proof.
  unfold take_v. destruct s as [|c s]; [intro H; injection H as <- <-; reflexivity|].
  destruct (Ascii.eqb_spec c "."%char) as [->|N].
  - destruct s as [|d s]; [intro H; injection H as <- <-; reflexivity|]. destruct (valign_of d) eqn:E; intro H; injection H as <- <-; [|reflexivity].
    now rewrite (v_of_mark d _ E).
  - destruct c as [[] [] [] [] [] [] [] []]; try (intro H; injection H as <- <-; reflexivity). now destruct N.
Qed.
Lemma take_width_text s t r : take_width s = (t, r) -> exists w, t = cap_text w /\ s = width_text w ++ r /\ match w with Number ds | Percent ds => digits ds | _ => True end.
Proof.
  unfold take_width. destruct (span is_digit s) as [ds r'] eqn:E. apply span_spec in E. destruct E as (-> & F & _).
  assert (D : ds <> [] -> digits ds) by (intro N; split; [exact N|]; apply Forall_forall; intros c I; apply is_digit_spec; rewrite forallb_forall in F; auto).
  destruct ds as [|d ds].
  - assert (K : (None : option bytes, [] ++ r') = (t, r) -> exists w, t = cap_text w /\ [] ++ r' = width_text w ++ r /\ match w with Number ds | Percent ds => digits ds | _ => True end).
    { intro H. injection H as <- <-. exists NoWidth. auto. }
    destruct r' as [|c r']; [exact K|]. destruct (Ascii.eqb_spec c "~"%char) as [->|N].
    + intro H. injection H as <- <-. exists Tilde. auto.
    + destruct c as [[] [] [] [] [] [] [] []]; try exact K. now destruct N.
  - assert (K : (Some (d :: ds), r') = (t, r) -> exists w, t = cap_text w /\ (d :: ds) ++ r' = width_text w ++ r /\ match w with Number ds | Percent ds => digits ds | _ => True end).
    { intro H. injection H as <- <-. exists (Number (d :: ds)). split; [reflexivity|]. split; [reflexivity|]. apply D. discriminate. }
    destruct r' as [|c r']; [exact K|]. destruct (Ascii.eqb_spec c "%"%char) as [->|N].
    + intro H. injection H as <- <-. exists (Percent (d :: ds)). split; [reflexivity|]. split; [cbn [width_text]; now rewrite <- app_assoc|]. apply D. discriminate.
    + destruct c as [[] [] [] [] [] [] [] []]; try exact K. now destruct N.
Qed.
Lemma colspec_re_only s c : colspec_re s = Some c -> exists x w y, s = x ++ spec_text w ++ y /\ shape_ok w /\ blank x /\ blank y.
Proof.
  unfold colspec_re. destruct (span white s) as [x s0] eqn:E0. apply span_spec in E0. destruct E0 as (-> & Fx & _). cbn [snd].
  destruct (take_multiplier s0) as [m s1] eqn:E1. apply take_multiplier_text in E1. destruct E1 as [E1 D1].
  destruct (take_h s1) as [h s2] eqn:E2. apply take_h_text in E2.
  destruct (take_v s2) as [v s3] eqn:E3. apply take_v_text in E3.
  destruct (take_width s3) as [w s4] eqn:E4. apply take_width_text in E4. destruct E4 as (ww & _ & E4 & D4).
  destruct (take_style s4) as [st y] eqn:E5. apply take_style_text in E5.
  destruct (forallb white y) eqn:Fy; [|discriminate]. intros _. exists x, (Written m h v ww st), y.
  split; [|split; [split; assumption|split; now apply blank_white]].
  unfold spec_text; cbn [w_count w_h w_v w_width w_style]. subst. repeat rewrite <- app_assoc. reflexivity.
Qed.
Lemma forall_app2 {A} (P : A -> Prop) x y : Forall P x -> Forall P y -> Forall P (x ++ y).
Proof. intros. apply Forall_app. auto. Qed.
Definition sep (c : ascii) : bool := Ascii.eqb c ";"%char || Ascii.eqb c ","%char.
Lemma blank_no_sep x : blank x -> Forall (fun c => sep c = false) x.
Proof. intro B. eapply Forall_impl; [|exact B]. intros c H. cbn in H. repeat (destruct H as [<-|H]; [reflexivity|]). destruct H. Qed.
Lemma digits_no_sep ds : digits ds -> Forall (fun c => sep c = false) ds.
Proof. intros [_ F]. eapply Forall_impl; [|exact F]. intros c H. unfold Text.digit in H. cbn in H. repeat (destruct H as [<-|H]; [reflexivity|]). destruct H. Qed.
Lemma spec_no_sep w : shape_ok w -> Forall (fun c => sep c = false) (spec_text w).
Proof.
  intros [C D]. unfold spec_text. apply forall_app2; [|apply forall_app2; [|apply forall_app2; [|apply forall_app2]]].
  - destruct (w_count w) as [ds|]; [|constructor]. apply Forall_app. split; [apply digits_no_sep; auto|repeat constructor].
  - destruct (w_h w) as [[]|]; repeat constructor.
  - destruct (w_v w) as [[]|]; repeat constructor.
  - destruct (w_width w) as [|ds|ds|]; cbn; [constructor|now apply digits_no_sep| |repeat constructor].
    apply Forall_app. split; [now apply digits_no_sep|repeat constructor].
  - destruct (w_style w) as [[]|]; repeat constructor.
Qed.
Lemma cols_meant ws t : cols_text ws t -> Forall shape_ok ws -> Forall numbers_ok ws -> flat_map parse_col_spec (split_by sep t) = flat_map meant ws.
Proof.
  induction 1 as [w x y Bx By|w x y c ws t Bx By Hc H IH]; intros FS FN; inversion FS; inversion FN; subst.
  - rewrite split_by_one.
    + cbn [flat_map]. rewrite column_meant by assumption. reflexivity.
    + apply forall_app2; [now apply blank_no_sep|]. apply forall_app2; [now apply spec_no_sep|now apply blank_no_sep].
  - replace (x ++ spec_text w ++ y ++ c :: t) with ((x ++ spec_text w ++ y) ++ c :: t) by (repeat rewrite <- app_assoc; reflexivity).
    rewrite split_by_app.
    + cbn [flat_map]. rewrite column_meant by assumption. rewrite IH by assumption. reflexivity.
    + apply forall_app2; [now apply blank_no_sep|]. apply forall_app2; [now apply spec_no_sep|now apply blank_no_sep].
    + destruct Hc as [-> | ->]; reflexivity.
Qed.
