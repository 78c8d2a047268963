(** C30: column widths add up to 100 percent. C49: column specifications are read as written. *)
From Verif Require Import Base Text ColsModel ColsSpec ColsProofs.
From Coq Require Import QArith Lia Lqa.
Open Scope nat_scope.

(** For every list of columns that is not empty, whose written widths add up to at most 255, and in which a width is not zero or a column
    is automatic: the widths are numbers from 0 to 100, one for each column, and add up to 100. *)
Theorem C30_total (cws : list col_width) : cws <> [] -> total cws <= 255 -> 0 < total cws \/ In Auto cws ->
  exists ds qs, distribute cws = Ret ds /\ has_values cws ds qs /\ (Qsum qs == 100)%Q.
Proof.
  intros NE HT HP.
  assert (HP' : 0 < total cws \/ 0 < length (filter is_auto cws)).
  { destruct HP as [H|H]; [now left|right]. assert (I : In Auto (filter is_auto cws)) by (apply filter_In; auto). destruct (filter is_auto cws); [easy|cbn; lia]. }
  destruct (distribute_division cws NE HT HP') as (d & a & D & Hd & E).
  destruct (division_facts cws d a D) as (Ht & Ha & Hs).
  destruct (values_of d a cws _ Hd eq_refl) as [V1 V2].
  eexists _, (map (col_value d a) cws). split; [exact E|]. split; [|exact Hs].
  split; [exact V1|]. split; [|exact V2]. now apply values_range.
Qed.
Print Assumptions C30_total.

(** Two columns with written widths keep their proportion. *)
Theorem C30_proportions (cws : list col_width) ds qs i j x y p q : distribute cws = Ret ds -> has_values cws ds qs ->
  nth_error cws i = Some x -> nth_error cws j = Some y -> x <> Auto -> y <> Auto -> nth_error qs i = Some p -> nth_error qs j = Some q ->
  (p * Qof (written_width y) == q * Qof (written_width x))%Q.
Proof.
  intros E (V & _ & _) Ex Ey Nx Ny Ep Eq.
  unfold distribute in E. destruct (sum_widths None cws) as [wd|]; [|discriminate].
  match type of E with (let '(_, _) := ?m in _) = _ => destruct m as [d aw] end. injection E as <-.
  assert (K : forall k z r, nth_error cws k = Some z -> z <> Auto -> nth_error qs k = Some r -> exists d', d = S d' /\ r = (Qof (written_width z) * 100 / Qof d)%Q).
  { intros k z r Ez Nz Er. rewrite map_map in V. pose proof (f_equal (fun l => nth_error l k) V) as Vk. cbn beta in Vk.
    rewrite (map_nth_error _ k _ Ez), (map_nth_error _ k _ Er) in Vk.
    destruct z as [n|n|]; [| |easy]; cbn in Vk; injection Vk as Vk; (destruct d as [|d']; [discriminate|]); injection Vk as <-; now exists d'. }
  destruct (K i x p Ex Nx Ep) as (d' & Ed & ->). destruct (K j y q Ey Ny Eq) as (_ & _ & ->).
  assert (Hd := Qof_pos d ltac:(lia)). field. lra.
Qed.
Print Assumptions C30_proportions.

(** Where there are automatic columns and room for them, written widths are percentages as they stand; the automatic columns share the
    rest evenly. *)
Theorem C30_automatic (cws : list col_width) : In Auto cws -> total cws <= 100 ->
  exists qs, (exists ds, distribute cws = Ret ds /\ has_values cws ds qs) /\
  Forall2 (fun cw q => match cw with Auto => (q * Qof (length (filter is_auto cws)) == 100 - Qof (total cws))%Q | _ => (q == Qof (written_width cw))%Q end) cws qs.
Proof.
  intros A HT.
  assert (NE : cws <> []) by (intros ->; easy).
  assert (HA : 0 < length (filter is_auto cws)).
  { assert (I : In Auto (filter is_auto cws)) by (apply filter_In; auto). destruct (filter is_auto cws); [easy|cbn; lia]. }
  destruct (distribute_division cws NE ltac:(lia) (or_intror HA)) as (d & a & D & Hd & E).
  destruct (division_facts cws d a D) as (Ht & Ha & Hs).
  destruct (values_of d a cws _ Hd eq_refl) as [V1 V2].
  exists (map (col_value d a) cws). split.
  - eexists. split; [exact E|]. split; [exact V1|]. split; [now apply values_range|exact V2].
  - assert (Hp := Qof_pos _ HA). inversion D; subst; try lia.
    assert (HS := Qof_sub 100 _ HT). change (Qof 100) with 100%Q in HS.
    assert (G : forall l n t, (0 < Qof n)%Q -> (Qof (100 - t) == 100 - Qof t)%Q -> Forall2 (fun cw q => match cw with Auto => (q * Qof n == 100 - Qof t)%Q | _ => (q == Qof (written_width cw))%Q end) l
      (map (col_value 100 (Qof (100 - t) / Qof n)) l)).
    { clear. intros l n t Hp HS. induction l as [|cw l IH]; [constructor|]. cbn [map]. constructor; [|exact IH].
      destruct cw as [k|k|]; cbn [col_value written_width]; [change (Qof 100) with 100%Q; field|change (Qof 100) with 100%Q; field|rewrite HS; field; lra]. }
    now apply G.
Qed.
Print Assumptions C30_automatic.

(** Where the written widths are more than 100, automatic columns get nothing. *)
Theorem C30_overfull (cws : list col_width) : In Auto cws -> 100 < total cws <= 255 ->
  exists ds qs, distribute cws = Ret ds /\ has_values cws ds qs /\ (forall i, nth_error cws i = Some Auto -> nth_error qs i = Some 0%Q).
Proof.
  intros A HT.
  assert (NE : cws <> []) by (intros ->; easy).
  assert (HP : 0 < total cws) by lia.
  destruct (distribute_division cws NE ltac:(lia) (or_introl HP)) as (d & a & D & Hd & E).
  destruct (division_facts cws d a D) as (Ht & Ha & Hs).
  destruct (values_of d a cws _ Hd eq_refl) as [V1 V2].
  eexists _, (map (col_value d a) cws). split; [exact E|]. split; [split; [exact V1|split; [now apply values_range|exact V2]]|].
  intros i H. rewrite (map_nth_error _ i _ H). cbn [col_value]. inversion D; subst; try lia; reflexivity.
Qed.
Print Assumptions C30_overfull.

(** Four columns of every kind, all automatic ones, and too wide ones. *)
Example C30_sample : exists ds qs, distribute [Percentage 20; Auto; Proportional 30; Auto] = Ret ds /\
  has_values [Percentage 20; Auto; Proportional 30; Auto] ds qs /\ map Qred qs = [20; 25; 30; 25]%Q.
Proof.
  eexists. exists (map (col_value 100 (50 / 2)) [Percentage 20; Auto; Proportional 30; Auto]). split; [reflexivity|]. split; [|vm_compute; reflexivity].
  split; [reflexivity|]. split; [|reflexivity]. repeat constructor; vm_compute; discriminate.
Qed.
Example C30_sample_three : exists ds qs, distribute [Proportional 2; Proportional 1; Proportional 3] = Ret ds /\
  map value_of ds = map Some qs /\ map Qred qs = [100 # 3; 50 # 3; 50]%Q.
Proof. eexists. exists (map (col_value 6 0) [Proportional 2; Proportional 1; Proportional 3]). split; [reflexivity|]. split; [reflexivity|vm_compute; reflexivity]. Qed.

(** Widths that add up to more than 255 stop the program: whatever the columns are. *)
Theorem C30_sum_overflow_refuted (cws : list col_width) : 255 < total cws -> distribute cws = Panic.
Proof. intro H. unfold distribute. now rewrite sum_widths_panic. Qed.
Print Assumptions C30_sum_overflow_refuted.
Example C30_three_hundreds : 255 < total [Percentage 100; Percentage 100; Percentage 100]. Proof. vm_compute; lia. Qed.
(** Columns of width zero get no width at all: the division by zero is not a number. *)
Theorem C30_zero_refuted : exists cws ds, cws <> [] /\ distribute cws = Ret ds /\ ~ exists qs, map value_of ds = map Some qs.
Proof.
  exists [Proportional 0; Proportional 0], [DPercentage None; DPercentage None]. split; [discriminate|]. split; [reflexivity|].
  intros [[|q qs] H]; discriminate H.
Qed.
Print Assumptions C30_zero_refuted.

(** ** C49 *)
(** Every text of column specifications, separated by commas or semicolons, with blanks around them, gives the columns that are meant
    ([meant], ColsSpec.v), if it is not a bare number or blank. *)
Theorem C49_columns ws t : cols_text ws t -> Forall shape_ok ws -> Forall numbers_ok ws -> ~ blank t -> ~ Forall Text.digit t ->
  parse_col_specs t = flat_map meant ws.
Proof.
  intros H FS FN NB ND. unfold parse_col_specs.
  destruct (forallb white t) eqn:EW; [now apply blank_white in EW|].
  destruct (forallb is_digit t) eqn:ED.
  - destruct ND. apply Forall_forall. intros c I. apply is_digit_spec. rewrite forallb_forall in ED. auto.
  - apply cols_meant; assumption.
Qed.
Print Assumptions C49_columns.
(** A bare number is the number of columns. *)
Theorem C49_bare_number ds : digits ds -> (Text.value ds < 2 ^ 31)%N -> parse_col_specs ds = repeat default_spec (nat_value ds).
Proof.
  intros D L. destruct (digits_all ds D) as [N F]. unfold parse_col_specs.
  destruct (forallb white ds) eqn:EW.
  - destruct ds as [|c ds]; [easy|]. cbn in EW, F. rewrite Bool.andb_true_iff in EW, F. destruct EW as [EW _], F as [F _]. apply digit_not_white in F. congruence.
  - rewrite F. unfold parse_i32_or_1. change 2147483648%N with (2 ^ 31)%N. rewrite (parse_digits (2 ^ 31) ds D L). reflexivity.
Qed.
Print Assumptions C49_bare_number.
(** No text, no columns: they are then counted in the first row. *)
Theorem C49_blank t : blank t -> parse_col_specs t = [].
Proof. intro B. apply blank_white in B. unfold parse_col_specs. now rewrite B. Qed.
Print Assumptions C49_blank.
(** A specification that is not of the form is one column as if nothing were written. *)
Theorem C49_unreadable t : (forall x w y, shape_ok w -> blank x -> blank y -> t <> x ++ spec_text w ++ y) -> parse_col_spec t = [default_spec].
Proof.
  intro H. unfold parse_col_spec. destruct t as [|c t]; [reflexivity|].
  destruct (colspec_re (c :: t)) as [cc|] eqn:E; [|reflexivity]. apply colspec_re_only in E. destruct E as (x & w & y & E & S0 & Bx & By). now destruct (H x w y S0 Bx By).
Qed.
Print Assumptions C49_unreadable.

Definition sample_cols : list written :=
  [Written (Some ($"2")) (Some HCenter) (Some VBottom) (Number ($"15")) (Some SStrong); Written None None None Tilde None; Written None (Some HRight) None (Percent ($"07")) (Some SAsciiDoc)].
Example C49_sample : cols_text sample_cols ($"2*^.>15s, ~ ;>07%a") /\ Forall shape_ok sample_cols /\ Forall numbers_ok sample_cols /\ ~ blank ($"2*^.>15s, ~ ;>07%a") /\ ~ Forall Text.digit ($"2*^.>15s, ~ ;>07%a") /\
  parse_col_specs ($"2*^.>15s, ~ ;>07%a") =
    [ColSpec (Proportional 15) HCenter VBottom SStrong; ColSpec (Proportional 15) HCenter VBottom SStrong; ColSpec Auto HLeft VTop SDefault; ColSpec (Percentage 7) HRight VTop SAsciiDoc].
Proof.
  split; [|split; [|split; [|split; [|split]]]].
  - apply (T_more (Written (Some ($"2")) (Some HCenter) (Some VBottom) (Number ($"15")) (Some SStrong)) [] [] ","%char _ ($" ~ ;>07%a")); [constructor|constructor|now left|].
    apply (T_more (Written None None None Tilde None) ($" ") ($" ") ";"%char _ ($">07%a")); [repeat constructor; cbn; tauto|repeat constructor; cbn; tauto|now right|].
    apply (T_one (Written None (Some HRight) None (Percent ($"07")) (Some SAsciiDoc)) [] []); constructor.
  - assert (D : forall ds, ds <> [] -> forallb is_digit ds = true -> digits ds) by (intros ds N F; split; [exact N|]; apply Forall_forall; intros c I; apply is_digit_spec; rewrite forallb_forall in F; auto).
    repeat apply Forall_cons; try apply Forall_nil; (split; [intros ds H; first [discriminate H|injection H as <-; apply D; [discriminate|reflexivity]]|first [exact Logic.I|apply D; [discriminate|reflexivity]]]).
  - repeat apply Forall_cons; try apply Forall_nil; (split; [intros ds H; first [discriminate H|injection H as <-; reflexivity]|first [exact Logic.I|reflexivity]]).
  - intro H. apply blank_white in H. discriminate H.
  - intro H. inversion H as [|? ? _ H2]; subst. inversion H2 as [|? ? H3 _]; subst. apply is_digit_spec in H3. discriminate H3.
  - vm_compute; reflexivity.
Qed.
Example C49_sample_number : parse_col_specs ($"3") = [default_spec; default_spec; default_spec] /\ digits ($"3") /\ (Text.value ($"3") < 2 ^ 31)%N.
Proof. split; [reflexivity|]. split; [split; [discriminate|repeat constructor; cbn; tauto]|reflexivity]. Qed.
Example C49_sample_unreadable : parse_col_spec ($"1x") = [default_spec].
Proof. reflexivity. Qed.

(** A width over 255 is a width of 1: nothing is reported. *)
Theorem C49_large_width_refuted ds : digits ds -> (256 <= Text.value ds)%N -> parse_col_spec ds = [default_spec].
Proof.
  intros D L. destruct (digits_all ds D) as [N F].
  assert (E : colspec_re ds = Some (Captures None None None (Some ds) None)).
  { pose proof (colspec_re_ok (Written None None None (Number ds) None) [] []) as H. cbn in H. repeat rewrite app_nil_r in H. apply H; [split; [discriminate|exact D]|constructor|constructor]. }
  unfold parse_col_spec. rewrite E. cbn [cap_width cap_h cap_v cap_style multiplier]. destruct ds as [|c ds]; [easy|]. cbv zeta. unfold default_spec. do 2 f_equal.
  unfold width_of. destruct (bytes_eqb (c :: ds) ["~"%char]) eqn:B; [apply bytes_eqb_eq in B; rewrite B in F; discriminate F|].
  assert (P : parse_u8_or_1 (c :: ds) = 1).
  { unfold parse_u8_or_1. destruct (parse_bounded 256 (c :: ds)) as [n|] eqn:Q; [|reflexivity]. apply parse_bounded_spec in Q.
    destruct Q as (ds' & [Q|Q] & _ & _ & -> & L'); [rewrite <- Q in L'; lia|]. injection Q as -> _. discriminate F. }
  destruct (rev (c :: ds)) as [|d r] eqn:R; [now rewrite P|].
  assert (Hd : is_digit d = true) by (rewrite forallb_forall in F; apply F, in_rev; rewrite R; now left).
  destruct d as [[] [] [] [] [] [] [] []]; try discriminate Hd; now rewrite P.
Qed.
Print Assumptions C49_large_width_refuted.
Example C49_large_sample : digits ($"300") /\ (256 <= Text.value ($"300"))%N.
Proof. split; [split; [discriminate|repeat constructor; cbn; tauto]|vm_compute; discriminate]. Qed.
