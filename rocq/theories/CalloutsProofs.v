From Verif Require Import Base Text CalloutsModel CalloutsSpec.
From Coq Require Import Lia.

Lemma add_u8_ok a c : a + c <= 255 -> add_u8 a c = Ret (a + c).
Proof. intro H. unfold add_u8. now rewrite (proj2 (Nat.leb_le _ _) H). Qed.
Lemma filter_bearing n cs : bearing n cs (filter (fun c => number c =? n) cs).
Proof.
  induction cs as [|c cs IH]; cbn; [constructor|].
  destruct (Nat.eqb_spec (number c) n); constructor; assumption.
Qed.
Lemma bearing_fun n cs o1 o2 : bearing n cs o1 -> bearing n cs o2 -> o1 = o2.
Proof.
  intro H. revert o2. induction H; intros o2 H2; inversion H2; subst; try easy; try congruence; try (f_equal; auto); auto.
Qed.
Lemma bearing_in n cs out c : bearing n cs out -> (In c out <-> In c cs /\ number c = n).
Proof.
  induction 1 as [|d cs out E B IH|d cs out E B IH]; cbn; [tauto| |].
  - split; [intros [->|H]; [auto|apply IH in H; tauto]|intros [[->|H] E2]; [auto|right; apply IH; tauto]].
  - split; [intro H; apply IH in H; tauto|intros [[->|H] E2]; [congruence|apply IH; tauto]].
Qed.
Lemma filter_found n cs : (match filter (fun c => number c =? n) cs with [] => true | _ => false end = true) <-> ~ exists c, In c cs /\ number c = n.
Proof.
  pose proof (filter_bearing n cs) as B. pose proof (fun c => bearing_in n cs _ c B) as HB.
  destruct (filter _ cs) as [|d l].
  - split; [intros _ [c H]; apply HB in H; destruct H|reflexivity].
  - split; [discriminate|]. intro H. destruct H. exists d. apply HB. now left.
Qed.
Lemma filter_sentinel n (cs : list callout) k : n <> 0 -> filter (fun c => number c =? n) (Callout k 0 0 false :: cs) = filter (fun c => number c =? n) cs.
Proof. intro H. cbn. destruct n; [easy|reflexivity]. Qed.

(** the state within scope [k]: the callouts so far, or, when there is none, nothing or the stand-in *)
Definition state_of (k : nat) (cs st : list callout) : Prop :=
  match cs with [] => st = [Callout k 0 0 false] \/ (k = 0 /\ st = []) | _ => st = cs end.
Lemma numbers_pos bfr ns : written_ok ns -> Forall (fun n => n <> 0) (numbers bfr ns).
Proof.
  intro H. revert bfr. induction H as [|n ns Hn _ IH]; intro bfr; cbn; constructor; auto.
  destruct n as [[|n]|]; congruence.
Qed.
Lemma get_state k cs st n : state_of k cs st -> n <> 0 -> get_callouts st n = filter (fun c => number c =? n) cs.
Proof.
  intros H Hn. unfold get_callouts. destruct cs; cbn in H; [|now rewrite H].
  destruct H as [->|[_ ->]]; [now apply filter_sentinel|reflexivity].
Qed.
Lemma items_ok k cs st bfr its :
  state_of k cs st -> Forall (fun n => n <> 0) (numbers bfr its) -> Forall (fun n => n <= 254) (numbers bfr its) ->
  exists outs, list_items st (S bfr) its = Ret outs /\ items_right cs bfr (numbers bfr its) outs.
Proof.
  intros HS. revert bfr. induction its as [|num its IH]; intros bfr Hp Hb; [exists []; cbn; auto|].
  cbn [numbers] in Hp, Hb. cbn [numbers list_items]. set (x := match num with Some k => k | None => S bfr end) in *.
  assert (E : or_default num (S bfr) = x) by (destruct num; reflexivity). rewrite E.
  inversion Hp as [|? ? Hx Hp']; subst. inversion Hb as [|? ? Hxb Hb']; subst.
  rewrite add_u8_ok by lia. rewrite Nat.add_1_r.
  destruct (IH x Hp' Hb') as (outs & -> & R). eexists; split; [reflexivity|].
  cbn [items_right]. split; [|exact R].
  rewrite (get_state k cs st x HS Hx). unfold item_right; cbn [conum callouts_of unexpected not_found].
  split; [reflexivity|]. split; [apply filter_bearing|]. split; [|apply filter_found].
  rewrite Bool.negb_true_iff, Nat.eqb_neq. reflexivity.
Qed.

Lemma from_snoc k i ps n x : from k i (ps ++ [(n, x)]) = from k i ps ++ [Callout k (i + length ps) n x].
Proof.
  revert i. induction ps as [|[m y] ps IH]; intro i; cbn; [now rewrite Nat.add_0_r|].
  rewrite IH. do 4 f_equal. lia.
Qed.
Lemma from_length k i ps : length (from k i ps) = length ps.
Proof. revert i. induction ps as [|[m y] ps IH]; intro i; cbn; auto. Qed.

(** pushing the rest of a scope's callouts *)
Lemma pushes_ok k (ps : list (option nat * bool)) : forall (done : list (nat * bool)) st rest lastn,
  state_of k (from k 0 done) st ->
  lastn = last (map fst done) 0 ->
  Forall (fun n => n <> 0) (map fst done) ->
  (ps <> [] -> Forall (fun n => n <= 254) (map fst done)) ->
  written_ok (map fst ps) ->
  numbers_fit (numbers lastn (map fst ps)) -> length done + length ps <= 256 ->
  exists st', state_of k (from k 0 (done ++ combine (numbers lastn (map fst ps)) (map snd ps))) st' /\
  run st (map (fun p => Push (fst p) (snd p)) ps ++ rest) =
  match run st' rest with
  | Ret outs => Ret (map OCallout (from k (length done) (combine (numbers lastn (map fst ps)) (map snd ps))) ++ outs)
  | Panic => Panic
  end.
Proof.
  induction ps as [|[num xml] ps IH]; intros done st rest lastn HS HL Hnz Hle HW HF HN.
  - exists st. cbn. rewrite app_nil_r. split; [exact HS|]. now destruct (run st rest).
  - cbn [map fst snd numbers combine app] in *.
    set (x := match num with Some k => k | None => S lastn end) in *.
    assert (Hx0 : x <> 0) by (inversion HW as [|? ? Hw _]; subst; subst x; destruct num as [[|?]|]; congruence).
    assert (HP : exists st1, push_callout st num xml = Ret (st1, Callout k (length done) x xml) /\ state_of k (from k 0 (done ++ [(x, xml)])) st1).
    { destruct done as [|d done0] eqn:ED.
      - cbn in HS. exists [Callout k 0 x xml]. cbn. split; [|reflexivity].
        subst lastn. cbn in x.
        destruct HS as [->|[-> ->]]; unfold push_callout; cbn; (replace (or_default num 1) with x by (subst x; destruct num; reflexivity)); reflexivity.
      - destruct (exists_last (l := d :: done0)) as (bfr & [ln lx] & EL); [discriminate|].
        rewrite EL in HS |- *. rewrite <- ED in *. rewrite EL in *. clear ED EL.
        rewrite from_snoc in HS. assert (HS' : st = from k 0 bfr ++ [Callout k (0 + length bfr) ln lx]) by (destruct (from k 0 bfr); exact HS). clear HS. subst st.
        assert (EL : lastn = ln) by (rewrite HL, map_app; apply last_last). clear HL. subst lastn.
        rewrite map_app in Hnz, Hle. apply Forall_app in Hnz. destruct Hnz as [_ Hl0]. inversion Hl0 as [|? ? Hl0' _]; subst. cbn in Hl0'.
        specialize (Hle ltac:(discriminate)). apply Forall_app in Hle. destruct Hle as [_ Hl]. inversion Hl as [|? ? Hl' _]; subst. cbn in Hl'.
        rewrite app_length in *. cbn [length] in *.
        exists ((from k 0 bfr ++ [Callout k (0 + length bfr) ln lx]) ++ [Callout k (length bfr + 1) x xml]).
        split.
        + unfold push_callout. rewrite rev_app_distr. cbn [rev app number callout_idx list_idx].
          destruct (Nat.eqb_spec ln 0); [easy|].
          rewrite !add_u8_ok by lia. cbn [Nat.add]. do 2 f_equal; (replace (or_default num (ln + 1)) with x by (subst x; destruct num; cbn; lia)); reflexivity.
        + rewrite !from_snoc. rewrite app_length. cbn [length Nat.add]. destruct (from k 0 bfr); reflexivity. }
    destruct HP as (st1 & HP & HS1). cbn [run]. rewrite HP.
    assert (HF2 : numbers_fit (numbers x (map fst ps))).
    { destruct HF as [F1 F2]. inversion F1; subst. split; [assumption|]. intros front l E. specialize (F2 (x :: front) l). rewrite E in F2. specialize (F2 eq_refl). now inversion F2. }
    assert (Hx : ps <> [] -> x <= 254).
    { intro Hp. destruct HF as [_ F2]. destruct ps as [|p ps]; [easy|]. cbn [map numbers] in F2.
      match type of F2 with forall front lastn, x :: ?y :: ?l = _ -> _ => destruct (exists_last (l := y :: l)) as (bf & z & E); [discriminate|]; specialize (F2 (x :: bf) z) end.
      rewrite E in F2. specialize (F2 eq_refl). now inversion F2. }
    specialize (IH (done ++ [(x, xml)]) st1 rest x HS1).
    destruct IH as (st' & HS' & HR).
    { rewrite map_app. cbn. now rewrite last_last. }
    { rewrite map_app. apply Forall_app. split; [exact Hnz|]. constructor; [exact Hx0|constructor]. }
    { intro Hp. rewrite map_app. apply Forall_app. split; [apply Hle; discriminate|]. constructor; [now apply Hx|constructor]. }
    { inversion HW; assumption. }
    { exact HF2. }
    { rewrite app_length. cbn [length] in *. lia. }
    exists st'. split; [rewrite <- app_assoc in HS'; exact HS'|].
    rewrite HR. destruct (run st' rest) as [outs|]; [|reflexivity].
    rewrite app_length. cbn [length from map app]. rewrite Nat.add_1_r. reflexivity.
Qed.

Lemma advance_ok k cs st : state_of k cs st -> (k = 0 -> cs <> []) -> k <= 254 -> (exists i n x, cs = [] \/ exists bf, cs = bf ++ [Callout k i n x]) ->
  advance_callout_list st = Ret [Callout (S k) 0 0 false].
Proof.
  intros HS Hk Hb (i & n & x & [->|[bf ->]]).
  - cbn in HS. destruct HS as [->|[-> ->]]; [|now destruct (Hk eq_refl)].
    unfold advance_callout_list. cbn [rev app list_idx]. rewrite add_u8_ok by lia. now rewrite Nat.add_1_r.
  - assert (E : st = bf ++ [Callout k i n x]) by (destruct bf; exact HS). subst st.
    unfold advance_callout_list. rewrite rev_app_distr. cbn [rev app list_idx]. rewrite add_u8_ok by lia. now rewrite Nat.add_1_r.
Qed.
Lemma from_last k i ps : exists j n x, from k i ps = [] \/ exists bf, from k i ps = bf ++ [Callout k j n x].
Proof.
  destruct (from k i ps) as [|c l] eqn:E; [exists 0, 0, false; now left|].
  destruct ps as [|p ps]; [discriminate|]. destruct (exists_last (l := p :: ps)) as (bf & [n x] & E2); [discriminate|].
  rewrite <- E, E2, from_snoc. eexists _, _, _. right. eexists. reflexivity.
Qed.

Lemma scopes_ok ss : forall k st, state_of k [] st -> (k = 0 -> match ss with [] => True | s :: _ => pushes s <> [] end) ->
  Forall scope_ok ss -> k + length ss <= 255 ->
  exists outs, run st (flat_map events_of ss) = Ret outs /\ right k ss outs.
Proof.
  induction ss as [|s ss IH]; intros k st HS Hk Hok HN; [exists []; split; [reflexivity|constructor]|].
  inversion Hok as [|? ? (W1 & W2 & F1 & L1 & F2) Hok']; subst. cbn [length] in HN.
  cbn [flat_map]. unfold events_of at 1. rewrite <- app_assoc.
  destruct (pushes_ok k (pushes s) [] st ([CList (items s)] ++ flat_map events_of ss) 0 HS eq_refl (Forall_nil _) (fun _ => Forall_nil _) W1 F1 L1) as (st' & HS' & HR).
  rewrite HR. clear HR. cbn [app length] in *. fold (scope_callouts k (pushes s)) in *.
  destruct (items_ok k _ st' 0 (items s) HS' (numbers_pos 0 _ W2) F2) as (its & EI & RI).
  cbn [run]. rewrite EI.
  assert (HC : k = 0 -> scope_callouts k (pushes s) <> []).
  { intros E. specialize (Hk E). intro H. apply (f_equal (@length _)) in H. unfold scope_callouts in H. rewrite from_length in H. destruct (pushes s) as [|[? ?] ?]; easy. }
  rewrite (advance_ok k _ st' HS' HC ltac:(lia) (from_last k 0 _)).
  assert (HS2 : state_of (S k) [] [Callout (S k) 0 0 false]) by now left.
  destruct (IH (S k) [Callout (S k) 0 0 false] HS2 ltac:(discriminate) Hok' ltac:(lia)) as (outs & -> & R).
  eexists. split; [reflexivity|]. constructor; assumption.
Qed.

Lemma from_ids k ps : forall i c, In c (from k i ps) -> list_idx c = k /\ i <= callout_idx c.
Proof.
  induction ps as [|[n x] ps IH]; intros i c H; [easy|]. cbn in H. destruct H as [<-|H]; [cbn; lia|]. apply IH in H. lia.
Qed.
Lemma from_nodup k ps : forall i, NoDup (map callout_id (from k i ps)).
Proof.
  induction ps as [|[n x] ps IH]; intro i; cbn; constructor; auto.
  rewrite in_map_iff. intros (c & E & H). apply from_ids in H. unfold callout_id in E. cbn in E. injection E as ? ?. lia.
Qed.
Lemma callouts_in_app x y : callouts_in (x ++ y) = callouts_in x ++ callouts_in y.
Proof. induction x as [|[c|l] x IH]; cbn; rewrite ?IH; reflexivity. Qed.
Lemma callouts_in_map cs : callouts_in (map OCallout cs) = cs.
Proof. induction cs; cbn; congruence. Qed.
Lemma right_ids k ss outs : right k ss outs -> NoDup (map callout_id (callouts_in outs)) /\ forall c, In c (callouts_in outs) -> k <= list_idx c.
Proof.
  induction 1 as [k|k s rest its outs I R [ND HI]]; [split; [constructor|easy]|].
  rewrite callouts_in_app, callouts_in_map. cbn [callouts_in]. split.
  - rewrite map_app. assert (H1 := from_nodup k (combine (numbers 0 (map fst (pushes s))) (map snd (pushes s))) 0). fold (scope_callouts k (pushes s)) in H1.
    assert (Hd : forall a, In a (map callout_id (scope_callouts k (pushes s))) -> ~ In a (map callout_id (callouts_in outs))).
    { intros a Ha Hb. rewrite in_map_iff in Ha, Hb. destruct Ha as (c & <- & Hc). destruct Hb as (d & E & Hd). apply HI in Hd. apply from_ids in Hc. unfold callout_id in E. injection E as ? ?. lia. }
    revert H1 Hd. generalize (map callout_id (scope_callouts k (pushes s))). induction l as [|a l IH]; intros H1 Hd; [exact ND|].
    cbn. inversion H1; subst. constructor; [|apply IH; auto; intros; apply Hd; now right].
    rewrite in_app_iff. intros [H|H]; [easy|]. apply (Hd a); [now left|exact H].
  - intros c H. apply in_app_iff in H. destruct H as [H|H]; [apply from_ids in H; lia|apply HI in H; lia].
Qed.
Lemma numbers_auto bfr n : numbers bfr (repeat None n) = seq (S bfr) n.
Proof. revert bfr. induction n as [|n IH]; intro bfr; cbn; [reflexivity|]. now rewrite IH. Qed.

Lemma digit_of_some c : Text.digit c <-> exists d, digit_of c = Some d.
Proof.
  split.
  - unfold Text.digit. cbn. intros H. repeat destruct H as [<-|H]; try (eexists; reflexivity). destruct H.
  - intros [d H]. destruct c as [[] [] [] [] [] [] [] []]; try discriminate H; unfold Text.digit; cbn; tauto.
Qed.
Lemma filter_digits ds : Forall Text.digit ds -> filter (fun c => match digit_of c with Some _ => true | None => false end) ds = ds.
Proof.
  induction 1 as [|c ds H _ IH]; [reflexivity|]. cbn [filter]. apply digit_of_some in H. destruct H as [d ->]. now rewrite IH.
Qed.
Lemma written_digits t lexeme : written_callout t lexeme ->
  filter (fun c => match digit_of c with Some _ => true | None => false end) lexeme = filter (fun c => match digit_of c with Some _ => true | None => false end) t.
Proof.
  intros [->| ->]; rewrite !filter_app; cbn; rewrite app_nil_r; reflexivity.
Qed.
Lemma parse_num_digits ds lexeme : written_callout ds lexeme -> ds <> [] -> Forall Text.digit ds ->
  parse_callout_num lexeme = if (Text.value ds <? 256)%N then Some (N.to_nat (Text.value ds)) else None.
Proof.
  intros W N F. unfold parse_callout_num. rewrite (written_digits _ _ W), (filter_digits _ F).
  destruct ds as [|c ds]; [easy|]. destruct (N.ltb_spec (Text.value (c :: ds)) 256) as [L|L].
  - assert (E : parse_bounded 256 (c :: ds) = Some (Text.value (c :: ds))) by (apply parse_bounded_spec; exists (c :: ds); auto).
    rewrite E. reflexivity.
  - destruct (parse_bounded 256 (c :: ds)) as [n|] eqn:E; [|reflexivity].
    apply parse_bounded_spec in E. destruct E as (ds' & [Q|Q] & _ & _ & -> & L').
    + rewrite <- Q in L'. lia.
    + injection Q as -> _. inversion F as [|? ? Hd _]; subst. apply digit_of_some in Hd. destruct Hd. discriminate.
Qed.

Lemma from_auto k (xs : list bool) : forall m i, let cs := from k i (combine (seq m (length xs)) xs) in
  map number cs = seq m (length xs) /\ map callout_idx cs = seq i (length xs) /\ Forall (fun c => list_idx c = k) cs.
Proof.
  cbv zeta. induction xs as [|x xs IH]; intros m i; cbn; [auto|].
  destruct (IH (S m) (S i)) as (E1 & E2 & E3). rewrite E1, E2. auto.
Qed.
