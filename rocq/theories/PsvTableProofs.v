From Verif Require Import PsvSpec Text ColsModel PsvProofs PsvRowProofs.
Open Scope nat_scope.

(** ** Whole tables of rows that fill the columns *)
Definition is_some {A} (o : option A) : bool := match o with Some _ => true | None => false end.
Lemma span_fits ws w : In w ws -> or_default (col_span (w_spec w)) 0 <= row_width (shapes ws).
Proof.
  induction ws as [|v ws IH]; [intros []|]; intros [->|I]; rewrite shapes_cons, width_app, width_repeat.
  - assert (1 <= copies (w_spec w)) by (unfold copies; lia). unfold cols_of, shape_of, content. cbn [fst]. destruct (copies (w_spec w)); [lia|]. cbn [Nat.mul]. destruct (col_span (w_spec w)); cbn [or_default]; lia.
  - specialize (IH I). lia.
Qed.
Lemma psv_no_cell sep cs n c h ps i : parse_psv_table_cell sep cs n (Reader [] c h ps) i = Done (None, Reader [] c h ps).
Proof. reflexivity. Qed.
Lemma map_copied_one reads : Forall (fun p : cell * nat => 1 <= snd p) reads <-> Forall (fun k => 1 <= k) (map snd reads).
Proof. rewrite Forall_map. reflexivity. Qed.
Lemma place_body h t row : place_row false h t row = Done (HS (settle (hdr h)) (reparse h) (has_header h), Table (t_header t) (t_rows t ++ [row])).
Proof. reflexivity. Qed.
Lemma kept_nil_settle h kept b : kept_ok h kept -> kept_ok (HS (settle (hdr h)) (reparse h) b) kept \/ b <> has_header h.
Proof.
  intro K. destruct (Bool.bool_dec b (has_header h)) as [->|]; [left|right; assumption]. unfold kept_ok in *. cbn [hdr reparse has_header]. intros N O. apply K; [exact N|]. unfold settle in O. destruct (hdr h); cbn [is_unknown] in O; destruct O; try discriminate; auto.
Qed.

Lemma rows_written sep cs n : n < 256 -> forall wss fuel above s t kept,
  Forall (Forall (cell_ok sep)) wss -> toks (rd s) = sources (concat wss) -> fills n above (map shapes wss) -> spilled s = [] ->
  (forall j, row_idx s <= j -> cnt (phantom s) j = hanging above (1 + j - row_idx s)) -> length wss < fuel -> kept_ok (hs (rd s)) kept ->
  (t_rows t = [] -> has_header (hs (rd s)) = false -> kept = [] /\ t_header t = None /\
    (hdr (hs (rd s)) = HSet \/ hdr (hs (rd s)) = HUnset \/ hdr (hs (rd s)) = HNone \/ (hdr (hs (rd s)) = HUnknown /\ match wss with ws :: _ => Forall (fun w => copies (w_spec w) = 1) ws | [] => True end))) ->
  exists t' s', psv_rows fuel sep cs n s t = Done (t', s') /\ probs (rd s') = probs (rd s) /\
    map (map shape_of_cell) (opt_row (t_header t') ++ t_rows t') = map (map shape_of_cell) (opt_row (t_header t) ++ t_rows t) ++ map shapes wss /\
    is_some (t_header t') = is_some (t_header t) || (match t_rows t with [] => negb (has_header (hs (rd s))) | _ => false end &&
      match wss with ws :: _ => known_to_exist (fold_left after (map (fun w => snd (content w)) ws) (hdr (hs (rd s)))) | [] => false end).
Proof.
  intros NS. induction wss as [|ws wss IH]; intros fuel above s t kept OK T FI SP CN FU K H1.
  - destruct fuel as [|fuel]; [cbn in FU; lia|]. cbn [psv_rows]. unfold parse_psv_table_row. rewrite SP. cbn [length]. rewrite Nat.min_0_r. cbn [firstn skipn length].
    cbn [map fills] in FI. fold (cnt (phantom s) (row_idx s)). rewrite CN by lia. replace (1 + row_idx s - row_idx s) with 1 by lia.
    rewrite (proj2 (Nat.eqb_neq 0 (n - hanging above 1))) by lia. cbn [concat sources flat_map] in T. destruct s as [[l c h ps] ph idx sp]. cbn [rd toks probs hs phantom row_idx spilled] in *. subst l.
    cbn [row_cells]. cbn [rd toks]. cbn [row_cells size]. rewrite psv_no_cell. cbn [rbind]. exists t. eexists. split; [reflexivity|]. cbn [rd probs]. split; [reflexivity|]. cbn [map]. rewrite app_nil_r. split; [reflexivity|].
    rewrite andb_false_r, orb_false_r. reflexivity.
  - destruct fuel as [|fuel]; [cbn in FU; lia|]. cbn [length] in FU. pose proof (Forall_inv OK) as OW. pose proof (Forall_inv_tail OK) as OK'. cbn [map fills] in FI. destruct FI as (FW & FC & FR & FI).
    cbn [concat] in T. unfold sources in T. rewrite flat_map_app in T. fold (sources ws) (sources (concat wss)) in T.
    assert (OKC : Forall (cell_ok sep) (concat wss)) by (clear -OK'; induction OK'; cbn [concat]; [constructor|apply Forall_app; auto]).
    assert (FOL : follows sep (sources (concat wss))) by (rewrite <- (app_nil_r (sources (concat wss))); apply sources_follow; [exact OKC|left; reflexivity]).
    assert (G0 : grid (phantom s) (row_idx s) above [] (cnt (phantom s) (row_idx s))) by (apply grid_start; exact CN).
    assert (EFF : cnt (phantom s) (row_idx s) = hanging above 1) by (rewrite CN by lia; f_equal; lia).
    (* the row *)
    assert (ROW : exists reads ph count h, parse_psv_table_row sep cs n s = Done (Some (copied reads), Rows (Reader (sources (concat wss)) count h (probs (rd s))) ph (S (row_idx s)) []) /\
      map shape_of_cell (copied reads) = shapes ws /\ map snd reads = map (fun w => copies (w_spec w)) ws /\ grid ph (row_idx s) above (shapes ws) n /\
      kept_ok h (kept ++ map fst reads) /\ has_header h = has_header (hs (rd s)) /\ hdr h = fold_left after (map (fun w => snd (content w)) ws) (hdr (hs (rd s)))).
    { unfold parse_psv_table_row. rewrite SP. cbn [length]. rewrite Nat.min_0_r. cbn [firstn skipn length]. fold (cnt (phantom s) (row_idx s)). rewrite EFF.
      destruct ws as [|w ws0].
      - change (row_width (shapes [])) with 0 in FW. replace (n - hanging above 1) with 0 by lia. cbn [Nat.eqb]. exists [], (phantom s), (counting (rd s)), (hs (rd s)). cbn [copied flat_map map]. cbn [sources flat_map app] in T.
        rewrite app_nil_r. destruct s as [[l c h ps] ph idx sp]. cbn [rd toks probs hs phantom row_idx spilled counting] in *. subst l.
        split; [reflexivity|]. split; [reflexivity|]. split; [reflexivity|]. split; [|auto]. replace n with (cnt ph idx) by lia. exact G0.
      - assert (W1 : 1 <= row_width (shapes (w :: ws0))).
        { rewrite shapes_cons in *. rewrite width_app, width_repeat. apply Forall_app in FC as [FC _]. assert (1 <= copies (w_spec w)) by (unfold copies; lia). destruct (copies (w_spec w)); [lia|]. cbn [repeat] in FC. apply Forall_inv in FC.
          unfold cols_of. cbn [Nat.mul]. lia. }
        rewrite (proj2 (Nat.eqb_neq 0 (n - hanging above 1))) by lia.
        destruct (row_written sep cs n above (sources (concat wss)) FOL (w :: ws0) (S (size (toks (rd s)))) (Rows (rd s) (phantom s) (row_idx s) []) (hanging above 1) [] [] kept) as (reads & ph & count & h & E & S1 & M1 & G1 & K1 & H2 & A1); cbn [rd phantom row_idx spilled] in *; auto.
        + discriminate.
        + rewrite T, size_app. pose proof (sources_size (w :: ws0)). lia.
        + intros v I. right. apply span_fits in I. rewrite Nat.mod_small by lia. lia.
        + intros _ v I. apply span_fits in I. rewrite Nat.mod_small by lia. lia.
        + rewrite <- EFF. exact G0.
        + exists reads, ph, count, h. rewrite E. cbn [rbind app] in *. destruct (copied reads) as [|c0 cr] eqn:CE.
          * exfalso. cbn [map] in S1. rewrite <- S1 in W1. cbn in W1. lia.
          * cbn [rd phantom row_idx spilled]. repeat split; auto; apply G1. }
    destruct ROW as (reads & ph & count & h & E & S1 & M1 & G1 & K1 & H2 & A1).
    cbn [psv_rows]. rewrite E. cbn [rbind rd hs]. unfold push_table_row.
    assert (POS : Forall (fun p : cell * nat => 1 <= snd p) reads) by (apply map_copied_one; rewrite M1; apply Forall_map, Forall_forall; intros w _; unfold copies; lia).
    set (b := match t_rows t with [] => negb (has_header h) && known_to_exist (hdr h) | _ :: _ => false end).
    assert (PL : exists h' t', place_row b h t (copied reads) = Done (h', t') /\
      map (map shape_of_cell) (opt_row (t_header t') ++ t_rows t') = map (map shape_of_cell) (opt_row (t_header t) ++ t_rows t) ++ [shapes ws] /\
      is_some (t_header t') = is_some (t_header t) || b /\
      (exists kept', kept_ok h' kept') /\ (t_rows t' = [] -> has_header h' = false -> False) /\ (b = true -> t_rows t' = [] /\ has_header h' = true)).
    { destruct b eqn:B.
      - unfold b in B. destruct (t_rows t) eqn:TR; [|discriminate]. apply andb_true_iff in B as [NH KN]. apply negb_true_iff in NH. rewrite H2 in NH. destruct (H1 eq_refl NH) as (-> & TN & HD). cbn [app] in K1.
        rewrite <- H2 in NH. pose proof (place_first true h t reads K1 NH POS) as P. destruct (place_row true h t (copied reads)) as [[h' t']| |].
        + exists h', t'. split; [reflexivity|]. destruct P as (P1 & P2 & P3 & P4). rewrite P1, TR, TN, S1. cbn [opt_row map app]. split; [reflexivity|]. rewrite orb_true_r. split; [destruct (t_header t'); [reflexivity|congruence]|].
          split; [exists []; intros C; congruence|]. rewrite P3, TR, P2. split; [discriminate|auto].
        + exfalso. destruct P as (_ & HI & ND). rewrite A1 in HI. assert (ST : forall bs x, x <> HUnknown -> fold_left after bs x = x) by (clear; induction bs as [|y bs I]; intros x X; [reflexivity|]; cbn [fold_left]; unfold after at 2; destruct x; try congruence; apply I; discriminate).
          destruct HD as [HD|[HD|[HD|[HD ONE]]]]; rewrite ?HD in HI; try (rewrite ST in HI by discriminate; discriminate).
          apply ND. clear -M1 ONE. apply Forall_map with (f := snd) (P := fun k => k = 1). rewrite M1. apply Forall_map. exact ONE.
        + contradiction.
      - rewrite place_body. do 2 eexists. split; [reflexivity|]. cbn [t_header t_rows]. rewrite app_assoc, map_app. cbn [map]. rewrite S1. split; [reflexivity|]. rewrite orb_false_r. split; [reflexivity|].
        split; [eexists; destruct (kept_nil_settle h _ (has_header h) K1) as [X|X]; [exact X|congruence]|]. split; [intros X; destruct (t_rows t); discriminate|discriminate]. }
    destruct PL as (h' & t' & PE & P1 & P2 & (kept' & PK) & PN & PB). fold b. rewrite PE. cbn [rbind with_hs toks counting probs phantom row_idx spilled].
    destruct (IH fuel (shapes ws :: above) (Rows (Reader (sources (concat wss)) count h' (probs (rd s))) ph (S (row_idx s)) []) t' kept') as (t2 & s2 & E2 & PR2 & R2 & HH2); cbn [rd toks hs probs phantom row_idx spilled] in *; auto.
    + apply (grid_finish ph (row_idx s) above (shapes ws) n G1).
    + lia.
    + intros X Y. destruct (PN X Y).
    + exists t2, s2. split; [exact E2|]. split; [exact PR2|]. rewrite R2, P1, <- app_assoc. cbn [map app]. split; [reflexivity|]. rewrite HH2, P2.
      assert (Z : match t_rows t' with [] => negb (has_header h') | _ :: _ => false end = false) by (destruct (t_rows t'); [destruct (has_header h'); [reflexivity|destruct (PN eq_refl eq_refl)]|reflexivity]).
      rewrite Z. cbn [andb]. rewrite orb_false_r. f_equal. unfold b. rewrite H2, A1. destruct (t_rows t); [reflexivity|reflexivity].
Qed.

(** ** The first row when columns are counted *)
Record top (m : bool) (ph : list place) (cells : list cell) : Prop := Top {
  p_cnt : forall j, 0 < j -> cnt ph j = hangs (map shape_of_cell cells) j;
  p_col : m = true -> forall p, In p ph -> 0 < fst p -> snd p < length cells }.
Lemma top_add m ph cells c : top m ph cells -> (if m then c_cols c = 1 else c_rows c <= 1) -> top m (add_phantom_cells ph c 0 (length cells)) (cells ++ [c]).
Proof.
  intros [PC PL] H. unfold add_phantom_cells. constructor.
  - intros j L. rewrite fold_cnt.
    + rewrite cell_places_cnt, PC by exact L. rewrite map_app, hangs_app. cbn [map]. unfold hangs at 3. cbn [map list_sum fold_right shape_of_cell fst snd]. rewrite Nat.sub_0_r. lia.
    + apply cell_places_nodup.
    + intros p I E N. apply cell_places_in in I as (r & k & -> & RL & KL & _). cbn [fst] in E. destruct m.
      * specialize (PL eq_refl _ N). cbn [fst snd] in PL. lia.
      * lia.
  - intros -> p I L. rewrite app_length. cbn [length]. apply fold_in in I as [I|I]; [apply cell_places_in in I as (r & k & -> & RL & KL & _); cbn [snd]; lia|]. specialize (PL eq_refl p I L). lia.
Qed.
Lemma first_copies_top m c : (if m : bool then c_cols c = 1 else c_rows c <= 1) -> forall k cells ph, top m ph cells ->
  exists ph', first_copies k c cells ph = (cells ++ repeat c k, ph') /\ top m ph' (cells ++ repeat c k).
Proof.
  intro H. induction k as [|k IH]; intros cells ph T; cbn [first_copies repeat]; [exists ph; rewrite app_nil_r; auto|].
  destruct (IH (cells ++ [c]) _ (top_add _ _ _ _ T H)) as (ph' & E & T'). exists ph'. rewrite E. rewrite <- !app_assoc in *. cbn [app] in *. auto.
Qed.
Lemma first_written sep m rest : follows sep rest -> forall ws fuel r cells ph row, Forall (cell_ok sep) ws -> length ws < fuel -> toks r = sources ws ++ rest -> counting r = true ->
  Forall (fun x => if m : bool then cols_of x = 1 else rows_of x <= 1) (shapes ws) -> ws <> [] ->
  (forall a w b, ws = a ++ w :: b -> b <> [] -> no_nl (snd (content w)) = true) -> (rest = [] \/ exists a w, ws = a ++ [w] /\ no_nl (snd (content w)) = false) ->
  top m ph cells -> kept_ok (hs r) row ->
  exists reads ph' count h, psv_first_cells fuel sep [] 0 r cells ph = Done (cells ++ copied reads, ph', Reader rest count h (probs r)) /\
    map shape_of_cell (copied reads) = shapes ws /\ map snd reads = map (fun w => copies (w_spec w)) ws /\ top m ph' (cells ++ copied reads) /\
    kept_ok h (row ++ map fst reads) /\ has_header h = has_header (hs r) /\ hdr h = fold_left after (map (fun w => snd (content w)) ws) (hdr (hs r)).
Proof.
  intros FR. induction ws as [|w ws IH]; intros fuel r cells ph row OK FU T CT MD NE INN LST TP K; [congruence|]. clear NE.
  destruct fuel as [|fuel]; [cbn in FU; lia|]. cbn [length] in FU. pose proof (Forall_inv OK) as OW. pose proof (Forall_inv_tail OK) as OK'.
  unfold sources in T. cbn [flat_map] in T. fold (sources ws) in T. rewrite <- app_assoc in T.
  pose proof (sources_follow sep ws rest OK' FR) as FO.
  destruct (finish_cell Prefix [] (hs r) (w_spec w) (snd (content w)) (length cells)) as [[c d] h] eqn:FIN.
  pose proof (finish_spec _ _ _ _ _ _ _ _ _ _ K FIN) as (SH & D & K' & HH & _). pose proof (finish_after _ _ _ _ _ _ _ _ FIN) as HU.
  cbn [psv_first_cells]. rewrite (psv_cell_written _ _ _ _ _ _ _ _ _ _ OW FO T (or_introl CT) FIN). cbn [rbind].
  assert (SHE : shape_of (w_spec w, snd (content w)) = shape_of (content w)) by (unfold content; reflexivity). rewrite SHE in SH.
  rewrite shapes_cons in MD. assert (CP : 1 <= copies (w_spec w)) by (unfold copies; lia).
  assert (MC : if m then c_cols c = 1 else c_rows c <= 1).
  { change (c_cols c) with (cols_of (shape_of_cell c)). change (c_rows c) with (rows_of (shape_of_cell c)). rewrite SH. apply Forall_app in MD as [MD _]. destruct (copies (w_spec w)); [lia|]. cbn [repeat] in MD. apply Forall_inv in MD. exact MD. }
  apply Forall_app in MD as [_ MD].
  assert (DC : Nat.max 1 d = copies (w_spec w)) by (rewrite D; unfold copies; lia). rewrite DC.
  destruct (first_copies_top m c MC (copies (w_spec w)) cells ph TP) as (ph' & E & TP'). rewrite E. cbn [counting]. rewrite CT. cbn [andb].
  assert (ONE : ws = [] -> forall ct, exists reads ph'' count h', Done (cells ++ repeat c (copies (w_spec w)), ph', Reader (sources ws ++ rest) ct h (probs r)) = Done (cells ++ copied reads, ph'', Reader rest count h' (probs r)) /\
    map shape_of_cell (copied reads) = shapes (w :: ws) /\ map snd reads = map (fun w => copies (w_spec w)) (w :: ws) /\ top m ph'' (cells ++ copied reads) /\
    kept_ok h' (row ++ map fst reads) /\ has_header h' = has_header (hs r) /\ hdr h' = fold_left after (map (fun w => snd (content w)) (w :: ws)) (hdr (hs r))).
  { intros -> ct. exists [(c, copies (w_spec w))], ph', ct, h. rewrite shapes_cons. change (shapes []) with (@nil shape). unfold copied. cbn [flat_map map fst snd sources app fold_left]. rewrite !app_nil_r, map_repeat, SH. repeat split; auto; apply TP'. }
  destruct (no_nl (snd (content w))) eqn:NN.
  - destruct ws as [|v ws].
    + destruct LST as [->|(a & w' & EQ & X)].
      * destruct fuel as [|fuel]; [cbn in FU; lia|]. cbn [psv_first_cells sources flat_map app]. rewrite psv_no_cell. cbn [rbind]. apply (ONE eq_refl).
      * exfalso. destruct a as [|a0 a]; [injection EQ as <-; congruence|destruct a; discriminate].
    + destruct (IH fuel (Reader (sources (v :: ws) ++ rest) true h (probs r)) (cells ++ repeat c (copies (w_spec w))) ph' (row ++ [c])) as (reads & ph2 & count & h2 & E2 & S2 & M2 & T2 & K2 & H2 & A2); cbn [toks counting hs probs] in *; auto.
      * lia.
      * discriminate.
      * intros a w' b EQ. apply (INN (w :: a)). rewrite EQ. reflexivity.
      * destruct LST as [->|(a & w' & EQ & X)]; [left; reflexivity|right]. destruct a as [|a0 a]; [discriminate|]. exists a, w'. injection EQ as _ EQ. auto.
      * exists ((c, copies (w_spec w)) :: reads), ph2, count, h2. rewrite E2. rewrite <- !app_assoc in *. cbn [app] in *. unfold copied. cbn [flat_map map fst snd fold_left]. fold (copied reads). unfold copied in T2. cbn [flat_map fst snd] in T2.
        rewrite shapes_cons, map_app, map_repeat, SH, S2, M2. rewrite HU in A2. repeat split; auto; try apply T2. congruence.
  - assert (ws = []) as -> by (destruct ws as [|v ws]; [reflexivity|]; exfalso; specialize (INN [] w (v :: ws) eq_refl ltac:(discriminate)); congruence).
    apply (ONE eq_refl).
Qed.
