From Verif Require Import PsvSpec Text ColsModel PsvProofs PsvRowProofs PsvTableProofs PsvEndProofs.
Open Scope nat_scope.

(** ** Nothing is lost between the cells read and the rows of the table *)
Section Stream.
  Variables (sep : bytes) (cs : list col_spec) (n : nat).
  Definition pt (r : reader) : point := (counting r, probs r, toks r).
  Definition closed (p q : point) : Prop := let '(c, ps, l) := p in let '(c', ps', l') := q in psv_cell (S (size l)) sep n c ps l = Done (None, l', c', ps').
  Definition upto (p : point) (xs : list (cell_spec * list ttok)) (q : point) : Prop := reads sep n p xs q \/ exists m, reads sep n p xs m /\ closed m q.
  Lemma closed_nil p q : closed p q -> snd q = [].
  Proof.
    destruct p as [[c ps] l], q as [[c' ps'] l']. unfold closed. cbn [snd]. generalize (S (size l)) as f. intro f. revert c ps l. induction f as [|f IH]; intros c ps l; cbn [psv_cell]; [discriminate|].
    destruct l as [|a l]; [intro H; injection H; auto|]. destruct (match consume_cell_start sep (a :: l) with Some (spec, l0) => (spec, l0, ps) | None => (default_cell, a :: l, ps ++ [ExpectedSeparator]) end) as [[spec l0] ps0].
    destruct (psv_body _ _ _ _) as [[[body rest] count]| |]; cbn [rbind]; [|discriminate|discriminate]. destruct (_ && _); [apply IH|discriminate].
  Qed.
  Lemma closed_stays c ps q : closed (c, ps, []) q -> q = (c, ps, []).
  Proof. destruct q as [[c' ps'] l']. unfold closed. cbn. intro H. injection H as <- <- <-. reflexivity. Qed.
  Lemma reads_nil c ps xs q : reads sep n (c, ps, []) xs q -> xs = [] /\ q = (c, ps, []).
  Proof. intro H. inversion H as [|? ? ? x ? ? ? ? ? E]; subst; [auto|]. cbn in E. discriminate. Qed.
  Lemma reads_app p xs q ys r : reads sep n p xs q -> reads sep n q ys r -> reads sep n p (xs ++ ys) r.
  Proof. intros H G. induction H as [|c ps l x l1 c1 ps1 xs e E H IH]; [exact G|]. cbn [app]. econstructor; [exact E|auto]. Qed.
  Lemma upto_app p xs q ys r : upto p xs q -> upto q ys r -> upto p (xs ++ ys) r.
  Proof.
    intros [H|(m & H & C)] G.
    - destruct G as [G|(m & G & C)]; [left|right; exists m; split; [|exact C]]; eapply reads_app; eassumption.
    - pose proof (closed_nil _ _ C) as Z. destruct q as [[c ps] l]. cbn [snd] in Z. subst l. right. exists m.
      destruct G as [G|(m' & G & C')]; apply reads_nil in G as [-> ->]; rewrite app_nil_r; [auto|]. apply closed_stays in C'. subst r. auto.
  Qed.
  Lemma upto_stream p xs c ps : upto p xs (c, ps, []) -> stream sep n p xs ps.
  Proof.
    intros [H|([[mc mps] ml] & H & C)].
    - exists c, ps, [], [], c. split; [exact H|]. reflexivity.
    - exists mc, mps, ml, [], c. split; [exact H|exact C].
  Qed.
  Lemma cell_read r i o r' : parse_psv_table_cell sep cs n r i = Done (o, r') ->
    match o with
    | Some (c, d) => exists x, reads sep n (pt r) [x] (pt r') /\ finish_cell Prefix cs (hs r) (fst x) (snd x) i = (c, d, hs r')
    | None => closed (pt r) (pt r') /\ hs r' = hs r
    end.
  Proof.
    unfold parse_psv_table_cell. destruct (psv_cell _ _ _ _ _ _) as [[[[o' rest] count] ps]| |] eqn:E; cbn [rbind]; [|discriminate|discriminate].
    destruct o' as [[spec body]|].
    - destruct (finish_cell _ _ _ _ _ _) as [[c d] h] eqn:F. intro H. injection H as <- <-. exists (spec, body). cbn [hs fst snd]. split; [|exact F]. unfold pt. cbn [counting probs toks]. econstructor; [exact E|constructor].
    - intro H. injection H as <- <-. split; [exact E|reflexivity].
  Qed.
  Lemma copies_all c idx : forall k eff cells spill ph eff' cells' spill' ph', row_copies k n c idx eff cells spill ph = (eff', cells', spill', ph') ->
    exists a b, a + b = k /\ cells' = cells ++ repeat c a /\ spill' = spill ++ repeat c b /\ (0 < b -> n <= eff').
  Proof.
    induction k as [|k IH]; intros eff cells spill ph eff' cells' spill' ph'; cbn [row_copies].
    - intro H. injection H as <- <- <- <-. exists 0, 0. cbn [repeat]. rewrite !app_nil_r. repeat split; auto. lia.
    - destruct (eff + c_cols c <? n) eqn:L.
      + intro H. apply IH in H as (a & b & S1 & -> & -> & B). exists (S a), b. cbn [repeat]. rewrite <- app_assoc. repeat split; auto. lia.
      + apply Nat.ltb_ge in L. intro H. pose proof H as H0. apply IH in H as (a & b & S1 & -> & -> & B).
        assert (EG : forall k eff cells spill ph eff' cells' spill' ph', row_copies k n c idx eff cells spill ph = (eff', cells', spill', ph') -> eff <= eff').
        { clear. induction k as [|k IH]; intros eff cells spill ph eff' cells' spill' ph'; cbn [row_copies]; [intro H; injection H; lia|]. destruct (eff + c_cols c <? n); intro H; apply IH in H; lia. }
        pose proof (EG _ _ _ _ _ _ _ _ _ H0) as GE. destruct a as [|a].
        * exists 0, (S b). cbn [repeat]. rewrite <- app_assoc. split; [lia|]. split; [reflexivity|]. split; [reflexivity|]. lia.
        * exfalso. clear -H0 L.
          assert (N : forall k eff cells spill ph eff' cells' spill' ph', n <= eff -> row_copies k n c idx eff cells spill ph = (eff', cells', spill', ph') -> cells' = cells).
          { clear. induction k as [|k IH]; intros eff cells spill ph eff' cells' spill' ph' L; cbn [row_copies]; [intro H; injection H; auto|]. rewrite (proj2 (Nat.ltb_ge (eff + c_cols c) n)) by lia. intro H. apply IH in H; [exact H|lia]. }
          apply N in H0; [|exact L]. apply (f_equal (@length cell)) in H0. rewrite app_length in H0. cbn in H0. lia.
  Qed.
  Lemma row_cells_stream : forall fuel s eff cells row cells' s', spilled s = [] -> kept_ok (hs (rd s)) row -> row_cells fuel sep cs n s eff cells = Done (cells', s') ->
    exists xs rds, cells' = cells ++ copied rds /\ Forall (fun p => 1 <= snd p) rds /\ map shape_of_cell (copied rds ++ spilled s') = expand xs /\ upto (pt (rd s)) xs (pt (rd s')) /\
      kept_ok (hs (rd s')) (row ++ map fst rds) /\ has_header (hs (rd s')) = has_header (hs (rd s)) /\ row_idx s' = row_idx s /\ (rds = [] -> exists q, closed (pt (rd s)) q /\ pt (rd s') = q) /\
      (hdr (hs (rd s)) <> HUnknown -> hdr (hs (rd s')) = hdr (hs (rd s))) /\ (Forall (fun x => copies (fst x) = 1) xs -> Forall (fun p => snd p = 1) rds).
  Proof.
    induction fuel as [|fuel IH]; intros s eff cells row cells' s' SP K; [discriminate|]. cbn [row_cells].
    destruct (parse_psv_table_cell sep cs n (rd s) (length cells)) as [[o r]| |] eqn:E; cbn [rbind]; [|discriminate|discriminate]. apply cell_read in E. destruct o as [[c d]|].
    - destruct E as ([spec body] & R & FIN). cbn [fst snd] in FIN. pose proof (finish_spec _ _ _ _ _ _ _ _ _ _ K FIN) as (SH & D & K' & HH & HU).
      destruct (row_copies (d - 1) n c (row_idx s) eff cells (spilled s) (phantom s)) as [[[eff1 cells1] spill1] ph1] eqn:C. apply copies_all in C as (a & b & AB & -> & -> & BP). rewrite SP. cbn [app].
      assert (DC : S (a + b) = copies spec) by (rewrite AB, D; unfold copies; lia).
      assert (X1 : expand [(spec, body)] = map shape_of_cell (repeat c (S a) ++ repeat c b)) by (unfold expand; cbn [flat_map fst]; rewrite app_nil_r, <- repeat_app, map_repeat, SH, <- DC; reflexivity).
      assert (X2 : (cells ++ repeat c a) ++ [c] = cells ++ repeat c (S a)) by (rewrite <- app_assoc; f_equal; change [c] with (repeat c 1); rewrite <- repeat_app; f_equal; lia).
      destruct (n <=? eff1 + c_cols c) eqn:L.
      + intro H. injection H as <- <-. exists [(spec, body)], [(c, S a)]. cbn [spilled rd row_idx]. rewrite X2. unfold copied. cbn [flat_map fst snd map]. rewrite app_nil_r.
        split; [reflexivity|]. split; [constructor; [cbn; lia|constructor]|]. split; [rewrite X1; reflexivity|]. split; [left; exact R|]. repeat split; auto; [discriminate|]. intro O. apply Forall_inv in O. cbn [fst] in O. constructor; [cbn; lia|constructor].
      + apply Nat.leb_gt in L. assert (b = 0) by (destruct b; [reflexivity|]; specialize (BP ltac:(lia)); lia). subst b. cbn [repeat]. intro H.
        eapply IH in H; [|reflexivity|cbn [rd]; exact K']. destruct H as (xs & rds & -> & F & S1 & U & K2 & H2 & RI & _ & HU2 & ON2). cbn [rd row_idx] in *.
        exists ((spec, body) :: xs), ((c, S a) :: rds). cbn [copied flat_map map fst snd]. fold (copied rds). rewrite X2, <- !app_assoc in *. split; [reflexivity|]. split; [constructor; [cbn; lia|exact F]|].
        split; [change (expand ((spec, body) :: xs)) with (repeat (shape_of (spec, body)) (copies spec) ++ expand xs); rewrite map_app, map_repeat, SH, S1, <- DC, Nat.add_0_r; reflexivity|].
        split; [change ((spec, body) :: xs) with ([(spec, body)] ++ xs); eapply upto_app; [left; exact R|exact U]|]. repeat split; auto; [congruence|discriminate| |].
        * intro X. rewrite HU2 by (rewrite HU by exact X; exact X). apply HU, X.
        * intro O. pose proof (Forall_inv O) as O1. apply Forall_inv_tail in O. cbn [fst] in O1. constructor; [cbn; lia|apply ON2, O].
    - destruct E as [C HE]. intro H. injection H as <- <-. exists [], []. cbn [copied flat_map map spilled rd row_idx]. rewrite !app_nil_r, SP, HE. cbn [app].
      split; [reflexivity|]. split; [constructor|]. split; [reflexivity|]. split; [right; exists (pt (rd s)); split; [constructor|exact C]|]. repeat split; auto. intros _. exists (pt r). auto.
  Qed.
  Definition taken (t : table) : list shape := map shape_of_cell (concat (opt_row (t_header t) ++ t_rows t)).
  Lemma taken_place b h t row h' t' kept rds : place_row b h t row = Done (h', t') -> kept_ok h kept ->
    (b = true -> t_rows t = [] /\ has_header h = false /\ kept = map fst rds /\ t_header t = None /\ row = copied rds /\ Forall (fun p => 1 <= snd p) rds) ->
    taken t' = taken t ++ map shape_of_cell row /\ (exists k, kept_ok h' k) /\ (t_rows t' = [] -> has_header h' = false -> False).
  Proof.
    intros E K B. destruct b.
    - destruct (B eq_refl) as (TR & NH & -> & TN & -> & F). pose proof (place_first true h t rds K NH F) as P. rewrite E in P. destruct P as (P1 & P2 & P3 & P4).
      split; [|split; [exists []; intro X; congruence|intros _ X; congruence]]. unfold taken. rewrite TN, TR in *. cbn [opt_row app concat map] in *.
      rewrite !concat_map, P1. cbn [concat app map]. rewrite !app_nil_r. reflexivity.
    - rewrite place_body in E. injection E as <- <-. split; [unfold taken; cbn [t_header t_rows]; rewrite app_assoc, concat_app, map_app; cbn [concat]; rewrite app_nil_r; reflexivity|].
      split; [exists kept; destruct (kept_nil_settle h kept (has_header h) K) as [X|X]; [exact X|congruence]|]. cbn [t_rows]. intro X. destruct (t_rows t); discriminate.
  Qed.
  Lemma rows_stream : forall fuel s t kept t' s', kept_ok (hs (rd s)) kept -> (t_rows t = [] -> has_header (hs (rd s)) = false -> kept = [] /\ t_header t = None /\ spilled s = []) ->
    psv_rows fuel sep cs n s t = Done (t', s') -> exists xs, stream sep n (pt (rd s)) xs (probs (rd s')) /\ taken t' = taken t ++ map shape_of_cell (spilled s) ++ expand xs.
  Proof.
    induction fuel as [|fuel IH]; intros s t kept t' s' K H1; [discriminate|]. cbn [psv_rows]. unfold parse_psv_table_row.
    set (eff := row_phantom_cells (phantom s) (row_idx s)). set (k := Nat.min (n - eff) (length (spilled s))).
    assert (SPL : spilled s = firstn k (spilled s) ++ skipn k (spilled s)) by (symmetry; apply firstn_skipn).
    destruct (length (firstn k (spilled s)) =? n - eff) eqn:FULL.
    - cbn [rbind rd]. destruct (push_table_row _ _ _) as [[h t1]| |] eqn:P; cbn [rbind]; [|discriminate|discriminate]. unfold push_table_row in P.
      set (b := match t_rows t with [] => _ | _ => _ end) in P. pose proof (fun B => taken_place b (hs (rd s)) t _ h t1 kept [] P K B) as TP. destruct TP as (T1 & (k' & K') & N').
      { intro B. unfold b in B. destruct (t_rows t); [|discriminate]. apply andb_true_iff in B as [NH _]. apply negb_true_iff in NH. destruct (H1 eq_refl NH) as (-> & TN & SP). rewrite SP. rewrite firstn_nil. repeat split; auto. }
      intro H. eapply IH in H; [|cbn [rd hs with_hs]; exact K'|intros X Y; destruct (N' X Y)]. destruct H as (xs & ST & TK). cbn [rd spilled] in *. exists xs. split; [exact ST|].
      rewrite TK, T1. rewrite SPL at 3. rewrite map_app, <- !app_assoc. reflexivity.
    - apply Nat.eqb_neq in FULL. rewrite firstn_length in FULL. assert (KE : k = length (spilled s)) by lia. rewrite KE, firstn_all, skipn_all in *.
      destruct (row_cells _ _ _ _ _ _ _) as [[cells s1]| |] eqn:E; cbn [rbind]; [|discriminate|discriminate]. eapply row_cells_stream in E; [|reflexivity|exact K]. cbn [rd row_idx] in E.
      destruct E as (xs & rds & -> & F & S1 & U & K2 & H2 & RI & EMP & _).
      destruct (spilled s ++ copied rds) as [|c0 cells0] eqn:CE.
      + apply app_eq_nil in CE as [SP CR]. intro H. injection H as <- <-. assert (rds = []) as -> by (destruct rds as [|[c [|d]] rds]; [reflexivity| |discriminate]; inversion F as [|? ? L]; cbn in L; lia).
        destruct (EMP eq_refl) as (q & C & Q). exists []. rewrite SP. cbn [map app expand flat_map]. rewrite app_nil_r. split; [|reflexivity]. subst q. destruct (rd s) as [l c hh ps], (rd s1) as [l1 c1 hh1 ps1]. unfold pt in *. cbn [counting probs toks] in *.
        pose proof (closed_nil _ _ C) as Z. cbn [snd] in Z. subst l1. apply (upto_stream _ [] c1). right. eexists. split; [constructor|exact C].
      + rewrite <- CE. cbn [rbind rd hs]. destruct (push_table_row (hs (rd s1)) t (spilled s ++ copied rds)) as [[h t1]| |] eqn:P; cbn [rbind]; [|discriminate|discriminate]. unfold push_table_row in P.
        set (b := match t_rows t with [] => _ | _ => _ end) in P. pose proof (fun B => taken_place b (hs (rd s1)) t _ h t1 _ rds P K2 B) as TP. destruct TP as (T1 & (k' & K') & N').
        { intro B. unfold b in B. destruct (t_rows t); [|discriminate]. apply andb_true_iff in B as [NH _]. apply negb_true_iff in NH. rewrite H2 in NH. destruct (H1 eq_refl NH) as (-> & TN & SP). rewrite SP. cbn [app]. repeat split; auto. congruence. }
        intro H. eapply IH in H; [|cbn [rd hs with_hs]; exact K'|intros X Y; destruct (N' X Y)]. destruct H as (ys & ST & TK). cbn [rd spilled with_hs] in *. exists (xs ++ ys). split.
        * destruct ST as (c & ps & l & l' & c' & R & C). assert (C2 : closed (c, ps, l) (c', probs (rd s'), l')) by exact C. pose proof (closed_nil _ _ C2) as Z. cbn [snd] in Z. subst l'.
          apply (upto_stream _ _ c'). eapply upto_app; [exact U|]. right. exists (c, ps, l). split; [exact R|exact C2].
        * rewrite TK, T1, map_app, <- !app_assoc. f_equal. f_equal. unfold expand at 2. rewrite flat_map_app. fold (expand xs) (expand ys). rewrite app_assoc, <- map_app, S1. reflexivity.
  Qed.
  (** panics *)
  Lemma rows_later : embeddable sep = None -> sep <> [] -> forall fuel s t kept, kept_ok (hs (rd s)) kept -> (t_rows t = [] -> has_header (hs (rd s)) = false -> False) -> psv_rows fuel sep cs n s t <> Crash.
  Proof.
    intros EM NE. induction fuel as [|fuel IH]; intros s t kept K H1; [discriminate|]. cbn [psv_rows].
    assert (PUSH : forall h row, has_header h = has_header (hs (rd s)) -> push_table_row h t row = Done (HS (settle (hdr h)) (reparse h) (has_header h), Table (t_header t) (t_rows t ++ [row]))).
    { intros h row HH. unfold push_table_row. rewrite <- place_body. f_equal. destruct (t_rows t); [|reflexivity]. rewrite HH. destruct (has_header (hs (rd s))); [reflexivity|destruct (H1 eq_refl eq_refl)]. }
    assert (NEXT : forall h row kept, kept_ok h kept -> has_header h = has_header (hs (rd s)) -> forall ph idx sp l c ps, psv_rows fuel sep cs n (Rows (Reader l c (HS (settle (hdr h)) (reparse h) (has_header h)) ps) ph idx sp) (Table (t_header t) (t_rows t ++ [row])) <> Crash).
    { intros h row k K' HH ph idx sp l c ps. destruct (kept_nil_settle h k (has_header h) K') as [X|X]; [|congruence]. apply (IH _ _ k); [exact X|]. cbn [t_rows]. intro Y. destruct (t_rows t); discriminate. }
    unfold parse_psv_table_row. set (eff := row_phantom_cells (phantom s) (row_idx s)). set (k := Nat.min (n - eff) (length (spilled s))).
    destruct (length (firstn k (spilled s)) =? n - eff) eqn:FULL.
    - cbn [rbind rd]. rewrite PUSH by reflexivity. cbn [rbind]. apply (NEXT (hs (rd s)) _ kept K eq_refl).
    - apply Nat.eqb_neq in FULL. rewrite firstn_length in FULL. assert (KE : k = length (spilled s)) by lia. rewrite KE, firstn_all, skipn_all in *.
      pose proof (row_cells_no_crash sep cs n NE (S (size (toks (rd s)))) (Rows (rd s) (phantom s) (row_idx s) []) eff (spilled s) EM ltac:(cbn [rd]; lia)) as NC.
      destruct (row_cells _ _ _ _ _ _ _) as [[cells s1]| |] eqn:E; cbn [rbind]; [|congruence|discriminate]. eapply row_cells_stream in E; [|reflexivity|exact K]. cbn [rd row_idx] in E.
      destruct E as (xs & rds & -> & F & S1 & U & K2 & H2 & _). destruct (spilled s ++ copied rds) as [|c0 cells0]; [discriminate|]. cbn [rbind rd]. rewrite PUSH by exact H2. cbn [rbind].
      apply (NEXT (hs (rd s1)) _ _ K2 H2).
  Qed.
  Lemma rows_crash : embeddable sep = None -> sep <> [] -> forall fuel s t, kept_ok (hs (rd s)) [] -> t_rows t = [] -> t_header t = None -> has_header (hs (rd s)) = false -> spilled s = [] ->
    psv_rows fuel sep cs n s t = Crash -> (hdr (hs (rd s)) = HUnknown \/ hdr (hs (rd s)) = HImplicit) /\ exists xs q, reads sep n (pt (rd s)) xs q /\ ~ Forall (fun x => copies (fst x) = 1) xs.
  Proof.
    intros EM NE. destruct fuel as [|fuel]; intros s t K TR TN NH SP; [discriminate|]. cbn [psv_rows]. unfold parse_psv_table_row. rewrite SP. cbn [length]. rewrite Nat.min_0_r. cbn [firstn skipn length].
    set (eff := row_phantom_cells (phantom s) (row_idx s)).
    assert (TAIL : forall h t1 l c ps ph idx sp, (exists k, kept_ok h k) /\ (t_rows t1 = [] -> has_header h = false -> False) -> psv_rows fuel sep cs n (Rows (with_hs (Reader l c (hs (rd s)) ps) h) ph idx sp) t1 = Crash -> False).
    { intros h t1 l c ps ph idx sp [[k KK] N] C. apply (rows_later EM NE) with (kept := k) in C; cbn [rd hs with_hs]; assumption. }
    assert (DOIT : forall rds h (l : list ttok) (c : bool) (ps : list problem) ph idx sp, kept_ok h (map fst rds) -> has_header h = false -> Forall (fun p => 1 <= snd p) rds ->
      (do (h1, t1) <- push_table_row h t (copied rds); psv_rows fuel sep cs n (Rows (with_hs (Reader l c h ps) h1) ph idx sp) t1) = Crash -> hdr h = HImplicit /\ ~ Forall (fun p => snd p = 1) rds).
    { intros rds h l c ps ph idx sp KK NHH F. unfold push_table_row. rewrite TR, NHH. cbn [negb andb].
      pose proof (place_first (known_to_exist (hdr h)) h t rds KK NHH F) as P. destruct (place_row (known_to_exist (hdr h)) h t (copied rds)) as [[h1 t1]| |] eqn:PE; cbn [rbind]; [|tauto|contradiction].
      intro C. exfalso. eapply taken_place with (kept := map fst rds) (rds := rds) in PE; [|exact KK|intros _; repeat split; auto]. eapply TAIL; [apply PE|]. exact C. }
    destruct (0 =? n - eff) eqn:FULL.
    - cbn [rbind rd]. intro C. exfalso. destruct (rd s) as [l c hh ps]. eapply (DOIT [] hh) in C; [|exact K|exact NH|constructor]. destruct C as [_ C]. apply C. constructor.
    - pose proof (row_cells_no_crash sep cs n NE (S (size (toks (rd s)))) (Rows (rd s) (phantom s) (row_idx s) []) eff [] EM ltac:(cbn [rd]; lia)) as NC.
      destruct (row_cells _ _ _ _ _ _ _) as [[cells s1]| |] eqn:E; cbn [rbind]; [|congruence|discriminate]. eapply row_cells_stream in E; [|reflexivity|exact K]. cbn [rd row_idx app] in E.
      destruct E as (xs & rds & -> & F & S1 & U & K2 & H2 & RI & EMP & HU & ON). cbn [app] in *. destruct (copied rds) as [|c0 cells0] eqn:CE; [discriminate|]. rewrite <- CE. cbn [rbind rd]. intro C.
      destruct (rd s1) as [l1 c1 h1 ps1] eqn:RD. cbn [hs] in *. eapply (DOIT rds h1) in C; [|exact K2|rewrite H2; exact NH|exact F]. destruct C as [HI ND]. split.
      + destruct (hdr (hs (rd s))) eqn:HD; auto; rewrite HU in HI by discriminate; discriminate.
      + destruct U as [R|(m & R & _)]; exists xs; eexists; (split; [exact R|intro O; apply ND, ON, O]).
  Qed.
End Stream.

(** ** The first row when columns are counted *)
Lemma first_copies_all c : forall k cells ph, fst (first_copies k c cells ph) = cells ++ repeat c k.
Proof. induction k as [|k IH]; intros cells ph; cbn [first_copies repeat]; [rewrite app_nil_r; reflexivity|]. rewrite IH, <- app_assoc. reflexivity. Qed.
Lemma first_stream sep : forall fuel r cells ph row cells' ph' r', kept_ok (hs r) row -> psv_first_cells fuel sep [] 0 r cells ph = Done (cells', ph', r') ->
  exists xs rds, cells' = cells ++ copied rds /\ Forall (fun p => 1 <= snd p) rds /\ map shape_of_cell (copied rds) = expand xs /\ upto sep 0 (pt r) xs (pt r') /\
    kept_ok (hs r') (row ++ map fst rds) /\ has_header (hs r') = has_header (hs r) /\ (hdr (hs r) <> HUnknown -> hdr (hs r') = hdr (hs r)) /\
    (Forall (fun x => copies (fst x) = 1) xs -> Forall (fun p => snd p = 1) rds).
Proof.
  induction fuel as [|fuel IH]; intros r cells ph row cells' ph' r' K; [discriminate|]. cbn [psv_first_cells].
  destruct (parse_psv_table_cell sep [] 0 r (length cells)) as [[o r1]| |] eqn:E; cbn [rbind]; [|discriminate|discriminate]. apply cell_read in E. destruct o as [[c d]|].
  - destruct E as ([spec body] & R & FIN). cbn [fst snd] in FIN. pose proof (finish_spec _ _ _ _ _ _ _ _ _ _ K FIN) as (SH & D & K' & HH & HU).
    pose proof (first_copies_all c (Nat.max 1 d) cells ph) as FC. destruct (first_copies (Nat.max 1 d) c cells ph) as [cells1 ph1]. cbn [fst] in FC. subst cells1.
    assert (DC : Nat.max 1 d = copies spec) by (rewrite D; unfold copies; lia). rewrite DC. assert (CP : 1 <= copies spec) by (unfold copies; lia).
    assert (X1 : expand [(spec, body)] = map shape_of_cell (repeat c (copies spec))) by (unfold expand; cbn [flat_map fst]; rewrite app_nil_r, map_repeat, SH; reflexivity).
    destruct (counting r1).
    + intro H. eapply IH in H; [|exact K']. destruct H as (xs & rds & -> & F & S1 & U & K2 & H2 & HU2 & ON2).
      exists ((spec, body) :: xs), ((c, copies spec) :: rds). cbn [copied flat_map map fst snd]. fold (copied rds). rewrite <- !app_assoc in *. split; [reflexivity|]. split; [constructor; [exact CP|exact F]|].
      split; [change (expand ((spec, body) :: xs)) with (repeat (shape_of (spec, body)) (copies spec) ++ expand xs); rewrite map_app, map_repeat, SH, S1; reflexivity|].
      split; [change ((spec, body) :: xs) with ([(spec, body)] ++ xs); eapply upto_app; [left; exact R|exact U]|]. repeat split; auto; [congruence| |].
      * intro X. rewrite HU2 by (rewrite HU by exact X; exact X). apply HU, X.
      * intro O. pose proof (Forall_inv O) as O1. apply Forall_inv_tail in O. cbn [fst] in O1. constructor; [exact O1|apply ON2, O].
    + intro H. injection H as <- <- <-. exists [(spec, body)], [(c, copies spec)]. unfold copied. cbn [flat_map fst snd map]. rewrite app_nil_r.
      split; [reflexivity|]. split; [constructor; [exact CP|constructor]|]. split; [rewrite X1; reflexivity|]. split; [left; exact R|]. repeat split; auto. intro O. apply Forall_inv in O. constructor; [exact O|constructor].
  - destruct E as [C HE]. intro H. injection H as <- <- <-. exists [], []. cbn [copied flat_map map]. rewrite !app_nil_r, HE.
    split; [reflexivity|]. split; [constructor|]. split; [reflexivity|]. split; [right; exists (pt r); split; [constructor|exact C]|]. repeat split; auto.
Qed.
Lemma first_ends sep : sep <> [] -> forall fuel r cells ph, size (toks r) < fuel ->
  match psv_first_cells fuel sep [] 0 r cells ph with Done _ => True | Crash => embeddable sep <> None | Loops => False end.
Proof.
  intro NE. induction fuel as [|fuel IH]; intros r cells ph L; [lia|]. cbn [psv_first_cells]. pose proof (table_cell_ends sep [] 0 NE r (length cells)) as P.
  destruct (parse_psv_table_cell _ _ _ _ _) as [[o r1]| |]; cbn [rbind]; [|exact P|exact P]. destruct P as [P1 P2]. destruct o as [[c d]|]; [|exact I]. specialize (P2 ltac:(discriminate)).
  destruct (first_copies _ _ _ _) as [cells1 ph1]. destruct (counting r1); [apply IH; lia|exact I].
Qed.

(** ** Whole tables *)
Lemma footer_rows o t n ps : all_rows (with_footer o t n ps) = opt_row (t_header t) ++ t_rows t.
Proof.
  unfold with_footer, all_rows. destruct (opt_footer o); [|cbn [rt_table rt_footer opt_row]; rewrite app_nil_r; reflexivity].
  destruct (rev (t_rows t)) as [|f rs] eqn:E; cbn [rt_table rt_footer t_header t_rows opt_row]; [rewrite app_nil_r; reflexivity|]. f_equal. rewrite <- (rev_involutive (t_rows t)), E. reflexivity.
Qed.
Lemma footer_parts o t n ps : t_header (rt_table (with_footer o t n ps)) = t_header t /\ rt_cols (with_footer o t n ps) = n /\ rt_probs (with_footer o t n ps) = ps /\
  (is_some (rt_footer (with_footer o t n ps)) = opt_footer o && negb (match t_rows t with [] => true | _ => false end)).
Proof.
  unfold with_footer. destruct (opt_footer o); [|repeat split; reflexivity]. destruct (rev (t_rows t)) as [|f rs] eqn:E.
  - assert (t_rows t = []) as -> by (rewrite <- (rev_involutive (t_rows t)), E; reflexivity). repeat split; reflexivity.
  - cbn [rt_table t_header rt_cols rt_probs rt_footer is_some]. repeat split. destruct (t_rows t); [discriminate|reflexivity].
Qed.
Lemma kept_start h : kept_ok (HS h [] false) [].
Proof. intros _ _. constructor. Qed.
