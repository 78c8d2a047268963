From Verif Require Import PsvSpec Text ColsModel PsvProofs PsvRowProofs PsvTableProofs.
Open Scope nat_scope.

(** ** Every step makes the source smaller *)
Lemma drop_bytes_size n (t : ttok) r : n <= length (tx t) -> size (drop_leading_bytes n (t :: r)) + n = size (t :: r).
Proof.
  intro L. cbn [drop_leading_bytes]. rewrite !size_cons. unfold drop_token_bytes. destruct (n =? 0) eqn:Z; [apply Nat.eqb_eq in Z; lia|]. cbn [bt tx]. rewrite skipn_length. lia.
Qed.
Lemma start_smaller sep l spec l' : sep <> [] -> consume_cell_start sep l = Some (spec, l') -> size l' < size l.
Proof.
  intros NE. unfold consume_cell_start. destruct (peek_cell_start sep l) as [st|] eqn:E; [|discriminate]. intro H. injection H as _ <-.
  apply peek_some in E as (pre & t & post & -> & _ & _ & [[A B]|[A B]]).
  - rewrite A, B. rewrite size_app. replace (skipn (S (length pre)) (pre ++ t :: post)) with post by (change (t :: post) with ([t] ++ post); rewrite app_assoc, <- (skipn_app_len (pre ++ [t]) post) at 1; rewrite app_length; f_equal; cbn; lia).
    rewrite size_cons. assert (drop_leading_bytes 0 post = post) as -> by (destruct post; reflexivity). lia.
  - rewrite A, skipn_app_len. pose proof (drop_bytes_size (drop_bytes st) t post ltac:(lia)). rewrite size_app. assert (0 < length sep) by (destruct sep; [congruence|cbn; lia]). lia.
Qed.
Lemma split_smaller o l t r : consume_splitting o l = Done (Some (t, r)) -> size r < size l.
Proof.
  unfold consume_splitting. destruct l as [|u l]; [discriminate|]. rewrite size_cons. destruct o as [s|]; [|intro H; injection H as <- <-; lia].
  destruct (negb (is_k Word u)); [intro H; injection H as <- <-; lia|]. destruct (find_sub s (tx u)) as [[|n]|] eqn:F; [discriminate| |intro H; injection H as <- <-; lia].
  apply find_sub_spec in F as (a & z & E & L & _). intro H. injection H as _ <-. pose proof (drop_bytes_size (S n) u l) as D. assert (S n <= length (tx u)) by (rewrite E, app_length; lia). specialize (D H). rewrite size_cons in D. change (drop_token_bytes (S n) u :: l) with (drop_leading_bytes (S n) (u :: l)). lia.
Qed.
Lemma split_none o l : consume_splitting o l = Done None -> l = [].
Proof.
  unfold consume_splitting. destruct l as [|u l]; [reflexivity|]. destruct o as [s|]; [|discriminate]. destruct (negb _); [discriminate|]. destruct (find_sub _ _) as [[|]|]; discriminate.
Qed.
Lemma split_no_loop o l : consume_splitting o l <> Loops.
Proof. unfold consume_splitting. destruct l; [discriminate|]. destruct o; [|discriminate]. destruct (negb _); [discriminate|]. destruct (find_sub _ _) as [[|]|]; discriminate. Qed.
Lemma split_no_crash l : consume_splitting None l <> Crash.
Proof. unfold consume_splitting. destruct l; discriminate. Qed.
Lemma drop_while_size f l : size (drop_while f l) <= size l.
Proof. induction l as [|t l IH]; [cbn; lia|]. cbn [drop_while]. destruct (f t); [rewrite size_cons; lia|lia]. Qed.
Lemma drop_while_same f l : size (drop_while f l) = size l -> drop_while f l = l.
Proof. destruct l as [|t l]; [reflexivity|]. cbn [drop_while]. destruct (f t); [|reflexivity]. pose proof (drop_while_size f l). rewrite size_cons. lia. Qed.

Lemma psv_body_ends sep : forall fuel count l, size l < fuel ->
  match psv_body fuel sep count l with
  | Done (body, rest, c) => size rest <= size l /\ (starts_psv_cell sep l = false -> l <> [] -> size rest < size l)
  | Crash => embeddable sep <> None
  | Loops => False
  end.
Proof.
  induction fuel as [|fuel IH]; intros count l L; [lia|]. cbn [psv_body]. destruct (starts_psv_cell sep l) eqn:S; [split; [lia|discriminate]|].
  destruct (consume_splitting (embeddable sep) l) as [[[t r]|]| |] eqn:E; cbn [rbind].
  - pose proof (split_smaller _ _ _ _ E) as SM. destruct (_ || _).
    + specialize (IH (count && negb (nl t)) r ltac:(lia)). destruct (psv_body fuel sep _ r) as [[[body rest] c]| |]; cbn [rbind]; [|exact IH|exact IH]. destruct IH as [I _]. split; [lia|intros; lia].
    + destruct r as [|next r].
      * specialize (IH (count && negb (nl t)) [] ltac:(lia)). destruct (psv_body fuel sep _ []) as [[[body rest] c]| |]; [|exact IH|exact IH]. destruct IH as [I _]. split; [lia|intros; lia].
      * rewrite size_cons in SM. specialize (IH (count && negb (nl t)) r ltac:(lia)). destruct (psv_body fuel sep _ r) as [[[body rest] c]| |]; cbn [rbind]; [|exact IH|exact IH]. destruct IH as [I _]. split; [lia|intros; lia].
  - apply split_none in E. subst l. split; [lia|congruence].
  - intro X. rewrite X in E. apply (split_no_crash _ E).
  - apply (split_no_loop _ _ E).
Qed.
Lemma psv_cell_ends sep n : sep <> [] -> forall fuel count ps l, size l < fuel ->
  match psv_cell fuel sep n count ps l with
  | Done (o, rest, c, ps') => size rest <= size l /\ (l <> [] -> size rest < size l) /\ (o <> None -> l <> [])
  | Crash => embeddable sep <> None
  | Loops => False
  end.
Proof.
  intro NE. induction fuel as [|fuel IH]; intros count ps l L; [lia|]. cbn [psv_cell]. destruct l as [|t l]; [split; [lia|split; congruence]|]. set (l0 := t :: l) in *.
  destruct (match consume_cell_start sep l0 with Some (spec, l1) => (spec, l1, ps) | None => (default_cell, l0, ps ++ [ExpectedSeparator]) end) as [[spec l1] ps1] eqn:C.
  assert (P : size l1 < size l0 \/ (l1 = l0 /\ starts_psv_cell sep l0 = false)).
  { destruct (consume_cell_start sep l0) as [[s' l']|] eqn:E; injection C as <- <- <-; [left; eapply start_smaller; eassumption|right; split; [reflexivity|]].
    unfold consume_cell_start in E. unfold starts_psv_cell. destruct (peek_cell_start sep l0); [discriminate|reflexivity]. }
  assert (SZ : size l1 <= size l0) by (destruct P as [P|[-> _]]; lia).
  pose proof (drop_while_size ws l1) as DW.
  pose proof (psv_body_ends sep (S (size l1)) count (drop_while ws l1) ltac:(lia)) as B. destruct (psv_body _ _ _ _) as [[[body rest] c]| |]; cbn [rbind]; [|exact B|exact B].
  destruct B as [B1 B2]. assert (SM : size rest < size l0).
  { destruct P as [P|[-> P]]; [lia|]. destruct (Nat.eq_dec (size (drop_while ws l0)) (size l0)) as [Q|Q]; [|lia]. apply drop_while_same in Q. rewrite Q in B2. apply B2; [exact P|discriminate]. }
  destruct (_ && _).
  - specialize (IH c (ps1 ++ [SpanExceedsColumns (or_default (col_span spec) 0) n]) rest ltac:(lia)). destruct (psv_cell fuel _ _ _ _ _) as [[[[o rest'] c'] ps']| |]; [|exact IH|exact IH]. destruct IH as (I1 & I2 & I3).
    repeat split; try lia. intros _. discriminate.
  - repeat split; try lia. intros _. discriminate.
Qed.
Section Ends.
  Variables (sep : bytes) (cs : list col_spec) (n : nat) (NE : sep <> []).
  Lemma table_cell_ends r i :
    match parse_psv_table_cell sep cs n r i with
    | Done (o, r') => size (toks r') <= size (toks r) /\ (o <> None -> size (toks r') < size (toks r))
    | Crash => embeddable sep <> None
    | Loops => False
    end.
  Proof.
    unfold parse_psv_table_cell. pose proof (psv_cell_ends sep n NE (S (size (toks r))) (counting r) (probs r) (toks r) ltac:(lia)) as P.
    destruct (psv_cell _ _ _ _ _ _) as [[[[o rest] c] ps]| |]; cbn [rbind]; [|exact P|exact P]. destruct P as (P1 & P2 & P3). destruct o as [[spec body]|].
    - destruct (finish_cell _ _ _ _ _ _) as [[c' d] h]. cbn [toks]. split; [lia|]. intros _. apply P2, P3. discriminate.
    - cbn [toks]. split; [lia|congruence].
  Qed.
  Lemma row_copies_length c idx : forall k eff cells spill ph eff' cells' spill' ph', row_copies k n c idx eff cells spill ph = (eff', cells', spill', ph') -> length cells <= length cells'.
  Proof.
    induction k as [|k IH]; intros eff cells spill ph eff' cells' spill' ph'; cbn [row_copies]; [intro H; injection H as <- <- <- <-; lia|].
    destruct (_ <? _); intro H; apply IH in H; [rewrite app_length in H; cbn in H|]; lia.
  Qed.
  Lemma row_cells_ends : forall fuel s eff cells, size (toks (rd s)) < fuel ->
    match row_cells fuel sep cs n s eff cells with
    | Done (cells', s') => size (toks (rd s')) <= size (toks (rd s)) /\ (size (toks (rd s')) < size (toks (rd s)) \/ (cells' = cells /\ spilled s' = spilled s /\ row_idx s' = row_idx s) )
    | Crash => embeddable sep <> None
    | Loops => False
    end.
  Proof.
    induction fuel as [|fuel IH]; intros s eff cells L; [lia|]. cbn [row_cells]. pose proof (table_cell_ends (rd s) (length cells)) as P.
    destruct (parse_psv_table_cell _ _ _ _ _) as [[o r]| |]; cbn [rbind]; [|exact P|exact P]. destruct P as [P1 P2]. destruct o as [[c d]|].
    - specialize (P2 ltac:(discriminate)). destruct (row_copies _ _ _ _ _ _ _ _) as [[[eff1 cells1] spill1] ph1]. destruct (_ <=? _); [cbn [rd toks]; split; [lia|left; lia]|].
      specialize (IH (Rows r (add_phantom_cells ph1 c (row_idx s) eff1) (row_idx s) spill1) (eff1 + c_cols c) (cells1 ++ [c]) ltac:(cbn [rd]; lia)). cbn [rd] in IH.
      destruct (row_cells fuel _ _ _ _ _ _) as [[cells' s']| |]; [|exact IH|exact IH]. destruct IH as [I1 I2]. split; [lia|left; lia].
    - cbn [rd toks spilled row_idx]. split; [lia|right; auto].
  Qed.
  Definition ends (s : rows) (t : table) : Prop := exists N, forall fuel, N <= fuel -> psv_rows fuel sep cs n s t <> Loops.
  Definition last_row (ph : list place) : nat := list_max (map fst ph).
  Lemma cnt_last ph j : last_row ph < j -> cnt ph j = 0.
  Proof.
    intro L. unfold cnt, row_phantom_cells. assert (F : filter (fun p => fst p =? j) ph = []); [|rewrite F; reflexivity].
    unfold last_row in L. induction ph as [|p ph IH]; [reflexivity|]. cbn [map list_max fold_right filter] in *. fold (list_max (map fst ph)) in L. rewrite (proj2 (Nat.eqb_neq (fst p) j)) by lia. apply IH. lia.
  Qed.
  Lemma ends_step s t : (forall row s1, parse_psv_table_row sep cs n s = Done (Some row, s1) -> forall h t1, push_table_row (hs (rd s1)) t row = Done (h, t1) ->
      ends (Rows (with_hs (rd s1) h) (phantom s1) (row_idx s1) (spilled s1)) t1) -> parse_psv_table_row sep cs n s <> Loops -> ends s t.
  Proof.
    intros H NL. destruct (parse_psv_table_row sep cs n s) as [[[row|] s1]| |] eqn:E.
    - destruct (push_table_row (hs (rd s1)) t row) as [[h t1]| |] eqn:P.
      + destruct (H _ _ eq_refl _ _ P) as [N HN]. exists (S N). intros [|fuel] L; [lia|]. cbn [psv_rows]. rewrite E. cbn [rbind]. rewrite P. cbn [rbind]. apply HN. lia.
      + exists 1. intros [|fuel] L; [lia|]. cbn [psv_rows]. rewrite E. cbn [rbind]. rewrite P. discriminate.
      + exfalso. unfold push_table_row, place_row in P. destruct (match t_rows t with [] => _ | _ => _ end); [|discriminate]. destruct (hdr _); try discriminate. destruct (reparse_header_cells _ _) as [[? ?]|]; discriminate.
    - exists 1. intros [|fuel] L; [lia|]. cbn [psv_rows]. rewrite E. discriminate.
    - exists 1. intros [|fuel] L; [lia|]. cbn [psv_rows]. rewrite E. discriminate.
    - congruence.
  Qed.
  Lemma rows_end : 1 <= n -> forall s t, ends s t.
  Proof.
    intro N1. assert (ALL : forall a b c s t, size (toks (rd s)) <= a -> length (spilled s) <= b -> S (last_row (phantom s)) - row_idx s <= c -> ends s t).
    { induction a as [a IHa] using lt_wf_ind. induction b as [b IHb] using lt_wf_ind. induction c as [c IHc] using lt_wf_ind. intros s t LA LB LC.
      assert (ROW : match parse_psv_table_row sep cs n s with
        | Done (Some row, s1) => size (toks (rd s1)) < size (toks (rd s)) \/ (size (toks (rd s1)) <= size (toks (rd s)) /\ length (spilled s1) < length (spilled s)) \/
            (rd s1 = rd s /\ spilled s1 = spilled s /\ phantom s1 = phantom s /\ row_idx s1 = S (row_idx s) /\ row_idx s <= last_row (phantom s))
        | Loops => False
        | _ => True
        end).
      { unfold parse_psv_table_row. set (eff := row_phantom_cells (phantom s) (row_idx s)). set (k := Nat.min (n - eff) (length (spilled s))).
        destruct (length (firstn k (spilled s)) =? n - eff) eqn:FULL.
        - apply Nat.eqb_eq in FULL. rewrite firstn_length in FULL. cbn [rd spilled phantom row_idx]. destruct k as [|k'] eqn:KE.
          + cbn [Nat.min] in FULL. right. right. repeat split; auto. destruct (Nat.le_gt_cases (row_idx s) (last_row (phantom s))) as [X|X]; [exact X|]. apply cnt_last in X. unfold cnt in X. fold eff in X. lia.
          + right. left. split; [lia|]. rewrite skipn_length. lia.
        - pose proof (row_cells_ends (S (size (toks (rd s)))) (Rows (rd s) (phantom s) (row_idx s) (skipn k (spilled s))) eff (firstn k (spilled s)) ltac:(cbn [rd]; lia)) as R. cbn [rd spilled row_idx] in R.
          destruct (row_cells _ _ _ _ _ _ _) as [[cells s1]| |]; cbn [rbind]; [|exact I|exact R]. destruct R as [R1 R2]. destruct cells as [|c0 cells]; [exact I|]. cbn [rd spilled phantom row_idx].
          destruct R2 as [R2|(R2 & R3 & _)]; [left; exact R2|right; left]. split; [lia|]. rewrite R3, skipn_length. apply (f_equal (@length cell)) in R2. rewrite firstn_length in R2. cbn [length] in R2. lia. }
      apply ends_step; [|intro X; rewrite X in ROW; exact ROW]. intros row s1 E h t1 _. rewrite E in ROW. destruct ROW as [R|[[R1 R2]|(R1 & R2 & R3 & R4 & R5)]].
      - eapply (IHa (size (toks (rd s1)))); [lia|cbn [rd with_hs toks]; lia|apply Nat.le_refl|apply Nat.le_refl].
      - eapply (IHb (length (spilled s1))); [lia|cbn [rd with_hs toks]; lia|cbn [spilled]; lia|apply Nat.le_refl].
      - eapply (IHc (last_row (phantom s) - row_idx s)); cbn [rd with_hs toks spilled phantom row_idx]; rewrite ?R1, ?R2, ?R3, ?R4; lia. }
    intros s t. eapply ALL; apply Nat.le_refl.
  Qed.
  (** a table of no columns has rows without end *)
  Lemma no_columns_loops : n = 0 -> forall fuel s t, spilled s = [] -> psv_rows fuel sep cs n s t = Loops.
  Proof.
    intro Z. induction fuel as [|fuel IH]; intros s t SP; [reflexivity|]. cbn [psv_rows]. unfold parse_psv_table_row. rewrite SP, Z. cbn [Nat.sub length Nat.min firstn skipn Nat.eqb rbind rd].
    destruct (push_table_row _ _ _) as [[h t1]| |] eqn:P; cbn [rbind]; [|exfalso|reflexivity]. { rewrite <- Z. apply IH. reflexivity. }
    unfold push_table_row, place_row in P. destruct (match t_rows t with [] => _ | _ => _ end); [|discriminate]. destruct (hdr _); discriminate.
  Qed.
  Lemma row_cells_no_crash fuel s eff cells : embeddable sep = None -> size (toks (rd s)) < fuel -> row_cells fuel sep cs n s eff cells <> Crash.
  Proof. intros EM L C. pose proof (row_cells_ends fuel s eff cells L) as R. rewrite C in R. congruence. Qed.
End Ends.
