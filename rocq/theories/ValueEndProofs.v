From Verif Require Import ValueSpec Text ColsModel PsvProofs PsvRowProofs PsvTableProofs PsvEndProofs PsvStreamProofs ValueProofs.
Open Scope nat_scope.

(** ** Every text is read to its end *)
Lemma delim_smaller sep l l' last : sep <> [] \/ sep_kind sep <> None -> consume_dsv_delimiter sep l = (true, l', last) -> size l' < size l.
Proof.
  intros SN. unfold consume_dsv_delimiter. destruct l as [|t r]; [discriminate|]. rewrite size_cons. destruct (nl t); [intro H; injection H as <- _; lia|]. destruct (sep_kind sep).
  - destruct (is_k k t); [|discriminate]. intro H; injection H as <- _; lia.
  - destruct SN as [SN|SN]; [|congruence]. destruct (starts_with sep (tx t)) eqn:S; [|discriminate]. intro H. injection H as <- _. destruct (_ =? _); [lia|].
    apply starts_with_spec in S as (z & E). assert (LE : length (tx t) = length sep + length z) by (rewrite E; apply app_length). pose proof (drop_bytes_size (length sep) t r ltac:(lia)) as D. rewrite size_cons in D. assert (0 < length sep) by (destruct sep; [congruence|cbn; lia]). change (drop_token_bytes (length sep) t :: r) with (drop_leading_bytes (length sep) (t :: r)). lia.
Qed.
Lemma not_delim_kept sep l l' last : consume_dsv_delimiter sep l = (false, l', last) -> l' = l /\ (forall (t : ttok) r, l = t :: r -> sep_kind sep = None -> starts_with sep (tx t) = false).
Proof.
  unfold consume_dsv_delimiter. destruct l as [|t r]; [intro H; injection H as <- _; split; [reflexivity|discriminate]|]. destruct (nl t); [discriminate|]. destruct (sep_kind sep).
  - destruct (is_k k t); [discriminate|]. intro H. injection H as <- _. split; [reflexivity|discriminate].
  - destruct (starts_with sep (tx t)) eqn:S; [discriminate|]. intro H. injection H as <- _. split; [reflexivity|]. intros ? ? X _. injection X as <- <-. exact S.
Qed.
Lemma split_total sep (t : ttok) r : (sep_kind sep = None -> starts_with sep (tx t) = false) -> exists u r', consume_splitting (embeddable sep) (t :: r) = Done (Some (u, r')) /\ size r' < size (t :: r).
Proof.
  intro S. destruct (consume_splitting (embeddable sep) (t :: r)) as [[[u r']|]| |] eqn:E.
  - exists u, r'. split; [reflexivity|]. eapply split_smaller. exact E.
  - apply split_none in E. discriminate.
  - exfalso. unfold consume_splitting, embeddable in E. destruct (sep_kind sep); [discriminate|]. specialize (S eq_refl). destruct (negb _); [discriminate|]. destruct (find_sub sep (tx t)) as [[|]|] eqn:F; try discriminate.
    apply find_sub_spec in F as (a & z & X & L & _). destruct a; [|discriminate]. cbn [app] in X. assert (starts_with sep (tx t) = true) by (apply starts_with_spec; exists z; exact X). congruence.
  - destruct (split_no_loop _ _ E).
Qed.
Lemma dsv_total sep : sep <> [] \/ sep_kind sep <> None -> forall fuel count last ps l, size l < fuel -> exists s, dsv_text fuel sep count last ps l = Done s /\ (l <> [] -> size (sc_rest s) < size l) /\ size (sc_rest s) <= size l.
Proof.
  intros SN. induction fuel as [|fuel IH]; intros count last ps l F; [lia|]. cbn [dsv_text]. destruct l as [|t r]; [eexists; split; [reflexivity|]; cbn [sc_rest]; split; [congruence|lia]|].
  destruct (consume_dsv_delimiter sep (t :: r)) as [[[|] l'] last'] eqn:E.
  - eexists. split; [reflexivity|]. cbn [sc_rest]. apply delim_smaller in E; [|exact SN]. split; [auto|lia].
  - apply not_delim_kept in E as [-> S]. destruct (split_total sep t r) as (u & r' & C & SM); [intro; eapply S; auto|]. rewrite C. cbn [rbind]. destruct (is_k Backslash u); cbn [negb].
    + destruct r' as [|next r'].
      * destruct (IH (count && negb (nl u)) last' ps [] ltac:(cbn; lia)) as (s & E1 & _ & E3). exists s. split; [exact E1|]. split; [intros; lia|lia].
      * rewrite size_cons in SM. destruct (IH (count && negb (nl u)) last' ps r' ltac:(lia)) as (s & E1 & _ & E3). rewrite E1. eexists. split; [reflexivity|]. cbn [add_tok sc_rest]. split; [intros; lia|lia].
    + destruct (IH (count && negb (nl u)) last' ps r' ltac:(lia)) as (s & E1 & _ & E3). rewrite E1. eexists. split; [reflexivity|]. cbn [add_tok sc_rest]. split; [intros; lia|lia].
Qed.
Lemma csv_total sep : sep_kind sep <> None -> forall fuel quoted count last ps l, size l < fuel -> exists s, csv_text fuel sep quoted count last ps l = Done s /\ (l <> [] -> size (sc_rest s) < size l) /\ size (sc_rest s) <= size l.
Proof.
  intros SN. induction fuel as [|fuel IH]; intros quoted count last ps l F; [lia|]. cbn [csv_text]. destruct l as [|t r]; [eexists; split; [reflexivity|]; cbn [sc_rest]; split; [congruence|lia]|].
  assert (G : forall last', exists s, (do o <- consume_splitting (embeddable sep) (t :: r); match o with None => Crash | Some (t, r) => let count := count && negb (nl t) in
                if is_k DoubleQuote t then
                  if negb quoted then csv_text fuel sep quoted count last' (ps ++ [StrayQuote]) r
                  else match r with
                  | q :: r' => if is_k DoubleQuote q then do s <- csv_text fuel sep quoted count last' ps r'; Done (add_tok q s) else csv_text fuel sep false count last' ps r
                  | [] => csv_text fuel sep false count last' ps r
                  end
                else do s <- csv_text fuel sep quoted count last' ps r; Done (add_tok t s) end) = Done s /\ (t :: r <> [] -> size (sc_rest s) < size (t :: r)) /\ size (sc_rest s) <= size (t :: r)).
  { intro last'. destruct (split_total sep t r) as (u & r' & C & SM); [congruence|]. rewrite C. cbn [rbind]. cbv zeta. set (c := count && negb (nl u)).
    assert (G : forall q ps r2, size r2 < size (t :: r) -> exists s, csv_text fuel sep q c last' ps r2 = Done s /\ (t :: r <> [] -> size (sc_rest s) < size (t :: r)) /\ size (sc_rest s) <= size (t :: r)).
    { intros q ps' r2 S2. destruct (IH q c last' ps' r2 ltac:(lia)) as (s & E1 & _ & E3). exists s. split; [exact E1|]. split; [intros; lia|lia]. }
    destruct (is_k DoubleQuote u).
    - destruct quoted; cbn [negb]; [|apply G; exact SM]. destruct r' as [|q r']; [apply G; exact SM|]. destruct (is_k DoubleQuote q); [|apply G; exact SM].
      rewrite size_cons in SM. destruct (G true ps r' ltac:(lia)) as (s & E1 & E2 & E3). rewrite E1. eexists. split; [reflexivity|]. cbn [add_tok sc_rest]. auto.
    - destruct (G quoted ps r' SM) as (s & E1 & E2 & E3). rewrite E1. eexists. split; [reflexivity|]. cbn [add_tok sc_rest]. auto. }
  destruct quoted; [apply G|]. destruct (consume_dsv_delimiter sep (t :: r)) as [[[|] l'] last'] eqn:E.
  - eexists. split; [reflexivity|]. cbn [sc_rest]. apply delim_smaller in E; [|right; exact SN]. split; [auto|lia].
  - apply not_delim_kept in E as [-> _]. apply G.
Qed.
(** separators that cannot stop the reader *)
Definition sep_ok (fmt : format) (sep : bytes) : Prop := match fmt with Prefix => False | Csv => sep_kind sep <> None | Delimited => sep <> [] end.
Lemma text_total fmt sep count last ps l : sep_ok fmt sep -> exists s, text_read fmt sep count last ps l = Done s /\ (l <> [] -> size (sc_rest s) < size l) /\ size (sc_rest s) <= size l.
Proof.
  unfold text_read, sep_ok. destruct fmt; intro S; [contradiction| |].
  - unfold csv_cell. destruct (cur_is DoubleQuote l) eqn:Q; [|apply csv_total; [exact S|lia]]. destruct l as [|t l]; [discriminate|]. cbn [tl].
    destruct (csv_total sep S (Datatypes.S (size (drop_while wsish l))) true count last ps (drop_while wsish l)) as (s & E & _ & L); [lia|]. exists s. split; [exact E|]. pose proof (drop_while_size wsish l). rewrite size_cons. split; [intros; lia|lia].
  - apply dsv_total; [left; exact S|lia].
Qed.
(** ** Every cell, row and table *)
Lemma cell_total fmt sep cs v i row : sep_ok fmt sep -> toks (vr v) <> [] -> kept_ok (hs (vr v)) row ->
  exists c v', parse_dsv_table_cell fmt sep cs v i = Done (Some c, v') /\ size (toks (vr v')) < size (toks (vr v)) /\ kept_ok (hs (vr v')) (row ++ [c]) /\ has_header (hs (vr v')) = has_header (hs (vr v)) /\
    c_cols c = 1 /\ c_rows c = 1.
Proof.
  intros S NE K. unfold parse_dsv_table_cell. destruct (toks (vr v)) as [|t l] eqn:T; [congruence|]. rewrite <- T. cbv zeta. set (tr := existsb nl (take_while wsish (toks (vr v)))). pose proof (drop_while_size wsish (toks (vr v))) as DS.
  destruct (_ && tr) eqn:B.
  - destruct (finish_cell fmt cs (hs (vr v)) default_cell [] i) as [[c d] h] eqn:FIN. pose proof (finish_spec _ _ _ _ _ _ _ _ _ _ K FIN) as (SH & _ & K' & HH & _).
    exists c. eexists. split; [reflexivity|]. cbn [vr toks hs]. split; [|split; [exact K'|]; split; [exact HH|]; unfold shape_of_cell in SH; injection SH as -> -> _; auto].
    apply andb_true_iff in B as [_ B]. unfold tr in B. rewrite T in *. cbn [take_while drop_while] in *. destruct (wsish t); [|discriminate]. pose proof (drop_while_size wsish l). rewrite size_cons. lia.
  - destruct (text_total fmt sep (counting (vr v) && negb tr) (dsv_last v) (probs (vr v)) (drop_while wsish (toks (vr v))) S) as (s & E & L1 & L2). unfold text_read in E.
    assert (E' : (match fmt with Csv => csv_cell sep (counting (vr v) && negb tr) (dsv_last v) (probs (vr v)) (drop_while wsish (toks (vr v))) | _ => dsv_text (Datatypes.S (size (drop_while wsish (toks (vr v))))) sep (counting (vr v) && negb tr) (dsv_last v) (probs (vr v)) (drop_while wsish (toks (vr v))) end) = Done s) by (destruct fmt; [contradiction|exact E|exact E]).
    rewrite E'. cbn [rbind]. destruct (finish_cell fmt cs (hs (vr v)) default_cell (sc_cell s) i) as [[c d] h] eqn:FIN. pose proof (finish_spec _ _ _ _ _ _ _ _ _ _ K FIN) as (SH & _ & K' & HH & _).
    exists c. eexists. split; [reflexivity|]. cbn [vr toks hs]. split.
    + destruct (drop_while wsish (toks (vr v))) as [|u r] eqn:D; [|specialize (L1 ltac:(discriminate)); lia]. assert (0 < size (toks (vr v))) by (rewrite T, size_cons; lia). cbn in L2. lia.
    + rewrite <- andb_assoc. fold (head_found h ((match sc_last s with LNewline => true | _ => false end) && cur_is Newline (sc_rest s))). split; [apply head_kept, K'|]. rewrite head_has. split; [exact HH|]. unfold shape_of_cell in SH; injection SH as -> -> _; auto.
Qed.
Section Total.
  Variables (fmt : format) (sep : bytes) (cs : list col_spec) (SO : sep_ok fmt sep) (P : last_consumed -> list ttok -> list shape -> Prop).
  Hypothesis step : forall v i c v', parse_dsv_table_cell fmt sep cs v i = Done (Some c, v') -> forall ss, P (dsv_last v') (toks (vr v')) ss -> P (dsv_last v) (toks (vr v)) (shape_of_cell c :: ss).
  Lemma row_total n : forall fuel v cells kept, size (toks (vr v)) < fuel -> n = 0 \/ length cells < n -> kept_ok (hs (vr v)) (kept ++ cells) ->
    exists new v', dsv_row fuel fmt sep cs n v cells = Done (cells ++ new, v') /\ (length (cells ++ new) = n \/ toks (vr v') = [] /\ (n = 0 \/ length (cells ++ new) < n)) /\
      kept_ok (hs (vr v')) (kept ++ cells ++ new) /\ has_header (hs (vr v')) = has_header (hs (vr v)) /\ size (toks (vr v')) + length new <= size (toks (vr v)) /\ (toks (vr v) <> [] -> new <> []) /\
      (forall ss, P (dsv_last v') (toks (vr v')) ss -> P (dsv_last v) (toks (vr v)) (map shape_of_cell new ++ ss)).
  Proof.
    induction fuel as [|fuel IH]; intros v cells kept F N K; [lia|]. cbn [dsv_row]. destruct (toks (vr v)) as [|t l] eqn:T.
    - unfold parse_dsv_table_cell. rewrite T. cbn [rbind]. exists [], v. rewrite app_nil_r. cbn [length map app]. rewrite T. repeat split; auto; lia.
    - destruct (cell_total fmt sep cs v (length cells) (kept ++ cells) SO ltac:(rewrite T; discriminate) K) as (c & v1 & E & SZ & K1 & H1 & _). pose proof (step _ _ _ _ E) as ST. rewrite E. cbn [rbind]. cbv zeta. rewrite T in SZ, ST.
      destruct (length (cells ++ [c]) =? n) eqn:LN.
      + apply Nat.eqb_eq in LN. exists [c], v1. rewrite app_assoc. cbn [length map app]. repeat split; auto; try discriminate; lia.
      + apply Nat.eqb_neq in LN. destruct (IH v1 (cells ++ [c]) kept) as (new & v2 & E2 & L2 & K2 & H2 & S2 & _ & ST2); [lia| |rewrite app_assoc; exact K1|].
        { destruct N as [N|N]; [left; exact N|right]. rewrite app_length in *. cbn [length] in *. lia. }
        exists (c :: new), v2. rewrite <- app_assoc in E2, L2, K2. cbn [app] in E2, L2, K2. rewrite E2. split; [reflexivity|]. split; [exact L2|]. split; [exact K2|]. split; [congruence|]. split; [cbn [length]; lia|]. split; [discriminate|]. intros ss X. cbn [map app]. apply ST, ST2, X.
  Qed.
  Lemma first_total : cs = [] -> forall fuel v cells, size (toks (vr v)) < fuel -> kept_ok (hs (vr v)) cells ->
    exists new v', dsv_first_cells fuel fmt sep v cells = Done (cells ++ new, v') /\ kept_ok (hs (vr v')) (cells ++ new) /\ has_header (hs (vr v')) = has_header (hs (vr v)) /\ size (toks (vr v')) + length new <= size (toks (vr v)) /\ (toks (vr v) <> [] -> new <> []) /\
      (forall ss, P (dsv_last v') (toks (vr v')) ss -> P (dsv_last v) (toks (vr v)) (map shape_of_cell new ++ ss)).
  Proof.
    intro CE. induction fuel as [|fuel IH]; intros v cells F K; [lia|]. cbn [dsv_first_cells]. rewrite <- CE. destruct (toks (vr v)) as [|t l] eqn:T.
    - unfold parse_dsv_table_cell. rewrite T. cbn [rbind]. exists [], v. rewrite app_nil_r. cbn [length map app]. rewrite T. repeat split; auto; lia.
    - destruct (cell_total fmt sep cs v (length cells) cells SO ltac:(rewrite T; discriminate) K) as (c & v1 & E & SZ & K1 & H1 & _). pose proof (step _ _ _ _ E) as ST. rewrite E. cbn [rbind]. cbv zeta. rewrite T in SZ, ST.
      destruct (counting (vr v1)).
      + destruct (IH v1 (cells ++ [c])) as (new & v2 & E2 & K2 & H2 & S2 & _ & ST2); [lia|exact K1|].
        exists (c :: new), v2. rewrite <- app_assoc in E2, K2. cbn [app] in E2, K2. rewrite E2. split; [reflexivity|]. split; [exact K2|]. split; [congruence|]. split; [cbn [length]; lia|]. split; [discriminate|]. intros ss X. cbn [map app]. apply ST, ST2, X.
      + exists [c], v1. cbn [length map app]. repeat split; auto; try discriminate; lia.
  Qed.
  Lemma rows_total n : forall fuel v t kept, size (toks (vr v)) < fuel -> 1 <= n \/ toks (vr v) = [] -> kept_ok (hs (vr v)) kept -> (t_rows t = [] -> has_header (hs (vr v)) = false -> kept = [] /\ t_header t = None) ->
    exists t' v' rows, dsv_rows fuel fmt sep cs n v t = Done (t', v') /\ toks (vr v') = [] /\
      map (map shape_of_cell) (opt_row (t_header t') ++ t_rows t') = map (map shape_of_cell) (opt_row (t_header t) ++ t_rows t) ++ rows /\
      Forall (fun r => length r = n) (removelast rows) /\ Forall (fun r => 1 <= length r <= n) rows /\ (forall ss, P (dsv_last v') [] ss -> P (dsv_last v) (toks (vr v)) (concat rows ++ ss)).
  Proof.
    induction fuel as [|fuel IH]; intros v t kept F N K H1; [lia|]. cbn [dsv_rows]. destruct (toks (vr v)) as [|t0 l0] eqn:T.
    - cbn [dsv_row]. unfold parse_dsv_table_cell. rewrite T. cbn [rbind]. exists t, v, []. rewrite app_nil_r. rewrite T. split; [reflexivity|]. split; [reflexivity|]. split; [reflexivity|]. split; [constructor|]. split; [constructor|]. auto.
    - assert (N1 : 1 <= n) by (destruct N; [assumption|discriminate]).
      destruct (row_total n (S (size (toks (vr v)))) v [] kept) as (new & v1 & E & L & K1 & HH & SZ & NE & ST); [lia|right; exact N1|rewrite app_nil_r; exact K|]. rewrite T in *. rewrite E. cbn [rbind app] in *. specialize (NE ltac:(discriminate)).
      destruct new as [|c0 new0] eqn:CE; [congruence|]. rewrite <- CE in *. unfold push_table_row.
      destruct (placed (hs (vr v1)) t new kept _ K1 eq_refl) as (h' & t' & PE & P1 & P2 & (kept' & PK) & PN); [rewrite HH; exact H1|]. rewrite PE. cbn [rbind].
      assert (LN : 1 <= length new) by (rewrite CE; cbn; lia).
      destruct (IH (Values (with_hs (vr v1) h') (dsv_last v1)) t' kept') as (t2 & v2 & rows & E2 & T2 & R2 & F2 & G2 & ST2); cbn [vr with_hs toks hs dsv_last] in *.
      + lia.
      + left. exact N1.
      + exact PK.
      + intros X Y. destruct (PN X Y).
      + exists t2, v2, (map shape_of_cell new :: rows). split; [exact E2|]. split; [exact T2|]. rewrite R2, P1, <- app_assoc. split; [reflexivity|]. split.
        * destruct rows as [|r0 rows]; [constructor|]. cbn [removelast]. constructor; [|exact F2]. rewrite map_length. destruct L as [L|[L _]]; [exact L|]. exfalso. destruct fuel as [|fuel]; [discriminate|]. cbn [dsv_rows] in E2.
          cbn [vr with_hs toks] in E2. cbn [dsv_row] in E2. unfold parse_dsv_table_cell in E2. cbn [vr with_hs toks] in E2. rewrite L in E2. cbn [rbind] in E2. injection E2 as E3 _. subst t2. rewrite <- (app_nil_r (map _ (opt_row (t_header t') ++ t_rows t'))) in R2 at 1. apply app_inv_head in R2. discriminate.
        * split; [constructor; [rewrite map_length; destruct L as [L|[_ [L|L]]]; lia|exact G2]|]. intros ss X. cbn [concat]. rewrite <- app_assoc. apply ST, ST2, X.
  Qed.
  Lemma table_total o h l fuel : size l < fuel ->
    exists rt ls, parse_tokens fuel fmt sep cs o h l = Done rt /\ Forall (fun r => length r = rt_cols rt) (removelast (all_rows rt)) /\ Forall (fun r => 1 <= length r <= rt_cols rt) (all_rows rt) /\
      (cs <> [] -> rt_cols rt = length cs) /\ (forall ss, P ls [] ss -> P LOther l (map shape_of_cell (concat (all_rows rt)) ++ ss)).
  Proof.
    intro F. unfold parse_tokens. assert (FP : fmt <> Prefix) by (intros ->; exact SO). set (r := Reader l (match cs with [] => true | _ => false end) (HS h [] false) []).
    assert (G : forall n v t, size (toks (vr v)) < fuel -> 1 <= n \/ toks (vr v) = [] -> (exists kept, kept_ok (hs (vr v)) kept /\ (t_rows t = [] -> has_header (hs (vr v)) = false -> kept = [] /\ t_header t = None)) -> (cs <> [] -> n = length cs) ->
      Forall (fun r => length r = n /\ 1 <= n) (opt_row (t_header t) ++ t_rows t) -> (forall ss, P (dsv_last v) (toks (vr v)) ss -> P LOther l (map shape_of_cell (concat (opt_row (t_header t) ++ t_rows t)) ++ ss)) ->
      exists rt ls, (do (t, v) <- dsv_rows fuel fmt sep cs n v t; Done (with_footer o t n (probs (vr v)))) = Done rt /\ Forall (fun r => length r = rt_cols rt) (removelast (all_rows rt)) /\ Forall (fun r => 1 <= length r <= rt_cols rt) (all_rows rt) /\
      (cs <> [] -> rt_cols rt = length cs) /\ (forall ss, P ls [] ss -> P LOther l (map shape_of_cell (concat (all_rows rt)) ++ ss))).
    { intros n v t SZ N (kept & K & H1) CN OLD ST. destruct (rows_total n fuel v t kept SZ N K H1) as (t' & v' & rows & E & T & R & F1 & F2 & ST2). rewrite E. cbn [rbind]. eexists. exists (dsv_last v'). split; [reflexivity|]. rewrite footer_rows. destruct (footer_parts o t' n (probs (vr v'))) as (_ & -> & _ & _).
      assert (LEN : forall q, Forall q (map (map (shape_of_cell)) (opt_row (t_header t) ++ t_rows t) ++ rows) -> forall p : nat -> Prop, (forall r, q r -> p (length r)) -> Forall (fun r : list cell => p (length r)) (opt_row (t_header t') ++ t_rows t')).
      { intros q X p PQ. rewrite <- R in X. rewrite Forall_map in X. eapply Forall_impl; [|exact X]. cbn. intros a Y. apply PQ in Y. rewrite map_length in Y. exact Y. }
      assert (OLDM : Forall (fun r => length r = n /\ 1 <= n) (map (map shape_of_cell) (opt_row (t_header t) ++ t_rows t))) by (apply Forall_map; eapply Forall_impl; [|exact OLD]; cbn; intros a; rewrite map_length; auto).
      split; [|split; [|split; [exact CN|]]].
      - assert (RL : map (map shape_of_cell) (removelast (opt_row (t_header t') ++ t_rows t')) = removelast (map (map shape_of_cell) (opt_row (t_header t) ++ t_rows t) ++ rows)).
        { rewrite <- R. generalize (opt_row (t_header t') ++ t_rows t'). clear. induction l as [|a l IH]; [reflexivity|]. destruct l as [|b l]; [reflexivity|]. cbn [removelast map] in *. f_equal. exact IH. }
        assert (X : Forall (fun r => length r = n) (removelast (map (map shape_of_cell) (opt_row (t_header t) ++ t_rows t) ++ rows))).
        { destruct rows as [|r0 rows]; [|rewrite removelast_app by discriminate; apply Forall_app; split; [eapply Forall_impl; [|exact OLDM]; cbn; tauto|exact F1]]. rewrite app_nil_r. clear -OLDM. induction OLDM as [|a m A _ IH]; [constructor|]. destruct m; [constructor|]. cbn [removelast]. constructor; [apply A|exact IH]. }
        rewrite <- RL in X. rewrite Forall_map in X. eapply Forall_impl; [|exact X]. cbn. intros a. rewrite map_length. auto.
      - refine (LEN (fun r => 1 <= length r <= n) _ (fun k => 1 <= k <= n) (fun r X => X)). apply Forall_app. split; [eapply Forall_impl; [|exact OLDM]; cbn; lia|exact F2].
      - intros ss X. rewrite concat_map, R, concat_app, <- app_assoc, <- concat_map. apply ST, ST2, X. }
    assert (CC : cs = [] \/ cs <> []) by (clear; destruct cs; [left; reflexivity|right; discriminate]). destruct CC as [CE|CE].
    - assert (CT : counting r = true) by (cbn [counting r]; rewrite CE; reflexivity). destruct (first_total CE (S (size l)) (Values r LOther) []) as (cells & v & E & K & HH & SZ & NE & ST); [cbn [vr toks r]; lia|apply kept_start|]. cbn [app vr toks r dsv_last] in *.
      assert (X : exists h' t', finish_implicit_header_row (hs (vr v)) (Table None []) cells = Done (h', t') /\ (cells = [] -> t' = Table None [] /\ h' = hs (vr v)) /\ (cells <> [] -> map (map shape_of_cell) (opt_row (t_header t') ++ t_rows t') = [map shape_of_cell cells] /\ (exists kept', kept_ok h' kept') /\ (t_rows t' = [] -> has_header h' = false -> False))).
      { unfold finish_implicit_header_row. destruct cells as [|c1 cells1] eqn:CL; [do 2 eexists; split; [reflexivity|]; split; [auto|congruence]|]. rewrite <- CL in *.
        destruct (placed (hs (vr v)) (Table None []) cells [] (known_to_exist (hdr (hs (vr v)))) K) as (h' & t' & PE & P1 & P2 & P3 & P4); [cbn [t_rows]; rewrite HH; reflexivity|auto|]. exists h', t'. split; [exact PE|]. split; [congruence|]. intros _. split; [rewrite P1; reflexivity|]. auto. }
      destruct X as (h' & t' & FE & X0 & X1).
      assert (BODY : exists rt ls, (do (t, v) <- dsv_rows fuel fmt sep cs (length cells) (Values (with_hs (vr v) h') (dsv_last v)) t'; Done (with_footer o t (length cells) (probs (vr v)))) = Done rt /\ Forall (fun r => length r = rt_cols rt) (removelast (all_rows rt)) /\ Forall (fun r => 1 <= length r <= rt_cols rt) (all_rows rt) /\
        (cs <> [] -> rt_cols rt = length cs) /\ (forall ss, P ls [] ss -> P LOther l (map shape_of_cell (concat (all_rows rt)) ++ ss))).
      { apply G; cbn [vr with_hs toks hs dsv_last].
        - lia.
        - destruct cells; [right|left; cbn; lia]. destruct l as [|t1 l1]; [|destruct (NE ltac:(discriminate)); reflexivity]. cbn in SZ. destruct (toks (vr v)) as [|t2 l2]; [reflexivity|]. rewrite size_cons in SZ. lia.
        - destruct cells as [|c1 cells1]; [destruct (X0 eq_refl) as [-> ->]; exists []; split; [exact K|auto]|]. destruct (X1 ltac:(discriminate)) as (_ & (kept' & K') & Z). exists kept'. split; [exact K'|]. intros A B. destruct (Z A B).
        - congruence.
        - destruct cells as [|c1 cells1]; [destruct (X0 eq_refl) as [-> ->]; constructor|]. destruct (X1 ltac:(discriminate)) as (Y & _). assert (Y' : Forall (fun r => length r = length (c1 :: cells1) /\ 1 <= length (c1 :: cells1)) (map (map shape_of_cell) (opt_row (t_header t') ++ t_rows t'))) by (rewrite Y; constructor; [rewrite map_length; cbn; lia|constructor]).
          rewrite Forall_map in Y'. eapply Forall_impl; [|exact Y']. cbn beta. intros a. rewrite map_length. auto.
        - intros ss Y. destruct cells as [|c1 cells1]; [destruct (X0 eq_refl) as [-> ->]; exact (ST _ Y)|]. destruct (X1 ltac:(discriminate)) as (Z & _). rewrite concat_map, Z. cbn [concat]. rewrite app_nil_r. exact (ST _ Y). }
      rewrite CT. destruct fmt; [contradiction| |]; rewrite E; cbn [rbind]; rewrite FE; cbn [rbind]; exact BODY.
    - assert (CT : counting r = false) by (cbn [counting r]; clear -CE; destruct cs; [congruence|reflexivity]). rewrite CT.
      assert (BODY := G (length cs) (Values r LOther) (Table None [])). cbn [vr toks r t_header t_rows opt_row app concat map dsv_last hs has_header] in BODY.
      destruct fmt; [contradiction| |]; cbn [rbind]; (apply BODY; [exact F|left; clear -CE; destruct cs; [congruence|cbn; lia]|exists []; split; [apply kept_start|auto]|auto|constructor|auto]).
  Qed.
End Total.

(** ** Tables written as records *)
Lemma says_intro o h n recs t' ps : map (map shape_of_cell) (opt_row (t_header t') ++ t_rows t') = map (fun r => map field_shape (fields r)) recs -> ps = [] -> is_some (t_header t') = has_head h recs ->
  table_says (with_footer o t' n ps) o h n recs.
Proof.
  intros R -> HH. unfold table_says. rewrite footer_rows. destruct (footer_parts o t' n []) as (F1 & F2 & F3 & F4). rewrite F1, F2, F3. split; [exact R|]. split; [reflexivity|]. split; [reflexivity|].
  assert (LEN : length (opt_row (t_header t')) + length (t_rows t') = length recs) by (apply (f_equal (@length _)) in R; rewrite !map_length, app_length in R; exact R).
  split; [rewrite <- HH; destruct (t_header t'); cbn; split; congruence|].
  destruct (rt_footer _); cbn [is_some] in F4; symmetry in F4.
  - apply andb_true_iff in F4 as [F4 F5]. split; [intros _|discriminate]. split; [exact F4|]. destruct (t_rows t'); [discriminate|]. destruct (t_header t'); cbn [opt_row length] in LEN; lia.
  - split; [congruence|]. intros [X Y]. rewrite X in F4. destruct (t_rows t'); [|discriminate]. destruct (t_header t'); cbn [opt_row length] in LEN; lia.
Qed.
Lemma values_explicit fmt sep cs o h recs fuel : fmt <> Prefix -> cs <> [] -> Forall (record_ok fmt sep (length cs)) recs -> length recs < fuel ->
  exists rt, parse_tokens fuel fmt sep cs o h (flat_map record_src recs) = Done rt /\ table_says rt o h (length cs) recs.
Proof.
  intros NP CE OK F. unfold parse_tokens. set (r := Reader _ _ _ _). assert (CT : counting r = false) by (cbn [counting r]; destruct cs; [congruence|reflexivity]). rewrite CT.
  destruct (values_rows fmt sep cs (length cs) NP recs fuel (Values r LOther) (Table None []) [] OK) as (t' & v' & E & PR & R & HH); [left; split; [reflexivity|discriminate]|exact F|apply kept_start|auto|].
  cbn [t_header t_rows opt_row map app is_some vr r hs has_header hdr probs negb andb orb] in PR, R, HH. exists (with_footer o t' (length cs) (probs (vr v'))). split; [destruct fmt; [congruence| |]; cbn [rbind]; rewrite E; reflexivity|]. apply says_intro; [exact R|exact PR|].
  rewrite HH. destruct recs as [|r0 recs]; [reflexivity|]. eapply head_blank. exact OK.
Qed.
Lemma values_counted fmt sep o h first recs fuel : fmt <> Prefix -> gap first = [] -> Forall (fun f => no_nl (ValueSpec.value f) = true) (fields first) -> Forall (record_ok fmt sep (length (fields first))) (first :: recs) -> length recs < fuel ->
  exists rt, parse_tokens fuel fmt sep [] o h (flat_map record_src (first :: recs)) = Done rt /\ table_says rt o h (length (fields first)) (first :: recs).
Proof.
  intros NP G NN OK F. unfold parse_tokens. set (r := Reader _ _ _ _). assert (CT : counting r = true) by reflexivity. rewrite CT. pose proof (Forall_inv OK) as OR. pose proof (Forall_inv_tail OK) as OK'.
  assert (RD : ready (Values r LOther) (record_src first ++ flat_map record_src recs)) by (left; split; [reflexivity|discriminate]).
  destruct (ready_pre _ _ _ _ _ _ OR RD) as (pre & PW & PL & PT & PG). specialize (PG ltac:(discriminate) G). destruct OR as (_ & FO & _).
  destruct (record_written fmt sep [] true NP (flat_map record_src recs) true (fields first) FO (Values r LOther) 0 pre [] PW) as (cells & v' & ST & SH & BH & PR & K' & HH & HU); auto; try discriminate; [apply kept_start|].
  pose proof (fields_len _ _ _ _ FO) as F1. assert (LC : length cells = length (fields first)) by (apply (f_equal (@length _)) in SH; rewrite !map_length in SH; exact SH).
  assert (E1 : dsv_first_cells (S (size (flat_map record_src (first :: recs)))) fmt sep (Values r LOther) [] = Done (cells, v')).
  { rewrite (steps_first fmt sep [] true (Values r LOther) 0 cells v' eq_refl eq_refl ST); [reflexivity|reflexivity|]. rewrite LC. cbn [vr r toks] in PT. rewrite PT, size_app. pose proof (src_len (fields first) pre). pose proof (size_len (src_with pre (fields first))). lia. }
  assert (E2 : exists h' t', finish_implicit_header_row (hs (vr v')) (Table None []) cells = Done (h', t') /\ map (map shape_of_cell) (opt_row (t_header t') ++ t_rows t') = [map shape_of_cell cells] /\
    is_some (t_header t') = known_to_exist (hdr (hs (vr v'))) /\ (exists kept', kept_ok h' kept') /\ (t_rows t' = [] -> has_header h' = false -> False)).
  { unfold finish_implicit_header_row. destruct cells as [|c0 cells0] eqn:CE; [cbn [length] in LC; lia|]. rewrite <- CE in *.
    destruct (placed (hs (vr v')) (Table None []) cells [] (known_to_exist (hdr (hs (vr v')))) K') as (h' & t' & PE & P1 & P2 & P3 & P4); [cbn [t_rows]; rewrite HH; reflexivity|auto|]. exists h', t'. repeat split; auto. }
  destruct E2 as (h' & t1 & E2 & R1 & H1 & (kept' & K1) & PN).
  destruct (values_rows fmt sep [] (length cells) NP recs fuel (Values (with_hs (vr v') h') (dsv_last v')) t1 kept') as (t' & v2 & E & PR2 & R & HH2).
  - rewrite LC. exact OK'.
  - apply behind_ready in BH. exact BH.
  - exact F.
  - exact K1.
  - intros X Y. destruct (PN X Y).
  - exists (with_footer o t' (length cells) (probs (vr v2))). split; [destruct fmt; [congruence| |]; rewrite E1; cbn [rbind]; rewrite E2; cbn [rbind]; rewrite E; reflexivity|]. rewrite LC. apply says_intro.
    + rewrite R, R1, SH. reflexivity.
    + rewrite PR2. exact PR.
    + rewrite HH2, H1. cbn [vr with_hs hs]. assert (Z : match t_rows t1 with [] => negb (has_header h') | _ :: _ => false end = false) by (destruct (t_rows t1); [destruct (has_header h'); [reflexivity|destruct (PN eq_refl eq_refl)]|reflexivity]).
      rewrite Z, orb_false_r, HU. fold (hdr_after (hdr (hs r)) (fields first) (flat_map record_src recs)). cbn [r hs hdr]. eapply head_blank. exact OK.
Qed.
