From Verif Require Import ValueSpec Text ColsModel PsvProofs PsvRowProofs PsvTableProofs PsvEndProofs PsvStreamProofs.
Open Scope nat_scope.

(** ** The text of a field *)
Lemma delim_found sep (t : ttok) r : is_delim sep t -> consume_dsv_delimiter sep (t :: r) = (true, r, LDelimiter).
Proof.
  intros (N & _ & D). unfold consume_dsv_delimiter. rewrite N. destruct (sep_kind sep) as [k|].
  - rewrite (tk_is_k _ _ D). reflexivity.
  - rewrite D, Nat.eqb_refl. assert (starts_with sep sep = true) as -> by (apply starts_with_spec; exists []; rewrite app_nil_r; reflexivity). reflexivity.
Qed.
Lemma newline_found sep (t : ttok) r : nl t = true -> consume_dsv_delimiter sep (t :: r) = (true, r, LNewline).
Proof. intro N. unfold consume_dsv_delimiter. rewrite N. reflexivity. Qed.
Lemma delim_not_found sep (t : ttok) r : no_delim sep t -> consume_dsv_delimiter sep (t :: r) = (false, t :: r, LOther).
Proof.
  intros (N & D). unfold consume_dsv_delimiter. rewrite N. destruct (sep_kind sep) as [k|].
  - rewrite (tk_not_k _ _ D). reflexivity.
  - rewrite (starts_with_false _ _ D). reflexivity.
Qed.
Lemma not_cut sep (t : ttok) r : whole sep t -> consume_splitting (embeddable sep) (t :: r) = Done (Some (t, r)).
Proof.
  unfold whole, embeddable, consume_splitting. destruct (sep_kind sep); [reflexivity|]. intros [W|[W|W]]; [congruence| |].
  - rewrite (tk_not_k _ _ W). reflexivity.
  - rewrite (find_sub_free _ _ W). destruct (negb _); reflexivity.
Qed.
Lemma plain_whole sep t : no_delim sep t -> whole sep t.
Proof. intros (_ & D). unfold whole. destruct (sep_kind sep); [left; discriminate|right; right; exact D]. Qed.
Definition fin_ok (sep : bytes) (t : ttok) : Prop := nl t = true \/ is_delim sep t.
Definition last_of (t : ttok) : last_consumed := if nl t then LNewline else LDelimiter.
Lemma fin_found sep (t : ttok) r : fin_ok sep t -> consume_dsv_delimiter sep (t :: r) = (true, r, last_of t).
Proof. unfold last_of. intros [N|D]; [rewrite N; apply newline_found, N|rewrite (proj1 D); apply delim_found, D]. Qed.
Lemma fin_count (t : ttok) (c : bool) : match last_of t with LNewline => false | _ => c end = c && negb (nl t).
Proof. unfold last_of. destruct (nl t), c; reflexivity. Qed.
Lemma no_nl_delim sep t : no_delim sep t -> negb (nl t) = true.
Proof. intros [N _]. rewrite N. reflexivity. Qed.
Lemma dsv_written sep e rest : fin_ok sep e -> forall b v, dsv_body sep b v -> forall fuel count last ps, length b < fuel ->
  dsv_text fuel sep count last ps (b ++ e :: rest) = Done (Scanned v rest (count && negb (nl e)) (last_of e) ps).
Proof.
  intros FE. induction 1 as [|t b v D B _ IH|x t b v X D _ IH]; intros fuel count last ps L; (destruct fuel as [|fuel]; [cbn in L; lia|]); cbn [app length] in *.
  - cbn [dsv_text]. rewrite fin_found by exact FE. rewrite fin_count. reflexivity.
  - cbn [dsv_text]. rewrite delim_not_found by exact D. rewrite not_cut by (apply plain_whole; exact D). cbn [rbind]. rewrite (no_nl_delim _ _ D), andb_true_r, (tk_not_k _ _ B). cbn [negb]. rewrite IH by lia. reflexivity.
  - cbn [dsv_text]. rewrite delim_not_found by exact D. rewrite not_cut by (apply plain_whole; exact D). cbn [rbind]. rewrite (no_nl_delim _ _ D), andb_true_r, (tk_is_k _ _ X). cbn [negb]. rewrite IH by lia. reflexivity.
Qed.
Lemma csv_plain sep e rest : fin_ok sep e -> forall b fuel count last ps, Forall (fun t => no_delim sep t /\ tk t <> DoubleQuote) b -> length b < fuel ->
  csv_text fuel sep false count last ps (b ++ e :: rest) = Done (Scanned b rest (count && negb (nl e)) (last_of e) ps).
Proof.
  intros FE. induction b as [|t b IH]; intros fuel count last ps F L; (destruct fuel as [|fuel]; [cbn in L; lia|]); cbn [app length] in *.
  - cbn [csv_text]. rewrite fin_found by exact FE. rewrite fin_count. reflexivity.
  - pose proof (Forall_inv F) as [D Q]. apply Forall_inv_tail in F. cbn [csv_text]. rewrite delim_not_found by exact D. rewrite not_cut by (apply plain_whole; exact D). cbn [rbind].
    rewrite (no_nl_delim _ _ D), andb_true_r, (tk_not_k _ _ Q), IH by (assumption || lia). reflexivity.
Qed.
Definition lines_ok (v : list ttok) : bool := no_nl v.
Lemma dq_not_nl (t : ttok) : tk t = DoubleQuote -> nl t = false.
Proof. intro E. apply tk_not_k. congruence. Qed.
Lemma dq_whole sep (t : ttok) : tk t = DoubleQuote -> whole sep t.
Proof. intro E. right. left. congruence. Qed.
Lemma csv_quoted sep (q' : ttok) after (e : ttok) rest : tk q' = DoubleQuote -> fin_ok sep e -> tk e <> DoubleQuote -> Forall (fun t => ws t = true /\ no_delim sep t) after ->
  forall v fuel count last ps, Forall (whole sep) v -> length (quoted v) + S (length after) < fuel ->
  csv_text fuel sep true count last ps (quoted v ++ q' :: after ++ e :: rest) = Done (Scanned (v ++ after) rest (count && no_nl v && negb (nl e)) (last_of e) ps).
Proof.
  intros Q' FE EQ FA. assert (NEXT : match after ++ e :: rest with q :: _ => is_k DoubleQuote q = false | [] => True end).
  { destruct after as [|a after]; cbn [app]; [apply tk_not_k, EQ|]. apply Forall_inv in FA as [W _]. apply is_k_tk in W. apply tk_not_k. congruence. }
  assert (FP : Forall (fun t : ttok => no_delim sep t /\ tk t <> DoubleQuote) after) by (eapply Forall_impl; [|exact FA]; cbn; intros t [W N]; apply is_k_tk in W; split; [exact N|congruence]).
  induction v as [|t v IH]; intros fuel count last ps F L; (destruct fuel as [|fuel]; [cbn in L; lia|]); cbn [quoted app] in *.
  - cbn [csv_text]. rewrite not_cut by (apply dq_whole, Q'). cbn [rbind]. rewrite (dq_not_nl _ Q'), andb_true_r, (tk_is_k _ _ Q'). cbn [negb]. cbn [length] in L.
    assert (E : match after ++ e :: rest with q :: r' => if is_k DoubleQuote q then do s <- csv_text fuel sep true count last ps r'; Done (add_tok q s) else csv_text fuel sep false count last ps (after ++ e :: rest) | [] => csv_text fuel sep false count last ps (after ++ e :: rest) end
      = csv_text fuel sep false count last ps (after ++ e :: rest)) by (destruct (after ++ e :: rest); [reflexivity|rewrite NEXT; reflexivity]).
    rewrite E, csv_plain by (assumption || lia). cbn [no_nl forallb]. rewrite andb_true_r. reflexivity.
  - pose proof (Forall_inv F) as W. apply Forall_inv_tail in F. destruct (is_k DoubleQuote t) eqn:K.
    + apply is_k_tk in K. cbn [app csv_text length] in *. rewrite not_cut by exact W. cbn [rbind]. rewrite (dq_not_nl _ K), andb_true_r, (tk_is_k _ _ K). cbn [negb]. rewrite IH by (assumption || lia). cbn [rbind]. unfold no_nl. cbn [forallb]. rewrite (dq_not_nl _ K). reflexivity.
    + cbn [app csv_text length] in *. rewrite not_cut by exact W. cbn [rbind]. rewrite K, IH by (assumption || lia). cbn [rbind]. unfold no_nl. cbn [forallb]. rewrite !andb_assoc. reflexivity.
Qed.
Lemma drop_wsish_app a l : Forall (fun t => wsish t = true) a -> drop_while wsish (a ++ l) = drop_while wsish l.
Proof. induction 1 as [|t a W _ IH]; [reflexivity|]. cbn [app drop_while]. rewrite W. exact IH. Qed.
Lemma take_wsish_app a l : Forall (fun t => wsish t = true) a -> take_while wsish (a ++ l) = a ++ take_while wsish l.
Proof. induction 1 as [|t a W _ IH]; [reflexivity|]. cbn [app take_while]. rewrite W, IH. reflexivity. Qed.
Lemma quoted_len v : length v <= length (quoted v).
Proof. induction v as [|t v IH]; [cbn; lia|]. cbn [quoted]. destruct (is_k _ t); cbn [length]; lia. Qed.
Lemma size_len l : length l <= size l.
Proof. induction l as [|t l IH]; [cbn; lia|]. rewrite size_cons. cbn [length]. lia. Qed.

(** what reading a field gives; for [counting] see which tokens hold line ends *)
Definition spans_lines (fmt : format) (b v : list ttok) : bool := match fmt with Csv => negb (no_nl v) | _ => false end.
Definition text_read (fmt : format) (sep : bytes) (count : bool) (last : last_consumed) (ps : list problem) (l : list ttok) : res scanned :=
  match fmt with Csv => csv_cell sep count last ps l | _ => dsv_text (S (size l)) sep count last ps l end.
Lemma text_written fmt sep b v (e : ttok) rest count last ps : body_ok fmt sep b v -> fin_ok sep e -> tk e <> DoubleQuote ->
  exists c, text_read fmt sep count last ps (b ++ e :: rest) = Done (Scanned v rest (count && c && negb (nl e)) (last_of e) ps) /\ (no_nl v = true -> c = true).
Proof.
  intros B FE EQ. destruct fmt; cbn [body_ok text_read] in *; [contradiction| |].
  - unfold csv_cell. inversion B as [b' F E1 E2|q q' white v' after Q Q' W F H FA E1 E2]; subst.
    + exists true. split; [|auto]. assert (CUR : cur_is DoubleQuote (v ++ e :: rest) = false).
      { destruct v as [|t v]; cbn [app cur_is]; [apply tk_not_k, EQ|]. apply Forall_inv in F as [_ F]. apply tk_not_k, F. }
      rewrite CUR, csv_plain; [rewrite andb_true_r; reflexivity|exact FE|exact F|]. pose proof (size_len (v ++ e :: rest)). rewrite app_length in *. cbn [length] in *. lia.
    + exists (no_nl v'). split; [|unfold no_nl; rewrite forallb_app; intro X; apply andb_true_iff in X as [X _]; exact X]. cbn [app cur_is]. rewrite (tk_is_k _ _ Q). cbn [tl].
      assert (DW : drop_while wsish ((white ++ quoted v' ++ q' :: after) ++ e :: rest) = quoted v' ++ q' :: after ++ e :: rest).
      { rewrite <- !app_assoc. rewrite drop_wsish_app by exact W. cbn [app]. assert (NQ : forall t : ttok, tk t = DoubleQuote -> wsish t = false) by (intros t X; unfold wsish; rewrite !tk_not_k by congruence; reflexivity).
        destruct v' as [|t v']; cbn [quoted app drop_while]; [rewrite (NQ _ Q'); reflexivity|]. destruct (is_k DoubleQuote t); cbn [app drop_while]; rewrite H; reflexivity. }
      rewrite DW. apply csv_quoted; auto. pose proof (size_len (quoted v' ++ q' :: after ++ e :: rest)). rewrite !app_length in *. cbn [length] in *. rewrite app_length in *. cbn [length] in *. lia.
  - exists true. split; [|auto]. rewrite (dsv_written sep e rest FE b v B); [rewrite andb_true_r; reflexivity|]. pose proof (size_len (b ++ e :: rest)). rewrite app_length in *. cbn [length] in *. lia.
Qed.

(** ** One cell *)
Definition head_found (h : hstate) (yes : bool) : hstate := if is_unknown (hdr h) && yes then HS HImplicit (reparse h) (has_header h) else h.
Lemma ws_wsish t : ws t = true -> wsish t = true.
Proof. intro W. unfold wsish. fold (ws t). rewrite W. reflexivity. Qed.
Lemma ws_no_nl l : Forall (fun t => ws t = true) l -> existsb nl l = false.
Proof. induction 1 as [|t l W _ IH]; [reflexivity|]. cbn [existsb]. apply is_k_tk in W. assert (nl t = false) as -> by (apply tk_not_k; congruence). exact IH. Qed.
Lemma cell_value fmt sep cs v i pre b val (e : ttok) rest c d h : fmt <> Prefix -> Forall (fun t => wsish t = true) pre -> body_ok fmt sep b val -> fin_ok sep e -> tk e <> DoubleQuote ->
  (forall t b', b = t :: b' -> wsish t = false) -> (b = [] -> wsish e = false) -> (dsv_last v = LDelimiter -> existsb nl pre = false) -> toks (vr v) = pre ++ b ++ e :: rest ->
  finish_cell fmt cs (hs (vr v)) default_cell val i = (c, d, h) ->
  exists k, parse_dsv_table_cell fmt sep cs v i = Done (Some c, Values (Reader rest (counting (vr v) && negb (existsb nl pre) && k && negb (nl e)) (head_found h (nl e && cur_is Newline rest)) (probs (vr v))) (last_of e)) /\ (no_nl val = true -> k = true).
Proof.
  intros NP W B FE EQ HB EB LD T FIN. unfold parse_dsv_table_cell. rewrite T.
  assert (NW : match b ++ e :: rest with t :: _ => wsish t = false | [] => True end) by (destruct b as [|t b']; cbn [app]; [apply EB; reflexivity|eapply HB; reflexivity]).
  assert (TK : take_while wsish (pre ++ b ++ e :: rest) = pre) by (rewrite take_wsish_app by exact W; destruct (b ++ e :: rest) as [|t l]; [apply app_nil_r|cbn [take_while]; rewrite NW, app_nil_r; reflexivity]).
  assert (DR : drop_while wsish (pre ++ b ++ e :: rest) = b ++ e :: rest) by (rewrite drop_wsish_app by exact W; destruct (b ++ e :: rest) as [|t l]; [reflexivity|cbn [drop_while]; rewrite NW; reflexivity]).
  destruct (pre ++ b ++ e :: rest) as [|t0 l0] eqn:E0; [destruct pre; [destruct b; discriminate|discriminate]|]. rewrite TK, DR. cbv zeta.
  assert (CND : match dsv_last v with LDelimiter => true | _ => false end && existsb nl pre = false) by (destruct (dsv_last v); [rewrite LD by reflexivity|..]; reflexivity).
  rewrite CND. destruct (text_written fmt sep b val e rest (counting (vr v) && negb (existsb nl pre)) (dsv_last v) (probs (vr v)) B FE EQ) as (k & TX & KN).
  exists k. split; [|exact KN]. unfold text_read in TX. destruct fmt; [congruence| |]; rewrite TX; cbn [rbind sc_cell sc_rest sc_count sc_last sc_probs]; rewrite FIN; unfold head_found;
    (replace (match last_of e with LNewline => true | _ => false end) with (nl e) by (unfold last_of; destruct (nl e); reflexivity)); rewrite !andb_assoc; reflexivity.
Qed.
Lemma cell_empty fmt sep cs v i pre (e : ttok) rest c d h : Forall (fun t => ws t = true) pre -> nl e = true -> dsv_last v = LDelimiter -> toks (vr v) = pre ++ e :: rest ->
  finish_cell fmt cs (hs (vr v)) default_cell [] i = (c, d, h) ->
  parse_dsv_table_cell fmt sep cs v i = Done (Some c, Values (Reader (drop_while wsish rest) false h (probs (vr v))) LDelimiter).
Proof.
  intros W N LD T FIN. unfold parse_dsv_table_cell. rewrite T. assert (W' : Forall (fun t => wsish t = true) pre) by (eapply Forall_impl; [|exact W]; cbn; intros; apply ws_wsish; assumption).
  assert (EW : wsish e = true) by (unfold wsish; fold (nl e); rewrite N; apply orb_true_r).
  assert (TK : existsb nl (take_while wsish (pre ++ e :: rest)) = true) by (rewrite take_wsish_app by exact W'; rewrite existsb_app; cbn [take_while]; rewrite EW; cbn [existsb]; rewrite N; apply orb_true_r).
  assert (DR : drop_while wsish (pre ++ e :: rest) = drop_while wsish rest) by (rewrite drop_wsish_app by exact W'; cbn [drop_while]; rewrite EW; reflexivity).
  destruct (pre ++ e :: rest) as [|t0 l0] eqn:E0; [destruct pre; discriminate|]. rewrite TK, DR, LD. cbn [andb negb]. rewrite FIN, andb_false_r. reflexivity.
Qed.
Lemma finish_values fmt cs h spec b i c d h' : fmt <> Prefix -> finish_cell fmt cs h spec b i = (c, d, h') -> hdr h' = hdr h.
Proof. intro NP. unfold finish_cell. cbv zeta. assert (is_unknown (hdr h) && match fmt with Prefix => true | _ => false end = false) as -> by (destruct fmt; [congruence|apply andb_false_r..]). intro H. injection H as _ _ <-. reflexivity. Qed.
Lemma head_kept h yes row : kept_ok h row -> kept_ok (head_found h yes) row.
Proof.
  intro K. unfold head_found. destruct (is_unknown (hdr h) && yes) eqn:E; [|exact K]. apply andb_true_iff in E as [U _]. intros N _. cbn [has_header reparse] in *. apply K; [exact N|left]. destruct (hdr h); congruence || discriminate.
Qed.
Lemma head_has h yes : has_header (head_found h yes) = has_header h.
Proof. unfold head_found. destruct (_ && _); reflexivity. Qed.

(** ** One record *)
Lemma body_nil fmt sep v : body_ok fmt sep [] v -> v = [].
Proof. unfold body_ok. destruct fmt; [contradiction| |]; intro B; inversion B; reflexivity. Qed.
Section Record.
  Variables (fmt : format) (sep : bytes) (cs : list col_spec) (k : bool) (NP : fmt <> Prefix).
  Inductive steps : values -> nat -> list cell -> values -> Prop :=
  | s_one v i c v1 : parse_dsv_table_cell fmt sep cs v i = Done (Some c, v1) -> (k = true -> counting (vr v1) = false) -> steps v i [c] v1
  | s_more v i c v1 cells v2 : parse_dsv_table_cell fmt sep cs v i = Done (Some c, v1) -> (k = true -> counting (vr v1) = true) -> steps v1 (S i) cells v2 -> steps v i (c :: cells) v2.
  Lemma steps_row n v i cells v' : steps v i cells v' -> forall fuel cells0, length cells0 = i -> i + length cells = n -> length cells <= fuel -> dsv_row fuel fmt sep cs n v cells0 = Done (cells0 ++ cells, v').
  Proof.
    induction 1 as [v i c v1 P _|v i c v1 cells v2 P _ S IH]; intros fuel cells0 L N F; (destruct fuel as [|fuel]; [cbn in F; lia|]); cbn [dsv_row length] in *; rewrite L, P; cbn [rbind]; rewrite app_length; cbn [length].
    - rewrite (proj2 (Nat.eqb_eq _ n)) by lia. reflexivity.
    - assert (1 <= length cells) by (inversion S; cbn; lia). rewrite (proj2 (Nat.eqb_neq _ n)) by lia. rewrite IH; [rewrite <- app_assoc; reflexivity|rewrite app_length; cbn; lia|lia|lia].
  Qed.
  Lemma steps_first v i cells v' : cs = [] -> k = true -> steps v i cells v' -> forall fuel cells0, length cells0 = i -> length cells <= fuel -> dsv_first_cells fuel fmt sep v cells0 = Done (cells0 ++ cells, v').
  Proof.
    intros CE KE. induction 1 as [v i c v1 P C|v i c v1 cells v2 P C S IH]; intros fuel cells0 L F; (destruct fuel as [|fuel]; [cbn in F; lia|]); cbn [dsv_first_cells length] in *; rewrite <- CE, L, P; cbn [rbind]; rewrite (C KE).
    - reflexivity.
    - rewrite IH; [rewrite <- app_assoc; reflexivity|rewrite app_length; cbn; lia|lia].
  Qed.
  Definition src_with (pre : list ttok) (fs : list field) : list ttok := match fs with f :: fs => pre ++ body f ++ fin f :: flat_map field_src fs | [] => pre end.
  (** the reader stands behind a record *)
  Definition behind (v : values) (rest : list ttok) : Prop := (toks (vr v) = rest /\ dsv_last v = LNewline) \/ (toks (vr v) = drop_while wsish rest /\ dsv_last v = LDelimiter).
  Definition last_full (fs : list field) : bool := match rev fs with f :: _ => negb (match body f with [] => true | _ => false end) | [] => false end.
  Lemma record_written rest : forall start fs, fields_ok fmt sep start fs -> forall v i pre row, Forall (fun t => wsish t = true) pre -> (start = false -> Forall (fun t => ws t = true) pre /\ dsv_last v = LDelimiter) ->
    (dsv_last v = LDelimiter -> existsb nl pre = false) -> toks (vr v) = src_with pre fs ++ rest -> kept_ok (hs (vr v)) row ->
    (k = true -> existsb nl pre = false /\ counting (vr v) = true /\ Forall (fun f => no_nl (ValueSpec.value f) = true) fs) ->
    exists cells v', steps v i cells v' /\ map shape_of_cell cells = map field_shape fs /\ behind v' rest /\ probs (vr v') = probs (vr v) /\ kept_ok (hs (vr v')) (row ++ cells) /\
      has_header (hs (vr v')) = has_header (hs (vr v)) /\ hdr (hs (vr v')) = (if is_unknown (hdr (hs (vr v))) && (last_full fs && cur_is Newline rest) then HImplicit else hdr (hs (vr v))).
  Proof.
    induction 1 as [start f FO N ST|start f fs FO D EW H IH]; intros v i pre row W PS LD T K CK.
    - destruct FO as (FL & FB & FH). cbn [src_with flat_map] in T. rewrite <- !app_assoc in T. cbn [app] in T.
      destruct (body f) as [|t0 b0] eqn:BE.
      + destruct start; [exfalso; apply ST; reflexivity|]. destruct (PS eq_refl) as [PW PD]. cbn [app] in T.
        assert (VE : ValueSpec.value f = []).
        { exact (body_nil _ _ _ FB). }
        destruct (finish_cell fmt cs (hs (vr v)) default_cell [] i) as [[c d] h] eqn:FIN. pose proof (finish_spec _ _ _ _ _ _ _ _ _ _ K FIN) as (SH & _ & K' & HH & _). pose proof (finish_values _ _ _ _ _ _ _ _ _ NP FIN) as HU.
        exists [c], (Values (Reader (drop_while wsish rest) false h (probs (vr v))) LDelimiter). split; [apply s_one; [eapply cell_empty; eassumption|reflexivity]|].
        cbn [map vr toks dsv_last probs hs]. rewrite SH. unfold field_shape. rewrite VE. split; [reflexivity|]. split; [right; auto|]. repeat split; auto. unfold last_full. cbn [rev app]. rewrite BE. cbn [negb andb]. rewrite andb_false_r. exact HU.
      + rewrite <- BE in *. destruct (finish_cell fmt cs (hs (vr v)) default_cell (ValueSpec.value f) i) as [[c d] h] eqn:FIN. pose proof (finish_spec _ _ _ _ _ _ _ _ _ _ K FIN) as (SH & _ & K' & HH & _). pose proof (finish_values _ _ _ _ _ _ _ _ _ NP FIN) as HU.
        destruct (cell_value fmt sep cs v i pre (body f) (ValueSpec.value f) (fin f) rest c d h) as (kk & P & KN); auto.
        * left. exact N.
        * apply is_k_tk in N. congruence.
        * rewrite BE. discriminate.
        * rewrite N in P. cbn [andb negb] in P. rewrite andb_false_r in P.
          exists [c]. eexists. split; [apply s_one; [exact P|reflexivity]|]. cbn [map vr toks dsv_last probs hs]. rewrite SH. split; [reflexivity|]. split; [left; split; [reflexivity|unfold last_of; cbn [dsv_last]; rewrite N; reflexivity]|].
          split; [reflexivity|]. split; [apply head_kept, K'|]. rewrite head_has. split; [exact HH|]. unfold head_found, last_full. cbn [rev app]. rewrite BE, HU. cbn [negb andb]. destruct (is_unknown (hdr (hs (vr v))) && cur_is Newline rest); [reflexivity|exact HU].
    - destruct FO as (FL & FB & FH). cbn [src_with] in T. rewrite <- !app_assoc in T. cbn [app] in T.
      destruct (finish_cell fmt cs (hs (vr v)) default_cell (ValueSpec.value f) i) as [[c d] h] eqn:FIN. pose proof (finish_spec _ _ _ _ _ _ _ _ _ _ K FIN) as (SH & _ & K' & HH & _). pose proof (finish_values _ _ _ _ _ _ _ _ _ NP FIN) as HU.
      destruct (cell_value fmt sep cs v i pre (body f) (ValueSpec.value f) (fin f) (flat_map field_src fs ++ rest) c d h) as (kk & P & KN); auto.
      + right. exact D.
      + apply D.
      + assert (ND : nl (fin f) = false) by apply D. rewrite ND in P. cbn [andb negb] in P. rewrite andb_true_r in P. unfold head_found, last_of in P. rewrite ND, andb_false_r in P.
        assert (FSN : fs <> []) by (intros ->; inversion H). destruct fs as [|g fs]; [congruence|]. clear FSN.
        assert (GL : Forall (fun t => ws t = true) (lead g)) by (inversion H as [? ? G|? ? ? G]; subst; apply G).
        destruct (IH (Values (Reader (flat_map field_src (g :: fs) ++ rest) (counting (vr v) && negb (existsb nl pre) && kk) h (probs (vr v))) LDelimiter) (S i) (lead g) (row ++ [c])) as (cells & v' & ST & S1 & BH & PR & K2 & H2 & U2).
        * eapply Forall_impl; [|exact GL]. cbn. intros. apply ws_wsish. assumption.
        * intros _. split; [exact GL|reflexivity].
        * intros _. apply ws_no_nl. exact GL.
        * cbn [vr toks src_with flat_map]. unfold field_src at 1. rewrite <- !app_assoc. reflexivity.
        * exact K'.
        * intro KE. destruct (CK KE) as (C1 & C2 & C3). pose proof (Forall_inv C3) as C4. apply Forall_inv_tail in C3. split; [apply ws_no_nl; exact GL|]. split; [cbn [vr counting]; rewrite C1, C2, (KN C4); reflexivity|exact C3].
        * exists (c :: cells), v'. split.
          { eapply s_more; [exact P| |exact ST]. intro KE. destruct (CK KE) as (C1 & C2 & C3). apply Forall_inv in C3. cbn [vr counting]. rewrite C1, C2, (KN C3). reflexivity. }
          cbn [map vr probs hs] in *. rewrite SH, S1. split; [reflexivity|]. split; [exact BH|]. split; [exact PR|]. rewrite <- app_assoc in K2. split; [exact K2|]. split; [congruence|].
          rewrite U2, HU. unfold last_full. replace (rev (f :: g :: fs)) with (rev (g :: fs) ++ [f]) by reflexivity. destruct (rev (g :: fs)) as [|z zs] eqn:RV; [apply (f_equal (@length _)) in RV; rewrite rev_length in RV; discriminate|]. reflexivity.
  Qed.
End Record.

(** ** All records *)
Definition ready (v : values) (l : list ttok) : Prop := (toks (vr v) = l /\ dsv_last v <> LDelimiter) \/ (toks (vr v) = drop_while wsish l /\ dsv_last v = LDelimiter).
Lemma behind_ready v l : behind v l -> ready v l.
Proof. intros [[A B]|[A B]]; [left|right]; split; auto. congruence. Qed.
Lemma fields_first fmt sep start fs : fields_ok fmt sep start fs -> exists f fs', fs = f :: fs' /\ Forall (fun t => ws t = true) (lead f) /\
  (start = true -> match body f ++ [fin f] with t :: _ => wsish t = false | [] => True end).
Proof.
  intro H. inversion H as [? f (FL & FB & FH) N ST|? f fs' (FL & FB & FH) D EW]; subst; exists f; eexists; (split; [reflexivity|]); (split; [exact FL|]); intros E; destruct (body f) as [|t b] eqn:B; cbn [app]; try (eapply FH; reflexivity).
  - exfalso. apply ST; auto.
  - apply EW. reflexivity.
Qed.
Lemma ready_pre fmt sep n r v rest : record_ok fmt sep n r -> ready v (record_src r ++ rest) -> exists pre, Forall (fun t => wsish t = true) pre /\ (dsv_last v = LDelimiter -> existsb nl pre = false) /\ toks (vr v) = src_with pre (fields r) ++ rest /\
  (dsv_last v <> LDelimiter -> gap r = [] -> existsb nl pre = false).
Proof.
  intros (G & FO & _) RD. destruct (fields_first _ _ _ _ FO) as (f & fs & E & FL & FW). specialize (FW eq_refl). unfold record_src in RD. rewrite E in *. cbn [flat_map] in RD. change (field_src f) with (lead f ++ body f ++ [fin f]) in RD.
  assert (FL' : Forall (fun t => wsish t = true) (lead f)) by (eapply Forall_impl; [|exact FL]; cbn; intros; apply ws_wsish; assumption).
  destruct RD as [[T L]|[T L]].
  - exists (gap r ++ lead f). split; [apply Forall_app; auto|]. split; [congruence|]. split; [rewrite T; cbn [src_with]; rewrite <- !app_assoc; reflexivity|]. intros _ ->. apply ws_no_nl. exact FL.
  - exists []. split; [constructor|]. split; [reflexivity|]. split; [|congruence]. rewrite T, <- !app_assoc. rewrite !drop_wsish_app by assumption. cbn [src_with app]. rewrite <- !app_assoc. cbn [app].
    destruct (body f) as [|t b]; cbn [app] in *; cbn [drop_while]; rewrite FW; reflexivity.
Qed.
Lemma fields_len fmt sep start fs : fields_ok fmt sep start fs -> 1 <= length fs.
Proof. intro H. destruct H; cbn; lia. Qed.
Lemma src_len fs : forall pre, length fs <= length (src_with pre fs).
Proof. destruct fs as [|f fs]; intros pre; [cbn; lia|]. cbn [src_with]. rewrite !app_length. cbn [length]. enough (length fs <= length (flat_map field_src fs)) by lia. clear. induction fs as [|g fs IH]; [cbn; lia|]. cbn [flat_map length]. unfold field_src at 1. rewrite !app_length. cbn [length]. lia. Qed.
Definition hdr_after (h : header) (fs : list field) (rest : list ttok) : header := if is_unknown h && (last_full fs && cur_is Newline rest) then HImplicit else h.
Lemma map_fst_ones (l : list cell) : map fst (map (fun c => (c, 1)) l) = l.
Proof. induction l; cbn; congruence. Qed.
Lemma copied_ones (l : list cell) : copied (map (fun c => (c, 1)) l) = l.
Proof. unfold copied. induction l; cbn in *; congruence. Qed.
(** a row is put in its place *)
Lemma placed h t row kept b : kept_ok h (kept ++ row) -> b = (match t_rows t with [] => negb (has_header h) && known_to_exist (hdr h) | _ => false end) -> (t_rows t = [] -> has_header h = false -> kept = [] /\ t_header t = None) ->
  exists h' t', place_row b h t row = Done (h', t') /\ map (map shape_of_cell) (opt_row (t_header t') ++ t_rows t') = map (map shape_of_cell) (opt_row (t_header t) ++ t_rows t) ++ [map shape_of_cell row] /\
    is_some (t_header t') = is_some (t_header t) || b /\ (exists kept', kept_ok h' kept') /\ (t_rows t' = [] -> has_header h' = false -> False).
Proof.
  intros K BE H1. destruct b.
  - destruct (t_rows t) eqn:TR; [|discriminate]. symmetry in BE. apply andb_true_iff in BE as [NH KN]. apply negb_true_iff in NH. destruct (H1 eq_refl NH) as (-> & TN). cbn [app] in K.
    pose proof (place_first true h t (map (fun c => (c, 1)) row)) as P. rewrite map_fst_ones, copied_ones in P. specialize (P K NH). destruct (place_row true h t row) as [[h' t']| |].
    + destruct P as (P1 & P2 & P3 & P4); [apply Forall_map, Forall_forall; cbn; lia|]. exists h', t'. split; [reflexivity|]. rewrite P1, TR, TN. cbn [opt_row map app]. split; [reflexivity|]. rewrite orb_true_r. split; [destruct (t_header t'); [reflexivity|congruence]|].
      split; [exists []; intros C; congruence|]. congruence.
    + destruct P as (_ & _ & ND); [apply Forall_map, Forall_forall; cbn; lia|]. destruct ND. apply Forall_map, Forall_forall. reflexivity.
    + destruct P. apply Forall_map, Forall_forall; cbn; lia.
  - rewrite place_body. do 2 eexists. split; [reflexivity|]. cbn [t_header t_rows]. rewrite app_assoc, map_app. cbn [map]. split; [reflexivity|]. rewrite orb_false_r. split; [reflexivity|].
    split; [eexists; destruct (kept_nil_settle h _ (has_header h) K) as [X|X]; [exact X|congruence]|]. intros X. destruct (t_rows t); discriminate.
Qed.
Lemma values_rows fmt sep cs n : fmt <> Prefix -> forall recs fuel v t kept, Forall (record_ok fmt sep n) recs -> ready v (flat_map record_src recs) -> length recs < fuel -> kept_ok (hs (vr v)) kept ->
  (t_rows t = [] -> has_header (hs (vr v)) = false -> kept = [] /\ t_header t = None) ->
  exists t' v', dsv_rows fuel fmt sep cs n v t = Done (t', v') /\ probs (vr v') = probs (vr v) /\
    map (map shape_of_cell) (opt_row (t_header t') ++ t_rows t') = map (map shape_of_cell) (opt_row (t_header t) ++ t_rows t) ++ map (fun r => map field_shape (fields r)) recs /\
    is_some (t_header t') = is_some (t_header t) || (match t_rows t with [] => negb (has_header (hs (vr v))) | _ => false end &&
      match recs with r :: rest => known_to_exist (hdr_after (hdr (hs (vr v))) (fields r) (flat_map record_src rest)) | [] => false end).
Proof.
  intro NP. induction recs as [|r recs IH]; intros fuel v t kept OK RD FU K H1; (destruct fuel as [|fuel]; [cbn in FU; lia|]); cbn [dsv_rows].
  - assert (T : toks (vr v) = []) by (destruct RD as [[T _]|[T _]]; exact T). cbn [dsv_row]. unfold parse_dsv_table_cell. rewrite T. cbn [rbind]. exists t, v. split; [reflexivity|]. split; [reflexivity|]. cbn [map]. rewrite app_nil_r. split; [reflexivity|].
    rewrite andb_false_r, orb_false_r. reflexivity.
  - pose proof (Forall_inv OK) as OR. apply Forall_inv_tail in OK. cbn [flat_map] in RD. destruct (ready_pre _ _ _ _ _ _ OR RD) as (pre & PW & PL & PT & _). destruct OR as (_ & FO & LN).
    destruct (record_written fmt sep cs false NP (flat_map record_src recs) true (fields r) FO v 0 pre kept PW) as (cells & v' & ST & SH & BH & PR & K' & HH & HU); auto; try discriminate.
    pose proof (fields_len _ _ _ _ FO) as F1. assert (LC : length cells = length (fields r)) by (apply (f_equal (@length _)) in SH; rewrite !map_length in SH; exact SH).
    rewrite (steps_row fmt sep cs false n v 0 cells v' ST (S (size (toks (vr v)))) []); [|reflexivity|lia|].
    2:{ rewrite LC, PT, size_app. pose proof (src_len (fields r) pre). pose proof (size_len (src_with pre (fields r))). lia. }
    cbn [rbind app]. destruct cells as [|c0 cells0] eqn:CE; [cbn [length] in LC; lia|]. rewrite <- CE in *. unfold push_table_row.
    destruct (placed (hs (vr v')) t cells kept _ K' eq_refl) as (h' & t' & PE & P1 & P2 & (kept' & PK) & PN); [rewrite HH; exact H1|]. rewrite PE. cbn [rbind].
    destruct (IH fuel (Values (with_hs (vr v') h') (dsv_last v')) t' kept') as (t2 & v2 & E2 & PR2 & R2 & HH2); auto.
    + apply behind_ready in BH. exact BH.
    + cbn [length] in FU. lia.
    + intros X Y. destruct (PN X Y).
    + exists t2, v2. split; [exact E2|]. split; [rewrite PR2; exact PR|]. rewrite R2, P1, <- app_assoc, SH. split; [reflexivity|]. rewrite HH2, P2. cbn [vr with_hs hs].
      assert (Z : match t_rows t' with [] => negb (has_header h') | _ :: _ => false end = false) by (destruct (t_rows t'); [destruct (has_header h'); [reflexivity|destruct (PN eq_refl eq_refl)]|reflexivity]).
      rewrite Z. cbn [andb]. rewrite orb_false_r. f_equal. rewrite HH, HU. fold (hdr_after (hdr (hs (vr v))) (fields r) (flat_map record_src recs)). destruct (t_rows t); reflexivity.
Qed.
Lemma head_blank fmt sep n h r recs : Forall (record_ok fmt sep n) (r :: recs) -> known_to_exist (hdr_after h (fields r) (flat_map record_src recs)) = has_head h (r :: recs).
Proof.
  intro OK. unfold hdr_after, has_head. destruct h; cbn [is_unknown andb known_to_exist]; try reflexivity. unfold blank_after, last_full. destruct recs as [|s recs]; [cbn [flat_map cur_is]; destruct (rev (fields r)); rewrite ?andb_false_r; reflexivity|].
  apply Forall_inv_tail, Forall_inv in OK. destruct OK as (_ & FO & _). cbn [flat_map].
  assert (NE : record_src s <> []) by (unfold record_src; destruct (fields_first _ _ _ _ FO) as (f & fs & E & _); rewrite E; cbn [flat_map]; unfold field_src at 1; intro X; apply app_eq_nil in X as [_ X]; apply app_eq_nil in X as [X _]; apply app_eq_nil in X as [_ X]; apply app_eq_nil in X as [_ X]; discriminate).
  destruct (record_src s) as [|t l]; [congruence|]. cbn [app cur_is]. fold (nl t). destruct (rev (fields r)) as [|f fs]; [reflexivity|]. destruct (_ && _); reflexivity.
Qed.
