(** C27: the cells of a pipe separated table and the rows they form *)
From Verif Require Import PsvSpec Text ColsModel PsvProofs PsvRowProofs PsvTableProofs PsvEndProofs PsvStreamProofs.
Open Scope nat_scope.

(** A table with a [cols] attribute whose written rows fill its columns is read as those rows: every cell with its spans and its text, in
    order, as often as its specification says, and no problem is reported. There is a header row when the options ask for one, or when they
    leave it open and the cells of the first row say so. *)
Theorem C27_rows_written sep cs o h rows fuel :
  cs <> [] -> length cs < 256 -> Forall (Forall (cell_ok sep)) rows -> fills (length cs) [] (map written_row rows) -> length rows < fuel ->
  (In h [HSet; HUnset; HNone] \/ (h = HUnknown /\ Forall (fun w => copies (w_spec w) = 1) (hd [] rows))) ->
  exists rt, parse_tokens fuel Prefix sep cs o h (flat_map source (concat rows)) = Done rt /\ map (map shape_of_cell) (all_rows rt) = map written_row rows /\
    rt_cols rt = length cs /\ rt_probs rt = [] /\
    (t_header (rt_table rt) <> None <-> rows <> [] /\ known_to_exist (fold_left after (map (fun w => snd (content w)) (hd [] rows)) h) = true) /\
    (rt_footer rt <> None <-> opt_footer o = true /\ (if t_header (rt_table rt) then 1 else 0) < length rows).
Proof.
  intros NC N256 OK FI FU HH. unfold parse_tokens. assert (CT : match cs with [] => true | _ => false end = false) by (destruct cs; [congruence|reflexivity]). rewrite CT. cbn [counting rbind].
  set (s0 := Rows (Reader (flat_map source (concat rows)) false (HS h [] false) []) [] 0 []).
  destruct (rows_written sep cs (length cs) N256 rows fuel [] s0 (Table None []) []) as (t' & s' & E & PR & SH & HD); unfold s0; cbn [rd toks hs has_header hdr spilled phantom row_idx probs]; auto.
  - apply kept_start.
  - intros _ _. split; [reflexivity|]. split; [reflexivity|]. destruct HH as [HH|[HH ONE]]; [cbn in HH; intuition congruence|]. right. right. right. split; [exact HH|]. destruct rows; [exact I|exact ONE].
  - fold s0. rewrite E. cbn [rbind]. eexists. split; [reflexivity|]. rewrite footer_rows. destruct (footer_parts o t' (length cs) (probs (rd s'))) as (F1 & F2 & F3 & F4). rewrite F1, F2, F3.
    unfold s0 in PR, SH, HD. cbn [rd probs t_header t_rows opt_row map app is_some hs has_header hdr negb andb orb] in PR, SH, HD. split; [exact SH|]. split; [reflexivity|]. split; [exact PR|].
    assert (LEN : length (opt_row (t_header t')) + length (t_rows t') = length rows) by (apply (f_equal (@length _)) in SH; rewrite !map_length, app_length in SH; exact SH).
    split.
    + destruct rows as [|ws rows]; cbn [hd].
      * destruct (t_header t'); [discriminate|]. split; [congruence|intros [X _]; congruence].
      * destruct (t_header t'); cbn [is_some] in HD; rewrite <- HD; split; try congruence; intros; try discriminate; intuition discriminate.
    + destruct (rt_footer _); cbn [is_some] in F4; symmetry in F4.
      * apply andb_true_iff in F4 as [F4 F5]. split; [intros _|discriminate]. split; [exact F4|]. destruct (t_rows t'); [discriminate|]. destruct (t_header t'); cbn [opt_row length] in LEN; lia.
      * split; [congruence|]. intros [X Y]. rewrite X in F4. destruct (t_rows t'); [|discriminate]. destruct (t_header t'); cbn [opt_row length] in LEN; lia.
Qed.
Print Assumptions C27_rows_written.

(** The same without a [cols] attribute: the first line with cells makes the first row, and its width is the number of columns. *)
Theorem C27_rows_counted sep o h first rows fuel :
  first <> [] -> Forall (Forall (cell_ok sep)) (first :: rows) -> row_width (written_row first) < 256 -> one_way (written_row first) ->
  (forall a w b, first = a ++ w :: b -> b <> [] -> no_nl (snd (content w)) = true) -> (rows <> [] -> exists a w, first = a ++ [w] /\ no_nl (snd (content w)) = false) ->
  fills (row_width (written_row first)) [] (map written_row (first :: rows)) -> length rows < fuel ->
  (In h [HSet; HUnset; HNone] \/ (h = HUnknown /\ Forall (fun w => copies (w_spec w) = 1) first)) ->
  exists rt, parse_tokens fuel Prefix sep [] o h (flat_map source (concat (first :: rows))) = Done rt /\ map (map shape_of_cell) (all_rows rt) = map written_row (first :: rows) /\
    rt_cols rt = row_width (written_row first) /\ rt_probs rt = [] /\
    (t_header (rt_table rt) <> None <-> known_to_exist (fold_left after (map (fun w => snd (content w)) first) h) = true).
Proof.
  intros NE OK N256 OW INN LST FI FU HH. pose proof (Forall_inv OK) as OK1. apply Forall_inv_tail in OK.
  unfold parse_tokens. cbn [counting]. unfold parse_psv_implicit_first_row. cbn [toks concat]. rewrite flat_map_app. fold (sources first) (sources (concat rows)).
  assert (OKC : Forall (cell_ok sep) (concat rows)) by (clear -OK; induction OK; cbn [concat]; [constructor|apply Forall_app; auto]).
  assert (FOL : follows sep (sources (concat rows))) by (rewrite <- (app_nil_r (sources (concat rows))); apply sources_follow; [exact OKC|left; reflexivity]).
  assert (M : exists m : bool, Forall (fun x => if m then cols_of x = 1 else rows_of x <= 1) (shapes first)) by (destruct OW as [W|W]; [exists false|exists true]; exact W). destruct M as [m M].
  destruct (first_written sep m (sources (concat rows)) FOL first (S (size (sources first ++ sources (concat rows)))) (Reader (sources first ++ sources (concat rows)) true (HS h [] false) []) [] [] []) as (reads & ph & count & h1 & E & S1 & M1 & T1 & K1 & H1 & A1);
    cbn [toks counting hs has_header hdr probs]; auto.
  - rewrite size_app. pose proof (sources_size first). lia.
  - destruct rows as [|r rows]; [left; reflexivity|right; apply LST; discriminate].
  - constructor; [intros j _; reflexivity|intros _ p []].
  - apply kept_start.
  - rewrite E. cbn [rbind app] in *. cbn [toks counting hs probs rd phantom row_idx spilled].
    assert (NLD : drop_while nl (sources (concat rows)) = sources (concat rows)).
    { destruct FOL as [->|(w & r & CO & ->)]; [reflexivity|]. destruct CO as (WS & IS & _ & _). apply wr_spec_kinds in WS. unfold source. rewrite <- app_assoc. destruct (w_toks w) as [|t tl]; cbn [app drop_while].
      - rewrite (sep_not_nl _ _ IS). reflexivity.
      - apply Forall_inv in WS. assert (nl t = false) as -> by (apply tk_not_k; intro X; unfold speck in WS; rewrite X in WS; cbn in WS; intuition discriminate). reflexivity. }
    rewrite NLD. assert (SUM : sum_spans (copied reads) = row_width (written_row first)).
    { unfold sum_spans, row_width. change (written_row first) with (shapes first). rewrite <- S1, map_map. reflexivity. }
    rewrite SUM. set (n := row_width (written_row first)) in *.
    assert (POS : Forall (fun p : cell * nat => 1 <= snd p) reads) by (apply map_copied_one; rewrite M1; apply Forall_map, Forall_forall; intros w _; unfold copies; lia).
    cbn [map fills] in FI. destruct FI as (FW & FC & FR & FI).
    assert (NN : copied reads <> []).
    { destruct first as [|w first]; [congruence|]. rewrite shapes_cons in S1. assert (1 <= copies (w_spec w)) by (unfold copies; lia). destruct (copies (w_spec w)); [lia|]. intro X. rewrite X in S1. discriminate. }
    unfold finish_implicit_header_row. destruct (copied reads) as [|c0 cr] eqn:CE; [congruence|]. cbv iota. rewrite <- CE in *. clear NN. cbn [has_header] in H1.
    pose proof (place_first (known_to_exist (hdr h1)) h1 (Table None []) reads K1 H1 POS) as P. destruct (place_row (known_to_exist (hdr h1)) h1 (Table None []) (copied reads)) as [[h2 t1]| |] eqn:PE.
    + cbn [rbind with_hs toks counting probs]. destruct P as [P1 P2].
      destruct (rows_written sep [] n N256 rows fuel [shapes first] (Rows (Reader (sources (concat rows)) count h2 []) ph 1 []) t1 (map fst reads)) as (t' & s' & E2 & PR & SH & HD); cbn [rd toks hs has_header hdr spilled phantom row_idx probs]; auto.
      * intros j L. destruct T1 as [T1 _]. rewrite T1 by lia. rewrite S1. cbn [hanging]. fold (hangs (shapes first) (1 + j - 1)). replace (1 + j - 1) with j by lia. lia.
      * destruct (known_to_exist (hdr h1)); [intro X; destruct P2 as [P2 _]; congruence|]. rewrite place_body in PE. injection PE as <- <-. destruct (kept_nil_settle h1 _ (has_header h1) K1) as [X|X]; [exact X|congruence].
      * intros X Y. exfalso. destruct (known_to_exist (hdr h1)); [destruct P2 as [P2 _]; congruence|]. destruct P2 as (_ & P2 & _). cbn [t_rows app] in P2. congruence.
      * unfold with_hs. cbn [toks counting probs]. rewrite E2. cbn [rbind]. eexists. split; [reflexivity|]. rewrite footer_rows. destruct (footer_parts o t' n (probs (rd s'))) as (F1 & F2 & F3 & F4). rewrite F1, F2, F3. cbn [rd probs] in PR.
        split.
        { rewrite SH, P1. cbn [t_header t_rows opt_row map app]. change (written_row first) with (shapes first). rewrite S1. destruct (known_to_exist (hdr h1)); reflexivity. }
        split; [reflexivity|]. split; [exact PR|]. cbn [rd hs] in HD. cbn [hs hdr] in A1. rewrite <- A1.
        destruct (known_to_exist (hdr h1)).
        { destruct P2 as (PA & PB & PC). rewrite PA in HD. cbn [negb] in HD. destruct (t_header t1); [|congruence]. cbn [is_some orb] in HD. destruct (t_header t'); [split; [auto|discriminate]|discriminate]. }
        { destruct P2 as (PA & PB & PC). cbn [t_rows t_header app] in *. rewrite PB, PC in HD. cbn [is_some orb andb] in HD. destruct (t_header t'); [discriminate|]. split; congruence. }
    + exfalso. destruct P as (_ & HI & ND). rewrite A1 in HI. cbn [hdr] in HI.
      assert (ST : forall bs x, x <> HUnknown -> fold_left after bs x = x) by (clear; induction bs as [|y bs I]; intros x X; [reflexivity|]; cbn [fold_left]; unfold after at 2; destruct x; try congruence; apply I; discriminate).
      destruct HH as [HH|[HH ONE]].
      * cbn [In] in HH. destruct HH as [HH|[HH|[HH|[]]]]; subst h; rewrite ST in HI by discriminate; discriminate.
      * apply ND. apply Forall_map with (f := snd) (P := fun k => k = 1). rewrite M1. apply Forall_map. exact ONE.
    + contradiction.
Qed.
Print Assumptions C27_rows_counted.

(** Whatever the source: when a table is read, the cells of its rows are, in order, the cells found in the source, each as often as its
    specification says. None is lost and none is made up, whatever the spans and copies do to the rows; the problems reported are those met on the way. *)
Theorem C27_conserved sep cs o h l fuel rt : parse_tokens fuel Prefix sep cs o h l = Done rt ->
  exists cells, map shape_of_cell (concat (all_rows rt)) = expand cells /\
    if cs then exists a b c ps m m', cells = a ++ b /\ reads sep 0 (true, [], l) a (c, ps, m) /\ (m' = m \/ m' = [] \/ m' = drop_while nl m) /\ exists c' ps', stream sep (rt_cols rt) (c', ps', m') b (rt_probs rt)
    else rt_cols rt = length cs /\ stream sep (length cs) (false, [], l) cells (rt_probs rt).
Proof.
  unfold parse_tokens. destruct cs as [|c0 cs0] eqn:CS; cbn [counting].
  - destruct (parse_psv_implicit_first_row sep (Reader l true (HS h [] false) [])) as [[[cells n] s]| |] eqn:E; cbn [rbind]; [|discriminate|discriminate].
    unfold parse_psv_implicit_first_row in E. destruct (psv_first_cells _ _ _ _ _ _ _) as [[[cells' ph] r]| |] eqn:F; cbn [rbind] in E; [|discriminate|discriminate]. injection E as -> <- <-.
    eapply first_stream in F; [|apply kept_start]. destruct F as (xs & rds & EQ & FP & S1 & U & K & HH & _ & _). cbn [app] in *. cbn [rd hs has_header] in *.
    destruct (finish_implicit_header_row (hs r) (Table None []) cells) as [[h1 t1]| |] eqn:P; cbn [rbind]; [|discriminate|discriminate].
    cbn [with_hs toks counting probs phantom row_idx spilled].
    assert (T1 : taken t1 = expand xs /\ (exists k, kept_ok h1 k /\ (t_rows t1 = [] -> has_header h1 = false -> k = [] /\ t_header t1 = None))).
    { unfold finish_implicit_header_row in P. destruct cells as [|c1 cells].
      - injection P as <- <-. assert (rds = []) as -> by (destruct rds as [|[c [|d]] rds]; [reflexivity| |discriminate]; inversion FP as [|? ? L]; cbn in L; lia). cbn [copied flat_map map] in S1. rewrite <- S1. split; [reflexivity|].
        cbn [map] in K. exists []. split; [exact K|]. intros _ _. auto.
      - rewrite EQ in P. eapply taken_place with (kept := map fst rds) (rds := rds) in P; [|exact K|intros _; repeat split; auto]. destruct P as (P1 & (k & P2) & P3). rewrite P1, S1. split; [reflexivity|]. exists k. split; [exact P2|]. intros X Y. destruct (P3 X Y). }
    destruct T1 as [T1 (k & K1 & N1)].
    destruct (psv_rows _ _ _ _ _ _) as [[t' s']| |] eqn:R; cbn [rbind]; [|discriminate|discriminate]. intro H. injection H as <-.
    eapply rows_stream in R; [|cbn [rd hs]; exact K1|cbn [rd hs spilled]; intros X Y; destruct (N1 X Y); auto]. cbn [rd spilled map app] in R. destruct R as (ys & ST & TK).
    exists (xs ++ ys). rewrite footer_rows. fold (taken t'). rewrite TK, T1. split; [unfold expand; rewrite flat_map_app; reflexivity|].
    destruct (footer_parts o t' (sum_spans cells) (probs (rd s'))) as (F1 & F2 & F3 & F4). rewrite F2, F3. unfold pt in U, ST. cbn [counting probs toks] in U, ST.
    destruct U as [U|([[mc mps] ml] & U & C)].
    + exists xs, ys, (counting r), (probs r), (toks r), (drop_while nl (toks r)). split; [reflexivity|]. split; [exact U|]. split; [auto|]. do 2 eexists. exact ST.
    + exists xs, ys, mc, mps, ml, []. split; [reflexivity|]. split; [exact U|]. split; [auto|]. pose proof (closed_nil _ _ _ _ C) as Z. cbn [snd] in Z. rewrite Z in ST. cbn [drop_while] in ST. do 2 eexists. exact ST.
  - cbn [rbind]. rewrite <- CS. destruct (psv_rows _ _ _ _ _ _) as [[t' s']| |] eqn:R; cbn [rbind]; [|discriminate|discriminate]. intro H. injection H as <-.
    eapply rows_stream in R; [|cbn [rd hs]; apply kept_start|cbn [rd hs spilled t_header]; auto]. cbn [rd spilled map app] in R. destruct R as (ys & ST & TK).
    exists ys. rewrite footer_rows. fold (taken t'). rewrite TK. split; [reflexivity|]. destruct (footer_parts o t' (length cs) (probs (rd s'))) as (F1 & F2 & F3 & F4). rewrite F2, F3. split; [reflexivity|exact ST].
Qed.
Print Assumptions C27_conserved.

(** Reading ends, except when columns are counted and the first row has none: then it never does. *)
Theorem C27_terminates sep cs o h l : sep <> [] ->
  (exists bound, forall fuel, bound <= fuel -> parse_tokens fuel Prefix sep cs o h l <> Loops) \/
  (cs = [] /\ (exists cells s, parse_psv_implicit_first_row sep (Reader l true (HS h [] false) []) = Done (cells, 0, s)) /\ forall fuel, parse_tokens fuel Prefix sep cs o h l = Loops).
Proof.
  intro NE. unfold parse_tokens. destruct cs as [|c0 cs0] eqn:CS; cbn [counting].
  - pose proof (first_ends sep NE (S (size l)) (Reader l true (HS h [] false) []) [] [] ltac:(cbn [toks]; lia)) as F. unfold parse_psv_implicit_first_row. cbn [toks].
    destruct (psv_first_cells (S (size l)) sep [] 0 (Reader l true (HS h [] false) []) [] []) as [[[cells ph] r]| |] eqn:E; cbn [rbind]; [|left; exists 0; discriminate|contradiction]. cbn [rd hs].
    eapply first_stream in E; [|apply kept_start]. destruct E as (xs & rds & EQ & FP & S1 & U & K & HH & _ & _). cbn [app has_header hs] in *.
    destruct (finish_implicit_header_row (hs r) (Table None []) cells) as [[h1 t1]| |] eqn:P; cbn [rbind]; [|left; exists 0; discriminate|].
    + destruct (sum_spans cells) as [|n] eqn:SS.
      * right. split; [reflexivity|]. split; [do 2 eexists; reflexivity|]. intro fuel. rewrite no_columns_loops; [reflexivity|reflexivity|reflexivity].
      * left. destruct (rows_end sep [] (S n) NE ltac:(lia) (Rows (with_hs (Reader (drop_while nl (toks r)) (counting r) (hs r) (probs r)) h1) ph match cells with [] => 0 | _ :: _ => 1 end []) t1) as [N HN].
        exists N. intros fuel L. specialize (HN fuel L). cbn [phantom row_idx spilled]. destruct (psv_rows _ _ _ _ _ _) as [[t' s']| |]; cbn [rbind]; congruence.
    + exfalso. unfold finish_implicit_header_row in P. destruct cells; [discriminate|]. unfold place_row in P. destruct (known_to_exist _); [|discriminate]. destruct (hdr (hs r)); try discriminate. destruct (reparse_header_cells _ _) as [[? ?]|]; discriminate.
  - left. cbn [rbind]. destruct (rows_end sep (c0 :: cs0) (length (c0 :: cs0)) NE ltac:(cbn; lia) (Rows (Reader l false (HS h [] false) []) [] 0 []) (Table None [])) as [N HN].
    exists N. intros fuel L. specialize (HN fuel L). destruct (psv_rows _ _ _ _ _ _) as [[t' s']| |]; cbn [rbind]; congruence.
Qed.
Print Assumptions C27_terminates.

(** With [|], [,], [:] or [;] as separator, reading panics only when the header row is left open and a cell that it read is copied. *)
Theorem C27_no_panic sep cs o h l fuel : sep_kind sep <> None -> parse_tokens fuel Prefix sep cs o h l = Crash ->
  (h = HUnknown \/ h = HImplicit) /\ exists cells q, reads sep (length cs) (match cs with [] => true | _ => false end, [], l) cells q /\ Exists (fun x => 2 <= copies (fst x)) cells.
Proof.
  intros SK. assert (EM : embeddable sep = None) by (unfold embeddable; destruct (sep_kind sep); congruence).
  assert (NE : sep <> []) by (intros ->; apply SK; reflexivity).
  assert (EX : forall xs : list (cell_spec * list ttok), ~ Forall (fun x => copies (fst x) = 1) xs -> Exists (fun x => 2 <= copies (fst x)) xs).
  { intros xs N. apply neg_Forall_Exists_neg in N; [|intro x; apply Nat.eq_dec]. eapply Exists_impl; [|exact N]. intros x X. cbv beta in X. assert (1 <= copies (fst x)) by (unfold copies; lia). lia. }
  unfold parse_tokens. destruct cs as [|c0 cs0] eqn:CS; cbn [counting].
  - pose proof (first_ends sep NE (S (size l)) (Reader l true (HS h [] false) []) [] [] ltac:(cbn [toks]; lia)) as F. unfold parse_psv_implicit_first_row. cbn [toks].
    destruct (psv_first_cells (S (size l)) sep [] 0 (Reader l true (HS h [] false) []) [] []) as [[[cells ph] r]| |] eqn:E; cbn [rbind]; [|congruence|contradiction]. cbn [rd hs].
    eapply first_stream in E; [|apply kept_start]. destruct E as (xs & rds & EQ & FP & S1 & U & K & HH & HU & ON). cbn [app has_header hs hdr] in *.
    assert (UR : exists q, reads sep 0 (true, [], l) xs q) by (destruct U as [U|(m & U & _)]; eexists; exact U). destruct UR as [q UR].
    destruct (finish_implicit_header_row (hs r) (Table None []) cells) as [[h1 t1]| |] eqn:P; cbn [rbind]; [| |discriminate].
    + destruct (psv_rows _ _ _ _ _ _) as [[t' s']| |] eqn:R; cbn [rbind]; [discriminate| |discriminate]. intros _. unfold finish_implicit_header_row in P. destruct cells as [|c1 cells].
      * exfalso. injection P as <- <-. rewrite no_columns_loops in R; [discriminate|reflexivity|reflexivity].
      * rewrite EQ in P. eapply taken_place with (kept := map fst rds) (rds := rds) in P; [|exact K|intros _; repeat split; auto]. destruct P as (P1 & (k & P2) & P3).
        exfalso. eapply (rows_later sep [] _ EM NE) in R; [exact R|cbn [rd hs with_hs]; exact P2|cbn [rd hs with_hs]; exact P3].
    + intros _. unfold finish_implicit_header_row in P. destruct cells as [|c1 cells]; [discriminate|]. rewrite EQ in P. pose proof (place_first (known_to_exist (hdr (hs r))) (hs r) (Table None []) rds K HH FP) as PF. rewrite P in PF.
      destruct PF as (_ & HI & ND). split; [destruct h; auto; rewrite HU in HI by discriminate; discriminate|]. exists xs, q. split; [exact UR|]. apply EX. intro O. apply ND, ON, O.
  - cbn [rbind]. rewrite <- CS. destruct (psv_rows _ _ _ _ _ _) as [[t' s']| |] eqn:R; cbn [rbind]; [discriminate| |discriminate]. intros _.
    apply rows_crash in R; cbn [rd hs spilled t_rows t_header has_header hdr]; auto; [|apply kept_start]. destruct R as [R1 (xs & q & R2 & R3)]. cbn [rd hs hdr] in *. split; [exact R1|]. exists xs, q. split; [exact R2|]. apply EX, R3.
Qed.
Print Assumptions C27_no_panic.

(** ** Cases that meet the hypotheses *)
Definition src (s : string) : list ttok := map (fun t => TT t false) (lex s).
Definition NLs : string := String LF EmptyString.
Definition no_options := Options false false false.
Definition seen (c : cell) : nat * nat * string := (c_cols c, c_rows c, string_of_list_ascii (text_of (map bt (c_toks c)))).
Definition rows_seen (r : res read_table) : option (list (list (nat * nat * string))) := match r with Done t => Some (map (map seen) (all_rows t)) | _ => None end.
Definition read_psv (cs : list col_spec) (h : header) (s : string) : res read_table := parse_tokens 20 Prefix ($"|") cs no_options h (src s).
Definition columns (n : nat) : list col_spec := repeat default_spec n.
Definition T (k : kind) (s : string) : ttok := TT (Tok k ($s)) false.
Definition pipe := T Pipe "|".
Definition eol : ttok := TT (Tok Newline [LF]) false.
Definition a_cell (c : string) (z : ttok) := Written default_cell [] pipe [Plain (T Word c); Plain z].
Definition x_cell := Written (CellSpec None None (Some 2) (Some HCenter) None (Some SStrong)) [T Dots "."; T Digits "2"; T Plus "+"; T Caret "^"; T Word "s"] pipe [Plain (T Word "x"); Escaped (T Backslash "\") pipe; Plain (T Whitespace " ")].
Definition y_cell := Written (CellSpec (Some 2) None None None None None) [T Digits "2"; T Star "*"] pipe [Plain (T Word "y"); Plain eol].
Definition z_cell := Written (CellSpec None (Some 2) None None None None) [T Digits "2"; T Plus "+"] pipe [Plain (T Word "z"); Plain eol].
Lemma no_pipe (t : bytes) : forallb (fun c => negb (Ascii.eqb c "|"%char)) t = true -> forall a z, t <> a ++ $"|" ++ z.
Proof. intros F a z E. rewrite E, forallb_app in F. apply andb_true_iff in F as [_ F]. cbn in F. discriminate. Qed.
Lemma pipe_sep : is_sep ($"|") pipe.
Proof. split; [reflexivity|]. split; [reflexivity|]. split; [cbn; intuition discriminate|discriminate]. Qed.
Lemma one_digit n c : numeral 256 [c] n <-> digit c /\ n = value [c] /\ (n < 256)%N.
Proof.
  unfold numeral. split.
  - intros (ds & [<-|E] & NE & D & V & L); [inversion D; auto|]. injection E as -> <-. congruence.
  - intros (D & V & L). exists [c]. split; [auto|]. split; [discriminate|]. split; [constructor; [exact D|constructor]|auto].
Qed.
Ltac free := refine (no_pipe _ _); reflexivity.
Ltac items := split; [repeat (apply Forall_cons; [first [free|split; [reflexivity|split; [free|exact pipe_sep]]]|]); apply Forall_nil|].
Ltac noar := repeat (apply Forall_cons; [split; [reflexivity|free]|]); apply Forall_nil.
Ltac num := split; [reflexivity|apply one_digit; vm_compute; intuition congruence].
Lemma a_ok c z : forallb (fun c => negb (Ascii.eqb c "|"%char)) ($c) = true -> In z [eol; T Whitespace " "] -> cell_ok ($"|") (a_cell c z).
Proof.
  intros C Z. split; [exists [], [], [], []; repeat split; constructor|]. split; [exact pipe_sep|]. split; [|constructor]. split.
  - apply Forall_cons; [exact (no_pipe _ C)|]. apply Forall_cons; [destruct Z as [<-|[<-|[]]]; free|apply Forall_nil].
  - exists [Plain (T Word c)], z. split; [reflexivity|]. destruct Z as [<-|[<-|[]]]; reflexivity.
Qed.
Lemma x_ok : cell_ok ($"|") x_cell.
Proof.
  split; [exists [], [T Dots "."; T Digits "2"; T Plus "+"], [T Caret "^"], [T Word "s"]; repeat split; [constructor|apply ws_rows; [num|split; reflexivity|reflexivity]|apply (wa_h HCenter); reflexivity|apply wy_some with (c := "s"%char); [cbn; tauto|reflexivity|reflexivity]]|].
  split; [exact pipe_sep|]. split; [|noar]. items. exists [Plain (T Word "x"); Escaped (T Backslash "\") pipe], (T Whitespace " "). split; reflexivity.
Qed.
Lemma y_ok : cell_ok ($"|") y_cell.
Proof.
  split; [exists [T Digits "2"; T Star "*"], [], [], []; repeat split; [apply wd_some; [num|reflexivity]|constructor|constructor|constructor]|].
  split; [exact pipe_sep|]. split; [|noar]. items. exists [Plain (T Word "y")], eol. split; reflexivity.
Qed.
Lemma z_ok : cell_ok ($"|") z_cell.
Proof.
  split; [exists [], [T Digits "2"; T Plus "+"], [], []; repeat split; [constructor|apply ws_cols; [num|reflexivity]|constructor|constructor]|].
  split; [exact pipe_sep|]. split; [|noar]. items. exists [Plain (T Word "z")], eol. split; reflexivity.
Qed.
Definition the_rows : list (list written) := [[x_cell; y_cell]; [z_cell]; [a_cell "foo" (T Whitespace " "); a_cell "bar" (T Whitespace " "); a_cell "baz" eol]].
Example rows_written_nonvacuous : flat_map source (concat the_rows) = src (".2+^s|x\| 2*|y" ++ NLs ++ "2+|z" ++ NLs ++ "|foo |bar |baz" ++ NLs) /\
  columns 3 <> [] /\ Forall (Forall (cell_ok ($"|"))) the_rows /\ fills 3 [] (map written_row the_rows) /\
  rows_seen (read_psv (columns 3) HSet (".2+^s|x\| 2*|y" ++ NLs ++ "2+|z" ++ NLs ++ "|foo |bar |baz" ++ NLs)) =
    Some [[(1, 2, "x|"%string); (1, 1, "y"%string); (1, 1, "y"%string)]; [(2, 1, "z"%string)]; [(1, 1, "foo"%string); (1, 1, "bar"%string); (1, 1, "baz"%string)]].
Proof.
  split; [vm_compute; reflexivity|]. split; [discriminate|]. split; [|split; [|vm_compute; reflexivity]].
  - repeat (first [apply Forall_nil|apply Forall_cons]); first [exact x_ok|exact y_ok|exact z_ok|apply a_ok; [reflexivity|cbn; tauto]].
  - unfold the_rows. cbn [map fills]. vm_compute. repeat match goal with |- _ /\ _ => split | |- Forall _ _ => constructor | |- _ -> _ => intro | |- _ => lia end.
Qed.
Definition first_row := [x_cell; a_cell "foo" (T Whitespace " "); y_cell].
Definition more_rows := [[a_cell "q" (T Whitespace " "); z_cell]; [z_cell; z_cell]].
Example rows_counted_nonvacuous : Forall (Forall (cell_ok ($"|"))) (first_row :: more_rows) /\ row_width (written_row first_row) = 4 /\ one_way (written_row first_row) /\
  (forall a w b, first_row = a ++ w :: b -> b <> [] -> no_nl (snd (content w)) = true) /\ (exists a w, first_row = a ++ [w] /\ no_nl (snd (content w)) = false) /\
  fills 4 [] (map written_row (first_row :: more_rows)).
Proof.
  split; [unfold first_row, more_rows; repeat (first [apply Forall_nil|apply Forall_cons]); first [exact x_ok|exact y_ok|exact z_ok|apply a_ok; [reflexivity|cbn; tauto]]|].
  split; [reflexivity|]. split; [right; vm_compute; repeat constructor|]. split.
  - intros a w b E NB. destruct a as [|a0 [|a1 [|a2 a]]]; cbn [app] in E; injection E; intros; subst; try reflexivity; try congruence. destruct a; discriminate.
  - split; [exists [x_cell; a_cell "foo" (T Whitespace " ")], y_cell; split; reflexivity|]. unfold first_row, more_rows. cbn [map fills]. vm_compute. repeat match goal with |- _ /\ _ => split | |- Forall _ _ => constructor | |- _ -> _ => intro | |- _ => lia end.
Qed.
Example conserved_nonvacuous : exists rt, read_psv (columns 3) HNone ("4*|x 2.3+|a|b 9+|c|d" ++ NLs) = Done rt /\ length (all_rows rt) = 3 /\ length (rt_probs rt) = 1.
Proof. eexists. split; [vm_compute; reflexivity|]. split; reflexivity. Qed.

(** ** What does not hold *)
(** a table without cells never ends: the reader adds empty rows for ever *)
Theorem C27_empty_table_refuted : forall fuel o h, parse_tokens fuel Prefix ($"|") [] o h [] = Loops.
Proof.
  intros fuel o h. destruct (C27_terminates ($"|") [] o h [] ltac:(discriminate)) as [[b H]|(_ & _ & H)]; [|apply H]. exfalso. apply (H b); [lia|].
  unfold parse_tokens. cbn [counting]. cbn [parse_psv_implicit_first_row toks size map list_sum fold_right psv_first_cells parse_psv_table_cell psv_cell rbind counting probs hs rd drop_while finish_implicit_header_row sum_spans phantom row_idx spilled].
  rewrite no_columns_loops; reflexivity.
Qed.
Print Assumptions C27_empty_table_refuted.
(** a one letter cell right before the next separator is read as the style of the next cell, and its text is lost *)
Theorem C27_one_letter_cell_refuted : rows_seen (read_psv (columns 2) HNone ("|a|b |c" ++ NLs)) = Some [[(1, 1, ""%string); (1, 1, "b"%string)]; [(1, 1, "c"%string)]] /\
  rows_seen (read_psv (columns 2) HNone ("|x|b |c" ++ NLs)) = Some [[(1, 1, "x"%string); (1, 1, "b"%string)]; [(1, 1, "c"%string)]].
Proof. vm_compute. split; reflexivity. Qed.
(** copies that do not fit go to later rows in order, but a copied cell that reaches the last column makes the row after it too wide *)
Theorem C27_rows_exact_refuted : exists rt, read_psv (columns 2) HNone ("3*2+|x |p |q |r |s" ++ NLs) = Done rt /\ map (fun r => list_sum (map c_cols r)) (all_rows rt) = [2; 4; 2; 2].
Proof. eexists. split; vm_compute; reflexivity. Qed.
(** a cell that spans more columns than are left makes the row too wide *)
Theorem C27_row_overflow_refuted : exists rt, read_psv (columns 2) HNone ("|p 2+|q |r" ++ NLs) = Done rt /\ map (fun r => list_sum (map c_cols r)) (all_rows rt) = [3; 1] /\ rt_probs rt = [].
Proof. eexists. split; [vm_compute; reflexivity|split; reflexivity]. Qed.
(** a row span that starts below another, one column on, is counted once where both reach: a row gets a cell too many *)
Theorem C27_row_spans_refuted : exists rt, read_psv (columns 3) HNone ("|p |q .3+|r |t .2+|u |v |w |x |y" ++ NLs) = Done rt /\ map (map seen) (all_rows rt) =
  [[(1, 1, "p"%string); (1, 1, "q"%string); (1, 3, "r"%string)]; [(1, 1, "t"%string); (1, 2, "u"%string)]; [(1, 1, "v"%string); (1, 1, "w"%string)]; [(1, 1, "x"%string); (1, 1, "y"%string)]].
Proof. eexists. split; vm_compute; reflexivity. Qed.
(** copying a cell with AsciiDoc content in the first row and leaving the header open is a panic *)
Theorem C27_header_copy_refuted : read_psv [] HUnknown ("2*a|x" ++ NLs ++ NLs ++ "|c|d" ++ NLs) = Crash.
Proof. vm_compute. reflexivity. Qed.
(** with 256 columns every cell with a column span is dropped *)
Theorem C27_256_columns_refuted : exists rt, read_psv (columns 256) HNone ("|x 2+|y" ++ NLs) = Done rt /\ map (map seen) (all_rows rt) = [[(1, 1, "x"%string)]] /\ rt_probs rt = [SpanExceedsColumns 2 256].
Proof. eexists. split; [vm_compute; reflexivity|split; reflexivity]. Qed.
(** [0*|] is one cell *)
Theorem C27_zero_copies_refuted : rows_seen (read_psv (columns 1) HNone ("0*|x" ++ NLs)) = Some [[(1, 1, "x"%string)]].
Proof. vm_compute. reflexivity. Qed.
(** a word that an attribute reference stands for and that holds the separator: an assertion fails (or, without assertions, the loop never ends) *)
Theorem C27_attribute_separator_refuted : parse_tokens 20 Prefix ($"x") (columns 1) no_options HNone [TT (Tok Word $"x") false; TT (Tok Word $"xy") true; eol] = Crash.
Proof. vm_compute. reflexivity. Qed.
