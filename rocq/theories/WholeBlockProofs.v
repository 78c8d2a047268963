(** What the block parser makes of a text of words (C67). *)
From Verif Require Import Base Utf8 LexerModel LineModel SubsModel InlineModel InlineSpec BlockModel BlockSpec HeaderModel WholeModel WholeSpec WholeLexProofs WholePieceProofs WholeInlineProofs.
Import ListNotations.
Open Scope list_scope.
Open Scope nat_scope.

(** ** The tokens of a line *)
Definition is_mark (t : tok) : bool := existsb (kind_eqb (tk t)) [Star; Underscore; Backtick].
Definition all_ordinary (ts : list tok) : bool := forallb (fun t => existsb (kind_eqb (tk t)) ordinary) ts.
Definition starts_text (ts : list tok) : bool := match ts with t :: u => is_k Word t || is_mark t && current_is Word u | [] => false end.
Definition texty (l : iline) : Prop := all_ordinary (toks l) = true /\ starts_text (toks l) = true.
Lemma ordinary_in t : existsb (kind_eqb (tk t)) ordinary = true -> In (tk t) ordinary.
Proof. intros H. apply existsb_exists in H as (k & I & K). apply kind_eqb_eq in K. now rewrite K. Qed.
Ltac each_kind I := cbn [ordinary In] in I; decompose [or] I; try contradiction; clear I.
Lemma not_kind k t : existsb (kind_eqb (tk t)) ordinary = true -> existsb (kind_eqb k) ordinary = false -> is_k k t = false.
Proof.
  intros O N. unfold is_k. destruct (kind_eqb (tk t) k) eqn:E; [|reflexivity]. apply kind_eqb_eq in E. rewrite E in O. congruence.
Qed.
Lemma texty_inv l : texty l -> exists t u, toks l = t :: u /\ all_ordinary u = true /\ (tk t = Word \/ In (tk t) [Star; Underscore; Backtick] /\ exists v w, u = v :: w /\ tk v = Word).
Proof.
  intros [A S]. destruct (toks l) as [|t u]; [discriminate S|]. exists t, u. split; [reflexivity|]. cbn [all_ordinary forallb] in A. apply andb_true_iff in A as [_ A]. split; [exact A|]. cbn [starts_text] in S.
  apply orb_true_iff in S as [S|S]; [left; now apply kind_eqb_eq in S|]. right. apply andb_true_iff in S as [S W]. split.
  - apply existsb_exists in S as (k & I & K). apply kind_eqb_eq in K. now rewrite K.
  - destruct u as [|v w]; [discriminate W|]. exists v, w. split; [reflexivity|]. now apply kind_eqb_eq in W.
Qed.
(** the first token and the second *)
Ltac first_kind T H := let t := fresh "t" in let u := fresh "u" in let A := fresh "A" in let K := fresh "K" in let v := fresh "v" in let w := fresh "w" in let V := fresh "V" in
  apply texty_inv in T as (t & u & H & A & [K|[K (v & w & -> & V)]]); rewrite ?H; destruct t as [? ? ?]; cbn [tk In] in K; [subst|destruct v; cbn [tk] in V; subst; decompose [or] K; try contradiction; subst].
Lemma text_heading P l : texty l -> heading_level P (toks l) = None.
Proof. intros T. unfold heading_level. replace (unadjusted_level (toks l)) with (@None nat); [reflexivity|]. symmetry. first_kind T H; reflexivity. Qed.
Lemma text_unadjusted l : texty l -> unadjusted_level (toks l) = None.
Proof. intros T. first_kind T H; reflexivity. Qed.
Lemma text_attr l : texty l -> attr_list_line l = false /\ anchor_line l = false.
Proof. intros T. unfold attr_list_line, anchor_line. first_kind T H; (split; [apply andb_false_r|reflexivity]). Qed.
Lemma text_comment l : texty l -> is_comment l = false.
Proof. intros T. unfold is_comment. first_kind T H; apply andb_false_r. Qed.
Lemma text_title l : texty l -> chunk_title l = false.
Proof. intros T. unfold chunk_title. first_kind T H; [now destruct u|reflexivity..]. Qed.
Lemma text_macro l : texty l -> is_block_macro (toks l) = false.
Proof. intros T. first_kind T H; reflexivity. Qed.
Lemma no_term r : all_ordinary r = true -> term_marker r = None.
Proof. induction r as [|t r IH]; [reflexivity|]. cbn [all_ordinary forallb term_marker]. intros H. apply andb_true_iff in H as [O H]. rewrite (not_kind TermDelimiter t O eq_refl). now apply IH. Qed.
Lemma text_item l : texty l -> list_marker l = None.
Proof.
  intros T. unfold list_marker. rewrite (text_comment l T). pose proof T as [A _]. cbn [orb]. pose proof (no_term _ A) as N. revert N. clear A. first_kind T H; intros N; cbn -[term_marker]; rewrite ?N; try reflexivity.
Qed.
Lemma text_thematic l : texty l -> match toks l with t :: _ => LineModel.one_of [SingleQuote; Star; Dashes; LessThan] t && thematic (toks l) | [] => false end = false.
Proof. intros T. unfold thematic. first_kind T H; try reflexivity. cbn [starts_with_seq satisfies is_k tk kind_eqb kind_beq andb orb LineModel.one_of existsb]. rewrite !andb_false_r. reflexivity. Qed.

(** ** Lines of tokens as lines *)
Lemma push_ordinary l t : existsb (kind_eqb (tk t)) ordinary = true -> push_tok l t = ILine (toks l ++ [t]) (S (orig l)) (passm l) (pluses l).
Proof. intros O. unfold push_tok. rewrite (not_kind MacroName t O eq_refl), (not_kind Plus t O eq_refl). cbn [andb]. now rewrite orb_false_r. Qed.
Lemma line_of_ordinary ts : all_ordinary ts = true -> InlineSpec.line_of ts = ILine ts (length ts) false 0.
Proof.
  intros H. unfold InlineSpec.line_of. assert (G : forall ts l, all_ordinary ts = true -> fold_left push_tok ts l = ILine (toks l ++ ts) (orig l + length ts) (passm l) (pluses l)).
  { clear. induction ts as [|t ts IH]; intros l H; [destruct l; cbn; now rewrite app_nil_r, Nat.add_0_r|]. cbn [all_ordinary forallb] in H. apply andb_true_iff in H as [O H]. cbn [fold_left]. rewrite push_ordinary by exact O. rewrite IH by exact H. cbn [toks orig passm pluses length].
    rewrite <- app_assoc. f_equal. lia. }
  rewrite G by exact H. reflexivity.
Qed.
Lemma ordinary_lay l : forall p prev, forallb (fun x : piece => existsb (kind_eqb (fst x)) ordinary) l = true -> all_ordinary (lay p prev l) = true.
Proof. induction l as [|[k x] l IH]; intros p prev H; [reflexivity|]. cbn [forallb lay all_ordinary fst tk] in *. apply andb_true_iff in H as [K H]. rewrite K. now apply IH. Qed.
Lemma ordinary_line l p prev : forallb item_ok l = true -> all_ordinary (lay p prev (line_pieces l)) = true.
Proof.
  intros H. apply ordinary_lay. set (f := fun x : piece => existsb (kind_eqb (fst x)) ordinary).
  assert (J : forall l, forallb (forallb f) l = true -> forallb f (sepj space l) = true).
  { induction l0 as [|x [|y l0] IH]; intros G; [reflexivity|cbn in *; now rewrite andb_true_r in G|]. cbn [forallb] in G. apply andb_true_iff in G as [X G]. change (sepj space (x :: y :: l0)) with (x ++ [space] ++ sepj space (y :: l0)). rewrite !forallb_app, X, IH by exact G. reflexivity. }
  unfold line_pieces. apply J. rewrite forallb_forall in *. intros x I. apply in_map_iff in I as ([ph u] & <- & I). specialize (H _ I). apply andb_true_iff in H as [H X]. cbn [fst snd] in *. unfold item_pieces. cbn [fst snd].
  rewrite forallb_app. apply andb_true_iff. split.
  - destruct ph as [w|c|st ws]; cbn [phrase_pieces].
    + unfold word_piece, f. cbn. now destruct (a_name w).
    + cbn. unfold f, special_kind_of. cbn. now destruct (Ascii.eqb c "&"), (Ascii.eqb c "<").
    + cbn [forallb]. rewrite forallb_app. cbn [forallb]. replace (f (mark_kind st, mark st)) with true by now destruct st. cbn [andb]. rewrite andb_true_r. apply J. rewrite forallb_forall. intros y Y. apply in_map_iff in Y as (w & <- & _). reflexivity.
  - unfold punct_pieces. rewrite forallb_forall. intros y Y. apply in_map_iff in Y as (d & <- & _). unfold f, punct_kind. cbn. now destruct (Ascii.eqb d ","), (Ascii.eqb d "."), (Ascii.eqb d "!").
Qed.
Lemma line_ok_inv i l : line_ok (i :: l) = true -> forallb item_ok (i :: l) = true /\ starts_ok (fst i) = true.
Proof. unfold line_ok. intros H. apply andb_true_iff in H. exact H. Qed.
Lemma starts_lay i l p prev : line_ok (i :: l) = true -> starts_text (lay p prev (line_pieces (i :: l))) = true.
Proof.
  intros H. apply line_ok_inv in H as [H S]. cbn [forallb] in H. apply andb_true_iff in H as [H _]. apply andb_true_iff in H as [H _]. destruct i as [ph x]. cbn [fst] in *.
  assert (G : forall m, starts_text (lay p prev (phrase_pieces ph ++ m)) = true).
  { intros m. destruct ph as [w|c|st ws]; cbn [starts_ok] in S; [|discriminate S|].
    - cbn [phrase_pieces app lay word_piece]. rewrite S. reflexivity.
    - cbn [phrase_ok] in H. destruct ws as [|w [|w2 ws]]; [discriminate H| |]; destruct st; reflexivity. }
  destruct l as [|j l]; cbn [line_pieces map sepj]; unfold item_pieces; cbn [fst snd]; [apply G|]. rewrite <- app_assoc. apply G.
Qed.

(** ** Groups *)
Definition group_of (g : list iline) (par : list line) : Prop :=
  Forall2 WholeInlineProofs.of_line g par /\ Forall texty g /\ Forall (fun l => l <> [] /\ forallb item_ok l = true) par /\ par <> [].
Lemma of_line_lay i l p prev : line_ok (i :: l) = true -> before_phrase prev ->
  WholeInlineProofs.of_line (InlineSpec.line_of (lay p prev (line_pieces (i :: l)))) (i :: l) /\ texty (InlineSpec.line_of (lay p prev (line_pieces (i :: l)))).
Proof.
  intros H B. pose proof (line_ok_inv i l H) as [OK _]. pose proof (ordinary_line _ p prev OK) as O. rewrite line_of_ordinary by exact O. split.
  - repeat split. now exists p, prev.
  - split; [exact O|]. now apply starts_lay.
Qed.
Lemma emptyish_text i l p prev : line_ok (i :: l) = true -> emptyish (lay p prev (line_pieces (i :: l))) = false.
Proof.
  intros H. pose proof (starts_lay i l p prev H) as S. destruct (lay p prev (line_pieces (i :: l))) as [|t u]; [discriminate S|]. cbn [starts_text] in S. cbn [emptyish forallb]. destruct t as [k x j].
  apply orb_true_iff in S as [S|S]; [apply kind_eqb_eq in S; cbn in S; subst k; reflexivity|]. apply andb_true_iff in S as [S _]. apply existsb_exists in S as (k' & I & K). apply kind_eqb_eq in K. cbn in K, I. subst k. decompose [or] I; try contradiction; subst; reflexivity.
Qed.
Lemma nonempty_text i l p prev : line_ok (i :: l) = true -> exists t u, lay p prev (line_pieces (i :: l)) = t :: u.
Proof. intros H. pose proof (starts_lay i l p prev H) as S. destruct (lay p prev (line_pieces (i :: l))) as [|t u]; [discriminate S|]. now exists t, u. Qed.
Definition at_blank (ls : list line) : Prop := match ls with [] => True | l :: _ => l = [] end.
(** the lines of a group after its first *)
Lemma group_lines ls : forall p prev, forallb line_ok ls = true -> before_phrase prev ->
  exists g par ls' p' prev', group (lines_at p prev ls) = (g, lines_at p' prev' ls') /\ ls = par ++ ls' /\ at_blank ls' /\ before_phrase prev' /\ forallb line_ok ls' = true /\
    Forall2 WholeInlineProofs.of_line g par /\ Forall texty g /\ Forall (fun l => l <> [] /\ forallb item_ok l = true) par.
Proof.
  induction ls as [|l ls IH]; intros p prev H B.
  - exists [], [], [], p, prev. repeat split; auto.
  - cbn [forallb] in H. apply andb_true_iff in H as [L H]. destruct l as [|i l].
    + exists [], [], ([] :: ls), p, prev. split; [destruct ls; reflexivity|]. repeat split; auto.
    + destruct (nonempty_text i l p prev L) as (t & u & N). pose proof (line_ok_inv i l L) as [OK _]. pose proof (emptyish_text i l p prev L) as EM. destruct (of_line_lay i l p prev L B) as [OL TX]. destruct ls as [|m ls].
      * exists [InlineSpec.line_of (lay p prev (line_pieces (i :: l)))], [i :: l], [], 0, None. cbn [lines_at]. rewrite N in *. split; [cbn [group]; rewrite EM; reflexivity|]. repeat split; auto; [now left|].
        constructor; [split; [discriminate|exact OK]|constructor].
      * destruct (IH (p + length (line_source (i :: l)) + 1) (Some LF) H ltac:(right; right; reflexivity)) as (g & par & ls' & p' & prev' & G & E & AB & B' & H' & F & TT & O).
        exists (InlineSpec.line_of (lay p prev (line_pieces (i :: l))) :: g), ((i :: l) :: par), ls', p', prev'. change (lines_at p prev ((i :: l) :: m :: ls)) with (lay p prev (line_pieces (i :: l)) :: lines_at (p + length (line_source (i :: l)) + 1) (Some LF) (m :: ls)).
        split; [cbn [group]; rewrite G, EM, N; reflexivity|]. split; [cbn [app]; now rewrite E|]. repeat split; auto. constructor; [split; [discriminate|exact OK]|exact O].
Qed.
Lemma paragraphs_blank ls : at_blank ls -> forall cur, cur <> [] -> paragraphs_from cur ls = cur :: paragraphs ls.
Proof. intros A cur NE. destruct ls as [|l ls]; [now destruct cur|]. cbn in A. subst l. cbn [paragraphs_from]. unfold paragraphs. cbn [paragraphs_from]. now destruct cur. Qed.
Lemma paragraphs_run par ls : at_blank ls -> Forall (fun l => l <> [] /\ forallb item_ok l = true) par -> forall cur, cur ++ par <> [] -> paragraphs_from cur (par ++ ls) = (cur ++ par) :: paragraphs ls.
Proof.
  intros A. induction par as [|l par IH]; intros F cur NE; [rewrite app_nil_r in *; now apply paragraphs_blank|]. inversion F as [|? ? [N _] F']; subst. cbn [app]. destruct l as [|i l]; [easy|]. cbn [paragraphs_from]. rewrite IH; [now rewrite <- app_assoc|exact F'|]. now destruct cur.
Qed.

(** ** What is left of a text: its paragraphs, the first perhaps read already *)
Definition here (l : list (list tok)) (g : list iline) : pst := PSt l g None None 0 [] false false true NoBib None (start normal) [] 0 0.
Definition unread (l : list (list tok)) (pars : list (list line)) : Prop := exists p prev ls, l = lines_at p prev ls /\ before_phrase prev /\ forallb line_ok ls = true /\ pars = paragraphs ls.
Definition holds (s : pst) (pars : list (list line)) : Prop :=
  exists l, (s = here l [] /\ unread l pars) \/ exists g par rest, s = here l g /\ group_of g par /\ unread l rest /\ pars = par :: rest.
Lemma skip_blank ls : forall p prev, forallb line_ok ls = true -> before_phrase prev ->
  (skip_empty (lines_at p prev ls) = [] /\ paragraphs ls = []) \/
  exists i l ls' p' prev', skip_empty (lines_at p prev ls) = lines_at p' prev' ((i :: l) :: ls') /\ before_phrase prev' /\ forallb line_ok ((i :: l) :: ls') = true /\ paragraphs ls = paragraphs ((i :: l) :: ls').
Proof.
  induction ls as [|l ls IH]; intros p prev H B; [now left|]. cbn [forallb] in H. apply andb_true_iff in H as [L H]. destruct l as [|i l].
  - destruct ls as [|m ls]; [now left|]. change (lines_at p prev ([] :: m :: ls)) with ([] :: lines_at (p + 0 + 1) (Some LF) (m :: ls)). change (paragraphs ([] :: m :: ls)) with (paragraphs (m :: ls)). cbn [skip_empty emptyish forallb].
    apply IH; [exact H|right; right; reflexivity].
  - right. exists i, l, ls, p, prev. repeat split; [|exact B|cbn [forallb]; now rewrite L, H]. pose proof (emptyish_text i l p prev L) as EM. destruct (nonempty_text i l p prev L) as (t & u & N).
    destruct ls as [|m ls]; [cbn [lines_at]; rewrite N in *; cbn [skip_empty]; now rewrite EM|].
    change (lines_at p prev ((i :: l) :: m :: ls)) with (lay p prev (line_pieces (i :: l)) :: lines_at (p + length (line_source (i :: l)) + 1) (Some LF) (m :: ls)). cbn [skip_empty]. now rewrite EM.
Qed.
Lemma read_holds s pars : holds s pars ->
  match pars with
  | [] => read_lines s = ([], here [] [])
  | par :: rest => exists g l, read_lines s = (g, here l []) /\ group_of g par /\ unread l rest
  end.
Proof.
  intros (l & [[-> (p & prev & ls & -> & B & OK & ->)]|(g & par & rest & -> & G & U & ->)]).
  - unfold read_lines. cbn [peeked here src]. destruct (skip_blank ls p prev OK B) as [[-> ->]|(i & l & ls' & p' & prev' & -> & B' & OK' & ->)]; [reflexivity|].
    destruct (group_lines ((i :: l) :: ls') p' prev' OK' B') as (g & par & ls2 & p2 & prev2 & GR & E & AB & B2 & OK2 & F & TX & O).
    assert (PN : par <> []) by (intros ->; cbn in E; subst ls2; discriminate AB).
    assert (PE : paragraphs ((i :: l) :: ls') = par :: paragraphs ls2) by (unfold paragraphs at 1; rewrite E; rewrite paragraphs_run by (cbn; assumption); reflexivity). rewrite PE.
    pose proof OK' as OKL. cbn [forallb] in OKL. apply andb_true_iff in OKL as [L _]. pose proof (emptyish_text i l p' prev' L) as EM. destruct (nonempty_text i l p' prev' L) as (t & u & N).
    assert (S : exists x r, lines_at p' prev' ((i :: l) :: ls') = x :: r /\ x = lay p' prev' (line_pieces (i :: l))).
    { destruct ls' as [|m ls']; [cbn [lines_at]; rewrite N; now eexists; eexists|]. eexists. eexists. split; reflexivity. }
    destruct S as (x & r & S & X). rewrite S in GR. cbn [group] in GR. rewrite S. rewrite N in X. rewrite N in EM. subst x. rewrite EM in GR. destruct (group r) as [g' m'] eqn:GE. injection GR as <- GM. subst m'.
    exists (InlineSpec.line_of (t :: u) :: g'), (lines_at p2 prev2 ls2). split; [reflexivity|]. split; [repeat split; assumption|]. now exists p2, prev2, ls2.
  - destruct G as (F & TX & O & NE). unfold read_lines. cbn [peeked here]. destruct g as [|a g]; [inversion F; subst; easy|]. exists (a :: g), l. split; [reflexivity|]. split; [|exact U]. repeat split; assumption.
Qed.

(** ** Blocks *)
Definition block_for (b : blk) (par : list line) : Prop :=
  exists ns, b = BParagraph no_meta CParagraph ns /\ forallb good ns = true /\ (forall nl, nodes_html nl ns = join nl (map line_html par)).
Section Parse.
Variable P : params.
Hypothesis no_subs : custom_subs P [] normal = normal.

Lemma stops_free l g : forall ln, ordinary_start (toks ln) = true -> stops (env_of P (here l g)) ln = false.
Proof.
  intros ln O. cbn [env_of stops]. unfold stops_at, attr_list_line, anchor_line, is_block_attr_list, is_block_anchor. cbn [here nests delim conts in_desc_list stk is_some negb andb orb].
  destruct (toks ln) as [|t r]; [discriminate O|]. cbn [ordinary_start] in O. unfold current_is. cbn [hd_error at_k starts_with_seq satisfies]. rewrite (not_kind DelimiterLine t O eq_refl), (not_kind OpenBracket t O eq_refl). cbn. now rewrite andb_false_r.
Qed.
Lemma phrase_html_nonempty p : phrase_ok p = true -> phrase_html p <> [].
Proof.
  destruct p as [w|c|st ws]; cbn [phrase_ok phrase_html]; [|intros _; unfold escaped; now destruct (Ascii.eqb c "&"), (Ascii.eqb c "<")|discriminate]. intros H ->. discriminate H.
Qed.
Lemma html_nonempty par : par <> [] -> Forall (fun l => l <> [] /\ forallb item_ok l = true) par -> join ($" ") (map line_html par) <> [].
Proof.
  destruct par as [|l par]; [easy|]. intros _ F. inversion F as [|? ? [NE OK] _]; subst. assert (L : line_html l <> []).
  { destruct l as [|i l]; [easy|]. cbn [forallb] in OK. apply andb_true_iff in OK as [OI _]. apply andb_true_iff in OI as [OI _]. apply phrase_html_nonempty in OI. assert (D : exists z, line_html (i :: l) = phrase_html (fst i) ++ z) by (destruct l as [|j l]; [now exists (snd i)|]; rewrite line_html_cons, <- app_assoc; eexists; reflexivity). destruct D as [z ->]. intros D. apply app_eq_nil in D as [D _]. contradiction. }
  cbn [map join]. destruct (map line_html par); [exact L|]. now destruct (line_html l).
Qed.
Lemma paragraph_text g par l : group_of g par -> exists b, paragraph P g no_meta (here l []) = Yes (Some b) (here l []) /\ block_for b par.
Proof.
  intros (F & TX & O & NE). unfold paragraph. change (simple_desc_def (here l [])) with false. cbn iota.
  assert (PC : paragraph_context no_meta g = (CParagraph, g)).
  { inversion F as [|ln ll g' par' _ _]; subst; [easy|]. pose proof (Forall_inv TX) as T. unfold paragraph_context, trim_uniform. change (block_style CParagraph no_meta) with (@None context).
    assert (K : current_is Whitespace (toks ln) = false /\ starts_with_seq [Kind Word; Kind Colon; Kind Whitespace] (toks ln) = false).
    { first_kind T H; (split; [reflexivity|]); try reflexivity. destruct u as [|v w]; [reflexivity|]. cbn [all_ordinary forallb] in A. apply andb_true_iff in A as [A _]. cbn [starts_with_seq satisfies]. rewrite (not_kind Colon v A eq_refl). apply andb_false_r. }
    destruct K as [K1 K2]. destruct (toks ln) as [|t u] eqn:TE; [destruct T as [_ T]; rewrite TE in T; discriminate|]. cbn [current_is hd_error at_k] in K1. rewrite K1. cbn [andb]. rewrite TE, K2. unfold current_is. cbn [hd_error at_k]. now rewrite K1. }
  rewrite PC. unfold subs_for. change (has_positional $"source" no_meta) with false. cbn [m_attrs no_meta]. cbn iota. change (subs_of (ist (here l []))) with normal. rewrite no_subs.
  change (set_ist_subs normal (here l [])) with (here l []). unfold inlines. change (ist (here l [])) with (start normal).
  destruct (parse_paragraph (env_of P (here l [])) (start normal) g par (stops_free l []) ltac:(repeat split) F O NE) as (ns & G & S & ->). cbn [bind]. change (with_ist (start normal) (here l [])) with (here l []).
  change (set_ist_subs normal (here l [])) with (here l []). cbn [fst snd]. destruct ns as [|n ns].
  - exfalso. apply (html_nonempty par NE O). now rewrite <- S.
  - exists (BParagraph no_meta CParagraph (n :: ns)). split; [reflexivity|]. exists (n :: ns). repeat split; assumption.
Qed.
Lemma first_of g par : group_of g par -> exists ln r, g = ln :: r /\ texty ln /\ unconsumed ln = true /\ toks ln <> [].
Proof.
  intros (F & TX & O & NE). inversion F as [|ln ll g' par' OL _]; subst; [easy|]. exists ln, g'. split; [reflexivity|]. pose proof (Forall_inv TX) as T. split; [exact T|]. destruct OL as (_ & OO & _). split; [unfold unconsumed; rewrite OO; apply Nat.eqb_refl|].
  destruct T as [_ T]. now destruct (toks ln).
Qed.
Lemma quoted_text g par : group_of g par -> is_quoted false g = false.
Proof.
  intros (F & TX & O & NE). unfold is_quoted. destruct g as [|a [|a2 g]]; [reflexivity..|]. destruct (rev (a :: a2 :: g)) as [|last r] eqn:R; [reflexivity|]. destruct r as [|pen r]; [reflexivity|].
  assert (I : In last (a :: a2 :: g)) by (apply in_rev; rewrite R; now left). rewrite Forall_forall in TX. specialize (TX _ I). replace (starts_with_seq [Kind Dashes; Kind Whitespace] (toks last)) with false; [reflexivity|]. symmetry. first_kind TX H; reflexivity.
Qed.
Lemma chunk_text rec g par l : group_of g par -> chunk P rec g no_meta (here l []) = paragraph P g no_meta (here l []).
Proof.
  intros G. destruct (first_of g par G) as (ln & r & -> & T & U & N). pose proof (quoted_text _ _ G) as Q. unfold chunk. rewrite (text_macro ln T).
  assert (SL : starts_list (ln :: r) = false) by (cbn [starts_list]; unfold starts_item; rewrite (text_item ln T), (text_comment ln T); reflexivity).
  rewrite SL, (text_unadjusted ln T). cbn [is_some andb]. pose proof (text_thematic ln T) as TH. change (inmd (here l [])) with false. rewrite Q.
  destruct (toks ln) as [|t u] eqn:TE; [easy|]. rewrite TH.
  assert (K : is_k DelimiterLine t = false /\ LineModel.one_of [Pipe; Colon; Bang; Comma] t = false /\ is_k GreaterThan t = false /\ is_k AttrDef t = false).
  { apply texty_inv in T as (t' & u' & H & _ & K). rewrite TE in H. injection H as <- <-. destruct t as [k x j]. cbn [tk In] in K. destruct K as [->|[K _]]; [repeat split|]. decompose [or] K; try contradiction; subst k; repeat split. }
  destruct K as (-> & -> & -> & ->). reflexivity.
Qed.
Lemma meta_text g par l : group_of g par -> chunk_meta P g (here l []) = Yes (no_meta, g) (here l []).
Proof.
  intros G. destruct (first_of g par G) as (ln & r & -> & T & U & N). unfold chunk_meta. cbn [pmeta here]. destruct (toks ln) as [|t u] eqn:TE; [easy|]. rewrite U. cbn [meta_lines]. rewrite (text_title ln T). destruct (text_attr ln T) as [-> ->]. rewrite (text_comment ln T). reflexivity.
Qed.
Lemma block_text rec s par rest : holds s (par :: rest) -> exists b s', block P rec s = Yes (Some b) s' /\ block_for b par /\ holds s' rest.
Proof.
  intros H. apply read_holds in H as (g & l & R & G & U). destruct (paragraph_text g par l G) as (b & PB & BF). exists b, (here l []). split; [|split; [exact BF|exists l; left; now split]]. unfold block. rewrite R.
  pose proof (first_of g par G) as (ln & r & -> & T & UN & N). cbn [comment_block]. rewrite (text_comment ln T). rewrite (meta_text _ par l G). cbn [bind fst snd].
  replace (section_start P (ln :: r) no_meta) with (@None nat). 2:{ symmetry. unfold section_start. change (is_discrete no_meta) with false. cbn [start_level]. destruct (text_attr ln T) as [-> _]. rewrite (text_title ln T), (text_comment ln T). cbn [orb]. now apply text_heading. }
  rewrite (chunk_text rec _ par l G). exact PB.
Qed.
Lemma block_over rec s : holds s [] -> block P rec s = Yes None (here [] []).
Proof. intros H. apply read_holds in H. unfold block. now rewrite H. Qed.
Lemma holds_over : holds (here [] []) [].
Proof. exists []. left. split; [reflexivity|]. exists 0, None, []. repeat split. now left. Qed.
Lemma loop_text : forall pars s n, holds s pars -> length pars + 2 <= n -> exists bs, run n P _ BlockLoop s = Yes bs (here [] []) /\ Forall2 block_for bs pars.
Proof.
  induction pars as [|par pars IH]; intros s n H L; (destruct n as [|[|n]]; [cbn in L; lia..|]).
  - exists []. split; [|constructor]. cbn [run BlockModel.step]. rewrite block_over by exact H. reflexivity.
  - destruct (block_text (run n P) s par pars H) as (b & s' & B & BF & H'). destruct (IH s' (S n) H') as (bs & R & F); [cbn in L; lia|]. exists (b :: bs). split; [|now constructor].
    change (run (S (S n)) P _ BlockLoop s) with (take (b, s) := run (S n) P _ Block s in one_more (run (S n) P) BlockLoop b s). change (run (S n) P _ Block s) with (block P (run n P) s). rewrite B. cbn [bind one_more]. rewrite R. reflexivity.
Qed.
Lemma peek_text rec s pars : holds s pars -> exists s', peek_section P rec s = Yes None s' /\ holds s' pars.
Proof.
  intros H. pose proof (read_holds s pars H) as R. destruct pars as [|par rest].
  - exists (here [] []). split; [unfold peek_section; now rewrite R|apply holds_over].
  - destruct R as (g & l & R & G & U). exists (here l g). split; [|exists l; right; now exists g, par, rest]. unfold peek_section. rewrite R. pose proof (first_of g par G) as (ln & r & -> & T & UN & N). cbn [drop_comments]. rewrite (text_comment ln T).
    rewrite (meta_text _ par l G). cbn [bind fst snd]. rewrite (text_heading P ln T). reflexivity.
Qed.
Lemma run_peek s pars n : holds s pars -> exists s', run (S n) P _ Peek s = Yes None s' /\ holds s' pars.
Proof. apply peek_text. Qed.
Lemma special_text s pars n : holds s pars -> exists s', run (S (S n)) P _ SpecialLoop s = Yes [] s' /\ holds s' pars.
Proof.
  intros H. destruct (run_peek s pars n H) as (s' & R & H'). exists s'. split; [|exact H']. change (run (S (S n)) P _ SpecialLoop s) with (take (x, s) := special_sect P (run (S n) P) s in one_more (run (S n) P) SpecialLoop x s). unfold special_sect. rewrite R. reflexivity.
Qed.
Lemma section_over n : run (S (S n)) P _ SectionLoop (here [] []) = Yes [] (here [] []).
Proof. reflexivity. Qed.
Lemma document_text s pars n : holds s pars -> length pars + 4 <= n ->
  exists bs c s', document n P s = Yes c s' /\ (c = Blocks bs \/ c = Sections bs []) /\ Forall2 block_for bs pars.
Proof.
  intros H L. destruct n as [|[|[|[|n]]]]; [lia..|]. unfold document. destruct (book P) eqn:BK.
  - destruct (special_text s pars (S n) H) as (s1 & R1 & H1). destruct (run_peek s1 pars (S (S n)) H1) as (s2 & R2 & H2). destruct (run_peek s2 pars (S (S n)) H2) as (s3 & R3 & H3).
    destruct (loop_text pars s3 (S (S (S n))) H3) as (bs & R4 & F); [lia|]. exists bs, (Blocks bs), (here [] []). split; [|split; [now left|exact F]].
    change (run (S (S (S (S n)))) P _ Book s) with (parse_book P (run (S (S (S n))) P) s). unfold parse_book, book_part. rewrite BK. cbn [negb]. rewrite R1. cbn [bind]. rewrite andb_false_r. rewrite R2. cbn [bind]. rewrite R3. cbn [bind]. rewrite R4. reflexivity.
  - destruct (loop_text pars s (S (S (S (S n)))) H) as (bs & R & F); [lia|]. exists bs, (Sections bs []), (here [] []). split; [|split; [now right|exact F]].
    replace (run (S (S (S (S n)))) P _ Book s) with (Yes (@None content) s) by (change (run (S (S (S (S n)))) P _ Book s) with (parse_book P (run (S (S (S n))) P) s); unfold parse_book; now rewrite BK).
    cbn [bind]. unfold sectioned. rewrite R. cbn [bind]. rewrite section_over. reflexivity.
Qed.
Lemma header_text author_set revision_line s pars : holds s pars -> peeked s = [] -> exists s', document_header P author_set revision_line s = Yes (Header None None None []) s' /\ holds s' pars.
Proof.
  intros H PK. unfold document_header. cbn [front]. pose proof (read_holds s pars H) as R. destruct pars as [|par rest].
  - rewrite R. exists (here [] []). split; [reflexivity|apply holds_over].
  - destruct R as (g & l & R & G & U). exists (here l g). split; [|exists l; right; now exists g, par, rest]. rewrite R. pose proof (first_of g par G) as (ln & r & -> & T & UN & N). cbn [drop_comments]. rewrite (text_comment ln T).
    assert (AD : attr_decl ln = false /\ comment_delimiter ln = false) by (unfold attr_decl, comment_delimiter; first_kind T HH; (split; [reflexivity|]); [now destruct u|reflexivity..]). destruct AD as [AD CD]. rewrite AD, CD. cbn [bind fst snd is_doc_header].
    rewrite (text_heading P ln T). destruct (text_attr ln T) as [-> ->]. rewrite (text_comment ln T). cbn [orb]. rewrite AD. reflexivity.
Qed.
Lemma few_paragraphs ls : forall cur, length (paragraphs_from cur ls) <= length ls + match cur with [] => 0 | _ => 1 end.
Proof.
  induction ls as [|l ls IH]; intros cur; cbn [paragraphs_from length]; [destruct cur; cbn; lia|]. destruct l as [|i l]; [destruct cur; cbn [length]; specialize (IH []); cbn in IH |- *; lia|]. specialize (IH (cur ++ [i :: l])). eapply Nat.le_trans; [exact IH|]. destruct cur; cbn; lia.
Qed.
Lemma src_size_cons x l : src_size (x :: l) = S (weight x) + src_size l.
Proof. reflexivity. Qed.
Lemma many_lines ls : forall p prev, length ls <= src_size (lines_at p prev ls) + 1.
Proof.
  induction ls as [|l ls IH]; intros p prev; [cbn; lia|]. destruct ls as [|m ls]; [cbn [length]; lia|]. specialize (IH (p + length (line_source l) + 1) (Some LF)).
  change (lines_at p prev (l :: m :: ls)) with (lay p prev (line_pieces l) :: lines_at (p + length (line_source l) + 1) (Some LF) (m :: ls)). rewrite src_size_cons. cbn [length] in *. lia.
Qed.
Lemma whole_text author_set revision_line ls : forallb line_ok ls = true ->
  exists bs c s, whole_document P author_set revision_line (enough_steps (lines_at 0 None ls)) (fresh normal (lines_at 0 None ls)) = Yes (Header None None None [], c) s /\
    (c = Blocks bs \/ c = Sections bs []) /\ Forall2 block_for bs (paragraphs ls).
Proof.
  intros OK. change (fresh normal (lines_at 0 None ls)) with (here (lines_at 0 None ls) []). assert (H : holds (here (lines_at 0 None ls) []) (paragraphs ls)).
  { exists (lines_at 0 None ls). left. split; [reflexivity|]. exists 0, None, ls. repeat split; [now left|exact OK]. }
  destruct (header_text author_set revision_line _ _ H eq_refl) as (s1 & R1 & H1). destruct (document_text s1 _ (enough_steps (lines_at 0 None ls)) H1) as (bs & c & s2 & R2 & C & F).
  - unfold enough_steps. assert (FP : length (paragraphs ls) <= length ls + 0) by exact (few_paragraphs ls []). pose proof (many_lines ls 0 None) as ML. cbn [map] in *. lia.
  - exists bs, c, s2. split; [|now split]. unfold whole_document. rewrite R1. cbn [bind]. rewrite R2. reflexivity.
Qed.
End Parse.
