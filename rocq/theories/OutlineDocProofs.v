(** What the parser makes of a whole text with lists (C71); paragraphs also where they end at delimiters (C72) and before headings (C74). *)
From Verif Require Import Base Utf8 LexerModel LineModel SubsModel InlineModel InlineSpec BlockModel BlockSpec HeaderModel WholeModel WholeSpec WholeLexProofs WholePieceProofs WholeInlineProofs WholeBlockProofs.
From Verif Require Import OutlineModel OutlineLexProofs BoxSpec OutlineSpec OutlineBlockProofs OutlineListProofs BoxInlineProofs.
Import ListNotations.
Open Scope list_scope.
Open Scope nat_scope.

(** ** Paragraphs and lists, in order *)
Inductive elem := EPar (par : list line) | EList (k : list_kind) (es : list entry).
Definition elem_for (b : blk) (e : elem) : Prop :=
  match e with
  | EPar par => block_for b par
  | EList k es => exists xs, b = BList (Some no_meta) (mk k 1) xs /\ Forall2 (item_for k 1) es xs
  end.
Inductive runs : list row -> list elem -> Prop :=
| runs_end : runs [] []
| runs_blank rs els : runs rs els -> runs (Text [] :: rs) els
| runs_par par rs els : par <> [] -> Forall text_line par -> blank_first rs -> runs rs els -> runs (map Text par ++ rs) (EPar par :: els)
| runs_list k e es R els : forallb (entry_ok 1) (e :: es) = true -> after_ok [] R -> runs R els -> runs (rows_of k 1 (e :: es) ++ R) (EList k (e :: es) :: els).
Definition cost (e : elem) : nat := match e with EPar _ => 1 | EList _ es => 3 * sizes es + 2 end.
Definition costs els := list_sum (map cost els).

(** ** The first line of a group *)
Section Parse.
Variable P : params.
Hypothesis no_subs : custom_subs P [] normal = normal.
Definition no_head (rs : list row) : Prop := match rs with Head _ _ :: _ => False | _ => True end.
Lemma first_row d ln r sk l g : row_line ln r -> no_head [r] ->
  is_comment ln = false /\ heading_level P (toks ln) = None /\ attr_list_line ln = false /\ anchor_line ln = false /\ attr_decl ln = false /\ comment_delimiter ln = false /\ chunk_meta P (ln :: g) (hereat d sk l []) = Yes (no_meta, ln :: g) (hereat d sk l []).
Proof.
  intros RL NH. destruct r as [x|k n x|b|n x]; cbn [row_line] in RL; [| | |easy]; [| |destruct RL as [(p & prev & ->) BO]; unfold comment_delimiter; cbn [toks]; rewrite fence_delim by exact BO; repeat split; destruct b; reflexivity].
  - destruct RL as ((_ & OO & _) & T & _). pose proof T as T0. rewrite (text_comment ln T), (text_heading P ln T). destruct (text_attr ln T) as [AL AN]. rewrite AL, AN.
    assert (AD : attr_decl ln = false /\ comment_delimiter ln = false) by (unfold attr_decl, comment_delimiter; first_kind T HH; (split; [reflexivity|]); [now destruct u|reflexivity..]). destruct AD as [-> ->]. repeat split. unfold chunk_meta. cbn [pmeta hereat].
    apply texty_inv in T0 as (t & u & TE & _). rewrite TE. unfold unconsumed. rewrite OO, Nat.eqb_refl. cbn [meta_lines]. rewrite (text_title ln T), AL, AN, (text_comment ln T). reflexivity.
  - rewrite (mark_comment _ _ _ _ RL), (mark_heading P _ _ _ _ RL). destruct (mark_attr _ _ _ _ RL) as [AL AN]. rewrite AL, AN. pose proof RL as (_ & OO & _).
    assert (AD : attr_decl ln = false /\ comment_delimiter ln = false). { unfold attr_decl, comment_delimiter. pose proof RL as M. mark_kind_of M t u T OD W L. rewrite T. destruct k; (split; [reflexivity|]); (destruct u; [cbn in L; lia|reflexivity]). }
    destruct AD as [-> ->]. repeat split. destruct (mark_toks _ _ _ _ RL) as (t & u & T). unfold chunk_meta. cbn [pmeta hereat]. rewrite T. unfold unconsumed. rewrite OO, Nat.eqb_refl. cbn [meta_lines]. rewrite (mark_title _ _ _ _ RL), AL, AN, (mark_comment _ _ _ _ RL). reflexivity.
Qed.
Lemma texts_group g par : Forall2 row_line g (map Text par) -> par <> [] -> group_of g par.
Proof.
  intros F NE. split; [now apply of_texts|]. split; [|split; [now apply (of_texts g)|exact NE]]. clear NE. revert g F. induction par as [|l par IH]; intros g F; inversion F as [|ln ? g' ? RL F']; subst; constructor; [now destruct RL as (_ & T & _)|now apply IH].
Qed.
(** what the text of a paragraph ends before *)
Definition text_over (rs : list row) : Prop := match rs with [] | Text [] :: _ | Fence _ :: _ => True | _ => False end.
Lemma blank_over rs : blank_first rs -> text_over rs.
Proof. destruct rs as [|r rs]; [easy|]. cbn. now intros ->. Qed.
Lemma over_rows d sk l g0 g rr : Forall2 row_line g rr -> text_over rr -> halts (env_of P (hereat d sk l g0)) g.
Proof.
  intros F T. destruct F as [|ln r g rr RL F]; [exact I|]. destruct r as [[|i x]|k n x|b|n x]; cbn [text_over] in T; try easy; cbn [row_line] in RL; [destruct RL as (_ & _ & N & _); easy|]. destruct RL as [(p & prev & ->) _]. cbn. now split.
Qed.
Lemma quoted_over g g2 rr par : group_of g par -> Forall2 row_line g2 rr -> is_quoted false (g ++ g2) = false.
Proof.
  intros (F & TX & O & NE) F2. unfold is_quoted. destruct (g ++ g2) as [|a [|a2 q]] eqn:Q; [reflexivity..|]. destruct (rev (a :: a2 :: q)) as [|last r] eqn:R; [reflexivity|]. destruct r as [|pen r]; [reflexivity|].
  assert (I : In last (g ++ g2)) by (rewrite Q; apply in_rev; rewrite R; now left). replace (starts_with_seq [Kind Dashes; Kind Whitespace] (toks last)) with false; [reflexivity|]. symmetry. apply in_app_iff in I as [I|I].
  - rewrite Forall_forall in TX. specialize (TX _ I). first_kind TX H; reflexivity.
  - clear - F2 I. induction F2 as [|ln r0 g2 rr RL F2 IH]; [easy|]. destruct I as [->|I]; [|now apply IH]. destruct r0 as [x|k n x|b|n x]; cbn [row_line] in RL; [| | |destruct RL as (_ & _ & _ & _ & i & j & p & ->); reflexivity]; [destruct RL as (_ & TX & _); first_kind TX H; reflexivity| |destruct RL as [(p & prev & ->) _]; reflexivity].
    apply mark_first in RL as (t & u & -> & K & _). cbn [starts_with_seq satisfies]. unfold is_k. rewrite K. destruct k; now rewrite ?andb_false_l; destruct u.
Qed.
Lemma block_par d (rec : parser) s par rs : holds d [] s (map Text par ++ rs) -> par <> [] -> Forall text_line par -> text_over rs -> exists b s', block P rec s = Yes (Some b) s' /\ block_for b par /\ holds d [] s' rs.
Proof.
  intros H NE TL BF. assert (SK : skip_rows (map Text par ++ rs) = map Text par ++ rs) by (destruct par as [|l par]; [easy|]; pose proof (Forall_inv TL) as [NL _]; destruct l; [easy|reflexivity]).
  apply read_holds in H as [[S _]|(g & rr & rs' & l & R & F & NR & U & B & E)]; [rewrite SK in S; now destruct par|]. rewrite SK in E.
  assert (NX : match rs with Text (_ :: _) :: _ => False | _ => True end) by (destruct rs as [|[[|i x]|k n x|b|n x] rs]; easy).
  destruct (texts_split par rs rr rs' g TL NX E F B) as (g1 & g2 & rr2 & -> & F1 & F2 & -> & E2).
  assert (TO : text_over rr2) by (rewrite E2 in BF; destruct rr2; [exact Logic.I|exact BF]). pose proof (texts_group g1 par F1 NE) as G. pose proof (quoted_over g1 g2 rr2 par G F2) as Q. pose proof G as (OL & TX & O & _).
  destruct (parse_paragraph_halt (env_of P (hereat d [] l [])) (stops_free P d [] l []) (start normal) g1 par g2 ltac:(repeat split) (over_rows d [] l [] g2 rr2 F2 TO) OL O NE) as (ns & GD & S & PI).
  exists (BParagraph no_meta CParagraph ns), (hereat d [] l g2). split; [|split; [exists ns; repeat split; assumption|apply (holds_put d _ l g2 rr2 rs'); auto; now rewrite E2]].
  unfold block. rewrite R. pose proof (first_of g1 par G) as (ln & r & -> & T & UN & N). destruct par as [|p0 par]; [easy|]. inversion F1 as [|? ? ? ? RL F1']; subst. cbn [app] in *. destruct (first_row d ln _ [] l (r ++ g2) RL I) as (IC & HL & AL & AN & _ & _ & CM).
  cbn [comment_block]. rewrite IC, CM. cbn [bind fst snd]. replace (section_start P (ln :: r ++ g2) no_meta) with (@None nat).
  2:{ symmetry. unfold section_start. change (is_discrete no_meta) with false. cbn [start_level]. rewrite AL, (text_title ln T), IC. cbn [orb]. exact HL. }
  unfold chunk. rewrite (text_macro ln T). assert (SL : starts_list (ln :: r ++ g2) = false) by (cbn [starts_list]; unfold starts_item; rewrite (text_item ln T), IC; reflexivity).
  rewrite SL, (text_unadjusted ln T). cbn [is_some andb]. pose proof (text_thematic ln T) as TH. change (inmd (hereat d [] l [])) with false. rewrite Q.
  destruct (toks ln) as [|t u] eqn:TE; [easy|]. rewrite TH.
  assert (K : is_k DelimiterLine t = false /\ LineModel.one_of [Pipe; Colon; Bang; Comma] t = false /\ is_k GreaterThan t = false /\ is_k AttrDef t = false).
  { pose proof T as T'. apply texty_inv in T' as (t' & u' & H & _ & K). rewrite TE in H. injection H as <- <-. destruct t as [k x j]. cbn [tk In] in K. destruct K as [->|[K _]]; [repeat split|]. decompose [or] K; try contradiction; subst k; repeat split. }
  destruct K as (-> & -> & -> & ->). cbn [andb].
  unfold paragraph. replace (simple_desc_def (hereat d [] l [])) with false by (unfold simple_desc_def, in_desc_list; cbn; now rewrite andb_false_r). cbn iota.
  assert (PC : paragraph_context no_meta (ln :: r ++ g2) = (CParagraph, ln :: r ++ g2)).
  { unfold paragraph_context, trim_uniform. change (block_style CParagraph no_meta) with (@None context). rewrite TE.
    assert (K : current_is Whitespace (toks ln) = false /\ starts_with_seq [Kind Word; Kind Colon; Kind Whitespace] (toks ln) = false).
    { first_kind T H; (split; [reflexivity|]); try reflexivity. destruct u0 as [|v w]; [reflexivity|]. cbn [all_ordinary forallb] in A. apply andb_true_iff in A as [A _]. cbn [starts_with_seq satisfies]. rewrite (not_kind Colon v A eq_refl). apply andb_false_r. }
    destruct K as [K1 K2]. rewrite TE in K1, K2. cbn [current_is hd_error at_k] in K1. rewrite K1. cbn [andb]. rewrite TE, K2. unfold current_is. cbn [hd_error at_k]. now rewrite K1. }
  rewrite PC. unfold subs_for. change (has_positional $"source" no_meta) with false. cbn [m_attrs no_meta]. cbn iota. change (subs_of (ist (hereat d [] l []))) with normal. rewrite no_subs.
  change (set_ist_subs normal (hereat d [] l [])) with (hereat d [] l []). unfold inlines. change (ist (hereat d [] l [])) with (start normal). rewrite PI. cbn [bind]. change (with_ist (start normal) (hereat d [] l [])) with (hereat d [] l []).
  change (set_ist_subs normal (hereat d [] l [])) with (hereat d [] l []). cbn [fst snd]. destruct ns as [|n ns]; [exfalso; apply (html_nonempty (p0 :: par) NE O); now rewrite <- S|]. reflexivity.
Qed.
Lemma block_none (rec : parser) s rs : holds (None, 0) [] s rs -> skip_rows rs = [] -> block P rec s = Yes None (hereat (None, 0) [] [] []).
Proof. intros H S. apply read_holds in H as [[_ R]|(g & rr & rs' & l & R & F & NR & U & B & E)]; [unfold block; now rewrite R|]. rewrite S in E. symmetry in E. apply app_eq_nil in E as [-> _]. easy. Qed.
Lemma step_block m s b s' bs t : block P (run m P) s = Yes (Some b) s' -> run (S m) P _ BlockLoop s' = Yes bs t -> run (S (S m)) P _ BlockLoop s = Yes (b :: bs) t.
Proof.
  intros B R. change (run (S (S m)) P _ BlockLoop s) with (take (b, s) := run (S m) P _ Block s in one_more (run (S m) P) BlockLoop b s). change (run (S m) P _ Block s) with (block P (run m P) s). rewrite B. cbn [bind one_more]. now rewrite R.
Qed.
Lemma loop_rows : forall rs els, runs rs els -> forall s n, holds (None, 0) [] s rs -> costs els + 2 <= n -> exists bs, run n P _ BlockLoop s = Yes bs (hereat (None, 0) [] [] []) /\ Forall2 elem_for bs els.
Proof.
  induction 1 as [|rs els R IH|par rs els NE TL BF R IH|k e es R els OK A RR IH]; intros s n H L.
  - destruct n as [|[|n]]; [lia..|]. exists []. split; [|constructor]. cbn [run BlockModel.step]. rewrite (block_none _ _ _ H eq_refl). reflexivity.
  - apply IH; [|exact L]. now apply (holds_skip (None, 0) _ _ (Text [] :: rs)).
  - unfold costs in L. cbn [map list_sum cost] in L. change (list_sum (1 :: ?x)) with (1 + list_sum x) in L. fold (costs els) in L. destruct n as [|[|n]]; [lia..|]. destruct (block_par (None, 0) (run n P) s par rs H NE TL (blank_over _ BF)) as (b & s' & B & BB & H'). destruct (IH s' (S n) H' ltac:(lia)) as (bs & RB & F).
    exists (b :: bs). split; [now apply (step_block n s b s')|now constructor].
  - assert (C : costs (EList k (e :: es) :: els) = 3 * sizes (e :: es) + 2 + costs els) by reflexivity. rewrite C in L. destruct n as [|[|n]]; [lia..|].
    destruct (block_list P (None, 0) (run n P) [] k e es R s (loops_all P (None, 0) (sizes (e :: es)) (e :: es) (le_n _) [] k n OK ltac:(lia)) H A) as (xs & s' & B & H' & FX). destruct (IH s' (S n) H' ltac:(lia)) as (bs & RB & F).
    exists (BList (Some no_meta) (mk k 1) xs :: bs). split; [now apply (step_block n s _ s')|]. constructor; [|exact F]. now exists xs.
Qed.
Lemma peek_rows (rec : parser) s rs : no_head (skip_rows rs) -> holds (None, 0) [] s rs -> exists s', peek_section P rec s = Yes None s' /\ holds (None, 0) [] s' rs.
Proof.
  intros NH H. apply read_holds in H as [[S R]|(g & rr & rs' & l & R & F & NR & U & B & E)].
  - exists (hereat (None, 0) [] [] []). split; [unfold peek_section; now rewrite R|now apply holds_over].
  - destruct F as [|ln r g rr RL F]; [easy|]. exists (hereat (None, 0) [] l (ln :: g)). split; [|apply (put_back (None, 0) _ l (ln :: g) (r :: rr) rs'); auto]. unfold peek_section. rewrite R. rewrite E in NH. destruct (first_row (None, 0) ln r [] l g RL NH) as (IC & HL & _ & _ & _ & _ & CM). cbn [drop_comments]. rewrite IC, CM. cbn [bind fst snd]. rewrite HL. reflexivity.
Qed.
Lemma run_peek_rows s rs n : no_head (skip_rows rs) -> holds (None, 0) [] s rs -> exists s', run (S n) P _ Peek s = Yes None s' /\ holds (None, 0) [] s' rs.
Proof. apply peek_rows. Qed.
Lemma special_rows s rs n : no_head (skip_rows rs) -> holds (None, 0) [] s rs -> exists s', run (S (S n)) P _ SpecialLoop s = Yes [] s' /\ holds (None, 0) [] s' rs.
Proof.
  intros NH H. destruct (run_peek_rows s rs n NH H) as (s' & R & H'). exists s'. split; [|exact H']. change (run (S (S n)) P _ SpecialLoop s) with (take (x, s) := special_sect P (run (S n) P) s in one_more (run (S n) P) SpecialLoop x s). unfold special_sect. rewrite R. reflexivity.
Qed.
Lemma runs_no_head rs els : runs rs els -> no_head (skip_rows rs).
Proof.
  induction 1 as [|rs els R IH|par rs els NE TL BF R IH|k e es R els OK A RR IH]; [exact I|exact IH| |].
  - destruct TL as [|l par [NL _] TL]; [easy|]. now destruct l.
  - rewrite rows_cons, <- app_assoc. now destruct (entry_skip k 1 e (rows_of k 1 es ++ R)) as (f & more & k' & subs & _ & ->).
Qed.
Lemma document_rows s rs els n : runs rs els -> holds (None, 0) [] s rs -> costs els + 4 <= n -> exists bs c s', document n P s = Yes c s' /\ (c = Blocks bs \/ c = Sections bs []) /\ Forall2 elem_for bs els.
Proof.
  intros RR H L. pose proof (runs_no_head _ _ RR) as NH. destruct n as [|[|[|[|n]]]]; [lia..|]. unfold document. destruct (book P) eqn:BK.
  - destruct (special_rows s rs (S n) NH H) as (s1 & R1 & H1). destruct (run_peek_rows s1 rs (S (S n)) NH H1) as (s2 & R2 & H2). destruct (run_peek_rows s2 rs (S (S n)) NH H2) as (s3 & R3 & H3).
    destruct (loop_rows rs els RR s3 (S (S (S n))) H3) as (bs & R4 & F); [lia|]. exists bs, (Blocks bs), (here [] []). split; [|split; [now left|exact F]].
    change (run (S (S (S (S n)))) P _ Book s) with (parse_book P (run (S (S (S n))) P) s). unfold parse_book, book_part. rewrite BK. cbn [negb]. rewrite R1. cbn [bind]. rewrite andb_false_r. rewrite R2. cbn [bind]. rewrite R3. cbn [bind]. rewrite R4. reflexivity.
  - destruct (loop_rows rs els RR s (S (S (S (S n)))) H) as (bs & R & F); [lia|]. exists bs, (Sections bs []), (here [] []). split; [|split; [now right|exact F]].
    replace (run (S (S (S (S n)))) P _ Book s) with (Yes (@None content) s) by (change (run (S (S (S (S n)))) P _ Book s) with (parse_book P (run (S (S (S n))) P) s); unfold parse_book; now rewrite BK).
    cbn [bind]. unfold sectioned. rewrite R. cbn [bind]. change (hereat (None, 0) [] [] []) with (here [] []). rewrite section_over. reflexivity.
Qed.
Lemma header_rows author_set revision_line s rs : no_head (skip_rows rs) -> holds (None, 0) [] s rs -> peeked s = [] -> exists s', document_header P author_set revision_line s = Yes (Header None None None []) s' /\ holds (None, 0) [] s' rs.
Proof.
  intros NH H PK. unfold document_header. cbn [front]. apply read_holds in H as [[S R]|(g & rr & rs' & l & R & F & NR & U & B & E)].
  - rewrite R. exists (hereat (None, 0) [] [] []). split; [reflexivity|now apply holds_over].
  - destruct F as [|ln r g rr RL F]; [easy|]. exists (hereat (None, 0) [] l (ln :: g)). split; [|apply (put_back (None, 0) _ l (ln :: g) (r :: rr) rs'); auto]. rewrite R. rewrite E in NH. destruct (first_row (None, 0) ln r [] l g RL NH) as (IC & HL & AL & AN & AD & CD & CM). cbn [drop_comments]. rewrite IC, AD, CD. cbn [bind fst snd is_doc_header].
    rewrite HL, AL, AN, IC. cbn [orb]. rewrite AD. reflexivity.
Qed.

(** ** The rows of a document *)
Definition part_rows (p : part) : list row := match p with Lines ls => map Text ls | Items k es => rows_of k 1 es end.
Fixpoint doc_rows (ps : list part) : list row := match ps with [] => [] | [p] => part_rows p | p :: r => part_rows p ++ Text [] :: doc_rows r end.
Definition part_elems (p : part) : list elem := match p with Lines ls => map EPar (paragraphs ls) | Items k es => [EList k es] end.
Definition elems (ps : list part) : list elem := flat_map part_elems ps.
Fixpoint entry_source k n e {struct e} : map row_source (entry_rows k n e) = entry_lines k n e.
Proof.
  destruct e as [bl f more k' subs]. cbn [entry_rows entry_lines]. rewrite map_app. cbn [map]. f_equal; [now induction bl as [|bl IH]; [|cbn; rewrite IH]|]. f_equal. rewrite map_app, map_map. f_equal. induction subs as [|e subs IH]; [reflexivity|]. cbn [flat_map]. now rewrite map_app, entry_source, IH.
Qed.
Lemma part_source p : map row_source (part_rows p) = part_lines p.
Proof. destruct p as [ls|k es]; cbn [part_rows part_lines]; [now rewrite map_map|]. induction es as [|e es IH]; [reflexivity|]. rewrite rows_cons, map_app, entry_source, IH. reflexivity. Qed.
Lemma doc_source ps : rows_source (doc_rows ps) = source ps.
Proof.
  unfold rows_source, source. f_equal. induction ps as [|p ps IH]; [reflexivity|]. destruct ps as [|p2 ps]; [apply part_source|]. change (doc_rows (p :: p2 :: ps)) with (part_rows p ++ Text [] :: doc_rows (p2 :: ps)). rewrite map_app. cbn [map]. rewrite part_source, IH. reflexivity.
Qed.
Lemma full_lines more : forallb full_line_ok more = true -> forallb row_ok (map Text more) = true.
Proof. intros H. rewrite forallb_forall in *. intros r I. apply in_map_iff in I as (l & <- & I). specialize (H l I). now destruct l. Qed.
Fixpoint entry_rows_ok k n e {struct e} : 1 <= n -> entry_ok n e = true -> forallb row_ok (entry_rows k n e) = true.
Proof.
  destruct e as [bl f more k' subs]. intros N OK. cbn [entry_ok entry_rows] in *. apply andb_true_iff in OK as [OK OS]. apply andb_true_iff in OK as [OK OM]. apply andb_true_iff in OK as [ON OF]. rewrite forallb_app. apply andb_true_iff. split; [now induction bl as [|bl IH]|].
  cbn [forallb row_ok]. rewrite ON, OF. replace (1 <=? n) with true by (symmetry; now apply Nat.leb_le). cbn [andb]. rewrite forallb_app, (full_lines more OM). cbn [andb].
  induction subs as [|e subs IH]; [reflexivity|]. cbn [forallb] in OS. apply andb_true_iff in OS as [OE OS]. cbn [flat_map]. rewrite forallb_app, entry_rows_ok, IH by first [assumption|lia]. reflexivity.
Qed.
Lemma part_rows_ok p : part_ok p = true -> forallb row_ok (part_rows p) = true.
Proof.
  destruct p as [ls|k es]; cbn [part_ok part_rows]; intros H.
  - rewrite forallb_forall in *. intros r I. apply in_map_iff in I as (l & <- & I). now apply H.
  - assert (OK : forallb (entry_ok 1) es = true) by now destruct es. clear H. induction es as [|e es IH]; [reflexivity|]. cbn [forallb] in OK. apply andb_true_iff in OK as [OE OK]. rewrite rows_cons, forallb_app, (entry_rows_ok k 1 e (le_n _) OE), IH by exact OK. reflexivity.
Qed.
Lemma doc_rows_ok ps : forallb part_ok ps = true -> forallb row_ok (doc_rows ps) = true.
Proof.
  induction ps as [|p ps IH]; [reflexivity|]. cbn [forallb]. intros H. apply andb_true_iff in H as [OP H]. destruct ps as [|p2 ps]; [now apply part_rows_ok|]. change (doc_rows (p :: p2 :: ps)) with (part_rows p ++ Text [] :: doc_rows (p2 :: ps)).
  rewrite forallb_app, (part_rows_ok p OP). cbn [forallb row_ok andb]. now apply IH.
Qed.
Lemma runs_lines X els : runs X els -> blank_first X -> forall ls cur, forallb line_ok ls = true -> Forall text_line cur -> runs (map Text (cur ++ ls) ++ X) (map EPar (paragraphs_from cur ls) ++ els).
Proof.
  intros R B. induction ls as [|l ls IH]; intros cur OK F.
  - rewrite app_nil_r. cbn [paragraphs_from]. destruct cur as [|c cur]; [exact R|]. cbn [map app]. apply (runs_par (c :: cur)); auto. discriminate.
  - cbn [forallb] in OK. apply andb_true_iff in OK as [OL OK]. destruct l as [|i l].
    + cbn [paragraphs_from]. destruct cur as [|c cur]; [cbn [map app]; apply runs_blank; now apply (IH [])|]. rewrite map_app, <- app_assoc. cbn [map app]. apply (runs_par (c :: cur)); auto; [discriminate|reflexivity|]. apply runs_blank. now apply (IH []).
    + cbn [paragraphs_from]. specialize (IH (cur ++ [i :: l]) OK). rewrite <- app_assoc in IH. apply IH. apply Forall_app. split; [exact F|]. constructor; [|constructor]. apply line_ok_inv in OL as [OI _]. split; [discriminate|exact OI].
Qed.
Lemma blank_rows ls X : forallb blank ls = true -> skip_rows (map Text ls ++ X) = skip_rows X.
Proof. induction ls as [|[|i l] ls IH]; [reflexivity| |discriminate]. exact IH. Qed.
Lemma not_blank ls X : forallb blank ls = false -> exists l r, skip_rows (map Text ls ++ X) = Text l :: r.
Proof. induction ls as [|[|i l] ls IH]; [discriminate| |]; intros H; [now apply IH|]. eexists. eexists. reflexivity. Qed.
Lemma separated_rows ps : separated true ps = true -> match skip_rows (doc_rows ps) with Mark _ _ _ :: _ => False | _ => True end.
Proof.
  induction ps as [|p ps IH]; [intros _; exact I|]. destruct p as [ls|k es]; [|discriminate]. cbn [separated andb]. intros H. destruct (forallb blank ls) eqn:B.
  - specialize (IH H). destruct ps as [|p2 ps]; [cbn [doc_rows part_rows]; rewrite <- (app_nil_r (map Text ls)), blank_rows by exact B; exact I|]. change (doc_rows (Lines ls :: p2 :: ps)) with (map Text ls ++ Text [] :: doc_rows (p2 :: ps)). rewrite blank_rows by exact B. exact IH.
  - destruct ps as [|p2 ps]; [cbn [doc_rows part_rows]; rewrite <- (app_nil_r (map Text ls))|change (doc_rows (Lines ls :: p2 :: ps)) with (map Text ls ++ Text [] :: doc_rows (p2 :: ps))]; (match goal with |- context [map Text ls ++ ?X] => destruct (not_blank ls X B) as (l & r & ->) end; exact I).
Qed.
Lemma separated_weak a ps : separated a ps = true -> separated false ps = true.
Proof.
  revert a. induction ps as [|p ps IH]; intros a; [reflexivity|]. destruct p as [ls|k es]; cbn [separated andb]; [apply IH|]. intros H. apply andb_true_iff in H as [_ H]. exact H.
Qed.
Lemma runs_doc ps : forallb part_ok ps = true -> separated false ps = true -> runs (doc_rows ps) (elems ps).
Proof.
  induction ps as [|p ps IH]; [intros _ _; constructor|]. cbn [forallb]. intros OK SP. apply andb_true_iff in OK as [OP OK]. assert (SW : separated false ps = true) by (destruct p; cbn [separated andb negb] in SP; [exact SP|now apply (separated_weak true)]). specialize (IH OK SW).
  assert (X : exists X, doc_rows (p :: ps) = part_rows p ++ X /\ runs X (elems ps) /\ blank_first X /\ (separated true ps = true -> after_ok [] X)).
  { destruct ps as [|p2 ps]; [exists []; cbn [doc_rows]; rewrite app_nil_r; split; [reflexivity|]; split; [constructor|]; split; [exact I|intros _; exact I]|]. exists (Text [] :: doc_rows (p2 :: ps)). split; [reflexivity|]. split; [now apply runs_blank|]. split; [reflexivity|].
    intros S. apply separated_rows in S. unfold after_ok. cbn [skip_rows]. destruct (skip_rows (doc_rows (p2 :: ps))) as [|[x|k n x|b|n x] r]; [exact I|reflexivity|easy|exact I|reflexivity]. }
  destruct X as (X & -> & RX & BX & AX). unfold elems. cbn [flat_map]. destruct p as [ls|k es]; cbn [part_rows part_elems part_ok separated andb negb] in *.
  - apply (runs_lines X _ RX BX ls []); [exact OP|constructor].
  - destruct es as [|e es]; [discriminate OP|]. cbn [app]. apply runs_list; [exact OP|now apply AX|exact RX].
Qed.
Fixpoint size_rows k n e {struct e} : 1 <= size e <= length (entry_rows k n e).
Proof.
  destruct e as [bl f more k' subs]. cbn [size entry_rows]. rewrite app_length. cbn [length]. rewrite app_length. assert (H : list_sum (map size subs) <= length (flat_map (entry_rows k' (S n)) subs)); [|lia].
  induction subs as [|e subs IH]; [cbn; lia|]. pose proof (size_rows k' (S n) e) as [_ S]. cbn [map flat_map]. change (list_sum (size e :: ?x)) with (size e + list_sum x). rewrite app_length. lia.
Qed.
Lemma sizes_rows k n es : sizes es <= length (rows_of k n es).
Proof. induction es as [|e es IH]; [cbn; lia|]. rewrite rows_cons, app_length. pose proof (size_rows k n e). change (sizes (e :: es)) with (size e + sizes es). lia. Qed.
Lemma costs_rows rs els : runs rs els -> costs els <= 5 * length rs.
Proof.
  induction 1 as [|rs els R IH|par rs els NE TL BF R IH|k e es R els OK A RR IH]; [cbn; lia|cbn [length]; lia| |].
  - change (costs (EPar par :: els)) with (1 + costs els). rewrite app_length, map_length. destruct par; [easy|]. cbn [length]. lia.
  - change (costs (EList k (e :: es) :: els)) with (3 * sizes (e :: es) + 2 + costs els). rewrite app_length. pose proof (sizes_rows k 1 (e :: es)) as S. assert (1 <= sizes (e :: es)) by (pose proof (size_rows k 1 e); change (sizes (e :: es)) with (size e + sizes es); lia). lia.
Qed.
Lemma many_rows rs : forall p prev, length rs <= src_size (rows_at p prev rs) + 1.
Proof. induction rs as [|r rs IH]; intros p prev; [cbn; lia|]. destruct rs as [|m rs]; [cbn [length]; lia|]. specialize (IH (p + length (row_source r) + 1) (Some LF)). rewrite rows_at_cons, src_size_cons. cbn [length] in *. lia. Qed.
Lemma parse_outline plugins author_set revision_line ps : document_ok ps = true ->
  exists c bs, parse plugins P author_set revision_line (source ps) = Some c /\ (c = Blocks bs \/ c = Sections bs []) /\ Forall2 elem_for bs (elems ps).
Proof.
  intros OK. unfold document_ok in OK. apply andb_true_iff in OK as [OK SP]. pose proof (doc_rows_ok ps OK) as RO. pose proof (runs_doc ps OK SP) as RR. unfold parse. rewrite <- doc_source, (lex_rows plugins _ RO). set (rs := doc_rows ps) in *.
  change (fresh normal (rows_at 0 None rs)) with (hereat (None, 0) [] (rows_at 0 None rs) []). assert (H : holds (None, 0) [] (hereat (None, 0) [] (rows_at 0 None rs) []) rs).
  { exists (rows_at 0 None rs), [], [], rs. split; [reflexivity|]. split; [constructor|]. split; [exists 0, None; repeat split; [now left|exact RO]|]. split; [easy|reflexivity]. }
  destruct (header_rows author_set revision_line _ _ (runs_no_head _ _ RR) H eq_refl) as (s1 & R1 & H1). destruct (document_rows s1 rs (elems ps) (enough_steps (rows_at 0 None rs)) RR H1) as (bs & c & s2 & R2 & C & F).
  - unfold enough_steps. pose proof (costs_rows _ _ RR) as CR. pose proof (many_rows rs 0 None) as MR. cbn [map] in *. lia.
  - exists c, bs. split; [|now split]. unfold whole_document. rewrite R1. cbn [bind]. rewrite R2. reflexivity.
Qed.
End Parse.
