(** What the block parser makes of lists in lists (C71, C72, C74). *)
From Verif Require Import Base Utf8 LexerModel LineModel SubsModel InlineModel InlineSpec BlockModel BlockSpec HeaderModel WholeModel WholeSpec WholeLexProofs WholePieceProofs WholeInlineProofs WholeBlockProofs.
From Verif Require Import OutlineModel OutlineLexProofs OutlineSpec BoxSpec OutlineBlockProofs.
From Verif Require ListStackModel InlineTermProofs.
Import ListNotations.
Open Scope list_scope.
Open Scope nat_scope.

(** ** The text of an item *)
Lemma parse_item E s ln l p lns ls : (forall l, ordinary_start (toks l) = true -> stops E l = false) -> calm s -> mild ln -> toks ln = lay p (Some " "%char) (line_pieces l) -> length (toks ln) <= orig ln -> text_line l ->
  Forall2 WholeInlineProofs.of_line lns ls -> Forall text_line ls ->
  exists ns, forallb good ns = true /\ (forall nl, nodes_html nl ns = join nl (map line_html (l :: ls))) /\ parse_inlines_until (enough (ln :: lns)) E [] s (ln :: lns) = Done s ns [].
Proof.
  intros FR C M T O [NE OK] F OKS. assert (FN : fresh_next lns) by (inversion F as [|ln2 l2 lns2 ls2 OL2 F2]; subst; [exact I|]; destruct OL2 as (_ & O2 & _); unfold fresh_next, unconsumed; rewrite O2; apply Nat.eqb_refl).
  destruct (run_line E FR s lns C FN l p (Some " "%char) acc0 ln NE M T OK ltac:(right; left; reflexivity) O eq_refl) as (a' & _ & FA & S & K).
  assert (FJ : fine (joining_newline a' lns)) by (destruct lns as [|x y]; [exact FA|]; rewrite joining_fine by exact FA; now apply node_fine).
  destruct (run_lines E FR s C ls lns (joining_newline a' lns) F OKS FJ) as (ns & G & SH & E2). exists ns. split; [exact G|]. split.
  - intros nl. rewrite SH. destruct ls as [|l2 ls]; inversion F; subst.
    + cbn [joining_newline map join]. rewrite app_nil_r. apply S.
    + rewrite joining_fine, node_shows, S by exact FA. change (map line_html (l :: l2 :: ls)) with (line_html l :: map line_html (l2 :: ls)). change (join nl (line_html l :: map line_html (l2 :: ls))) with (line_html l ++ nl ++ join nl (map line_html (l2 :: ls))).
      cbn [node_html]. now rewrite <- !app_assoc.
  - pose proof (line_ordinary l p (Some " "%char) NE OK) as LO. rewrite <- T in LO. assert (R : ends E [] normal s acc0 None (ln :: lns) (Done s ns [])) by (apply enter; [exact FR|exact LO|]; now apply K).
    destruct R as (_ & n & H). pose proof (InlineTermProofs.parse_ends E [] s (ln :: lns) (enough (ln :: lns)) (le_n _)) as PE. unfold parse_inlines_until in *. destruct (toks ln) as [|t r] eqn:TE; [discriminate LO|].
    destruct C as (CS & _). rewrite CS in *. set (f := enough (ln :: lns)) in *.
    rewrite <- (InlineTermProofs.go_more E f _ _ _ _ _ _ _ PE (Nat.max f n)) by lia. rewrite (InlineTermProofs.go_more E n) by (try lia; rewrite H; discriminate). exact H.
Qed.

(** ** The markers of the lists that are open, the innermost first *)
Fixpoint stack_of (ks : list list_kind) : LS.stack := match ks with [] => [] | k :: r => mk k (S (length r)) :: stack_of r end.
Definition known (ks : list list_kind) (k : list_kind) (n : nat) : bool := existsb (LS.marker_eqb (mk k n)) (stack_of ks).
Lemma mk_eqb k n k' n' : LS.marker_eqb (mk k n) (mk k' n') = true -> k = k' /\ n = n'.
Proof. destruct k, k'; cbn; intros H; first [discriminate H|apply Nat.eqb_eq in H; now subst]. Qed.
Lemma mk_refl k n : LS.marker_eqb (mk k n) (mk k n) = true.
Proof. destruct k; cbn; apply Nat.eqb_refl. Qed.
Lemma known_deep ks k n : known ks k n = true -> n <= length ks.
Proof. unfold known. induction ks as [|k' ks IH]; [discriminate|]. cbn [stack_of existsb length]. intros H. apply orb_true_iff in H as [H|H]; [apply mk_eqb in H as [_ ->]; lia|]. apply IH in H. lia. Qed.
Lemma known_self ks k : known (k :: ks) k (S (length ks)) = true.
Proof. unfold known. cbn [stack_of existsb]. now rewrite mk_refl. Qed.
Lemma known_more ks k k' n : known ks k n = true -> known (k' :: ks) k n = true.
Proof. unfold known. cbn [stack_of existsb]. intros ->. apply orb_true_r. Qed.
Lemma nests ks k k' n : LS.starts_nested_list (stack_of (k :: ks)) (mk k' n) = negb (known (k :: ks) k' n).
Proof. now destruct k'. Qed.
Lemma continues ks k k' n : LS.continues_current_list (stack_of (k :: ks)) (mk k' n) = LS.marker_eqb (mk k (S (length ks))) (mk k' n).
Proof. now destruct k, k'. Qed.
Lemma not_known ks k : known ks k (S (length ks)) = false.
Proof. destruct (known ks k (S (length ks))) eqn:E; [|reflexivity]. apply known_deep in E. lia. Qed.

(** ** Items *)
Fixpoint entry_rows (k : list_kind) (n : nat) (e : entry) : list row :=
  match e with Entry bl f more k' subs => repeat (Text []) bl ++ Mark k n f :: map Text more ++ flat_map (entry_rows k' (S n)) subs end.
Definition rows_of k n es := flat_map (entry_rows k n) es.
Fixpoint size (e : entry) : nat := match e with Entry _ _ _ _ subs => S (list_sum (map size subs)) end.
Definition sizes es := list_sum (map size es).
Definition pairwise {A B} (R : A -> B -> Prop) : list A -> list B -> Prop := fix go l m := match l, m with [], [] => True | x :: l, y :: m => R x y /\ go l m | _, _ => False end.
Lemma pairwise_all {A B} (R : A -> B -> Prop) l m : Forall2 R l m -> pairwise R l m.
Proof. induction 1; [exact I|]. cbn. now split. Qed.
Definition plainly (m : option meta) : Prop := m = None \/ m = Some no_meta.
Fixpoint item_for (k : list_kind) (n : nat) (e : entry) (x : BlockModel.item) {struct e} : Prop :=
  match e with
  | Entry _ f more k' subs =>
      exists ns bs, x = Item (mk k n) None ns bs /\ forallb good ns = true /\ (forall nl, nodes_html nl ns = join nl (map line_html (f :: more))) /\
        match subs with [] => bs = [] | _ => exists m xs, bs = [BList m (mk k' (S n)) xs] /\ plainly m /\ pairwise (item_for k' (S n)) subs xs end
  end.
(** what may come after the lists [ks] are the innermost *)
Definition after_ok (ks : list list_kind) (rs : list row) : Prop := match skip_rows rs with [] => True | Text _ :: _ | Head _ _ :: _ => blank_first rs | Mark k n _ :: _ => known ks k n = true | Fence _ :: _ => True end.
Lemma entry_skip k n e X : exists f more k' subs, (exists bl, e = Entry bl f more k' subs) /\ skip_rows (entry_rows k n e ++ X) = Mark k n f :: map Text more ++ rows_of k' (S n) subs ++ X.
Proof.
  destruct e as [bl f more k' subs]. exists f, more, k', subs. split; [now exists bl|]. cbn [entry_rows]. rewrite <- app_assoc. induction bl as [|bl IH]; [|exact IH]. cbn [repeat app skip_rows]. rewrite <- app_assoc. reflexivity.
Qed.
Lemma rows_cons k n e es : rows_of k n (e :: es) = entry_rows k n e ++ rows_of k n es.
Proof. reflexivity. Qed.
Lemma after_items ks k es R : after_ok ks R -> after_ok (k :: ks) (rows_of k (S (length ks)) es ++ R).
Proof.
  intros A. destruct es as [|e es].
  - cbn [rows_of flat_map app]. unfold after_ok in *. destruct (skip_rows R) as [|[l|k' n l|b|n l] q]; auto. now apply known_more.
  - rewrite rows_cons, <- app_assoc. unfold after_ok. destruct (entry_skip k (S (length ks)) e (rows_of k (S (length ks)) es ++ R)) as (f & more & k' & subs & _ & ->). apply known_self.
Qed.
(** the text of an item ends where its list or what comes next starts *)
Lemma texts_split more : forall X rr rs' g, Forall text_line more -> (match X with Text (_ :: _) :: _ => False | _ => True end) -> map Text more ++ X = rr ++ rs' -> Forall2 row_line g rr -> blank_first rs' ->
  exists g1 g2 rr2, g = g1 ++ g2 /\ Forall2 row_line g1 (map Text more) /\ Forall2 row_line g2 rr2 /\ rr = map Text more ++ rr2 /\ X = rr2 ++ rs'.
Proof.
  induction more as [|l more IH]; intros X rr rs' g T NX E F B; [exists [], g, rr; split; [reflexivity|]; split; [constructor|]; split; [exact F|]; split; [reflexivity|exact E]|]. inversion T as [|? ? [NL OL] T']; subst. cbn [map app] in E. destruct rr as [|r rr].
  - cbn [app] in E. subst rs'. cbn in B. exfalso. injection B as ->. easy.
  - injection E as <- E. inversion F as [|ln ? g' ? RL F']; subst. destruct (IH X rr rs' g' T' NX E F' B) as (g1 & g2 & rr2 & -> & F1 & F2 & -> & ->). exists (ln :: g1), g2, rr2. repeat split; auto. now constructor.
Qed.
Lemma sub_nil k n : rows_of k n [] = [].
Proof. reflexivity. Qed.

Section Parse.
Variables (P : params) (d : option delimiter * nat).
Notation hereat := (hereat d). Notation holds := (holds d). Notation holds_put := (holds_put d).
Lemma stops_free ks l g : forall ln, ordinary_start (toks ln) = true -> stops (env_of P (hereat (stack_of ks) l g)) ln = false.
Proof.
  intros ln O. cbn [env_of stops]. unfold stops_at, attr_list_line, anchor_line, is_block_attr_list, is_block_anchor, in_desc_list. replace (match stk (hereat (stack_of ks) l g) with m :: _ => is_description m | [] => false end) with false by (destruct ks as [|[|] ks]; reflexivity).
  cbn [OutlineBlockProofs.hereat BlockModel.nests delim conts stk is_some negb andb orb]. destruct (toks ln) as [|t r]; [discriminate O|]. cbn [ordinary_start] in O. unfold current_is. cbn [hd_error at_k starts_with_seq satisfies].
  rewrite (not_kind DelimiterLine t O eq_refl), (not_kind OpenBracket t O eq_refl). rewrite !andb_false_r. cbn [orb andb]. destruct (fst d) as [d0|]; [|reflexivity]. unfold to_delimiter. now rewrite (not_kind DelimiterLine t O eq_refl).
Qed.
Lemma mark_toks ln k n l : of_mark ln k n l -> exists t u, toks ln = t :: u.
Proof. intros M. apply mark_first in M as (t & u & T & _). now exists t, u. Qed.
(** a marker line starts a nested list, or does not *)
Lemma nested_line ks k ln k' n l g a : of_mark ln k' n l -> starts_nested (stack_of (k :: ks)) a (ln :: g) = negb (known (k :: ks) k' n).
Proof. intros M. unfold starts_nested. destruct (mark_attr _ _ _ _ M) as [-> _]. rewrite orb_true_r. unfold nested_item. rewrite (mark_marker _ _ _ _ M). apply nests. Qed.
Lemma nested_fence sk ln b g a : of_fence ln b -> starts_nested sk a (ln :: g) = false /\ starts_continuation (ln :: g) = false.
Proof. intros (p & prev & ->). split; [destruct a; reflexivity|]. destruct g; reflexivity. Qed.
Lemma nested_head sk ln h g a : AB.of_head ln h -> starts_nested sk a (ln :: g) = false.
Proof. intros (_ & _ & N & _ & i & j & p & T). unfold starts_nested, attr_list_line, nested_item, list_marker, is_comment. rewrite T. destruct a, (unconsumed ln); reflexivity. Qed.
Lemma nested_text sk ln g a : texty ln -> starts_nested sk a (ln :: g) = false.
Proof. intros T. unfold starts_nested. destruct (text_attr ln T) as [-> _]. rewrite orb_true_r. unfold nested_item. now rewrite (text_item ln T). Qed.
Lemma no_continuation ln k n l g : of_mark ln k n l -> starts_continuation (ln :: g) = false.
Proof. intros M. apply mark_first in M as (t & u & T & _ & _ & _ & L). unfold starts_continuation, is_continuation. rewrite T. destruct g; [reflexivity|]. destruct u; [cbn in L; lia|reflexivity]. Qed.

Definition loops (rec : parser) (ks : list list_kind) (k : list_kind) (es : list entry) : Prop :=
  forall s R, holds (stack_of (k :: ks)) s (rows_of k (S (length ks)) es ++ R) -> after_ok ks R ->
  exists xs s', rec _ (ItemLoop (mk k (S (length ks)))) s = Yes xs s' /\ holds (stack_of (k :: ks)) s' R /\ Forall2 (item_for k (S (length ks))) es xs.
Lemma restack sk sk' s rs : holds sk s rs -> holds sk' (with_stk sk' s) rs.
Proof. intros (l & g & rr & rs' & -> & H). exists l, g, rr, rs'. now split. Qed.
Lemma holds_stk sk s rs : holds sk s rs -> stk s = sk /\ peeked (snd (read_lines s)) = [].
Proof. intros H. split; [destruct H as (l & g & rr & rs' & -> & _); reflexivity|]. apply read_holds in H as [[_ ->]|(g & rr & rs' & l & -> & _)]; reflexivity. Qed.
Lemma holds_bib sk s rs : holds sk s rs -> bib s = NoBib.
Proof. intros (l & g & rr & rs' & -> & _). reflexivity. Qed.
Lemma a_list_ok (rec : parser) ks k e es R g rr rs' l m : loops rec ks k (e :: es) -> plainly m -> Forall2 row_line g rr -> unread l rs' -> blank_first rs' -> rr <> [] ->
  skip_rows (rows_of k (S (length ks)) (e :: es) ++ R) = rr ++ rs' -> after_ok ks R ->
  exists xs s', a_list P rec g m (hereat (stack_of ks) l []) = Yes (BList m (mk k (S (length ks))) xs) s' /\ holds (stack_of ks) s' R /\ Forall2 (item_for k (S (length ks))) (e :: es) xs.
Proof.
  intros L PM F U B NE E A. assert (H : holds (stack_of (k :: ks)) (hereat (stack_of (k :: ks)) l g) (rows_of k (S (length ks)) (e :: es) ++ R)).
  { apply (holds_put _ l g rr rs'); auto. rewrite E. symmetry. now apply (skip_full g). }
  destruct (L _ R H A) as (xs & s' & X & H' & FX). exists xs, (with_stk (stack_of ks) s'). split; [|split; [now apply (restack (stack_of (k :: ks)))|exact FX]].
  rewrite rows_cons, <- app_assoc in E. destruct (entry_skip k (S (length ks)) e (rows_of k (S (length ks)) es ++ R)) as (f & more & k' & subs & _ & S). rewrite S in E. destruct rr as [|r rr]; [easy|]. injection E as <- E.
  inversion F as [|ln ? g' ? RL F']; subst. cbn [row_line] in RL. destruct (mark_toks _ _ _ _ RL) as (t & u & T). unfold a_list. rewrite (mark_marker _ _ _ _ RL). unfold InlineModel.restore. rewrite T. unfold restore_lines. cbn [peeked OutlineBlockProofs.hereat bind].
  change (with_peeked (ln :: g') (hereat (stack_of ks) l [])) with (hereat (stack_of ks) l (ln :: g')). cbn [stk OutlineBlockProofs.hereat with_stk].
  replace (match m with Some m => has_positional $"bibliography" m | None => false end) with false by (destruct PM; subst m; reflexivity). cbn [bib]. rewrite !andb_false_r. cbn iota. match goal with |- context [rec _ (ItemLoop _) ?st] => change st with (hereat (stack_of (k :: ks)) l (ln :: g')) end. rewrite X. cbn [bind].
  rewrite (holds_bib _ _ _ H'). destruct (holds_stk _ _ _ H') as [-> _]. reflexivity.
Qed.
Lemma block_list (rec : parser) ks k e es R s : loops rec ks k (e :: es) -> holds (stack_of ks) s (rows_of k (S (length ks)) (e :: es) ++ R) -> after_ok ks R ->
  exists xs s', block P rec s = Yes (Some (BList (Some no_meta) (mk k (S (length ks))) xs)) s' /\ holds (stack_of ks) s' R /\ Forall2 (item_for k (S (length ks))) (e :: es) xs.
Proof.
  intros L H A. pose proof (entry_skip k (S (length ks)) e (rows_of k (S (length ks)) es ++ R)) as (f & more & k' & subs & _ & S). rewrite app_assoc, <- rows_cons in S. apply read_holds in H as [[N _]|(g & rr & rs' & l & RD & F & NE & U & B & E)]; [rewrite N in S; discriminate S|].
  destruct (a_list_ok rec ks k e es R g rr rs' l (Some no_meta) L (or_intror eq_refl) F U B NE E A) as (xs & s' & X & H' & FX). exists xs, s'. split; [|now split]. unfold block. rewrite RD.
  rewrite E in S. destruct rr as [|r rr]; [easy|]. injection S as -> _. inversion F as [|ln ? g' ? RL F']; subst. cbn [row_line] in RL. destruct (mark_toks _ _ _ _ RL) as (t & u & T).
  cbn [comment_block]. rewrite (mark_comment _ _ _ _ RL). pose proof RL as (_ & OR & _). unfold chunk_meta. cbn [pmeta OutlineBlockProofs.hereat]. rewrite T. unfold unconsumed. rewrite OR, Nat.eqb_refl. cbn [meta_lines]. rewrite (mark_title _ _ _ _ RL). destruct (mark_attr _ _ _ _ RL) as [AL AN]. rewrite AL, AN, (mark_comment _ _ _ _ RL).
  cbn [andb bind fst snd]. replace (section_start P (ln :: g') no_meta) with (@None nat).
  2:{ symmetry. unfold section_start. change (is_discrete no_meta) with false. cbn [start_level]. now rewrite AL, (mark_title _ _ _ _ RL), (mark_comment _ _ _ _ RL), (mark_heading P _ _ _ _ RL). }
  unfold chunk. rewrite (mark_macro _ _ _ _ RL). rewrite T. cbn [starts_list]. unfold starts_item. rewrite (mark_marker _ _ _ _ RL). cbn [is_some].
  rewrite X. reflexivity.
Qed.
Lemma put_back sk l g rr rs' rs : Forall2 row_line g rr -> rr <> [] -> unread l rs' -> blank_first rs' -> skip_rows rs = rr ++ rs' -> holds sk (hereat sk l g) rs.
Proof. intros F NE U B E. apply (holds_put _ l g rr rs'); auto. rewrite E. symmetry. now apply (skip_full g). Qed.
Lemma text_continues ln l : row_line ln (Text l) -> continues_principle ln = true /\ discard_leading ln = ln.
Proof.
  intros (_ & T & _). pose proof T as TT. unfold continues_principle, discard_leading, starts_item. rewrite (text_comment ln T), (text_item ln T). apply texty_inv in T as (t & u & H & A & K). rewrite H.
  assert (O : existsb (kind_eqb (tk t)) ordinary = true) by (destruct K as [->|[K _]]; [reflexivity|]; cbn [In] in K; decompose [or] K; try contradiction; match goal with E : _ = tk t |- _ => rewrite <- E end; reflexivity).
  rewrite (not_kind Plus t O eq_refl), (not_kind OpenBracket t O eq_refl). replace (is_k Whitespace t) with false by (unfold is_k; destruct K as [->|[K _]]; [reflexivity|]; cbn [In] in K; decompose [or] K; try contradiction; match goal with E : _ = tk t |- _ => rewrite <- E end; reflexivity).
  split; [|reflexivity]. cbn [is_some negb andb]. unfold is_any_delimiter. destruct u; [now rewrite (not_kind DelimiterLine t O eq_refl)|reflexivity].
Qed.
Lemma mark_stops ln k n l : of_mark ln k n l -> continues_principle ln = false.
Proof.
  intros M. unfold continues_principle, starts_item. rewrite (mark_comment _ _ _ _ M), (mark_marker _ _ _ _ M). destruct (mark_attr _ _ _ _ M) as [AL _]. rewrite AL. apply mark_first in M as (t & u & -> & K & _). unfold is_k. rewrite K. destruct k; reflexivity.
Qed.
Lemma principle_rows g1 more : Forall2 row_line g1 (map Text more) -> forall g2 rr2, Forall2 row_line g2 rr2 -> (match rr2 with Text _ :: _ | Head _ _ :: _ => False | _ => True end) -> principle_lines (g1 ++ g2) = (g1, g2).
Proof.
  revert g1. induction more as [|l more IH]; intros g1 F g2 rr2 F2 N; inversion F as [|ln ? g1' ? RL F']; subst.
  - cbn [app]. destruct F2 as [|ln r g2 rr2 RL F2]; [reflexivity|]. destruct r as [l|k n l|b|n l]; [easy| | |easy]; cbn [row_line principle_lines] in *; [now rewrite (mark_stops _ _ _ _ RL)|]. destruct RL as [(p & prev & ->) _]. reflexivity.
  - cbn [app principle_lines]. destruct (text_continues ln l RL) as [-> ->]. now rewrite (IH g1' F' g2 rr2 F2 N).
Qed.
Lemma no_checklist l p : text_line l -> checklist (lay p (Some " "%char) (line_pieces l)) = None.
Proof.
  intros [NE OK]. pose proof (line_ordinary l p (Some " "%char) NE OK) as O. destruct (lay p (Some " "%char) (line_pieces l)) as [|t u]; [discriminate O|]. cbn [ordinary_start] in O. unfold checklist. destruct u as [|x [|c [|w r]]]; try reflexivity. now rewrite (not_kind OpenBracket t O eq_refl).
Qed.
Lemma of_texts g1 more : Forall2 row_line g1 (map Text more) -> Forall2 WholeInlineProofs.of_line g1 more /\ Forall text_line more.
Proof. revert g1. induction more as [|l more IH]; intros g1 F; inversion F as [|ln ? g1' ? RL F']; subst; [split; constructor|]. destruct (IH g1' F') as [A B]. destruct RL as (O & _ & T). split; constructor; auto. Qed.
(** what comes after an item that has no list *)
Lemma no_blocks (rec : parser) ks k g rr rs' l X : Forall2 row_line g rr -> unread l rs' -> blank_first rs' -> X = rr ++ rs' -> after_ok (k :: ks) X -> (match rr with Text _ :: _ | Head _ _ :: _ => False | _ => True end) ->
  exists s', item_blocks P rec g (hereat (stack_of (k :: ks)) l []) = Yes [] s' /\ holds (stack_of (k :: ks)) s' X.
Proof.
  intros F U B -> A N. unfold item_blocks. destruct F as [|ln r g rr RL F].
  - cbn [starts_nested starts_continuation stk OutlineBlockProofs.hereat]. assert (H : holds (stack_of (k :: ks)) (hereat (stack_of (k :: ks)) l []) rs') by (apply (holds_put _ l [] [] rs'); auto).
    apply read_holds in H as [[S ->]|(g & rr & rs2 & l2 & -> & F2 & NE & U2 & B2 & E)]; [exists (hereat (stack_of (k :: ks)) [] []); split; [reflexivity|now apply holds_over]|]. cbn [app] in A. unfold after_ok in A. rewrite E in A.
    destruct F2 as [|ln r g rr RL F2]; [easy|]. exists (hereat (stack_of (k :: ks)) l2 (ln :: g)). split; [|apply (put_back _ l2 (ln :: g) (r :: rr) rs2); auto; first [now constructor|discriminate]].
    cbn [stk OutlineBlockProofs.hereat]. replace (starts_nested (stack_of (k :: ks)) false (ln :: g)) with false; [reflexivity|]. symmetry. destruct r as [x|k' n x|b|n x]; cbn [row_line app] in *; [now apply nested_text| |now apply (nested_fence _ ln b)|now apply (nested_head _ ln (n, x))]. rewrite (nested_line ks k ln k' n x g false RL). now rewrite A.
  - exists (hereat (stack_of (k :: ks)) l (ln :: g)). split; [|apply (holds_put _ l (ln :: g) (r :: rr) rs'); auto]. destruct r as [x|k' n x|b|n x]; [easy| | |easy].
    2:{ cbn [row_line] in RL. destruct RL as [RL _]. cbn [stk OutlineBlockProofs.hereat]. destruct (nested_fence (stack_of (k :: ks)) ln b g true RL) as [-> ->]. reflexivity. }
    cbn [row_line] in RL. cbn [app] in A. unfold after_ok in A. cbn [skip_rows] in A.
    cbn [stk OutlineBlockProofs.hereat]. rewrite (nested_line ks k ln k' n x g true RL), A, (no_continuation _ _ _ _ g RL). reflexivity.
Qed.
(** the list in an item *)
Lemma nested_blocks (rec rec' : parser) ks k k' e es R g rr rs' l : loops rec (k :: ks) k' (e :: es) -> loops rec' (k :: ks) k' (e :: es) -> (forall s, rec _ Block s = block P rec' s) ->
  Forall2 row_line g rr -> unread l rs' -> blank_first rs' -> rows_of k' (S (length (k :: ks))) (e :: es) ++ R = rr ++ rs' -> after_ok (k :: ks) R ->
  exists m xs s', item_blocks P rec g (hereat (stack_of (k :: ks)) l []) = Yes [BList m (mk k' (S (length (k :: ks)))) xs] s' /\ holds (stack_of (k :: ks)) s' R /\ plainly m /\ Forall2 (item_for k' (S (length (k :: ks)))) (e :: es) xs.
Proof.
  intros L L' RB F U B E A. unfold item_blocks. pose proof (entry_skip k' (S (length (k :: ks))) e (rows_of k' (S (length (k :: ks))) es ++ R)) as (f & more & k2 & subs & _ & SK). rewrite app_assoc, <- rows_cons in SK. destruct F as [|ln r g rr RL F].
  - cbn [starts_nested starts_continuation stk OutlineBlockProofs.hereat]. cbn [app] in E. subst rs'. assert (H : holds (stack_of (k :: ks)) (hereat (stack_of (k :: ks)) l []) (rows_of k' (S (length (k :: ks))) (e :: es) ++ R)) by (apply (holds_put _ l [] [] (rows_of k' (S (length (k :: ks))) (e :: es) ++ R)); auto).
    apply read_holds in H as [[S0 _]|(g & rr & rs2 & l2 & -> & F2 & NE & U2 & B2 & E)]; [rewrite SK in S0; discriminate S0|]. destruct (a_list_ok rec (k :: ks) k' e es R g rr rs2 l2 None L (or_introl eq_refl) F2 U2 B2 NE E A) as (xs & s' & X & H' & FX).
    exists None, xs, s'. split; [|split; [exact H'|split; [now left|exact FX]]]. rewrite E in SK. destruct F2 as [|ln r g rr RL F2]; [easy|]. injection SK as -> _. cbn [row_line] in RL. cbn [stk OutlineBlockProofs.hereat]. rewrite (nested_line ks k ln _ _ _ g false RL), not_known. cbn [negb]. change (PSt l2 [] None (fst d) (snd d) ?a false false true NoBib None (start normal) [] 0 0) with (hereat a l2 []). rewrite X. reflexivity.
  - assert (H : holds (stack_of (k :: ks)) (hereat (stack_of (k :: ks)) l (ln :: g)) (rows_of k' (S (length (k :: ks))) (e :: es) ++ R)) by (apply (holds_put _ l (ln :: g) (r :: rr) rs'); auto; now rewrite E).
    destruct (block_list rec' (k :: ks) k' e es R _ L' H A) as (xs & s' & X & H' & FX). exists (Some no_meta), xs, s'. split; [|split; [exact H'|split; [now right|exact FX]]].
    assert (R0 : r = Mark k' (S (length (k :: ks))) f). { rewrite E in SK. rewrite (skip_full (ln :: g) (r :: rr) rs') in SK by first [now constructor|discriminate]. now injection SK. }
    subst r. cbn [row_line] in RL. cbn [stk OutlineBlockProofs.hereat]. rewrite (nested_line ks k ln _ _ _ g true RL), not_known. cbn [negb]. unfold restore_lines. cbn [peeked OutlineBlockProofs.hereat bind]. change (with_peeked (ln :: g) (hereat (stack_of (k :: ks)) l [])) with (hereat (stack_of (k :: ks)) l (ln :: g)).
    rewrite RB, X. reflexivity.
Qed.
Lemma one_item (rec rec' : parser) ks k bl f more k' subs X s : let e := Entry bl f more k' subs in
  holds (stack_of (k :: ks)) s (entry_rows k (S (length ks)) e ++ X) -> after_ok (k :: ks) X -> entry_ok (S (length ks)) e = true ->
  (subs <> [] -> loops rec (k :: ks) k' subs /\ loops rec' (k :: ks) k' subs /\ forall s, rec _ Block s = block P rec' s) ->
  exists x s', list_item P rec (mk k (S (length ks))) s = Yes (Some x) s' /\ holds (stack_of (k :: ks)) s' X /\ item_for k (S (length ks)) e x.
Proof.
  cbn zeta. intros H A OK LP. cbn [entry_ok] in OK. apply andb_true_iff in OK as [OK _]. apply andb_true_iff in OK as [OK OM]. apply andb_true_iff in OK as [_ OF].
  assert (TM : Forall text_line more) by (rewrite forallb_forall in OM; apply Forall_forall; intros y I; specialize (OM y I); destruct y as [|i y]; [discriminate OM|]; cbn [full_line_ok] in OM; apply line_ok_inv in OM as [OM _]; split; [discriminate|exact OM]).
  assert (TF : text_line f) by (split; [now destruct f|now apply words_items]).
  pose proof (entry_skip k (S (length ks)) (Entry bl f more k' subs) X) as (f0 & more0 & k0 & subs0 & (bl0 & EE) & SK). injection EE as _ <- <- <- <-.
  apply read_holds in H as [[S0 _]|(g & rr & rs' & l & RD & F & NE & U & B & E)]; [rewrite SK in S0; discriminate S0|]. rewrite E in SK. destruct F as [|ln r g rr RL F]; [easy|]. injection SK as -> SK. cbn [row_line] in RL.
  assert (NX : match rows_of k' (S (S (length ks))) subs ++ X with Text (_ :: _) :: _ | Head _ _ :: _ => False | _ => True end).
  { destruct subs as [|e subs].
    - cbn [rows_of flat_map app]. destruct X as [|[[|i x]|kx nx x|bx|nx x] X]; auto; unfold after_ok in A; cbn in A; discriminate A.
    - rewrite rows_cons. destruct e as [bl2 f2 more2 k2 subs2]. cbn [entry_rows]. destruct bl2; exact I. }
  assert (NX' : match rows_of k' (S (S (length ks))) subs ++ X with Text (_ :: _) :: _ => False | _ => True end) by (destruct (rows_of k' (S (S (length ks))) subs ++ X) as [|[[|? ?]|? ? ?|?|? ?] ?]; auto).
  symmetry in SK. destruct (texts_split more _ rr rs' g TM NX' SK F B) as (g1 & g2 & rr2 & -> & F1 & F2 & -> & E2).
  assert (N2 : match rr2 with Text _ :: _ | Head _ _ :: _ => False | _ => True end).
  { destruct F2 as [|ln2 r2 g2 rr2 RL2 F2]; [exact I|]. destruct r2 as [x|kx nx x|bx|nx x]; [|exact I|exact I|rewrite E2 in NX; exact NX]. rewrite E2 in NX. cbn [app] in NX. destruct RL2 as (_ & _ & NN & _). now destruct x. }
  destruct (mark_rest _ _ _ _ RL) as (cx & cr & cp & CU & DA & LE). destruct (of_texts g1 more F1) as [OL _].
  destruct (parse_item (env_of P (hereat (stack_of (k :: ks)) l [])) (start normal) (adv (trim_leading ln) (lay cp (Some " "%char) (line_pieces f))) f cp g1 more (stops_free (k :: ks) l []) ltac:(repeat split) ltac:(destruct RL as (M & _); exact M) eq_refl LE TF OL TM) as (ns & GD & HT & PI).
  assert (BL : exists bs s', item_blocks P rec g2 (hereat (stack_of (k :: ks)) l []) = Yes bs s' /\ holds (stack_of (k :: ks)) s' X /\ match subs with [] => bs = [] | _ => exists m xs, bs = [BList m (mk k' (S (S (length ks)))) xs] /\ plainly m /\ pairwise (item_for k' (S (S (length ks)))) subs xs end).
  { destruct subs as [|e subs].
    - cbn [rows_of flat_map app] in E2. destruct (no_blocks rec ks k g2 rr2 rs' l X F2 U B E2 A N2) as (s' & IB & H'). exists [], s'. now repeat split.
    - destruct (LP ltac:(discriminate)) as (L1 & L2 & RB). destruct (nested_blocks rec rec' ks k k' e subs X g2 rr2 rs' l L1 L2 RB F2 U B E2 A) as (m & xs & s' & IB & H' & PM & FX). exists [BList m (mk k' (S (S (length ks)))) xs], s'.
      split; [exact IB|]. split; [exact H'|]. exists m, xs. split; [reflexivity|]. split; [exact PM|]. now apply pairwise_all. }
  destruct BL as (bs & s' & IB & H' & BB). exists (Item (mk k (S (length ks))) None ns bs), s'. split; [|split; [exact H'|exists ns, bs; now repeat split]].
  unfold list_item. rewrite RD. rewrite (mark_marker _ _ _ _ RL). cbn [stk OutlineBlockProofs.hereat]. rewrite (continues ks k k), mk_refl. cbn [negb]. replace (is_description (mk k (S (length ks)))) with false by now destruct k. rewrite CU, DA.
  replace (match mk k (S (length ks)) with LS.Star _ | LS.Dash => match checklist (lay cp (Some " "%char) (line_pieces f)) with Some (b, m) => (Some b, m) | None => (None, lay cp (Some " "%char) (line_pieces f)) end | _ => (None, lay cp (Some " "%char) (line_pieces f)) end) with (@None bool, lay cp (Some " "%char) (line_pieces f)) by (destruct k; cbn [mk]; [now rewrite no_checklist|reflexivity]).
  rewrite (principle_rows g1 more F1 g2 rr2 F2 N2).
  assert (RS : InlineModel.restore (adv (trim_leading ln) (lay cp (Some " "%char) (line_pieces f))) g1 = adv (trim_leading ln) (lay cp (Some " "%char) (line_pieces f)) :: g1).
  { unfold InlineModel.restore. cbn [toks adv]. destruct TF as [NF OI]. pose proof (line_ordinary f cp (Some " "%char) NF OI) as LO. now destruct (lay cp (Some " "%char) (line_pieces f)). }
  rewrite RS. unfold inlines. change (ist (hereat (stack_of (k :: ks)) l [])) with (start normal). rewrite PI. cbn [bind]. change (with_ist (start normal) (hereat (stack_of (k :: ks)) l [])) with (hereat (stack_of (k :: ks)) l []). rewrite IB. reflexivity.
Qed.
Lemma no_item (rec : parser) ks k R s : holds (stack_of (k :: ks)) s R -> after_ok ks R -> exists s', list_item P rec (mk k (S (length ks))) s = Yes None s' /\ holds (stack_of (k :: ks)) s' R.
Proof.
  intros H A. apply read_holds in H as [[S RD]|(g & rr & rs' & l & RD & F & NE & U & B & E)].
  - exists (hereat (stack_of (k :: ks)) [] []). split; [unfold list_item; now rewrite RD|now apply holds_over].
  - destruct F as [|ln r g rr RL F]; [easy|]. exists (hereat (stack_of (k :: ks)) l (ln :: g)). split; [|apply (put_back _ l (ln :: g) (r :: rr) rs'); auto; first [now constructor|discriminate]].
    unfold list_item. rewrite RD. unfold after_ok in A. rewrite E in A. destruct r as [x|k' n x|b|n x]; cbn [row_line app] in *.
    + destruct RL as (_ & T & _). now rewrite (text_item ln T).
    + rewrite (mark_marker _ _ _ _ RL). cbn [stk OutlineBlockProofs.hereat]. rewrite (continues ks k k' n). replace (LS.marker_eqb (mk k (S (length ks))) (mk k' n)) with false; [reflexivity|]. symmetry. apply not_true_iff_false. intros M. apply mk_eqb in M as [-> <-]. rewrite not_known in A. discriminate A.
    + destruct RL as [(p & prev & ->) _]. reflexivity.
    + destruct RL as (_ & _ & N & _ & i & j & p & T). unfold list_marker, is_comment. rewrite T. destruct (unconsumed ln); reflexivity.
Qed.
Lemma loops_all : forall sz es, sizes es <= sz -> forall ks k m, forallb (entry_ok (S (length ks))) es = true -> 3 * sizes es + 1 <= m -> loops (run m P) ks k es.
Proof.
  induction sz as [|sz IH]; intros es SZ ks k m OK M s R H A; (destruct m as [|m]; [lia|]); change (run (S m) P _ (ItemLoop ?q) s) with (take (i, s) := list_item P (run m P) q s in one_more (run m P) (ItemLoop q) i s).
  - destruct es as [|[bl f more k' subs] es]; [|exfalso; unfold sizes in SZ; cbn in SZ; lia]. destruct (no_item (run m P) ks k R s H A) as (s' & -> & H'). exists [], s'. repeat split; [exact H'|constructor].
  - destruct es as [|[bl f more k' subs] es].
    + destruct (no_item (run m P) ks k R s H A) as (s' & -> & H'). exists [], s'. repeat split; [exact H'|constructor].
    + rewrite rows_cons, <- app_assoc in H. cbn [forallb] in OK. apply andb_true_iff in OK as [OE OK]. assert (SE : sizes (Entry bl f more k' subs :: es) = 1 + sizes subs + sizes es) by reflexivity. rewrite SE in *.
      assert (OS : forallb (entry_ok (S (S (length ks)))) subs = true) by (cbn [entry_ok] in OE; now apply andb_true_iff in OE as [_ OE]).
      destruct m as [|m]; [lia|].
      destruct (one_item (run (S m) P) (run m P) ks k bl f more k' subs (rows_of k (S (length ks)) es ++ R) s H (after_items ks k es R A) OE) as (x & s1 & LI & H1 & IX).
      { intros NS. assert (1 <= sizes subs) by (destruct subs as [|[? ? ? ? ?] ?]; [easy|]; unfold sizes; cbn; lia). split; [apply IH; [lia|exact OS|lia]|]. split; [apply IH; [lia|exact OS|lia]|]. reflexivity. }
      rewrite LI. cbn [bind one_more]. destruct (IH es ltac:(lia) ks k (S m) OK ltac:(lia) s1 R H1 A) as (xs & s2 & RX & H2 & FX). rewrite RX. exists (x :: xs), s2. repeat split; [exact H2|now constructor].
Qed.
End Parse.
