(** What the parser makes of a whole text with delimited blocks (C72, C73); its rows also where headings come after them (C74). *)
From Verif Require Import Base Utf8 LexerModel LineModel SubsModel InlineModel InlineSpec BlockModel BlockSpec HeaderModel WholeModel WholeSpec WholeLexProofs WholePieceProofs WholeInlineProofs WholeBlockProofs.
From Verif Require Import OutlineModel OutlineLexProofs OutlineSpec BoxSpec OutlineBlockProofs OutlineListProofs BoxInlineProofs ListingInlineProofs ListingBlockProofs.
From Verif Require OutlineDocProofs.
Module OD := OutlineDocProofs.
Import ListNotations.
Open Scope list_scope.
Open Scope nat_scope.

(** ** Paragraphs, lists and delimited blocks, in order *)
Inductive elem := EPar (par : list line) | EList (k : list_kind) (es : list entry) | EBox (b : box) (els : list elem) | EShown (b : box) (ls : list line).
Definition box_context (b : box) : context := match b with ExampleBox _ => CExample | SidebarBox => CSidebar | QuoteBox => CBlockQuote | OpenBox => COpen | ListingBox => CListing | LiteralBox => CLiteral end.
Fixpoint elem_for (e : elem) (x : blk) {struct e} : Prop :=
  match e with
  | EPar par => block_for x par
  | EList k es => exists xs, x = BList (Some no_meta) (mk k 1) xs /\ Forall2 (item_for k 1) es xs
  | EShown b ls => exists t ns, x = BDelimited no_meta (box_context b) t (Simple ns) true /\ forallb vgood ns = true /\ vnodes_html ns = join newline (map text_of_line (trimmed ls))
  | EBox b els => exists t bs, x = BDelimited no_meta (box_context b) t (Compound bs) true /\ pairwise elem_for els bs
  end.
Definition dl (o : option box) : option delimiter := match o with Some b => Some (box_delim b) | None => None end.
Definition opens (o : option box) (b : box) : Prop := match o with Some c => bytes_eqb (delimiter_line c) (delimiter_line b) = false | None => True end.
(** the rows [rs] in the block [o] (or in none) are the elements [els], and then [R] *)
Inductive runs : option box -> list row -> list elem -> list row -> Prop :=
| runs_end : runs None [] [] []
| runs_head n h R : runs None (Head n h :: R) [] (Head n h :: R)
| runs_close b R : runs (Some b) (Fence b :: R) [] (Fence b :: R)
| runs_blank o rs els R : runs o rs els R -> runs o (Text [] :: rs) els R
| runs_par o par rs els R : par <> [] -> Forall text_line par -> OD.text_over rs -> runs o rs els R -> runs o (map Text par ++ rs) (EPar par :: els) R
| runs_list o k e es rs els R : forallb (entry_ok 1) (e :: es) = true -> after_ok [] rs -> runs o rs els R -> runs o (rows_of k 1 (e :: es) ++ rs) (EList k (e :: es) :: els) R
| runs_box o b rs els1 R1 els R : as_is b = false -> opens o b -> runs (Some b) rs els1 (Fence b :: R1) -> runs o R1 els R -> runs o (Fence b :: rs) (EBox b els1 :: els) R
| runs_shown o b ls R1 els R : as_is b = true -> opens o b -> forallb line_ok ls = true -> runs o R1 els R -> runs o (Fence b :: map Text ls ++ Fence b :: R1) (EShown b ls :: els) R.
Fixpoint cost (e : elem) : nat := match e with EPar _ => 1 | EList _ es => 3 * sizes es + 2 | EBox _ els => list_sum (map cost els) + 4 | EShown _ _ => 4 end.
Definition costs els := list_sum (map cost els).
Lemma length_costs els : length els <= costs els.
Proof. induction els as [|e els IH]; [cbn; lia|]. change (costs (e :: els)) with (cost e + costs els). assert (1 <= cost e) by (destruct e; cbn [cost]; lia). cbn [length]. lia. Qed.
Lemma runs_no_head o rs els R : runs o rs els R -> R = [] -> OD.no_head (skip_rows rs).
Proof.
  induction 1 as [|n h R|b R|o rs els R RR IH|o par rs els R NE TL BF RR IH|o k e es rs els R OK A RR IH|o b rs els1 R1 els R AI OP RR1 IH1 RR IH|o b ls R1 els R AI OP OL RR IH]; intros E; [exact I|discriminate E|exact I|now apply IH| | |exact I..].
  - destruct TL as [|l par [NL _] TL]; [easy|]. now destruct l.
  - rewrite rows_cons, <- app_assoc. now destruct (entry_skip k 1 e (rows_of k 1 es ++ rs)) as (f & more & k' & subs & _ & ->).
Qed.

Section Parse.
Variable P : params.
Hypothesis no_subs : forall x, custom_subs P [] x = x.
Section Level.
Variable lv : nat.
Lemma fence_chunk (rec : parser) d ln b g s l : of_fence ln b -> box_ok b = true -> read_lines s = (ln :: g, hereat d [] l []) ->
  block P rec s = (if match fst d with Some d => delimiter_eqb d (box_delim b) | None => false end then Yes None (hereat d [] l (ln :: g)) else delimited P rec (ln :: g) no_meta (hereat d [] l [])).
Proof.
  intros OF BO RD. unfold block. rewrite RD. destruct (OD.first_row P d ln (Fence b) [] l g (conj OF BO) I) as (IC & HL & AL & AN & _ & _ & CM). cbn [comment_block]. rewrite IC, CM. cbn [bind fst snd].
  destruct OF as (p & prev & ->). set (ln := ILine _ _ _ _) in *. replace (section_start P (ln :: g) no_meta) with (@None nat) by (symmetry; unfold section_start; change (is_discrete no_meta) with false; cbn [start_level]; rewrite AL, IC; change (chunk_title ln) with false; cbn [orb]; exact HL).
  assert (SL : starts_list (ln :: g) = false) by (cbn [starts_list]; rewrite IC; reflexivity). unfold chunk. rewrite SL. subst ln. cbn [toks]. change (is_block_macro _) with false. cbn iota.
  change (is_some (unadjusted_level _)) with false. cbn [andb]. change (is_k DelimiterLine _) with true. cbn iota. rewrite (fence_delim b _ BO). change (delim (hereat d [] l [])) with (fst d). destruct (fst d) as [d0|]; reflexivity.
Qed.
Lemma block_close (rec : parser) b R s : holds (Some (box_delim b), lv) [] s (Fence b :: R) -> exists s', block P rec s = Yes None s' /\ holds (Some (box_delim b), lv) [] s' (Fence b :: R).
Proof.
  intros H. apply read_holds in H as [[S _]|(g & rr & rs' & l & RD & F & NE & U & B & E)]; [discriminate S|]. destruct F as [|ln r g rr RL F]; [easy|]. cbn [skip_rows app] in E. injection E as <- E. pose proof RL as [OF BO].
  exists (hereat (Some (box_delim b), lv) [] l (ln :: g)). split; [rewrite (fence_chunk rec _ ln b g s l OF BO RD); cbn [fst]; rewrite box_delim_eqb; now rewrite (proj2 (bytes_eqb_eq _ _) eq_refl)|]. apply (put_back _ _ l (ln :: g) (Fence b :: rr) rs'); auto; first [now constructor|discriminate|cbn; congruence].
Qed.
Lemma holds_ist d sk s rs : holds d sk s rs -> set_ist_subs normal s = s /\ delim s = fst d.
Proof. intros (l & g & rr & rs' & -> & _). now split. Qed.
Lemma read_showing d l g x vs l1 dd : read_until dd (hereat d [] l g) = (vs, hereat d [] l1 []) -> read_until dd (set_ist_subs x (hereat d [] l g)) = (vs, set_ist_subs x (hereat d [] l1 [])).
Proof.
  unfold read_until, read_lines, set_ist_subs, with_ist, OutlineBlockProofs.hereat, with_src, with_peeked. cbn [peeked src pmeta delim level stk conts nests bib cmt ist inmd].
  destruct g as [|a g]; [destruct (skip_empty l) as [|y r]; [|destruct (group r) as [q m]]|]; cbn -[existsb until_delim drop_empty rev app set_subs].
  - intros E. now injection E as <- <-.
  - destruct (existsb _ _); [|destruct (until_delim dd m)]; intros E; injection E as <- <-; reflexivity.
  - destruct (existsb _ _); [|destruct (until_delim dd l)]; intros E; injection E as <- <-; reflexivity.
Qed.
Lemma block_box (rec : parser) o b rs R1 els1 s : as_is b = false -> opens o b -> holds (dl o, lv) [] s (Fence b :: rs) ->
  (forall s, holds (Some (box_delim b), lv) [] s rs -> exists bs s', rec _ BlockLoop s = Yes bs s' /\ holds (Some (box_delim b), lv) [] s' (Fence b :: R1) /\ Forall2 elem_for els1 bs) ->
  exists x s', block P rec s = Yes (Some x) s' /\ elem_for (EBox b els1) x /\ holds (dl o, lv) [] s' R1.
Proof.
  intros AI OP H L. apply read_holds in H as [[S _]|(g & rr & rs' & l & RD & F & NE & U & B & E)]; [discriminate S|]. destruct F as [|ln r g rr RL F]; [easy|]. cbn [skip_rows app] in E. injection E as <- E. pose proof RL as [OF BO]. rewrite (fence_chunk rec _ ln b g s l OF BO RD).
  replace (match fst (dl o, lv) with Some d => delimiter_eqb d (box_delim b) | None => false end) with false by (destruct o as [c|]; [cbn [dl fst]; now rewrite box_delim_eqb|reflexivity]).
  assert (H1 : holds (Some (box_delim b), lv) [] (hereat (Some (box_delim b), lv) [] l g) rs) by (apply (holds_put _ _ l g rr rs'); auto; now rewrite E).
  destruct (L _ H1) as (bs & s2 & RB & H2 & FB). pose proof (holds_ist _ _ _ _ H2) as [IS _]. apply read_holds in H2 as [[S _]|(g2 & rr2 & rs2 & l2 & RD2 & F2 & NE2 & U2 & B2 & E2)]; [discriminate S|].
  destruct F2 as [|ln2 r2 g2 rr2 RL2 F2]; [easy|]. cbn [skip_rows app] in E2. injection E2 as <- E2. destruct RL2 as [OF2 _].
  exists (BDelimited no_meta (box_context b) (match toks ln with t :: _ => t | [] => TokI Word [] (Info false 0 None 0) end) (Compound bs) true), (hereat (dl o, lv) [] l2 g2). split; [|split; [eexists; exists bs; split; [reflexivity|now apply pairwise_all]|apply (holds_put _ _ l2 g2 rr2 rs2); auto; now rewrite E2]].
  destruct OF as (p & prev & ->), OF2 as (p2 & prev2 & ->). unfold delimited. cbn [toks]. rewrite (fence_delim b _ BO). replace (fence (box_delim b) []) with (Ret tt) by reflexivity. cbn [delim OutlineBlockProofs.hereat].
  change (restore_lines P g (with_delim (Some (box_delim b)) (hereat (dl o, lv) [] l []))) with (Yes tt (hereat (Some (box_delim b), lv) [] l g)). cbn [bind].
  replace (context_of (dk (box_delim b))) with (box_context b) by now destruct b. change (block_style (box_context b) no_meta) with (@None context). cbn iota.
  replace (verbatim_context (box_context b)) with false by (destruct b; first [reflexivity|discriminate AI]). change (subs_of (ist (hereat (Some (box_delim b), lv) [] l g))) with normal. replace (subs_for P (box_context b) no_meta normal) with normal by (destruct b; first [discriminate AI|symmetry; exact (no_subs normal)]).
  change (set_ist_subs normal (hereat (Some (box_delim b), lv) [] l g)) with (hereat (Some (box_delim b), lv) [] l g). rewrite RB. cbn [bind]. rewrite IS, RD2. cbn [delim OutlineBlockProofs.hereat is_delimiter toks]. rewrite (fence_delim b _ BO). cbn [is_delim fst]. rewrite box_delim_eqb, (proj2 (bytes_eqb_eq _ _) eq_refl).
  reflexivity.
Qed.
Lemma block_shown (rec : parser) o b ls R1 s : as_is b = true -> opens o b -> forallb line_ok ls = true -> holds (dl o, lv) [] s (Fence b :: map Text ls ++ Fence b :: R1) ->
  exists x s', block P rec s = Yes (Some x) s' /\ elem_for (EShown b ls) x /\ holds (dl o, lv) [] s' R1.
Proof.
  intros AI OP OK H. apply read_holds in H as [[S _]|(g & rr & rs' & l & RD & F & NE & U & B & E)]; [discriminate S|]. destruct F as [|ln r g rr RL F]; [easy|]. cbn [skip_rows app] in E. injection E as <- E. pose proof RL as [OF BO]. rewrite (fence_chunk rec _ ln b g s l OF BO RD).
  replace (match fst (dl o, lv) with Some d => delimiter_eqb d (box_delim b) | None => false end) with false by (destruct o as [c|]; [cbn [dl fst]; now rewrite box_delim_eqb|reflexivity]).
  assert (H1 : holds (Some (box_delim b), lv) [] (hereat (Some (box_delim b), lv) [] l g) (map Text ls ++ Fence b :: R1)) by (apply (holds_put _ _ l g rr rs'); auto; now rewrite E).
  destruct (read_shown lv b ls R1 _ AI OK H1) as (vs & rest & l1 & RU & F1 & H2 & HR). destruct (shown_inlines P lv b l1 vs rest ls BO F1 OK HR) as (ns & G & V & PI). apply read_holds in H2 as [[S _]|(g2 & rr2 & rs2 & l2 & RD2 & F2 & NE2 & U2 & B2 & E2)]; [discriminate S|].
  destruct F2 as [|ln2 r2 g2 rr2 RL2 F2]; [easy|]. cbn [skip_rows app] in E2. injection E2 as <- E2. destruct RL2 as [OF2 _].
  exists (BDelimited no_meta (box_context b) (match toks ln with t :: _ => t | [] => TokI Word [] (Info false 0 None 0) end) (Simple ns) true), (hereat (dl o, lv) [] l2 g2). split; [|split; [eexists; exists ns; split; [reflexivity|now split]|apply (holds_put _ _ l2 g2 rr2 rs2); auto; now rewrite E2]].
  destruct OF as (p & prev & ->), OF2 as (p2 & prev2 & ->). unfold delimited. cbn [toks]. rewrite (fence_delim b _ BO). replace (fence (box_delim b) []) with (Ret tt) by reflexivity. cbn [delim OutlineBlockProofs.hereat].
  change (restore_lines P g (with_delim (Some (box_delim b)) (hereat (dl o, lv) [] l []))) with (Yes tt (hereat (Some (box_delim b), lv) [] l g)). cbn [bind].
  replace (context_of (dk (box_delim b))) with (box_context b) by now destruct b. change (block_style (box_context b) no_meta) with (@None context). cbn iota.
  replace (verbatim_context (box_context b)) with true by (destruct b; first [reflexivity|discriminate AI]). change (subs_of (ist (hereat (Some (box_delim b), lv) [] l g))) with normal. replace (subs_for P (box_context b) no_meta normal) with verbatim by (destruct b; first [discriminate AI|symmetry; exact (no_subs verbatim)]).
  rewrite (read_showing _ _ _ _ _ _ _ RU). unfold showing in PI.
  assert (X : forall c : context, c = CListing \/ c = CLiteral -> 
    (let s0 := match c with CListing | CLiteral => match named_at $"line-comment" no_meta with Some x => with_cmt (Some x) (set_ist_subs verbatim (hereat (Some (box_delim b), lv) [] l1 [])) | None => set_ist_subs verbatim (hereat (Some (box_delim b), lv) [] l1 []) end | _ => set_ist_subs verbatim (hereat (Some (box_delim b), lv) [] l1 []) end in
     match c with
     | CComment => take (_, s) := restore_lines P (drop_until (fun l => is_delimiter (box_delim b) (toks l)) (vs ++ rest)) s0 in Yes (Hidden (vs ++ rest)) s
     | _ => take (x, s) := inlines P (vs ++ rest) (with_nests false s0) in take (_, s) := restore_lines P (snd x) (with_cmt None (with_nests true s)) in Yes (Simple (fst x)) s
     end) = Yes (Simple ns) (set_ist_subs verbatim (hereat (Some (box_delim b), lv) [] l1 rest))).
  { intros c [-> | ->]; cbn zeta; change (named_at $"line-comment" no_meta) with (@None bytes); cbn iota; rewrite PI; reflexivity. }
  cbn zeta in X. cbn zeta. rewrite X by (destruct b; first [discriminate AI|now left|now right]).
  cbn [bind]. change (set_ist_subs normal (set_ist_subs verbatim (hereat (Some (box_delim b), lv) [] l1 rest))) with (hereat (Some (box_delim b), lv) [] l1 rest). rewrite RD2. cbn [delim OutlineBlockProofs.hereat is_delimiter toks]. rewrite (fence_delim b _ BO). cbn [is_delim fst]. rewrite box_delim_eqb, (proj2 (bytes_eqb_eq _ _) eq_refl).
  reflexivity.
Qed.
(** what is made of the elements, given what is made of the rest *)
Lemma loop_rows o rs els R : runs o rs els R -> forall s n, holds (dl o, lv) [] s rs -> costs els + 2 <= n ->
  exists bs s', holds (dl o, lv) [] s' R /\ Forall2 elem_for els bs /\ forall tail t, run (n - length els) P _ BlockLoop s' = Yes tail t -> run n P _ BlockLoop s = Yes (bs ++ tail) t.
Proof.
  assert (ST : forall b s s1 x els1 els n tail t (bs : list blk), block P (run n P) s = Yes (Some x) s1 -> (run (S n - length els) P _ BlockLoop b = Yes tail t -> run (S n) P _ BlockLoop s1 = Yes (bs ++ tail) t) -> run (S (S n) - length (els1 :: els : list elem)) P _ BlockLoop b = Yes tail t -> run (S (S n)) P _ BlockLoop s = Yes ((x :: bs) ++ tail) t).
  { clear. intros b s s1 x els1 els n tail t bs B K T. cbn [app]. apply (OD.step_block P n s x s1); [exact B|]. now apply K. }
  induction 1 as [|m h R|b R|o rs els R RR IH|o par rs els R NE TL BF RR IH|o k e es rs els R OK A RR IH|o b rs els1 R1 els R AI OP RR1 IH1 RR IH|o b ls R1 els R AI OP OL RR IH]; intros s n H L.
  1-3: exists [], s; (split; [exact H|]); (split; [constructor|]); intros tail t T; cbn [length] in T; now rewrite Nat.sub_0_r in T.
  - apply IH; [|exact L]. now apply (holds_skip _ _ _ (Text [] :: rs)).
  - change (costs (EPar par :: els)) with (1 + costs els) in L. destruct n as [|[|n]]; [lia..|]. destruct (OD.block_par P (no_subs normal) _ (run n P) s par rs H NE TL BF) as (x & s1 & B & BB & H1). destruct (IH s1 (S n) H1 ltac:(lia)) as (bs & s2 & H2 & F & K).
    exists (x :: bs), s2. split; [exact H2|]. split; [now constructor|]. intros tail t. apply (ST s2 s s1 x _ els n tail t bs B (K tail t)).
  - change (costs (EList k (e :: es) :: els)) with (3 * sizes (e :: es) + 2 + costs els) in L. destruct n as [|[|n]]; [lia..|].
    destruct (block_list P (dl o, lv) (run n P) [] k e es rs s (loops_all P _ (sizes (e :: es)) (e :: es) (le_n _) [] k n OK ltac:(lia)) H A) as (xs & s1 & B & H1 & FX). destruct (IH s1 (S n) H1 ltac:(lia)) as (bs & s2 & H2 & F & K).
    exists (BList (Some no_meta) (mk k 1) xs :: bs), s2. split; [exact H2|]. split; [constructor; [now exists xs|exact F]|]. intros tail t. apply (ST s2 s s1 _ _ els n tail t bs B (K tail t)).
  - change (costs (EBox b els1 :: els)) with (costs els1 + 4 + costs els) in L. destruct n as [|[|n]]; [lia..|].
    destruct (block_box (run n P) o b rs R1 els1 s AI OP H) as (x & s1 & B & EX & H1).
    { intros s0 H0. destruct (IH1 s0 n H0 ltac:(lia)) as (bs0 & s0' & A1 & A2 & A3). pose proof (length_costs els1) as LC. destruct (n - length els1) as [|[|m]] eqn:M; [lia..|]. destruct (block_close (run m P) b R1 s0' A1) as (s' & B & H'). exists (bs0 ++ []), s'. rewrite app_nil_r at 2.
      split; [|split; [exact H'|exact A2]]. apply A3. change (run (S (S m)) P _ BlockLoop s0') with (take (b, s) := run (S m) P _ Block s0' in one_more (run (S m) P) BlockLoop b s). change (run (S m) P _ Block s0') with (block P (run m P) s0'). rewrite B. reflexivity. }
    destruct (IH s1 (S n) H1 ltac:(lia)) as (bs & s2 & H2 & F & K). exists (x :: bs), s2. split; [exact H2|]. split; [now constructor|]. intros tail t. apply (ST s2 s s1 x _ els n tail t bs B (K tail t)).
  - change (costs (EShown b ls :: els)) with (4 + costs els) in L. destruct n as [|[|n]]; [lia..|]. destruct (block_shown (run n P) o b ls R1 s AI OP OL H) as (x & s1 & B & EX & H1). destruct (IH s1 (S n) H1 ltac:(lia)) as (bs & s2 & H2 & F & K).
    exists (x :: bs), s2. split; [exact H2|]. split; [now constructor|]. intros tail t. apply (ST s2 s s1 x _ els n tail t bs B (K tail t)).
Qed.
End Level.
Lemma loop_whole rs els s n : runs None rs els [] -> holds (None, 0) [] s rs -> costs els + 2 <= n -> exists bs, run n P _ BlockLoop s = Yes bs (hereat (None, 0) [] [] []) /\ Forall2 elem_for els bs.
Proof.
  intros RR H L. destruct (loop_rows 0 _ _ _ _ RR s n H L) as (bs & s' & H' & F & K). exists (bs ++ []). rewrite app_nil_r at 2. split; [|exact F]. apply K. pose proof (length_costs els). destruct (n - length els) as [|[|m]] eqn:M; [lia..|]. cbn [run BlockModel.step]. rewrite (OD.block_none P _ _ _ H' eq_refl). reflexivity.
Qed.
Lemma document_rows s rs els n : runs None rs els [] -> holds (None, 0) [] s rs -> costs els + 4 <= n -> exists bs c s', document n P s = Yes c s' /\ (c = Blocks bs \/ c = Sections bs []) /\ Forall2 elem_for els bs.
Proof.
  intros RR H L. pose proof (runs_no_head _ _ _ _ RR eq_refl) as NH. destruct n as [|[|[|[|n]]]]; [lia..|]. unfold document. destruct (book P) eqn:BK.
  - destruct (OD.special_rows P s rs (S n) NH H) as (s1 & R1 & H1). destruct (OD.run_peek_rows P s1 rs (S (S n)) NH H1) as (s2 & R2 & H2). destruct (OD.run_peek_rows P s2 rs (S (S n)) NH H2) as (s3 & R3 & H3).
    destruct (loop_whole _ _ s3 (S (S (S n))) RR H3) as (bs & R4 & F); [lia|]. exists bs, (Blocks bs), (here [] []). split; [|split; [now left|exact F]].
    change (run (S (S (S (S n)))) P _ Book s) with (parse_book P (run (S (S (S n))) P) s). unfold parse_book, book_part. rewrite BK. cbn [negb]. rewrite R1. cbn [bind]. rewrite andb_false_r. rewrite R2. cbn [bind]. rewrite R3. cbn [bind]. rewrite R4. reflexivity.
  - destruct (loop_whole _ _ s (S (S (S (S n)))) RR H) as (bs & R & F); [lia|]. exists bs, (Sections bs []), (here [] []). split; [|split; [now right|exact F]].
    replace (run (S (S (S (S n)))) P _ Book s) with (Yes (@None content) s) by (change (run (S (S (S (S n)))) P _ Book s) with (parse_book P (run (S (S (S n))) P) s); unfold parse_book; now rewrite BK).
    cbn [bind]. unfold sectioned. rewrite R. cbn [bind]. change (hereat (None, 0) [] [] []) with (here [] []). rewrite section_over. reflexivity.
Qed.

(** ** The rows of a document *)
Fixpoint body_rows (x : body) : list row := match x with Bare p => OD.part_rows p | Box b l => Fence b :: spread body_rows (Text []) l ++ [Fence b] | Shown b ls => Fence b :: map Text ls ++ [Fence b] end.
Definition part_elems (p : part) : list elem := match p with Lines ls => map EPar (paragraphs ls) | Items k es => [EList k es] end.
Fixpoint body_elems (x : body) : list elem := match x with Bare p => part_elems p | Box b l => [EBox b (flat_map body_elems l)] | Shown b ls => [EShown b ls] end.
Fixpoint body_induction (Q : body -> Prop) (bare : forall p, Q (Bare p)) (inbox : forall b l, Forall Q l -> Q (Box b l)) (shown : forall b ls, Q (Shown b ls)) (x : body) {struct x} : Q x :=
  match x with
  | Bare p => bare p
  | Shown b ls => shown b ls
  | Box b l => inbox b l ((fix go (l : list body) : Forall Q l := match l with [] => Forall_nil Q | y :: r => Forall_cons y (body_induction Q bare inbox shown y) (go r) end) l)
  end.
Lemma spread_cons {A} (f : body -> list A) gap x r : spread f gap (x :: r) = f x ++ (if adjoins x r then [] else [gap]) ++ spread f gap r.
Proof. reflexivity. Qed.
Lemma spread_source l : Forall (fun x => map row_source (body_rows x) = body_lines x) l -> map row_source (spread body_rows (Text []) l) = spread body_lines [] l.
Proof. induction 1 as [|x r E F IH]; [reflexivity|]. rewrite !spread_cons, !map_app, E, IH. now destruct (adjoins x r). Qed.
Lemma body_source : forall x, map row_source (body_rows x) = body_lines x.
Proof.
  apply body_induction; [intros p; apply OD.part_source| |intros b ls; cbn [body_rows body_lines map]; rewrite map_app, map_map; reflexivity]. intros b l F. cbn [body_rows body_lines map]. rewrite map_app, spread_source by exact F. reflexivity.
Qed.
Lemma bodies_source l : rows_source (spread body_rows (Text []) l) = source l.
Proof. unfold rows_source, source. f_equal. apply spread_source. induction l; constructor; [apply body_source|assumption]. Qed.
Lemma spread_ok o l : Forall (fun x => forall o, body_ok o x = true -> forallb row_ok (body_rows x) = true) l -> forallb (body_ok o) l = true -> forallb row_ok (spread body_rows (Text []) l) = true.
Proof.
  induction 1 as [|x r E F IH]; [reflexivity|]. cbn [forallb]. intros H. apply andb_true_iff in H as [H1 H2]. rewrite spread_cons, !forallb_app, (E o H1), (IH H2). now destruct (adjoins x r).
Qed.
Lemma body_rows_ok : forall x o, body_ok o x = true -> forallb row_ok (body_rows x) = true.
Proof.
  apply (body_induction (fun x => forall o, body_ok o x = true -> forallb row_ok (body_rows x) = true)); [intros p o; apply OD.part_rows_ok| |].
  2:{ intros b ls o OK. cbn [body_ok] in OK. apply andb_true_iff in OK as [OK OL]. apply andb_true_iff in OK as [A _]. assert (BO : box_ok b = true) by (destruct b; first [reflexivity|discriminate A]). cbn [body_rows forallb row_ok]. rewrite BO, forallb_app. cbn [forallb row_ok]. rewrite BO, !andb_true_r. cbn [andb]. rewrite forallb_forall in *. intros r I. apply in_map_iff in I as (l & <- & I). now apply OL. }
  intros b l F o OK. cbn [body_ok] in OK. apply andb_true_iff in OK as [OK _]. apply andb_true_iff in OK as [OK OL]. apply andb_true_iff in OK as [OB _]. apply andb_true_iff in OB as [_ OB].
  cbn [body_rows forallb row_ok]. rewrite OB, forallb_app, (spread_ok _ l F OL). cbn [forallb row_ok]. now rewrite OB.
Qed.
Lemma runs_lines o X els R : runs o X els R -> OD.text_over X -> forall ls cur, forallb line_ok ls = true -> Forall text_line cur -> runs o (map Text (cur ++ ls) ++ X) (map EPar (paragraphs_from cur ls) ++ els) R.
Proof.
  intros RR B. induction ls as [|l ls IH]; intros cur OK F.
  - rewrite app_nil_r. cbn [paragraphs_from]. destruct cur as [|c cur]; [exact RR|]. cbn [map app]. apply (runs_par o (c :: cur)); auto. discriminate.
  - cbn [forallb] in OK. apply andb_true_iff in OK as [OL OK]. destruct l as [|i l].
    + cbn [paragraphs_from]. destruct cur as [|c cur]; [cbn [map app]; apply runs_blank; now apply (IH [])|]. rewrite map_app, <- app_assoc. cbn [map app]. apply (runs_par o (c :: cur)); auto; [discriminate|exact I|]. apply runs_blank. now apply (IH []).
    + cbn [paragraphs_from]. specialize (IH (cur ++ [i :: l]) OK). rewrite <- app_assoc in IH. apply IH. apply Forall_app. split; [exact F|]. constructor; [|constructor]. apply line_ok_inv in OL as [OI _]. split; [discriminate|exact OI].
Qed.
(** nothing, the end of a block, or a heading below a blank line *)
Definition over (T : list row) : Prop := match T with [] | Fence _ :: _ | Text [] :: Head _ _ :: _ => True | _ => False end.
Definition follows (x : body) (T : list row) : Prop := match x with Bare (Lines _) => OD.text_over T | Bare (Items _ _) => after_ok [] T | _ => True end.
Definition around (o : option box) : option bytes := match o with Some b => Some (delimiter_line b) | None => None end.
Definition reads (x : body) : Prop := forall o T els R, body_ok (around o) x = true -> runs o T els R -> follows x T -> runs o (body_rows x ++ T) (body_elems x ++ els) R.
Lemma no_mark_blank X : match skip_rows X with Mark _ _ _ :: _ => False | _ => True end -> after_ok [] (Text [] :: X).
Proof. unfold after_ok. cbn [skip_rows]. destruct (skip_rows X) as [|[x|k n x|b|n x] r]; easy. Qed.
Lemma apart_rows T l : over T -> apart true l = true -> match skip_rows (spread body_rows (Text []) l ++ T) with Mark _ _ _ :: _ => False | _ => True end.
Proof.
  intros O. induction l as [|x l IH]; [intros _; destruct T as [|[[|]| | |] [|[] ?]]; easy|]. destruct x as [[ls|k es]|b ins|b ls]; [|discriminate|intros _; exact I..]. cbn [apart andb]. intros H. rewrite spread_cons, <- app_assoc. cbn [body_rows OD.part_rows]. destruct (forallb blank ls) eqn:B.
  - rewrite OD.blank_rows by exact B. rewrite <- app_assoc. destruct (adjoins _ l); cbn [app skip_rows]; now apply IH.
  - match goal with |- context [map Text ls ++ ?X] => destruct (OD.not_blank ls X B) as (l0 & r & ->) end. exact I.
Qed.
Lemma apart_weak a l : apart a l = true -> apart false l = true.
Proof. revert a. induction l as [|x l IH]; intros a; [reflexivity|]. destruct x as [[ls|k es]|b ins|b ls]; cbn [apart andb negb]; [apply IH| |easy..]. intros H. now apply andb_true_iff in H. Qed.
Lemma runs_bodies l : Forall reads l -> forall o T els R, forallb (body_ok (around o)) l = true -> apart false l = true -> over T -> runs o T els R -> runs o (spread body_rows (Text []) l ++ T) (flat_map body_elems l ++ els) R.
Proof.
  induction 1 as [|x l Q F IH]; intros o T els R OK AP OV RR; [exact RR|]. cbn [forallb] in OK. apply andb_true_iff in OK as [OX OK]. cbn [flat_map]. rewrite spread_cons, <- !app_assoc.
  assert (AW : apart false l = true) by (destruct x as [[ls|k es]|b ins|b ls]; cbn [apart andb negb] in AP; [exact AP|now apply (apart_weak true)|exact AP..]). specialize (IH o T els R OK AW OV RR). apply Q; [exact OX|destruct (adjoins x l); [exact IH|now apply runs_blank]|].
  destruct x as [[ls|k es]|b ins|b ls]; [| |exact I..]; cbn [follows].
  - destruct l as [|y l]; [destruct T as [|[[|]| | |] [|[] ?]]; easy|]. cbn [adjoins boxed orb]. destruct y as [p|b ins|b ls']; exact I.
  - cbn [apart negb andb] in AP. destruct l as [|y l]; [destruct T as [|[[|]| | |] [|[] ?]]; easy|]. cbn [adjoins boxed orb]. destruct y as [p|b ins|b ls']; cbn [boxed app]; [|exact I..]. apply no_mark_blank. now apply apart_rows.
Qed.
Lemma body_reads : forall x, reads x.
Proof.
  apply body_induction.
  - intros [ls|k es] o T els R OK RR FO; cbn [body_ok part_ok body_rows OD.part_rows body_elems part_elems follows] in *; [now apply (runs_lines o T els R RR FO ls []); [|constructor]|]. destruct es as [|e es]; [discriminate OK|]. cbn [app]. now apply runs_list.
  - intros b l F o T els R OK RR _. cbn [body_ok] in OK. apply andb_true_iff in OK as [OK AP]. apply andb_true_iff in OK as [OK OL]. apply andb_true_iff in OK as [AI AR]. apply andb_true_iff in AI as [AI _]. apply negb_true_iff in AI.
    cbn [body_rows body_elems app]. rewrite <- app_assoc. cbn [app]. apply (runs_box o b _ _ T); [exact AI| |rewrite <- (app_nil_r (flat_map body_elems l)); now apply (runs_bodies l F (Some b)); [| | |constructor]|exact RR].
    destruct o as [c|]; [|exact I]. cbn [around opens other] in *. now apply negb_true_iff in AR.
  - intros b ls o T els R OK RR _. cbn [body_ok] in OK. apply andb_true_iff in OK as [OK OL]. apply andb_true_iff in OK as [AI AR]. cbn [body_rows body_elems app]. rewrite <- app_assoc. cbn [app]. apply runs_shown; auto.
    destruct o as [c|]; [|exact I]. cbn [around opens other] in *. now apply negb_true_iff in AR.
Qed.
Lemma runs_doc l : bodies_ok l = true -> runs None (spread body_rows (Text []) l) (flat_map body_elems l) [].
Proof.
  intros H. unfold bodies_ok in H. apply andb_true_iff in H as [H1 H2]. rewrite <- (app_nil_r (spread _ _ l)), <- (app_nil_r (flat_map _ l)). apply (runs_bodies l); [|exact H1|exact H2|exact I|constructor]. clear. induction l; constructor; [apply body_reads|assumption].
Qed.
Lemma costs_rows o rs els R : runs o rs els R -> costs els + 5 * length R <= 5 * length rs.
Proof.
  induction 1 as [|m h R|b R|o rs els R RR IH|o par rs els R NE TL BF RR IH|o k e es rs els R OK A RR IH|o b rs els1 R1 els R AI OP RR1 IH1 RR IH|o b ls R1 els R AI OP OL RR IH]; [cbn; lia|cbn; lia|cbn; lia|cbn [length]; lia| | | |].
  - change (costs (EPar par :: els)) with (1 + costs els). rewrite app_length, map_length. destruct par; [easy|]. cbn [length]. lia.
  - change (costs (EList k (e :: es) :: els)) with (3 * sizes (e :: es) + 2 + costs els). rewrite app_length. pose proof (OD.sizes_rows k 1 (e :: es)) as S. assert (1 <= sizes (e :: es)) by (pose proof (OD.size_rows k 1 e); change (sizes (e :: es)) with (size e + sizes es); lia). lia.
  - change (costs (EBox b els1 :: els)) with (costs els1 + 4 + costs els). cbn [length] in *. lia.
  - change (costs (EShown b ls :: els)) with (4 + costs els). cbn [length] in *. rewrite app_length. cbn [length]. lia.
Qed.
Lemma parse_boxes plugins author_set revision_line l : bodies_ok l = true ->
  exists c bs, parse plugins P author_set revision_line (source l) = Some c /\ (c = Blocks bs \/ c = Sections bs []) /\ Forall2 elem_for (flat_map body_elems l) bs.
Proof.
  intros OK. pose proof (runs_doc l OK) as RR. assert (RO : forallb row_ok (spread body_rows (Text []) l) = true).
  { unfold bodies_ok in OK. apply andb_true_iff in OK as [OK _]. apply (spread_ok None); [|exact OK]. clear. induction l; constructor; [apply body_rows_ok|assumption]. }
  unfold parse. rewrite <- bodies_source, (lex_rows plugins _ RO). set (rs := spread body_rows (Text []) l) in *.
  change (fresh normal (rows_at 0 None rs)) with (hereat (None, 0) [] (rows_at 0 None rs) []). assert (H : holds (None, 0) [] (hereat (None, 0) [] (rows_at 0 None rs) []) rs).
  { exists (rows_at 0 None rs), [], [], rs. split; [reflexivity|]. split; [constructor|]. split; [exists 0, None; repeat split; [now left|exact RO]|]. split; [easy|reflexivity]. }
  destruct (OD.header_rows P author_set revision_line _ _ (runs_no_head _ _ _ _ RR eq_refl) H eq_refl) as (s1 & R1 & H1). destruct (document_rows s1 rs _ (enough_steps (rows_at 0 None rs)) RR H1) as (bs & c & s2 & R2 & C & F).
  - unfold enough_steps. pose proof (costs_rows _ _ _ _ RR) as CR. pose proof (OD.many_rows rs 0 None) as MR. cbn [map] in *. lia.
  - exists c, bs. split; [|now split]. unfold whole_document. rewrite R1. cbn [bind]. rewrite R2. reflexivity.
Qed.
End Parse.
