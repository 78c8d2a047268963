(** The trees of articles with sections, in which there are lists, delimited blocks and listings (C74). *)
From Verif Require Import Base Utf8 LexerModel LineModel SubsModel InlineModel InlineSpec BlockModel BlockSpec HeaderModel WholeModel WholeSpec WholeLexProofs WholePieceProofs WholeInlineProofs WholeBlockProofs.
From Verif Require Import OutlineModel OutlineLexProofs OutlineSpec BoxSpec OutlineBlockProofs OutlineListProofs BoxInlineProofs ListingInlineProofs ListingBlockProofs BoxDocProofs.
From Verif Require ArticleSpec ArticleModel ArticleDocProofs.
From Verif Require Import ManualSpec.
Import ListNotations.
Open Scope list_scope.
Open Scope nat_scope.

(** induction over sections and their subsections *)
Lemma section_rect' (Q : section -> Prop) : (forall h l subs, Forall Q subs -> Q (Sec h l subs)) -> forall s, Q s.
Proof. intros H. fix IH 1. intros [h l subs]. apply H. induction subs as [|s subs IHs]; constructor; [apply IH|exact IHs]. Qed.

(** ** The rows of an article *)
Definition bodies_rows (l : list body) : list row := spread body_rows (Text []) l.
Definition bodies_elems (l : list body) : list elem := flat_map body_elems l.
Fixpoint sec_rows (n : nat) (s : section) : list row := match s with Sec h l subs => Text [] :: Head n h :: bodies_rows l ++ flat_map (sec_rows (S n)) subs end.
Definition below_title (m : manual) : list row := bodies_rows (intro m) ++ flat_map (sec_rows 1) (sections m).
Definition all_rows (m : manual) : list row :=
  match title m, intro m with Some t, _ => Head 0 t :: Text [] :: below_title m | None, [] => tl (below_title m) | None, _ => below_title m end.
Lemma bodies_lines l : map row_source (bodies_rows l) = spread body_lines [] l.
Proof. apply spread_source. induction l; constructor; [apply body_source|assumption]. Qed.
Lemma sec_lines : forall s n, section_lines n s = map row_source (sec_rows n s).
Proof.
  induction s as [h l subs IH] using section_rect'. intros n. cbn [section_lines sec_rows map row_source]. change (line_source []) with (@nil ascii). f_equal. f_equal. rewrite map_app, bodies_lines. f_equal.
  induction IH as [|s subs I _ IHs]; [reflexivity|]. cbn [flat_map]. rewrite map_app, I. f_equal. exact IHs.
Qed.
Lemma below_lines m : map row_source (below_title m) = spread body_lines [] (intro m) ++ flat_map (section_lines 1) (sections m).
Proof. unfold below_title. rewrite map_app, bodies_lines. f_equal. induction (sections m) as [|s l IH]; [reflexivity|]. cbn [flat_map]. rewrite map_app, sec_lines. f_equal. exact IH. Qed.
Lemma manual_rows m : manual_lines m = map row_source (all_rows m).
Proof.
  unfold manual_lines, all_rows. rewrite <- below_lines. destruct (title m) as [t|]; [reflexivity|]. destruct (intro m); [|reflexivity]. now destruct (below_title m).
Qed.
Lemma heads_row n h : n <= 5 -> ArticleSpec.heading_ok h = true -> row_ok (Head n h) = true.
Proof. exact (ArticleDocProofs.heads_row n h). Qed.
Lemma bodies_rows_ok l : bodies_ok l = true -> forallb row_ok (bodies_rows l) = true.
Proof. intros H. apply andb_true_iff in H as [H _]. apply (spread_ok None); [|exact H]. clear. induction l; constructor; [apply body_rows_ok|assumption]. Qed.
Lemma section_parts n h l subs : section_ok n (Sec h l subs) = true -> n <= 5 /\ ArticleSpec.heading_ok h = true /\ bodies_ok l = true /\ forallb (section_ok (S n)) subs = true.
Proof. intros H. cbn [section_ok] in H. apply andb_true_iff in H as [H S]. apply andb_true_iff in H as [H B]. apply andb_true_iff in H as [N H]. now apply Nat.leb_le in N. Qed.
Lemma sec_rows_ok : forall s n, section_ok n s = true -> forallb row_ok (sec_rows n s) = true.
Proof.
  induction s as [h l subs IH] using section_rect'. intros n H. apply section_parts in H as (N & H & B & S). cbn [sec_rows]. cbn [forallb]. rewrite (heads_row n h N H). change (row_ok (Text [])) with true. cbn [andb]. rewrite forallb_app, (bodies_rows_ok l B). cbn [andb].
  induction IH as [|s subs I _ IHs]; [reflexivity|]. cbn [forallb] in S. apply andb_true_iff in S as [S1 S]. cbn [flat_map]. rewrite forallb_app, (I _ S1). now apply IHs.
Qed.
Lemma secs_rows_ok l n : forallb (section_ok n) l = true -> forallb row_ok (flat_map (sec_rows n) l) = true.
Proof. induction l as [|s l IH]; [auto|]. cbn [forallb flat_map]. intros H. apply andb_true_iff in H as [S H]. rewrite forallb_app, (sec_rows_ok s n S). now apply IH. Qed.
Lemma manual_parts m : manual_ok m = true -> (forall t, title m = Some t -> ArticleSpec.heading_ok t = true) /\ bodies_ok (intro m) = true /\ forallb (section_ok 1) (sections m) = true.
Proof. unfold manual_ok. intros H. apply andb_true_iff in H as [H S]. apply andb_true_iff in H as [T I]. split; [|now split]. intros t E. now rewrite E in T. Qed.
Lemma below_ok m : manual_ok m = true -> forallb row_ok (below_title m) = true.
Proof. intros H. apply manual_parts in H as (_ & I & S). unfold below_title. rewrite forallb_app, (bodies_rows_ok _ I). now apply secs_rows_ok. Qed.
Lemma tl_ok rs : forallb row_ok rs = true -> forallb row_ok (tl rs) = true.
Proof. destruct rs; [auto|]. cbn [forallb tl]. intros H. now apply andb_true_iff in H. Qed.
Lemma all_rows_ok m : manual_ok m = true -> forallb row_ok (all_rows m) = true.
Proof.
  intros H. pose proof (below_ok m H) as B. apply manual_parts in H as (T & _). unfold all_rows. destruct (title m) as [t|]; [|destruct (intro m); [now apply tl_ok|exact B]]. cbn [forallb]. rewrite (heads_row 0 t ltac:(lia) (T t eq_refl)), B. reflexivity.
Qed.

(** ** How many steps they take *)
Fixpoint weight (s : section) : nat := match s with Sec h l subs => 4 + costs (bodies_elems l) + list_sum (map weight subs) end.
Lemma bodies_cost l : bodies_ok l = true -> costs (bodies_elems l) <= 5 * length (bodies_rows l).
Proof. intros H. pose proof (costs_rows _ _ _ _ (runs_doc l H)) as C. cbn [length] in C. unfold bodies_elems, bodies_rows. lia. Qed.
Lemma sec_weight : forall s n, section_ok n s = true -> 6 + weight s <= 5 * length (sec_rows n s).
Proof.
  induction s as [h l subs IH] using section_rect'. intros n OK. apply section_parts in OK as (_ & _ & B & OS). cbn [weight sec_rows length]. rewrite app_length. pose proof (bodies_cost l B) as C.
  assert (S : list_sum (map weight subs) <= 5 * length (flat_map (sec_rows (S n)) subs)).
  { clear - IH OS. induction IH as [|s subs I _ IHs]; [cbn; lia|]. cbn [forallb] in OS. apply andb_true_iff in OS as [O1 OS]. cbn [map flat_map list_sum fold_right]. rewrite app_length. specialize (I (S n) O1). specialize (IHs OS). unfold list_sum in IHs. lia. }
  lia.
Qed.
Lemma secs_weight l n : forallb (section_ok n) l = true -> (match l with [] => 0 | _ => 6 end) + list_sum (map weight l) <= 5 * length (flat_map (sec_rows n) l).
Proof.
  induction l as [|s l IH]; [cbn; lia|]. cbn [forallb]. intros H. apply andb_true_iff in H as [S H]. cbn [map flat_map list_sum fold_right]. rewrite app_length. pose proof (sec_weight s n S). specialize (IH H). unfold list_sum in IH. lia.
Qed.

(** ** Headings *)
Inductive sect_for : nat -> sect -> section -> Prop :=
| Sect_for n h l subs ns bs ys : AB.head_for ns h -> Forall2 elem_for (bodies_elems l) bs -> Forall2 (sect_for (S n)) ys subs -> sect_for n (Sect no_meta n ns (bs ++ map BSection ys)) (Sec h l subs).
Notation at_level lv := (hereat (None, lv) []).
Notation has lv := (holds (None, lv) []).
Section Parse.
Variables (P : params) (author_set revision_line : iline -> bool).
Hypothesis no_subs : forall x, custom_subs P [] x = x.
Hypothesis no_offset : forall n, n <= 5 -> adjust P n = n.
Lemma read_head lv s n h rest : has lv s (Head n h :: rest) -> exists ln g l, read_lines s = (ln :: g, at_level lv l []) /\ AB.of_head ln (n, h) /\ has lv (at_level lv l (ln :: g)) (Head n h :: rest) /\ forall lv', has lv' (at_level lv' l g) rest.
Proof.
  intros H. apply read_holds in H as [[S _]|(g & rr & rs' & l & R & F & NE & U & B & E)]; [discriminate S|]. destruct F as [|ln r g rr RL F]; [easy|]. cbn [skip_rows app] in E. injection E as <- E. exists ln, g, l. split; [exact R|]. split; [exact RL|]. split.
  - apply (put_back _ _ l (ln :: g) (Head n h :: rr) rs'); auto. cbn [app]. now rewrite <- E.
  - intros lv'. apply (holds_put _ _ l g rr rs'); auto. now rewrite E.
Qed.
Lemma meta_head lv ln n h g l : AB.of_head ln (n, h) -> chunk_meta P (ln :: g) (at_level lv l []) = Yes (no_meta, ln :: g) (at_level lv l []).
Proof. exact (AB.meta_head P no_offset lv ln n h g l). Qed.
(** where the blocks of a section end *)
Definition stop (lv : nat) (rs : list row) : Prop := match rs with [] => True | Text [] :: Head n _ :: _ => n < 2 \/ n <= lv | _ => False end.
Lemma block_head (rec : parser) lv s n h rest : has lv s (Head n h :: rest) ->
  exists ln g l, has lv (at_level lv l (ln :: g)) (Head n h :: rest) /\
    block P rec s = if (n <? 2) || (n <=? lv) then Yes None (at_level lv l (ln :: g)) else take (y, s) := BlockModel.section P rec (at_level lv l (ln :: g)) in match y with Some z => Yes (Some (BSection z)) s | None => Panics end.
Proof.
  intros H. apply read_head in H as (ln & g & l & R & OH & H & _). exists ln, g, l. split; [exact H|]. unfold block. rewrite R. destruct (AB.head_facts P no_offset ln n h OH) as (_ & _ & _ & _ & CM & _). cbn [comment_block]. rewrite CM, (meta_head lv ln n h g l OH). cbn [bind fst snd].
  rewrite (AB.start_head P no_offset ln n h g OH). change (delim (at_level lv l [])) with (@None delimiter). cbn [is_some]. rewrite andb_false_r. change (restore_peeked P (ln :: g) no_meta (at_level lv l [])) with (Yes tt (at_level lv l (ln :: g))). cbn [bind]. change (level (at_level lv l (ln :: g))) with lv.
  destruct ((n <? 2) || (n <=? lv)); reflexivity.
Qed.
Lemma block_over (rec : parser) lv s rs : has lv s rs -> stop lv rs -> exists s', block P rec s = Yes None s' /\ has lv s' rs.
Proof.
  intros H O. destruct rs as [|r rs].
  - exists (at_level lv [] []). split; [|now apply holds_over]. apply read_holds in H as [[_ R]|(g & rr & rs' & l & R & F & NR & U & B & E)]; [unfold block; now rewrite R|]. destruct rr; [easy|discriminate E].
  - destruct r as [[|i x]|k n x|b|n x]; cbn [stop] in O; try easy. destruct rs as [|[x|k n x|b|n h] rs]; try easy. apply (holds_skip _ _ _ _ (Head n h :: rs)) in H; [|reflexivity]. destruct (block_head rec lv s n h rs H) as (ln & g & l & H1 & B). exists (at_level lv l (ln :: g)). split; [|now apply (holds_skip _ _ _ (Head n h :: rs))].
    rewrite B. replace ((n <? 2) || (n <=? lv)) with true; [reflexivity|]. symmetry. apply orb_true_iff. destruct O; [left; now apply Nat.ltb_lt|right; now apply Nat.leb_le].
Qed.
Lemma peek_head (rec : parser) lv s n h rest : has lv s (Head n h :: rest) -> exists ln g l, peek_section P rec s = Yes (Some (Peeked no_meta (ln :: g) n n)) (at_level lv l []) /\ AB.of_head ln (n, h) /\ has lv (at_level lv l (ln :: g)) (Head n h :: rest) /\ forall lv', has lv' (at_level lv' l g) rest.
Proof.
  intros H. apply read_head in H as (ln & g & l & R & OH & H1 & H2). exists ln, g, l. split; [|auto]. unfold peek_section. rewrite R. destruct (AB.head_facts P no_offset ln n h OH) as (L & _ & _ & _ & CM & _). cbn [drop_comments]. rewrite CM, (meta_head lv ln n h g l OH). cbn [bind fst snd]. now rewrite L.
Qed.
Lemma holds_level lv lv' s rs : has lv s rs -> has lv' (with_level lv' (with_bib NoBib s)) rs.
Proof. intros (l & g & rr & rs' & -> & F). exists l, g, rr, rs'. split; [reflexivity|exact F]. Qed.
(** a section whose heading was peeked, given what is made of the blocks below it *)
Lemma to_section (rec : parser) lv ln g l n h rs bs s' : AB.of_head ln (n, h) -> n <= S lv -> rec _ BlockLoop (at_level n l g) = Yes bs s' -> has n s' rs ->
  exists ns s'', peeked_to_section P rec (Peeked no_meta (ln :: g) n n) (at_level lv l []) = Yes (Sect no_meta n ns bs) s'' /\ AB.head_for ns h /\ has lv s'' rs.
Proof.
  intros OH LE R H. pose proof OH as (M & O & N & HL & i & j & p & T). cbn [fst snd] in *. unfold peeked_to_section. cbn [ps_lines semantic ps_meta].
  assert (HT : heading_text ln = Ret (adv ln (lay p (Some " "%char) (line_pieces h)))) by (unfold heading_text; rewrite T; reflexivity). rewrite HT. change (level (at_level lv l [])) with lv.
  replace ((lv <? n) && (1 <? n - lv)) with false. 2:{ symmetry. apply andb_false_iff. destruct (Nat.ltb_spec lv n); [right; apply Nat.ltb_ge; lia|now left]. }
  change (with_level n (at_level lv l [])) with (at_level n l []). unfold inlines. change (ist (at_level n l [])) with (start normal).
  destruct (AB.parse_heading (env_of P (at_level n l [])) (start normal) (adv ln (lay p (Some " "%char) (line_pieces h))) h p (Some " "%char) (AB.stops_free P n l []) ltac:(repeat split) HL M eq_refl ltac:(right; left; reflexivity)) as (ns & HF & E).
  { cbn [toks adv orig]. rewrite O, T. cbn [length]. lia. }
  rewrite E. cbn [bind fst]. change (with_ist (start normal) (at_level n l [])) with (at_level n l []). change (positional_at 0 no_meta) with (@None bytes). cbn iota. change (restore_lines P g (at_level n l [])) with (Yes tt (at_level n l g)). cbn [bind]. rewrite R. cbn [bind].
  exists ns, (with_level lv (with_bib NoBib s')). split; [reflexivity|]. split; [exact HF|]. now apply (holds_level n).
Qed.
Lemma run_block_loop n s : run (S (S n)) P _ BlockLoop s = (take (b, s) := block P (run n P) s in one_more (run (S n) P) BlockLoop b s).
Proof. reflexivity. Qed.

(** ** Sections *)
(** the blocks below a heading, up to the next one *)
Definition next (T : list row) : list row := match T with Text [] :: r => r | _ => T end.
Lemma runs_to lv l T : bodies_ok l = true -> stop lv T -> runs None (bodies_rows l ++ T) (bodies_elems l) (next T).
Proof.
  intros H O. apply andb_true_iff in H as [H1 H2]. rewrite <- (app_nil_r (bodies_elems l)). unfold bodies_elems, bodies_rows. apply runs_bodies; [|exact H1|exact H2| |].
  - clear. induction l; constructor; [apply body_reads|assumption].
  - destruct T as [|[[|]| | |] [|[] ?]]; easy.
  - destruct T as [|[[|i x]|k n x|b|n x] T]; cbn [stop] in O; try easy; [constructor|]. destruct T as [|[x|k n x|b|n h] T]; try easy. cbn [next]. apply runs_blank. apply runs_head.
Qed.
Lemma skip_next T : skip_rows (next T) = skip_rows T.
Proof. now destruct T as [|[[|i x]|k n x|b|n x] T]. Qed.
Lemma secs_stop lv n l R : n <= lv -> stop lv R -> stop lv (flat_map (sec_rows n) l ++ R).
Proof. intros N O. destruct l as [|[h b subs] l]; [exact O|]. cbn [flat_map sec_rows app stop]. now right. Qed.
Lemma loop_sections : forall n lv l subs R s, 1 <= lv -> 2 + costs (bodies_elems l) + list_sum (map weight subs) <= n -> has lv s (bodies_rows l ++ flat_map (sec_rows (S lv)) subs ++ R) ->
  bodies_ok l = true -> forallb (section_ok (S lv)) subs = true -> stop lv R ->
  exists bs ys s', run n P _ BlockLoop s = Yes (bs ++ map BSection ys) s' /\ Forall2 elem_for (bodies_elems l) bs /\ Forall2 (sect_for (S lv)) ys subs /\ has lv s' R.
Proof.
  induction n as [n IH] using lt_wf_ind. intros lv l subs R s LV W H OK OS O.
  assert (RR : runs None (bodies_rows l ++ flat_map (sec_rows (S lv)) subs ++ R) (bodies_elems l) (next (flat_map (sec_rows (S lv)) subs ++ R))).
  { apply (runs_to (S lv)); [exact OK|]. apply secs_stop; [lia|]. destruct R as [|[[|i x]|k m x|b|m x] R]; cbn [stop] in *; try easy. destruct R as [|[x|k m x|b|m h] R]; try easy. destruct O; [now left|right; lia]. }
  destruct (loop_rows P no_subs lv _ _ _ _ RR s n H ltac:(lia)) as (bs & s1 & H1 & F1 & K). pose proof (length_costs (bodies_elems l)) as LC. set (m := n - length (bodies_elems l)) in *.
  assert (WM : 2 + list_sum (map weight subs) <= m) by lia. assert (MN : m <= n) by lia. clearbody m. apply (holds_skip _ _ _ _ _ (skip_next _)) in H1. clear RR LC.
  enough (G : exists ys s', run m P _ BlockLoop s1 = Yes (map BSection ys) s' /\ Forall2 (sect_for (S lv)) ys subs /\ has lv s' R) by (destruct G as (ys & s' & RB & F2 & H2); exists bs, ys, s'; split; [now apply K|auto]).
  clear K F1 bs H s W OK. destruct m as [|[|m]]; [lia..|]. rewrite run_block_loop. destruct subs as [|[h b subs'] subs].
  - cbn [flat_map app] in H1. destruct (block_over (run m P) lv s1 R H1 O) as (s' & B & H'). exists [], s'. split; [rewrite B; reflexivity|]. split; [constructor|exact H'].
  - cbn [flat_map app sec_rows] in H1. cbn [map list_sum fold_right weight] in WM. rewrite <- !app_assoc in H1. change (fold_right Nat.add 0 (map weight subs)) with (list_sum (map weight subs)) in WM. change (fold_right Nat.add 0 (map weight subs')) with (list_sum (map weight subs')) in WM.
    cbn [forallb] in OS. apply andb_true_iff in OS as [OS1 OS]. apply section_parts in OS1 as (N & HK & OB & OS1). apply (holds_skip _ _ _ _ (Head (S lv) h :: bodies_rows b ++ flat_map (sec_rows (S (S lv))) subs' ++ flat_map (sec_rows (S lv)) subs ++ R)) in H1; [|reflexivity].
    destruct (block_head (run m P) lv s1 _ _ _ H1) as (ln & g & l0 & HP & LB). rewrite LB. clear LB. replace ((S lv <? 2) || (S lv <=? lv)) with false by (symmetry; apply orb_false_iff; split; [apply Nat.ltb_ge; lia|apply Nat.leb_gt; lia]).
    destruct m as [|m]; [lia|]. destruct (peek_head (run m P) lv _ _ _ _ HP) as (ln' & g' & l' & PK & OH & _ & HR). unfold BlockModel.section. change (run (S m) P _ Peek (at_level lv l0 (ln :: g))) with (peek_section P (run m P) (at_level lv l0 (ln :: g))). rewrite PK. cbn [bind semantic]. change (S lv =? 0) with false. cbn iota.
    set (rest2 := flat_map (sec_rows (S lv)) subs ++ R) in *.
    assert (OV : stop (S lv) rest2). { unfold rest2. apply secs_stop; [lia|]. destruct R as [|[[|i x]|k q x|b0|q x] R]; cbn [stop] in *; try easy. destruct R as [|[x|k q x|b0|q k] R]; try easy. destruct O; [now left|right; lia]. }
    destruct (IH (S m) ltac:(lia) (S lv) b subs' rest2 (at_level (S lv) l' g') ltac:(lia) ltac:(lia) (HR (S lv)) OB OS1 OV) as (bs & ys & s2 & R1 & F1 & F2 & H2).
    destruct (to_section (run (S m) P) lv ln' g' l' (S lv) h rest2 _ s2 OH ltac:(lia) R1 H2) as (ns & s3 & TS & HF & H3). rewrite TS. cbn [bind one_more].
    destruct (IH (S (S m)) ltac:(lia) lv [] subs R s3 LV ltac:(change (costs (bodies_elems [])) with 0; lia) H3 eq_refl OS O) as (bs2 & ys2 & s4 & R3 & F3 & F4 & H4). inversion F3; subst. rewrite R3. cbn [bind app].
    exists (Sect no_meta (S lv) ns (bs ++ map BSection ys) :: ys2), s4. split; [reflexivity|]. split; [|exact H4]. constructor; [now constructor|exact F4].
Qed.
(** what is before the first section *)
Lemma loop_intro l T s n : has 0 s (bodies_rows l ++ T) -> bodies_ok l = true -> stop 0 T -> costs (bodies_elems l) + 2 <= n -> exists bs s', run n P _ BlockLoop s = Yes bs s' /\ Forall2 elem_for (bodies_elems l) bs /\ has 0 s' T.
Proof.
  intros H OK O L. destruct (loop_rows P no_subs 0 _ _ _ _ (runs_to 0 l T OK O) s n H L) as (bs & s1 & H1 & F & K). pose proof (length_costs (bodies_elems l)) as LC. apply (holds_skip _ _ _ _ _ (skip_next _)) in H1. destruct (n - length (bodies_elems l)) as [|[|m]] eqn:M; [lia..|].
  destruct (block_over (run m P) 0 s1 T H1 O) as (s' & B & H'). exists (bs ++ []), s'. rewrite app_nil_r at 2. split; [|now split]. apply K. rewrite run_block_loop, B. reflexivity.
Qed.
Lemma section_loop : forall subs n s, 2 + list_sum (map weight subs) <= n -> has 0 s (flat_map (sec_rows 1) subs) -> forallb (section_ok 1) subs = true -> exists ys s', run n P _ SectionLoop s = Yes ys s' /\ Forall2 (sect_for 1) ys subs /\ has 0 s' [].
Proof.
  induction subs as [|[h b subs'] subs IH]; intros n s W H OS; (destruct n as [|[|n]]; [lia..|]);
    change (run (S (S n)) P _ SectionLoop s) with (take (x, s) := BlockModel.section P (run (S n) P) s in one_more (run (S n) P) SectionLoop x s); unfold BlockModel.section; change (run (S n) P _ Peek s) with (peek_section P (run n P) s).
  - cbn [flat_map] in H. apply read_holds in H as [[_ R]|(g & rr & rs' & l & R & F & NR & U & B & E)]; [|destruct rr; [easy|discriminate E]]. exists [], (at_level 0 [] []). split; [|split; [constructor|now apply holds_over]]. unfold peek_section. now rewrite R.
  - cbn [map flat_map sec_rows app] in H. cbn [map list_sum fold_right weight] in W. rewrite <- !app_assoc in H. change (fold_right Nat.add 0 (map weight subs)) with (list_sum (map weight subs)) in W. change (fold_right Nat.add 0 (map weight subs')) with (list_sum (map weight subs')) in W.
    cbn [forallb] in OS. apply andb_true_iff in OS as [OS1 OS]. apply section_parts in OS1 as (N & HK & OB & OS1). apply (holds_skip _ _ _ _ (Head 1 h :: bodies_rows b ++ flat_map (sec_rows 2) subs' ++ flat_map (sec_rows 1) subs)) in H; [|reflexivity].
    destruct (peek_head (run n P) 0 _ _ _ _ H) as (ln & g & l & PK & OH & _ & HR). rewrite PK. cbn [bind semantic Nat.eqb].
    assert (OV : stop 1 (flat_map (sec_rows 1) subs)) by (rewrite <- (app_nil_r (flat_map _ _)); apply secs_stop; [lia|exact I]).
    destruct (loop_sections (S n) 1 b subs' (flat_map (sec_rows 1) subs) (at_level 1 l g) (le_n 1) ltac:(lia) (HR 1) OB OS1 OV) as (bs & ys & s1 & R1 & F1 & F2 & H1).
    destruct (to_section (run (S n) P) 0 ln g l 1 h _ _ s1 OH (le_n 1) R1 H1) as (ns & s2 & TS & HF & H2). rewrite TS. cbn [bind one_more]. destruct (IH (S n) s2 ltac:(lia) H2 OS) as (ys2 & s3 & R3 & F3 & H3). rewrite R3. cbn [bind].
    exists (Sect no_meta 1 ns (bs ++ map BSection ys) :: ys2), s3. split; [reflexivity|]. split; [|exact H3]. constructor; [now constructor|exact F3].
Qed.

(** ** The document *)
Lemma starts_holds rs : forallb row_ok rs = true -> has 0 (at_level 0 (rows_at 0 None rs) []) rs.
Proof. intros OK. exists (rows_at 0 None rs), [], [], rs. split; [reflexivity|]. split; [constructor|]. split; [exists 0, None; repeat split; [now left|exact OK]|]. split; [easy|reflexivity]. Qed.
(** without a title: what the header reads is put back *)
Lemma header_none s rs : has 0 s rs -> peeked s = [] -> match skip_rows rs with Head 0 _ :: _ => False | _ => True end ->
  exists s', document_header P author_set revision_line s = Yes (Header None None None []) s' /\ has 0 s' rs.
Proof.
  intros H PK NT. destruct (skip_rows rs) as [|r rest] eqn:S; [now apply OD.header_rows; [rewrite S; exact I| |]|]. destruct r as [x|k n x|b|n h]; [now apply OD.header_rows; [rewrite S; exact I| |]..|].
  assert (H' : has 0 s (Head n h :: rest)) by (apply (holds_skip _ _ _ rs); [exact S|exact H]). destruct (read_head 0 s n h rest H') as (ln & g & l & R & OH & HP & _). unfold document_header. cbn [front]. rewrite R. destruct (AB.head_facts P no_offset ln n h OH) as (L & _ & AL & AN & CM & _ & AD & CD & _). cbn [drop_comments]. rewrite CM, AD, CD. cbn [bind fst snd is_doc_header].
  rewrite L. exists (at_level 0 l (ln :: g)). split; [|now apply (holds_skip _ _ _ (Head n h :: rest)); [rewrite S|]]. destruct n as [|n]; [easy|]. rewrite CM, AL, AN. cbn [orb]. rewrite AD. reflexivity.
Qed.
Lemma group_stops p prev rs : group (rows_at p prev (Text [] :: rs)) = ([], rows_at p prev (Text [] :: rs)).
Proof. destruct rs; reflexivity. Qed.
Lemma header_title t rs : ArticleSpec.heading_ok t = true -> forallb row_ok rs = true ->
  exists ns s', document_header P author_set revision_line (at_level 0 (rows_at 0 None (Head 0 t :: Text [] :: rs)) []) = Yes (Header (Some (no_meta, ns)) None None []) s' /\ AB.head_for ns t /\ has 0 s' rs.
Proof.
  intros HK OK. assert (RK : row_ok (Head 0 t) = true) by (apply heads_row; [lia|exact HK]). assert (HL : AB.heads_line t) by (cbn [row_ok Nat.leb andb] in RK; destruct t; [discriminate RK|split; [discriminate|exact RK]]).
  pose proof (AB.of_head_lay 0 t 0 None ltac:(lia) HL) as OH. rewrite rows_at_cons. set (p2 := 0 + length (row_source (Head 0 t)) + 1). set (l2 := rows_at p2 (Some LF) (Text [] :: rs)). change (lay 0 None (row_pieces (Head 0 t))) with (lay 0 None (AL.row_pieces (AL.Head 0 t))). set (ln := InlineSpec.line_of (lay 0 None (AL.row_pieces (AL.Head 0 t)))) in *.
  assert (R : read_lines (at_level 0 (lay 0 None (AL.row_pieces (AL.Head 0 t)) :: l2) []) = ([ln], at_level 0 l2 [])).
  { unfold read_lines. cbn [peeked OutlineBlockProofs.hereat src skip_empty]. rewrite AB.head_emptyish. unfold l2 at 1. rewrite group_stops. reflexivity. }
  unfold document_header. cbn [front]. rewrite R. destruct (AB.head_facts P no_offset ln 0 t OH) as (L & _ & AL & AN & CM & _ & AD & CD & _). cbn [drop_comments]. rewrite CM, AD, CD. cbn [bind fst snd is_doc_header]. rewrite L.
  replace (skip_attrs [ln]) with [ln] by (cbn [skip_attrs]; rewrite ?AD, ?CM; reflexivity). unfold title_author_revision. rewrite (meta_head 0 ln 0 t [] l2 OH). cbn [bind fst snd]. rewrite L.
  destruct OH as (M & O & _ & _ & i & j & p & T). cbn [fst snd] in *. assert (TT : title_text ln = Ret (adv ln (lay p (Some " "%char) (line_pieces t)))) by (unfold title_text; rewrite T; reflexivity). rewrite TT.
  unfold inlines. change (ist (at_level 0 l2 [])) with (start normal).
  destruct (AB.parse_heading (env_of P (at_level 0 l2 [])) (start normal) (adv ln (lay p (Some " "%char) (line_pieces t))) t p (Some " "%char) (AB.stops_free P 0 l2 []) ltac:(repeat split) HL M eq_refl ltac:(right; left; reflexivity)) as (ns & HF & E).
  { cbn [toks adv orig]. rewrite O, T. cbn [length]. lia. }
  rewrite E. cbn [bind fst]. change (with_ist (start normal) (at_level 0 l2 [])) with (at_level 0 l2 []). cbn [first_line]. cbn [bind]. exists ns, (at_level 0 l2 []). split; [reflexivity|]. split; [exact HF|].
  exists l2, [], [], (Text [] :: rs). split; [reflexivity|]. split; [constructor|]. split; [|split; [easy|reflexivity]]. exists p2, (Some LF). repeat split; auto. right. right. reflexivity.
Qed.
Lemma secs_over l : stop 0 (flat_map (sec_rows 1) l).
Proof. destruct l as [|[h b subs] l]; cbn [flat_map sec_rows app stop]; [exact I|]. left. lia. Qed.
Lemma not_over l g ln : has 0 (at_level 0 l (ln :: g)) [] -> False.
Proof. intros (l0 & g0 & rr & rs' & E & F & _ & _ & S). injection E as <- <-. inversion F as [|? r ? rr2 RL F2]; subst. rewrite (skip_full (ln :: g) _ _ F ltac:(discriminate)) in S. discriminate S. Qed.
(** in an article, and in a book with nothing before the first section *)
Lemma manual_document s l subs n : has 0 s (bodies_rows l ++ flat_map (sec_rows 1) subs) -> bodies_ok l = true -> forallb (section_ok 1) subs = true -> book P = false \/ l = [] -> 5 + costs (bodies_elems l) + list_sum (map weight subs) <= n ->
  exists bs ys c s', document n P s = Yes c s' /\ (c = Sections bs ys \/ ys = [] /\ c = Blocks bs) /\ Forall2 elem_for (bodies_elems l) bs /\ Forall2 (sect_for 1) ys subs /\ has 0 s' [].
Proof.
  intros H OB OS BK N. unfold document. destruct n as [|[|[|n]]]; [lia..|]. set (m := S (S n)) in *. change (run (S m) P _ Book ?s) with (parse_book P (run m P) s). unfold parse_book.
  assert (SE : forall m s, 4 + costs (bodies_elems l) + list_sum (map weight subs) <= m -> has 0 s (bodies_rows l ++ flat_map (sec_rows 1) subs) -> exists bs ys s', sectioned (run m P) s = Yes (bs, ys) s' /\ Forall2 elem_for (bodies_elems l) bs /\ Forall2 (sect_for 1) ys subs /\ has 0 s' []).
  { clear s H m N. intros m s N H. destruct (loop_intro l _ s m H OB (secs_over subs) ltac:(lia)) as (bs & s1 & R1 & F1 & H1). destruct (section_loop subs m s1 ltac:(lia) H1 OS) as (ys & s2 & R2 & F2 & H2).
    exists bs, ys, s2. split; [|now repeat split]. unfold sectioned. rewrite R1. cbn [bind]. now rewrite R2. }
  destruct (book P); cbn [negb bind].
  - destruct BK as [BK| ->]; [discriminate BK|]. change (bodies_rows [] ++ ?x) with x in *. change (costs (bodies_elems [])) with 0 in *.
    assert (PK : forall k s, has 0 s (flat_map (sec_rows 1) subs) -> (subs = [] /\ run (S k) P _ Peek s = Yes None (at_level 0 [] [])) \/
                   exists ln g l h, run (S k) P _ Peek s = Yes (Some (Peeked no_meta (ln :: g) 1 1)) (at_level 0 l []) /\ has 0 (at_level 0 l (ln :: g)) (flat_map (sec_rows 1) subs) /\ AB.of_head ln (1, h)).
    { clear - no_offset. intros k s H. change (run (S k) P _ Peek s) with (peek_section P (run k P) s). destruct subs as [|[h b subs'] subs].
      - left. split; [reflexivity|]. cbn [flat_map] in H. apply read_holds in H as [[_ R]|(g & rr & rs' & l & R & F & NR & U & B & E)]; [|destruct rr; [easy|discriminate E]]. unfold peek_section. now rewrite R.
      - right. cbn [flat_map sec_rows app] in H |- *. apply (holds_skip _ _ _ _ (Head 1 h :: (bodies_rows b ++ flat_map (sec_rows 2) subs') ++ flat_map (sec_rows 1) subs)) in H; [|reflexivity]. destruct (peek_head (run k P) 0 _ _ _ _ H) as (ln & g & l & PK & OH & HP & _). exists ln, g, l, h. split; [exact PK|]. split; [|exact OH]. revert HP. now apply holds_skip. }
    (* nothing special at the start *)
    assert (SP : exists s1, run m P _ SpecialLoop s = Yes [] s1 /\ has 0 s1 (flat_map (sec_rows 1) subs)).
    { change (run m P _ SpecialLoop s) with (take (x, s) := special_sect P (run (S n) P) s in one_more (run (S n) P) SpecialLoop x s). unfold special_sect. destruct (PK n s H) as [[-> ->]|(ln & g & l & h & -> & HP & OH)].
      - exists (at_level 0 [] []). split; [reflexivity|now apply holds_over].
      - exists (at_level 0 l (ln :: g)). split; [|exact HP]. cbn [bind]. change (special P (Peeked no_meta (ln :: g) 1 1)) with false. reflexivity. }
    destruct SP as (s1 & -> & H1). cbn [bind]. rewrite andb_false_r. unfold book_part. destruct (PK (S n) s1 H1) as [[-> R1]|(ln & g & l & h & R1 & HP & OH)].
    + change (run m P _ Peek s1) with (run (S (S n)) P _ Peek s1). rewrite R1. cbn [bind]. change (run m P _ Peek (at_level 0 [] [])) with (Yes (@None peeked_section) (at_level 0 [] [])). cbn [bind]. exists [], [], (Blocks []), (at_level 0 [] []).
      split; [reflexivity|]. split; [now right|]. split; [constructor|]. split; [constructor|now apply holds_over].
    + change (run m P _ Peek s1) with (run (S (S n)) P _ Peek s1). rewrite R1. cbn [bind authored Nat.eqb negb orb ps_lines ps_meta]. change (restore_peeked P (ln :: g) no_meta (at_level 0 l [])) with (Yes tt (at_level 0 l (ln :: g))). cbn [bind].
      destruct (PK (S n) _ HP) as [[E R2]|(ln2 & g2 & l2 & h2 & R2 & HP2 & OH2)].
      * subst subs. exfalso. exact (not_over _ _ _ HP).
      * change (run m P _ Peek (at_level 0 l (ln :: g))) with (run (S (S n)) P _ Peek (at_level 0 l (ln :: g))). rewrite R2. cbn [bind ps_lines ps_meta]. change (restore_peeked P (ln2 :: g2) no_meta (at_level 0 l2 [])) with (Yes tt (at_level 0 l2 (ln2 :: g2))). cbn [bind].
        destruct (SE m _ ltac:(lia) HP2) as (bs & ys & s3 & R3 & F1 & F2 & H3). rewrite R3. exists bs, ys, (Sections bs ys), s3. split; [reflexivity|]. split; [now left|]. now repeat split.
  - destruct (SE (S m) s ltac:(lia) H) as (bs & ys & s' & R & F1 & F2 & H'). rewrite R. exists bs, ys, (Sections bs ys), s'. split; [reflexivity|]. split; [now left|]. now repeat split.
Qed.
Lemma no_title_first m : title m = None -> match skip_rows (below_title m) with Head 0 _ :: _ => False | _ => True end -> has 0 (at_level 0 (rows_at 0 None (all_rows m)) []) (below_title m) ->
  exists s1, document_header P author_set revision_line (at_level 0 (rows_at 0 None (all_rows m)) []) = Yes (Header None None None []) s1 /\ has 0 s1 (below_title m).
Proof. intros T NT H. exact (header_none _ _ H eq_refl NT). Qed.
Lemma below_first m : manual_ok m = true -> match skip_rows (below_title m) with Head 0 _ :: _ => False | _ => True end.
Proof.
  intros OK. pose proof (manual_parts m OK) as (_ & OI & OS). unfold below_title. assert (NR : runs None (bodies_rows (intro m) ++ flat_map (sec_rows 1) (sections m)) (bodies_elems (intro m)) (next (flat_map (sec_rows 1) (sections m)))) by (apply (runs_to 0); [exact OI|apply secs_over]).
  assert (G : forall o rs els R, runs o rs els R -> match R with Head 0 _ :: _ => False | _ => True end -> match skip_rows rs with Head 0 _ :: _ => False | _ => True end).
  { clear. induction 1 as [|n h R|b R|o rs els R RR IH|o par rs els R NE TL BF RR IH|o k e es rs els R OK A RR IH|o b rs els1 R1 els R AI OP RR1 IH1 RR IH|o b ls R1 els R AI OP OL RR IH]; intros E; [exact I|exact E|exact I|now apply IH| | |exact I..].
    - destruct TL as [|l par [NL _] TL]; [easy|]. now destruct l.
    - rewrite rows_cons, <- app_assoc. now destruct (entry_skip k 1 e (rows_of k 1 es ++ rs)) as (f & more & k' & subs & _ & ->). }
  apply (G _ _ _ _ NR). destruct (sections m) as [|[h b subs] l]; exact I.
Qed.
Definition title_for := ArticleDocProofs.title_for.
Definition header_for (o : option (list inode)) : header := Header (match o with Some ns => Some (no_meta, ns) | None => None end) None None [].
Lemma whole_run plugins m : manual_ok m = true -> book P = false \/ intro m = [] ->
  exists ls o bs ys c s', lex plugins (source m) = Some ls /\ whole_document P author_set revision_line (enough_steps ls) (fresh normal ls) = Yes (header_for o, c) s' /\ has 0 s' [] /\
    title_for o (title m) /\ (c = Sections bs ys \/ ys = [] /\ c = Blocks bs) /\ Forall2 elem_for (bodies_elems (intro m)) bs /\ Forall2 (sect_for 1) ys (sections m).
Proof.
  intros OK BK. pose proof (below_ok m OK) as BO. pose proof (all_rows_ok m OK) as AO. pose proof (manual_parts m OK) as (TK & OI & OS).
  assert (SR : source m = rows_source (all_rows m)) by (unfold source, rows_source; now rewrite manual_rows).
  rewrite SR, (lex_rows plugins _ AO). set (rs := all_rows m) in *. exists (rows_at 0 None rs). set (n := enough_steps (rows_at 0 None rs)). change (fresh normal (rows_at 0 None rs)) with (at_level 0 (rows_at 0 None rs) []).
  assert (N : 5 + costs (bodies_elems (intro m)) + list_sum (map weight (sections m)) <= n).
  { pose proof (secs_weight (sections m) 1 OS) as SW. pose proof (bodies_cost (intro m) OI) as BC. pose proof (OD.many_rows rs 0 None) as MR. unfold n, enough_steps.
    assert (L : costs (bodies_elems (intro m)) + list_sum (map weight (sections m)) <= 5 * length rs).
    { unfold rs, all_rows, below_title. destruct (title m); [cbn [length]; rewrite app_length; lia|]. destruct (intro m) as [|b0 l0] eqn:E; [|rewrite app_length; lia]. change (bodies_rows []) with (@nil row). change (costs (bodies_elems [])) with 0. cbn [app].
      destruct (sections m) as [|s l]; [cbn; lia|]. destruct (flat_map (sec_rows 1) (s :: l)) as [|r rs']; cbn [length tl] in *; lia. }
    lia. }
  assert (HD : exists o s1, document_header P author_set revision_line (at_level 0 (rows_at 0 None rs) []) = Yes (Header (match o with Some ns => Some (no_meta, ns) | None => None end) None None []) s1 /\ title_for o (title m) /\ has 0 s1 (below_title m)).
  { pose proof (starts_holds rs AO) as H. unfold rs in *. destruct (title m) as [t|] eqn:T.
    - unfold all_rows. rewrite T. destruct (header_title t (below_title m) (TK t eq_refl) BO) as (ns & s1 & R & HF & H1). exists (Some ns), s1. auto.
    - assert (H' : has 0 (at_level 0 (rows_at 0 None (all_rows m)) []) (below_title m)).
      { revert H. apply holds_skip. unfold all_rows. rewrite T. destruct (intro m) eqn:E; [|reflexivity]. unfold below_title. rewrite E. change (bodies_rows []) with (@nil row). cbn [app]. destruct (sections m) as [|[h b subs] l]; reflexivity. }
      destruct (no_title_first m T (below_first m OK) H') as (s1 & R & H1). exists None, s1. split; [exact R|]. split; [exact I|exact H1]. }
  destruct HD as (o & s1 & R1 & TF & H1). destruct (manual_document s1 _ _ n H1 OI OS BK N) as (bs & ys & c & s2 & R2 & C & F1 & F2 & H2). exists o, bs, ys, c, s2. split; [reflexivity|]. split; [|auto 6]. unfold whole_document. rewrite R1. cbn [bind]. rewrite R2. reflexivity.
Qed.
Lemma whole_manual plugins m : manual_ok m = true -> book P = false \/ intro m = [] ->
  exists o bs ys c, ArticleModel.parse plugins P author_set revision_line (source m) = Some (o, c) /\ title_for o (title m) /\ (c = Sections bs ys \/ ys = [] /\ c = Blocks bs) /\ Forall2 elem_for (bodies_elems (intro m)) bs /\ Forall2 (sect_for 1) ys (sections m).
Proof.
  intros OK BK. destruct (whole_run plugins m OK BK) as (ls & o & bs & ys & c & s' & L & R & _ & T & C & F1 & F2). exists o, bs, ys, c. split; [|auto]. unfold ArticleModel.parse. rewrite L, R. destruct o; reflexivity.
Qed.
End Parse.
