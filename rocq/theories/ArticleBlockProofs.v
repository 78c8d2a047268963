(** What the block parser makes of an article (C70). *)
From Verif Require Import Base Utf8 LexerModel LineModel SubsModel InlineModel InlineSpec BlockModel BlockSpec HeaderModel WholeModel WholeSpec WholeLexProofs WholePieceProofs WholeInlineProofs WholeBlockProofs.
From Verif Require Import ArticleModel ArticleLexProofs.
From Verif Require ArticleSpec.
Import ListNotations.
Open Scope list_scope.
Open Scope nat_scope.

(** ** The lines of headings *)
Definition heads_line (l : line) : Prop := l <> [] /\ forallb item_ok l = true.
Definition of_head (ln : iline) (h : nat * line) : Prop :=
  mild ln /\ orig ln = length (toks ln) /\ fst h <= 5 /\ heads_line (snd h) /\
  exists i j p, toks ln = TokI EqualSigns (marks (fst h)) i :: TokI Whitespace ($" ") j :: lay p (Some " "%char) (line_pieces (snd h)).
Definition line_kinds : list kind := EqualSigns :: ordinary.
Lemma line_of_kinds ts : forallb (fun t => existsb (kind_eqb (tk t)) line_kinds) ts = true -> InlineSpec.line_of ts = ILine ts (length ts) false 0.
Proof.
  intros H. unfold InlineSpec.line_of. assert (G : forall ts l, forallb (fun t => existsb (kind_eqb (tk t)) line_kinds) ts = true -> fold_left push_tok ts l = ILine (toks l ++ ts) (orig l + length ts) (passm l) (pluses l)).
  { clear. induction ts as [|t ts IH]; intros l H; [destruct l; cbn; now rewrite app_nil_r, Nat.add_0_r|]. cbn [forallb] in H. apply andb_true_iff in H as [O H]. cbn [fold_left].
    assert (K : push_tok l t = ILine (toks l ++ [t]) (S (orig l)) (passm l) (pluses l)).
    { unfold push_tok. assert (N : forall k, existsb (kind_eqb k) line_kinds = false -> is_k k t = false) by (intros k N; unfold is_k; destruct (kind_eqb (tk t) k) eqn:E; [apply kind_eqb_eq in E; rewrite E in O; congruence|reflexivity]).
      rewrite (N MacroName eq_refl), (N Plus eq_refl). cbn [andb]. now rewrite orb_false_r. }
    rewrite K. rewrite IH by exact H. cbn [toks orig passm pluses length]. rewrite <- app_assoc. f_equal. lia. }
  rewrite G by exact H. reflexivity.
Qed.
Lemma head_kinds n l p prev : forallb item_ok l = true -> forallb (fun t => existsb (kind_eqb (tk t)) line_kinds) (lay p prev (row_pieces (Head n l))) = true.
Proof.
  intros H. cbn [row_pieces space lay]. cbn [forallb tk]. pose proof (ordinary_line l (p + length (marks n) + length ($" ")) (final (final prev (marks n)) ($" ")) H) as O. unfold all_ordinary in O. change (existsb (kind_eqb EqualSigns) line_kinds) with true.
  change (existsb (kind_eqb Whitespace) line_kinds) with true. cbn [andb]. rewrite forallb_forall in O |- *. intros t I. specialize (O t I). unfold line_kinds. cbn [existsb]. rewrite O. apply orb_true_r.
Qed.
Lemma of_head_lay n l p prev : n <= 5 -> heads_line l -> of_head (InlineSpec.line_of (lay p prev (row_pieces (Head n l)))) (n, l).
Proof.
  intros N [NE OK]. rewrite line_of_kinds by now apply head_kinds. split; [now split|]. split; [reflexivity|]. split; [exact N|]. split; [now split|]. cbn [toks]. cbn [row_pieces space lay fst snd]. eexists. eexists. eexists. reflexivity.
Qed.
Lemma head_emptyish n l p prev : emptyish (lay p prev (row_pieces (Head n l))) = false.
Proof. reflexivity. Qed.

(** ** Rows as elements *)
Inductive elem := EHead (n : nat) (l : line) | EPar (ls : list line).
Definition flush (cur : list line) : list elem := match cur with [] => [] | _ => [EPar cur] end.
Fixpoint elems_from (cur : list line) (rs : list row) : list elem :=
  match rs with
  | [] => flush cur
  | Text [] :: r => flush cur ++ elems_from [] r
  | Text l :: r => elems_from (cur ++ [l]) r
  | Head n l :: r => flush cur ++ EHead n l :: elems_from [] r
  end.
Definition elems (rs : list row) : list elem := elems_from [] rs.
(** headings do not come right below text *)
Fixpoint apart (below : bool) (rs : list row) : bool :=
  match rs with
  | [] => true
  | Text l :: r => apart (match l with [] => false | _ => true end) r
  | Head _ _ :: r => negb below && apart false r
  end.
Definition blank_first (rs : list row) : Prop := match rs with [] => True | r :: _ => r = Text [] end.
Lemma apart_blank rs b : blank_first rs -> apart b rs = apart false rs.
Proof. destruct rs as [|r rs]; [reflexivity|]. cbn [blank_first]. now intros ->. Qed.

(** ** Groups *)
Definition text_line (l : line) : Prop := l <> [] /\ forallb item_ok l = true.
Definition texts (g : list iline) (par : list line) : Prop := Forall2 WholeInlineProofs.of_line g par /\ Forall texty g /\ Forall text_line par.
Definition is_group (g : list iline) (heads : list (nat * line)) (par : list line) : Prop := exists g1 g2, g = g1 ++ g2 /\ Forall2 of_head g1 heads /\ texts g2 par.
Definition head_rows (heads : list (nat * line)) : list row := map (fun h => Head (fst h) (snd h)) heads.
Definition head_elems (heads : list (nat * line)) : list elem := map (fun h => EHead (fst h) (snd h)) heads.
Lemma rows_at_cons p prev r m rs : rows_at p prev (r :: m :: rs) = lay p prev (row_pieces r) :: rows_at (p + length (row_source r) + 1) (Some LF) (m :: rs).
Proof. reflexivity. Qed.
Lemma group_texts rs : forall p prev, forallb row_ok rs = true -> apart true rs = true -> before_phrase prev ->
  exists g par rs' p' prev', group (rows_at p prev rs) = (g, rows_at p' prev' rs') /\ rs = map Text par ++ rs' /\ blank_first rs' /\ before_phrase prev' /\ texts g par.
Proof.
  induction rs as [|r rs IH]; intros p prev H A B.
  - exists [], [], [], p, prev. repeat split; auto.
  - cbn [forallb] in H. apply andb_true_iff in H as [L H]. destruct r as [l|n l]; [|discriminate A]. destruct l as [|i l].
    + exists [], [], (Text [] :: rs), p, prev. split; [destruct rs; reflexivity|]. repeat split; auto.
    + cbn [apart] in A. cbn [row_ok] in L. destruct (nonempty_text i l p prev L) as (t & u & N). pose proof (line_ok_inv i l L) as [OK _]. pose proof (emptyish_text i l p prev L) as EM. destruct (of_line_lay i l p prev L B) as [OL TX]. destruct rs as [|m rs].
      * exists [InlineSpec.line_of (lay p prev (line_pieces (i :: l)))], [i :: l], [], 0, None. cbn [rows_at row_pieces]. rewrite N in *. split; [cbn [group]; rewrite EM; reflexivity|]. repeat split; auto; [now left|].
        constructor; [split; [discriminate|exact OK]|constructor].
      * destruct (IH (p + length (line_source (i :: l)) + 1) (Some LF) H A ltac:(right; right; reflexivity)) as (g & par & ls' & p' & prev' & G & E & AB & B' & F & TT & O).
        exists (InlineSpec.line_of (lay p prev (line_pieces (i :: l))) :: g), ((i :: l) :: par), ls', p', prev'. rewrite rows_at_cons. cbn [row_pieces row_source].
        split; [cbn [group]; rewrite G, EM, N; reflexivity|]. split; [cbn [app map]; now rewrite E|]. repeat split; auto. constructor; [split; [discriminate|exact OK]|exact O].
Qed.
Lemma group_rows rs : forall p prev, forallb row_ok rs = true -> apart false rs = true -> before_phrase prev ->
  exists g heads par rs' p' prev', group (rows_at p prev rs) = (g, rows_at p' prev' rs') /\ rs = head_rows heads ++ map Text par ++ rs' /\ blank_first rs' /\ before_phrase prev' /\ is_group g heads par.
Proof.
  induction rs as [|r rs IH]; intros p prev H A B.
  - exists [], [], [], [], p, prev. repeat split; auto. exists [], []. repeat split; auto.
  - destruct r as [l|n l].
    + destruct l as [|i l].
      * exists [], [], [], (Text [] :: rs), p, prev. split; [destruct rs; reflexivity|]. repeat split; auto. exists [], []. repeat split; auto.
      * destruct (group_texts (Text (i :: l) :: rs) p prev H A B) as (g & par & rs' & p' & prev' & G & E & BF & B' & T). exists g, [], par, rs', p', prev'. repeat split; auto. exists [], g. repeat split; auto; apply T.
    + cbn [forallb row_ok] in H. apply andb_true_iff in H as [L H]. apply andb_true_iff in L as [N L]. apply Nat.leb_le in N. assert (HL : heads_line l) by (destruct l; [discriminate L|split; [discriminate|exact L]]). cbn [apart negb andb] in A.
      pose proof (of_head_lay n l p prev N HL) as OH. pose proof (head_emptyish n l p prev) as EM.
      assert (NT : exists t u, lay p prev (row_pieces (Head n l)) = t :: u) by (eexists; eexists; reflexivity). destruct NT as (t & u & NT). destruct rs as [|m rs].
      * exists [InlineSpec.line_of (lay p prev (row_pieces (Head n l)))], [(n, l)], [], [], 0, None. cbn [rows_at]. rewrite NT in *. split; [cbn [group]; rewrite EM; reflexivity|]. repeat split; auto; [now left|].
        exists [InlineSpec.line_of (t :: u)], []. repeat split; auto.
      * destruct (IH (p + length (row_source (Head n l)) + 1) (Some LF) H A ltac:(right; right; reflexivity)) as (g & heads & par & ls' & p' & prev' & G & E & AB & B' & (g1 & g2 & -> & F & T)).
        exists (InlineSpec.line_of (lay p prev (row_pieces (Head n l))) :: g1 ++ g2), ((n, l) :: heads), par, ls', p', prev'. rewrite rows_at_cons.
        split; [cbn [group]; rewrite G, EM, NT; reflexivity|]. split; [cbn [app head_rows map fst snd]; now rewrite E|]. repeat split; auto. exists (InlineSpec.line_of (lay p prev (row_pieces (Head n l))) :: g1), g2. split; [reflexivity|]. split; [now constructor|exact T].
Qed.
Lemma elems_blank rs cur : blank_first rs -> elems_from cur rs = flush cur ++ elems rs.
Proof. destruct rs as [|r rs]; cbn [blank_first]; [intros _; unfold elems; cbn; now rewrite app_nil_r|]. intros ->. reflexivity. Qed.
Lemma elems_texts par rs : blank_first rs -> Forall text_line par -> forall cur, elems_from cur (map Text par ++ rs) = flush (cur ++ par) ++ elems rs.
Proof.
  intros A. induction par as [|l par IH]; intros F cur; [rewrite app_nil_r; now apply elems_blank|]. inversion F as [|? ? [N _] F']; subst. cbn [app map]. destruct l as [|i l]; [easy|]. cbn [elems_from]. rewrite IH by exact F'. now rewrite <- app_assoc.
Qed.
Lemma elems_group heads par rs : blank_first rs -> Forall text_line par -> elems (head_rows heads ++ map Text par ++ rs) = head_elems heads ++ flush par ++ elems rs.
Proof. intros A F. induction heads as [|[n l] heads IH]; [unfold elems; cbn [head_rows map app]; now rewrite elems_texts|]. unfold elems in *. cbn [head_rows map app fst snd elems_from flush head_elems]. f_equal. exact IH. Qed.

(** ** What is left of an article: its elements, those of the first group perhaps read already *)
Definition hereat (lv : nat) (l : list (list tok)) (g : list iline) : pst := PSt l g None None lv [] false false true NoBib None (start normal) [] 0 0.
Definition unread (l : list (list tok)) (es : list elem) : Prop := exists p prev rs, l = rows_at p prev rs /\ before_phrase prev /\ forallb row_ok rs = true /\ apart false rs = true /\ es = elems rs.
Definition holds (lv : nat) (s : pst) (es : list elem) : Prop := exists l g heads par rest, s = hereat lv l g /\ is_group g heads par /\ unread l rest /\ es = head_elems heads ++ flush par ++ rest.
Lemma apart_group heads par rs : Forall text_line par -> apart false (head_rows heads ++ map Text par ++ rs) = true -> blank_first rs -> apart false rs = true.
Proof.
  intros F A B. induction heads as [|[n l] heads IH]; [|cbn [head_rows map app apart negb andb] in A; now apply IH]. cbn [head_rows map app] in A. revert A. generalize false at 1 as b. induction par as [|l par IH]; intros b0 A; [cbn [map app] in A; now rewrite (apart_blank _ b0 B) in A|].
  inversion F as [|? ? [N _] F']; subst. cbn [map app apart] in A. now apply (IH F' _ A).
Qed.
Lemma skip_rows rs : forall p prev, forallb row_ok rs = true -> apart false rs = true -> before_phrase prev ->
  (skip_empty (rows_at p prev rs) = [] /\ elems rs = []) \/
  exists r rs' p' prev', skip_empty (rows_at p prev rs) = rows_at p' prev' (r :: rs') /\ r <> Text [] /\ before_phrase prev' /\ forallb row_ok (r :: rs') = true /\ apart false (r :: rs') = true /\ elems rs = elems (r :: rs').
Proof.
  induction rs as [|r rs IH]; intros p prev H A B; [now left|]. pose proof H as H0. cbn [forallb] in H. apply andb_true_iff in H as [L H].
  assert (D : r = Text [] \/ r <> Text [] /\ emptyish (lay p prev (row_pieces r)) = false /\ exists t u, lay p prev (row_pieces r) = t :: u).
  { destruct r as [[|i l]|n l]; [now left| |]; right; (split; [discriminate|]).
    - cbn [row_ok row_pieces] in *. split; [now apply emptyish_text|now apply nonempty_text].
    - split; [reflexivity|]. eexists. eexists. reflexivity. }
  destruct D as [->|(NB & EM & t & u & N)].
  - destruct rs as [|m rs]; [now left|]. rewrite rows_at_cons. change (elems (Text [] :: m :: rs)) with (elems (m :: rs)). change (skip_empty (lay p prev (row_pieces (Text [])) :: ?x)) with (skip_empty x).
    apply IH; [exact H|exact A|right; right; reflexivity].
  - right. exists r, rs, p, prev. split; [|auto]. destruct rs as [|m rs]; [cbn [rows_at]; rewrite N in *; cbn [skip_empty]; now rewrite EM|]. rewrite rows_at_cons. cbn [skip_empty]. now rewrite EM.
Qed.
(** the group that is read next *)
Lemma read_holds lv s es : holds lv s es ->
  match es with
  | [] => read_lines s = ([], hereat lv [] [])
  | _ => exists g heads par l rest, read_lines s = (g, hereat lv l []) /\ is_group g heads par /\ unread l rest /\ es = head_elems heads ++ flush par ++ rest /\ g <> []
  end.
Proof.
  intros (l & g & heads & par & rest & -> & G & (p & prev & rs & -> & B & OK & AP & ->) & ->). destruct g as [|a g].
  - assert (E : heads = [] /\ par = []) by (destruct G as (g1 & g2 & E & F & T & _); destruct g1; [|discriminate E]; cbn in E; subst g2; inversion F; inversion T; subst; now split). destruct E as [-> ->]. cbn [head_elems map flush app].
    unfold read_lines. cbn [peeked hereat src]. destruct (skip_rows rs p prev OK AP B) as [[-> ->]|(r & rs' & p' & prev' & -> & NB & B' & OK' & AP' & ->)]; [reflexivity|].
    destruct (group_rows (r :: rs') p' prev' OK' AP' B') as (g & heads & par & rs2 & p2 & prev2 & GR & E & BF & B2 & G2).
    assert (TP : Forall text_line par) by (destruct G2 as (g1 & g2 & _ & _ & _ & _ & T); exact T).
    replace (elems (r :: rs')) with (head_elems heads ++ flush par ++ elems rs2) by (rewrite E; symmetry; now apply elems_group).
    assert (S : exists x m, rows_at p' prev' (r :: rs') = x :: m /\ emptyish x = false /\ x <> []).
    { assert (D : emptyish (lay p' prev' (row_pieces r)) = false /\ exists t u, lay p' prev' (row_pieces r) = t :: u).
      { cbn [forallb] in OK'. apply andb_true_iff in OK' as [L _]. destruct r as [[|i l]|n l]; [easy| |].
        - cbn [row_ok row_pieces] in *. split; [now apply emptyish_text|now apply nonempty_text].
        - split; [reflexivity|]. eexists. eexists. reflexivity. }
      destruct D as [EM (t & u & N)]. destruct rs' as [|m rs']; [cbn [rows_at]; rewrite N in *; eexists; eexists; repeat split; [exact EM|discriminate]|]. rewrite rows_at_cons. eexists. eexists. split; [reflexivity|]. split; [exact EM|]. rewrite N. discriminate. }
    destruct S as (x & m & S & EM & XN). rewrite S in GR. cbn [group] in GR. rewrite EM in GR. rewrite S. destruct x as [|t u]; [easy|]. destruct (group m) as [g' m'] eqn:GE. injection GR as <- GM. subst m'.
    assert (RE : exists g0 heads0 par0 l rest, (InlineSpec.line_of (t :: u) :: g', hereat lv (rows_at p2 prev2 rs2) []) = (g0, hereat lv l []) /\ is_group g0 heads0 par0 /\ unread l rest /\ head_elems heads ++ flush par ++ elems rs2 = head_elems heads0 ++ flush par0 ++ rest /\ g0 <> []).
    { exists (InlineSpec.line_of (t :: u) :: g'), heads, par, (rows_at p2 prev2 rs2), (elems rs2). split; [reflexivity|]. split; [exact G2|]. split; [|split; [reflexivity|discriminate]]. exists p2, prev2, rs2. repeat split; auto.
      - rewrite E in OK'. rewrite !forallb_app in OK'. apply andb_true_iff in OK' as [_ OK']. now apply andb_true_iff in OK' as [_ OK'].
      - rewrite E in AP'. now apply apart_group in AP'. }
    change (with_src (rows_at p2 prev2 rs2) (hereat lv (rows_at p prev rs) [])) with (hereat lv (rows_at p2 prev2 rs2) []).
    destruct (head_elems heads ++ flush par ++ elems rs2) as [|e es'] eqn:EE; [|exact RE]. exfalso. destruct RE as (g0 & h0 & p0 & l0 & r0 & _ & (g1 & g2 & -> & F & T & _) & _ & EQ & NE). symmetry in EQ. apply app_eq_nil in EQ as [E1 EQ]. apply app_eq_nil in EQ as [E2 _].
    destruct h0; [|discriminate E1]. destruct p0; [|discriminate E2]. inversion F; inversion T; subst. easy.
  - unfold read_lines. cbn [peeked hereat].
    assert (RE : exists g0 heads0 par0 l rest, (a :: g, hereat lv (rows_at p prev rs) []) = (g0, hereat lv l []) /\ is_group g0 heads0 par0 /\ unread l rest /\ head_elems heads ++ flush par ++ elems rs = head_elems heads0 ++ flush par0 ++ rest /\ g0 <> []).
    { exists (a :: g), heads, par, (rows_at p prev rs), (elems rs). split; [reflexivity|]. split; [exact G|]. split; [|split; [reflexivity|discriminate]]. exists p, prev, rs. repeat split; auto. }
    change (with_peeked [] (hereat lv (rows_at p prev rs) (a :: g))) with (hereat lv (rows_at p prev rs) []).
    destruct (head_elems heads ++ flush par ++ elems rs) as [|e es'] eqn:EE; [|exact RE]. exfalso. apply app_eq_nil in EE as [E1 EE]. apply app_eq_nil in EE as [E2 _]. destruct heads; [|discriminate E1]. destruct par; [|discriminate E2]. destruct G as (g1 & g2 & E & F & T & _). inversion F; inversion T; subst. discriminate E.
Qed.

(** ** Headings *)
Definition phrase_text (p : phrase) : bytes := match p with Plain w => w | Special c => [c] | Marked _ ws => join ($" ") ws end.
Definition line_text (l : line) : bytes := join ($" ") (map (fun i => phrase_text (fst i) ++ snd i) l).
Definition texts_of (a : accum) : bytes := nodes_text (nodes_of a) ++ text a.
Lemma nodes_text_app x y : nodes_text (x ++ y) = nodes_text x ++ nodes_text y.
Proof. unfold nodes_text. now rewrite map_app, concat_app. Qed.
Lemma add_text_text ns x : nodes_text (add_text ns x) = nodes_text ns ++ x.
Proof.
  unfold add_text. destruct x as [|c x]; [now rewrite app_nil_r|]. assert (D : nodes_text (ns ++ [NText (c :: x)]) = nodes_text ns ++ c :: x) by (rewrite nodes_text_app; unfold nodes_text at 2; cbn; now rewrite app_nil_r).
  destruct (rev ns) as [|n r] eqn:R; [exact D|]. destruct n; try exact D. apply (f_equal (@rev _)) in R. rewrite rev_involutive in R. cbn [rev] in R. rewrite R, !nodes_text_app. unfold nodes_text at 2 4. cbn. now rewrite !app_nil_r, <- app_assoc.
Qed.
Lemma texts_push x a : texts_of (push_text x a) = texts_of a ++ x.
Proof. unfold texts_of. cbn. now rewrite app_assoc. Qed.
Lemma texts_node n a : texts_of (push_node n a) = texts_of a ++ node_text n.
Proof. unfold texts_of, push_node, commit. cbn [nodes_of text]. rewrite nodes_text_app, add_text_text, app_nil_r. f_equal. unfold nodes_text. cbn. apply app_nil_r. Qed.
Lemma texts_item i a : item_ok i = true -> texts_of (item_acc i a) = texts_of a ++ phrase_text (fst i) ++ snd i.
Proof.
  intros OK. apply andb_true_iff in OK as [OK _]. unfold item_acc. destruct i as [[w|c|st ws] x]; cbn [fst snd phrase_text] in *.
  - apply texts_push.
  - rewrite texts_push, texts_node, <- app_assoc. f_equal. f_equal. cbn [phrase_ok] in OK. apply among in OK. cbn [In] in OK. decompose [or] OK; try contradiction; subst c; reflexivity.
  - rewrite texts_push, texts_node, <- app_assoc. f_equal. f_equal. cbn [node_text map concat]. apply app_nil_r.
Qed.
Lemma texts_line l : forall a, forallb item_ok l = true -> texts_of (line_acc l a) = texts_of a ++ line_text l.
Proof.
  induction l as [|i l IH]; intros a OK; [cbn; now rewrite app_nil_r|]. cbn [forallb] in OK. apply andb_true_iff in OK as [OI OK]. destruct l as [|j l]; [cbn [line_acc]; now apply texts_item|].
  change (line_acc (i :: j :: l) a) with (line_acc (j :: l) (push_text ($" ") (item_acc i a))). rewrite IH by exact OK. rewrite texts_push, texts_item by exact OI.
  change (line_text (i :: j :: l)) with ((phrase_text (fst i) ++ snd i) ++ $" " ++ line_text (j :: l)). now rewrite <- !app_assoc.
Qed.
Definition head_for (ns : list inode) (l : line) : Prop := forallb good ns = true /\ (forall nl, nodes_html nl ns = line_html l) /\ nodes_text ns = line_text l.
Lemma finish_text a : fine a -> nodes_text (finish a None) = texts_of a.
Proof.
  intros F. unfold finish. cbn [push_unused]. pose proof (add_text_good _ (text a) F) as G. cbn [commit nodes_of]. set (ns := add_text (nodes_of a) (text a)) in *.
  assert (T : trimmed (length ns) (rev ns) = rev ns).
  { destruct (rev ns) as [|n r] eqn:R; [now destruct (length ns)|]. apply (f_equal (@rev _)) in R. rewrite rev_involutive in R. cbn [rev] in R. rewrite R, forallb_app in G. cbn in G. rewrite andb_true_r in G. apply andb_true_iff in G as [_ G].
    destruct (length ns); [reflexivity|]. destruct n; first [reflexivity|discriminate G]. }
  rewrite T, rev_involutive. unfold ns. now rewrite add_text_text.
Qed.
Lemma parse_heading E s ln l p prev : (forall l, ordinary_start (toks l) = true -> stops E l = false) -> calm s -> heads_line l -> mild ln -> toks ln = lay p prev (line_pieces l) -> before_phrase prev -> length (toks ln) <= orig ln ->
  exists ns, head_for ns l /\ parse_inlines_until (enough [ln]) E [] s [ln] = Done s ns [].
Proof.
  intros FR C [NE OK] M T B O. destruct (run_line E FR s [] C I l p prev acc0 ln NE M T OK B O eq_refl) as (a' & A & FA & S & K). cbn [joining_newline] in K. destruct (finish_fine a' FA) as [SH G].
  exists (finish a' None). split; [split; [exact G|split; [intros nl; rewrite SH, S; reflexivity|rewrite finish_text by exact FA; rewrite A, texts_line by exact OK; reflexivity]]|].
  assert (R : ends E [] normal s acc0 None [ln] (Done s (finish a' None) [])).
  { apply enter; [exact FR|rewrite T; now apply line_ordinary|]. apply K. now apply ends_fin. }
  destruct R as (_ & n & H). pose proof (line_ordinary l p prev NE OK) as LO. rewrite <- T in LO.
  pose proof (InlineTermProofs.parse_ends E [] s [ln] (enough [ln]) (le_n _)) as PE. unfold parse_inlines_until in *. destruct (toks ln) as [|t r] eqn:TE; [discriminate LO|].
  destruct C as (CS & _). rewrite CS in *. set (f := enough [ln]) in *.
  rewrite <- (InlineTermProofs.go_more E f _ _ _ _ _ _ _ PE (Nat.max f n)) by lia. rewrite (InlineTermProofs.go_more E n) by (try lia; rewrite H; discriminate). exact H.
Qed.

(** ** Blocks *)
Section Parse.
Variable P : params.
Hypothesis no_subs : custom_subs P [] normal = normal.
Hypothesis no_offset : forall n, n <= 5 -> adjust P n = n.

Lemma stops_free lv l g : forall ln, ordinary_start (toks ln) = true -> stops (env_of P (hereat lv l g)) ln = false.
Proof. intros ln O. exact (WholeBlockProofs.stops_free P l g ln O). Qed.
Lemma paragraph_text lv g par l : group_of g par -> exists b, paragraph P g no_meta (hereat lv l []) = Yes (Some b) (hereat lv l []) /\ block_for b par.
Proof.
  intros G. pose proof G as (F & TX & O & NE). unfold paragraph. change (simple_desc_def (hereat lv l [])) with false. cbn iota.
  assert (PC : paragraph_context no_meta g = (CParagraph, g)).
  { inversion F as [|ln ll g' par' _ _]; subst; [easy|]. pose proof (Forall_inv TX) as T. unfold paragraph_context, trim_uniform. change (block_style CParagraph no_meta) with (@None context).
    assert (K : current_is Whitespace (toks ln) = false /\ starts_with_seq [Kind Word; Kind Colon; Kind Whitespace] (toks ln) = false).
    { first_kind T H; (split; [reflexivity|]); try reflexivity. destruct u as [|v w]; [reflexivity|]. cbn [all_ordinary forallb] in A. apply andb_true_iff in A as [A _]. cbn [starts_with_seq satisfies]. rewrite (not_kind Colon v A eq_refl). apply andb_false_r. }
    destruct K as [K1 K2]. destruct (toks ln) as [|t u] eqn:TE; [destruct T as [_ T]; rewrite TE in T; discriminate|]. cbn [current_is hd_error at_k] in K1. rewrite K1. cbn [andb]. rewrite TE, K2. unfold current_is. cbn [hd_error at_k]. now rewrite K1. }
  rewrite PC. unfold subs_for. change (has_positional $"source" no_meta) with false. cbn [m_attrs no_meta]. cbn iota. change (subs_of (ist (hereat lv l []))) with normal. rewrite no_subs.
  change (set_ist_subs normal (hereat lv l [])) with (hereat lv l []). unfold inlines. change (ist (hereat lv l [])) with (start normal).
  destruct (parse_paragraph (env_of P (hereat lv l [])) (start normal) g par (stops_free lv l []) ltac:(repeat split) F O NE) as (ns & GD & S & ->). cbn [bind]. change (with_ist (start normal) (hereat lv l [])) with (hereat lv l []).
  change (set_ist_subs normal (hereat lv l [])) with (hereat lv l []). cbn [fst snd]. destruct ns as [|n ns].
  - exfalso. apply (html_nonempty par NE O). now rewrite <- S.
  - exists (BParagraph no_meta CParagraph (n :: ns)). split; [reflexivity|]. exists (n :: ns). repeat split; assumption.
Qed.
Lemma chunk_text lv rec g par l : group_of g par -> chunk P rec g no_meta (hereat lv l []) = paragraph P g no_meta (hereat lv l []).
Proof.
  intros G. destruct (first_of g par G) as (ln & r & -> & T & U & N). pose proof (quoted_text _ _ G) as Q. unfold chunk. rewrite (text_macro ln T).
  assert (SL : starts_list (ln :: r) = false) by (cbn [starts_list]; unfold starts_item; rewrite (text_item ln T), (text_comment ln T); reflexivity).
  rewrite SL, (text_unadjusted ln T). cbn [is_some andb]. pose proof (text_thematic ln T) as TH. change (inmd (hereat lv l [])) with false. rewrite Q.
  destruct (toks ln) as [|t u] eqn:TE; [easy|]. rewrite TH.
  assert (K : is_k DelimiterLine t = false /\ LineModel.one_of [Pipe; Colon; Bang; Comma] t = false /\ is_k GreaterThan t = false /\ is_k AttrDef t = false).
  { apply texty_inv in T as (t' & u' & H & _ & K). rewrite TE in H. injection H as <- <-. destruct t as [k x j]. cbn [tk In] in K. destruct K as [->|[K _]]; [repeat split|]. decompose [or] K; try contradiction; subst k; repeat split. }
  destruct K as (-> & -> & -> & ->). reflexivity.
Qed.
Lemma meta_text lv g par l : group_of g par -> chunk_meta P g (hereat lv l []) = Yes (no_meta, g) (hereat lv l []).
Proof.
  intros G. destruct (first_of g par G) as (ln & r & -> & T & U & N). unfold chunk_meta. cbn [pmeta hereat]. destruct (toks ln) as [|t u] eqn:TE; [easy|]. rewrite U. cbn [meta_lines]. rewrite (text_title ln T). destruct (text_attr ln T) as [-> ->]. rewrite (text_comment ln T). reflexivity.
Qed.
(** a group that starts with text, and one that starts with a heading *)
Lemma group_par g heads par rest p r : is_group g heads par -> EPar p :: r = head_elems heads ++ flush par ++ rest -> g <> [] -> group_of g p /\ r = rest.
Proof.
  intros (g1 & g2 & -> & F & T) E NE. destruct heads as [|h heads]; [|discriminate E]. inversion F; subst. cbn [head_elems map app] in *. destruct par as [|a par]; [destruct T as (T & _); inversion T; subst; easy|]. cbn [flush app] in E. injection E as -> ->.
  destruct T as (T1 & T2 & T3). repeat split; auto. discriminate.
Qed.
Lemma group_head g heads par rest n h r : is_group g heads par -> EHead n h :: r = head_elems heads ++ flush par ++ rest -> g <> [] ->
  exists ln g' heads', g = ln :: g' /\ heads = (n, h) :: heads' /\ of_head ln (n, h) /\ is_group g' heads' par /\ r = head_elems heads' ++ flush par ++ rest.
Proof.
  intros (g1 & g2 & -> & F & T) E NE. destruct heads as [|h' heads].
  - exfalso. inversion F; subst. cbn [head_elems map app] in *. destruct par as [|a par]; [destruct T as (T & _); inversion T; subst; easy|]. discriminate E.
  - inversion F as [|ln h2 g1' heads' OH F']; subst. cbn [head_elems map app] in E. injection E as -> -> ->. destruct h' as [n h]. exists ln, (g1' ++ g2), heads. repeat split; auto; [apply OH..|]. exists g1', g2. repeat split; auto; apply T.
Qed.
Lemma head_level ln n h : of_head ln (n, h) -> unadjusted_level (toks ln) = Some n.
Proof.
  intros (_ & _ & N & [NE OK] & i & j & p & ->). cbn [fst snd] in *. unfold unadjusted_level. assert (L : 0 < length (lay p (Some " "%char) (line_pieces h))).
  { pose proof (line_ordinary h p (Some " "%char) NE OK) as O. destruct (lay p (Some " "%char) (line_pieces h)); [discriminate O|cbn; lia]. }
  cbn [starts_with_seq satisfies length]. change (is_k EqualSigns _) with true. change (is_k Whitespace _) with true. cbn [andb]. replace (2 <? S (S (length (lay p (Some " "%char) (line_pieces h))))) with true by (symmetry; apply Nat.ltb_lt; lia).
  cbn [tx]. unfold marks. rewrite repeat_length. replace (S n - 1) with n by lia. rewrite Nat.mod_small by lia. reflexivity.
Qed.
Lemma head_facts ln n h : of_head ln (n, h) ->
  heading_level P (toks ln) = Some n /\ chunk_title ln = false /\ attr_list_line ln = false /\ anchor_line ln = false /\ is_comment ln = false /\ unconsumed ln = true /\ attr_decl ln = false /\ comment_delimiter ln = false /\ toks ln <> [].
Proof.
  intros H. pose proof (head_level ln n h H) as L. destruct H as (_ & O & N & _ & i & j & p & T). cbn [fst snd] in *. split; [unfold heading_level; rewrite L; now rewrite no_offset|].
  unfold chunk_title, attr_list_line, anchor_line, is_comment, attr_decl, comment_delimiter, unconsumed. rewrite O, T. repeat split; try reflexivity; try apply andb_false_r; try apply Nat.eqb_refl. discriminate.
Qed.
Lemma meta_head lv ln n h g l : of_head ln (n, h) -> chunk_meta P (ln :: g) (hereat lv l []) = Yes (no_meta, ln :: g) (hereat lv l []).
Proof.
  intros H. destruct (head_facts ln n h H) as (_ & CT & AL & AN & CM & U & _ & _ & N). unfold chunk_meta. cbn [pmeta hereat]. destruct (toks ln) as [|t u]; [easy|]. rewrite U. cbn [meta_lines]. now rewrite CT, AL, AN, CM.
Qed.
Lemma start_head ln n h g : of_head ln (n, h) -> section_start P (ln :: g) no_meta = Some n.
Proof. intros H. destruct (head_facts ln n h H) as (L & CT & AL & _ & CM & _). unfold section_start. change (is_discrete no_meta) with false. cbn [start_level]. now rewrite CT, AL, CM. Qed.
Lemma block_par rec lv s par rest : holds lv s (EPar par :: rest) -> exists b s', block P rec s = Yes (Some b) s' /\ block_for b par /\ holds lv s' rest.
Proof.
  intros H. apply read_holds in H as (g & heads & par' & l & rest' & R & G & U & E & NE). destruct (group_par _ _ _ _ _ _ G E NE) as [GO ->]. destruct (paragraph_text lv g par l GO) as (b & PB & BF). exists b, (hereat lv l []). split; [|split; [exact BF|]].
  - unfold block. rewrite R. pose proof (first_of g par GO) as (ln & r & -> & T & UN & N). cbn [comment_block]. rewrite (text_comment ln T). rewrite (meta_text lv _ par l GO). cbn [bind fst snd].
    replace (section_start P (ln :: r) no_meta) with (@None nat). 2:{ symmetry. unfold section_start. change (is_discrete no_meta) with false. cbn [start_level]. destruct (text_attr ln T) as [-> _]. rewrite (text_title ln T), (text_comment ln T). cbn [orb]. now apply text_heading. }
    rewrite (chunk_text lv rec _ par l GO). exact PB.
  - exists l, [], [], [], rest'. repeat split; auto. exists [], []. repeat split; auto.
Qed.
(** a heading that is read: the line, what is left of its group and of the source *)
Lemma read_head lv s n h rest : holds lv s (EHead n h :: rest) -> exists ln g l, read_lines s = (ln :: g, hereat lv l []) /\ of_head ln (n, h) /\ holds lv (hereat lv l (ln :: g)) (EHead n h :: rest) /\ forall lv', holds lv' (hereat lv' l g) rest.
Proof.
  intros H. apply read_holds in H as (g & heads & par' & l & rest' & R & G & U & E & NE). pose proof G as G0. destruct (group_head _ _ _ _ _ _ _ G E NE) as (ln & g' & heads' & -> & -> & OH & G' & ->). exists ln, g', l. repeat split; auto; [apply OH..| |].
  - exists l, (ln :: g'), ((n, h) :: heads'), par', rest'. repeat split; auto.
  - intros lv'. exists l, g', heads', par', rest'. repeat split; auto.
Qed.
Lemma block_stop rec lv s n h rest : holds lv s (EHead n h :: rest) -> n < 2 \/ n <= lv -> exists s', block P rec s = Yes None s' /\ holds lv s' (EHead n h :: rest).
Proof.
  intros H C. apply read_head in H as (ln & g & l & R & OH & H & _). exists (hereat lv l (ln :: g)). split; [|exact H]. unfold block. rewrite R. destruct (head_facts ln n h OH) as (_ & _ & _ & _ & CM & _). cbn [comment_block]. rewrite CM, (meta_head lv ln n h g l OH). cbn [bind fst snd].
  rewrite (start_head ln n h g OH). change (delim (hereat lv l [])) with (@None delimiter). cbn [is_some]. rewrite andb_false_r. change (restore_peeked P (ln :: g) no_meta (hereat lv l [])) with (Yes tt (hereat lv l (ln :: g))). cbn [bind]. change (level (hereat lv l (ln :: g))) with lv.
  replace ((n <? 2) || (n <=? lv)) with true; [reflexivity|]. symmetry. apply orb_true_iff. destruct C; [left; now apply Nat.ltb_lt|right; now apply Nat.leb_le].
Qed.
Lemma block_end rec lv s : holds lv s [] -> block P rec s = Yes None (hereat lv [] []).
Proof. intros H. apply read_holds in H. unfold block. now rewrite H. Qed.
Lemma holds_end lv : holds lv (hereat lv [] []) [].
Proof. exists [], [], [], [], []. repeat split; auto; [exists [], []; repeat split; auto|]. exists 0, None, []. repeat split. now left. Qed.
Lemma peek_head rec lv s n h rest : holds lv s (EHead n h :: rest) -> exists ln g l, peek_section P rec s = Yes (Some (Peeked no_meta (ln :: g) n n)) (hereat lv l []) /\ of_head ln (n, h) /\ holds lv (hereat lv l (ln :: g)) (EHead n h :: rest) /\ forall lv', holds lv' (hereat lv' l g) rest.
Proof.
  intros H. apply read_head in H as (ln & g & l & R & OH & H1 & H2). exists ln, g, l. split; [|auto]. unfold peek_section. rewrite R. destruct (head_facts ln n h OH) as (L & _ & _ & _ & CM & _). cbn [drop_comments]. rewrite CM, (meta_head lv ln n h g l OH). cbn [bind fst snd]. now rewrite L.
Qed.

(** ** Sections *)
Inductive sect_for : nat -> sect -> ArticleSpec.section -> Prop :=
| Sect_for n h body subs ns bs ys : head_for ns h -> Forall2 block_for bs (paragraphs body) -> Forall2 (sect_for (S n)) ys subs -> sect_for n (Sect no_meta n ns (bs ++ map BSection ys)) (ArticleSpec.Sec h body subs).
Fixpoint sec_elems (n : nat) (s : ArticleSpec.section) : list elem :=
  match s with ArticleSpec.Sec h body subs => EHead n h :: map EPar (paragraphs body) ++ flat_map (sec_elems (S n)) subs end.
Fixpoint weight (s : ArticleSpec.section) : nat := match s with ArticleSpec.Sec h body subs => 4 + length (paragraphs body) + list_sum (map weight subs) end.
(** where the blocks of a section end *)
Definition over (lv : nat) (es : list elem) : Prop := match es with [] => True | EHead n _ :: _ => n < 2 \/ n <= lv | EPar _ :: _ => False end.
Lemma block_over (rec : parser) lv s es : holds lv s es -> over lv es -> exists s', block P rec s = Yes None s' /\ holds lv s' es.
Proof.
  destruct es as [|[n h|par] es]; cbn [over]; [|now apply block_stop|easy]. intros H _. exists (hereat lv [] []). split; [now apply block_end|apply holds_end].
Qed.
Lemma holds_level lv lv' s es : holds lv s es -> holds lv' (with_level lv' (with_bib NoBib s)) es.
Proof. intros (l & g & heads & par & rest & -> & G & U & ->). exists l, g, heads, par, rest. repeat split; auto. Qed.
(** a section whose heading was peeked, given what is made of the blocks below it *)
Lemma to_section (rec : parser) lv ln g l n h es bs s' : of_head ln (n, h) -> n <= S lv -> rec _ BlockLoop (hereat n l g) = Yes bs s' -> holds n s' es ->
  exists ns s'', peeked_to_section P rec (Peeked no_meta (ln :: g) n n) (hereat lv l []) = Yes (Sect no_meta n ns bs) s'' /\ head_for ns h /\ holds lv s'' es.
Proof.
  intros OH LE R H. pose proof OH as (M & O & N & HL & i & j & p & T). cbn [fst snd] in *. unfold peeked_to_section. cbn [ps_lines semantic ps_meta].
  assert (HT : heading_text ln = Ret (adv ln (lay p (Some " "%char) (line_pieces h)))) by (unfold heading_text; rewrite T; reflexivity). rewrite HT. change (level (hereat lv l [])) with lv.
  replace ((lv <? n) && (1 <? n - lv)) with false. 2:{ symmetry. apply andb_false_iff. destruct (Nat.ltb_spec lv n); [right; apply Nat.ltb_ge; lia|now left]. }
  change (with_level n (hereat lv l [])) with (hereat n l []). unfold inlines. change (ist (hereat n l [])) with (start normal).
  destruct (parse_heading (env_of P (hereat n l [])) (start normal) (adv ln (lay p (Some " "%char) (line_pieces h))) h p (Some " "%char) (stops_free n l []) ltac:(repeat split) HL M eq_refl ltac:(right; left; reflexivity)) as (ns & HF & E).
  { cbn [toks adv orig]. rewrite O, T. cbn [length]. lia. }
  rewrite E. cbn [bind fst]. change (with_ist (start normal) (hereat n l [])) with (hereat n l []). change (positional_at 0 no_meta) with (@None bytes). cbn iota. change (restore_lines P g (hereat n l [])) with (Yes tt (hereat n l g)). cbn [bind]. rewrite R. cbn [bind].
  exists ns, (with_level lv (with_bib NoBib s')). split; [reflexivity|]. split; [exact HF|]. now apply (holds_level n).
Qed.
Lemma run_block_loop n s : run (S (S n)) P _ BlockLoop s = (take (b, s) := block P (run n P) s in one_more (run (S n) P) BlockLoop b s).
Proof. reflexivity. Qed.
Lemma loop_sections : forall n lv pars subs rest s, 1 <= lv -> 2 + length pars + list_sum (map weight subs) <= n -> holds lv s (map EPar pars ++ flat_map (sec_elems (S lv)) subs ++ rest) -> over lv rest ->
  exists bs ys s', run n P _ BlockLoop s = Yes (bs ++ map BSection ys) s' /\ Forall2 block_for bs pars /\ Forall2 (sect_for (S lv)) ys subs /\ holds lv s' rest.
Proof.
  induction n as [n IH] using lt_wf_ind. intros lv pars subs rest s LV W H O. destruct n as [|[|n]]; [lia..|]. rewrite run_block_loop. destruct pars as [|par pars].
  - destruct subs as [|[h body subs'] subs].
    + cbn [map flat_map app] in H. destruct (block_over (run n P) lv s rest H O) as (s' & B & H'). exists [], [], s'. split; [rewrite B; reflexivity|]. repeat split; auto.
    + cbn [map flat_map app sec_elems] in H. cbn [map list_sum fold_right weight length] in W. rewrite <- !app_assoc in H. change (fold_right Nat.add 0 (map weight subs)) with (list_sum (map weight subs)) in W.
      pose proof H as H0. apply read_head in H as (ln & g & l & R & OH & HP & _).
      assert (LB : block P (run n P) s = (take (y, s) := section P (run n P) (hereat lv l (ln :: g)) in match y with Some z => Yes (Some (BSection z)) s | None => Panics end)).
      { unfold block. rewrite R. destruct (head_facts ln (S lv) h OH) as (_ & _ & _ & _ & CM & _). cbn [comment_block]. rewrite CM, (meta_head lv ln (S lv) h g l OH). cbn [bind fst snd].
        rewrite (start_head ln (S lv) h g OH). change (delim (hereat lv l [])) with (@None delimiter). cbn [is_some]. rewrite andb_false_r. change (restore_peeked P (ln :: g) no_meta (hereat lv l [])) with (Yes tt (hereat lv l (ln :: g))). cbn [bind]. change (level (hereat lv l (ln :: g))) with lv.
        replace ((S lv <? 2) || (S lv <=? lv)) with false; [reflexivity|]. symmetry. apply orb_false_iff. split; [apply Nat.ltb_ge; lia|apply Nat.leb_gt; lia]. }
      rewrite LB. clear LB R OH. destruct n as [|n]; [lia|]. destruct (peek_head (run n P) lv _ _ _ _ HP) as (ln' & g' & l' & PK & OH & _ & HR). unfold section. change (run (S n) P _ Peek (hereat lv l (ln :: g))) with (peek_section P (run n P) (hereat lv l (ln :: g))). rewrite PK. cbn [bind semantic]. change (S lv =? 0) with false. cbn iota.
      set (rest2 := flat_map (sec_elems (S lv)) subs ++ rest) in *.
      assert (OV : over (S lv) rest2). { unfold rest2. destruct subs as [|[h2 b2 s2] subs]; cbn [flat_map sec_elems app]; [|right; lia]. destruct rest as [|[m k|par] rest]; cbn [over] in *; auto. destruct O; [now left|right; lia]. }
      destruct (IH (S n) ltac:(lia) (S lv) (paragraphs body) subs' rest2 (hereat (S lv) l' g') ltac:(lia) ltac:(lia) (HR (S lv)) OV) as (bs & ys & s1 & R1 & F1 & F2 & H1).
      destruct (to_section (run (S n) P) lv ln' g' l' (S lv) h rest2 _ s1 OH ltac:(lia) R1 H1) as (ns & s2 & TS & HF & H2). rewrite TS. cbn [bind one_more].
      destruct (IH (S (S n)) ltac:(lia) lv [] subs rest s2 LV ltac:(cbn [length]; lia) H2 O) as (bs2 & ys2 & s3 & R3 & F3 & F4 & H3). inversion F3; subst. rewrite R3. cbn [bind app].
      exists [], (Sect no_meta (S lv) ns (bs ++ map BSection ys) :: ys2), s3. split; [reflexivity|]. split; [constructor|]. split; [|exact H3]. constructor; [now constructor|exact F4].
  - cbn [map app] in H. destruct (block_par (run n P) lv s par _ H) as (b & s1 & B & BF & H1). rewrite B. cbn [bind one_more length] in *.
    destruct (IH (S n) ltac:(lia) lv pars subs rest s1 LV ltac:(lia) H1 O) as (bs & ys & s2 & R & F1 & F2 & H2). rewrite R. exists (b :: bs), ys, s2. split; [reflexivity|]. split; [now constructor|]. now split.
Qed.
(** the text before the first section *)
Lemma loop_intro : forall pars s n rest, holds 0 s (map EPar pars ++ rest) -> over 0 rest -> length pars + 2 <= n -> exists bs s', run n P _ BlockLoop s = Yes bs s' /\ Forall2 block_for bs pars /\ holds 0 s' rest.
Proof.
  induction pars as [|par pars IH]; intros s n rest H O L; (destruct n as [|[|n]]; [cbn in L; lia..|]); rewrite run_block_loop.
  - cbn [map app] in H. destruct (block_over (run n P) 0 s rest H O) as (s' & B & H'). exists [], s'. rewrite B. repeat split; auto.
  - cbn [map app] in H. destruct (block_par (run n P) 0 s par _ H) as (b & s1 & B & BF & H1). rewrite B. cbn [bind one_more]. destruct (IH s1 (S n) rest H1 O) as (bs & s2 & R & F & H2); [cbn in L; lia|]. exists (b :: bs), s2. rewrite R. repeat split; auto.
Qed.
Lemma section_loop : forall subs n s, 2 + list_sum (map weight subs) <= n -> holds 0 s (flat_map (sec_elems 1) subs) -> exists ys s', run n P _ SectionLoop s = Yes ys s' /\ Forall2 (sect_for 1) ys subs.
Proof.
  induction subs as [|[h body subs'] subs IH]; intros n s W H; (destruct n as [|[|n]]; [lia..|]);
    change (run (S (S n)) P _ SectionLoop s) with (take (x, s) := section P (run (S n) P) s in one_more (run (S n) P) SectionLoop x s); unfold section; change (run (S n) P _ Peek s) with (peek_section P (run n P) s).
  - cbn [flat_map] in H. apply read_holds in H. exists [], (hereat 0 [] []). split; [|constructor]. unfold peek_section. now rewrite H.
  - cbn [map flat_map sec_elems app] in H. cbn [map list_sum fold_right weight] in W. rewrite <- !app_assoc in H. change (fold_right Nat.add 0 (map weight subs)) with (list_sum (map weight subs)) in W.
    destruct (peek_head (run n P) 0 _ _ _ _ H) as (ln & g & l & PK & OH & _ & HR). rewrite PK. cbn [bind semantic Nat.eqb].
    assert (OV : over 1 (flat_map (sec_elems 1) subs)) by (destruct subs as [|[h2 b2 s2] subs]; cbn [flat_map sec_elems app]; [exact I|right; lia]).
    destruct (loop_sections (S n) 1 (paragraphs body) subs' (flat_map (sec_elems 1) subs) (hereat 1 l g) (le_n 1) ltac:(lia) (HR 1) OV) as (bs & ys & s1 & R1 & F1 & F2 & H1).
    destruct (to_section (run (S n) P) 0 ln g l 1 h _ _ s1 OH (le_n 1) R1 H1) as (ns & s2 & TS & HF & H2). rewrite TS. cbn [bind one_more]. destruct (IH (S n) s2 ltac:(lia) H2) as (ys2 & s3 & R3 & F3). rewrite R3. cbn [bind].
    exists (Sect no_meta 1 ns (bs ++ map BSection ys) :: ys2), s3. split; [reflexivity|]. constructor; [now constructor|exact F3].
Qed.
End Parse.
