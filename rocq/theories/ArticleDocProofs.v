(** The trees of articles (C70). *)
From Verif Require Import Base Utf8 LexerModel LineModel SubsModel InlineModel InlineSpec BlockModel BlockSpec HeaderModel WholeModel WholeSpec WholeLexProofs WholePieceProofs WholeInlineProofs WholeBlockProofs.
From Verif Require Import ArticleModel ArticleLexProofs ArticleBlockProofs ArticleSpec.
Import ListNotations.
Open Scope list_scope.
Open Scope nat_scope.

(** induction over sections and their subsections *)
Lemma section_rect' (Q : section -> Prop) : (forall h body subs, Forall Q subs -> Q (Sec h body subs)) -> forall s, Q s.
Proof. intros H. fix IH 1. intros [h body subs]. apply H. induction subs as [|s subs IHs]; constructor; [apply IH|exact IHs]. Qed.

(** ** The rows of an article *)
Fixpoint sec_rows (n : nat) (s : section) : list row := match s with Sec h body subs => Text [] :: Head n h :: map Text body ++ flat_map (sec_rows (S n)) subs end.
Definition secs_rows n (l : list section) := flat_map (sec_rows n) l.
Definition below_title (a : article) : list row := map Text (intro a) ++ flat_map (sec_rows 1) (sections a).
Definition all_rows (a : article) : list row := match title a with Some t => [Head 0 t; Text []] | None => [] end ++ below_title a.
Definition first_rows (rs : list row) : list row := match rs with Text [] :: r => r | _ => rs end.
Lemma sec_blank n s X : blank_first (sec_rows n s ++ X).
Proof. now destruct s. Qed.
Lemma secs_blank n l X : blank_first X -> blank_first (flat_map (sec_rows n) l ++ X).
Proof. destruct l as [|s l]; [auto|]. intros _. cbn [flat_map]. rewrite <- app_assoc. apply sec_blank. Qed.
Lemma sec_lines : forall s n, section_lines n s = map row_source (sec_rows n s).
Proof.
  induction s as [h body subs IH] using section_rect'. intros n. cbn [section_lines sec_rows map row_source]. change (line_source []) with (@nil ascii). f_equal. f_equal. rewrite map_app, map_map. f_equal.
  induction IH as [|s subs I _ IHs]; [reflexivity|]. cbn [flat_map]. rewrite map_app, I. f_equal. exact IHs.
Qed.
Lemma article_rows a : article_lines a = map row_source (all_rows a).
Proof.
  unfold article_lines, all_rows, below_title. rewrite !map_app, map_map. f_equal; [now destruct (title a)|]. f_equal. induction (sections a) as [|s l IH]; [reflexivity|]. cbn [flat_map]. rewrite map_app, sec_lines. f_equal. exact IH.
Qed.
Lemma heads_row n h : n <= 5 -> heading_ok h = true -> row_ok (Head n h) = true.
Proof.
  intros N H. cbn [row_ok]. apply Nat.leb_le in N. rewrite N. cbn [andb]. unfold heading_ok in H. destruct h as [|i h]; [discriminate H|]. rewrite forallb_forall in *. intros [p x] I. specialize (H _ I). unfold item_ok. cbn [fst snd] in *. destruct p; [exact H|discriminate H|exact H].
Qed.
Lemma texts_rows l : forallb line_ok l = true -> forallb row_ok (map Text l) = true.
Proof. induction l as [|x l IH]; [auto|]. cbn [forallb map row_ok]. intros H. apply andb_true_iff in H as [-> H]. now apply IH. Qed.
Lemma sec_rows_ok : forall s n, section_ok n s = true -> forallb row_ok (sec_rows n s) = true.
Proof.
  induction s as [h body subs IH] using section_rect'. intros n H. cbn [section_ok] in H. apply andb_true_iff in H as [H S]. apply andb_true_iff in H as [H B]. apply andb_true_iff in H as [N H]. apply Nat.leb_le in N.
  cbn [sec_rows]. cbn [forallb]. rewrite (heads_row n h N H). change (row_ok (Text [])) with true. cbn [andb]. rewrite forallb_app, (texts_rows body B). cbn [andb].
  induction IH as [|s subs I _ IHs]; [reflexivity|]. cbn [forallb] in S. apply andb_true_iff in S as [S1 S]. cbn [flat_map]. rewrite forallb_app, (I _ S1). now apply IHs.
Qed.
Lemma secs_rows_ok l n : forallb (section_ok n) l = true -> forallb row_ok (flat_map (sec_rows n) l) = true.
Proof. induction l as [|s l IH]; [auto|]. cbn [forallb flat_map]. intros H. apply andb_true_iff in H as [S H]. rewrite forallb_app, (sec_rows_ok s n S). now apply IH. Qed.
Lemma below_ok a : article_ok a = true -> forallb row_ok (below_title a) = true.
Proof.
  unfold article_ok. intros H. apply andb_true_iff in H as [H S]. apply andb_true_iff in H as [_ I]. unfold below_title. rewrite forallb_app, (texts_rows _ I). cbn [andb]. now apply secs_rows_ok.
Qed.
Lemma title_ok a t : article_ok a = true -> title a = Some t -> heading_ok t = true.
Proof. unfold article_ok. intros H E. rewrite E in H. apply andb_true_iff in H as [H _]. now apply andb_true_iff in H as [H _]. Qed.
Lemma all_rows_ok a : article_ok a = true -> forallb row_ok (all_rows a) = true.
Proof.
  intros H. unfold all_rows. rewrite forallb_app, (below_ok a H), andb_true_r. destruct (title a) as [t|] eqn:E; [|reflexivity]. cbn [forallb]. rewrite (heads_row 0 t) by (try lia; now apply title_ok with a). reflexivity.
Qed.

(** ** Their elements *)
Lemma par_elems X ls : blank_first X -> forall cur, elems_from cur (map Text ls ++ X) = map EPar (paragraphs_from cur ls) ++ elems X.
Proof.
  intros B. induction ls as [|l ls IH]; intros cur; cbn [map app].
  - rewrite elems_blank by exact B. now destruct cur.
  - destruct l as [|i l]; cbn [elems_from paragraphs_from]; [|apply IH]. rewrite IH. destruct cur; reflexivity.
Qed.
Lemma par_apart X ls : blank_first X -> forall b, apart b (map Text ls ++ X) = apart false X.
Proof. intros B. induction ls as [|l ls IH]; intros b0; [now apply apart_blank|]. cbn [map app apart]. apply IH. Qed.
Lemma sec_elems_rows : forall s n X, blank_first X -> elems (sec_rows n s ++ X) = sec_elems n s ++ elems X.
Proof.
  induction s as [h body subs IH] using section_rect'. intros n X B. cbn [sec_rows sec_elems app]. change (elems (Text [] :: Head n h :: ?r)) with (EHead n h :: elems r). f_equal. rewrite <- !app_assoc. unfold elems at 1. rewrite par_elems by now apply secs_blank. unfold paragraphs. f_equal.
  induction IH as [|s subs I _ IHs]; [reflexivity|]. cbn [flat_map]. rewrite <- !app_assoc. rewrite I by now apply secs_blank. f_equal. exact IHs.
Qed.
Lemma secs_elems_rows l n X : blank_first X -> elems (flat_map (sec_rows n) l ++ X) = flat_map (sec_elems n) l ++ elems X.
Proof. intros B. induction l as [|s l IH]; [reflexivity|]. cbn [flat_map]. rewrite <- !app_assoc. rewrite sec_elems_rows by now apply secs_blank. f_equal. exact IH. Qed.
Lemma sec_apart : forall s n X b, blank_first X -> apart b (sec_rows n s ++ X) = apart false X.
Proof.
  induction s as [h body subs IH] using section_rect'. intros n X b B. cbn [sec_rows app apart negb andb]. rewrite <- app_assoc, par_apart by now apply secs_blank.
  induction IH as [|s subs I _ IHs]; [reflexivity|]. cbn [flat_map]. rewrite <- !app_assoc. rewrite I by now apply secs_blank. exact IHs.
Qed.
Lemma below_elems a : elems (below_title a) = map EPar (paragraphs (intro a)) ++ flat_map (sec_elems 1) (sections a).
Proof.
  unfold below_title. rewrite <- (app_nil_r (flat_map (sec_rows 1) _)). unfold elems. rewrite par_elems by now apply secs_blank. unfold paragraphs. f_equal. rewrite secs_elems_rows by exact I. apply app_nil_r.
Qed.
Lemma below_apart a : apart false (below_title a) = true.
Proof.
  unfold below_title. rewrite <- (app_nil_r (flat_map (sec_rows 1) _)). rewrite par_apart by now apply secs_blank. induction (sections a) as [|s l IH]; [reflexivity|]. cbn [flat_map]. rewrite <- app_assoc. rewrite sec_apart by now apply secs_blank. exact IH.
Qed.
Lemma elems_first rs : elems (first_rows rs) = elems rs.
Proof. destruct rs as [|[[|i l]|n l] rs]; reflexivity. Qed.
Lemma apart_first rs : apart false (first_rows rs) = apart false rs.
Proof. destruct rs as [|[[|i l]|n l] rs]; reflexivity. Qed.
Lemma first_ok rs : forallb row_ok rs = true -> forallb row_ok (first_rows rs) = true.
Proof. destruct rs as [|[[|i l]|n l] rs]; auto. Qed.

(** ** How many steps they take *)
Lemma few_paragraphs' ls : length (paragraphs ls) <= length ls.
Proof. assert (H : length (paragraphs ls) <= length ls + 0) by exact (few_paragraphs ls []). lia. Qed.
Lemma sec_weight : forall s n, ArticleBlockProofs.weight s <= 2 * length (sec_rows n s).
Proof.
  induction s as [h body subs IH] using section_rect'. intros n. cbn [ArticleBlockProofs.weight sec_rows length]. rewrite app_length, map_length. pose proof (few_paragraphs' body) as FP.
  assert (S : list_sum (map ArticleBlockProofs.weight subs) <= 2 * length (flat_map (sec_rows (S n)) subs)).
  { induction IH as [|s subs I _ IHs]; [cbn; lia|]. cbn [map flat_map list_sum fold_right]. rewrite app_length. specialize (I (S n)). unfold list_sum in IHs. lia. }
  lia.
Qed.
Lemma secs_weight l n : list_sum (map ArticleBlockProofs.weight l) <= 2 * length (flat_map (sec_rows n) l).
Proof. induction l as [|s l IH]; [cbn; lia|]. cbn [map flat_map list_sum fold_right]. rewrite app_length. pose proof (sec_weight s n). unfold list_sum in IH. lia. Qed.
Lemma many_rows rs : forall p prev, length rs <= src_size (rows_at p prev rs) + 1.
Proof.
  induction rs as [|l ls IH]; intros p prev; [cbn; lia|]. destruct ls as [|m ls]; [cbn [length]; lia|]. specialize (IH (p + length (row_source l) + 1) (Some LF)). rewrite rows_at_cons, src_size_cons. cbn [length] in *. lia.
Qed.

(** ** The document *)
Section Parse.
Variables (P : params) (author_set revision_line : iline -> bool).
Hypothesis no_subs : custom_subs P [] normal = normal.
Hypothesis no_offset : forall n, n <= 5 -> adjust P n = n.
Lemma starts_holds rs : forallb row_ok rs = true -> apart false rs = true -> holds 0 (hereat 0 (rows_at 0 None rs) []) (elems rs).
Proof.
  intros OK A. exists (rows_at 0 None rs), [], [], [], (elems rs). split; [reflexivity|]. split; [exists [], []; repeat split; constructor|]. split; [|reflexivity]. exists 0, None, rs. repeat split; auto. now left.
Qed.
(** without a title: what the header reads is put back *)
Lemma header_none s es : holds 0 s es -> peeked s = [] -> match es with EHead 0 _ :: _ => False | _ => True end ->
  exists s', document_header P author_set revision_line s = Yes (Header None None None []) s' /\ holds 0 s' es.
Proof.
  intros H PK NT. unfold document_header. cbn [front]. pose proof H as H0. destruct es as [|[n h|par] es].
  - apply read_holds in H. rewrite H. exists (hereat 0 [] []). split; [reflexivity|apply holds_end].
  - destruct (read_head 0 s n h es H) as (ln & g & l & R & OH & HP & _). rewrite R. destruct (head_facts P no_offset ln n h OH) as (L & _ & AL & AN & CM & _ & AD & CD & _). cbn [drop_comments]. rewrite CM, AD, CD. cbn [bind fst snd is_doc_header].
    rewrite L. exists (hereat 0 l (ln :: g)). split; [|exact HP]. destruct n as [|n]; [easy|]. rewrite CM, AL, AN. cbn [orb]. rewrite AD. reflexivity.
  - apply read_holds in H as (g & heads & par' & l & rest & R & G & U & E & NE). destruct (group_par _ _ _ _ _ _ G E NE) as [GO ->]. rewrite R. exists (hereat 0 l g). split.
    2:{ exists l, g, heads, par', rest. repeat split; auto. }
    pose proof (first_of g par GO) as (ln & r & -> & T & UN & N). cbn [drop_comments]. rewrite (text_comment ln T).
    assert (AD : attr_decl ln = false /\ comment_delimiter ln = false) by (unfold attr_decl, comment_delimiter; first_kind T HH; (split; [reflexivity|]); [now destruct u|reflexivity..]). destruct AD as [AD CD]. rewrite AD, CD. cbn [bind fst snd is_doc_header].
    rewrite (text_heading P ln T). destruct (text_attr ln T) as [-> ->]. rewrite (text_comment ln T). cbn [orb]. rewrite AD. reflexivity.
Qed.
Lemma group_stops p prev rs : group (rows_at p prev (Text [] :: rs)) = ([], rows_at p prev (Text [] :: rs)).
Proof. destruct rs; reflexivity. Qed.
Lemma header_title t rs : heading_ok t = true -> forallb row_ok rs = true -> apart false rs = true ->
  exists ns s', document_header P author_set revision_line (hereat 0 (rows_at 0 None (Head 0 t :: Text [] :: rs)) []) = Yes (Header (Some (no_meta, ns)) None None []) s' /\ head_for ns t /\ holds 0 s' (elems rs).
Proof.
  intros HK OK AP. assert (RK : row_ok (Head 0 t) = true) by (apply heads_row; [lia|exact HK]). assert (HL : heads_line t) by (cbn [row_ok Nat.leb andb] in RK; destruct t; [discriminate RK|split; [discriminate|exact RK]]).
  pose proof (of_head_lay 0 t 0 None ltac:(lia) HL) as OH. rewrite rows_at_cons. set (p2 := 0 + length (row_source (Head 0 t)) + 1). set (l2 := rows_at p2 (Some LF) (Text [] :: rs)). set (ln := InlineSpec.line_of (lay 0 None (row_pieces (Head 0 t)))) in *.
  assert (R : read_lines (hereat 0 (lay 0 None (row_pieces (Head 0 t)) :: l2) []) = ([ln], hereat 0 l2 [])).
  { unfold read_lines. cbn [peeked hereat src skip_empty]. rewrite head_emptyish. unfold l2 at 1. rewrite group_stops. reflexivity. }
  unfold document_header. cbn [front]. rewrite R. destruct (head_facts P no_offset ln 0 t OH) as (L & _ & AL & AN & CM & _ & AD & CD & _). cbn [drop_comments]. rewrite CM, AD, CD. cbn [bind fst snd is_doc_header]. rewrite L.
  replace (skip_attrs [ln]) with [ln] by (cbn [skip_attrs]; rewrite ?AD, ?CM; reflexivity). unfold title_author_revision. rewrite (meta_head P no_offset 0 ln 0 t [] l2 OH). cbn [bind fst snd]. rewrite L.
  destruct OH as (M & O & _ & _ & i & j & p & T). cbn [fst snd] in *. assert (TT : title_text ln = Ret (adv ln (lay p (Some " "%char) (line_pieces t)))) by (unfold title_text; rewrite T; reflexivity). rewrite TT.
  unfold inlines. change (ist (hereat 0 l2 [])) with (start normal).
  destruct (parse_heading (env_of P (hereat 0 l2 [])) (start normal) (adv ln (lay p (Some " "%char) (line_pieces t))) t p (Some " "%char) (stops_free P 0 l2 []) ltac:(repeat split) HL M eq_refl ltac:(right; left; reflexivity)) as (ns & HF & E).
  { cbn [toks adv orig]. rewrite O, T. cbn [length]. lia. }
  rewrite E. cbn [bind fst]. change (with_ist (start normal) (hereat 0 l2 [])) with (hereat 0 l2 []). cbn [first_line]. cbn [bind]. exists ns, (hereat 0 l2 []). split; [reflexivity|]. split; [exact HF|].
  exists l2, [], [], [], (elems rs). split; [reflexivity|]. split; [exists [], []; repeat split; constructor|]. split; [|reflexivity]. exists p2, (Some LF), (Text [] :: rs). repeat split; auto. right. right. reflexivity.
Qed.
Lemma secs_over l : over 0 (flat_map (sec_elems 1) l).
Proof. destruct l as [|[h body subs] l]; cbn [flat_map sec_elems app over]; [exact I|]. left. lia. Qed.
(** in an article, and in a book without text before the first section *)
Lemma article_document s pars subs n : holds 0 s (map EPar pars ++ flat_map (sec_elems 1) subs) -> book P = false \/ pars = [] -> 5 + length pars + list_sum (map ArticleBlockProofs.weight subs) <= n ->
  exists bs ys c s', document n P s = Yes c s' /\ (c = Sections bs ys \/ ys = [] /\ c = Blocks bs) /\ Forall2 block_for bs pars /\ Forall2 (sect_for 1) ys subs.
Proof.
  intros H BK N. unfold document. destruct n as [|[|[|n]]]; [lia..|]. set (m := S (S n)) in *. change (run (S m) P _ Book ?s) with (parse_book P (run m P) s). unfold parse_book.
  assert (SE : forall m s, 4 + length pars + list_sum (map ArticleBlockProofs.weight subs) <= m -> holds 0 s (map EPar pars ++ flat_map (sec_elems 1) subs) -> exists bs ys s', sectioned (run m P) s = Yes (bs, ys) s' /\ Forall2 block_for bs pars /\ Forall2 (sect_for 1) ys subs).
  { clear s H m N. intros m s N H. destruct (loop_intro P no_subs no_offset pars s m _ H (secs_over subs) ltac:(lia)) as (bs & s1 & R1 & F1 & H1). destruct (section_loop P no_subs no_offset subs m s1 ltac:(lia) H1) as (ys & s2 & R2 & F2).
    exists bs, ys, s2. split; [|now split]. unfold sectioned. rewrite R1. cbn [bind]. now rewrite R2. }
  destruct (book P); cbn [negb bind].
  - destruct BK as [BK| ->]; [discriminate BK|]. cbn [map app length] in *.
    assert (PK : forall k s, holds 0 s (flat_map (sec_elems 1) subs) -> (subs = [] /\ run (S k) P _ Peek s = Yes None (hereat 0 [] [])) \/
                   exists ln g l h, run (S k) P _ Peek s = Yes (Some (Peeked no_meta (ln :: g) 1 1)) (hereat 0 l []) /\ holds 0 (hereat 0 l (ln :: g)) (flat_map (sec_elems 1) subs) /\ of_head ln (1, h)).
    { clear - no_offset. intros k s H. change (run (S k) P _ Peek s) with (peek_section P (run k P) s). destruct subs as [|[h body subs'] subs].
      - left. split; [reflexivity|]. cbn [flat_map] in H. apply read_holds in H. unfold peek_section. now rewrite H.
      - right. cbn [flat_map sec_elems app] in H |- *. destruct (peek_head P no_offset (run k P) 0 _ _ _ _ H) as (ln & g & l & PK & OH & HP & _). exists ln, g, l, h. auto. }
    (* nothing special at the start *)
    assert (SP : exists s1, run m P _ SpecialLoop s = Yes [] s1 /\ holds 0 s1 (flat_map (sec_elems 1) subs)).
    { change (run m P _ SpecialLoop s) with (take (x, s) := special_sect P (run (S n) P) s in one_more (run (S n) P) SpecialLoop x s). unfold special_sect. destruct (PK n s H) as [[-> ->]|(ln & g & l & h & -> & HP & OH)].
      - exists (hereat 0 [] []). split; [reflexivity|apply holds_end].
      - exists (hereat 0 l (ln :: g)). split; [|exact HP]. cbn [bind]. change (special P (Peeked no_meta (ln :: g) 1 1)) with false. reflexivity. }
    destruct SP as (s1 & -> & H1). cbn [bind]. rewrite andb_false_r. unfold book_part. destruct (PK (S n) s1 H1) as [[-> R1]|(ln & g & l & h & R1 & HP & OH)].
    + change (run m P _ Peek s1) with (run (S (S n)) P _ Peek s1). rewrite R1. cbn [bind]. change (run m P _ Peek (hereat 0 [] [])) with (Yes (@None peeked_section) (hereat 0 [] [])). cbn [bind]. exists [], [], (Blocks []), (hereat 0 [] []).
      split; [reflexivity|]. split; [now right|]. split; constructor.
    + change (run m P _ Peek s1) with (run (S (S n)) P _ Peek s1). rewrite R1. cbn [bind authored Nat.eqb negb orb ps_lines ps_meta]. change (restore_peeked P (ln :: g) no_meta (hereat 0 l [])) with (Yes tt (hereat 0 l (ln :: g))). cbn [bind].
      destruct (PK (S n) _ HP) as [[E R2]|(ln2 & g2 & l2 & h2 & R2 & HP2 & OH2)].
      * change (run m P _ Peek (hereat 0 l (ln :: g))) with (run (S (S n)) P _ Peek (hereat 0 l (ln :: g))). rewrite R2. cbn [bind]. subst subs. exfalso. destruct HP as (l0 & g0 & heads & par & rest & E & G & _ & E2). injection E as <- <-. destruct G as (g1 & g3 & E & F & T & _). destruct heads; [|discriminate E2]. destruct par; [|discriminate E2]. inversion F; inversion T; subst. discriminate E.
      * change (run m P _ Peek (hereat 0 l (ln :: g))) with (run (S (S n)) P _ Peek (hereat 0 l (ln :: g))). rewrite R2. cbn [bind ps_lines ps_meta]. change (restore_peeked P (ln2 :: g2) no_meta (hereat 0 l2 [])) with (Yes tt (hereat 0 l2 (ln2 :: g2))). cbn [bind].
        destruct (SE m _ ltac:(lia) HP2) as (bs & ys & s3 & R3 & F1 & F2). rewrite R3. exists bs, ys, (Sections bs ys), s3. split; [reflexivity|]. split; [now left|]. now split.
  - destruct (SE (S m) s ltac:(lia) H) as (bs & ys & s' & R & F1 & F2). rewrite R. exists bs, ys, (Sections bs ys), s'. split; [reflexivity|]. split; [now left|]. now split.
Qed.
Definition title_for (o : option (list inode)) (t : option line) : Prop := match o, t with None, None => True | Some ns, Some h => head_for ns h | _, _ => False end.
Lemma whole_article plugins a : article_ok a = true -> book P = false \/ paragraphs (intro a) = [] ->
  exists o bs ys c, parse plugins P author_set revision_line (source a) = Some (o, c) /\ title_for o (title a) /\ (c = Sections bs ys \/ ys = [] /\ c = Blocks bs) /\ Forall2 block_for bs (paragraphs (intro a)) /\ Forall2 (sect_for 1) ys (sections a).
Proof.
  intros OK BK. pose proof (below_elems a) as BE. pose proof (below_apart a) as BA. pose proof (below_ok a OK) as BO. pose proof (all_rows_ok a OK) as AO.
  assert (S : source a = rows_source (first_rows (all_rows a))).
  { unfold source, rows_source. f_equal. rewrite article_rows. destruct (all_rows a) as [|[[|[p x] l]|n l] rs]; try reflexivity. cbn [map first_rows row_source]. cbn [forallb row_ok] in AO. apply andb_true_iff in AO as [L _]. apply line_items in L. cbn [forallb] in L. apply andb_true_iff in L as [L _].
    pose proof (solid_item (p, x) L) as (c & r & E & _). rewrite flat_item in E. cbn [fst snd] in E. unfold line_source. cbn [map join fst snd]. destruct l; [rewrite E; reflexivity|]. cbn [map join]. destruct (phrase_source p ++ x) eqn:EE; [discriminate E|reflexivity]. }
  unfold parse. rewrite S, (lex_rows plugins _ (first_ok _ AO)). set (rs := first_rows (all_rows a)) in *. set (n := enough_steps (rows_at 0 None rs)). change (fresh normal (rows_at 0 None rs)) with (hereat 0 (rows_at 0 None rs) []).
  assert (N : 5 + length (paragraphs (intro a)) + list_sum (map ArticleBlockProofs.weight (sections a)) <= n).
  { pose proof (secs_weight (sections a) 1). pose proof (few_paragraphs' (intro a)). pose proof (many_rows rs 0 None). assert (length (below_title a) <= length rs + 1).
    { unfold rs. assert (length (below_title a) <= length (all_rows a)) by (unfold all_rows; rewrite app_length; lia). assert (length (all_rows a) <= length (first_rows (all_rows a)) + 1) by (destruct (all_rows a) as [|[[|i l]|k l] r]; cbn; lia). lia. }
    unfold below_title in *. rewrite app_length, map_length in *. unfold n, enough_steps. lia. }
  assert (HD : exists o s1, document_header P author_set revision_line (hereat 0 (rows_at 0 None rs) []) = Yes (Header (match o with Some ns => Some (no_meta, ns) | None => None end) None None []) s1 /\ title_for o (title a) /\ holds 0 s1 (elems (below_title a))).
  { unfold rs, all_rows. destruct (title a) as [t|] eqn:T.
    - destruct (header_title t (below_title a) (title_ok a t OK T) BO BA) as (ns & s1 & R & HF & H). exists (Some ns), s1. auto.
    - cbn [app]. rewrite <- elems_first. assert (H := starts_holds (first_rows (below_title a)) (first_ok _ BO) ltac:(now rewrite apart_first)). destruct (header_none _ _ H eq_refl) as (s1 & R & H1).
      + rewrite elems_first, BE. destruct (paragraphs (intro a)) as [|par pars]; [|exact I]. destruct (sections a) as [|[h body subs] l]; exact I.
      + exists None, s1. split; [exact R|]. split; [exact I|exact H1]. }
  destruct HD as (o & s1 & R1 & TF & H1). rewrite BE in H1. destruct (article_document s1 _ _ n H1 BK N) as (bs & ys & c & s2 & R2 & C & F1 & F2). exists o, bs, ys, c. split; [|auto]. unfold whole_document. rewrite R1. cbn [bind]. rewrite R2. cbn [bind]. destruct o; reflexivity.
Qed.
End Parse.
