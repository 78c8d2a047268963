(** What the block parser makes of a text with lists and delimited blocks (C71, C72, C74). *)
From Verif Require Import Base Utf8 LexerModel LineModel SubsModel InlineModel InlineSpec BlockModel BlockSpec HeaderModel WholeModel WholeSpec WholeLexProofs WholePieceProofs WholeInlineProofs WholeBlockProofs.
From Verif Require Import OutlineModel OutlineLexProofs OutlineSpec BoxSpec.
From Verif Require ListStackModel InlineTermProofs ArticleBlockProofs.
Module LS := ListStackModel.
Module AB := ArticleBlockProofs.
Import ListNotations.
Open Scope list_scope.
Open Scope nat_scope.

(** ** The lines with markers *)
Definition mk (k : list_kind) (n : nat) : LS.marker := match k with Bulleted => LS.Star n | Numbered => LS.Dot n end.
Definition of_mark (ln : iline) (k : list_kind) (n : nat) (l : line) : Prop :=
  mild ln /\ orig ln = length (toks ln) /\ 1 <= n <= 255 /\ words_ok l = true /\ exists p prev, toks ln = lay p prev (row_pieces (Mark k n l)).
Lemma mark_ordinary k n l p prev : words_ok l = true -> all_ordinary (lay p prev (row_pieces (Mark k n l))) = true.
Proof.
  intros W. cbn [row_pieces]. rewrite lay_app. unfold all_ordinary. rewrite forallb_app. apply andb_true_iff. split.
  - apply ordinary_lay. destruct k; cbn [mark_pieces]; [|reflexivity]. induction n as [|n IH]; [reflexivity|]. exact IH.
  - cbn [lay space forallb]. change (existsb (kind_eqb (tk (TokI Whitespace ($" ") _))) ordinary) with true. cbn [andb]. apply ordinary_line. now apply words_items.
Qed.
Lemma of_mark_lay k n l p prev : 1 <= n <= 255 -> words_ok l = true -> of_mark (InlineSpec.line_of (lay p prev (row_pieces (Mark k n l)))) k n l.
Proof. intros N W. rewrite line_of_ordinary by now apply mark_ordinary. split; [now split|]. split; [reflexivity|]. split; [exact N|]. split; [exact W|]. now exists p, prev. Qed.
(** the first tokens *)
Lemma mark_first ln k n l : of_mark ln k n l -> exists t u, toks ln = t :: u /\ tk t = match k with Bulleted => Star | Numbered => Dots end /\ all_ordinary u = true /\ (n = 1 \/ k = Numbered -> current_is Whitespace u = true) /\ 2 <= length u.
Proof.
  intros (_ & _ & N & W & p & prev & T). pose proof (mark_ordinary k n l p prev W) as O. rewrite <- T in O. cbn [row_pieces] in T. destruct n as [|n]; [lia|].
  assert (L : 1 <= length (line_pieces l)). { destruct l as [|i l]; [discriminate W|]. pose proof (line_ordinary (i :: l) 0 None ltac:(discriminate) (words_items _ W)) as LO. destruct (line_pieces (i :: l)); [discriminate LO|cbn; lia]. }
  destruct k; cbn [mark_pieces repeat app lay] in T.
  - exists (TokI Star ($"*") (Info false p prev 0)), (lay (p + length ($"*")) (final prev ($"*")) (repeat (Star, $"*") n ++ space :: line_pieces l)). split; [exact T|]. rewrite T in O. cbn [all_ordinary forallb] in O. apply andb_true_iff in O as [_ O].
    repeat split; [exact O| |]; [intros [E|E]; [injection E as ->; reflexivity|discriminate E]|]. rewrite lay_length, app_length. cbn [length]. unfold piece in *. lia.
  - eexists. eexists. split; [exact T|]. rewrite T in O. cbn [all_ordinary forallb] in O. apply andb_true_iff in O as [_ O]. repeat split; [exact O|]. unfold space. cbn [lay length]. rewrite lay_length. unfold piece in *. lia.
Qed.
Lemma mark_emptyish k n l p prev : 1 <= n -> emptyish (lay p prev (row_pieces (Mark k n l))) = false /\ exists t u, lay p prev (row_pieces (Mark k n l)) = t :: u.
Proof. intros N. destruct n as [|n]; [lia|]. destruct k; cbn [row_pieces mark_pieces repeat app lay]; (split; [reflexivity|eexists; eexists; reflexivity]). Qed.
Ltac mark_kind_of M t u T OD W L := let K := fresh "K" in apply mark_first in M as (t & u & T & K & OD & W & L); destruct t as [? ? ?]; cbn [tk] in K; subst.
Lemma mark_comment ln k n l : of_mark ln k n l -> is_comment ln = false.
Proof. intros M. unfold is_comment. mark_kind_of M t u T OD W L. rewrite T. destruct k; apply andb_false_r. Qed.
Lemma mark_attr ln k n l : of_mark ln k n l -> attr_list_line ln = false /\ anchor_line ln = false.
Proof. intros M. unfold attr_list_line, anchor_line. mark_kind_of M t u T OD W L. rewrite T. destruct k; (split; [apply andb_false_r|reflexivity]). Qed.
Lemma mark_title ln k n l : of_mark ln k n l -> chunk_title ln = false.
Proof.
  intros M. unfold chunk_title. mark_kind_of M t u T OD W L. rewrite T. destruct u as [|v u]; [destruct k; reflexivity|]. destruct k; [reflexivity|]. assert (E : is_k Whitespace v = true) by exact (W (or_intror eq_refl)). rewrite E. cbn [negb]. now rewrite andb_false_r.
Qed.
Lemma mark_macro ln k n l : of_mark ln k n l -> is_block_macro (toks ln) = false.
Proof. intros M. mark_kind_of M t u T OD W L. rewrite T. destruct k; reflexivity. Qed.
Lemma mark_unadjusted ln k n l : of_mark ln k n l -> unadjusted_level (toks ln) = None.
Proof. intros M. mark_kind_of M t u T OD W L. rewrite T. destruct k; reflexivity. Qed.
Lemma mark_heading P ln k n l : of_mark ln k n l -> heading_level P (toks ln) = None.
Proof. intros M. unfold heading_level. now rewrite (mark_unadjusted _ _ _ _ M). Qed.
Lemma reassembled_lay l : forall p prev, forallb (fun x : piece => existsb (kind_eqb (fst x)) ordinary) l = true -> reassembled (lay p prev l) = flat l.
Proof.
  induction l as [|[k x] l IH]; intros p prev H; [reflexivity|]. cbn [forallb fst] in H. apply andb_true_iff in H as [K H]. cbn [lay]. unfold reassembled. cbn [flat_map]. fold (reassembled (lay (p + length x) (final prev x) l)). rewrite IH by exact H. rewrite flat_cons.
  f_equal. unfold LineModel.one_of. cbn [existsb tk]. destruct k; first [reflexivity|discriminate K].
Qed.
Lemma star_item_run n x c r : star_run ("*"%char :: x) = S n -> skipn (S n) ("*"%char :: x) = " "%char :: c :: r -> star_item ("*"%char :: x) = Some (S n).
Proof. intros S K. unfold star_item. change (mem "*"%char _) with false. cbn iota zeta. now rewrite S, K. Qed.
Lemma mark_marker ln k n l : of_mark ln k n l -> list_marker ln = Some (mk k n).
Proof.
  intros M. pose proof M as (_ & _ & N & W & p & prev & T). unfold list_marker. rewrite (mark_comment _ _ _ _ M). destruct n as [|n]; [lia|].
  assert (LP : exists kx lr, line_pieces l = kx :: lr /\ (fst kx = Star -> match lr with [] => True | y :: _ => fst y <> Whitespace end)).
  { destruct l as [|[ph x] l]; [discriminate W|]. cbn [words_ok forallb] in W. apply andb_true_iff in W as [W _]. apply andb_true_iff in W as [W _]. cbn [fst] in W. assert (G : forall m, exists kx lr, phrase_pieces ph ++ m = kx :: lr /\ (fst kx = Star -> match lr with [] => True | y :: _ => fst y <> Whitespace end)).
    { intros m. destruct ph as [w|c|st ws]; cbn [phrase_pieces app].
      - eexists. eexists. split; [reflexivity|]. unfold word_piece. cbn [fst]. intros E. exfalso. destruct (a_name w); discriminate E.
      - eexists. eexists. split; [reflexivity|]. cbn [fst]. unfold special_kind_of. intros E. exfalso. destruct (Ascii.eqb c "&"), (Ascii.eqb c "<"); discriminate E.
      - cbn [phrase_ok] in W. destruct ws as [|w ws]; [discriminate W|]. eexists. eexists. split; [reflexivity|]. intros _. cbn [forallb] in W. apply andb_true_iff in W as [W _]. destruct ws; cbn [map sepj app word_piece fst]; rewrite ?W; discriminate. }
    destruct l as [|j l]; cbn [line_pieces map sepj]; unfold item_pieces; cbn [fst snd]; [apply G|]. rewrite <- app_assoc. apply G. }
  destruct LP as ([k1 x1] & lr & LP & NS). cbn [fst] in NS.
  destruct k.
  - destruct n as [|n].
    + rewrite T. cbn [row_pieces mark_pieces repeat app lay space]. rewrite LP. cbn [lay]. cbn [orb current_is hd_error at_k is_k tk kind_eqb kind_beq nth_error is_some andb length].
      match goal with |- (if negb ?b then _ else _) = _ => replace b with false end; [reflexivity|]. symmetry. apply not_true_iff_false. intros E. apply andb_true_iff in E as [E E5]. apply andb_true_iff in E as [E E4]. apply andb_true_iff in E as [E E3].
      cbn [is_k tk] in E3. apply kind_eqb_eq in E3. specialize (NS E3). destruct lr as [|[k2 x2] lr]; [discriminate E4|]. cbn [lay nth_error at_k is_k tk] in E4. apply kind_eqb_eq in E4. now apply NS.
    + assert (R : reassembled (toks ln) = marker Bulleted (S (S n)) ++ $" " ++ line_source l).
      { rewrite T. rewrite reassembled_lay; [apply (flat_row (Mark Bulleted (S (S n)) l))|]. cbn [row_pieces mark_pieces]. rewrite forallb_app. apply andb_true_iff. split; [generalize (S (S n)); intros m; induction m as [|m IH]; [reflexivity|exact IH]|].
        pose proof (mark_ordinary Bulleted 0 l 0 None W) as O. cbn [row_pieces mark_pieces repeat app] in O. revert O. generalize (space :: line_pieces l) as q, 0, (@None ascii). clear. induction q as [|[k x] q IH]; intros p prev O; [reflexivity|].
        cbn [lay all_ordinary forallb tk] in O. apply andb_true_iff in O as [K O]. cbn [forallb fst]. rewrite K. now apply (IH _ _ O). }
      assert (SI : star_item (marker Bulleted (S (S n)) ++ $" " ++ line_source l) = Some (S (S n))).
      { assert (SR : forall m, star_run (marker Bulleted m ++ $" " ++ line_source l) = m /\ skipn m (marker Bulleted m ++ $" " ++ line_source l) = $" " ++ line_source l) by (induction m as [|m [I1 I2]]; [now split|]; split; [cbn; now rewrite <- I1 at 2|exact I2]).
        destruct (SR (S (S n))) as [S1 S2]. assert (SL : exists c r, line_source l = c :: r).
        { destruct (line_source l) as [|c r] eqn:LS; [|now exists c, r]. exfalso. destruct l as [|i l]; [discriminate W|]. pose proof (solid_item i ltac:(now apply words_items in W; cbn [forallb] in W; apply andb_true_iff in W as [W _])) as (c & t & S & _).
          unfold line_source in LS. rewrite flat_item in S. cbn [map join] in LS. unfold bytes in *. rewrite S in LS. destruct l; discriminate LS. }
        destruct SL as (c & r & SL). rewrite SL in *. now apply star_item_run with (c := c) (r := r). }
      rewrite R, SI. rewrite T. cbn [row_pieces mark_pieces repeat app lay]. cbn [orb current_is hd_error at_k is_k tk kind_eqb kind_beq nth_error is_some andb]. unfold LS.stars, mk. f_equal. f_equal. apply Nat.mod_small. lia.
  - rewrite T. cbn [row_pieces mark_pieces app lay space]. rewrite LP. cbn [lay]. cbn [orb current_is hd_error at_k is_k tk kind_eqb kind_beq nth_error is_some andb tx]. unfold LS.dots, mk. f_equal. f_equal. rewrite repeat_length. apply Nat.mod_small. lia.
Qed.
(** what is left of the line behind the marker *)
Lemma mark_rest ln k n l : of_mark ln k n l -> exists x r p, consume_until Whitespace (toks (trim_leading ln)) = Ret (x, r) /\ discard_assert Whitespace r = Ret (lay p (Some " "%char) (line_pieces l)) /\ length (lay p (Some " "%char) (line_pieces l)) <= orig ln.
Proof.
  intros M. pose proof M as (_ & O & N & W & p & prev & T). destruct n as [|n]; [lia|].
  assert (TL : toks (trim_leading ln) = toks ln). { unfold trim_leading. cbn [toks adv]. mark_kind_of M t u TT OO WW L. rewrite TT. destruct k; reflexivity. }
  rewrite TL, T. unfold consume_until. destruct (mark_emptyish k (S n) l p prev ltac:(lia)) as (_ & t & u & NE). rewrite NE. rewrite <- NE. cbn [row_pieces]. rewrite lay_app. cbn [lay space].
  assert (SU : forall q m, forallb (fun t => negb (is_k Whitespace t)) q = true -> exists x, string_until Whitespace (q ++ m) = (x ++ fst (string_until Whitespace m), snd (string_until Whitespace m))).
  { induction q as [|a q IH]; intros m H; [exists []; cbn [app]; now destruct (string_until Whitespace m)|]. cbn [forallb] in H. apply andb_true_iff in H as [A H]. apply negb_true_iff in A. cbn [app string_until]. rewrite A. destruct (IH m H) as (x & ->).
    destruct (one_of _ a); eexists; [reflexivity|]. now rewrite app_assoc. }
  match goal with |- context [string_until Whitespace (?q ++ ?m)] => destruct (SU q m) as (x & ->) end.
  { destruct k; cbn [mark_pieces]; [|reflexivity]. generalize (S n) p prev. clear. induction n as [|n IH]; intros p prev; [reflexivity|]. cbn [repeat lay forallb]. rewrite IH. reflexivity. }
  eexists. eexists. eexists. split; [reflexivity|]. split; [reflexivity|]. rewrite O, T, !lay_length. cbn [row_pieces]. rewrite app_length. cbn [length]. unfold piece in *. lia.
Qed.

(** ** Delimiters *)
Definition of_fence (ln : iline) (b : box) : Prop := exists p prev, ln = ILine [TokI DelimiterLine (delimiter_line b) (Info false p prev 0)] 1 false 0.
Definition box_delim (b : box) : delimiter :=
  match b with ExampleBox n => Delim DExample (4 + n) | SidebarBox => Delim DSidebar 4 | QuoteBox => Delim DBlockQuote 4 | OpenBox => Delim DOpen 2 | ListingBox => Delim DListing 4 | LiteralBox => Delim DLiteral 4 end.
Lemma fence_delim b j : box_ok b = true -> to_delimiter (TokI DelimiterLine (delimiter_line b) j) = Some (box_delim b).
Proof.
  intros H. destruct b as [n| | | | |]; [|reflexivity..]. cbn [box_ok] in H. apply Nat.leb_le in H. unfold to_delimiter. cbn [is_k tk tx]. change (kind_eqb DelimiterLine DelimiterLine) with true. cbn iota. cbn [delimiter_line box_delim]. rewrite repeat_length, Nat.mod_small by lia.
  replace (delimiter_kind (repeat "="%char (4 + n))) with DExample; [reflexivity|]. cbn [Nat.add repeat]. reflexivity.
Qed.
Lemma box_delim_eqb b c : delimiter_eqb (box_delim b) (box_delim c) = bytes_eqb (delimiter_line b) (delimiter_line c).
Proof.
  destruct b as [n| | | | |], c as [m| | | | |]; try reflexivity. unfold delimiter_eqb. cbn [box_delim dk dlen]. change (dkind_beq DExample DExample) with true. cbn [andb delimiter_line]. destruct (Nat.eqb_spec (4 + n) (4 + m)) as [E|E].
  - rewrite E. symmetry. now apply (proj2 (bytes_eqb_eq _ _)).
  - symmetry. apply not_true_iff_false. intros B. apply bytes_eqb_eq in B. apply E. apply (f_equal (@length _)) in B. now rewrite !repeat_length in B.
Qed.

(** ** Groups *)
Definition text_line (l : line) : Prop := l <> [] /\ forallb item_ok l = true.
Definition row_line (ln : iline) (r : row) : Prop := match r with Text l => WholeInlineProofs.of_line ln l /\ texty ln /\ text_line l | Mark k n l => of_mark ln k n l | Fence b => of_fence ln b /\ box_ok b = true | Head n l => AB.of_head ln (n, l) end.
Definition blank_first (rs : list row) : Prop := match rs with [] => True | r :: _ => r = Text [] end.
Fixpoint skip_rows (rs : list row) : list row := match rs with Text [] :: r => skip_rows r | _ => rs end.
Lemma skip_idem rs : skip_rows (skip_rows rs) = skip_rows rs.
Proof. induction rs as [|r rs IH]; [reflexivity|]. destruct r as [[|i l]|k n l|b|n l]; [exact IH|reflexivity..]. Qed.
Lemma skip_app rs Y : skip_rows (rs ++ Y) = match skip_rows rs with [] => skip_rows Y | rs' => rs' ++ Y end.
Proof. induction rs as [|r rs IH]; [reflexivity|]. destruct r as [[|i l]|k n l|b|n l]; [exact IH|reflexivity..]. Qed.
Lemma rows_at_cons p prev r m rs : rows_at p prev (r :: m :: rs) = lay p prev (row_pieces r) :: rows_at (p + length (row_source r) + 1) (Some LF) (m :: rs).
Proof. reflexivity. Qed.
(** a row that is not blank *)
Lemma full_row r p prev : row_ok r = true -> r <> Text [] -> before_phrase prev ->
  row_line (InlineSpec.line_of (lay p prev (row_pieces r))) r /\ emptyish (lay p prev (row_pieces r)) = false /\ exists t u, lay p prev (row_pieces r) = t :: u.
Proof.
  intros OK NB B. destruct r as [[|i l]|k n l|b|n l]; [easy| | | |].
  - cbn [row_ok row_pieces row_line] in *. destruct (of_line_lay i l p prev OK B) as [OL TX]. pose proof (line_ok_inv i l OK) as [OI _]. split; [split; [exact OL|split; [exact TX|split; [discriminate|exact OI]]]|]. split; [now apply emptyish_text|now apply nonempty_text].
  - cbn [row_ok row_line] in *. apply andb_true_iff in OK as [N W]. apply andb_true_iff in N as [N1 N2]. apply Nat.leb_le in N1, N2. split; [now apply of_mark_lay|]. now apply mark_emptyish.
  - cbn [row_pieces lay]. split; [split; [exists p, prev; reflexivity|exact OK]|]. split; [reflexivity|]. eexists. eexists. reflexivity.
  - cbn [row_ok row_line] in *. apply andb_true_iff in OK as [N W]. apply Nat.leb_le in N. split; [apply AB.of_head_lay; [exact N|split; [intros ->; discriminate W|now destruct l]]|]. split; [reflexivity|]. eexists. eexists. reflexivity.
Qed.
Lemma row_dec r : r = Text [] \/ r <> Text [].
Proof. destruct r as [[|i l]|k n l|b|n l]; [now left|right; discriminate..]. Qed.
Lemma group_rows rs : forall p prev, forallb row_ok rs = true -> before_phrase prev ->
  exists g rr rs' p' prev', group (rows_at p prev rs) = (g, rows_at p' prev' rs') /\ rs = rr ++ rs' /\ blank_first rs' /\ before_phrase prev' /\ forallb row_ok rs' = true /\ Forall2 row_line g rr.
Proof.
  induction rs as [|r rs IH]; intros p prev H B.
  - exists [], [], [], p, prev. repeat split; auto.
  - pose proof H as H0. cbn [forallb] in H. apply andb_true_iff in H as [L H]. destruct (row_dec r) as [->|NB].
    + exists [], [], (Text [] :: rs), p, prev. split; [destruct rs; reflexivity|]. repeat split; auto.
    + destruct (full_row r p prev L NB B) as (RL & EM & t & u & N). destruct rs as [|m rs].
      * exists [InlineSpec.line_of (lay p prev (row_pieces r))], [r], [], 0, None. cbn [rows_at]. rewrite N in *. split; [cbn [group]; rewrite EM; reflexivity|]. repeat split; auto. now left.
      * destruct (IH (p + length (row_source r) + 1) (Some LF) H ltac:(right; right; reflexivity)) as (g & rr & rs' & p' & prev' & G & E & AB & B' & OK' & F).
        exists (InlineSpec.line_of (lay p prev (row_pieces r)) :: g), (r :: rr), rs', p', prev'. rewrite rows_at_cons. split; [cbn [group]; rewrite G, EM, N; reflexivity|]. split; [cbn [app]; now rewrite E|]. repeat split; auto.
Qed.

(** ** What is left of a text: its rows, those of the first group perhaps read already. [d]: the delimiter of the block and the level of the section that this is in *)
Section Inside.
Variable d : option delimiter * nat.
Definition hereat (sk : LS.stack) (l : list (list tok)) (g : list iline) : pst := PSt l g None (fst d) (snd d) sk false false true NoBib None (start normal) [] 0 0.
Definition unread (l : list (list tok)) (rs : list row) : Prop := exists p prev, l = rows_at p prev rs /\ before_phrase prev /\ forallb row_ok rs = true.
Definition holds (sk : LS.stack) (s : pst) (rs : list row) : Prop :=
  exists l g rr rs', s = hereat sk l g /\ Forall2 row_line g rr /\ unread l rs' /\ (rr <> [] -> blank_first rs') /\ skip_rows rs = skip_rows (rr ++ rs').
Lemma skip_blank rs : forall p prev, forallb row_ok rs = true -> before_phrase prev ->
  (skip_empty (rows_at p prev rs) = [] /\ skip_rows rs = []) \/
  exists r rs' p' prev', skip_empty (rows_at p prev rs) = rows_at p' prev' (r :: rs') /\ r <> Text [] /\ before_phrase prev' /\ forallb row_ok (r :: rs') = true /\ skip_rows rs = r :: rs'.
Proof.
  induction rs as [|r rs IH]; intros p prev H B; [now left|]. pose proof H as H0. cbn [forallb] in H. apply andb_true_iff in H as [L H]. destruct (row_dec r) as [->|NB].
  - destruct rs as [|m rs]; [now left|]. rewrite rows_at_cons. change (skip_rows (Text [] :: m :: rs)) with (skip_rows (m :: rs)). change (skip_empty (lay p prev (row_pieces (Text [])) :: ?x)) with (skip_empty x). apply IH; [exact H|right; right; reflexivity].
  - destruct (full_row r p prev L NB B) as (_ & EM & t & u & N). right. exists r, rs, p, prev. split; [destruct rs as [|m rs]; [cbn [rows_at]; rewrite N in *; cbn [skip_empty]; now rewrite EM|rewrite rows_at_cons; cbn [skip_empty]; now rewrite EM]|].
    repeat split; auto. destruct r as [[|i l]|k n l|b|n l]; [easy|reflexivity..].
Qed.
Lemma row_line_full ln r : row_line ln r -> r <> Text [].
Proof. destruct r as [l|k n l|b|n l]; [|discriminate..]. intros (_ & _ & N & _) E. injection E as ->. easy. Qed.
Lemma skip_full g rr rs : Forall2 row_line g rr -> rr <> [] -> skip_rows (rr ++ rs) = rr ++ rs.
Proof. intros F NE. destruct F as [|ln r g rr RL _]; [easy|]. apply row_line_full in RL. destruct r as [[|i l]|k n l|b|n l]; [easy|reflexivity..]. Qed.
(** the group that is read next *)
Lemma read_holds sk s rs : holds sk s rs ->
  skip_rows rs = [] /\ read_lines s = ([], hereat sk [] []) \/
  exists g rr rs' l, read_lines s = (g, hereat sk l []) /\ Forall2 row_line g rr /\ rr <> [] /\ unread l rs' /\ blank_first rs' /\ skip_rows rs = rr ++ rs'.
Proof.
  intros (l & g & rr & rs' & -> & F & (p & prev & -> & B & OK) & BF & E). destruct g as [|a g].
  - inversion F; subst. cbn [app] in E. unfold read_lines. cbn [peeked hereat src]. destruct (skip_blank rs' p prev OK B) as [[-> S]|(r & rs2 & p' & prev' & -> & NB & B' & OK' & S)]; [left; split; [congruence|reflexivity]|].
    right. pose proof OK' as OKL. cbn [forallb] in OKL. apply andb_true_iff in OKL as [L OKL]. destruct (full_row r p' prev' L NB B') as (RL & EM & t & u & N).
    assert (X : exists m, rows_at p' prev' (r :: rs2) = lay p' prev' (row_pieces r) :: m /\ group (rows_at p' prev' (r :: rs2)) = (let (g, q) := group m in (InlineSpec.line_of (lay p' prev' (row_pieces r)) :: g, q))).
    { destruct rs2 as [|m rs2]; [cbn [rows_at]; rewrite N; eexists; split; [reflexivity|]; cbn [group]; rewrite <- N, EM; reflexivity|]. rewrite rows_at_cons. eexists. split; [reflexivity|]. cbn [group]. rewrite EM, N. reflexivity. }
    destruct X as (m & X1 & X2). destruct (group_rows (r :: rs2) p' prev' OK' B') as (g & rr & rs3 & p3 & prev3 & G & E3 & BF3 & B3 & OK3 & F3). rewrite X2 in G. rewrite X1. destruct (group m) as [g' q] eqn:GM. injection G as <- ->.
    exists (InlineSpec.line_of (lay p' prev' (row_pieces r)) :: g'), rr, rs3, (rows_at p3 prev3 rs3). split; [reflexivity|]. split; [exact F3|]. split; [intros ->; inversion F3|]. split; [now exists p3, prev3|]. split; [exact BF3|]. congruence.
  - right. exists (a :: g), rr, rs', (rows_at p prev rs'). assert (NE : rr <> []) by (intros ->; inversion F). split; [reflexivity|]. split; [exact F|]. split; [exact NE|]. split; [now exists p, prev|]. split; [now apply BF|].
    rewrite E. now apply (skip_full (a :: g)).
Qed.
Lemma holds_over sk rs : skip_rows rs = [] -> holds sk (hereat sk [] []) rs.
Proof. intros S. exists [], [], [], []. split; [reflexivity|]. split; [constructor|]. split; [exists 0, None; repeat split; now left|]. split; [intros _; exact I|exact S]. Qed.
Lemma holds_put sk l g rr rs' rs : Forall2 row_line g rr -> unread l rs' -> blank_first rs' -> skip_rows rs = skip_rows (rr ++ rs') -> holds sk (hereat sk l g) rs.
Proof. intros F U B E. exists l, g, rr, rs'. repeat split; auto. Qed.
Lemma holds_skip sk s rs rs' : skip_rows rs = skip_rows rs' -> holds sk s rs -> holds sk s rs'.
Proof. intros E (l & g & rr & q & S & F & U & B & K). exists l, g, rr, q. repeat split; auto. congruence. Qed.
End Inside.
