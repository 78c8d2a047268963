From Verif Require Import Base SectionsModel SectionsSpec.

Lemma items_app x y : blocks_items (x ++ y) = blocks_items x ++ blocks_items y.
Proof. apply flat_map_app. Qed.
Lemma read_items s c s' : read_lines s = Some (c, s') -> input_items s = chunk_items c ++ input_items s' /\ peeked s' = None /\ S (size c) + left s' = left s.
Proof.
  unfold read_lines, input_items, left. destruct s as [[p|] [|u r]]; cbn [peeked unread]; intros [= <- <-]; cbn [peeked unread document_items flat_map map list_sum fold_right app];
    (split; [rewrite ?app_nil_r; reflexivity|split; [reflexivity|cbn [list_sum fold_right]; lia]]).
Qed.
Lemma restore_items c s : peeked s = None -> input_items (restore_lines c s) = chunk_items c ++ input_items s.
Proof. unfold restore_lines, input_items. intro P. destruct c as [[|h hs] [n|]]; cbn [peeked unread]; rewrite P; reflexivity. Qed.
Lemma restore_left c s : peeked s = None -> left (restore_lines c s) <= S (size c) + left s.
Proof. unfold restore_lines, left. intro P. destruct c as [[|h hs] [n|]]; cbn [peeked unread]; rewrite P; unfold size; cbn [fst snd length]; lia. Qed.
Lemma size_head h hs t : size (h :: hs, t) = S (size (hs, t)).
Proof. reflexivity. Qed.
Lemma size_text n : size ([], Some n) = 1.
Proof. reflexivity. Qed.
(** where [blocks] stops *)
Definition stopped (last : nat) (s : input) : Prop :=
  match read_lines s with None => True | Some ((h :: _, _), _) => h_level h <= 1 \/ h_level h <= last | _ => False end.
Lemma blocks_total f : forall last s, left s < f -> exists x, blocks f last s = Some x /\ left (rest x) <= left s /\
  input_items s = blocks_items (val x) ++ input_items (rest x) /\ stopped last (rest x) /\ (val x <> [] -> left (rest x) < left s).
Proof.
  induction f as [|f IH]; intros last s L; [lia|]. cbn [blocks].
  destruct (read_lines s) as [[[[|h hs] t] s']|] eqn:R.
  - destruct (read_items _ _ _ R) as (I & P & LE). destruct t as [n|].
    + rewrite size_text in LE. destruct (IH last s') as (x & -> & L1 & I1 & S1 & _); [lia|].
      eexists. split; [reflexivity|]. cbn [rest val]. split; [lia|]. split; [rewrite I, I1; reflexivity|]. split; [exact S1|lia].
    + destruct (IH last s') as (x & -> & L1 & I1 & S1 & N1); [lia|]. eexists. split; [reflexivity|].
      split; [lia|]. split; [rewrite I, I1; reflexivity|]. split; [exact S1|]. intro N. specialize (N1 N). lia.
  - destruct (read_items _ _ _ R) as (I & P & LE). rewrite size_head in LE.
    assert (E : restore_lines (h :: hs, t) s' = mkInput (Some (h :: hs, t)) (unread s')) by reflexivity.
    destruct ((h_level h <=? 1) || (h_level h <=? last)) eqn:C.
    + eexists. split; [reflexivity|]. cbn [rest val]. pose proof (restore_left (h :: hs, t) s' P) as RL. rewrite size_head in RL. split; [lia|].
      split; [rewrite restore_items by exact P; exact I|]. split; [|congruence]. unfold stopped. rewrite E. cbn.
      apply orb_true_iff in C as [C|C]; apply Nat.leb_le in C; auto.
    + pose proof (restore_left (hs, t) s' P) as RL.
      destruct (IH (h_level h) (restore_lines (hs, t) s')) as (x & -> & L1 & I1 & S1 & _); [lia|].
      destruct (IH last (rest x)) as (y & -> & L2 & I2 & S2 & _); [lia|]. eexists. split; [reflexivity|]. cbn [rest val]. split; [lia|].
      split; [|split; [exact S2|lia]]. rewrite restore_items in I1 by exact P. rewrite I. unfold blocks_items. cbn [flat_map block_items].
      fold (blocks_items (val y)). fold (blocks_items (val x)). cbn [app]. rewrite <- app_assoc, <- I2, <- I1. reflexivity.
  - eexists. split; [reflexivity|]. cbn [rest val]. split; [lia|]. split; [reflexivity|]. split; [unfold stopped; rewrite R; exact I|congruence].
Qed.
Lemma all_blocks_total last s : exists x, all_blocks last s = Some x /\ left (rest x) <= left s /\
  input_items s = blocks_items (val x) ++ input_items (rest x) /\ stopped last (rest x) /\ (val x <> [] -> left (rest x) < left s).
Proof. apply blocks_total. lia. Qed.
Lemma peek_items s h c s' : peek_section s = Some (h, c, s') -> input_items s = IHead h :: chunk_items c ++ input_items s' /\ peeked s' = None /\ S (S (size c)) + left s' = left s.
Proof.
  unfold peek_section. destruct (read_lines s) as [[[[|h0 hs] t] s0]|] eqn:R; try discriminate. intros [= <- <- <-].
  destruct (read_items _ _ _ R) as (I & P & L). rewrite size_head in L. split; [exact I|]. auto.
Qed.
Lemma peeked_section_total h c s sem : peeked s = None -> exists x, peeked_section h c s sem = Some x /\ left (rest x) < S (S (size c)) + left s /\
  IHead h :: chunk_items c ++ input_items s = block_items (val x) ++ input_items (rest x) /\ stopped sem (rest x).
Proof.
  intro P. unfold peeked_section. destruct (all_blocks_total sem (restore_lines c s)) as (x & -> & L & I & S0 & _). eexists. split; [reflexivity|]. cbn [rest val].
  pose proof (restore_left c s P). split; [lia|]. split; [|exact S0]. rewrite <- (restore_items c s P), I. reflexivity.
Qed.
Definition keeps_all (book : bool) (s : input) : Prop := book = false \/ forall h, In (IHead h) (input_items s) -> 1 <= h_level h.
Definition stopped0 (s : input) : Prop := match read_lines s with None => True | Some ((h :: _, _), _) => h_level h = 0 | _ => False end.
Lemma keeps_suffix book s s' is : keeps_all book s -> input_items s = is ++ input_items s' -> keeps_all book s'.
Proof. intros [B|K] E; [left; exact B|right]. intros h I. apply K. rewrite E. apply in_or_app. right. exact I. Qed.
(** what the loops that come to an end at a heading of level zero leave *)
Lemma sections_total book f : forall s, left s < f -> exists x, sections f book s = Some x /\ left (rest x) <= left s /\
  input_items s = blocks_items (val x) ++ input_items (rest x) /\ (keeps_all book s -> stopped 1 s -> input_items (rest x) = [] /\ unread (rest x) = []) /\
  (stopped 1 s -> stopped0 (rest x)).
Proof.
  induction f as [|f IH]; intros s L; [lia|]. cbn [sections]. destruct (peek_section s) as [[[h c] s']|] eqn:PK.
  - destruct (peek_items _ _ _ _ PK) as (I & P & LE). destruct ((h_level h =? 0) && book) eqn:B.
    + eexists. split; [reflexivity|]. cbn [rest val]. split; [lia|]. split; [reflexivity|]. apply andb_true_iff in B as [B0 B1]. apply Nat.eqb_eq in B0. split.
      * intros [->|K] _; [discriminate|]. specialize (K h). rewrite I in K. specialize (K (or_introl eq_refl)). lia.
      * intros _. unfold stopped0. unfold peek_section in PK. destruct (read_lines s) as [[[[|h0 hs] t] s0]|]; try discriminate. injection PK as -> _ _. exact B0.
    + destruct (peeked_section_total h c s' (h_level h) P) as (x & -> & L1 & I1 & S1). destruct (IH (rest x)) as (y & -> & L2 & I2 & N2 & Z2); [lia|].
      assert (ST : stopped 1 s -> stopped 1 (rest x)).
      { intro S0. unfold stopped in S1, S0 |- *. unfold peek_section in PK. destruct (read_lines s) as [[[[|h0 hs] t] s0]|]; try discriminate.
        injection PK as -> <- <-. destruct (read_lines (rest x)) as [[[[|h1 hs1] t1] s1]|]; try exact S1. lia. }
      eexists. split; [reflexivity|]. cbn [rest val]. split; [lia|]. split; [|split].
      * rewrite I, I1, I2. unfold blocks_items. cbn [flat_map]. rewrite <- app_assoc. reflexivity.
      * intros K S0. apply N2; [|exact (ST S0)]. eapply keeps_suffix; [exact K|]. rewrite I. exact I1.
      * intro S0. exact (Z2 (ST S0)).
  - eexists. split; [reflexivity|]. cbn [rest val]. split; [lia|]. split; [reflexivity|].
    assert (RN : stopped 1 s -> read_lines s = None) by (unfold stopped; unfold peek_section in PK; intro S0; destruct (read_lines s) as [[[[|h0 hs] t] s0]|]; try discriminate; [contradiction|reflexivity]).
    split.
    + intros _ S0. specialize (RN S0). unfold read_lines in RN. unfold input_items. destruct (peeked s); [discriminate|]. destruct (unread s); [auto|discriminate].
    + intro S0. unfold stopped0. rewrite (RN S0). exact I.
Qed.
Lemma all_sections_total book s : exists x, all_sections book s = Some x /\ left (rest x) <= left s /\
  input_items s = blocks_items (val x) ++ input_items (rest x) /\ (keeps_all book s -> stopped 1 s -> input_items (rest x) = [] /\ unread (rest x) = []) /\
  (stopped 1 s -> stopped0 (rest x)).
Proof. apply sections_total. lia. Qed.
Lemma sectioned_total book s : exists x, sectioned book s = Some x /\ left (rest x) <= left s /\
  input_items s = (blocks_items (fst (val x)) ++ blocks_items (snd (val x))) ++ input_items (rest x) /\ (keeps_all book s -> input_items (rest x) = [] /\ unread (rest x) = []) /\ stopped0 (rest x).
Proof.
  unfold sectioned. destruct (all_blocks_total 0 s) as (x & -> & L1 & I1 & S1 & _). destruct (all_sections_total book (rest x)) as (y & -> & L2 & I2 & N2 & Z2).
  assert (ST : stopped 1 (rest x)) by (unfold stopped in *; destruct (read_lines (rest x)) as [[[[|h hs] t] s0]|]; try exact S1; lia).
  eexists. split; [reflexivity|]. cbn [rest val fst snd]. split; [lia|]. split; [rewrite I1, I2, app_assoc; reflexivity|]. split; [|exact (Z2 ST)].
  intro B. apply N2; [|exact ST]. eapply keeps_suffix; [exact B|exact I1].
Qed.
Lemma special_total f : forall s, left s < f -> exists x, special_sects f s = Some x /\ left (rest x) <= left s /\ input_items s = blocks_items (val x) ++ input_items (rest x).
Proof.
  induction f as [|f IH]; intros s L; [lia|]. cbn [special_sects]. destruct (peek_section s) as [[[h c] s']|] eqn:PK; [|eexists; split; [reflexivity|split; [cbn [rest]; lia|reflexivity]]].
  destruct (peek_items _ _ _ _ PK) as (I & P & LE). destruct (h_special h); [|eexists; split; [reflexivity|split; [cbn [rest]; lia|reflexivity]]].
  destruct (peeked_section_total h c s' 1 P) as (x & -> & L1 & I1 & S1). destruct (IH (rest x)) as (y & -> & L2 & I2); [lia|].
  eexists. split; [reflexivity|]. cbn [rest val]. split; [lia|]. rewrite I, I1, I2. unfold blocks_items. cbn [flat_map]. rewrite <- app_assoc. reflexivity.
Qed.
Lemma book_part_total s : exists r, book_part s = Some r /\ match r with None => True | Some x => left (rest x) < left s /\ input_items s = part_items (val x) ++ input_items (rest x) end.
Proof.
  unfold book_part. destruct (peek_section s) as [[[h c] s']|] eqn:PK; [|exists None; auto]. destruct (peek_items _ _ _ _ PK) as (I & P & LE).
  destruct (negb (h_level h =? 0) || h_special h); [exists None; auto|].
  destruct (sectioned_total true (restore_lines c s')) as (x & -> & L & I1 & _). eexists. split; [reflexivity|]. cbn [rest val part_items].
  pose proof (restore_left c s' P). split; [lia|]. rewrite restore_items in I1 by exact P. rewrite I, I1. reflexivity.
Qed.
Lemma parts_total f : forall s, left s < f -> exists x, parts f s = Some x /\ left (rest x) <= left s /\ input_items s = flat_map part_items (val x) ++ input_items (rest x) /\
  (val x = [] -> rest x = s).
Proof.
  induction f as [|f IH]; intros s L; [lia|]. cbn [parts]. destruct (book_part_total s) as ([x|] & -> & H); [|eexists; split; [reflexivity|split; [cbn [rest]; lia|split; reflexivity]]].
  destruct H as [L1 I1]. destruct (IH (rest x)) as (y & -> & L2 & I2 & _); [lia|]. eexists. split; [reflexivity|]. cbn [rest val flat_map]. split; [lia|].
  split; [rewrite I1, I2, app_assoc; reflexivity|discriminate].
Qed.
Lemma special_stopped f : forall s x, special_sects f s = Some x -> val x <> [] \/ stopped 1 s -> stopped 1 (rest x).
Proof.
  induction f as [|f IH]; intros s x; [discriminate|]. cbn [special_sects]. destruct (peek_section s) as [[[h c] s']|] eqn:PK.
  - destruct (h_special h).
    + destruct (peek_items _ _ _ _ PK) as (I & P & LE). destruct (peeked_section_total h c s' 1 P) as (y & -> & L1 & I1 & S1).
      destruct (special_sects f (rest y)) as [z|] eqn:Z; [|discriminate]. intros [= <-] _. cbn [rest]. apply (IH _ _ Z). right. exact S1.
    + intros [= <-] [N|N]; [cbn in N; congruence|exact N].
  - intros [= <-] [N|N]; [cbn in N; congruence|exact N].
Qed.
Lemma stopped_peek last s : stopped last s -> unread s <> [] -> exists r, peek_section s = Some r.
Proof.
  unfold stopped, peek_section, read_lines. intros S0 N. destruct (peeked s) as [[[|h hs] t]|]; [contradiction|eauto|].
  destruct (unread s) as [|[[|h hs] t] r]; [congruence|contradiction|eauto].
Qed.
Lemma special_done s x : all_special s = Some x -> val x = [] -> rest x = s.
Proof.
  unfold all_special. cbn [special_sects]. destruct (peek_section s) as [[[h c] s']|] eqn:PK; [|intros [= <-]; reflexivity].
  destruct (h_special h); [|intros [= <-]; reflexivity]. destruct (peeked_section h c s' 1); [|discriminate]. destruct (special_sects (left s) (rest r)); [|discriminate]. intros [= <-]. discriminate.
Qed.
Lemma blocks_stopped last s x : stopped 1 s -> all_blocks last s = Some x -> val x = [].
Proof.
  unfold stopped, all_blocks. intro S0. cbn [blocks]. destruct (read_lines s) as [[[[|h hs] t] s']|]; [contradiction| |intros [= <-]; reflexivity].
  replace (h_level h <=? 1) with true by (symmetry; apply Nat.leb_le; lia). intros [= <-]. reflexivity.
Qed.
Lemma sectioned_stopped book s x : stopped 1 s -> sectioned book s = Some x -> fst (val x) = [].
Proof.
  unfold sectioned. intro S0. destruct (all_blocks 0 s) as [y|] eqn:E; [|discriminate]. destruct (all_sections book (rest y)); [|discriminate]. intros [= <-]. exact (blocks_stopped 0 s y S0 E).
Qed.
Definition not_blocks (c : content) : Prop := match c with Blocks _ => False | _ => True end.
Lemma parse_book_at_heading f s : stopped 1 s -> unread s <> [] -> exists x, parse_book (S f) s = Some (Ret x) /\ not_blocks (val x) /\ input_items s = content_items (val x) ++ input_items (rest x).
Proof.
  intros S0 N. cbn [parse_book]. destruct (special_total (S (left s)) s) as (o & O & Lo & Io); [lia|]. fold (all_special s) in O. rewrite O.
  destruct (at_eof (rest o) && match val o with [] => false | _ => true end) eqn:E.
  { eexists. split; [reflexivity|]. cbn [rest val not_blocks content_items]. split; [exact I|exact Io]. }
  assert (ST : stopped 1 (rest o)) by (apply (special_stopped _ _ _ O); right; exact S0).
  assert (NU : unread (rest o) <> []).
  { intro U. unfold at_eof in E. rewrite U in E. cbn [andb] in E. destruct (val o) eqn:V; [|discriminate]. rewrite (special_done _ _ O V) in U. congruence. }
  destruct (parts_total (S (left (rest o))) (rest o)) as (ps & PS & Lp & Ip & Ep); [lia|]. fold (all_parts (rest o)) in PS. rewrite PS.
  destruct (val ps) as [|p1 ps1] eqn:V.
  - destruct (stopped_peek 1 (rest o) ST NU) as (r & ->). destruct (sectioned_total true (rest o)) as (x & SX & _ & Ix & _). rewrite SX.
    eexists. split; [reflexivity|]. cbn [rest val not_blocks content_items]. split; [exact I|]. rewrite Io, Ix.
    pose proof (sectioned_stopped true (rest o) x ST SX) as FX.
    rewrite FX. unfold blocks_items. rewrite flat_map_app. cbn [flat_map app]. rewrite <- !app_assoc. reflexivity.
  - destruct (special_total (S (left (rest ps))) (rest ps)) as (z & Z & Lz & Iz); [lia|]. fold (all_special (rest ps)) in Z. rewrite Z.
    eexists. split; [reflexivity|]. cbn [rest val not_blocks content_items]. split; [exact I|]. rewrite Io, Ip, Iz. cbn [blocks_items flat_map app]. rewrite <- !app_assoc. reflexivity.
Qed.
Theorem parse_book_total s : exists x, parse_book (S (left s)) s = Some (Ret x) /\ input_items s = content_items (val x) ++ input_items (rest x).
Proof.
  cbn [parse_book]. destruct (special_total (S (left s)) s) as (o & O & Lo & Io); [lia|]. fold (all_special s) in O. rewrite O.
  destruct (at_eof (rest o) && match val o with [] => false | _ => true end) eqn:E.
  { eexists. split; [reflexivity|]. exact Io. }
  destruct (parts_total (S (left (rest o))) (rest o)) as (ps & PS & Lp & Ip & Ep); [lia|]. fold (all_parts (rest o)) in PS. rewrite PS.
  destruct (val ps) as [|p1 ps1] eqn:V.
  - assert (OP : val o = [] \/ stopped 1 (rest o)) by (destruct (val o) eqn:VO; [left; reflexivity|right; apply (special_stopped _ _ _ O); left; rewrite VO; discriminate]).
    destruct (peek_section (rest o)) as [r|] eqn:PK.
    + destruct (sectioned_total true (rest o)) as (x & SX & _ & Ix & _). rewrite SX. eexists. split; [reflexivity|]. cbn [rest val content_items]. rewrite Io, Ix.
      destruct OP as [VO|ST]; [rewrite VO; cbn [blocks_items flat_map app]; rewrite <- !app_assoc; reflexivity|].
      rewrite (sectioned_stopped true (rest o) x ST SX). unfold blocks_items. rewrite flat_map_app. cbn [flat_map app]. rewrite <- !app_assoc. reflexivity.
    + assert (VO : val o = []).
      { destruct OP as [VO|ST]; [exact VO|]. destruct (unread (rest o)) as [|u r] eqn:U.
        - unfold at_eof in E. rewrite U in E. destruct (val o); [reflexivity|discriminate].
        - destruct (stopped_peek 1 (rest o) ST) as (r0 & R0); [rewrite U; discriminate|congruence]. }
      rewrite (special_done _ _ O VO) in *. rewrite VO in *. destruct (all_blocks_total 0 s) as (x & -> & Lx & Ix & Sx & _). destruct (at_eof (rest x)) eqn:EX.
      { eexists. split; [reflexivity|]. exact Ix. }
      assert (NU : unread (rest x) <> []) by (unfold at_eof in EX; destruct (unread (rest x)); [discriminate|discriminate]).
      assert (LS : exists f, left s = S f).
      { destruct (left s) as [|f] eqn:L0; [|eauto]. exfalso. unfold left in Lx. destruct (unread (rest x)) as [|u r]; [congruence|]. cbn in Lx. lia. }
      destruct LS as (f & ->).
      assert (S1 : stopped 1 (rest x)) by (unfold stopped in *; destruct (read_lines (rest x)) as [[[[|h hs] t] s0]|]; try exact Sx; lia).
      destruct (parse_book_at_heading f (rest x) S1 NU) as (y & -> & NB & Iy). destruct (val y) as [bs|p q|p a q z] eqn:VY; [contradiction| |].
      * eexists. split; [reflexivity|]. cbn [rest val content_items] in *. rewrite Ix, Iy, items_app, <- !app_assoc. reflexivity.
      * eexists. split; [reflexivity|]. cbn [rest val content_items] in *. rewrite Ix, Iy, items_app, <- !app_assoc. reflexivity.
  - destruct (special_total (S (left (rest ps))) (rest ps)) as (z & Z & Lz & Iz); [lia|]. fold (all_special (rest ps)) in Z. rewrite Z.
    eexists. split; [reflexivity|]. cbn [rest val content_items]. rewrite Io, Ip, Iz. cbn [blocks_items flat_map app]. rewrite <- !app_assoc. reflexivity.
Qed.
Theorem parse_content_total book cs : exists x, parse_content book cs = Some (Ret x) /\ document_items cs = content_items (val x) ++ input_items (rest x) /\
  (book = false -> input_items (rest x) = []).
Proof.
  unfold parse_content. change (document_items cs) with (input_items (mkInput None cs)). set (s := mkInput None cs). destruct book.
  - destruct (parse_book_total s) as (x & E & I). exists x. split; [exact E|]. split; [exact I|discriminate].
  - destruct (sectioned_total false s) as (x & -> & _ & I & N & _). eexists. split; [reflexivity|]. cbn [rest val]. destruct (N (or_introl eq_refl)) as [N1 _].
    split; [|intros _; exact N1]. rewrite I. f_equal. destruct (snd (val x)); cbn [content_items blocks_items flat_map]; rewrite ?app_nil_r; reflexivity.
Qed.

(** ** which section everything belongs to *)
Lemma heads_app x y : heads (x ++ y) = heads x ++ heads y.
Proof. induction x as [|[h|n] x IH]; [reflexivity| |]; cbn; rewrite IH; reflexivity. Qed.
Lemma owned_app x : forall y P, owned P (x ++ y) = owned P x ++ owned (rev (heads x) ++ P) y.
Proof. induction x as [|[h|n] x IH]; intros y P; [reflexivity| |]; cbn [app owned heads rev]; rewrite IH; [rewrite <- app_assoc|]; reflexivity. Qed.
Lemma events_app x : forall y P, expected_events P (x ++ y) = expected_events P x ++ expected_events (rev (heads x) ++ P) y.
Proof. induction x as [|[h|n] x IH]; intros y P; [reflexivity| |]; cbn [app expected_events heads rev]; rewrite IH; [rewrite <- !app_assoc|]; reflexivity. Qed.
Definition owner_of (last : nat) (o : option head) : Prop := (o = None /\ last = 0) \/ exists h0, o = Some h0 /\ h_level h0 = last.
Definition next_ok (P : list head) (o : option head) (last : nat) (s : input) : Prop :=
  match input_items s with
  | IText _ :: _ => hd_error P = o
  | IHead h :: _ => 2 <= h_level h -> last < h_level h -> parent_of P (h_level h) = o
  | [] => True
  end.
Lemma parent_ge P l : 2 <= l -> parent_of P l = find (fun h => h_level h <? l) P.
Proof. intro L. unfold parent_of. replace (l <=? 1) with false by (symmetry; apply Nat.leb_gt; lia). reflexivity. Qed.
Lemma find_skip hs P l : Forall (fun h => l <= h_level h) hs -> find (fun h => h_level h <? l) (hs ++ P) = find (fun h => h_level h <? l) P.
Proof. induction 1 as [|h hs L F IH]; [reflexivity|]. cbn [app find]. replace (h_level h <? l) with false by (symmetry; apply Nat.ltb_ge; exact L). exact IH. Qed.
Lemma find_lower P o last l l2 : owner_of last o -> find (fun h => h_level h <? l) P = o -> l2 <= l -> last < l2 -> find (fun h => h_level h <? l2) P = o.
Proof.
  intros OW F L2 L. induction P as [|h P IH]; [exact F|]. cbn [find] in *. destruct (Nat.ltb_spec (h_level h) l).
  - subst o. destruct OW as [[E _]|(h0 & E & EL)]; [discriminate|]. injection E as <-. replace (h_level h <? l2) with true by (symmetry; apply Nat.ltb_lt; lia). reflexivity.
  - replace (h_level h <? l2) with false by (symmetry; apply Nat.ltb_ge; lia). apply IH, F.
Qed.
Lemma owner_next P o last s : owner_of last o -> hd_error P = o -> next_ok P o last s.
Proof.
  intros OW H. unfold next_ok. destruct (input_items s) as [|[h|n] r]; [exact I| |exact H]. intros L2 L. rewrite parent_ge by exact L2.
  destruct OW as [[-> ->]|(h0 & -> & E)]; (destruct P as [|p P]; [|]); try discriminate; [reflexivity|].
  injection H as ->. cbn [find]. replace (h_level h0 <? h_level h) with true by (symmetry; apply Nat.ltb_lt; lia). reflexivity.
Qed.
Lemma read_none s : read_lines s = None -> input_items s = [].
Proof. unfold read_lines, input_items. destruct (peeked s); [discriminate|]. destruct (unread s); [reflexivity|discriminate]. Qed.
Lemma stopped_items last s : stopped last s -> match input_items s with [] => True | IHead h :: _ => h_level h <= 1 \/ h_level h <= last | _ => False end.
Proof.
  unfold stopped. destruct (read_lines s) as [[[[|h hs] t] s']|] eqn:R; [contradiction| |].
  - destruct (read_items _ _ _ R) as (-> & _). auto.
  - rewrite (read_none s R). auto.
Qed.
Lemma blocks_owner f : forall last s x P o, blocks f last s = Some x -> owner_of last o -> next_ok P o last s ->
  owned P (blocks_items (val x)) = flat_map (block_owned o) (val x) /\ evs x = expected_events P (blocks_items (val x)) /\
  Forall (fun h => last < h_level h /\ 2 <= h_level h) (heads (blocks_items (val x))) /\ stopped last (rest x).
Proof.
  induction f as [|f IH]; intros last s x P o; [discriminate|]. cbn [blocks]. destruct (read_lines s) as [[[[|h hs] t] s']|] eqn:R.
  - destruct (read_items _ _ _ R) as (I & PE & LE). destruct t as [n|].
    + destruct (blocks f last s') as [y|] eqn:B; [|discriminate]. intros [= <-] OW NX. unfold next_ok in NX. rewrite I in NX. cbn in NX.
      destruct (IH last s' y P o B OW (owner_next P o last s' OW NX)) as (O1 & E1 & F1 & S1). cbn [val evs rest]. unfold blocks_items in *. cbn [flat_map block_items app owned expected_events heads block_owned].
      rewrite O1, NX. auto.
    + intros B OW NX. apply (IH last s' x P o B OW). unfold next_ok in *. rewrite I in NX. exact NX.
  - destruct (read_items _ _ _ R) as (I & PE & LE). destruct ((h_level h <=? 1) || (h_level h <=? last)) eqn:C.
    + intros [= <-] OW NX. cbn [val evs rest blocks_items flat_map owned expected_events heads]. split; [reflexivity|]. split; [reflexivity|]. split; [constructor|].
      unfold stopped. cbn. apply orb_true_iff in C as [C|C]; apply Nat.leb_le in C; auto.
    + apply orb_false_iff in C as [C1 C2]. apply Nat.leb_gt in C1, C2.
      destruct (blocks f (h_level h) (restore_lines (hs, t) s')) as [y|] eqn:B1; [|discriminate]. destruct (blocks f last (rest y)) as [z|] eqn:B2; [|discriminate].
      intros [= <-] OW NX. unfold next_ok in NX. rewrite I in NX. cbn in NX. specialize (NX C1 C2).
      assert (OW1 : owner_of (h_level h) (Some h)) by (right; eauto).
      destruct (IH _ _ _ (h :: P) (Some h) B1 OW1 (owner_next (h :: P) (Some h) (h_level h) _ OW1 eq_refl)) as (O1 & E1 & F1 & S1).
      assert (NX2 : next_ok (rev (heads (blocks_items (val y))) ++ h :: P) o last (rest y)).
      { unfold next_ok. pose proof (stopped_items _ _ S1) as SI. destruct (input_items (rest y)) as [|[h2|n] r]; [exact Logic.I| |contradiction]. intros L2 L.
        rewrite parent_ge by exact L2. rewrite find_skip.
        - cbn [find]. replace (h_level h <? h_level h2) with false by (symmetry; apply Nat.ltb_ge; lia). rewrite parent_ge in NX by exact C1.
          apply (find_lower P o last (h_level h)); [exact OW|exact NX|lia|exact L].
        - apply Forall_rev. eapply Forall_impl; [|exact F1]. cbn. intros a [? ?]. lia. }
      destruct (IH _ _ _ _ o B2 OW NX2) as (O2 & E2 & F2 & S2). cbn [val evs rest]. unfold blocks_items in *. cbn [flat_map block_items app owned expected_events heads block_owned].
      split; [|split; [|split; [|exact S2]]].
      * rewrite owned_app, O1, O2, NX. reflexivity.
      * rewrite events_app, E1, E2, NX. replace (h_level h =? 0) with false by (symmetry; apply Nat.eqb_neq; lia). cbn [app].
        f_equal. unfold sequence_event. destruct OW as [[-> ->]|(h0 & -> & <-)]; reflexivity.
      * constructor; [lia|]. rewrite heads_app. apply Forall_app. split; [|exact F2]. eapply Forall_impl; [|exact F1]. cbn. intros a [? ?]. lia.
  - intros [= <-] OW NX. cbn [val evs rest blocks_items flat_map owned expected_events heads]. split; [reflexivity|]. split; [reflexivity|]. split; [constructor|]. unfold stopped. rewrite R. exact I.
Qed.
Lemma sections_owner book f : forall s x P, sections f book s = Some x -> stopped 1 s ->
  owned P (blocks_items (val x)) = flat_map (block_owned None) (val x) /\ evs x = expected_events P (blocks_items (val x)).
Proof.
  induction f as [|f IH]; intros s x P; [discriminate|]. cbn [sections]. destruct (peek_section s) as [[[h c] s']|] eqn:PK; [|intros [= <-] _; split; reflexivity].
  destruct ((h_level h =? 0) && book); [intros [= <-] _; split; reflexivity|]. unfold peeked_section, all_blocks. destruct (blocks (S (left (restore_lines c s'))) (h_level h) (restore_lines c s')) as [y|] eqn:B1; [|discriminate].
  destruct (sections f book (rest {| val := Sec h (h_level h) (val y); rest := rest y; evs := sequence_event 0 (h_level h) (h_level h) h ++ evs y |})) as [z|] eqn:B2; [|discriminate].
  cbn [rest] in B2. intros [= <-] S0. cbn [val evs rest].
  assert (L1 : h_level h <= 1). { unfold stopped in S0. unfold peek_section in PK. destruct (read_lines s) as [[[[|h0 hs] t] s0]|]; try discriminate. injection PK as -> _ _. lia. }
  assert (OW1 : owner_of (h_level h) (Some h)) by (right; eauto).
  destruct (blocks_owner _ _ _ _ (h :: P) (Some h) B1 OW1 (owner_next (h :: P) (Some h) (h_level h) _ OW1 eq_refl)) as (O1 & E1 & F1 & S1).
  assert (S2 : stopped 1 (rest y)) by (unfold stopped in *; destruct (read_lines (rest y)) as [[[[|h1 hs1] t1] s1]|]; try exact S1; lia).
  destruct (IH _ _ (rev (heads (blocks_items (val y))) ++ h :: P) B2 S2) as [O2 E2].
  unfold blocks_items in *. cbn [flat_map block_items app owned expected_events heads block_owned].
  assert (PN : parent_of P (h_level h) = None) by (unfold parent_of; replace (h_level h <=? 1) with true by (symmetry; apply Nat.leb_le; exact L1); reflexivity).
  split; [rewrite owned_app, O1, O2, PN; reflexivity|]. rewrite events_app, E1, E2, PN. cbn [level_of]. unfold sequence_event. rewrite <- !app_assoc. reflexivity.
Qed.
Theorem article_structure cs x : parse_content false cs = Some (Ret x) ->
  content_owned (val x) = owned [] (document_items cs) /\ evs x = expected_events [] (document_items cs).
Proof.
  intro E. pose proof E as E0. unfold parse_content, sectioned, all_blocks, all_sections in E0. set (s := mkInput None cs) in *.
  destruct (blocks (S (left s)) 0 s) as [y|] eqn:B1; [|discriminate]. destruct (sections (S (left (rest y))) false (rest y)) as [z|] eqn:B2; [|discriminate].
  injection E0 as <-. cbn [val evs rest] in *.
  assert (OW : owner_of 0 None) by (left; auto).
  destruct (blocks_owner _ _ _ _ [] None B1 OW (owner_next [] None 0 s OW eq_refl)) as (O1 & E1 & _ & S1).
  assert (S2 : stopped 1 (rest y)) by (unfold stopped in *; destruct (read_lines (rest y)) as [[[[|h1 hs1] t1] s1]|]; try exact S1; lia).
  destruct (sections_owner _ _ _ _ (rev (heads (blocks_items (val y))) ++ []) B2 S2) as [O2 E2].
  destruct (parse_content_total false cs) as (w & W & I & N). rewrite E in W. injection W as <-. rewrite (N eq_refl), app_nil_r in I. cbn [val] in I. rewrite I.
  assert (IS : content_items (match val z with [] => Blocks (val y) | _ => Sections (val y) (val z) end) = blocks_items (val y) ++ blocks_items (val z)) by (destruct (val z); cbn [content_items blocks_items flat_map]; rewrite ?app_nil_r; reflexivity).
  cbn [fst snd val] in *. rewrite IS, owned_app, events_app, O1, O2, E1, E2. split; [|reflexivity].
  destruct (val z); cbn [content_owned blocks_owned flat_map]; rewrite ?app_nil_r; reflexivity.
Qed.

(** ** books *)
Lemma special_none s h c s' : peek_section s = Some (h, c, s') -> h_special h = false -> all_special s = Some (mkRes [] s []).
Proof. intros P B. unfold all_special. cbn [special_sects]. rewrite P, B. reflexivity. Qed.
Lemma stopped0_peek s : stopped0 s -> input_items s = [] \/ exists h c s', peek_section s = Some (h, c, s') /\ h_level h = 0.
Proof.
  unfold stopped0, peek_section. destruct (read_lines s) as [[[[|h hs] t] s']|] eqn:R; [contradiction| |left; apply read_none, R]. intro L. right. eauto.
Qed.
Lemma parts_all f : forall s x, left s < f -> parts f s = Some x -> stopped0 s -> plain_parts (input_items s) -> input_items (rest x) = [] /\ (input_items s <> [] -> val x <> []).
Proof.
  induction f as [|f IH]; intros s x L; [lia|]. intros E S0 PP. destruct (stopped0_peek s S0) as [N|(h & c & s' & PK & L0)].
  - cbn [parts] in E. destruct (book_part_total s) as (r & B & R). rewrite B in E. destruct r as [y|]; [|injection E as <-; cbn [rest val]; split; [exact N|intro K; contradiction]].
    destruct R as [_ R]. rewrite N in R. destruct (val y). discriminate.
  - cbn [parts] in E. destruct (peek_items _ _ _ _ PK) as (I & PE & LE).
    assert (SP : h_special h = false) by (apply PP; [rewrite I; left; reflexivity|exact L0]).
    unfold book_part in E. rewrite PK, L0, SP in E. cbn [negb orb Nat.eqb] in E.
    destruct (sectioned_total true (restore_lines c s')) as (y & Y & LY & IY & _ & SY). rewrite Y in E. rewrite (restore_items c s' PE) in IY. pose proof (restore_left c s' PE) as RL.
    destruct (parts f _) as [z|] eqn:Z in E; [|discriminate]. injection E as <-. cbn [rest val] in *. split; [|intros _; discriminate].
    refine (proj1 (IH (rest y) z _ Z SY _)); [lia|]. intros h0 IN. apply PP. rewrite I, IY. right. apply in_or_app. right. exact IN.
Qed.
Lemma special_nil s : stopped0 s -> input_items s = [] -> all_special s = Some (mkRes [] s []).
Proof.
  intros S0 N. unfold all_special. cbn [special_sects]. destruct (stopped0_peek s S0) as [_|(h & c & s' & PK & _)].
  - destruct (peek_section s) as [[[h c] s']|] eqn:PK; [|reflexivity]. destruct (peek_items _ _ _ _ PK) as (I & _). rewrite N in I. discriminate.
  - destruct (peek_items _ _ _ _ PK) as (I & _). rewrite N in I. discriminate.
Qed.
Lemma book_chapters f s h c s' : peek_section s = Some (h, c, s') -> h_special h = false -> (forall g, In (IHead g) (input_items s) -> 1 <= h_level g) ->
  exists x, parse_book (S f) s = Some (Ret x) /\ input_items (rest x) = [].
Proof.
  intros PK SP NP. cbn [parse_book]. rewrite (special_none _ _ _ _ PK SP). cbn [rest val evs]. rewrite andb_false_r. unfold all_parts. cbn [parts]. unfold book_part. rewrite PK.
  assert (L : 1 <= h_level h) by (apply NP; destruct (peek_items _ _ _ _ PK) as (-> & _); left; reflexivity).
  replace (h_level h =? 0) with false by (symmetry; apply Nat.eqb_neq; lia). cbn [negb orb val]. 
  destruct (sectioned_total true s) as (y & -> & _ & _ & K & _). eexists. split; [reflexivity|]. cbn [rest]. apply K. right. exact NP.
Qed.
Lemma book_parts f s h c s' : peek_section s = Some (h, c, s') -> h_level h = 0 -> plain_parts (input_items s) -> exists x, parse_book (S f) s = Some (Ret x) /\ input_items (rest x) = [].
Proof.
  intros PK L0 PP. destruct (peek_items _ _ _ _ PK) as (I & _). assert (SP : h_special h = false) by (apply PP; [rewrite I; left; reflexivity|exact L0]).
  cbn [parse_book]. rewrite (special_none _ _ _ _ PK SP). cbn [rest val evs]. rewrite andb_false_r.
  destruct (parts_total (S (left s)) s (le_n _)) as (x & X & LX & IX & _). unfold all_parts. rewrite X.
  assert (S0 : stopped0 s) by (unfold stopped0; unfold peek_section in PK; destruct (read_lines s) as [[[[|h0 hs] t] s0]|]; try discriminate; injection PK as -> _ _; exact L0).
  destruct (parts_all _ _ _ (le_n _) X S0 PP) as [N V]. destruct (val x) as [|p ps]; [exfalso; apply V; [rewrite I; discriminate|reflexivity]|].
  destruct (special_total (S (left (rest x))) (rest x) (le_n _)) as (y & Y & _ & IY). unfold all_special at 1. rewrite Y. eexists. split; [reflexivity|]. cbn [rest].
  rewrite N in IY. symmetry in IY. apply app_eq_nil in IY. apply IY.
Qed.
Lemma text_blocks ns : forall f c r, 1 <= length (fst c) -> length ns < f -> (match fst c with h :: _ => h_level h <= 1 | [] => True end) ->
  blocks f 0 (mkInput None (map text_chunk ns ++ c :: r)) = Some (mkRes (map Txt ns) (mkInput (Some c) r) []).
Proof.
  induction ns as [|n ns IH]; intros [|f] [hs t] r C F L; cbn [length fst] in *; try lia.
  - destruct hs as [|h hs]; [cbn in C; lia|]. cbn [map app]. cbn [blocks]. unfold read_lines. cbn [peeked unread]. replace (h_level h <=? 1) with true by (symmetry; apply Nat.leb_le; exact L). reflexivity.
  - cbn [map app]. cbn [blocks]. unfold read_lines. cbn [peeked unread text_chunk]. unfold text_chunk at 1. cbn [map app]. rewrite IH; [reflexivity|exact C|lia|exact L].
Qed.
Lemma text_all_blocks ns h hs t r : h_level h <= 1 -> all_blocks 0 (mkInput None (map text_chunk ns ++ (h :: hs, t) :: r)) = Some (mkRes (map Txt ns) (mkInput (Some (h :: hs, t)) r) []).
Proof.
  intro L. unfold all_blocks. apply text_blocks; [cbn; lia| |exact L]. unfold left. cbn [peeked unread]. rewrite map_app, list_sum_app, map_map.
  assert (length ns <= list_sum (map (fun x => S (size (text_chunk x))) ns)) by (clear; unfold list_sum; induction ns as [|m ns IH]; [apply Nat.le_refl|]; cbn [map fold_right length]; lia). lia.
Qed.
Lemma book_preamble n ns h hs t r f : h_level h <= 1 ->
  parse_book (S f) (mkInput None (map text_chunk (n :: ns) ++ (h :: hs, t) :: r)) =
  match r with
  | [] => Some (Ret (mkRes (Blocks (map Txt (n :: ns))) (mkInput (Some (h :: hs, t)) []) []))
  | _ =>
    match parse_book f (mkInput (Some (h :: hs, t)) r) with
    | None => None | Some Panic => Some Panic
    | Some (Ret y) => match val y with
      | Blocks _ => Some Panic
      | Sections p q => Some (Ret (mkRes (Sections (map Txt (n :: ns) ++ p) q) (rest y) (evs y)))
      | Parts p a q z => Some (Ret (mkRes (Parts (map Txt (n :: ns) ++ p) a q z) (rest y) (evs y)))
      end
    end
  end.
Proof.
  intro L. cbn [parse_book]. set (s := mkInput None (map text_chunk (n :: ns) ++ (h :: hs, t) :: r)).
  assert (PK : peek_section s = None) by reflexivity.
  assert (SP : all_special s = Some (mkRes [] s [])) by (unfold all_special; cbn [special_sects]; rewrite PK; reflexivity).
  rewrite SP. cbn [rest val]. rewrite andb_false_r. unfold all_parts. cbn [parts]. unfold book_part. rewrite PK. cbn [val]. unfold s. rewrite text_all_blocks by exact L.
  cbn [rest val evs at_eof unread app]. unfold at_eof. cbn [unread]. destruct r; [reflexivity|]. destruct (parse_book f _) as [[y|]|]; reflexivity.
Qed.
Lemma blocks_levels f : forall last s x, blocks f last s = Some x -> Forall (fun h => 2 <= h_level h) (heads (blocks_items (val x))).
Proof.
  induction f as [|f IH]; intros last s x; [discriminate|]. cbn [blocks]. destruct (read_lines s) as [[[[|h hs] [n|]] s']|].
  - destruct (blocks f last s') as [y|] eqn:B; [|discriminate]. intros [= <-]. cbn. exact (IH _ _ _ B).
  - apply IH.
  - destruct ((h_level h <=? 1) || (h_level h <=? last)) eqn:C; [intros [= <-]; constructor|]. apply orb_false_iff in C as [C _]. apply Nat.leb_gt in C.
    destruct (blocks f (h_level h) _) as [y|] eqn:B1; [|discriminate]. destruct (blocks f last (rest y)) as [z|] eqn:B2; [|discriminate]. intros [= <-].
    cbn [val]. unfold blocks_items in *. cbn [flat_map block_items app heads]. constructor; [lia|]. rewrite heads_app. apply Forall_app. split; [exact (IH _ _ _ B1)|exact (IH _ _ _ B2)].
  - destruct ((h_level h <=? 1) || (h_level h <=? last)) eqn:C; [intros [= <-]; constructor|]. apply orb_false_iff in C as [C _]. apply Nat.leb_gt in C.
    destruct (blocks f (h_level h) _) as [y|] eqn:B1; [|discriminate]. destruct (blocks f last (rest y)) as [z|] eqn:B2; [|discriminate]. intros [= <-].
    cbn [val]. unfold blocks_items in *. cbn [flat_map block_items app heads]. constructor; [lia|]. rewrite heads_app. apply Forall_app. split; [exact (IH _ _ _ B1)|exact (IH _ _ _ B2)].
  - intros [= <-]. constructor.
Qed.
Lemma sections_levels f : forall s x, sections f true s = Some x -> Forall (fun h => 1 <= h_level h) (heads (blocks_items (val x))).
Proof.
  induction f as [|f IH]; intros s x; [discriminate|]. cbn [sections]. destruct (peek_section s) as [[[h c] s']|]; [|intros [= <-]; constructor].
  rewrite andb_true_r. destruct (Nat.eqb_spec (h_level h) 0); [intros [= <-]; constructor|]. unfold peeked_section, all_blocks.
  destruct (blocks _ (h_level h) _) as [y|] eqn:B; [|discriminate]. cbn [rest]. destruct (sections f true (rest y)) as [z|] eqn:B2; [|discriminate]. intros [= <-].
  cbn [val]. unfold blocks_items in *. cbn [flat_map block_items app heads]. constructor; [lia|]. rewrite heads_app. apply Forall_app. split; [|exact (IH _ _ B2)].
  eapply Forall_impl; [|exact (blocks_levels _ _ _ _ B)]. cbn. intros. lia.
Qed.
Lemma heads_in h is : In h (heads is) <-> In (IHead h) is.
Proof. induction is as [|[g|n] is IH]; cbn; [tauto| |]; rewrite IH; [|intuition discriminate]. split; (intros [E|E]; [left; congruence|right; exact E]). Qed.
Lemma book_until_part f s h c s' : peek_section s = Some (h, c, s') -> h_special h = false -> 1 <= h_level h ->
  exists x, parse_book (S f) s = Some (Ret x) /\ (forall g, In (IHead g) (content_items (val x)) -> 1 <= h_level g) /\ stopped0 (rest x).
Proof.
  intros PK SP L. cbn [parse_book]. rewrite (special_none _ _ _ _ PK SP). cbn [rest val evs]. rewrite andb_false_r. unfold all_parts. cbn [parts]. unfold book_part. rewrite PK.
  replace (h_level h =? 0) with false by (symmetry; apply Nat.eqb_neq; lia). cbn [negb orb val].
  destruct (sectioned_total true s) as (y & Y & _ & _ & _ & S0). rewrite Y. eexists. split; [reflexivity|]. cbn [rest val]. split; [|exact S0].
  unfold sectioned, all_blocks, all_sections in Y. destruct (blocks _ 0 s) as [a|] eqn:B1; [|discriminate]. destruct (sections _ true (rest a)) as [z|] eqn:B2; [|discriminate]. injection Y as <-.
  cbn [fst snd val app content_items]. intros g. rewrite <- heads_in, heads_app, in_app_iff. intros [I|I].
  - pose proof (proj1 (Forall_forall _ _) (blocks_levels _ _ _ _ B1) g I). cbn in *. lia.
  - exact (proj1 (Forall_forall _ _) (sections_levels _ _ _ B2) g I).
Qed.
