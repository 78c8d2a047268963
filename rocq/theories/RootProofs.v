(** Lemmas about the stack of sources. *)
From Verif Require Import Base Utf8 LexerModel LexerSpec LexerProofs RootModel RootSpec.
From Coq Require Import Sorted.

(** *** lists *)
Lemma nth_set_nth {A} i j (x : A) l : nth_error (set_nth i x l) j = if (i =? j) && (j <? length l) then Some x else nth_error l j.
Proof.
  revert i j; induction l as [|a l IH]; intros i j.
  - destruct i; cbn [set_nth length]; rewrite andb_false_r; destruct j; reflexivity.
  - destruct i, j; cbn [set_nth nth_error length]; try reflexivity. rewrite IH. reflexivity.
Qed.
Lemma length_set_nth {A} i (x : A) l : length (set_nth i x l) = length l.
Proof. revert i; induction l; intros [|i]; cbn; auto. Qed.
Lemma length_set_lex i l srcs : length (set_lex i l srcs) = length srcs.
Proof. unfold set_lex. destruct (nth_error srcs i); [apply length_set_nth|reflexivity]. Qed.
Lemma nth_set_lex i l srcs s j : nth_error srcs i = Some s ->
  nth_error (set_lex i l srcs) j = if i =? j then Some (mkSource l (s_max s)) else nth_error srcs j.
Proof.
  intro E. unfold set_lex. rewrite E, nth_set_nth. destruct (Nat.eqb_spec i j) as [<-|]; [|reflexivity].
  assert (i < length srcs) by (apply nth_error_Some; congruence). replace (i <? length srcs) with true; [reflexivity|].
  symmetry. apply Nat.ltb_lt. assumption.
Qed.

(** *** one source *)
Definition good_lex (l : lexer) : Prop := offset l = 0 /\ utf8 (rest l).
Lemma good_at x y : utf8 y -> good_lex (at_ x y 0).
Proof. intro U. split; [reflexivity|]. rewrite rest_at. exact U. Qed.
Lemma as_at l : offset l = 0 -> pos l <= length (src l) -> l = at_ (firstn (pos l) (src l)) (rest l) 0.
Proof.
  intros O P. unfold at_, rest. rewrite firstn_skipn, firstn_length, Nat.min_l by assumption. destruct l; cbn in *. subst. reflexivity.
Qed.
Lemma rest_past l : rest l <> [] -> pos l <= length (src l).
Proof.
  unfold rest. intro H. destruct (Nat.le_gt_cases (pos l) (length (src l))); [assumption|]. rewrite skipn_all2 in H by lia. congruence.
Qed.
Lemma rest_len l : length (rest l) = length (src l) - pos l.
Proof. apply skipn_length. Qed.
Lemma peek_rest l : lex_peek l = hd_error (rest l).
Proof.
  unfold lex_peek, rest. destruct l as [s p o]; cbn. revert p. induction s as [|c s IH]; intros [|p]; cbn; auto.
Qed.
Lemma rest_move n l : rest (move n l) = skipn n (rest l).
Proof.
  unfold rest, move. cbn. revert n. generalize (pos l) as p. intros p n. rewrite Nat.add_comm. generalize (src l) as s.
  induction p as [|p IH]; intro s; [cbn; rewrite Nat.add_0_r; reflexivity|]. rewrite Nat.add_succ_r. destruct s; cbn [skipn]; [destruct n; reflexivity|apply IH].
Qed.
Lemma next_done plugins l : rest l = [] -> next_token plugins l = Ret (None, move 1 l).
Proof. intro H. unfold next_token. rewrite H, scan_nil. reflexivity. Qed.
Lemma next_more plugins l : good_lex l -> rest l <> [] ->
  exists k s z, next_token plugins l = Ret (Some (mkToken k (pos l) (pos l + length s) s), move (length s) l) /\
    rest l = s ++ z /\ s <> [] /\ utf8 z /\ lexeme_of plugins k s /\ rest (move (length s) l) = z.
Proof.
  intros [O U] NE. pose proof (as_at l O (rest_past l NE)) as E.
  destruct (next_some plugins (firstn (pos l) (src l)) (rest l) 0 NE U) as (k & s & z & R & Ns & Uz & L & _ & N).
  exists k, s, z. rewrite <- E in N. rewrite N, R. assert (Lp : length (firstn (pos l) (src l)) = pos l) by (rewrite firstn_length, Nat.min_l; auto using rest_past).
  rewrite Lp, !Nat.add_0_r. repeat split; try assumption.
  - f_equal. f_equal. unfold at_, move. rewrite <- app_assoc, <- R, app_length, Lp. unfold rest. rewrite firstn_skipn, O. reflexivity.
  - rewrite rest_move, R. apply skipn_pre.
Qed.

(** *** the invariant *)
Definition good_tmp (t : option (lexer * bufloc)) : Prop :=
  match t with Some (l, _) => good_lex l /\ rest l <> [] | None => True end.
Definition chain (srcs : list source) (l : list nat) : Prop :=
  StronglySorted (fun i j => j < i) l /\ Forall (fun i => exists s, nth_error srcs i = Some s /\ good_lex (s_lex s)) l.

Definition text (srcs : list source) (l : list nat) : bytes :=
  concat (map (fun i => match nth_error srcs i with Some s => rest (s_lex s) | None => [] end) l).
Lemma unread_text r : unread r = match tmp r with Some (l, _) => rest l | None => [] end ++ text (sources r) (live r).
Proof. reflexivity. Qed.
Definition weigh (P : nat -> bool) (srcs : list source) (l : list nat) : nat :=
  list_sum (map (fun i => if P i then length (match nth_error srcs i with Some s => rest (s_lex s) | None => [] end) else 0) l).
Lemma text_cons srcs i s l : nth_error srcs i = Some s -> text srcs (i :: l) = rest (s_lex s) ++ text srcs l.
Proof. intro E. unfold text. cbn. rewrite E. reflexivity. Qed.
Lemma weigh_cons P srcs i s l : nth_error srcs i = Some s ->
  weigh P srcs (i :: l) = (if P i then length (rest (s_lex s)) else 0) + weigh P srcs l.
Proof. intro E. unfold weigh. cbn. rewrite E. reflexivity. Qed.

(** changing a source that is not in the chain changes nothing *)
Lemma frame srcs srcs' l : (forall j, In j l -> nth_error srcs' j = nth_error srcs j) ->
  chain srcs l -> chain srcs' l /\ text srcs' l = text srcs l /\ (forall P, weigh P srcs' l = weigh P srcs l).
Proof.
  intros H [S F]. split; [split; [exact S|]|].
  - rewrite Forall_forall in *. intros j I. destruct (F j I) as (s & E & G). exists s. rewrite H; auto.
  - clear S F. unfold text, weigh. split; [|intro P]; f_equal; [|]; apply map_ext_in; intros j I; rewrite H; auto.
Qed.
Lemma chain_tail srcs i l : chain srcs (i :: l) -> chain srcs l.
Proof. intros [S F]. inversion S; inversion F; split; assumption. Qed.
Lemma chain_head srcs i l : chain srcs (i :: l) -> exists s, nth_error srcs i = Some s /\ good_lex (s_lex s).
Proof. intros [S F]. inversion F; assumption. Qed.
Lemma chain_lt srcs i l j : chain srcs (i :: l) -> In j l -> j < i.
Proof. intros [S F] I. inversion S as [|? ? ? A]; subst. rewrite Forall_forall in A. auto. Qed.
Lemma update_tail srcs i s l t x : nth_error srcs i = Some s -> chain srcs (i :: t) -> x = set_lex i l srcs ->
  chain x t /\ text x t = text srcs t /\ (forall P, weigh P x t = weigh P srcs t).
Proof.
  intros E C ->. apply frame; [|eapply chain_tail; eauto]. intros j I. rewrite (nth_set_lex i l srcs s j E).
  pose proof (chain_lt _ _ _ _ C I). destruct (Nat.eqb_spec i j); [lia|reflexivity].
Qed.
Lemma update_head srcs i s l t x : nth_error srcs i = Some s -> chain srcs (i :: t) -> good_lex l -> x = set_lex i l srcs ->
  chain x (i :: t) /\ text x (i :: t) = rest l ++ text srcs t /\
  (forall P, weigh P x (i :: t) = (if P i then length (rest l) else 0) + weigh P srcs t).
Proof.
  intros E C G Hx. destruct (update_tail srcs i s l t x E C Hx) as (C' & T' & W').
  assert (E' : nth_error x i = Some (mkSource l (s_max s))) by (subst x; rewrite (nth_set_lex i l srcs s i E), Nat.eqb_refl; reflexivity).
  split; [|split].
  - destruct C as [S F]. destruct C' as [S' F']. split; [exact S|]. constructor; [|exact F']. eexists. split; [exact E'|exact G].
  - rewrite (text_cons _ _ _ _ E'), T'. reflexivity.
  - intro P. rewrite (weigh_cons _ _ _ _ _ E'), W'. reflexivity.
Qed.

(** *** reading *)
Lemma read_from_good plugins : forall st i srcs, chain srcs (i :: st) ->
  exists k i' st' srcs', read_from plugins i st srcs = Ret (k, (i', st', srcs')) /\ length srcs' = length srcs /\
    chain srcs' (i' :: st') /\ (exists pre, i :: st = pre ++ i' :: st') /\
    (map s_max srcs' = map s_max srcs) /\
    ((text srcs (i :: st) = [] /\ k_kind k = Eof /\ k_lexeme k = [] /\ text srcs' (i' :: st') = [] /\ (forall P, weigh P srcs' (i' :: st') <= weigh P srcs (i :: st))) \/
     (k_lexeme k <> [] /\ lexeme_of plugins (k_kind k) (k_lexeme k) /\ text srcs (i :: st) = k_lexeme k ++ text srcs' (i' :: st') /\
      (exists s, nth_error srcs i' = Some s /\ k_loc k = mkLoc (pos (s_lex s)) (pos (s_lex s) + length (k_lexeme k)) i' /\
         rest (s_lex s) = k_lexeme k ++ rest (move (length (k_lexeme k)) (s_lex s))) /\
      (forall P, weigh P srcs' (i' :: st') <= weigh P srcs (i :: st)) /\
      (forall P, P i' = true -> weigh P srcs' (i' :: st') < weigh P srcs (i :: st)))).
Proof.
  assert (MX : forall i s l srcs, nth_error srcs i = Some s -> map s_max (set_lex i l srcs) = map s_max srcs).
  { intros i s l srcs E. unfold set_lex. rewrite E. revert i E. induction srcs as [|a q IH]; intros [|i] E; cbn in *; try discriminate.
    - injection E as ->. reflexivity.
    - f_equal. apply IH, E. }
  induction st as [|j st IH]; intros i srcs C; destruct (chain_head _ _ _ C) as (s & E & G); cbn [read_from]; rewrite E.
  - destruct (rest (s_lex s)) as [|c y] eqn:R.
    + rewrite (next_done _ _ R). assert (G' : good_lex (move 1 (s_lex s))).
      { split; [apply G|]. rewrite rest_move, R. apply utf8_nil. }
      destruct (update_head srcs i s (move 1 (s_lex s)) [] _ E C G' eq_refl) as (C' & T' & W').
      do 4 eexists. split; [reflexivity|]. split; [apply length_set_lex|]. split; [exact C'|]. split; [exists []; reflexivity|].
      split; [eapply MX; eauto|]. left. rewrite T', (text_cons _ _ _ _ E), rest_move, R. repeat split; try reflexivity.
      intro P. rewrite W', (weigh_cons _ _ _ _ _ E), rest_move, R. cbn. destruct (P i); lia.
    + destruct (next_more plugins (s_lex s) G) as (k & w & z & N & Rw & Nw & Uz & L & M); [congruence|]. rewrite N.
      assert (G' : good_lex (move (length w) (s_lex s))) by (split; [apply G|rewrite M; exact Uz]).
      destruct (update_head srcs i s (move (length w) (s_lex s)) [] _ E C G' eq_refl) as (C' & T' & W').
      do 4 eexists. split; [reflexivity|]. split; [apply length_set_lex|]. split; [exact C'|]. split; [exists []; reflexivity|].
      split; [eapply MX; eauto|]. right. cbn [located k_lexeme k_kind k_loc t_lexeme t_kind t_start t_end].
      rewrite T', (text_cons _ _ _ _ E), M, Rw, <- app_assoc. repeat split; try assumption.
      * exists s. rewrite M. repeat split; assumption.
      * intro P. rewrite W', (weigh_cons _ _ _ _ _ E), M, Rw, app_length. destruct (P i); lia.
      * intros P H. rewrite W', (weigh_cons _ _ _ _ _ E), M, Rw, app_length, H. destruct w; [congruence|cbn; lia].
  - destruct (rest (s_lex s)) as [|c y] eqn:R.
    + rewrite (next_done _ _ R). destruct (update_tail srcs i s (move 1 (s_lex s)) (j :: st) _ E C eq_refl) as (C' & T' & W').
      destruct (IH j _ C') as (k & i' & st' & srcs' & H1 & H2 & H3 & (pre & H4) & H5 & H6).
      rewrite H1. exists k, i', st', srcs'. split; [reflexivity|]. split; [rewrite H2; apply length_set_lex|]. split; [exact H3|].
      split; [exists (i :: pre); rewrite H4; reflexivity|]. split; [rewrite H5; eapply MX; eauto|].
      rewrite (text_cons _ _ _ _ E), R. cbn [app]. rewrite T' in H6.
      assert (WW : forall P, weigh P (set_lex i (move 1 (s_lex s)) srcs) (j :: st) = weigh P srcs (i :: j :: st)).
      { intro P. rewrite W', (weigh_cons _ _ _ _ _ E), R. cbn. destruct (P i); reflexivity. }
      destruct H6 as [(A1 & A2 & A3 & A4 & A5)|(A1 & A2 & A3 & (s' & A4 & A4') & A5 & A6)]; [left|right].
      * repeat split; try assumption. intro P. rewrite <- WW. apply A5.
      * repeat split; try assumption.
        -- exists s'. split; [|exact A4']. rewrite (nth_set_lex _ _ _ _ _ E) in A4. destruct (Nat.eqb_spec i i') as [<-|]; [|exact A4].
           exfalso. assert (In i (j :: st)) by (rewrite H4; apply in_or_app; right; left; reflexivity).
           pose proof (chain_lt _ _ _ _ C H). lia.
        -- intro P. rewrite <- WW. apply A5.
        -- intros P H. rewrite <- WW. apply A6, H.
    + destruct (next_more plugins (s_lex s) G) as (k & w & z & N & Rw & Nw & Uz & L & M); [congruence|]. rewrite N.
      assert (G' : good_lex (move (length w) (s_lex s))) by (split; [apply G|rewrite M; exact Uz]).
      destruct (update_head srcs i s (move (length w) (s_lex s)) (j :: st) _ E C G' eq_refl) as (C' & T' & W').
      do 4 eexists. split; [reflexivity|]. split; [apply length_set_lex|]. split; [exact C'|]. split; [exists []; reflexivity|].
      split; [eapply MX; eauto|]. right. cbn [located k_lexeme k_kind k_loc t_lexeme t_kind t_start t_end].
      rewrite T', (text_cons _ _ _ _ E), M, Rw, <- app_assoc. repeat split; try assumption.
      * exists s. rewrite M. repeat split; assumption.
      * intro P. rewrite W', (weigh_cons _ _ _ _ _ E), M, Rw, app_length. destruct (P i); lia.
      * intros P H. rewrite W', (weigh_cons _ _ _ _ _ E), M, Rw, app_length, H. destruct w; [congruence|cbn; lia].
Qed.

Definition fits (l : lexer) : Prop := pos l <= length (src l).
Lemma fits_move n l : n <= length (rest l) -> fits l -> fits (move n l).
Proof. rewrite rest_len. unfold fits, move. cbn. lia. Qed.
Lemma fits_rest l : rest l <> [] -> fits l.
Proof. apply rest_past. Qed.
(** every live source but the lowest is within its text *)
Definition tight (srcs : list source) (l : list nat) : Prop :=
  forall pre i q, l = pre ++ i :: q -> q <> [] -> exists s, nth_error srcs i = Some s /\ fits (s_lex s).
Lemma tight_nil srcs i : tight srcs [i].
Proof. intros [|a [|b pre]] j q E N; try discriminate; cbn in E; injection E; intros; subst; congruence. Qed.
Lemma tight_cons srcs i t : (exists s, nth_error srcs i = Some s /\ fits (s_lex s)) -> tight srcs t -> tight srcs (i :: t).
Proof. intros H T [|a pre] j q E N; cbn in E; injection E; intros; subst; [exact H|]. eapply T; eauto. Qed.
Lemma tight_tail srcs i t : tight srcs (i :: t) -> tight srcs t.
Proof. intros T pre j q E N. apply (T (i :: pre) j q); [rewrite E; reflexivity|exact N]. Qed.
Lemma tight_suffix srcs pre t : tight srcs (pre ++ t) -> tight srcs t.
Proof. induction pre; [auto|]. cbn. intro H. apply IHpre. eapply tight_tail; eauto. Qed.
Lemma tight_frame srcs srcs' l : (forall j, In j l -> nth_error srcs' j = nth_error srcs j) -> tight srcs l -> tight srcs' l.
Proof. intros H T pre i q E N. destruct (T pre i q E N) as (s & A & B). exists s. rewrite H; auto. rewrite E. apply in_or_app. right. left. reflexivity. Qed.
Lemma tight_update srcs i s l t x : nth_error srcs i = Some s -> chain srcs (i :: t) -> x = set_lex i l srcs ->
  tight srcs (i :: t) -> (t <> [] -> fits l) -> tight x (i :: t).
Proof.
  intros E C -> T F. destruct t as [|j t]; [apply tight_nil|]. apply tight_cons.
  - exists (mkSource l (s_max s)). rewrite (nth_set_lex _ _ _ _ _ E), Nat.eqb_refl. split; [reflexivity|]. apply F. discriminate.
  - apply tight_tail in T. eapply tight_frame; [|exact T]. intros k I. rewrite (nth_set_lex _ _ _ _ _ E).
    pose proof (chain_lt _ _ _ _ C I). destruct (Nat.eqb_spec i k); [lia|reflexivity].
Qed.
Lemma tight_update_tail srcs i s l t x : nth_error srcs i = Some s -> chain srcs (i :: t) -> x = set_lex i l srcs ->
  tight srcs (i :: t) -> tight x t.
Proof.
  intros E C -> T. apply tight_tail in T. eapply tight_frame; [|exact T]. intros k I. rewrite (nth_set_lex _ _ _ _ _ E).
  pose proof (chain_lt _ _ _ _ C I). destruct (Nat.eqb_spec i k); [lia|reflexivity].
Qed.
Lemma read_from_tight plugins : forall st i srcs k i' st' srcs', chain srcs (i :: st) -> tight srcs (i :: st) ->
  read_from plugins i st srcs = Ret (k, (i', st', srcs')) -> tight srcs' (i' :: st').
Proof.
  induction st as [|j st IH]; intros i srcs k i' st' srcs' C T; destruct (chain_head _ _ _ C) as (s & E & G); cbn [read_from]; rewrite E;
  (destruct (rest (s_lex s)) as [|c y] eqn:R; [rewrite (next_done _ _ R)|
     destruct (next_more plugins (s_lex s) G) as (k0 & w & z & N & Rw & _); [congruence|]; rewrite N]).
  1,2: intro H; injection H as _ <- <- <-; apply tight_nil.
  - intro H. destruct (update_tail srcs i s (move 1 (s_lex s)) (j :: st) _ E C eq_refl) as (C' & _).
    eapply IH; [exact C'| |exact H]. eapply tight_update_tail; eauto.
  - intro H. injection H as _ <- <- <-. eapply tight_update; eauto. intros _. apply fits_move; [rewrite Rw, app_length; lia|].
    apply fits_rest. rewrite R. discriminate.
Qed.

(** *** skipping a byte *)
Lemma utf8_tl c y : between 0 127 c = true -> utf8 (c :: y) -> utf8 y.
Proof. intros A U. exact (proj2 (utf8_after_ascii [] c y U A)). Qed.
Lemma skip_from_good : forall st i srcs, chain srcs (i :: st) ->
  (forall c t, text srcs (i :: st) = c :: t -> between 0 127 c = true) ->
  exists i' st' srcs', skip_from i st srcs = Ret (i', st', srcs') /\ length srcs' = length srcs /\
    map s_max srcs' = map s_max srcs /\ chain srcs' (i' :: st') /\ (tight srcs (i :: st) -> tight srcs' (i' :: st')) /\
    (exists pre, i :: st = pre ++ i' :: st') /\
    ((text srcs (i :: st) = [] /\ text srcs' (i' :: st') = [] /\ (forall P, weigh P srcs' (i' :: st') <= weigh P srcs (i :: st))) \/
     (exists c, text srcs (i :: st) = c :: text srcs' (i' :: st') /\
      (forall P, weigh P srcs' (i' :: st') <= weigh P srcs (i :: st)) /\
      (forall P, P i' = true -> weigh P srcs' (i' :: st') < weigh P srcs (i :: st)))).
Proof.
  assert (MX : forall i s l srcs, nth_error srcs i = Some s -> map s_max (set_lex i l srcs) = map s_max srcs).
  { intros i s l srcs E. unfold set_lex. rewrite E. revert i E. induction srcs as [|a q IH]; intros [|i] E; cbn in *; try discriminate.
    - injection E as ->. reflexivity.
    - f_equal. apply IH, E. }
  induction st as [|j st IH]; intros i srcs C A; destruct (chain_head _ _ _ C) as (s & E & G); cbn [skip_from]; rewrite E, peek_rest;
    pose proof (text_cons srcs i s) as TC.
  - destruct (rest (s_lex s)) as [|c y] eqn:R; cbn [hd_error].
    + exists i, [], srcs. repeat split; try reflexivity; try apply C; [tauto|exists []; reflexivity|].
      left. rewrite (text_cons _ _ _ _ E), R. repeat split; try reflexivity; lia.
    + assert (G' : good_lex (move 1 (s_lex s))).
      { split; [apply G|]. rewrite rest_move, R. cbn. apply (utf8_tl c); [|rewrite <- R; apply G]. apply (A c (y ++ text srcs [])).
        rewrite (text_cons _ _ _ _ E), R. reflexivity. }
      destruct (update_head srcs i s _ [] _ E C G' eq_refl) as (C' & T' & W').
      do 3 eexists. split; [reflexivity|]. split; [apply length_set_lex|]. split; [eapply MX; eauto|]. split; [exact C'|].
      split; [intros _; apply tight_nil|]. split; [exists []; reflexivity|]. right. exists c.
      rewrite T', (text_cons _ _ _ _ E), rest_move, R. split; [reflexivity|].
      split; intros P; [|intro H]; rewrite W', (weigh_cons _ _ _ _ _ E), rest_move, R; cbn [skipn length]; [destruct (P i)|rewrite H]; lia.
  - destruct (rest (s_lex s)) as [|c y] eqn:R; cbn [hd_error].
    + destruct (IH j srcs (chain_tail _ _ _ C)) as (i' & st' & srcs' & H1 & H2 & H3 & H4 & H5 & (pre & H6) & H7).
      { intros c t H. apply (A c t). rewrite (text_cons _ _ _ _ E), R. exact H. }
      rewrite H1. exists i', st', srcs'. split; [reflexivity|]. split; [exact H2|]. split; [exact H3|]. split; [exact H4|].
      split; [intro T; apply H5; eapply tight_tail; eauto|]. split; [exists (i :: pre); rewrite H6; reflexivity|].
      assert (WW : forall P, weigh P srcs (j :: st) = weigh P srcs (i :: j :: st)).
      { intro P. rewrite (weigh_cons _ _ _ _ (j :: st) E), R. cbn. destruct (P i); reflexivity. }
      rewrite (text_cons _ _ _ (j :: st) E), R. cbn [app].
      destruct H7 as [(B1 & B2 & B3)|(c & B1 & B2 & B3)]; [left|right; exists c]; repeat split; auto; intros; rewrite <- WW; auto.
    + assert (G' : good_lex (move 1 (s_lex s))).
      { split; [apply G|]. rewrite rest_move, R. cbn. apply (utf8_tl c); [|rewrite <- R; apply G]. apply (A c (y ++ text srcs (j :: st))).
        rewrite (text_cons _ _ _ _ E), R. reflexivity. }
      destruct (update_head srcs i s _ (j :: st) _ E C G' eq_refl) as (C' & T' & W').
      do 3 eexists. split; [reflexivity|]. split; [apply length_set_lex|]. split; [eapply MX; eauto|]. split; [exact C'|].
      split. { intro T. eapply tight_update; eauto. intros _. apply fits_move; [rewrite R; cbn; lia|apply fits_rest; congruence]. }
      split; [exists []; reflexivity|]. right. exists c.
      rewrite T', (text_cons _ _ _ _ E), rest_move, R. split; [reflexivity|].
      split; intros P; [|intro H]; rewrite W', (weigh_cons _ _ _ _ _ E), rest_move, R; cbn [skipn length]; [destruct (P i)|rewrite H]; lia.
Qed.

(** *** skipping blank lines *)
Definition blank_byte (c : ascii) : bool := mem c [LF; CR].
Lemma blank_ascii c : blank_byte c = true -> between 0 127 c = true.
Proof. destruct c as [[] [] [] [] [] [] [] []]; vm_compute; intro H; first [reflexivity|discriminate]. Qed.
Lemma utf8_after_blanks : forall p q, all_of blank_byte p -> utf8 (p ++ q) -> utf8 q.
Proof.
  induction p as [|c p IH]; intros q A U; [exact U|]. inversion A; subst. apply IH; [assumption|]. eapply utf8_tl; [|exact U].
  apply blank_ascii. assumption.
Qed.
Lemma consume_from_good : forall st i srcs, chain srcs (i :: st) ->
  exists i' st' srcs', consume_from i st srcs = Ret (i', st', srcs') /\ length srcs' = length srcs /\
    map s_max srcs' = map s_max srcs /\ chain srcs' (i' :: st') /\ (tight srcs (i :: st) -> tight srcs' (i' :: st')) /\
    (exists pre, i :: st = pre ++ i' :: st') /\
    (exists bl, all_of blank_byte bl /\ text srcs (i :: st) = bl ++ text srcs' (i' :: st')) /\
    (forall P, weigh P srcs' (i' :: st') <= weigh P srcs (i :: st)) /\
    (tight srcs (i :: st) -> st' = [] \/ source_rest (mkRoot i' None st' srcs' None) i' <> []).
Proof.
  assert (MX : forall i s l srcs, nth_error srcs i = Some s -> map s_max (set_lex i l srcs) = map s_max srcs).
  { intros i s l srcs E. unfold set_lex. rewrite E. revert i E. induction srcs as [|a q IH]; intros [|i] E; cbn in *; try discriminate.
    - injection E as ->. reflexivity.
    - f_equal. apply IH, E. }
  induction st as [|j st IH]; intros i srcs C; destruct (chain_head _ _ _ C) as (s & E & G); cbn [consume_from]; rewrite E;
    set (l := lex_consume_empty_lines (s_lex s));
    destruct (run_split blank_byte (rest (s_lex s))) as (bl & y & R & Lb & Ab & Nb);
    assert (RL : rest l = y) by (unfold l, lex_consume_empty_lines; rewrite rest_move; change (fun c => mem c [LF; CR]) with blank_byte; rewrite <- Lb, R; apply skipn_pre);
    assert (G' : good_lex l) by (split; [apply G|rewrite RL; eapply utf8_after_blanks; [exact Ab|rewrite <- R; apply G]]);
    assert (E' : nth_error (set_lex i l srcs) i = Some (mkSource l (s_max s))) by (rewrite (nth_set_lex _ _ _ _ _ E), Nat.eqb_refl; reflexivity).
  - destruct (update_head srcs i s l [] _ E C G' eq_refl) as (C' & T' & W').
    exists i, [], (set_lex i l srcs). split; [destruct (lex_eof l); reflexivity|]. split; [apply length_set_lex|]. split; [eapply MX; eauto|].
    split; [exact C'|]. split; [intros _; apply tight_nil|]. split; [exists []; reflexivity|].
    split; [exists bl; split; [exact Ab|]; rewrite T', (text_cons _ _ _ _ E), R, RL, <- app_assoc; reflexivity|].
    split; [intro P; rewrite W', (weigh_cons _ _ _ _ _ E), R, RL, app_length; destruct (P i); lia|]. intros _. left. reflexivity.
  - destruct (lex_eof l) eqn:EO.
    + assert (Y : y = []). { rewrite <- RL. apply length_zero_iff_nil. rewrite rest_len. unfold lex_eof in EO. apply Nat.eqb_eq in EO. lia. }
      destruct (update_tail srcs i s l (j :: st) _ E C eq_refl) as (C' & T' & W').
      destruct (IH j _ C') as (i' & st' & srcs' & H1 & H2 & H3 & H4 & H5 & (pre & H6) & (bl' & H7 & H8) & H9 & H10).
      rewrite H1. exists i', st', srcs'. split; [reflexivity|]. split; [rewrite H2; apply length_set_lex|]. split; [rewrite H3; eapply MX; eauto|].
      split; [exact H4|]. split; [intro T; apply H5; exact (tight_update_tail srcs i s l (j :: st) _ E C eq_refl T)|]. split; [exists (i :: pre); rewrite H6; reflexivity|].
      split. { exists (bl ++ bl'). split; [unfold all_of in *; apply Forall_app; split; assumption|]. rewrite (text_cons _ _ _ _ E), R, Y, app_nil_r, <- app_assoc, <- H8, T'. reflexivity. }
      split. { intro P. etransitivity; [apply H9|]. rewrite W', (weigh_cons _ _ _ _ (j :: st) E). lia. }
      intro T. apply H10. exact (tight_update_tail srcs i s l (j :: st) _ E C eq_refl T).
    + destruct (update_head srcs i s l (j :: st) _ E C G' eq_refl) as (C' & T' & W').
      exists i, (j :: st), (set_lex i l srcs). split; [reflexivity|]. split; [apply length_set_lex|]. split; [eapply MX; eauto|].
      split; [exact C'|].
      assert (FT : tight srcs (i :: j :: st) -> fits l).
      { intro T. destruct (T [] i (j :: st) eq_refl) as (s0 & E0 & F0); [discriminate|]. rewrite E in E0. injection E0 as <-.
        unfold l, lex_consume_empty_lines. apply fits_move; [apply run_le|exact F0]. }
      split; [intro T; exact (tight_update srcs i s l (j :: st) _ E C eq_refl T (fun _ => FT T))|]. split; [exists []; reflexivity|].
      split; [exists bl; split; [exact Ab|]; rewrite T', (text_cons _ _ _ _ E), R, RL, <- app_assoc; reflexivity|].
      split; [intro P; rewrite W', (weigh_cons _ _ _ _ _ E), R, RL, app_length; destruct (P i); lia|].
      intro T. right. unfold source_rest. cbn [sources]. rewrite E'. cbn [s_lex]. rewrite RL. intro Y. rewrite Y in RL.
      apply f_equal with (f := @length ascii) in RL. rewrite rest_len in RL. unfold lex_eof in EO. apply Nat.eqb_neq in EO.
      pose proof (FT T) as F. unfold fits in F. cbn [length] in RL. lia.
Qed.
