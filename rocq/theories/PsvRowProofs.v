From Verif Require Import PsvSpec Text ColsModel PsvProofs.
Open Scope nat_scope.

(** ** White space *)
Lemma drop_while_idem {A} (f : A -> bool) l : drop_while f (drop_while f l) = drop_while f l.
Proof. induction l as [|a l IH]; [reflexivity|]. cbn [drop_while]. destruct (f a) eqn:E; [exact IH|]. cbn [drop_while]. rewrite E. reflexivity. Qed.
Lemma trim_end_idem l : trim_end (trim_end l) = trim_end l.
Proof. unfold trim_end. rewrite rev_involutive, drop_while_idem. reflexivity. Qed.
Lemma drop_while_cases {A} (f : A -> bool) l : exists a, l = a ++ drop_while f l /\ Forall (fun x => f x = true) a.
Proof. induction l as [|x l (a & E & F)]; [exists []; auto|]. cbn [drop_while]. destruct (f x) eqn:X; [exists (x :: a); cbn; rewrite <- E; auto|exists []; auto]. Qed.
Lemma trim_end_last x w : wsish w = false -> trim_end (x ++ [w]) = x ++ [w].
Proof. intro H. unfold trim_end. rewrite rev_app_distr. cbn [rev app drop_while]. rewrite H. cbn [rev]. rewrite rev_involutive. reflexivity. Qed.
Lemma trim_end_shape l : trim_end l = [] \/ exists x w, trim_end l = x ++ [w] /\ wsish w = false.
Proof.
  unfold trim_end. assert (C : forall m : list ttok, drop_while wsish m = [] \/ exists w y, drop_while wsish m = w :: y /\ wsish w = false).
  { induction m as [|t m IH]; [left; reflexivity|]. cbn [drop_while]. destruct (wsish t) eqn:E; [exact IH|right; exists t, m; auto]. }
  destruct (C (rev l)) as [->|(w & y & -> & H)]; [left; reflexivity|right]. exists (rev y), w. auto.
Qed.
Lemma trim_drop l : trim_end (drop_while nl (trim_end l)) = drop_while nl (trim_end l).
Proof.
  destruct (trim_end_shape l) as [->|(x & w & -> & H)]; [reflexivity|]. destruct (drop_while_cases nl (x ++ [w])) as (a & E & F).
  destruct (drop_while nl (x ++ [w])) as [|t r] eqn:D using rev_ind; [reflexivity|]. clear IHr. rewrite app_assoc in E. apply app_inj_tail in E as [_ <-]. apply trim_end_last. exact H.
Qed.

(** ** Finishing cells *)
Definition al (c : cell) : bool := style_eqb (c_style c) SAsciiDoc || style_eqb (c_style c) SLiteral.
Notation kept := (list ttok * cell_spec * option col_spec)%type.
(** what was kept of a cell has its text *)
Definition keeps (k : kept) (c : cell) : Prop := drop_while nl (trim_end (fst (fst k))) = drop_while nl (c_toks c).
(** as long as it is open whether the row is the header: what was kept is that of its AsciiDoc and literal cells *)
Definition kept_ok (h : hstate) (row : list cell) : Prop :=
  has_header h = false -> (hdr h = HUnknown \/ hdr h = HImplicit) -> Forall2 keeps (reparse h) (filter al row).
Lemma shape_new st body spec cs : shape_of_cell (parse_non_asciidoc_cell (trim_end body) spec cs st) = shape_of (spec, body).
Proof.
  unfold shape_of_cell, shape_of, parse_non_asciidoc_cell, new_cell, core, trim_for_cell. cbn [c_cols c_rows c_toks fst snd]. f_equal.
  destruct st; rewrite ?trim_end_idem; try reflexivity. rewrite trim_drop, drop_while_idem. reflexivity.
Qed.
Lemma take_drop {A} (f : A -> bool) l : take_while f l ++ drop_while f l = l.
Proof. induction l as [|a l IH]; [reflexivity|]. cbn [take_while drop_while]. destruct (f a); [cbn [app]; rewrite IH; reflexivity|reflexivity]. Qed.
Lemma end_ws_tail body : rev (end_ws body) = skipn (length (trim_end body)) body.
Proof.
  assert (E : body = trim_end body ++ rev (end_ws body)) by (unfold trim_end, end_ws; rewrite <- rev_app_distr, take_drop, rev_involutive; reflexivity).
  rewrite E at 3. rewrite skipn_app, skipn_all, Nat.sub_diag. reflexivity.
Qed.
Lemma finish_after cs h spec body i c d h' : finish_cell Prefix cs h spec body i = (c, d, h') -> hdr h' = after (hdr h) body.
Proof.
  unfold finish_cell. cbv zeta. rewrite end_ws_tail. set (st := if known_to_exist (hdr h) && negb (has_header h) then SDefault else _).
  set (p := if is_unknown (hdr h) && _ then _ else _). assert (P : fst p = after (hdr h) body).
  { unfold p, after, ends_blank, holds_blank. destruct (hdr h); try reflexivity. cbn [is_unknown andb]. destruct (skipn _ body) as [|a [|b z]]; [destruct (has_blank_line _); reflexivity..|].
    destruct (nl a && nl b); [reflexivity|]. destruct (has_blank_line _); reflexivity. }
  destruct p as [h1 tr]. cbn [fst] in P. intro H. injection H as _ _ <-. exact P.
Qed.
Lemma finish_spec fmt cs h spec body i row c d h' : kept_ok h row -> finish_cell fmt cs h spec body i = (c, d, h') ->
  shape_of_cell c = shape_of (spec, body) /\ d = or_default (duplication spec) 1 /\ kept_ok h' (row ++ [c]) /\ has_header h' = has_header h /\
  (hdr h <> HUnknown -> hdr h' = hdr h).
Proof.
  intros K. unfold finish_cell. cbv zeta.
  set (st := if known_to_exist (hdr h) && negb (has_header h) then SDefault else _).
  set (p := if is_unknown (hdr h) && _ then _ else _).
  assert (P : (p = (HImplicit, true) /\ hdr h = HUnknown) \/ p = (HNone, false) \/ p = (hdr h, false)).
  { unfold p. destruct (is_unknown (hdr h)) eqn:U; cbn [andb]; [|auto]. assert (hdr h = HUnknown) by (destruct (hdr h); congruence || discriminate).
    destruct (match fmt with Prefix => true | _ => false end); [|auto]. destruct (rev (end_ws body)) as [|x [|y z]].
    - destruct (has_blank_line _); auto.
    - destruct (has_blank_line _); auto.
    - destruct (nl x && nl y); [auto|]. destruct (has_blank_line _); auto. }
  destruct p as [h1 trimmed] eqn:EP. intro H. injection H as <- <- <-. split; [apply shape_new|]. split; [reflexivity|].
  assert (ALC : al (parse_non_asciidoc_cell (trim_end body) spec (nth_error cs i) st) = style_eqb st SAsciiDoc || style_eqb st SLiteral) by reflexivity.
  assert (KC : forall cs', keeps (trim_end body, spec, cs') (parse_non_asciidoc_cell (trim_end body) spec (nth_error cs i) st)).
  { intro cs'. unfold keeps. cbn [fst snd]. rewrite trim_end_idem. pose proof (shape_new st body spec (nth_error cs i)) as X. apply (f_equal snd) in X. exact (eq_sym X). }
  split; [|split; [reflexivity|]].
  - unfold kept_ok. cbn [hdr reparse has_header]. intros NH OR. specialize (K NH).
    assert (OLD : hdr h = HUnknown \/ hdr h = HImplicit) by (destruct P as [[_ P]|[P|P]]; [auto|injection P as -> _; destruct OR; discriminate|injection P as -> _; exact OR]).
    specialize (K OLD). rewrite filter_app. cbn [filter]. rewrite ALC.
    destruct OLD as [U|I].
    + assert (KEEP : is_unknown h1 || trimmed = true) by (destruct P as [[P _]|[P|P]]; injection P as -> ->; [reflexivity|destruct OR; discriminate|rewrite U; reflexivity]).
      rewrite KEEP, andb_true_r. destruct (_ || _); [apply Forall2_app; [exact K|constructor; [apply KC|constructor]]|rewrite app_nil_r; exact K].
    + assert (ST : st = SDefault) by (unfold st; rewrite I, NH; reflexivity). rewrite ST. cbn [style_eqb orb andb]. rewrite app_nil_r. exact K.
  - intro NU. cbn [hdr]. destruct P as [[_ P]|[P|P]]; [contradiction| |injection P as -> _; reflexivity].
    revert EP. unfold p. destruct (hdr h); try contradiction; cbn [is_unknown andb]; intro Q; injection Q as <- _; reflexivity.
Qed.

(** ** Header rows *)
Lemma Forall2_length {A B} (R : A -> B -> Prop) l m : Forall2 R l m -> length l = length m.
Proof. induction 1; cbn; congruence. Qed.
Lemma reparse_ok : forall row ks, Forall2 keeps ks (filter al row) -> exists row', reparse_header_cells ks row = Ret (row', []) /\ map shape_of_cell row' = map shape_of_cell row.
Proof.
  induction row as [|c row IH]; intros ks F; cbn [filter reparse_header_cells] in *; [inversion F; exists []; auto|].
  fold (al c). destruct (al c) eqn:A.
  - inversion F as [|k c' ks' r' K F' E1 E2]; subst. destruct k as [[ts sp] cs]. destruct (IH ks' F') as (row' & E & S). rewrite E. eexists. split; [reflexivity|]. cbn [map]. rewrite S.
    f_equal. unfold shape_of_cell. cbn [c_cols c_rows c_toks]. unfold keeps in K. cbn [fst] in K. unfold parse_non_asciidoc_cell, new_cell, trim_for_cell. cbn [c_toks]. rewrite K. reflexivity.
  - destruct (IH ks F) as (row' & E & S). rewrite E. eexists. split; [reflexivity|]. cbn [map]. rewrite S. reflexivity.
Qed.
Lemma reparse_count : forall row ks r, reparse_header_cells ks row = Ret r -> length (filter al row) <= length ks.
Proof.
  induction row as [|c row IH]; intros ks r; cbn [filter reparse_header_cells]; [cbn; lia|]. fold (al c). destruct (al c).
  - destruct ks as [|[[ts sp] cs] ks]; [discriminate|]. destruct (reparse_header_cells ks row) as [[row' k']|] eqn:E; [|discriminate]. intros _. apply IH in E. cbn [length]. lia.
  - destruct (reparse_header_cells ks row) as [[row' k']|] eqn:E; [|discriminate]. intros _. apply IH in E. exact E.
Qed.
(** a row made of the cells read, each at least once *)
Definition copied (reads : list (cell * nat)) : list cell := flat_map (fun p => repeat (fst p) (snd p)) reads.
Lemma filter_repeat f (c : cell) n : filter f (repeat c n) = if f c then repeat c n else [].
Proof. induction n as [|n IH]; cbn [repeat filter]; [destruct (f c); reflexivity|]. rewrite IH. destruct (f c); reflexivity. Qed.
Lemma copied_tight : forall reads, Forall (fun p => 1 <= snd p) reads -> length (filter al (map fst reads)) <= length (filter al (copied reads)) /\
  (length (filter al (copied reads)) <= length (filter al (map fst reads)) -> filter al (copied reads) = filter al (map fst reads)).
Proof.
  induction 1 as [|[c n] reads P _ [I1 I2]]; [split; auto|]. cbn [copied flat_map map fst snd] in *. fold (copied reads). rewrite filter_app, filter_repeat, app_length. cbn [filter].
  destruct (al c) eqn:A; cbn [length app].
  - rewrite repeat_length. split; [lia|]. intro L. assert (n = 1) by lia. subst n. cbn [repeat app]. rewrite I2 by lia. reflexivity.
  - split; [lia|]. intro L. apply I2. lia.
Qed.
(** placing a row: it keeps its cells; a panic only when a cell of the first row was duplicated *)
Lemma place_first b h t reads : kept_ok h (map fst reads) -> has_header h = false -> Forall (fun p => 1 <= snd p) reads ->
  match place_row b h t (copied reads) with
  | Done (h', t') => map (map shape_of_cell) (opt_row (t_header t') ++ t_rows t') = (if b then [map shape_of_cell (copied reads)] else map (map shape_of_cell) (opt_row (t_header t))) ++ map (map shape_of_cell) (t_rows t) ++ (if b then [] else [map shape_of_cell (copied reads)]) /\
      (if b then has_header h' = true /\ t_rows t' = t_rows t /\ t_header t' <> None else has_header h' = false /\ t_rows t' = t_rows t ++ [copied reads] /\ t_header t' = t_header t)
  | Crash => b = true /\ hdr h = HImplicit /\ ~ Forall (fun p => snd p = 1) reads
  | Loops => False
  end.
Proof.
  intros K NH F. unfold place_row. destruct b.
  - assert (G : forall row', map shape_of_cell row' = map shape_of_cell (copied reads) ->
      map (map shape_of_cell) (opt_row (Some row') ++ t_rows t) = [map shape_of_cell (copied reads)] ++ map (map shape_of_cell) (t_rows t) ++ []).
    { intros row' E. cbn [opt_row app map]. rewrite E, app_nil_r. reflexivity. }
    destruct (hdr h) eqn:HD; cbn [t_header t_rows has_header]; try (split; [apply G; reflexivity|repeat split; discriminate]).
    destruct (copied_tight reads F) as [T1 T2]. pose proof (K NH (or_intror HD)) as K'.
    destruct (reparse_header_cells (reparse h) (copied reads)) as [[row' k']|] eqn:E.
    + cbn [t_header t_rows has_header]. pose proof (reparse_count _ _ _ E) as L. pose proof (Forall2_length _ _ _ K') as LL.
      assert (EQ : filter al (copied reads) = filter al (map fst reads)) by (apply T2; lia). rewrite <- EQ in K'. destruct (reparse_ok _ _ K') as (row2 & E2 & S).
      rewrite E in E2. injection E2 as <- _. split; [apply G; exact S|repeat split; discriminate].
    + split; [reflexivity|]. split; [reflexivity|]. intro ONE. assert (EQ : copied reads = map fst reads).
      { clear -ONE. induction ONE as [|[c n] l O _ IH]; [reflexivity|]. cbn [snd] in O. subst n. cbn [copied flat_map map fst snd repeat app]. fold (copied l). rewrite IH. reflexivity. }
      rewrite EQ in E. destruct (reparse_ok _ _ K') as (row2 & E2 & _). congruence.
  - cbn [t_header t_rows has_header]. split; [|auto]. rewrite !map_app. cbn [map]. reflexivity.
Qed.

(** ** Places taken by spans *)
Definition cnt (ph : list place) (j : nat) : nat := row_phantom_cells ph j.
Lemma place_eqb_eq p q : place_eqb p q = true <-> p = q.
Proof. unfold place_eqb. destruct p, q. cbn [fst snd]. rewrite andb_true_iff, !Nat.eqb_eq. split; [intros []; congruence|intro H; injection H; auto]. Qed.
Lemma insert_in p l q : In q (insert p l) <-> q = p \/ In q l.
Proof.
  unfold insert. destruct (existsb (place_eqb p) l) eqn:E; [|cbn; intuition congruence]. apply existsb_exists in E as (x & I & E). apply place_eqb_eq in E. subst x. intuition congruence.
Qed.
Lemma insert_cnt p l j : ~ In p l -> cnt (insert p l) j = (if fst p =? j then 1 else 0) + cnt l j.
Proof.
  intro N. unfold insert. destruct (existsb (place_eqb p) l) eqn:E.
  - apply existsb_exists in E as (x & I & E). apply place_eqb_eq in E. subst x. contradiction.
  - unfold cnt, row_phantom_cells. cbn [filter]. destruct (fst p =? j); reflexivity.
Qed.
Lemma insert_cnt_other p l j : fst p <> j -> cnt (insert p l) j = cnt l j.
Proof.
  intro N. unfold insert. destruct (existsb (place_eqb p) l); [reflexivity|]. unfold cnt, row_phantom_cells. cbn [filter]. apply Nat.eqb_neq in N. rewrite N. reflexivity.
Qed.
Lemma fold_in ps : forall l q, In q (fold_left (fun l p => insert p l) ps l) <-> In q ps \/ In q l.
Proof. induction ps as [|p ps IH]; intros l q; cbn [fold_left]; [cbn [In]; tauto|]. rewrite IH, insert_in. cbn [In]. intuition congruence. Qed.
Lemma fold_cnt ps j : forall l, NoDup ps -> (forall p, In p ps -> fst p = j -> ~ In p l) ->
  cnt (fold_left (fun l p => insert p l) ps l) j = cnt ps j + cnt l j.
Proof.
  induction ps as [|p ps IH]; intros l ND D; cbn [fold_left]; [reflexivity|]. inversion ND as [|? ? NI ND']; subst.
  assert (X : cnt (p :: ps) j = (if fst p =? j then 1 else 0) + cnt ps j) by (unfold cnt, row_phantom_cells; cbn [filter]; destruct (fst p =? j); reflexivity).
  rewrite IH, X.
  - destruct (fst p =? j) eqn:E.
    + apply Nat.eqb_eq in E. rewrite insert_cnt by (apply D; [left; reflexivity|exact E]). rewrite E, Nat.eqb_refl. lia.
    + rewrite insert_cnt_other by (apply Nat.eqb_neq; exact E). lia.
  - exact ND'.
  - intros q I E. rewrite insert_in. intros [->|I']; [contradiction|]. exact (D q (or_intror I) E I').
Qed.
Lemma cell_places_in c row col p : In p (cell_places c row col) <-> exists r k, p = (row + r, col + k) /\ r < c_rows c /\ k < c_cols c /\ ~ (r = 0 /\ k = 0).
Proof.
  unfold cell_places. rewrite in_flat_map. split.
  - intros (r & R & I). apply in_flat_map in I as (k & K & I). apply in_seq in R, K. exists r, k. destruct (r =? 0) eqn:A, (k =? 0) eqn:B; cbn [andb In] in I; try (destruct I as [<-|[]]; try apply Nat.eqb_neq in A; try apply Nat.eqb_neq in B; repeat split; lia).
    contradiction.
  - intros (r & k & -> & R & K & N). exists r. split; [apply in_seq; lia|]. apply in_flat_map. exists k. split; [apply in_seq; lia|].
    destruct (r =? 0) eqn:A, (k =? 0) eqn:B; cbn [andb In]; auto. apply Nat.eqb_eq in A, B. destruct N. auto.
Qed.
Lemma NoDup_flat {A B} (f : A -> list B) l : NoDup l -> (forall a, In a l -> NoDup (f a)) -> (forall a b x, In a l -> In b l -> In x (f a) -> In x (f b) -> a = b) -> NoDup (flat_map f l).
Proof.
  induction 1 as [|a l NI ND IH]; intros D I; [constructor|]. cbn [flat_map].
  assert (NA : forall (x y : list B), NoDup x -> NoDup y -> (forall z, In z x -> ~ In z y) -> NoDup (x ++ y)).
  { induction x as [|u x IHx]; intros y NX NY DIS; [exact NY|]. inversion NX; subst. cbn [app]. constructor; [|apply IHx; auto; intros; apply DIS; right; assumption].
    rewrite in_app_iff. intros [U|U]; [contradiction|]. exact (DIS u (or_introl eq_refl) U). }
  apply NA.
  - apply D. left. reflexivity.
  - apply IH; [intros; apply D; right; assumption|]. intros b c x B1 C. apply I; right; assumption.
  - intros z Z1 Z2. apply in_flat_map in Z2 as (b & B1 & Z2). assert (a = b) by (apply (I a b z); cbn; auto). subst b. contradiction.
Qed.
Lemma cell_places_nodup c row col : NoDup (cell_places c row col).
Proof.
  unfold cell_places. apply NoDup_flat; [apply seq_NoDup| |].
  - intros r _. apply NoDup_flat; [apply seq_NoDup| |].
    + intros k _. destruct (_ && _); [constructor|repeat constructor; cbn; tauto].
    + intros a b x _ _ X Y. destruct (_ && _) in X; [contradiction|]. destruct (_ && _) in Y; [contradiction|]. cbn in X, Y. destruct X as [<-|[]], Y as [Y|[]]. injection Y. lia.
  - intros a b x _ _ X Y. apply in_flat_map in X as (k & _ & X), Y as (m & _ & Y). destruct (_ && _) in X; [contradiction|]. destruct (_ && _) in Y; [contradiction|].
    cbn in X, Y. destruct X as [<-|[]], Y as [Y|[]]. injection Y. lia.
Qed.
Lemma cnt_app a b j : cnt (a ++ b) j = cnt a j + cnt b j.
Proof. unfold cnt, row_phantom_cells. rewrite filter_app, app_length. reflexivity. Qed.
Lemma cell_places_cnt c row col j : row < j -> cnt (cell_places c row col) j = if j - row <? c_rows c then c_cols c else 0.
Proof.
  intro L. unfold cell_places.
  assert (INNER : forall r m s, cnt (flat_map (fun k => if (r =? 0) && (k =? 0) then [] else [(row + r, col + k)]) (seq s m)) j = if row + r =? j then m else 0).
  { intros r m. induction m as [|m IH]; intro s; cbn [seq flat_map]; [destruct (row + r =? j); reflexivity|]. rewrite cnt_app, IH. destruct (row + r =? j) eqn:E.
    - apply Nat.eqb_eq in E. assert (r =? 0 = false) as -> by (apply Nat.eqb_neq; lia). cbn [andb]. unfold cnt, row_phantom_cells. cbn [filter fst]. rewrite (proj2 (Nat.eqb_eq _ _) E). reflexivity.
    - destruct (_ && _); unfold cnt, row_phantom_cells; cbn [filter fst]; rewrite ?E; reflexivity. }
  assert (OUTER : forall m s, cnt (flat_map (fun r => flat_map (fun k => if (r =? 0) && (k =? 0) then [] else [(row + r, col + k)]) (seq 0 (c_cols c))) (seq s m)) j = if (s <=? j - row) && (j - row <? s + m) then c_cols c else 0).
  { induction m as [|m IH]; intro s; cbn [seq flat_map].
    - destruct (s <=? j - row) eqn:A; [|reflexivity]. cbn [andb]. apply Nat.leb_le in A. rewrite (proj2 (Nat.ltb_ge _ _)) by lia. reflexivity.
    - rewrite cnt_app, INNER, IH. destruct (row + s =? j) eqn:E.
      + apply Nat.eqb_eq in E. rewrite (proj2 (Nat.leb_gt (S s) (j - row))) by lia. rewrite (proj2 (Nat.leb_le s (j - row))) by lia. rewrite (proj2 (Nat.ltb_lt (j - row) (s + S m))) by lia. cbn [andb]. lia.
      + apply Nat.eqb_neq in E. cbn [Nat.add]. replace (s + S m) with (S (s + m)) by lia. destruct (s <=? j - row) eqn:A.
        * apply Nat.leb_le in A. rewrite (proj2 (Nat.leb_le (S s) _)) by lia. reflexivity.
        * apply Nat.leb_gt in A. rewrite (proj2 (Nat.leb_gt (S s) _)) by lia. reflexivity. }
  rewrite OUTER. reflexivity.
Qed.

(** ** Rows that fill the columns *)
Definition hangs (done : list shape) (d : nat) : nat := list_sum (map (fun s => if d <? snd (fst s) then fst (fst s) else 0) done).
Lemma hangs_app a b d : hangs (a ++ b) d = hangs a d + hangs b d.
Proof. unfold hangs. rewrite map_app, list_sum_app. reflexivity. Qed.
Lemma width_app a b : row_width (a ++ b) = row_width a + row_width b.
Proof. unfold row_width. rewrite map_app, list_sum_app. reflexivity. Qed.
Lemma hanging_mono above : forall d e, d <= e -> hanging above e <= hanging above d.
Proof.
  induction above as [|r above IH]; intros d e L; [cbn; lia|]. cbn [hanging]. apply Nat.add_le_mono; [|apply IH; lia].
  clear IH. induction r as [|s r IHr]; [cbn; lia|]. unfold list_sum in *. cbn [map fold_right]. destruct (e <? snd (fst s)) eqn:E; destruct (d <? snd (fst s)) eqn:D; try lia.
  apply Nat.ltb_lt in E. apply Nat.ltb_ge in D. lia.
Qed.
Record grid (ph : list place) (idx : nat) (above : list (list shape)) (done : list shape) (eff : nat) : Prop := Grid {
  g_cnt : forall j, idx < j -> cnt ph j = hanging above (1 + j - idx) + hangs done (j - idx);
  g_eff : eff = hanging above 1 + row_width done;
  g_col : hanging above 1 = 0 -> forall p, In p ph -> idx < fst p -> snd p < eff }.
Definition rows_of (s : shape) : nat := snd (fst s).
Definition cols_of (s : shape) : nat := fst (fst s).
Lemma grid_add ph idx above done eff c : grid ph idx above done eff -> (0 < hanging above 1 -> c_rows c <= 1) ->
  grid (add_phantom_cells ph c idx eff) idx above (done ++ [shape_of_cell c]) (eff + c_cols c).
Proof.
  intros [GC GE GL] R. unfold add_phantom_cells. constructor.
  - intros j L. rewrite fold_cnt.
    + rewrite cell_places_cnt, GC by exact L. rewrite hangs_app. unfold hangs at 3. cbn [map list_sum fold_right shape_of_cell fst snd]. lia.
    + apply cell_places_nodup.
    + intros p I E N. apply cell_places_in in I as (r & k & -> & RL & KL & _). cbn [fst] in E. destruct (Nat.eq_0_gt_0_cases (hanging above 1)) as [Z|Z].
      * specialize (GL Z _ N). cbn [fst snd] in GL. lia.
      * specialize (R Z). lia.
  - rewrite GE, width_app. unfold row_width at 3. cbn [map list_sum fold_right shape_of_cell fst snd]. lia.
  - intros Z p I L. apply fold_in in I as [I|I]; [apply cell_places_in in I as (r & k & -> & RL & KL & _); cbn [snd]; lia|]. specialize (GL Z p I L). lia.
Qed.
Lemma grid_start ph idx above : (forall j, idx <= j -> cnt ph j = hanging above (1 + j - idx)) -> grid ph idx above [] (cnt ph idx).
Proof.
  intro C. constructor.
  - intros j L. rewrite C by lia. unfold hangs. cbn. lia.
  - rewrite C by lia. replace (1 + idx - idx) with 1 by lia. unfold row_width. cbn. lia.
  - intros Z p I L. exfalso. assert (H : cnt ph (fst p) = 0) by (rewrite C by lia; pose proof (hanging_mono above 1 (1 + fst p - idx)); lia).
    unfold cnt, row_phantom_cells in H. apply length_zero_iff_nil in H. assert (IN : In p (filter (fun q => fst q =? fst p) ph)) by (apply filter_In; split; [exact I|apply Nat.eqb_refl]).
    rewrite H in IN. contradiction.
Qed.
Lemma grid_finish ph idx above done eff : grid ph idx above done eff -> forall j, S idx <= j -> cnt ph j = hanging (done :: above) (1 + j - S idx).
Proof. intros [GC _ _] j L. rewrite GC by lia. cbn [hanging]. fold (hangs done (1 + j - S idx)). replace (1 + j - S idx) with (j - idx) by lia. replace (S (j - idx)) with (1 + j - idx) by lia. lia. Qed.

Lemma map_repeat {A B} (f : A -> B) a n : map f (repeat a n) = repeat (f a) n.
Proof. induction n; cbn; congruence. Qed.
Lemma row_copies_fit n c idx above : 1 <= c_cols c -> (0 < hanging above 1 -> c_rows c <= 1) -> forall k eff cells ph done, grid ph idx above done eff -> eff + k * c_cols c < n ->
  exists ph', row_copies k n c idx eff cells [] ph = (eff + k * c_cols c, cells ++ repeat c k, [], ph') /\ grid ph' idx above (done ++ repeat (shape_of_cell c) k) (eff + k * c_cols c).
Proof.
  intros W R. induction k as [|k IH]; intros eff cells ph done G L; cbn [row_copies repeat].
  - exists ph. cbn [Nat.mul]. rewrite Nat.add_0_r, !app_nil_r. auto.
  - cbn [Nat.mul] in L. rewrite (proj2 (Nat.ltb_lt (eff + c_cols c) n)) by lia. destruct (IH (eff + c_cols c) (cells ++ [c]) _ _ (grid_add _ _ _ _ _ c G R)) as (ph' & E & G'); [lia|].
    exists ph'. rewrite E. cbn [Nat.mul]. replace (eff + (c_cols c + k * c_cols c)) with (eff + c_cols c + k * c_cols c) by lia. rewrite <- !app_assoc in *. cbn [app] in *. auto.
Qed.

Lemma psv_cell_written sep cs n r i w rest c d h : cell_ok sep w -> follows sep rest -> toks r = source w ++ rest -> (counting r = true \/ or_default (col_span (w_spec w)) 0 <= n mod 256) ->
  finish_cell Prefix cs (hs r) (w_spec w) (snd (content w)) i = (c, d, h) ->
  parse_psv_table_cell sep cs n r i = Done (Some (c, d), Reader rest (counting r && no_nl (snd (content w))) h (probs r)).
Proof.
  intros OK FO T NAR FIN. unfold parse_psv_table_cell. rewrite T, (cell_written sep n (counting r) (probs r) w rest) by (assumption || lia). cbn [rbind].
  unfold content in FIN |- *. cbn [snd] in FIN. cbn [snd]. rewrite FIN. reflexivity.
Qed.

Definition shapes (ws : list written) : list shape := expand (map content ws).
Lemma shapes_cons w ws : shapes (w :: ws) = repeat (shape_of (content w)) (copies (w_spec w)) ++ shapes ws.
Proof. reflexivity. Qed.
Lemma width_repeat s k : row_width (repeat s k) = k * cols_of s.
Proof. unfold row_width. rewrite map_repeat. induction k as [|k IH]; [reflexivity|]. cbn [repeat list_sum fold_right Nat.mul] in *. unfold list_sum in IH. rewrite IH. reflexivity. Qed.
Definition sources (ws : list written) : list ttok := flat_map source ws.
Lemma sources_follow sep ws rest : Forall (cell_ok sep) ws -> follows sep rest -> follows sep (sources ws ++ rest).
Proof. intros F R. destruct F as [|w ws H F]; [exact R|]. right. exists w, (sources ws ++ rest). split; [exact H|]. unfold sources. cbn [flat_map]. rewrite <- app_assoc. reflexivity. Qed.
Lemma sources_size ws : length ws <= size (sources ws).
Proof.
  induction ws as [|w ws IH]; [cbn; lia|]. unfold sources. cbn [flat_map length]. fold (sources ws). rewrite size_app. unfold source at 1. rewrite size_app, size_cons. lia.
Qed.

(** what reading the rest of a row that fits gives *)
Lemma row_written sep cs n above rest : follows sep rest -> forall ws fuel s eff cells done row,
  Forall (cell_ok sep) ws -> ws <> [] -> length ws <= fuel ->
  (forall w, In w ws -> counting (rd s) = true \/ or_default (col_span (w_spec w)) 0 <= n mod 256) -> (counting (rd s) = true -> forall w, In w ws -> or_default (col_span (w_spec w)) 0 <= n mod 256) ->
  Forall (fun x => 1 <= cols_of x) (shapes ws) -> (0 < hanging above 1 -> Forall (fun x => rows_of x <= 1) (shapes ws)) ->
  toks (rd s) = sources ws ++ rest -> spilled s = [] -> grid (phantom s) (row_idx s) above done eff -> eff + row_width (shapes ws) = n ->
  kept_ok (hs (rd s)) row ->
  exists reads ph count h, row_cells fuel sep cs n s eff cells = Done (cells ++ copied reads, Rows (Reader rest count h (probs (rd s))) ph (row_idx s) []) /\
    map shape_of_cell (copied reads) = shapes ws /\ map snd reads = map (fun w => copies (w_spec w)) ws /\
    grid ph (row_idx s) above (done ++ shapes ws) n /\ kept_ok h (row ++ map fst reads) /\ has_header h = has_header (hs (rd s)) /\ hdr h = fold_left after (map (fun w => snd (content w)) ws) (hdr (hs (rd s))).
Proof.
  intros FR. induction ws as [|w ws IH]; intros fuel s eff cells done row OK NE FU NAR NAR' WD HG T SP G WN K; [congruence|].
  destruct fuel as [|fuel]; [cbn in FU; lia|]. cbn [length] in FU. pose proof (Forall_inv OK) as OW. pose proof (Forall_inv_tail OK) as OK'.
  unfold sources in T. cbn [flat_map] in T. fold (sources ws) in T. rewrite <- app_assoc in T.
  pose proof (sources_follow sep ws rest OK' FR) as FO.
  destruct (finish_cell Prefix cs (hs (rd s)) (w_spec w) (snd (content w)) (length cells)) as [[c d] h] eqn:FIN.
  pose proof (finish_spec _ _ _ _ _ _ _ _ _ _ K FIN) as (SH & D & K' & HH & _). pose proof (finish_after _ _ _ _ _ _ _ _ FIN) as HU.
  cbn [row_cells]. rewrite (psv_cell_written _ _ _ _ _ _ _ _ _ _ OW FO T (NAR w (or_introl eq_refl)) FIN). cbn [rbind].
  rewrite shapes_cons in WD, HG, WN. rewrite width_app, width_repeat in WN.
  assert (SHE : shape_of (w_spec w, snd (content w)) = shape_of (content w)) by (unfold content; reflexivity). rewrite SHE in SH.
  assert (CC : c_cols c = cols_of (shape_of (content w))) by (rewrite <- SH; reflexivity).
  assert (CR : c_rows c = rows_of (shape_of (content w))) by (rewrite <- SH; reflexivity).
  assert (CP : 1 <= copies (w_spec w)) by (unfold copies; lia).
  assert (W1 : 1 <= c_cols c).
  { rewrite CC. apply Forall_app in WD as [WD _]. destruct (copies (w_spec w)); [lia|]. cbn [repeat] in WD. inversion WD. assumption. }
  assert (R1 : 0 < hanging above 1 -> c_rows c <= 1).
  { intro Z. rewrite CR. specialize (HG Z). apply Forall_app in HG as [HG' _]. destruct (copies (w_spec w)); [lia|]. cbn [repeat] in HG'. inversion HG'. assumption. }
  assert (DC : S (d - 1) = copies (w_spec w)) by (rewrite D; unfold copies; lia).
  rewrite <- CC, <- DC in WN. cbn [Nat.mul] in WN. rewrite SP.
  destruct (row_copies_fit n c (row_idx s) above W1 R1 (d - 1) eff cells (phantom s) done G) as (ph' & E & G'); [lia|].
  rewrite E. cbv zeta. pose proof (grid_add _ _ _ _ _ c G' R1) as G2. set (ph2 := add_phantom_cells ph' c (row_idx s) (eff + (d - 1) * c_cols c)) in *.
  assert (REP : repeat c (d - 1) ++ [c] = repeat c (copies (w_spec w))) by (rewrite <- DC; change [c] with (repeat c 1); rewrite <- repeat_app; f_equal; lia).
  assert (CELLS : (cells ++ repeat c (d - 1)) ++ [c] = cells ++ repeat c (copies (w_spec w))) by (rewrite <- app_assoc, REP; reflexivity).
  assert (DONE : (done ++ repeat (shape_of_cell c) (d - 1)) ++ [shape_of_cell c] = done ++ repeat (shape_of (content w)) (copies (w_spec w))).
  { rewrite <- app_assoc. f_equal. rewrite <- map_repeat. change [shape_of_cell c] with (map shape_of_cell [c]). rewrite <- map_app, REP, map_repeat, SH. reflexivity. }
  rewrite CELLS. rewrite DONE in G2.
  destruct (n <=? eff + (d - 1) * c_cols c + c_cols c) eqn:LE.
  - apply Nat.leb_le in LE. assert (Z : row_width (shapes ws) = 0) by lia.
    assert (ws = []) as ->.
    { destruct ws as [|v ws]; [reflexivity|exfalso]. rewrite shapes_cons, width_app, width_repeat in Z. apply Forall_app in WD as [_ WD]. rewrite shapes_cons in WD. apply Forall_app in WD as [WD _].
      assert (1 <= copies (w_spec v)) by (unfold copies; lia). destruct (copies (w_spec v)); [lia|]. cbn [repeat] in WD. inversion WD. cbn [Nat.mul] in Z. lia. }
    exists [(c, copies (w_spec w))], ph2. do 2 eexists. split; [unfold copied; cbn [flat_map fst snd]; rewrite app_nil_r; reflexivity|]. rewrite shapes_cons. change (shapes []) with (@nil shape). rewrite !app_nil_r.
    unfold copied. cbn [flat_map map fst snd]. rewrite app_nil_r, map_repeat, SH. split; [reflexivity|]. split; [reflexivity|].
    split; [replace n with (eff + (d - 1) * c_cols c + c_cols c) by lia; exact G2|]. auto.
  - apply Nat.leb_gt in LE.
    assert (NE' : ws <> []) by (intros ->; change (row_width (shapes [])) with 0 in WN; lia).
    destruct (IH fuel (Rows (Reader (sources ws ++ rest) (counting (rd s) && no_nl (snd (content w))) h (probs (rd s))) ph2 (row_idx s) []) (eff + (d - 1) * c_cols c + c_cols c)
      (cells ++ repeat c (copies (w_spec w))) (done ++ repeat (shape_of (content w)) (copies (w_spec w))) (row ++ [c])) as (reads & ph & count & h2 & E2 & S2 & M2 & G3 & K3 & H3 & U3).
    + exact OK'.
    + exact NE'.
    + lia.
    + cbn [rd counting]. intros v I. right. destruct (NAR v (or_intror I)) as [C|C]; [apply NAR'; [exact C|right; exact I]|exact C].
    + cbn [rd counting]. intros C v I. destruct (NAR v (or_intror I)) as [C'|C']; [apply NAR'; [exact C'|right; exact I]|exact C'].
    + apply Forall_app in WD as [_ WD]. exact WD.
    + intro Z. specialize (HG Z). apply Forall_app in HG as [_ HG]. exact HG.
    + reflexivity.
    + reflexivity.
    + exact G2.
    + lia.
    + exact K'.
    + exists ((c, copies (w_spec w)) :: reads), ph, count, h2. cbn [rd hs probs phantom row_idx spilled] in *. rewrite E2. rewrite <- !app_assoc in *. cbn [app] in *.
      split; [reflexivity|]. rewrite shapes_cons. unfold copied. cbn [flat_map map fst snd]. fold (copied reads). rewrite map_app, map_repeat, SH, S2. split; [reflexivity|]. rewrite M2. split; [reflexivity|].
      split; [exact G3|]. split; [exact K3|]. split; [congruence|]. cbn [fold_left]. rewrite U3, HU. reflexivity.
Qed.
