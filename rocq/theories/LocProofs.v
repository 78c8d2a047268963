(** Proofs about positions, lines and diagnostics. *)
From Verif Require Import Base Utf8 Text LexerModel LexerSpec LexerProofs RootModel LocModel LocSpec.
From Coq Require Import DecimalString DecimalNat.

Lemma lf_newline c : Ascii.eqb c LF = true <-> c = newline.
Proof. rewrite Ascii.eqb_eq. reflexivity. Qed.
Lemma newlines_app x y : newlines (x ++ y) = newlines x + newlines y.
Proof. unfold newlines. apply count_occ_app. Qed.
Lemma newlines_none x : ~ In newline x -> newlines x = 0.
Proof. intro H. unfold newlines. apply count_occ_not_In. exact H. Qed.
Lemma newlines_cons c x : newlines (c :: x) = (if Ascii.eqb c LF then 1 else 0) + newlines x.
Proof.
  unfold newlines. cbn [count_occ]. destruct (Ascii.ascii_dec c newline) as [->|N]; [reflexivity|].
  destruct (Ascii.eqb c LF) eqn:E; [|reflexivity]. apply lf_newline in E. contradiction.
Qed.

(** *** line numbers *)
Lemma count_plain : forall part y line col, ~ In newline part -> count_lines (length part) (part ++ y) line col = Ret (line, col + length part).
Proof.
  induction part as [|c part IH]; intros y line col N; cbn [length app count_lines].
  - rewrite Nat.add_0_r. reflexivity.
  - destruct (Ascii.eqb c LF) eqn:E; [apply lf_newline in E; subst; destruct N; left; reflexivity|]. rewrite IH by (intro; apply N; right; assumption).
    f_equal. f_equal. lia.
Qed.
Lemma count_some : forall x n y line col, exists col', count_lines (length x + n) (x ++ y) line col = count_lines n y (line + newlines x) col'.
Proof.
  induction x as [|c x IH]; intros n y line col; cbn [length app count_lines Nat.add].
  - exists col. change (newlines []) with 0. rewrite Nat.add_0_r. reflexivity.
  - rewrite newlines_cons. destruct (Ascii.eqb c LF) eqn:E.
    + destruct (IH n y (S line) 0) as (col' & H). exists col'. rewrite H. f_equal. lia.
    + destruct (IH n y line (S col)) as (col' & H). exists col'. rewrite H. reflexivity.
Qed.
Lemma count_before x n y line col : count_lines (length (x ++ [newline]) + n) ((x ++ [newline]) ++ y) line col = count_lines n y (line + newlines (x ++ [newline])) 0.
Proof.
  rewrite <- app_assoc. rewrite app_length. cbn [length]. replace (length x + 1 + n) with (length x + S n) by lia.
  destruct (count_some x (S n) ([newline] ++ y) line col) as (col' & H). rewrite H. cbn [app count_lines].
  change (Ascii.eqb newline LF) with true. cbv iota. rewrite newlines_app. change (newlines [newline]) with 1. f_equal. lia.
Qed.
Lemma on_part s p be li af : on_line s p be li af -> exists part rest, li = part ++ rest /\ p = length be + length part.
Proof.
  intros [E L H _ _ _]. exists (firstn (p - length be) li), (skipn (p - length be) li). rewrite firstn_skipn, firstn_length. split; [reflexivity|]. lia.
Qed.
Lemma in_app_l {A} (x : A) a c : ~ In x (a ++ c) -> ~ In x a.
Proof. intros H I. apply H, in_or_app. auto. Qed.
Lemma line_number_good s p be li af : on_line s p be li af -> count_lines p s 1 0 = Ret (1 + newlines be, p - length be).
Proof.
  intro O. destruct (on_part _ _ _ _ _ O) as (part & rest & -> & ->). destruct O as [-> _ _ N B _]. apply in_app_l in N.
  rewrite <- app_assoc. destruct B as [->|(x & ->)].
  - change (length [] + length part) with (length part). cbn [app]. rewrite count_plain by exact N. change (newlines []) with 0.
    cbn [length]. rewrite Nat.sub_0_r. reflexivity.
  - rewrite count_before, count_plain by exact N. f_equal. f_equal. lia.
Qed.
Lemma has_line : forall s p, p <= length s -> exists be li af, on_line s p be li af.
Proof.
  intros s p L.
  assert (B : forall x, exists be part, x = be ++ part /\ ~ In newline part /\ (be = [] \/ exists y, be = y ++ [newline])).
  { induction x as [|c x IH] using rev_ind.
    - exists [], []. repeat split; auto.
    - destruct (Ascii.ascii_dec c newline) as [->|N].
      + exists (x ++ [newline]), []. rewrite app_nil_r. repeat split; auto. right. exists x. reflexivity.
      + destruct IH as (be & part & -> & NI & H). exists be, (part ++ [c]). rewrite app_assoc. repeat split; auto.
        rewrite in_app_iff. cbn [In]. intros [I|[I|[]]]; [exact (NI I)|congruence]. }
  assert (A : forall x, exists r af, x = r ++ af /\ ~ In newline r /\ (af = [] \/ exists y, af = newline :: y)).
  { induction x as [|c x IH].
    - exists [], []. repeat split; auto.
    - destruct (Ascii.ascii_dec c newline) as [->|N].
      + exists [], (newline :: x). repeat split; auto. right. exists x. reflexivity.
      + destruct IH as (r & af & -> & NI & H). exists (c :: r), af. repeat split; auto. cbn [In]. intros [I|I]; [congruence|exact (NI I)]. }
  destruct (B (firstn p s)) as (be & part & E1 & N1 & H1). destruct (A (skipn p s)) as (r & af & E2 & N2 & H2).
  exists be, (part ++ r), af. assert (LP : length be + length part = p) by (rewrite <- app_length, <- E1, firstn_length; lia).
  constructor; auto.
  - rewrite <- (firstn_skipn p s), E1, E2, <- !app_assoc. reflexivity.
  - lia.
  - rewrite app_length. lia.
  - rewrite in_app_iff. tauto.
Qed.
Lemma count_past : forall n s line col, length s < n -> count_lines n s line col = Panic.
Proof.
  induction n as [|n IH]; intros [|c s] line col L; cbn [length] in L; try lia; cbn [count_lines]; [reflexivity|]. destruct (Ascii.eqb c LF); apply IH; lia.
Qed.
Lemma tck_same : forall n s line col, n <= length s -> count_lines n s line col = Ret (tck_lines n s line col).
Proof.
  induction n as [|n IH]; intros [|c s] line col L; cbn [length] in L; try lia; try reflexivity. cbn [count_lines tck_lines]. destruct (Ascii.eqb c LF); apply IH; lia.
Qed.
Lemma tck_past : forall n s line col, length s <= n -> tck_lines n s line col = tck_lines (length s) s line col.
Proof.
  induction n as [|n IH]; intros [|c s] line col L; cbn [length] in *; try lia; try reflexivity. cbn [tck_lines]. destruct (Ascii.eqb c LF); apply IH; lia.
Qed.
(** The line is determined. *)
Lemma suffix_same (x y u v : bytes) : x ++ u = y ++ v -> ~ In newline u -> ~ In newline v ->
  (x = [] \/ exists z, x = z ++ [newline]) -> (y = [] \/ exists z, y = z ++ [newline]) -> x = y /\ u = v.
Proof.
  intros E Nu Nv X Y. assert (L : length x = length y).
  { destruct (Nat.lt_trichotomy (length x) (length y)) as [C|[C|C]]; [|exact C|]; exfalso.
    - destruct Y as [->|(z & ->)]; [cbn in C; lia|]. apply (f_equal (fun l => nth_error l (length z))) in E. rewrite app_length in C. cbn in C.
      rewrite <- app_assoc, (nth_error_app2 z), Nat.sub_diag in E by lia. cbn in E. rewrite nth_error_app2 in E by lia. apply nth_error_In in E. contradiction.
    - destruct X as [->|(z & ->)]; [cbn in C; lia|]. apply (f_equal (fun l => nth_error l (length z))) in E. rewrite app_length in C. cbn in C.
      rewrite <- app_assoc, (nth_error_app2 z), Nat.sub_diag in E by lia. cbn in E. rewrite (nth_error_app2 y) in E by lia. symmetry in E. apply nth_error_In in E. contradiction. }
  assert (x = y). { apply (f_equal (firstn (length x))) in E. rewrite firstn_app, Nat.sub_diag, firstn_O, app_nil_r, firstn_all in E.
    rewrite L, firstn_app, Nat.sub_diag, firstn_O, app_nil_r, firstn_all in E. exact E. }
  subst. apply app_inv_head in E. auto.
Qed.
Lemma app_same_length {A} (x y u v : list A) : x ++ u = y ++ v -> length x = length y -> x = y /\ u = v.
Proof.
  revert y. induction x as [|a x IH]; intros [|c y] E L; try discriminate; [auto|]. injection E as -> E. injection L as L. destruct (IH y E L) as [-> ->]. auto.
Qed.
Lemma prefix_same (x y u v : bytes) : u ++ x = v ++ y -> ~ In newline u -> ~ In newline v ->
  (x = [] \/ exists z, x = newline :: z) -> (y = [] \/ exists z, y = newline :: z) -> u = v /\ x = y.
Proof.
  revert v. induction u as [|a u IH]; intros [|c v] E Nu Nv X Y.
  - auto.
  - exfalso. cbn in E. destruct X as [->|(z & ->)]; [discriminate|]. injection E as <- _. apply Nv. left. reflexivity.
  - exfalso. cbn in E. destruct Y as [->|(z & ->)]; [discriminate|]. injection E as -> _. apply Nu. left. reflexivity.
  - injection E as -> E. destruct (IH v E) as [-> ->]; auto; intro; [apply Nu|apply Nv]; right; assumption.
Qed.
Lemma on_unique s p be li af be' li' af' : on_line s p be li af -> on_line s p be' li' af' -> be = be' /\ li = li' /\ af = af'.
Proof.
  intros O O'. destruct (on_part _ _ _ _ _ O) as (u & r & -> & P). destruct (on_part _ _ _ _ _ O') as (u' & r' & -> & P').
  destruct O as [E _ _ N B A]. destruct O' as [E' _ _ N' B' A'].
  assert (X : be ++ u = be' ++ u' /\ r ++ af = r' ++ af').
  { apply app_same_length; [|rewrite !app_length; lia]. rewrite <- !app_assoc in *. congruence. }
  destruct X as [X1 X2].
  destruct (suffix_same _ _ _ _ X1) as [-> ->]; auto; [intro I; apply N, in_or_app; auto|intro I; apply N', in_or_app; auto|].
  destruct (prefix_same _ _ _ _ X2) as [-> ->]; auto; [intro I; apply N, in_or_app; auto|intro I; apply N', in_or_app; auto].
Qed.
Lemma count_injective s p q : p <= length s -> q <= length s -> count_lines p s 1 0 = count_lines q s 1 0 -> p = q.
Proof.
  assert (M : forall p q be li af be' li' af', on_line s p be li af -> on_line s q be' li' af' -> p < q -> newlines be = newlines be' -> be = be').
  { intros p' q' be li af be' li' af' O O' L NE. destruct (Nat.le_gt_cases (length be') p') as [C|C].
    - assert (O2 : on_line s p' be' li' af') by (destruct O'; constructor; auto; lia). exact (proj1 (on_unique _ _ _ _ _ _ _ _ O O2)).
    - exfalso. destruct O' as [E' _ _ _ B' _]. destruct B' as [->|(z & ->)]; [cbn in C; lia|].
      destruct (on_part _ _ _ _ _ O) as (u & r & -> & P). destruct O as [E _ _ _ _ _]. rewrite app_length in C. cbn in C.
      assert (LZ : length be <= length z) by lia. rewrite E in E'. rewrite newlines_app in NE. change (newlines [newline]) with 1 in NE.
      assert (SP : exists w, z = be ++ w).
      { exists (skipn (length be) z). apply (f_equal (firstn (length be))) in E'. rewrite firstn_app, Nat.sub_diag, firstn_O, app_nil_r, firstn_all in E'.
        rewrite <- app_assoc, firstn_app in E'. replace (length be - length z) with 0 in E' by lia. rewrite firstn_O, app_nil_r in E'. rewrite E' at 1. symmetry. apply firstn_skipn. }
      destruct SP as (w & ->). rewrite newlines_app in NE. lia. }
  intros Lp Lq E. destruct (has_line s p Lp) as (be & li & af & O). destruct (has_line s q Lq) as (be' & li' & af' & O').
  rewrite (line_number_good _ _ _ _ _ O), (line_number_good _ _ _ _ _ O') in E. injection E as E1 E2.
  assert (be = be' -> p = q) by (intros ->; destruct O, O'; lia).
  destruct (Nat.lt_trichotomy p q) as [C|[C|C]]; auto; [apply H; eapply M; eauto|apply H; symmetry; eapply M; eauto].
Qed.

(** *** line texts *)
Lemma back_good be li af : forall k, k <= length li -> ~ In newline li -> (be = [] \/ exists x, be = x ++ [newline]) ->
  back (be ++ li ++ af) (length be + k) = Ret (length be).
Proof.
  induction k as [|k IH]; intros L N B.
  - rewrite Nat.add_0_r. destruct B as [->|(x & ->)]; [reflexivity|]. rewrite app_length. cbn [length]. replace (length x + 1) with (S (length x)) by lia.
    cbn [back]. rewrite <- app_assoc, nth_error_app2, Nat.sub_diag by lia. reflexivity.
  - replace (length be + S k) with (S (length be + k)) by lia. cbn [back]. rewrite nth_error_app2 by lia. replace (length be + k - length be) with k by lia.
    rewrite nth_error_app1 by lia. destruct (nth_error li k) as [c|] eqn:E; [|apply nth_error_None in E; lia].
    destruct (Ascii.eqb c LF) eqn:Q; [apply lf_newline in Q; subst; apply nth_error_In in E; contradiction|]. apply IH; [lia|assumption|assumption].
Qed.
Lemma back_past : forall k s, length s < k -> back s k = Panic.
Proof. intros [|k] s L; [lia|]. cbn [back]. destruct (nth_error s k) eqn:E; [|reflexivity]. assert (nth_error s k <> None) by congruence. apply nth_error_Some in H. lia. Qed.
Lemma skipn_app_len {A} (x y : list A) : skipn (length x) (x ++ y) = y.
Proof. rewrite skipn_app, Nat.sub_diag, skipn_all. reflexivity. Qed.
Lemma firstn_app_len {A} (x y : list A) : firstn (length x) (x ++ y) = x.
Proof. rewrite firstn_app, Nat.sub_diag, firstn_O, app_nil_r, firstn_all. reflexivity. Qed.
Lemma run_app_stop f r af : (af = [] \/ exists c y, af = c :: y /\ f c = false) -> run f (r ++ af) = run f r.
Proof.
  intro A. induction r as [|c r IH]; cbn.
  - destruct A as [->|(c & y & -> & F)]; [reflexivity|]. cbn. rewrite F. reflexivity.
  - destruct (f c); [rewrite IH|]; reflexivity.
Qed.
(** the part of a line's rest up to the first carriage return *)
Definition upto_cr (r : bytes) : bytes := firstn (run (fun c => negb (mem c [CR; LF])) r) r.
Lemma trim_end_spec s : right_trimmed s (trim_end s).
Proof.
  assert (WS : forall c, ascii_ws c = true <-> In c [" "%char; ascii_of_nat 9; newline; ascii_of_nat 12; return_]).
  { intro c. unfold ascii_ws, mem. rewrite existsb_exists. split.
    - intros (x & I & E). apply Ascii.eqb_eq in E. subst. cbn in I. cbn. tauto.
    - intro I. exists c. rewrite Ascii.eqb_refl. cbn in I. cbn. tauto. }
  induction s as [|c s (w & E & F & L)].
  - exists []. split; [reflexivity|]. split; [constructor|]. intros [|] ? H; discriminate.
  - cbn [trim_end]. destruct (trim_end s) as [|a t] eqn:T.
    + cbn [app] in E. subst w. destruct (ascii_ws c) eqn:W.
      * exists (c :: s). split; [reflexivity|]. split; [constructor; [apply WS, W|exact F]|]. intros [|] ? H; discriminate.
      * exists s. split; [reflexivity|]. split; [exact F|]. intros [|x0 [|]] ? H; try discriminate. injection H as <-. intro I. apply WS in I. congruence.
    + exists w. split; [cbn; rewrite E at 1; reflexivity|]. split; [exact F|]. intros x d H. destruct x as [|y x]; [discriminate|]. injection H as <- H. exact (L x d H).
Qed.
Lemma trimmed_unique s t t' : right_trimmed s t -> right_trimmed s t' -> t = t'.
Proof.
  intros (w & E & F & L) (w' & E' & F' & L').
  assert (K : forall (a c u v : bytes), a ++ u = c ++ v -> Forall (fun c => In c [" "%char; ascii_of_nat 9; newline; ascii_of_nat 12; return_]) u ->
    (forall x d, c = x ++ [d] -> ~ In d [" "%char; ascii_of_nat 9; newline; ascii_of_nat 12; return_]) -> length c <= length a).
  { intros a c u v Q FU LC. destruct (Nat.le_gt_cases (length c) (length a)) as [C|C]; [exact C|exfalso].
    destruct c as [|d c] using rev_ind; [cbn in C; lia|]. clear IHc. apply (LC c d eq_refl). apply (f_equal (fun l => nth_error l (length c))) in Q.
    rewrite app_length in C. cbn in C. rewrite <- app_assoc, (nth_error_app2 c), Nat.sub_diag in Q by lia. cbn in Q. rewrite nth_error_app2 in Q by lia.
    rewrite Forall_forall in FU. apply FU. eapply nth_error_In. exact Q. }
  rewrite E in E'. assert (length t = length t') by (apply Nat.le_antisymm; [eapply K; [symmetry; exact E'|..]; eauto|eapply K; [exact E'|..]; eauto]).
  exact (proj1 (app_same_length _ _ _ _ E' H)).
Qed.
Lemma utf8_line s p be part r af : utf8 s -> on_line s p be (part ++ r) af -> utf8 (part ++ upto_cr r).
Proof.
  intros U [E _ _ N B A]. subst s.
  assert (U1 : utf8 ((part ++ r) ++ af)).
  { destruct B as [->|(x & ->)]; [exact U|]. rewrite <- app_assoc in U. apply (utf8_after_ascii x newline); [exact U|reflexivity]. }
  assert (U2 : utf8 (part ++ r)).
  { refine (proj1 (utf8_cut _ _ U1 _)). intros c y Q. destruct A as [->|(z & ->)]; [discriminate|]. injection Q as <- _. reflexivity. }
  unfold upto_cr. destruct (run_split (fun c => negb (mem c [CR; LF])) r) as (x & y & -> & <- & F & NC). rewrite firstn_app_len. rewrite app_assoc in U2.
  refine (proj1 (utf8_cut _ _ U2 _)). intros c z ->. specialize (NC c z eq_refl). cbv beta in NC. clear - NC.
  destruct c as [[] [] [] [] [] [] [] []]; vm_compute in NC; first [reflexivity|discriminate].
Qed.
Lemma line_of_good l p be part r af : utf8 (src l) -> offset l <= p -> p - offset l = length be + length part -> on_line (src l) (p - offset l) be (part ++ r) af ->
  line_of l p = Ret (trim_end (part ++ upto_cr r)).
Proof.
  intros U LO P O. unfold line_of. rewrite (proj2 (Nat.ltb_ge _ _) LO). pose proof (utf8_line _ _ _ _ _ _ U O) as UL. destruct O as [E _ _ N B A].
  rewrite E, P. rewrite back_good by (rewrite ?app_length; auto; lia).
  replace (skipn (length be + length part) (be ++ (part ++ r) ++ af)) with (r ++ af).
  2: { rewrite <- app_assoc, <- app_length, app_assoc, skipn_app_len. reflexivity. }
  rewrite run_app_stop by (destruct A as [->|(x & ->)]; [left; reflexivity|right; exists newline, x; split; reflexivity]).
  unfold cut. replace (length be + length part + run (fun c => negb (mem c [CR; LF])) r - length be) with (length part + run (fun c => negb (mem c [CR; LF])) r) by lia.
  rewrite skipn_app_len, <- app_assoc, firstn_app. replace (length part + run (fun c => negb (mem c [CR; LF])) r - length part) with (run (fun c => negb (mem c [CR; LF])) r) by lia.
  rewrite firstn_all2 by lia. rewrite firstn_app. assert (run (fun c => negb (mem c [CR; LF])) r <= length r) by apply run_le.
  replace (run (fun c => negb (mem c [CR; LF])) r - length r) with 0 by lia. rewrite firstn_O, app_nil_r. change (firstn (run (fun c => negb (mem c [CR; LF])) r) r) with (upto_cr r).
  rewrite (proj2 (is_utf8_spec _) UL). reflexivity.
Qed.

(** *** raw lines *)
Lemma raw_plain : forall x y cur, ~ In newline x -> raw_lines_from (x ++ y) cur = raw_lines_from y (rev x ++ cur).
Proof.
  induction x as [|c x IH]; intros y cur N; [reflexivity|]. cbn [app raw_lines_from rev].
  destruct (Ascii.eqb c LF) eqn:E; [apply lf_newline in E; subst; destruct N; left; reflexivity|].
  rewrite IH by (intro; apply N; right; assumption). rewrite <- app_assoc. reflexivity.
Qed.
Lemma raw_before : forall z y cur, exists ls, length ls = newlines (z ++ [newline]) /\ raw_lines_from ((z ++ [newline]) ++ y) cur = ls ++ raw_lines_from y [].
Proof.
  induction z as [|c z IH]; intros y cur.
  - exists [rev cur]. split; reflexivity.
  - cbn [app raw_lines_from]. rewrite newlines_cons. destruct (Ascii.eqb c LF) eqn:E.
    + destruct (IH y []) as (ls & L & R). exists (rev cur :: ls). split; [cbn [length]; lia|]. rewrite R. reflexivity.
    + destruct (IH y (c :: cur)) as (ls & L & R). exists ls. split; [lia|exact R].
Qed.
Lemma raw_nth s p be li af : on_line s p be li af -> li <> [] \/ af <> [] -> nth_error (raw_lines s) (newlines be) = Some li.
Proof.
  intros [-> _ _ N B A] NE. unfold raw_lines.
  assert (H : exists rest, raw_lines_from (li ++ af) [] = li :: rest).
  { rewrite raw_plain by exact N. rewrite app_nil_r. destruct A as [->|(x & ->)].
    - destruct NE as [NE|NE]; [|congruence]. cbn [raw_lines_from]. destruct (rev li) eqn:R.
      + apply (f_equal (@rev _)) in R. rewrite rev_involutive in R. contradiction.
      + rewrite <- R, rev_involutive. exists []. reflexivity.
    - cbn [raw_lines_from]. change (Ascii.eqb newline LF) with true. cbv iota. rewrite rev_involutive. eexists. reflexivity. }
  destruct H as (rest & H). destruct B as [->|(z & ->)].
  - cbn [app]. rewrite H. reflexivity.
  - destruct (raw_before z (li ++ af) []) as (ls & L & R). rewrite R, H, <- L, nth_error_app2, Nat.sub_diag by lia. reflexivity.
Qed.
Lemma last_app_some (x y : list (option ascii)) d : y <> [] -> last (x ++ y) d = last y d.
Proof.
  intro N. induction x as [|a x IH]; [reflexivity|]. cbn [app last]. destruct (x ++ y) eqn:E; [apply app_eq_nil in E; tauto|]. exact IH.
Qed.
Lemma raw_concat_from : forall s cur, ~ In newline cur ->
  concat (map (fun l => l ++ [newline]) (raw_lines_from s cur)) =
  match last (map Some (rev cur ++ s)) None with None => [] | Some c => if Ascii.eqb c LF then rev cur ++ s else rev cur ++ s ++ [newline] end.
Proof.
  induction s as [|c s IH]; intros cur N.
  - cbn [raw_lines_from]. rewrite app_nil_r. destruct cur as [|a cur]; [reflexivity|]. cbn [rev]. rewrite map_app. cbn [map]. rewrite last_last. cbn [map concat app].
    rewrite app_nil_r. destruct (Ascii.eqb a LF) eqn:E; [apply lf_newline in E; subst; destruct N; left; reflexivity|]. reflexivity.
  - cbn [raw_lines_from]. destruct (Ascii.eqb c LF) eqn:E.
    + apply lf_newline in E. subst c. cbn [map concat]. rewrite IH by auto. cbn [rev app]. destruct s as [|a s].
      * rewrite map_app. cbn [map]. rewrite last_last. change (Ascii.eqb newline LF) with true. cbn [app]. rewrite app_nil_r. reflexivity.
      * rewrite map_app. cbn [map]. rewrite last_app_some by discriminate. change (last (Some newline :: Some a :: map Some s) None) with (last (Some a :: map Some s) None). change (map Some (a :: s)) with (Some a :: map Some s) in *. rewrite <- app_assoc. destruct (last (Some a :: map Some s) None) as [d|] eqn:D.
        -- destruct (Ascii.eqb d LF); rewrite <- ?app_assoc; reflexivity.
        -- exfalso. clear - D. revert a D. induction s as [|x s IH]; intros a D; [discriminate|]. exact (IH x D).
    + rewrite IH. 2: { intros [I|I]; [subst; discriminate|exact (N I)]. } cbn [rev]. rewrite <- !app_assoc. reflexivity.
Qed.

(** *** cells *)
Lemma count_from : forall x n y line col k c, count_lines (length x) x line col = Ret (k, c) -> count_lines (length x + n) (x ++ y) line col = count_lines n y k c.
Proof.
  induction x as [|a x IH]; intros n y line col k c H; cbn [length app count_lines Nat.add] in *.
  - injection H as <- <-. reflexivity.
  - destruct (Ascii.eqb a LF); apply IH, H.
Qed.
Lemma count_shift : forall n y line col k c, count_lines n y (S line) col = Ret (k, c) ->
  forall by_ col', exists c', count_lines n y (S line + by_) (col + col') = Ret (k + by_, c') /\ (k <> S line -> c' = c) /\ (k = S line -> c' = c + col').
Proof.
  induction n as [|n IH]; intros [|a y] line col k c H by_ col'; cbn [count_lines] in *; try discriminate.
  - injection H as <- <-. exists (col + col'). repeat split; congruence.
  - injection H as <- <-. exists (col + col'). repeat split; congruence.
  - assert (M : forall n y line col k c, count_lines n y line col = Ret (k, c) -> line <= k).
    { clear. induction n as [|n IH]; intros [|a y] line col k c H; cbn [count_lines] in H; try discriminate; try (injection H as <- <-; lia).
      destruct (Ascii.eqb a LF); apply IH in H; lia. }
    destruct (Ascii.eqb a LF).
    + specialize (M _ _ _ _ _ _ H). destruct (IH _ _ _ _ _ H by_ 0) as (c' & E & A & B). cbn [Nat.add] in E. exists c'. split; [exact E|]. split; [|lia].
      intros _. destruct (Nat.eq_dec k (S (S line))) as [Q|Q]; [rewrite (B Q); lia|exact (A Q)].
    + destruct (IH _ _ _ _ _ H by_ col') as (c' & E & A & B). exists c'. auto.
Qed.

(** *** diagnostics *)
Lemma run_lenient : forall p errors, run_parse false p errors = (None, errors ++ reported p).
Proof.
  induction p as [|d k IH|n sub IHs k IH]; intro errors; cbn [run_parse reported handle_err].
  - rewrite app_nil_r. reflexivity.
  - rewrite IH, <- app_assoc. reflexivity.
  - rewrite IHs. cbn [app]. rewrite IH, <- app_assoc. reflexivity.
Qed.
Lemma run_strict : forall p errors, match reported p with
  | [] => run_parse true p errors = (None, errors)
  | d :: _ => exists e, run_parse true p errors = (Some d, e)
  end.
Proof.
  induction p as [|d k IH|n sub IHs k IH]; intro errors; cbn [run_parse reported handle_err].
  - reflexivity.
  - exists errors. reflexivity.
  - specialize (IHs []). destruct (reported sub) as [|d ds]; cbn [map app].
    + rewrite IHs. cbn [map]. rewrite app_nil_r. apply IH.
    + destruct IHs as (e & ->). exists errors. reflexivity.
Qed.

(** the number of digits *)
Lemma acc_bound : forall d acc, acc * 10 ^ Decimal.nb_digits d <= Nat.of_uint_acc d acc < (acc + 1) * 10 ^ Decimal.nb_digits d.
Proof.
  induction d as [|d IH|d IH|d IH|d IH|d IH|d IH|d IH|d IH|d IH|d IH]; intro acc; cbn [Nat.of_uint_acc Decimal.nb_digits]; [cbn [Nat.pow]; lia|..];
    rewrite ?Nat.tail_mul_spec, Nat.pow_succ_r' in *;
    match goal with |- context [Nat.of_uint_acc d ?a] => specialize (IH a) end; set (K := 10 ^ Decimal.nb_digits d) in *; clearbody K; nia.
Qed.
Lemma len_digits d : length (b (NilEmpty.string_of_uint d)) = Decimal.nb_digits d.
Proof. unfold b. induction d; cbn; congruence. Qed.
Lemma dec_length n : 0 < n -> exists k, length (b (dec n)) = S k /\ 10 ^ k <= n < 10 ^ S k.
Proof.
  intro P. unfold dec. pose proof (DecimalNat.Unsigned.of_to n) as V. pose proof (DecimalNat.Unsigned.to_of (Nat.to_uint n)) as W. rewrite V in W.
  assert (L : length (b (NilZero.string_of_uint (Nat.to_uint n))) = Decimal.nb_digits (Nat.to_uint n)).
  { rewrite <- len_digits. f_equal. f_equal. destruct (Nat.to_uint n) eqn:E; try reflexivity. exfalso. exact (nat_to_uint_nonnil n E). }
  rewrite L. clear L. set (d := Nat.to_uint n) in *. clearbody d. unfold Nat.of_uint in V.
  assert (S1 : forall d', Decimal.unorm (Decimal.D0 d') = Decimal.D0 d' -> d' = Decimal.Nil).
  { intros d' H. destruct d'; try reflexivity; exfalso; cbn in H; try discriminate.
    assert (Z : forall u, Decimal.nb_digits (Decimal.nzhead u) <= Decimal.nb_digits u) by (induction u; cbn; lia).
    specialize (Z d'). unfold Decimal.unorm in H. cbn [Decimal.nzhead] in H. destruct (Decimal.nzhead d'); try discriminate. injection H as ->. cbn in Z. lia. }
  destruct d as [|d|d|d|d|d|d|d|d|d|d]; cbn [Nat.of_uint_acc Nat.tail_mul Nat.tail_addmul Nat.tail_add Decimal.nb_digits] in *;
    [lia|symmetry in W; apply S1 in W; subst d; cbn in V; lia|..]; exists (Decimal.nb_digits d); (split; [reflexivity|]);
    match goal with H : Nat.of_uint_acc d ?a = n |- _ => pose proof (acc_bound d a) as B; rewrite H in B end; rewrite Nat.pow_succ_r'; lia.
Qed.
Lemma pad_exact n : (0 < n)%nat -> (N.of_nat n < 100000)%N -> length (b (dec n)) + 3 = line_num_pad n.
Proof.
  intros P H. destruct (dec_length n P) as (k & -> & L). unfold line_num_pad.
  assert (K : forall m, 10 ^ m = N.to_nat (10 ^ N.of_nat m)).
  { induction m as [|m IH]; [reflexivity|]. rewrite Nat2N.inj_succ, N.pow_succ_r', Nat.pow_succ_r', IH, N2Nat.inj_mul. reflexivity. }
  rewrite !K in L.
  destruct k as [|[|[|[|[|k]]]]].
  6: { exfalso. assert (N.to_nat (10 ^ 5) <= N.to_nat (10 ^ N.of_nat (S (S (S (S (S k))))))).
       { apply Nat.compare_le_iff. rewrite <- N2Nat.inj_compare. apply N.compare_le_iff. apply N.pow_le_mono_r; lia. }
       assert ((10 ^ 5)%N = 100000%N) by reflexivity. lia. }
  all: repeat match type of L with context [(10 ^ N.of_nat ?m)%N] => let v := eval vm_compute in (10 ^ N.of_nat m)%N in change (10 ^ N.of_nat m)%N with v in L end.
  all: repeat match goal with |- context [if ?x then _ else _] => destruct x eqn:? end; rewrite ?Nat.ltb_lt, ?Nat.ltb_ge, ?N.ltb_lt, ?N.ltb_ge in *; try lia.
Qed.
Lemma tck_app : forall cell z q line col, q <= length cell -> tck_lines q (cell ++ z) line col = tck_lines q cell line col.
Proof.
  induction cell as [|x cell IH]; intros z q line col L; cbn [length] in L.
  - replace q with 0 by lia. destruct z; reflexivity.
  - destruct q as [|q]; [reflexivity|]. cbn [app tck_lines]. destruct (Ascii.eqb x LF); apply IH; lia.
Qed.
Lemma tck_mono : forall n s line col, line <= fst (tck_lines n s line col).
Proof.
  induction n as [|n IH]; intros [|c s] line col; cbn [tck_lines fst]; try lia. destruct (Ascii.eqb c LF); [specialize (IH s (S line) 0)|specialize (IH s line (S col))]; lia.
Qed.
