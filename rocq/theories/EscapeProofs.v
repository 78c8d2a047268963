From Verif Require Import Base EscapeModel EscapeSpec.

Lemma escape_chars q c r x : In x (escape_char q c r) -> x <> "<"%char /\ x <> ">"%char /\ (q = true -> x <> dquote /\ x <> "'"%char).
Proof.
  assert (K : forall l : bytes, forallb (fun x => negb (Ascii.eqb x "<"%char) && negb (Ascii.eqb x ">"%char) && negb (Ascii.eqb x dquote) && negb (Ascii.eqb x "'"%char)) l = true -> In x l -> x <> "<"%char /\ x <> ">"%char /\ (q = true -> x <> dquote /\ x <> "'"%char)).
  { intros l F I. rewrite forallb_forall in F. specialize (F x I). rewrite !andb_true_iff, !negb_true_iff in F. destruct F as [[[A B] C] D].
    apply Ascii.eqb_neq in A, B, C, D. auto. }
  unfold escape_char. destruct (Ascii.eqb_spec c "&"%char) as [->|N1].
  - destruct (starts_with _ r).
    + destruct (peek6 _) as [p|]; [|intros []]. destruct (is_match p); apply K; reflexivity.
    + apply K. reflexivity.
  - destruct (Ascii.eqb_spec c "<"%char) as [->|N2]; [apply K; reflexivity|]. destruct (Ascii.eqb_spec c ">"%char) as [->|N3]; [apply K; reflexivity|].
    destruct (Ascii.eqb_spec c EscapeModel.dquote) as [->|N4]; [destruct q; cbn [andb]; [apply K; reflexivity|]|].
    + replace (Ascii.eqb EscapeModel.dquote squote) with false by reflexivity. cbn [andb]. intros [<-|[]]. repeat split; congruence.
    + destruct (Ascii.eqb_spec c squote) as [->|N5]; cbn [andb]; [destruct q; [apply K; reflexivity|]|]; cbn [andb].
      * intros [<-|[]]. repeat split; congruence.
      * intros [<-|[]]. repeat split; auto.
Qed.
Lemma no_markup q s x : In x (push_escaped q s) -> x <> "<"%char /\ x <> ">"%char /\ (q = true -> x <> dquote /\ x <> "'"%char).
Proof. induction s as [|c r IH]; [intros []|]. cbn [push_escaped]. rewrite in_app_iff. intros [H|H]; [exact (escape_chars q c r x H)|exact (IH H)]. Qed.

(** ** reading back *)
(** the part written for [pre] when [post] follows *)
Fixpoint esc (q : bool) (pre post : bytes) : bytes := match pre with c :: r => escape_char q c (r ++ post) ++ esc q r post | [] => [] end.
Lemma push_esc q pre post : push_escaped q (pre ++ post) = esc q pre post ++ push_escaped q post.
Proof. induction pre as [|c r IH]; [reflexivity|]. cbn [app push_escaped esc]. rewrite IH, app_assoc. reflexivity. Qed.
Lemma esc_nil q s : esc q s [] = push_escaped q s.
Proof. rewrite <- (app_nil_r s) at 2. rewrite push_esc. cbn [push_escaped]. symmetry. apply app_nil_r. Qed.

Lemma cons_app (c : ascii) r : c :: r = [c] ++ r. Proof. reflexivity. Qed.
Lemma run_semi_semi class seen s : run_semi class seen s = true -> In ";"%char s.
Proof.
  revert seen. induction s as [|c r IH]; intros seen; [discriminate|]. cbn [run_semi]. destruct (class c); [intro H; right; exact (IH true H)|].
  rewrite andb_true_iff, Ascii.eqb_eq. intros [_ ->]. left. reflexivity.
Qed.
Lemma ref_here_semi s : ref_here s = true -> In ";"%char s.
Proof.
  unfold ref_here. destruct (starts_with _ s); [|discriminate]. rewrite orb_true_iff, andb_true_iff. 
  assert (K : forall n, In ";"%char (skipn n s) -> In ";"%char s) by (intros n I; rewrite <- (firstn_skipn n s); apply in_or_app; right; exact I).
  intros [H|[_ H]]; apply run_semi_semi in H; exact (K _ H).
Qed.
Lemma match_semi s : is_match s = true -> In ";"%char s.
Proof.
  induction s as [|c r IH]; [discriminate|]. cbn [is_match]. rewrite orb_true_iff. intros [H|H]; [exact (ref_here_semi _ H)|right; exact (IH H)].
Qed.

(** the first byte written *)
Lemma escape_plain q c r : c <> "&"%char -> escape_char q c r = [c] \/ exists x y t, escape_char q c r = "&"%char :: x :: y :: t.
Proof.
  intro N. unfold escape_char. destruct (Ascii.eqb_spec c "&"%char) as [E|_]; [contradiction|].
  destruct (Ascii.eqb c "<"%char); [right; do 3 eexists; reflexivity|]. destruct (Ascii.eqb c ">"%char); [right; do 3 eexists; reflexivity|].
  destruct (_ && _); [right; do 3 eexists; reflexivity|]. destruct (_ && _); [right; do 3 eexists; reflexivity|]. left. reflexivity.
Qed.
Lemma continuation_spec c : continuation c = true <-> inner_byte c.
Proof. unfold continuation, inner_byte. rewrite andb_true_iff, Nat.leb_le, Nat.ltb_lt. reflexivity. Qed.
Definition safe (pre post : bytes) : Prop := no_character_cut (pre ++ post).
Lemma cut_tail c s : no_character_cut (c :: s) -> no_character_cut s.
Proof. intros H pre rest x E N. apply (H (c :: pre) rest x); [rewrite E; reflexivity|exact N]. Qed.
Lemma amp_kept q r : no_character_cut ("&"%char :: r) -> escape_char q "&"%char r = $"&amp;" \/
  (escape_char q "&"%char r = ["&"%char] /\ exists r1, r = "#"%char :: r1 /\ is_match (firstn 6 ("&"%char :: r)) = true).
Proof.
  intro S. unfold escape_char. rewrite Ascii.eqb_refl. destruct (starts_with ($"#") r) eqn:H; [|left; reflexivity].
  apply starts_with_spec in H. destruct H as [r1 ->]. 
  assert (P : peek6 ("&"%char :: $"#" ++ r1) = Some (firstn 6 ("&"%char :: $"#" ++ r1))).
  { unfold peek6. destruct (nth_error _ 6) as [c|] eqn:E.
    - destruct (continuation c) eqn:C; [|reflexivity]. apply continuation_spec in C. exfalso. apply (S [] r1 c eq_refl); [exact E|exact C].
    - apply nth_error_None in E. rewrite firstn_all2 by exact E. reflexivity. }
  rewrite P. destruct (is_match _) eqn:M; [right; split; [reflexivity|]; exists r1; split; reflexivity|left; reflexivity].
Qed.

(** text without an ampersand at the start of what is written comes from the text *)
Lemma esc_starts q p pre post : Forall (fun x => x <> "&"%char) p -> no_character_cut (pre ++ post) -> starts_with p (esc q pre post) = true -> starts_with p pre = true.
Proof.
  intros F. revert pre. induction F as [|x p N F IH]; intros pre S H; [destruct pre; reflexivity|]. destruct pre as [|c r]; [exact H|]. cbn [esc app] in *.
  destruct (Ascii.eqb_spec c "&"%char) as [->|NA].
  - exfalso. destruct (amp_kept q (r ++ post) S) as [E|[E _]]; rewrite E in H; cbn in H; apply andb_true_iff in H; destruct H as [H _]; unfold byte_eqb in H; apply Ascii.eqb_eq in H; contradiction.
  - destruct (escape_plain q c (r ++ post) NA) as [E|(a & b & t & E)]; rewrite E in H.
    + cbn [app starts_with] in H |- *. apply andb_true_iff in H. destruct H as [A B]. rewrite A. exact (IH r (cut_tail _ _ S) B).
    + exfalso. cbn in H. apply andb_true_iff in H. destruct H as [H _]. unfold byte_eqb in H. apply Ascii.eqb_eq in H. contradiction.
Qed.

Lemma starts_other x p c s : x <> c -> starts_with (x :: p) (c :: s) = false.
Proof. intro N. cbn [starts_with]. apply andb_false_iff. left. apply Ascii.eqb_neq, N. Qed.
Lemma starts_cons x p c s : starts_with (x :: p) (c :: s) = true -> starts_with p s = true.
Proof. cbn [starts_with]. intro H. apply andb_true_iff in H. apply H. Qed.
Lemma decode_plain n c s : c <> "&"%char -> decode html_entities (S n) (c :: s) = c :: decode html_entities n s.
Proof.
  intro N. cbn [decode]. replace (find (fun e => starts_with (fst e) (c :: s)) html_entities) with (@None (bytes * ascii)); [reflexivity|]. symmetry.
  unfold html_entities. cbn [find fst b list_ascii_of_string]. rewrite !starts_other by congruence. reflexivity.
Qed.
Lemma decode_entity n e x s : In (e, x) html_entities -> decode html_entities (S n) (e ++ s) = x :: decode html_entities n s.
Proof.
  intro I. unfold html_entities in I. cbn in I.
  repeat (destruct I as [I|I]; [injection I as <- <-; reflexivity|]). destruct I.
Qed.
Lemma esc_decode q post : forall pre n, no_character_cut (pre ++ post) -> length pre <= n -> decode html_entities n (esc q pre post) = pre.
Proof.
  induction pre as [|c r IH]; intros n S L; [destruct n; reflexivity|]. destruct n as [|n]; [cbn in L; lia|]. cbn [length] in L. cbn [esc app] in *.
  pose proof (IH n (cut_tail _ _ S) (le_S_n _ _ L)) as R.
  destruct (Ascii.eqb_spec c "&"%char) as [->|NA].
  - destruct (amp_kept q (r ++ post) S) as [E|(E & r1 & ER & M)]; rewrite E.
    + rewrite (decode_entity n ($"&amp;") "&"%char); [rewrite R; reflexivity|unfold html_entities; cbn; tauto].
    + cbn [app]. cbn [decode]. replace (find (fun e => starts_with (fst e) ("&"%char :: esc q r post)) html_entities) with (@None (bytes * ascii)); [rewrite R; reflexivity|]. symmetry.
      destruct (find _ _) as [[e x]|] eqn:Fd; [|reflexivity]. exfalso. apply find_some in Fd. destruct Fd as [I St]. cbn [fst] in St.
      assert (G : forall p, Forall (fun x => x <> "&"%char) p -> starts_with p (esc q r post) = true -> starts_with p r = true) by (intros p F; exact (esc_starts q p r post F (cut_tail _ _ S))).
      assert (Sr : forall p, starts_with p r = true -> exists t, "&"%char :: r ++ post = "&"%char :: p ++ t).
      { intros p H. apply starts_with_spec in H. destruct H as [t ->]. exists (t ++ post). rewrite app_assoc. reflexivity. }
      unfold html_entities in I. cbn in I.
      repeat (destruct I as [I|I]; [injection I as <- <-; cbn [b list_ascii_of_string] in St; apply starts_cons in St|]); [..|destruct I].
      1-4: match type of St with starts_with ?p _ = true => apply (G p) in St; [apply Sr in St; destruct St as [t Et]; rewrite ER in Et; discriminate Et|repeat (constructor; [discriminate|]); constructor] end.
      apply (G ($"#8217;")) in St; [|repeat (constructor; [discriminate|]); constructor]. apply Sr in St. destruct St as [t Et]. rewrite Et in M. vm_compute in M. discriminate M.
  - destruct (escape_plain q c (r ++ post) NA) as [E|(a & b0 & t & E)]; rewrite E.
    + cbn [app]. rewrite decode_plain by exact NA. rewrite R. reflexivity.
    + rewrite <- E. assert (I : exists x, In (escape_char q c (r ++ post), c) html_entities /\ x = c).
      { exists c. split; [|reflexivity]. unfold escape_char in *. destruct (Ascii.eqb_spec c "&"%char) as [X|_]; [contradiction|].
        destruct (Ascii.eqb_spec c "<"%char) as [->|_]; [cbn; tauto|]. destruct (Ascii.eqb_spec c ">"%char) as [->|_]; [cbn; tauto|].
        destruct (Ascii.eqb_spec c EscapeModel.dquote) as [->|_].
        - destruct q; [cbn; tauto|]. cbn in E. discriminate E.
        - destruct (Ascii.eqb_spec c squote) as [->|_]; cbn [andb] in *; [|discriminate E]. destruct q; [cbn; tauto|discriminate E]. }
      destruct I as (x & I & _). rewrite (decode_entity n _ c _ I). rewrite R. reflexivity.
Qed.
Lemma esc_length q pre post : no_character_cut (pre ++ post) -> length pre <= length (esc q pre post).
Proof.
  induction pre as [|c r IH]; intro S; [apply le_n|]. cbn [esc app length] in *. rewrite app_length. specialize (IH (cut_tail _ _ S)).
  assert (1 <= length (escape_char q c (r ++ post))); [|lia].
  destruct (Ascii.eqb_spec c "&"%char) as [->|NA].
  - destruct (amp_kept q (r ++ post) S) as [E|[E _]]; rewrite E; cbn; lia.
  - destruct (escape_plain q c (r ++ post) NA) as [E|(a & b0 & t & E)]; rewrite E; cbn; lia.
Qed.
Lemma unescape_esc q pre post : no_character_cut (pre ++ post) -> unescape (esc q pre post) = pre.
Proof. intro S. unfold unescape. apply esc_decode; [exact S|apply esc_length, S]. Qed.

(** ** references *)
Lemma dec_digit_spec c : is_dec c -> dec_digit c = true.
Proof. unfold is_dec. cbn. intros H. repeat (destruct H as [<-|H]; [reflexivity|]). destruct H. Qed.
Lemma hex_digit_spec c : is_hex c -> hex_digit c = true.
Proof. unfold is_hex. cbn. intros H. repeat (destruct H as [<-|H]; [reflexivity|]). destruct H. Qed.
Lemma run_semi_run class seen ds r : Forall (fun c => class c = true) ds -> class ";"%char = false -> (ds <> [] \/ seen = true) -> run_semi class seen (ds ++ ";"%char :: r) = true.
Proof.
  intros F S. revert seen. induction F as [|c ds C F IH]; intros seen H.
  - cbn [app run_semi]. rewrite S. destruct H as [H| ->]; [contradiction|reflexivity].
  - cbn [app run_semi]. rewrite C. apply IH. right. reflexivity.
Qed.
Lemma ref_is_ref s t : numeric_ref s -> ref_here (s ++ t) = true.
Proof.
  destruct 1 as [ds NE F|ds NE F]; unfold ref_here.
  - replace (($"&#" ++ ds ++ $";") ++ t) with ("&"%char :: "#"%char :: ds ++ ";"%char :: t) by (rewrite <- !app_assoc; reflexivity).
    change (starts_with ($"&#") ("&"%char :: "#"%char :: ds ++ ";"%char :: t)) with true. cbn [skipn].
    apply orb_true_iff. left. apply run_semi_run; [|reflexivity|left; exact NE]. eapply Forall_impl; [|exact F]. exact dec_digit_spec.
  - replace (($"&#x" ++ ds ++ $";") ++ t) with ("&"%char :: "#"%char :: "x"%char :: ds ++ ";"%char :: t) by (rewrite <- !app_assoc; reflexivity).
    change (starts_with ($"&#") ("&"%char :: "#"%char :: "x"%char :: ds ++ ";"%char :: t)) with true. change (starts_with ($"&#x") ("&"%char :: "#"%char :: "x"%char :: ds ++ ";"%char :: t)) with true. cbn [skipn andb].
    apply orb_true_iff. right. apply run_semi_run; [|reflexivity|left; exact NE]. eapply Forall_impl; [|exact F]. exact hex_digit_spec.
Qed.
Lemma firstn_ref (s t : bytes) : (length s <= 6)%nat -> exists u, firstn 6 (s ++ t) = s ++ u.
Proof. intro L. exists (firstn (6 - length s) t). rewrite firstn_app. f_equal. apply firstn_all2, L. Qed.
Lemma numeric_tail s : numeric_ref s -> exists r, s = "&"%char :: r /\ starts_with ($"#") r = true /\ Forall (fun c => c <> "&"%char /\ c <> "<"%char /\ c <> ">"%char /\ c <> EscapeModel.dquote /\ c <> squote) r.
Proof.
  assert (K : forall l, forallb (fun c => negb (Ascii.eqb c "&"%char) && negb (Ascii.eqb c "<"%char) && negb (Ascii.eqb c ">"%char) && negb (Ascii.eqb c EscapeModel.dquote) && negb (Ascii.eqb c squote)) l = true ->
    Forall (fun c => c <> "&"%char /\ c <> "<"%char /\ c <> ">"%char /\ c <> EscapeModel.dquote /\ c <> squote) l).
  { intros l F. rewrite forallb_forall in F. apply Forall_forall. intros x I. specialize (F x I). rewrite !andb_true_iff, !negb_true_iff, !Ascii.eqb_neq in F. tauto. }
  assert (H : forall c, is_hex c -> c <> "&"%char /\ c <> "<"%char /\ c <> ">"%char /\ c <> EscapeModel.dquote /\ c <> squote).
  { intros c I. unfold is_hex in I. cbn in I. repeat (destruct I as [<-|I]; [repeat split; discriminate|]). destruct I. }
  assert (D : forall c, is_dec c -> is_hex c) by (intros c I; unfold is_dec, is_hex in *; cbn in *; tauto).
  destruct 1 as [ds NE F|ds NE F]; eexists; (split; [reflexivity|]); (split; [reflexivity|]).
  - constructor; [repeat split; discriminate|]. apply Forall_app. split; [eapply Forall_impl; [|exact F]; intros c I; apply H, D, I|apply K; reflexivity].
  - constructor; [repeat split; discriminate|]. constructor; [repeat split; discriminate|]. apply Forall_app. split; [eapply Forall_impl; [|exact F]; intros c I; apply H, I|apply K; reflexivity].
Qed.
Lemma push_plain q r t : Forall (fun c => c <> "&"%char /\ c <> "<"%char /\ c <> ">"%char /\ c <> EscapeModel.dquote /\ c <> squote) r -> push_escaped q (r ++ t) = r ++ push_escaped q t.
Proof.
  induction 1 as [|c r (A & B & C & D & E) F IH]; [reflexivity|]. cbn [app push_escaped]. rewrite IH. unfold escape_char.
  apply Ascii.eqb_neq in A, B, C, D, E. rewrite A, B, C, D, E. reflexivity.
Qed.
Lemma push_ref q s t : short_ref s -> no_character_cut (s ++ t) -> push_escaped q (s ++ t) = s ++ push_escaped q t.
Proof.
  intros [N L] S. destruct (firstn_ref s t L) as [u U]. pose proof (ref_is_ref s u N) as R. destruct (numeric_tail s N) as (r & -> & Hs & F).
  cbn [app push_escaped]. rewrite (push_plain q r t F). f_equal. cbn [app] in S, U, R.
  unfold escape_char. rewrite Ascii.eqb_refl. destruct r as [|h r]; [discriminate|].
  assert (h = "#"%char) as -> by (cbn [b list_ascii_of_string starts_with] in Hs; apply andb_true_iff in Hs; destruct Hs as [Hs _]; unfold byte_eqb in Hs; apply Ascii.eqb_eq in Hs; congruence).
  cbn [app starts_with b list_ascii_of_string]. 
  destruct (amp_kept q ("#"%char :: r ++ t) S) as [E|[E _]]; unfold escape_char in E; rewrite Ascii.eqb_refl in E; cbn [starts_with b list_ascii_of_string app] in E; rewrite E; [|reflexivity].
  exfalso. change (byte_eqb "#"%char "#"%char) with true in E. cbn [andb] in E. unfold peek6 in E. destruct (nth_error _ 6) as [c|] eqn:Nt.
  - destruct (continuation c) eqn:C; [discriminate E|]. change ("#"%char :: r ++ t) with (("#"%char :: r) ++ t) in E. rewrite U in E.
    assert (M : is_match ("&"%char :: ("#"%char :: r) ++ u) = true) by (cbn [is_match]; rewrite R; reflexivity). rewrite M in E. discriminate E.
  - assert (Z : firstn 6 ("&"%char :: "#"%char :: r ++ t) = "&"%char :: "#"%char :: r ++ t) by (apply firstn_all2; apply nth_error_None in Nt; exact Nt).
    change ("&"%char :: "#"%char :: r ++ t) with ("&"%char :: ("#"%char :: r) ++ t) in Z. rewrite Z in U.
    change ("&"%char :: "#"%char :: r ++ t) with ("&"%char :: ("#"%char :: r) ++ t) in E. rewrite U in E.
    assert (M : is_match ("&"%char :: ("#"%char :: r) ++ u) = true) by (cbn [is_match]; rewrite R; reflexivity). rewrite M in E. discriminate E.
Qed.
Lemma cut_app pre s : no_character_cut (pre ++ s) -> no_character_cut s.
Proof. induction pre as [|c r IH]; [exact (fun H => H)|]. intro H. exact (IH (cut_tail c (r ++ s) H)). Qed.

(** ** URLs *)
Lemma url_clean s x : In x (push_url_encoded s) -> x <> " "%char /\ x <> ","%char.
Proof.
  induction s as [|c r IH]; [intros []|]. cbn [push_url_encoded]. rewrite in_app_iff. intros [H|H]; [|exact (IH H)].
  destruct (Ascii.eqb_spec c " "%char) as [->|N1].
  - cbn in H. repeat (destruct H as [<-|H]; [split; discriminate|]). destruct H.
  - destruct (Ascii.eqb_spec c ","%char) as [->|N2]; cbn in H; [repeat (destruct H as [<-|H]; [split; discriminate|]); destruct H|]. destruct H as [<-|[]]. auto.
Qed.
Lemma url_back n s : ~ In "%"%char s -> length s <= n -> decode url_codes n (push_url_encoded s) = s.
Proof.
  revert n. induction s as [|c r IH]; intros n P L; [destruct n; reflexivity|]. destruct n as [|n]; [cbn in L; lia|]. cbn [length] in L. cbn [push_url_encoded].
  assert (R : decode url_codes n (push_url_encoded r) = r) by (apply IH; [intro I; apply P; right; exact I|lia]).
  destruct (Ascii.eqb_spec c " "%char) as [->|N1]; [cbn; rewrite R; reflexivity|]. destruct (Ascii.eqb_spec c ","%char) as [->|N2]; [cbn; rewrite R; reflexivity|].
  cbn [app decode]. replace (find (fun e => starts_with (fst e) (c :: push_url_encoded r)) url_codes) with (@None (bytes * ascii)); [rewrite R; reflexivity|]. symmetry.
  unfold url_codes. cbn [find fst b list_ascii_of_string]. assert ("%"%char <> c) by (intros <-; apply P; left; reflexivity). rewrite !starts_other by assumption. reflexivity.
Qed.
Lemma url_length s : length s <= length (push_url_encoded s).
Proof. induction s as [|c r IH]; [apply le_n|]. cbn [push_url_encoded length]. rewrite app_length. destruct (Ascii.eqb c " "%char); [cbn; lia|]. destruct (Ascii.eqb c ","%char); cbn; lia. Qed.
