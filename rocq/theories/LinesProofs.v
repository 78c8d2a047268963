From Verif Require Import Base Text LinesModel LinesSpec.

Lemma numeral_chars b t n : numeral b t n -> t <> [] /\ Forall (fun c => In c ($"+0123456789")) t.
Proof.
  intros (ds & [->| ->] & NE & F & _).
  - split; [exact NE|]. eapply Forall_impl; [|exact F]. intros c H. right. exact H.
  - split; [discriminate|]. constructor; [left; reflexivity|]. eapply Forall_impl; [|exact F]. intros c H. right. exact H.
Qed.
Lemma numeral_no_dot b t n : numeral b t n -> ~ In "."%char t.
Proof.
  intros H I. destruct (numeral_chars _ _ _ H) as [_ F]. rewrite Forall_forall in F. specialize (F _ I). cbn in F.
  repeat destruct F as [F|F]; try discriminate; contradiction.
Qed.
Lemma numeral_fun b t n m : numeral b t n -> numeral b t m -> n = m.
Proof. intros H G. apply parse_bounded_spec in H, G. congruence. Qed.
Lemma no_dots_split a z : ~ In "."%char a -> split_once ($"..") (a ++ $".." ++ z) = Some (a, z).
Proof.
  intro N. pose proof (split_once_spec ($"..") (a ++ $".." ++ z)) as H. destruct (split_once ($"..") (a ++ $".." ++ z)) as [[a' z']|].
  - destruct H as [E M]. specialize (M a z eq_refl). assert (L : length a = length a').
    { destruct (Nat.le_gt_cases (length a) (length a')) as [C|C]; [lia|exfalso]. apply N.
      apply (f_equal (fun l => nth_error l (length a'))) in E. rewrite nth_error_app1 in E by lia. rewrite nth_error_app2, Nat.sub_diag in E by lia. eapply nth_error_In, E. }
    assert (Q : a = a'). { apply (f_equal (firstn (length a))) in E. rewrite firstn_len in E. rewrite L, firstn_len in E. exact E. }
    subst. apply app_inv_head in E. apply app_inv_head in E. subst. reflexivity.
  - destruct (H a z eq_refl).
Qed.
Lemma sep_same c : separator c = (Ascii.eqb c "," || Ascii.eqb c ";").
Proof. unfold separator. cbn. rewrite orb_false_r. reflexivity. Qed.
Lemma split_by_ext f g s : (forall c, f c = g c) -> split_by f s = split_by g s.
Proof. intro H. induction s as [|c s IH]; [reflexivity|]. cbn. rewrite H, IH. reflexivity. Qed.

(** one part *)
Definition safe (t : bytes) : Prop := forall a m z n, t = a ++ m ++ z -> numeral usize_bound m n -> (n < usize_bound - 1)%N.
Lemma parse_range_good checked part t : trimmed part t -> safe t -> exists o, parse_range checked part = Ret o /\
  forall k, (k < max_usize)%N -> (match o with Some r => in_range k r = true | None => False end <-> range_asks t k).
Proof.
  intros T S. unfold parse_range. rewrite (trim_unique _ _ T). clear T part. cbv zeta.
  assert (SU : forall m n a z, t = a ++ m ++ z -> numeral usize_bound m n -> succ_usize checked n = Ret (n + 1)%N).
  { intros m n a z E H. specialize (S a m z n E H). unfold succ_usize, max_usize. destruct (n =? usize_bound - 1)%N eqn:Q; [apply N.eqb_eq in Q; lia|reflexivity]. }
  pose proof (split_once_spec ($"..") t) as SO. destruct (split_once ($"..") t) as [[a z]|] eqn:SQ.
  - destruct SO as [E _].
    assert (NO : forall n, ~ numeral usize_bound t n).
    { intros n H. apply numeral_no_dot in H. apply H. rewrite E. apply in_or_app. right. left. reflexivity. }
    assert (UN : forall a' z', t = a' ++ $".." ++ z' -> ~ In "."%char a' -> a' = a /\ z' = z).
    { intros a' z' E' N. rewrite E', (no_dots_split _ _ N) in SQ. injection SQ as -> ->. auto. }
    destruct (parse_usize a) as [lo|] eqn:PL.
    + apply parse_bounded_spec in PL. destruct (bytes_eqb z ($"-1") || bytes_eqb z []) eqn:OP.
      * eexists. split; [reflexivity|]. intros k K. unfold in_range. cbn [fst snd]. rewrite andb_true_iff, N.leb_le, N.ltb_lt.
        assert (Z : z = [] \/ z = $"-1") by (apply orb_prop in OP as [Q|Q]; apply bytes_eqb_eq in Q; auto). split.
        -- intros [L _]. exact (A_open t k a z lo E PL Z L).
        -- intros [H|a' z' lo' hi E' NA NZ L|a' z' lo' E' NA ZZ L].
           ++ destruct (NO _ H).
           ++ destruct (UN _ _ E' (numeral_no_dot _ _ _ NA)) as [-> ->]. destruct (numeral_chars _ _ _ NZ) as [NN F]. destruct Z as [->| ->]; [congruence|]. inversion F as [|? ? D _]. cbn in D.
              repeat destruct D as [D|D]; try discriminate; contradiction.
           ++ destruct (UN _ _ E' (numeral_no_dot _ _ _ NA)) as [-> ->]. rewrite (numeral_fun _ _ _ _ PL NA). auto.
      * apply orb_false_elim in OP as [O1 O2]. assert (Z : z <> [] /\ z <> $"-1") by (split; intros ->; [discriminate|rewrite bytes_eqb_refl in O1; discriminate]).
        destruct (parse_usize z) as [hi|] eqn:PH.
        -- apply parse_bounded_spec in PH. destruct (lo <=? hi)%N eqn:LH.
           ++ rewrite (SU z hi (a ++ $"..") []) by (rewrite ?app_nil_r, <- ?app_assoc; auto). eexists. split; [reflexivity|]. intros k K. unfold in_range. cbn [fst snd].
              rewrite andb_true_iff, N.leb_le, N.ltb_lt. split.
              ** intros [L1 L2]. refine (A_range t k a z lo hi E PL PH _). lia.
              ** intros [H|a' z' lo' hi' E' NA NZ L|a' z' lo' E' NA ZZ L]; [destruct (NO _ H)| |].
                 --- destruct (UN _ _ E' (numeral_no_dot _ _ _ NA)) as [-> ->]. rewrite (numeral_fun _ _ _ _ PL NA), (numeral_fun _ _ _ _ PH NZ). lia.
                 --- destruct (UN _ _ E' (numeral_no_dot _ _ _ NA)) as [-> ->]. tauto.
           ++ eexists. split; [reflexivity|]. intros k K. split; [tauto|]. apply N.leb_gt in LH. intros [H|a' z' lo' hi' E' NA NZ L|a' z' lo' E' NA ZZ L]; [destruct (NO _ H)| |].
              ** destruct (UN _ _ E' (numeral_no_dot _ _ _ NA)) as [-> ->]. rewrite (numeral_fun _ _ _ _ PL NA), (numeral_fun _ _ _ _ PH NZ) in LH. lia.
              ** destruct (UN _ _ E' (numeral_no_dot _ _ _ NA)) as [-> ->]. tauto.
        -- eexists. split; [reflexivity|]. intros k K. split; [tauto|]. intros [H|a' z' lo' hi' E' NA NZ L|a' z' lo' E' NA ZZ L]; [destruct (NO _ H)| |].
           ++ destruct (UN _ _ E' (numeral_no_dot _ _ _ NA)) as [-> ->]. apply parse_bounded_spec in NZ. unfold parse_usize in PH. congruence.
           ++ destruct (UN _ _ E' (numeral_no_dot _ _ _ NA)) as [-> ->]. tauto.
    + eexists. split; [reflexivity|]. intros k K. split; [tauto|].
      intros [H|a' z' lo' hi' E' NA NZ L|a' z' lo' E' NA ZZ L]; [destruct (NO _ H)| |];
        destruct (UN _ _ E' (numeral_no_dot _ _ _ NA)) as [-> ->]; apply parse_bounded_spec in NA; unfold parse_usize in PL; congruence.
  - destruct (parse_usize t) as [n|] eqn:P.
    + apply parse_bounded_spec in P. rewrite (SU t n [] []) by (rewrite ?app_nil_r; auto). eexists. split; [reflexivity|]. intros k K. unfold in_range. cbn [fst snd].
      rewrite andb_true_iff, N.leb_le, N.ltb_lt. split.
      * intros [L1 L2]. assert (k = n) by lia. subst. apply A_one, P.
      * intros [H|a' z' lo' hi' E' NA NZ L|a' z' lo' E' NA ZZ L]; [rewrite (numeral_fun _ _ _ _ P H); lia|destruct (SO _ _ E')|destruct (SO _ _ E')].
    + eexists. split; [reflexivity|]. intros k K. split; [tauto|]. intros [H|a' z' lo' hi' E' NA NZ L|a' z' lo' E' NA ZZ L]; [|destruct (SO _ _ E')|destruct (SO _ _ E')].
      apply parse_bounded_spec in H. unfold parse_usize in P. congruence.
Qed.
Lemma parse_ranges_good checked : forall parts, (forall p, In p parts -> safe (trim p)) ->
  exists rs, parse_ranges checked parts = Ret rs /\
    (forall k, (k < max_usize)%N -> (existsb (in_range k) rs = true <-> exists p, In p parts /\ range_asks (trim p) k)).
Proof.
  induction parts as [|p ps IH]; intro S.
  - exists []. split; [reflexivity|]. intros k _. split; [discriminate|]. intros (p & [] & _).
  - destruct (parse_range_good checked p (trim p) (trim_spec p) (S p (or_introl eq_refl))) as (o & E & H).
    destruct IH as (rs & E' & H'); [intros q I; apply S; right; exact I|]. cbn [parse_ranges]. rewrite E, E'.
    assert (X : forall k, (k < max_usize)%N -> (match o with Some r => in_range k r = true | None => False end \/ existsb (in_range k) rs = true) <->
      exists q, In q (p :: ps) /\ range_asks (trim q) k).
    { intros k K. rewrite (H k K), (H' k K). split.
      - intros [A|(q & I & A)]; [exists p|exists q]; split; auto; [left; reflexivity|right; exact I].
      - intros (q & [<-|I] & A); [left; exact A|right; exists q; auto]. }
    destruct o as [r|]; eexists; (split; [reflexivity|]); intros k K; rewrite <- (X k K); cbn [existsb]; [rewrite orb_true_iff; tauto|tauto].
Qed.
Lemma asks_small t k : safe t -> range_asks t k -> exists k', (k' < max_usize)%N /\ range_asks t k'.
Proof.
  intros S [H|a z lo hi E A Z L|a z lo E A Z L].
  - exists k. split; [apply (S [] t [] k); [rewrite app_nil_r; reflexivity|exact H]|apply A_one, H].
  - exists lo. split; [exact (S [] a _ lo E A)|]. apply (A_range t lo a z lo hi E A Z). lia.
  - exists lo. split; [exact (S [] a _ lo E A)|]. apply (A_open t lo a z lo E A Z). lia.
Qed.
Lemma parse_range_nonempty checked part r : safe (trim part) -> parse_range checked part = Ret (Some r) -> (fst r < max_usize)%N /\ in_range (fst r) r = true.
Proof.
  intros S E. unfold parse_range in E. cbv zeta in E. revert S E. generalize (trim part). intros t S E.
  pose proof (split_once_spec ($"..") t) as SO. destruct (split_once ($"..") t) as [[a z]|] eqn:SQ.
  - destruct SO as [ET _]. destruct (parse_usize a) as [lo|] eqn:PL; [|discriminate]. apply parse_bounded_spec in PL.
    assert (LO : (lo < max_usize)%N) by exact (S [] a _ lo ET PL).
    destruct (bytes_eqb z ($"-1") || bytes_eqb z []).
    + injection E as <-. cbn [fst]. split; [exact LO|]. unfold in_range. cbn [fst snd]. rewrite N.leb_refl. apply N.ltb_lt, LO.
    + destruct (parse_usize z) as [hi|] eqn:PZ; [|discriminate]. apply parse_bounded_spec in PZ. destruct (lo <=? hi)%N eqn:L; [|discriminate]. apply N.leb_le in L.
      assert (HI : (hi < max_usize)%N). { apply (S (a ++ $"..") z [] hi); [rewrite app_nil_r, <- app_assoc; exact ET|exact PZ]. }
      unfold succ_usize in E. destruct (hi =? max_usize)%N eqn:Q; [apply N.eqb_eq in Q; lia|]. injection E as <-. cbn [fst]. split; [exact LO|].
      unfold in_range. cbn [fst snd]. rewrite N.leb_refl. apply N.ltb_lt. lia.
  - destruct (parse_usize t) as [n|] eqn:P; [|discriminate]. apply parse_bounded_spec in P.
    assert (LO : (n < max_usize)%N). { apply (S [] t [] n); [rewrite app_nil_r; reflexivity|exact P]. }
    unfold succ_usize in E. destruct (n =? max_usize)%N eqn:Q; [apply N.eqb_eq in Q; lia|]. injection E as <-. cbn [fst]. split; [exact LO|].
    unfold in_range. cbn [fst snd]. rewrite N.leb_refl. apply N.ltb_lt. lia.
Qed.
Lemma parse_ranges_nonempty checked : forall parts rs, (forall p, In p parts -> safe (trim p)) -> parse_ranges checked parts = Ret rs ->
  forall r, In r rs -> (fst r < max_usize)%N /\ in_range (fst r) r = true.
Proof.
  induction parts as [|q ps IH]; intros rs S E r I; cbn [parse_ranges] in E; [injection E as <-; destruct I|].
  assert (S' : forall p, In p ps -> safe (trim p)) by (intros p J; apply S; right; exact J).
  destruct (parse_range checked q) as [[r0|]|] eqn:Q; destruct (parse_ranges checked ps) as [rs'|] eqn:R; try discriminate; injection E as <-.
  - destruct I as [<-|I]; [|exact (IH _ S' eq_refl _ I)]. eapply parse_range_nonempty; [|exact Q]. apply S. left. reflexivity.
  - exact (IH _ S' eq_refl _ I).
Qed.
Lemma pick_lines rs : forall ls i, exists out, pick rs i ls = unlines out /\ length out = length ls /\
  forall j l, nth_error ls j = Some l -> nth_error out j = Some (if existsb (in_range (N.of_nat (i + j) + 1)) rs then l else marker).
Proof.
  induction ls as [|l ls IH]; intro i.
  - exists []. repeat split; auto. intros [|j] l H; discriminate.
  - destruct (IH (S i)) as (out & E & L & H). exists ((if existsb (in_range (N.of_nat i + 1)) rs then l else marker) :: out). cbn [pick]. rewrite E. split; [|split].
    + unfold unlines. cbn [map concat]. destruct (existsb (in_range (N.of_nat i + 1)) rs); reflexivity.
    + cbn. lia.
    + intros [|j] l' H'; cbn [nth_error] in *; [injection H' as <-; rewrite Nat.add_0_r; reflexivity|]. rewrite (H j l' H'). replace (S i + j) with (i + S j) by lia. reflexivity.
Qed.
Lemma line_list_split src ls : line_list src ls <-> ls = split_byte LF src.
Proof.
  change newline with LF in *. unfold line_list. change newline with LF. split.
  - intros (-> & NE & F). symmetry. apply split_join; assumption.
  - intros ->. destruct (split_byte_parts LF src) as [F J]. split; [symmetry; exact J|]. split; [apply split_byte_nonnil|exact F].
Qed.
Lemma safe_trim spec p : piece (fun c => Ascii.eqb c "," || Ascii.eqb c ";") spec p -> no_max spec -> safe (trim p).
Proof.
  intros (x & y & -> & _) NM a m z n E H. destruct (trim_spec p) as (u & v & EP & _). rewrite E in EP.
  apply (NM (x ++ u ++ a) m (z ++ v ++ y) n); [|exact H]. rewrite EP, <- !app_assoc. reflexivity.
Qed.

Lemma asks_parts spec k : asks spec k <-> exists p, In p (split_by separator spec) /\ range_asks (trim p) k.
Proof.
  rewrite (split_by_ext _ _ spec sep_same). unfold asks. split.
  - intros (p & t & P & T & A). exists p. split; [apply split_by_spec, P|]. rewrite (trim_unique _ _ T). exact A.
  - intros (p & I & A). exists p, (trim p). split; [apply split_by_spec, I|]. split; [apply trim_spec|exact A].
Qed.
(** the whole selection *)
Lemma select_spec checked spec src : no_max spec -> (N.of_nat (length src) + 1 < max_usize)%N ->
  exists out, select_line_ranges checked spec src = Ret out /\
    ((~ exists k, asks spec k) -> out = src) /\
    ((exists k, asks spec k) -> forall ls, line_list src ls -> exists os, out = unlines os /\ length os = length ls /\
      forall i l, nth_error ls i = Some l ->
        (asks spec (N.of_nat i + 1) -> nth_error os i = Some l) /\ (~ asks spec (N.of_nat i + 1) -> nth_error os i = Some marker)).
Proof.
  intros NM SZ.
  assert (S : forall p, In p (split_by separator spec) -> safe (trim p)).
  { intros p I. apply (safe_trim spec); [|exact NM]. apply split_by_spec. rewrite <- (split_by_ext _ _ spec sep_same). exact I. }
  destruct (parse_ranges_good checked _ S) as (rs & E & H). unfold select_line_ranges. rewrite E.
  assert (A : forall k, (k < max_usize)%N -> (existsb (in_range k) rs = true <-> asks spec k)) by (intros k K; rewrite asks_parts; exact (H k K)).
  assert (Z : rs = [] <-> ~ exists k, asks spec k).
  { split.
    - intros -> (k & K). apply asks_parts in K as (p & I & K). destruct (asks_small _ _ (S p I) K) as (k' & L & K').
      assert (X : asks spec k') by (apply asks_parts; eauto). apply (A k' L) in X. discriminate.
    - intro N. destruct rs as [|r rs]; [reflexivity|exfalso]. destruct (parse_ranges_nonempty _ _ _ S E r (or_introl eq_refl)) as [L I].
      apply N. exists (fst r). apply (A _ L). cbn [existsb]. rewrite I. reflexivity. }
  destruct rs as [|r rs].
  - exists src. split; [reflexivity|]. split; [reflexivity|]. intro X. destruct (proj1 Z eq_refl X).
  - eexists. split; [reflexivity|]. split; [intro N; apply Z in N; discriminate|].
    intros _ ls L. apply line_list_split in L. destruct (pick_lines (r :: rs) ls 0) as (os & EO & LN & HO). exists os. rewrite <- L. split; [exact EO|]. split; [exact LN|].
    intros i l NI. specialize (HO i l NI). cbn [Nat.add] in HO.
    assert (K : (N.of_nat i + 1 < max_usize)%N).
    { assert (IL : i < length ls) by (apply nth_error_Some; congruence).
      assert (LL : length ls <= length src + 1). { rewrite L. clear. induction src as [|c src IH]; cbn [split_byte length]; [lia|]. destruct (Ascii.eqb c LF); cbn [length]; [lia|]. destruct (split_byte LF src); cbn [length] in *; lia. }
      lia. }
    specialize (A _ K). destruct (existsb (in_range (N.of_nat i + 1)) (r :: rs)).
    + split; [intros _; exact HO|]. intro N. destruct N. apply A. reflexivity.
    + split; [|intros _; exact HO]. intro Y. apply A in Y. discriminate.
Qed.
Lemma visible_sublist (P : N -> Prop) : forall ls os n, length os = length ls ->
  (forall i l, nth_error ls i = Some l -> (P (n + N.of_nat i)%N -> nth_error os i = Some l) /\ (~ P (n + N.of_nat i)%N -> nth_error os i = Some marker)) ->
  (forall k, P k \/ ~ P k) ->
  (forall l, In l ls -> starts_with ($"asciidorkinclude::") l = false) ->
  sublist_at P n ls (visible os).
Proof.
  induction ls as [|l ls IH]; intros os n LN H D NP.
  - destruct os; [|discriminate]. constructor.
  - destruct os as [|o os]; [discriminate|]. injection LN as LN.
    assert (R : sublist_at P (n + 1)%N ls (visible os)).
    { apply IH; [exact LN| |exact D|intros l' I; apply NP; right; exact I]. intros i l' E. specialize (H (S i) l' E). cbn [nth_error] in H.
      replace (n + N.of_nat (S i))%N with (n + 1 + N.of_nat i)%N in H by lia. exact H. }
    specialize (H 0 l eq_refl). cbn [nth_error] in H. replace (n + N.of_nat 0)%N with n in H by lia.
    destruct (D n) as [Y|N].
    + apply H in Y as Q. injection Q as ->. unfold visible. cbn [filter]. rewrite (NP l (or_introl eq_refl)). cbn [negb]. apply S_keep; [exact Y|exact R].
    + apply H in N as Q. injection Q as ->. unfold visible. cbn [filter]. replace (starts_with ($"asciidorkinclude::") marker) with true by reflexivity. cbn [negb]. apply S_drop; [exact N|exact R].
Qed.
Lemma asks_dec spec k : no_max spec -> (k < max_usize)%N -> asks spec k \/ ~ asks spec k.
Proof.
  intros NM K. destruct (parse_ranges_good true (split_by separator spec)) as (rs & E & H).
  { intros p I. apply (safe_trim spec); [|exact NM]. apply split_by_spec. rewrite <- (split_by_ext _ _ spec sep_same). exact I. }
  rewrite asks_parts, <- (H k K). destruct (existsb (in_range k) rs); [left; reflexivity|right; discriminate].
Qed.
Lemma sublist_ext (P Q : N -> Prop) : forall ls n kept, (forall i, i < length ls -> (P (n + N.of_nat i)%N <-> Q (n + N.of_nat i)%N)) -> sublist_at P n ls kept -> sublist_at Q n ls kept.
Proof.
  intros ls n kept H T. induction T as [n|n l ls kept Y T IH|n l ls kept N T IH]; [constructor| |].
  - apply S_keep; [specialize (H 0 ltac:(cbn; lia)); rewrite N.add_0_r in H; apply H, Y|]. apply IH. intros i L. specialize (H (S i) ltac:(cbn; lia)).
    replace (n + N.of_nat (S i))%N with (n + 1 + N.of_nat i)%N in H by lia. exact H.
  - apply S_drop; [specialize (H 0 ltac:(cbn; lia)); rewrite N.add_0_r in H; rewrite <- H; exact N|]. apply IH. intros i L. specialize (H (S i) ltac:(cbn; lia)).
    replace (n + N.of_nat (S i))%N with (n + 1 + N.of_nat i)%N in H by lia. exact H.
Qed.
Lemma line_count src ls : line_list src ls -> length ls <= length src + 1.
Proof.
  intro L. apply line_list_split in L. rewrite L. clear. induction src as [|c src IH]; cbn [split_byte length]; [lia|].
  destruct (Ascii.eqb c LF); cbn [length]; [lia|]. destruct (split_byte LF src); cbn [length] in *; lia.
Qed.
Lemma unlines_line_list os : Forall (fun l => ~ In newline l) os -> line_list (unlines os) (os ++ [[]]).
Proof.
  intro F. split; [|split; [destruct os; discriminate|apply Forall_app; split; [exact F|constructor; [intros []|constructor]]]].
  clear F. induction os as [|o os IH]; [reflexivity|]. unfold unlines. cbn [map concat]. fold (unlines os). rewrite IH, <- app_assoc. cbn [app].
  assert (NN : os ++ [[]] <> []) by (destruct os; discriminate). destruct (os ++ [[]]); [congruence|]. reflexivity.
Qed.

Lemma value_bound ds : Forall digit ds -> (value ds < 10 ^ N.of_nat (length ds))%N.
Proof.
  induction ds as [|c ds IH] using rev_ind; intro F; [reflexivity|]. apply Forall_app in F as [F D]. inversion D as [|? ? D' _]. subst.
  unfold value. rewrite fold_left_app. fold (value ds). cbn [fold_left]. rewrite app_length. cbn [length]. replace (N.of_nat (length ds + 1)) with (N.succ (N.of_nat (length ds))) by lia.
  rewrite N.pow_succ_r'. specialize (IH F). assert (N_of_ascii c - 48 < 10)%N; [|lia]. unfold digit in D'. cbn in D'. repeat destruct D' as [D'|D']; subst; try reflexivity. contradiction.
Qed.
(** a specification of at most 19 bytes can't name usize::MAX *)
Lemma short_no_max spec : length spec <= 19 -> no_max spec.
Proof.
  intros L a m z n E (ds & EQ & NE & F & -> & _). pose proof (value_bound ds F) as B. apply (f_equal (@length ascii)) in E. rewrite !app_length in E.
  assert (LD : length ds <= 19) by (destruct EQ as [->| ->]; cbn [length] in *; lia).
  assert (10 ^ N.of_nat (length ds) <= 10 ^ 19)%N by (apply N.pow_le_mono_r; lia).
  assert (10 ^ 19 < usize_bound - 1)%N by (vm_compute; reflexivity). lia.
Qed.
Lemma asks_ranges checked spec k rs : asks spec k -> no_max spec -> (k < max_usize)%N -> parse_ranges checked (split_by separator spec) = Ret rs -> existsb (in_range k) rs = true.
Proof.
  intros A NM K E. destruct (parse_ranges_good checked (split_by separator spec)) as (rs' & E' & H).
  { intros p I. apply (safe_trim spec); [|exact NM]. apply split_by_spec. rewrite <- (split_by_ext _ _ spec sep_same). exact I. }
  rewrite E in E'. injection E' as <-. apply H; [exact K|]. apply asks_parts, A.
Qed.
