From Verif Require Import Base Utf8 LexerModel LexerSpec.

Definition ascii7 (c : ascii) : bool := between 0 127 c.
(** the text may be cut between [y] and [z] *)
Definition cut_ok (y z : bytes) : Prop :=
  (forall c r, z = c :: r -> ascii7 c = true) \/ (exists y' a, y = y' ++ [a] /\ ascii7 a = true) \/ utf8_char y.
Definition good (plugins : list bytes) (prev : option ascii) (ls : bool) (r : bytes) (x : raw) : Prop :=
  exists k y z, x = mkRaw k 0 (length y) (length y) /\ r = y ++ z /\ y <> [] /\ lexeme_of plugins k y /\
    ((ls = true <-> line_begins prev) -> placed k prev y z) /\ cut_ok y z.

Lemma ascii7_not_cont c : ascii7 c = true -> continuation c = false.
Proof. unfold ascii7, continuation. intro A. destruct (between 128 191 c) eqn:E; [|reflexivity]. apply between_spec in A, E. lia. Qed.
Lemma utf8_strip y z : utf8_char y -> utf8 (y ++ z) -> utf8 z.
Proof.
  intros U (cs & F & E). assert (K : char_len (y ++ z) = Some (length y)) by (apply char_len_spec; exists y, z; auto).
  destruct F as [|c cs Uc F].
  { cbn in E. apply app_eq_nil in E as [-> _]. apply utf8_char_nonempty in U. congruence. }
  cbn in E. assert (K2 : char_len (c ++ concat cs) = Some (length c)) by (apply char_len_spec; exists c, (concat cs); auto).
  rewrite <- E, K in K2. injection K2 as K2. apply app_eq_app in E as (l & [[E1 E2]|[E1 E2]]).
  - subst y. rewrite app_length in K2. assert (l = []) by (destruct l; [reflexivity|cbn in K2; lia]). subst l. cbn in E2. subst. exists cs; auto.
  - subst c. rewrite app_length in K2. assert (l = []) by (destruct l; [reflexivity|cbn in K2; lia]). subst l. cbn in E2. subst. exists cs; auto.
Qed.
Lemma cut_utf8 y z : utf8 (y ++ z) -> cut_ok y z -> utf8 y /\ utf8 z.
Proof.
  intros U [C|[(y' & a & -> & A)|C]].
  - apply utf8_cut; [exact U|]. intros c r E. apply ascii7_not_cont, (C c r E).
  - rewrite <- app_assoc in U. apply utf8_after_ascii in U; assumption.
  - split; [|exact (utf8_strip _ _ C U)]. rewrite <- (app_nil_r y). apply utf8_cons; [exact C|apply utf8_nil].
Qed.

(** ** runs *)
Lemma run_le f l : run f l <= length l.
Proof. induction l as [|c l IH]; cbn; [lia|]. destruct (f c); cbn; lia. Qed.
Lemma run_split f l : exists p q, l = p ++ q /\ length p = run f l /\ all_of f p /\ not_continued_by f q.
Proof.
  induction l as [|c l (p & q & E & L & A & N)].
  - exists [], []. repeat split; [constructor|intros c r E; discriminate].
  - cbn. destruct (f c) eqn:F.
    + exists (c :: p), q. subst l. cbn. repeat split; [congruence|constructor; assumption|exact N].
    + exists [], (c :: l). repeat split; [constructor|]. intros d r E2. injection E2 as <- <-. exact F.
Qed.
Lemma run_app f p q : all_of f p -> not_continued_by f q -> run f (p ++ q) = length p.
Proof.
  intros A N. induction A as [|c p F A IH]; cbn.
  - destruct q as [|d q]; [reflexivity|]. cbn. rewrite (N d q eq_refl). reflexivity.
  - rewrite F, IH. reflexivity.
Qed.
Lemma all_of_impl P Q s : (forall c, P c = true -> Q c = true) -> all_of P s -> all_of Q s.
Proof. intros H A. eapply Forall_impl; [|exact A]. exact H. Qed.
Lemma all_repeat c p : all_of (Ascii.eqb c) p -> p = repeat c (length p).
Proof. induction 1 as [|d p E A IH]; [reflexivity|]. cbn. apply Ascii.eqb_eq in E. congruence. Qed.
Lemma firstn_pre {A} (p q : list A) : firstn (length p) (p ++ q) = p.
Proof. rewrite firstn_app, Nat.sub_diag, firstn_all. apply app_nil_r. Qed.
Lemma skipn_pre {A} (p q : list A) : skipn (length p) (p ++ q) = q.
Proof. rewrite skipn_app, Nat.sub_diag, skipn_all. reflexivity. Qed.
Lemma nth_pre {A} (p q : list A) n : nth_error (p ++ q) (length p + n) = nth_error q n.
Proof. rewrite nth_error_app2 by lia. f_equal. lia. Qed.
Lemma nth_pre0 {A} (p q : list A) : nth_error (p ++ q) (length p) = nth_error q 0.
Proof. rewrite <- (nth_pre p q 0). f_equal. lia. Qed.
Lemma is_head q c : is (nth_error q 0) c = true -> exists q', q = c :: q'.
Proof. destruct q as [|d q]; [discriminate|]. cbn. intro E. apply Ascii.eqb_eq in E. subst d. exists q; reflexivity. Qed.

Lemma nS {A} (c : A) t n : nth_error (c :: t) (S n) = nth_error t n. Proof. reflexivity. Qed.
Lemma n0 {A} (c : A) t : nth_error (c :: t) 0 = Some c. Proof. reflexivity. Qed.
Ltac nn := rewrite ?nS, ?n0 in *.

(** ** byte classes, by looking at all 256 *)
Lemma sep_same c : mem c boundary_bytes = in_list separators c.
Proof. destruct c as [[] [] [] [] [] [] [] []]; vm_compute; reflexivity. Qed.
Lemma in_list_In l c : in_list l c = true <-> In c l.
Proof. unfold in_list. rewrite existsb_exists. split; [intros (x & I & E); apply Ascii.eqb_eq in E; congruence|].
  intro I. exists c. split; [exact I|apply Ascii.eqb_refl]. Qed.
Lemma in_list_not l c : in_list l c = false <-> ~ In c l.
Proof. rewrite <- in_list_In. destruct (in_list l c); intuition congruence. Qed.
Definition word_start (c : ascii) : bool :=
  match look c repeats with Some _ => false | None => true end && match look c singles with Some _ => false | None => true end
  && negb (mem c ws_bytes) && negb (Ascii.eqb c "&"%char) && negb (Ascii.eqb c "<"%char) && negb (Ascii.eqb c "{"%char)
  && negb (digit c) && negb (Ascii.eqb c ";"%char || Ascii.eqb c ":"%char).
Lemma word_start_same c : word_start c = negb (in_list not_word_start c).
Proof. destruct c as [[] [] [] [] [] [] [] []]; vm_compute; reflexivity. Qed.
Lemma sep_ascii c : in_list separators c = true -> ascii7 c = true.
Proof. destruct c as [[] [] [] [] [] [] [] []]; vm_compute; intro H; first [reflexivity|discriminate]. Qed.
Lemma name_same c : attr_name_byte c = name_byte c.
Proof. destruct c as [[] [] [] [] [] [] [] []]; vm_compute; reflexivity. Qed.
Lemma email_same c : email_byte c = name_byte c || in_list ["."%char] c.
Proof. destruct c as [[] [] [] [] [] [] [] []]; vm_compute; reflexivity. Qed.
Lemma email_ascii c : email_byte c = true -> ascii7 c = true.
Proof. destruct c as [[] [] [] [] [] [] [] []]; vm_compute; intro H; first [reflexivity|discriminate]. Qed.
Lemma ws_same c : mem c ws_bytes = in_list (map ascii_of_nat [32; 9; 11; 12]) c.
Proof. destruct c as [[] [] [] [] [] [] [] []]; vm_compute; reflexivity. Qed.
Lemma ws_ascii c : mem c ws_bytes = true -> ascii7 c = true.
Proof. destruct c as [[] [] [] [] [] [] [] []]; vm_compute; intro H; first [reflexivity|discriminate]. Qed.
Lemma digit_ascii c : digit c = true -> ascii7 c = true.
Proof. destruct c as [[] [] [] [] [] [] [] []]; vm_compute; intro H; first [reflexivity|discriminate]. Qed.
Lemma blank_same c : mem c [" "%char; TAB; LF; CR] = in_list ((" "%char) :: map ascii_of_nat [9; 10; 13]) c.
Proof. destruct c as [[] [] [] [] [] [] [] []]; vm_compute; reflexivity. Qed.
Lemma asciiws_same c : ascii_ws c = in_list ((" "%char) :: map ascii_of_nat [9; 10; 12; 13]) c.
Proof. destruct c as [[] [] [] [] [] [] [] []]; vm_compute; reflexivity. Qed.
Lemma inw_false c : in_word false c = negb (in_list separators c).
Proof. unfold in_word. rewrite sep_same. reflexivity. Qed.
Lemma inw_true c : in_word true c = negb (in_list ("@"%char :: separators) c).
Proof. unfold in_word. rewrite sep_same. unfold in_list. cbn [existsb andb]. rewrite negb_orb. reflexivity. Qed.

(** ** the pieces *)
Lemma cut_last y a z : ascii7 a = true -> cut_ok (y ++ [a]) z.
Proof. intro A. right; left. exists y, a. auto. Qed.
Lemma good_single plugins prev ls c k t :
  lexeme_of plugins k [c] -> ascii7 c = true -> ((ls = true <-> line_begins prev) -> placed k prev [c] t) ->
  good plugins prev ls (c :: t) (single k).
Proof. intros L A P. exists k, [c], t. repeat split; try assumption; [discriminate|]. apply (cut_last []), A. Qed.
Lemma look_In c l k : look c l = Some k -> In (c, k) l.
Proof.
  induction l as [|[d k'] l IH]; [discriminate|]. cbn. destruct (Ascii.eqb_spec c d) as [->|].
  - intro H. injection H as ->. left; reflexivity.
  - intro H. right. apply IH, H.
Qed.
Lemma last_all (P : ascii -> bool) c p : P c = true -> all_of P p -> exists y a, c :: p = y ++ [a] /\ P a = true.
Proof.
  intros C A. destruct (@exists_last _ (c :: p)) as (y & a & E); [discriminate|]. exists y, a. split; [exact E|].
  assert (F : Forall (fun x => P x = true) (c :: p)) by (constructor; assumption). rewrite E in F.
  apply Forall_app in F as [_ F]. inversion F; assumption.
Qed.

Lemma good_repeating plugins prev ls c k t : look c repeats = Some k -> good plugins prev ls (c :: t) (repeating c k t).
Proof.
  intro L. apply look_In in L. unfold repeating. destruct (run_split (Ascii.eqb c) t) as (p & q & E & Lp & A & N).
  rewrite <- Lp. exists k, (c :: p), q. repeat split.
  - subst t. reflexivity.
  - discriminate.
  - rewrite (all_repeat _ _ A). apply (L_repeated plugins c k (length p)). exact L.
  - intros _. cbn [repeats In] in L.
    repeat (destruct L as [L|L]; [injection L as <- <-; exact N|]). destruct L.
  - destruct (last_all (Ascii.eqb c) c p (Ascii.eqb_refl c) A) as (y & a & -> & Ea). apply Ascii.eqb_eq in Ea. subst a.
    apply cut_last. cbn [repeats In] in L. repeat (destruct L as [L|L]; [injection L as <- <-; reflexivity|]). destruct L.
Qed.
Lemma good_whitespace plugins prev ls c t : mem c ws_bytes = true -> good plugins prev ls (c :: t) (whitespace t).
Proof.
  intro M. unfold whitespace. destruct (run_split (fun c => mem c ws_bytes) t) as (p & q & E & Lp & A & N). rewrite <- Lp.
  exists Whitespace, (c :: p), q. repeat split.
  - subst t; reflexivity.
  - discriminate.
  - apply L_blank; [discriminate|]. constructor; [rewrite <- ws_same; exact M|].
    eapply all_of_impl; [|exact A]. intros x X. rewrite <- ws_same. exact X.
  - intros _ x r X. rewrite <- ws_same. exact (N x r X).
  - destruct (last_all (fun c => mem c ws_bytes) c p M A) as (y & a & -> & Ea). apply cut_last, ws_ascii, Ea.
Qed.
Lemma good_digits plugins prev ls c t : digit c = true -> good plugins prev ls (c :: t) (digits t).
Proof.
  intro M. unfold digits. destruct (run_split digit t) as (p & q & E & Lp & A & N). rewrite <- Lp.
  exists Digits, (c :: p), q. repeat split.
  - subst t; reflexivity.
  - discriminate.
  - apply L_digits; [discriminate|]. constructor; [exact M|exact A].
  - intros _. exact N.
  - destruct (last_all digit c p M A) as (y & a & -> & Ea). apply cut_last, digit_ascii, Ea.
Qed.
Lemma placed_amp prev y z : placed Ampersand prev y z. Proof. exact I. Qed.
Lemma good_amp plugins prev ls t : good plugins prev ls ("&"%char :: t) (single Ampersand).
Proof. apply good_single; [apply L_one; cbn; tauto|reflexivity|intros _; exact I]. Qed.
Lemma good_lt plugins prev ls t : good plugins prev ls ("<"%char :: t) (single LessThan).
Proof. apply good_single; [apply L_one; cbn; tauto|reflexivity|intros _; exact I]. Qed.
Lemma good_brace plugins prev ls t : good plugins prev ls ("{"%char :: t) (single OpenBrace).
Proof. apply good_single; [apply L_one; cbn; tauto|reflexivity|intros _; exact I]. Qed.

(** tokens that end with a given 7-bit byte *)
Lemma good_ending plugins prev ls r k y a z n :
  r = y ++ a :: z -> n = length y + 1 -> ascii7 a = true -> lexeme_of plugins k (y ++ [a]) ->
  ((ls = true <-> line_begins prev) -> placed k prev (y ++ [a]) z) -> good plugins prev ls r (mkRaw k 0 n n).
Proof.
  intros -> -> A L P. exists k, (y ++ [a]), z. repeat split; try assumption.
  - rewrite app_length. reflexivity.
  - rewrite <- app_assoc. reflexivity.
  - destruct y; discriminate.
  - apply cut_last, A.
Qed.

Lemma good_finish plugins prev ls initial f t i :
  (forall p, p <> [] -> all_of f p -> lexeme_of plugins Entity ("&"%char :: i ++ p ++ $";")) ->
  t = i ++ skipn initial t -> length i = initial ->
  good plugins prev ls ("&"%char :: t) (finish_entity prev initial f t).
Proof.
  intros L E LI. unfold finish_entity. set (u := skipn initial t) in *. clearbody u.
  destruct (run_split f u) as (p & q & Eu & Lp & A & N). rewrite <- Lp.
  destruct (initial <? initial + length p) eqn:K; [|apply good_amp]. apply Nat.ltb_lt in K. cbn [andb].
  destruct (is (nth_error t (initial + length p)) ";"%char) eqn:Q; [|apply good_amp].
  rewrite E, <- LI, nth_pre, Eu, nth_pre0 in Q. apply is_head in Q as (q' & ->).
  destruct (is prev "\"%char) eqn:B; [apply good_amp|].
  eapply good_ending with (y := "&"%char :: i ++ p) (a := ";"%char) (z := q').
  - rewrite E, Eu. cbn. rewrite <- app_assoc. reflexivity.
  - cbn [length]. rewrite app_length. lia.
  - reflexivity.
  - cbn [app]. rewrite <- app_assoc. apply L; [intros ->; cbn in K; lia|exact A].
  - intros _. cbn. intros ->. discriminate B.
Qed.
Lemma good_entity plugins prev ls t : good plugins prev ls ("&"%char :: t) (maybe_entity prev t).
Proof.
  unfold maybe_entity. destruct t as [|c t]; [apply good_amp|]. nn.
  destruct (Ascii.eqb_spec c "#"%char) as [->|NE]; cbn [andb].
  - destruct t as [|d t]; [apply good_amp|]. nn. destruct (digit d) eqn:D.
    + apply good_finish with (i := ["#"%char]); [|reflexivity|reflexivity].
      intros p P A. apply (L_entity plugins p). left. auto.
    + cbn [is]. destruct (Ascii.eqb_spec d "x"%char) as [->|]; [|replace (alpha "#"%char) with false by reflexivity; apply good_amp].
      apply good_finish with (i := ["#"%char; "x"%char]); [|reflexivity|reflexivity].
      intros p P A. apply (L_entity plugins ($"x" ++ p)). right. exists p. auto.
  - destruct (alpha c) eqn:AC; [|apply good_amp].
    apply good_finish with (i := [c]); [|reflexivity|reflexivity].
    intros p P A. destruct p as [|d p]; [congruence|]. inversion A; subst.
    apply (L_named_entity plugins c d p); assumption.
Qed.
Lemma good_attr_ref plugins prev ls t : good plugins prev ls ("{"%char :: t) (maybe_attr_ref prev t).
Proof.
  unfold maybe_attr_ref. destruct (is prev "\"%char) eqn:B; [apply good_brace|].
  destruct (run_split attr_name_byte t) as (p & q & E & Lp & A & N). rewrite <- Lp.
  destruct (is (nth_error t (length p)) "}"%char) eqn:Q; [|apply good_brace].
  rewrite E, nth_pre0 in Q. apply is_head in Q as (q' & ->).
  destruct (Nat.eqb_spec (length p) 0) as [Z|Z]; [apply good_brace|].
  eapply good_ending with (y := "{"%char :: p) (a := "}"%char) (z := q').
  - rewrite E. reflexivity.
  - cbn [length]. lia.
  - reflexivity.
  - apply (L_attr_ref plugins p); [intros ->; apply Z; reflexivity|].
    eapply all_of_impl; [|exact A]. intros x X. rewrite <- name_same. exact X.
  - intros _. cbn. intros ->. discriminate B.
Qed.
Lemma good_callout plugins prev ls t : good plugins prev ls ("<"%char :: t) (maybe_callout_number t).
Proof.
  unfold maybe_callout_number. destruct t as [|c t]; [apply good_lt|]. nn.
  destruct (digit c) eqn:D.
  - cbn [skipn]. destruct (run_split digit t) as (p & q & E & Lp & A & N). rewrite <- Lp.
    replace (1 + 1 + length p - 1) with (S (length p)) by lia. nn.
    destruct (is (nth_error t (length p)) ">"%char) eqn:Q; [|apply good_lt].
    rewrite E, nth_pre0 in Q. apply is_head in Q as (q' & ->).
    eapply good_ending with (y := "<"%char :: c :: p) (a := ">"%char) (z := q').
    + rewrite E. reflexivity.
    + cbn [length]. lia.
    + reflexivity.
    + apply (L_callout plugins (c :: p)). right. split; [discriminate|constructor; assumption].
    + intros _. exact I.
  - destruct (Ascii.eqb_spec c "."%char) as [->|NE].
    + destruct (is (nth_error t 0) ">"%char) eqn:Q; [|apply good_lt]. apply is_head in Q as (q' & ->).
      eapply good_ending with (y := $"<.") (a := ">"%char) (z := q'); [reflexivity|reflexivity|try reflexivity| |].
      * apply (L_callout plugins ($".")). left. reflexivity.
      * intros _. exact I.
    + destruct (Ascii.eqb_spec c "!"%char) as [->|NE2]; [|apply good_lt].
      destruct (is (nth_error t 0) "-"%char) eqn:Q1; [|apply good_lt]. apply is_head in Q1 as (t1 & ->). nn; cbn [andb].
      destruct (is (nth_error t1 0) "-"%char) eqn:Q2; [|apply good_lt]. apply is_head in Q2 as (t2 & ->). nn.
      destruct t2 as [|d t2]; [apply good_lt|]. nn. cbn iota.
      destruct (Ascii.eqb_spec d "."%char) as [->|NE3].
      * destruct (is (nth_error t2 0) "-"%char) eqn:Q3; [|apply good_lt]. apply is_head in Q3 as (t3 & ->). nn; cbn [andb].
        destruct (is (nth_error t3 0) "-"%char) eqn:Q4; [|apply good_lt]. apply is_head in Q4 as (t4 & ->). nn; cbn [andb].
        destruct (is (nth_error t4 0) ">"%char) eqn:Q5; [|apply good_lt]. apply is_head in Q5 as (t5 & ->).
        eapply good_ending with (y := $"<!--.--") (a := ">"%char) (z := t5); [reflexivity|reflexivity|try reflexivity| |].
        -- apply (L_callout_xml plugins ($".")). left. reflexivity.
        -- intros _. exact I.
      * destruct (digit d) eqn:D2; [|apply good_lt]. cbn [skipn].
        destruct (run_split digit t2) as (p & q & E & Lp & A & N). rewrite <- Lp.
        cbn [Nat.add]. nn.
        replace (nth_error t2 (length p)) with (nth_error q 0) by (rewrite E, nth_pre0; reflexivity).
        replace (nth_error t2 (S (length p))) with (nth_error q 1) by (rewrite E, <- (nth_pre p q 1); f_equal; lia).
        replace (nth_error t2 (S (S (length p)))) with (nth_error q 2) by (rewrite E, <- (nth_pre p q 2); f_equal; lia).
        destruct (is (nth_error q 0) "-"%char) eqn:Q3; [|apply good_lt]. apply is_head in Q3 as (t3 & ->). nn; cbn [andb].
        destruct (is (nth_error t3 0) "-"%char) eqn:Q4; [|apply good_lt]. apply is_head in Q4 as (t4 & ->). nn; cbn [andb].
        destruct (is (nth_error t4 0) ">"%char) eqn:Q5; [|apply good_lt]. apply is_head in Q5 as (t5 & ->).
        eapply good_ending with (y := $"<!--" ++ (d :: p) ++ $"--") (a := ">"%char) (z := t5).
        -- rewrite E. cbn. rewrite <- app_assoc. reflexivity.
        -- cbn. rewrite app_length. cbn. lia.
        -- reflexivity.
        -- rewrite <- !app_assoc. apply (L_callout_xml plugins (d :: p)). right. split; [discriminate|constructor; assumption].
        -- intros _. exact I.
Qed.
Lemma blank_end_spec q : blank_or_end (nth_error q 0) = true -> blank_follows q.
Proof.
  destruct q as [|c q]; [left; reflexivity|]. nn; cbn [blank_or_end]. rewrite blank_same. intro H. right.
  exists c, q. split; [reflexivity|apply in_list_In, H].
Qed.
Lemma good_term plugins prev ls c t :
  c = ":"%char \/ c = ";"%char -> good plugins prev ls (c :: t) (maybe_term_delimiter c ls t).
Proof.
  intro C. unfold maybe_term_delimiter.
  assert (ONE : good plugins prev ls (c :: t) (single (if Ascii.eqb c ":"%char then Colon else SemiColon))).
  { destruct C as [-> | ->]; (apply good_single; [apply L_one; cbn; tauto|reflexivity|intros _; exact I]). }
  destruct ls; [exact ONE|]. cbn [orb]. destruct (is (nth_error t 0) c) eqn:Q; [|exact ONE]. cbn [negb].
  apply is_head in Q as (t1 & ->). nn.
  assert (NL : (false = true <-> line_begins prev) -> ~ line_begins prev) by (intros H L; apply H in L; discriminate).
  destruct (blank_or_end (nth_error t1 0)) eqn:B.
  { eapply good_ending with (y := [c]) (a := c) (z := t1); [reflexivity|reflexivity|try reflexivity| |].
    - destruct C as [-> | ->]; reflexivity.
    - destruct C as [-> | ->]; apply L_term; cbn; tauto.
    - intro H. split; [apply NL, H|apply blank_end_spec, B]. }
  destruct (Ascii.eqb_spec c ":"%char) as [->|NE]; [|exact ONE]. cbn [andb].
  destruct (is (nth_error t1 0) ":"%char) eqn:Q2; [|exact ONE]. apply is_head in Q2 as (t2 & ->). nn.
  destruct (is (nth_error t2 0) ":"%char) eqn:Q3.
  - apply is_head in Q3 as (t3 & ->). destruct (blank_or_end (nth_error t3 0)) eqn:B3; nn; rewrite ?B3; [|exact ONE].
    eapply good_ending with (y := $":::") (a := ":"%char) (z := t3); [reflexivity|reflexivity|try reflexivity| |].
    + apply (L_term plugins ($"::::")). cbn; tauto.
    + intro H. split; [apply NL, H|apply blank_end_spec, B3].
  - nn. destruct (blank_or_end (nth_error t2 0)) eqn:B3; [|exact ONE].
    eapply good_ending with (y := $"::") (a := ":"%char) (z := t2); [reflexivity|reflexivity|try reflexivity| |].
    + apply (L_term plugins ($":::")). cbn; tauto.
    + intro H. split; [apply NL, H|apply blank_end_spec, B3].
Qed.
Lemma line_end_spec q : line_end (nth_error q 0) = true -> ends_line q.
Proof.
  destruct q as [|c q]; [left; reflexivity|]. cbn. intro H. right. exists c, q. split; [reflexivity|].
  apply (proj1 (in_list_In [newline; return_] c)). exact H.
Qed.
Lemma good_delimiter plugins prev ls r n c :
  at_delimiter_line ls r = Some (n, c) -> good plugins prev ls r (mkRaw DelimiterLine 0 n n).
Proof.
  unfold at_delimiter_line. destruct r as [|a r]; [discriminate|]. destruct ls; [|discriminate]. cbn [negb orb].
  destruct (mem a _) eqn:M; [|discriminate]. cbn [negb]; nn.
  assert (A7 : ascii7 a = true).
  { cbn in M. repeat (apply orb_prop in M as [M|M]; [apply Ascii.eqb_eq in M; subst; reflexivity|]). discriminate. }
  assert (LB : (true = true <-> line_begins prev) -> line_begins prev) by (intro H; apply H; reflexivity).
  destruct (Ascii.eqb a "`"%char && is (nth_error r 0) a && is (nth_error r 1) a && negb (is (nth_error r 2) a)) eqn:E1.
  { intro H; injection H as <- <-. apply andb_prop in E1 as [E1 E4]. apply andb_prop in E1 as [E1 E3]. apply andb_prop in E1 as [E1 E2].
    apply Ascii.eqb_eq in E1. subst a. apply is_head in E2 as (r1 & ->). nn. apply is_head in E3 as (r2 & ->).
    nn.
    eapply good_ending with (y := $"``") (a := "`"%char) (z := r2); [reflexivity|reflexivity|try reflexivity| |].
    - apply (L_delimiter plugins ($"```")). cbn; tauto.
    - intro H. split; [apply LB, H|]. right. split; [reflexivity|]. intros x q ->. cbn in E4.
      rewrite Ascii.eqb_sym. apply negb_true_iff, E4. }
  destruct (Ascii.eqb a "-"%char && is (nth_error r 0) a && line_end (nth_error r 1)) eqn:E2.
  { intro H; injection H as <- <-. apply andb_prop in E2 as [E2 E3]. apply andb_prop in E2 as [E2 E4].
    apply Ascii.eqb_eq in E2. subst a. apply is_head in E4 as (r1 & ->). nn.
    eapply good_ending with (y := $"-") (a := "-"%char) (z := r1); [reflexivity|reflexivity|try reflexivity| |].
    - apply (L_delimiter plugins ($"--")). cbn; tauto.
    - intro H. split; [apply LB, H|]. left. apply line_end_spec, E3. }
  destruct (negb (Ascii.eqb a "`"%char) && is (nth_error r 0) a && is (nth_error r 1) a && is (nth_error r 2) a && line_end (nth_error r 3)) eqn:E3.
  { intro H; injection H as <- <-. apply andb_prop in E3 as [E3 L]. apply andb_prop in E3 as [E3 S3]. apply andb_prop in E3 as [E3 S2].
    apply andb_prop in E3 as [NB S1]. apply is_head in S1 as (r1 & ->). nn. apply is_head in S2 as (r2 & ->).
    nn. apply is_head in S3 as (r3 & ->). nn.
    eapply good_ending with (y := [a; a; a]) (a := a) (z := r3); [reflexivity|reflexivity|try reflexivity| |].
    - exact A7.
    - cbn in M. apply negb_true_iff in NB.
      repeat (apply orb_prop in M as [M|M]; [apply Ascii.eqb_eq in M; subst;
        first [discriminate NB|apply (L_delimiter_example plugins 0)|apply L_delimiter; cbn; tauto]|]). discriminate.
    - intro H. split; [apply LB, H|]. left. apply line_end_spec, L. }
  destruct (Ascii.eqb a "="%char && is (nth_error r 0) a && is (nth_error r 1) a && is (nth_error r 2) a && is (nth_error r 3) a) eqn:E4; [|discriminate].
  apply andb_prop in E4 as [E4 S4]. apply andb_prop in E4 as [E4 S3]. apply andb_prop in E4 as [E4 S2].
  apply andb_prop in E4 as [E4 S1]. apply Ascii.eqb_eq in E4. subst a. apply is_head in S1 as (r1 & ->). nn.
  apply is_head in S2 as (r2 & ->). nn. apply is_head in S3 as (r3 & ->). nn. apply is_head in S4 as (r4 & ->).
  cbn [skipn]. destruct (run_split (Ascii.eqb "="%char) r4) as (p & q & E & Lp & A & N). rewrite <- Lp.
  cbn [Nat.add]; nn. replace (nth_error r4 (length p)) with (nth_error q 0) by (rewrite E, nth_pre0; reflexivity).
  destruct (line_end (nth_error q 0)) eqn:L; [|discriminate]. intro H; injection H as <- <-.
  destruct (last_all (Ascii.eqb "="%char) "="%char p eq_refl A) as (y & a & Ey & Ea). apply Ascii.eqb_eq in Ea. subst a.
  eapply good_ending with (y := $"====" ++ y) (a := "="%char) (z := q).
  - rewrite E. rewrite <- app_assoc. change (y ++ "="%char :: q) with (y ++ ["="%char] ++ q). rewrite (app_assoc y), <- Ey. reflexivity.
  - apply (f_equal (@length _)) in Ey. rewrite app_length in *. cbn in *. lia.
  - reflexivity.
  - rewrite <- app_assoc, <- Ey. rewrite (all_repeat _ _ A).
    apply (L_delimiter_example plugins (S (length p))).
  - intro H. split; [apply LB, H|]. left. apply line_end_spec, L.
Qed.

(** ** words *)
Lemma one_of_In l x : one_of l x = true <-> In x l.
Proof. unfold one_of. rewrite existsb_exists. split; [intros (y & I & E); apply bytes_eqb_eq in E; congruence|].
  intro I. exists x. split; [exact I|apply bytes_eqb_refl]. Qed.
Lemma ends_with_spec s p : ends_with s p = true -> exists q, s = q ++ p.
Proof.
  unfold ends_with. rewrite starts_with_spec. intros (r & E). exists (rev r).
  apply (f_equal (@rev _)) in E. rewrite rev_involutive, rev_app_distr, rev_involutive in E. exact E.
Qed.
Lemma good_word plugins prev ls c t x :
  word_start c = true -> word plugins (c :: t) = Ret x -> good plugins prev ls (c :: t) x.
Proof.
  intros C. rewrite word_start_same in C. apply negb_true_iff, in_list_not in C.
  unfold word. cbn [skipn].
  destruct (run_split (in_word true) t) as (p & q & E & Lp & A & N). rewrite <- Lp.
  replace (1 + length p) with (length (c :: p)) by reflexivity.
  replace (c :: t) with ((c :: p) ++ q) by (subst t; reflexivity).
  rewrite firstn_pre, skipn_pre. clear E Lp t.
  assert (A' : forall d, In d p -> ~ In d ("@"%char :: separators)).
  { intros d I. unfold all_of in A. rewrite Forall_forall in A. specialize (A d I). rewrite inw_true in A.
    apply negb_true_iff, in_list_not in A. exact A. }
  assert (A'' : forall d, In d p -> ~ In d separators) by (intros d I J; apply (A' d I); right; exact J).
  assert (N' : q = [] \/ exists d r, q = d :: r /\ In d ("@"%char :: separators)).
  { destruct q as [|d r]; [left; reflexivity|right]. exists d, r. split; [reflexivity|].
    specialize (N d r eq_refl). rewrite inw_true in N. apply negb_false_iff, in_list_In in N. exact N. }
  assert (Q7 : forall d r, q = d :: r -> ascii7 d = true).
  { intros d r ->. destruct N' as [|(d' & r' & E' & I)]; [discriminate|]. injection E' as <- <-.
    destruct I as [<-|I]; [reflexivity|apply sep_ascii, in_list_In, I]. }
  assert (PLAIN : good plugins prev ls ((c :: p) ++ q) (mkRaw Word 0 (length (c :: p)) (length (c :: p)))).
  { exists Word, (c :: p), q. repeat split.
    - discriminate.
    - apply L_word; assumption.
    - intros _. destruct N' as [|H]; [left; assumption|right; left; exact H].
    - left. exact Q7. }
  destruct (is (nth_error q 0) ":"%char) eqn:Q0.
  - apply is_head in Q0 as (q1 & ->). nn; cbn [andb].
    destruct (is (nth_error q1 0) ":"%char && one_of directives (c :: p) && (4 <? length (":"%char :: q1))) eqn:DIR.
    + apply andb_prop in DIR as [DIR L4]. apply andb_prop in DIR as [Q1 DI]. apply is_head in Q1 as (q2 & ->).
      nn. destruct q2 as [|d q3]; [discriminate|]. intro H; injection H as <-.
      destruct (ascii_ws d) eqn:W; cbn [negb]; [exact PLAIN|].
      eapply good_ending with (y := (c :: p) ++ [":"%char]) (a := ":"%char) (z := d :: q3).
      * rewrite <- app_assoc. reflexivity.
      * rewrite app_length. cbn. lia.
      * reflexivity.
      * rewrite <- app_assoc. apply L_directive. apply one_of_In, DI.
      * intros _. exists d, q3. split; [reflexivity|]. rewrite asciiws_same in W. apply in_list_not, W.
    + destruct (peek_term_delimiter (":"%char :: q1)); cbn [negb]; [cbn; intro H; injection H as <-; exact PLAIN|].
      destruct (continues_uri_scheme (c :: p) (":"%char :: q1)) as [n|] eqn:U.
      * intro H; injection H as <-. unfold continues_uri_scheme in U.
        destruct (one_of _ (c :: p) && starts_with ($"://") (":"%char :: q1)) eqn:U1.
        -- injection U as <-. apply andb_prop in U1 as [U1 U2]. apply starts_with_spec in U2 as (z & ->).
           eapply good_ending with (y := (c :: p) ++ $":/") (a := "/"%char) (z := z).
           ++ rewrite <- app_assoc. reflexivity.
           ++ rewrite app_length. cbn. lia.
           ++ reflexivity.
           ++ rewrite <- app_assoc. apply one_of_In in U1. cbn [In] in U1.
              repeat (destruct U1 as [U1|U1]; [rewrite <- U1; apply L_uri; cbn; tauto|]). destruct U1.
           ++ intros _. exact I.
        -- destruct (bytes_eqb (c :: p) ($"file") && starts_with ($":///") (":"%char :: q1)) eqn:U3; [|discriminate].
           injection U as <-. apply andb_prop in U3 as [U3 U2]. apply starts_with_spec in U2 as (z & ->). apply bytes_eqb_eq in U3. injection U3 as -> ->.
           eapply good_ending with (y := $"file://") (a := "/"%char) (z := z); [reflexivity|reflexivity|try reflexivity| |].
           ++ apply (L_uri plugins ($"file:///")). cbn; tauto.
           ++ intros _. exact I.
      * destruct (is_macro_name plugins (c :: p)) eqn:MN.
        { intro H; injection H as <-. eapply good_ending with (y := c :: p) (a := ":"%char) (z := q1); [reflexivity|reflexivity|try reflexivity| |].
          - apply L_macro. unfold is_macro_name in MN. apply orb_prop in MN as [MN|MN]; apply one_of_In in MN; [right|left]; exact MN.
          - intros _. exact I. }
        assert (CUT : forall suf, ends_with (c :: p) suf = true -> In suf builtin_macros -> (forall d r, suf = d :: r -> ascii7 d = true) ->
            (suf = $"footnote" \/ suf = $"indexterm") ->
            good plugins prev ls ((c :: p) ++ ":"%char :: q1) (mkRaw Word 0 (length (c :: p) - length suf) (length (c :: p) - length suf))).
        { intros suf EW IB S7 SF. apply ends_with_spec in EW as (y & EY).
          destruct y as [|c' y].
          { exfalso. cbn in EY. rewrite EY in MN. unfold is_macro_name in MN. apply orb_false_iff in MN as [MN _].
            apply one_of_In in IB. congruence. }
          rewrite EY, app_length, Nat.add_sub. cbn [app] in EY. injection EY as <- EY.
          exists Word, (c :: y), (suf ++ ":"%char :: q1). repeat split.
          - rewrite <- app_assoc. reflexivity.
          - discriminate.
          - apply L_word; [exact C|]. intros d I J. apply (A'' d); [rewrite EY; apply in_or_app; left; exact I|exact J].
          - intros _. destruct SF as [-> | ->]; right; right; [left|right]; exists q1; reflexivity.
          - left. intros d r E. destruct suf as [|d' suf]; [cbn in E; injection E as <- _; reflexivity|].
            cbn in E. injection E as <- _. apply (S7 d' suf eq_refl). }
        destruct (ends_with (c :: p) ($"footnote")) eqn:F1.
        { intro H; injection H as <-. apply (CUT ($"footnote")); auto; [cbn; tauto|intros d r E; injection E as <- _; reflexivity]. }
        destruct (ends_with (c :: p) ($"indexterm")) eqn:F2.
        { intro H; injection H as <-. apply (CUT ($"indexterm")); auto; [cbn; tauto|intros d r E; injection E as <- _; reflexivity]. }
        intro H; injection H as <-. exact PLAIN.
  - cbn [andb]. destruct (is (nth_error q 0) "@"%char) eqn:QA; [|intro H; injection H as <-; exact PLAIN].
    apply is_head in QA as (q1 & ->). cbn [skipn].
    destruct (run_split email_byte q1) as (d & z & E & Ld & Ad & Nd). rewrite <- Ld.
    assert (FD : firstn (length d) q1 = d) by (rewrite E; apply firstn_pre). rewrite FD.
    destruct ((3 <? length d) && mem "."%char d && negb (is (nth_error q1 (length d)) "@"%char)) eqn:EM.
    + intro H; injection H as <-. apply andb_prop in EM as [EM _]. apply andb_prop in EM as [L3 DOT]. apply Nat.ltb_lt in L3.
      assert (DD : exists d' a, d = d' ++ [a] /\ email_byte a = true).
      { destruct (@exists_last _ d) as (d' & a & ED); [intros ->; cbn in L3; lia|]. exists d', a. split; [exact ED|].
        rewrite ED in Ad. apply Forall_app in Ad as [_ Ad]. inversion Ad; assumption. }
      destruct DD as (d' & a & ED & Ea).
      eapply good_ending with (y := (c :: p) ++ $"@" ++ d') (a := a) (z := z).
      * rewrite E, ED, <- !app_assoc. reflexivity.
      * rewrite ED, !app_length. cbn. lia.
      * apply email_ascii, Ea.
      * rewrite <- !app_assoc, <- ED. apply (L_email plugins c p d); try assumption.
        -- apply in_list_In, DOT.
        -- eapply all_of_impl; [|exact Ad]. intros x0 X. rewrite <- email_same. exact X.
      * intros _. exact I.
    + replace (length (c :: p) + 1 + length d - length d) with (length ((c :: p) ++ ["@"%char])) by (rewrite app_length; cbn [length]; lia).
      assert (SK : skipn (length ((c :: p) ++ ["@"%char])) ((c :: p) ++ "@"%char :: q1) = q1).
      { replace ((c :: p) ++ "@"%char :: q1) with (((c :: p) ++ ["@"%char]) ++ q1) by (rewrite <- app_assoc; reflexivity). apply skipn_pre. }
      rewrite SK. destruct (run_split (in_word false) q1) as (w & u & Ew & Lw & Aw & Nw). rewrite <- Lw, <- app_length.
      intro H; injection H as <-.
      exists Word, (((c :: p) ++ ["@"%char]) ++ w), u. repeat split.
      * rewrite Ew, <- !app_assoc. reflexivity.
      * discriminate.
      * rewrite <- app_assoc. apply (L_word plugins c (p ++ ["@"%char] ++ w)); [exact C|].
        intros y Iy. apply in_app_or in Iy as [Iy|Iy]; [apply A'', Iy|]. apply in_app_or in Iy as [Iy|Iy].
        -- destruct Iy as [<-|[]]. apply (proj1 (in_list_not separators "@"%char)). vm_compute. reflexivity.
        -- unfold all_of in Aw. rewrite Forall_forall in Aw. specialize (Aw y Iy). rewrite inw_false in Aw.
           apply negb_true_iff, in_list_not in Aw. exact Aw.
      * intros _. destruct u as [|y u]; [left; reflexivity|right; left]. exists y, u. split; [reflexivity|right].
        specialize (Nw y u eq_refl). rewrite inw_false in Nw. apply negb_false_iff, in_list_In in Nw. exact Nw.
      * left. intros y r ->. specialize (Nw y r eq_refl). rewrite inw_false in Nw. apply negb_false_iff in Nw. apply sep_ascii, Nw.
Qed.
Lemma word_total plugins r : word plugins r <> Panic.
Proof.
  unfold word. match goal with |- (if ?x then _ else _) <> _ => destruct x eqn:E end.
  - apply andb_prop in E as [_ E]. apply Nat.ltb_lt in E. set (t := skipn _ _) in *. clearbody t.
    destruct t as [|a [|d [|e t]]]; cbn in E; try lia. discriminate.
  - repeat match goal with |- (if ?x then _ else _) <> _ => destruct x | |- match ?x with _ => _ end <> _ => destruct x end; discriminate.
Qed.

(** ** one token *)
Lemma scan_good plugins prev ls c t : exists x, scan plugins prev ls (c :: t) = Ret (Some x) /\ good plugins prev ls (c :: t) x.
Proof.
  unfold scan. destruct (at_delimiter_line ls (c :: t)) as [[n d]|] eqn:DL.
  { eexists. split; [reflexivity|]. eapply good_delimiter, DL. }
  destruct (look c repeats) as [k|] eqn:R; [eexists; split; [reflexivity|apply good_repeating, R]|].
  destruct (look c singles) as [k|] eqn:S.
  { eexists. split; [reflexivity|]. pose proof (look_In _ _ _ S) as I.
    cbn [singles In] in I.
    repeat (destruct I as [I|I]; [injection I as <- <-; apply good_single;
      [first [apply L_one; cbn; tauto|apply L_newline; cbn; tauto]|reflexivity|intros _; exact Logic.I]|]). destruct I. }
  destruct (mem c ws_bytes) eqn:W; [eexists; split; [reflexivity|apply good_whitespace, W]|].
  destruct (Ascii.eqb_spec c "&"%char) as [->|N1]; [eexists; split; [reflexivity|apply good_entity]|].
  destruct (Ascii.eqb_spec c "<"%char) as [->|N2]; [eexists; split; [reflexivity|apply good_callout]|].
  destruct (Ascii.eqb_spec c "{"%char) as [->|N3]; [eexists; split; [reflexivity|apply good_attr_ref]|].
  destruct (Ascii.eqb c CR && is (nth_error t 0) LF) eqn:CRLF.
  { apply andb_prop in CRLF as [E1 E2]. apply Ascii.eqb_eq in E1. subst c. apply is_head in E2 as (q & ->).
    eexists. split; [reflexivity|]. eapply good_ending with (y := [CR]) (a := LF) (z := q); [reflexivity|reflexivity|try reflexivity| |].
    - apply L_newline. right; left; reflexivity.
    - intros _. exact I. }
  destruct (digit c) eqn:D; [eexists; split; [reflexivity|apply good_digits, D]|].
  destruct (Ascii.eqb c ";"%char || Ascii.eqb c ":"%char) eqn:SC.
  { eexists. split; [reflexivity|]. apply good_term. apply orb_prop in SC as [E|E]; apply Ascii.eqb_eq in E; auto. }
  destruct (Ascii.eqb c (ch 194) && is (nth_error t 0) (ch 160)) eqn:NB.
  { apply andb_prop in NB as [E1 E2]. apply Ascii.eqb_eq in E1. subst c. apply is_head in E2 as (q & ->).
    eexists. split; [reflexivity|]. exists Punctuation, [ch 194; ch 160], q. repeat split; try discriminate.
    - apply L_punctuation. left. reflexivity.
    - right; right. apply U2; reflexivity. }
  destruct (existsb (fun p => starts_with p (c :: t)) wide_punctuation) eqn:WP.
  { apply existsb_exists in WP as (p & I & SW). apply starts_with_spec in SW as (z & E). rewrite E.
    eexists. split; [reflexivity|]. cbn [wide_punctuation map In] in I.
    repeat (destruct I as [I|I]; [subst p; eexists Punctuation, _, z; split; [|split; [reflexivity|]]; [reflexivity|]; repeat split;
       [discriminate|apply L_punctuation; cbn [map In]; tauto|right; right; apply U3b; reflexivity]|]). destruct I. }
  destruct (Ascii.eqb c ESC && starts_with ($"ass:") t) eqn:ES.
  { apply andb_prop in ES as [E1 E2]. apply Ascii.eqb_eq in E1. subst c. apply starts_with_spec in E2 as (z & ->).
    eexists. split; [reflexivity|]. eapply good_ending with (y := ESC :: $"ass") (a := ":"%char) (z := z); [reflexivity|reflexivity|try reflexivity| |].
    - apply L_pass.
    - intros _. exact I. }
  destruct (word plugins (c :: t)) as [x|] eqn:WO; [|exfalso; exact (word_total _ _ WO)].
  exists x. split; [reflexivity|]. eapply good_word; [|exact WO].
  unfold word_start. rewrite R, S, W, D, SC.
  rewrite (proj2 (Ascii.eqb_neq c "&"%char) N1), (proj2 (Ascii.eqb_neq c "<"%char) N2), (proj2 (Ascii.eqb_neq c "{"%char) N3). reflexivity.
Qed.
Lemma scan_nil plugins prev ls : scan plugins prev ls [] = Ret None.
Proof. reflexivity. Qed.

(** the lexer in the middle of a text: [before] was read, [after] is left *)
Definition at_ (before after : bytes) (off : nat) : lexer := mkLexer (before ++ after) (length before) off.
Lemma rest_at x y o : rest (at_ x y o) = y.
Proof. apply skipn_pre. Qed.
Lemma prev_at x y o : prev_byte (at_ x y o) = last (map Some x) None.
Proof.
  unfold prev_byte, at_. cbn. destruct x as [|a x] using rev_ind; [reflexivity|].
  rewrite app_length, map_app, Nat.add_comm. cbn [length Nat.add]. rewrite <- app_assoc. cbn.
  rewrite nth_pre0, last_last. reflexivity.
Qed.
Lemma line_start_at x y o : at_line_start (at_ x y o) = true <-> line_begins (last (map Some x) None).
Proof.
  unfold at_line_start. rewrite prev_at. unfold line_begins. cbn.
  destruct x as [|a x] using rev_ind; [cbn; intuition|]. clear IHx. rewrite app_length, map_app, Nat.add_comm. cbn [map length Nat.add]. rewrite last_last. cbn.
  rewrite Ascii.eqb_eq. split; [intros ->; right; reflexivity|intros [H|H]; [discriminate|]]. injection H as ->. reflexivity.
Qed.
(** One step in a valid text: never panics; at the end nothing, otherwise a token taken off the front. *)
Lemma next_end plugins x o : next_token plugins (at_ x [] o) = Ret (None, mkLexer x (length x + 1) o).
Proof. unfold next_token. rewrite rest_at, scan_nil. unfold at_. rewrite app_nil_r. reflexivity. Qed.
Lemma next_some plugins x y o : y <> [] -> utf8 y ->
  exists k l z, y = l ++ z /\ l <> [] /\ utf8 z /\ lexeme_of plugins k l /\ placed k (last (map Some x) None) l z /\
    next_token plugins (at_ x y o) = Ret (Some (mkToken k (length x + o) (length x + length l + o) l), at_ (x ++ l) z o).
Proof.
  intros NE U. destruct y as [|c t]; [congruence|].
  destruct (scan_good plugins (last (map Some x) None) (at_line_start (at_ x (c :: t) o)) c t) as (w & SC & k & l & z & -> & E & NL & L & P & CU).
  specialize (P (line_start_at x (c :: t) o)). rewrite E in U. destruct (cut_utf8 l z U CU) as [Ul Uz].
  exists k, l, z. repeat split; try assumption. unfold next_token.
  rewrite rest_at, prev_at, SC. cbn [r_kind r_start r_end r_pos]. unfold make_token. cbn [src pos offset at_].
  rewrite E, !app_length. replace (length x + length l <? length x + 0) with false by (symmetry; apply Nat.ltb_ge; lia).
  replace (length x + (length l + length z) <? length x + length l) with false by (symmetry; apply Nat.ltb_ge; lia).
  cbn [orb]. rewrite Nat.add_0_r, skipn_pre. replace (length x + length l - length x) with (length l) by lia.
  rewrite firstn_pre. apply is_utf8_spec in Ul. rewrite Ul, orb_true_r.
  unfold at_. rewrite app_length, <- app_assoc. reflexivity.
Qed.

(** ** a whole text *)
Lemma tokens_good plugins o : forall fuel x y, length y < fuel -> utf8 y ->
  exists ts, tokens plugins fuel (at_ x y o) = Ret (Some ts) /\ concat (map t_lexeme ts) = y /\
    contiguous (length x + o) (length x + length y + o) ts /\ Forall (fun t => lexeme_of plugins (t_kind t) (t_lexeme t)) ts /\
    Forall (fun t => t_lexeme t <> [] /\ t_end t = t_start t + length (t_lexeme t)) ts /\ well_placed x ts.
Proof.
  induction fuel as [|f IH]; intros x y L U; [lia|]. cbn [tokens]. destruct y as [|c t].
  - rewrite next_end. exists []. cbn. repeat split; try constructor. lia.
  - destruct (next_some plugins x (c :: t) o) as (k & l & z & E & NL & Uz & LX & P & ->); [discriminate|exact U|].
    assert (0 < length l) by (destruct l; [congruence|cbn; lia]).
    assert (LE : length (c :: t) = length l + length z) by (rewrite E, app_length; reflexivity).
    destruct (IH (x ++ l) z) as (ts & -> & C & CT & F & G & W); [lia|exact Uz|].
    eexists. split; [reflexivity|]. cbn [map concat t_lexeme t_kind t_start t_end contiguous well_placed].
    rewrite C. rewrite app_length in CT. rewrite LE. repeat split; try (constructor; assumption).
    + symmetry; exact E.
    + lia.
    + replace (length x + (length l + length z) + o) with (length x + length l + length z + o) by lia. exact CT.
    + constructor; [cbn; split; [exact NL|lia]|exact G].
    + exact P.
    + exact W.
Qed.

(** ** newlines *)
Lemma lexeme_no_newline plugins k y : (forall p, In p plugins -> ~ In newline p) ->
  lexeme_of plugins k y -> k <> Newline -> ~ In newline y.
Proof.
  intros PL L K. assert (NL : forall P s, P newline = false -> all_of P s -> ~ In newline s).
  { intros P s F A I. unfold all_of in A. rewrite Forall_forall in A. rewrite (A _ I) in F. discriminate. }
  assert (CH : forall (c : ascii) s, c <> newline -> ~ In newline s -> ~ In newline (c :: s)) by (intros c s A B [I|I]; [congruence|contradiction]).
  assert (AP : forall s t, ~ In newline s -> ~ In newline t -> ~ In newline (s ++ t)) by (intros s t A B I; apply in_app_or in I as [I|I]; contradiction).
  assert (LIT : forall s, in_list s newline = false -> ~ In newline s) by (intro s; apply in_list_not).
  assert (SEP : forall s, (forall x, In x s -> ~ In x separators) -> ~ In newline s).
  { intros s H I. apply (H newline I). apply in_list_In. reflexivity. }
  assert (WS : forall c, ~ In c not_word_start -> c <> newline) by (intros c H ->; apply H; apply in_list_In; reflexivity).
  destruct L as [c k H|s H|c k n H|s N H|s N H|s H|a c s A C H|s N H|s H|s H|s H|s H|n|s H| |s H|s H|s H|c s d C S L3 D H|c s C S].
  - cbn in H. repeat (destruct H as [H|H]; [injection H as <- <-; apply LIT; reflexivity|]). destruct H.
  - congruence.
  - intro I. apply repeat_spec in I. subst c. cbn in H. repeat (destruct H as [H|H]; [discriminate|]). destruct H.
  - eapply NL; [|exact H]. reflexivity.
  - eapply NL; [|exact H]. reflexivity.
  - apply AP; [apply LIT; reflexivity|apply AP; [|apply LIT; reflexivity]].
    destruct H as [[_ H]|(h & -> & _ & H)]; [|apply AP; [apply LIT; reflexivity|]]; eapply NL; try exact H; reflexivity.
  - apply AP; [apply LIT; reflexivity|]. apply CH; [intros ->; discriminate|]. apply CH; [intros ->; discriminate|].
    apply AP; [|apply LIT; reflexivity]. eapply NL; [|exact H]. reflexivity.
  - apply AP; [apply LIT; reflexivity|apply AP; [|apply LIT; reflexivity]]. eapply NL; [|exact H]. reflexivity.
  - apply AP; [apply LIT; reflexivity|apply AP; [|apply LIT; reflexivity]].
    destruct H as [->|[_ H]]; [apply LIT; reflexivity|eapply NL; [|exact H]; reflexivity].
  - apply AP; [apply LIT; reflexivity|apply AP; [|apply LIT; reflexivity]].
    destruct H as [->|[_ H]]; [apply LIT; reflexivity|eapply NL; [|exact H]; reflexivity].
  - cbn [In] in H. repeat (destruct H as [<-|H]; [apply LIT; reflexivity|]). destruct H.
  - cbn [In] in H. repeat (destruct H as [<-|H]; [apply LIT; reflexivity|]). destruct H.
  - apply AP; [apply LIT; reflexivity|]. intro I. apply repeat_spec in I. discriminate.
  - cbn [In map] in H. repeat (destruct H as [<-|H]; [apply LIT; reflexivity|]). destruct H.
  - apply LIT; reflexivity.
  - apply AP; [|apply LIT; reflexivity]. cbn [In] in H. repeat (destruct H as [<-|H]; [apply LIT; reflexivity|]). destruct H.
  - cbn [In] in H. repeat (destruct H as [<-|H]; [apply LIT; reflexivity|]). destruct H.
  - apply AP; [|apply LIT; reflexivity]. destruct H as [H|H]; [apply PL, H|].
    cbn [In] in H. repeat (destruct H as [<-|H]; [apply LIT; reflexivity|]). destruct H.
  - apply CH; [apply WS, C|]. apply AP; [|apply AP; [apply LIT; reflexivity|]].
    + apply SEP. intros x I J. apply (S x I). right. exact J.
    + eapply NL; [|exact H]. reflexivity.
  - apply CH; [apply WS, C|]. apply SEP, S.
Qed.

(** ** recognition *)
Lemma next_of_scan plugins x y o k l z : y = l ++ z -> utf8 l ->
  scan plugins (last (map Some x) None) (at_line_start (at_ x y o)) y = Ret (Some (mkRaw k 0 (length l) (length l))) ->
  next_token plugins (at_ x y o) = Ret (Some (mkToken k (length x + o) (length x + length l + o) l), at_ (x ++ l) z o).
Proof.
  intros E U SC. unfold next_token. rewrite rest_at, prev_at, SC. cbn [r_kind r_start r_end r_pos]. unfold make_token. cbn [src pos offset at_].
  rewrite E, !app_length. replace (length x + length l <? length x + 0) with false by (symmetry; apply Nat.ltb_ge; lia).
  replace (length x + (length l + length z) <? length x + length l) with false by (symmetry; apply Nat.ltb_ge; lia).
  cbn [orb]. rewrite Nat.add_0_r, skipn_pre. replace (length x + length l - length x) with (length l) by lia.
  rewrite firstn_pre. apply is_utf8_spec in U. rewrite U, orb_true_r.
  unfold at_. rewrite app_length, <- app_assoc. reflexivity.
Qed.
Lemma all_ascii P s : (forall c, P c = true -> ascii7 c = true) -> all_of P s -> Forall (fun c => between 0 127 c = true) s.
Proof. intros H A. eapply Forall_impl; [|exact A]. exact H. Qed.
Lemma name_ascii c : name_byte c = true -> ascii7 c = true.
Proof. destruct c as [[] [] [] [] [] [] [] []]; vm_compute; intro H; first [reflexivity|discriminate]. Qed.
Lemma recognise_attr_ref plugins x name y o :
  last (map Some x) None <> Some "\"%char -> name <> [] -> all_of name_byte name ->
  let l := $"{" ++ name ++ $"}" in
  next_token plugins (at_ x (l ++ y) o) = Ret (Some (mkToken AttrRef (length x + o) (length x + length l + o) l), at_ (x ++ l) y o).
Proof.
  intros B NE A l. apply next_of_scan; [reflexivity| |].
  - apply utf8_ascii. unfold l. apply Forall_app; split; [repeat constructor|]. apply Forall_app; split; [|repeat constructor].
    eapply all_ascii; [apply name_ascii|exact A].
  - set (p := last (map Some x) None) in *. clearbody p. set (ls := at_line_start _). clearbody ls. unfold l.
    assert (AD : at_delimiter_line ls (($"{" ++ name ++ $"}") ++ y) = None) by (cbn; rewrite orb_true_r; reflexivity).
    unfold scan. rewrite AD. cbn [app b list_ascii_of_string]. cbn [look repeats singles]. cbn [Ascii.eqb Bool.eqb].
    replace (mem "{"%char ws_bytes) with false by reflexivity. cbn iota.
    unfold maybe_attr_ref. replace (is p "\"%char) with false.
    2: { symmetry. destruct p as [d|]; [|reflexivity]. cbn. apply Ascii.eqb_neq. congruence. }
    rewrite <- app_assoc. rewrite run_app.
    + rewrite nth_pre0. cbn [nth_error app is Ascii.eqb Bool.eqb].
      destruct (Nat.eqb_spec (length name) 0) as [Z|Z]; [destruct name; [congruence|discriminate]|].
      cbn [length]. rewrite app_length. cbn [length]. rewrite !Nat.add_1_r. reflexivity.
    + eapply all_of_impl; [|exact A]. intros c H. rewrite name_same. exact H.
    + intros c r E. injection E as <- _. reflexivity.
Qed.
Lemma scan_word plugins p ls c t x : ~ In c not_word_start -> at_delimiter_line ls (c :: t) = None ->
  Ascii.eqb c CR = false -> Ascii.eqb c ESC = false -> Ascii.eqb c (ch 194) = false -> existsb (fun q => starts_with q (c :: t)) wide_punctuation = false ->
  word plugins (c :: t) = Ret x -> scan plugins p ls (c :: t) = Ret (Some x).
Proof.
  intros W D E1 E2 E3 E4 H. assert (S : word_start c = true) by (rewrite word_start_same; apply negb_true_iff, in_list_not, W).
  unfold word_start in S. repeat (apply andb_prop in S as [S ?]). unfold scan. rewrite D.
  destruct (look c repeats); [discriminate|]. destruct (look c singles); [discriminate|].
  repeat match goal with H : negb _ = true |- _ => apply negb_true_iff in H; rewrite H end.
  rewrite E1, E2, E3, E4, H. cbn. reflexivity.
Qed.
Lemma recognise_directive plugins x name c y o :
  In name [$"include"; $"ifdef"; $"ifndef"; $"endif"; $"ifeval"; $"asciidorkinclude"] ->
  ~ In c ((" "%char) :: map ascii_of_nat [9; 10; 12; 13]) -> 2 <= length y ->
  let l := name ++ $"::" in
  next_token plugins (at_ x (l ++ c :: y) o) = Ret (Some (mkToken Directive (length x + o) (length x + length l + o) l), at_ (x ++ l) (c :: y) o).
Proof.
  intros I C L l. apply in_list_not in C. rewrite <- asciiws_same in C. apply next_of_scan; [reflexivity| |].
  { unfold l. cbn [In] in I. repeat (destruct I as [<-|I]; [apply is_utf8_spec; reflexivity|]). destruct I. }
  set (p := last _ _). clearbody p. set (ls := at_line_start _). clearbody ls. unfold l. clear l.
  destruct y as [|d [|e y]]; cbn in L; try lia. clear L.
  cbn [In] in I.
  repeat (destruct I as [<-|I]; [cbn [app b list_ascii_of_string]; apply scan_word; [apply in_list_not; reflexivity|destruct ls; reflexivity|reflexivity|reflexivity|reflexivity|reflexivity|];
    unfold word; cbn -[ascii_ws]; rewrite C; reflexivity|]). destruct I.
Qed.
Lemma recognise_delimiter plugins x s y o :
  In s [$"--"; $"****"; $"____"; $"----"; $"++++"; $"...."; $"////"] \/ (exists n, s = $"====" ++ repeat "="%char n) ->
  line_begins (last (map Some x) None) -> ends_line y ->
  next_token plugins (at_ x (s ++ y) o) = Ret (Some (mkToken DelimiterLine (length x + o) (length x + length s + o) s), at_ (x ++ s) y o).
Proof.
  intros I LB EL. assert (LE : line_end (nth_error y 0) = true).
  { destruct EL as [->|(c & r & -> & [<-|[<-|[]]])]; reflexivity. }
  apply next_of_scan; [reflexivity| |].
  - destruct I as [I|(n & ->)].
    + cbn [In] in I. repeat (destruct I as [<-|I]; [apply is_utf8_spec; reflexivity|]). destruct I.
    + apply utf8_ascii. apply Forall_app; split; [repeat constructor|]. apply Forall_forall. intros c Ic. apply repeat_spec in Ic. subst c. reflexivity.
  - rewrite (proj2 (line_start_at x (s ++ y) o) LB). unfold scan.
    assert (K : at_delimiter_line true (s ++ y) = Some (length s, nth 0 s "x"%char)).
    { destruct I as [I|(n & ->)].
      - destruct EL as [->|(c & r & -> & [<-|[<-|[]]])]; cbn [In] in I;
          repeat (destruct I as [<-|I]; [reflexivity|]); destruct I.
      - rewrite <- app_assoc. cbn [b list_ascii_of_string app length nth].
        unfold at_delimiter_line. cbn [mem existsb Ascii.eqb Bool.eqb negb orb].
        unfold is at 1 2 3. nn. cbn [Ascii.eqb Bool.eqb andb negb].
        destruct n as [|n].
        + cbn [repeat app]. rewrite LE. reflexivity.
        + cbn [repeat app]. change (is (Some "="%char) "="%char) with true.
          change (nth_error ("="%char :: repeat "="%char n ++ y) 0) with (Some "="%char).
          change (line_end (Some "="%char)) with false. change (is (Some "="%char) "="%char) with true. cbn [andb].
          cbn [skipn]. rewrite run_app with (p := repeat "="%char n).
          * rewrite repeat_length. cbn [Nat.add nth_error].
            replace (nth_error (repeat "="%char n ++ y) n) with (nth_error y 0).
            2: { rewrite <- (repeat_length "="%char n) at 2. symmetry. apply nth_pre0. }
            rewrite LE. cbn [length]. rewrite repeat_length. reflexivity.
          * apply Forall_forall. intros c Ic. apply repeat_spec in Ic. subst c. reflexivity.
          * intros c r ->. cbn in LE. destruct (Ascii.eqb_spec "="%char c) as [<-|]; [discriminate|reflexivity]. }
    rewrite K. reflexivity.
Qed.
