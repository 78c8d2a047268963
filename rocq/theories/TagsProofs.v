From Coq Require Import Sorting.Sorted.
From Verif Require Import Base Utf8 Text LinesModel TagsModel TagsSpec.

(** ** White space *)
Lemma white_no w c : In w white -> In c w -> ~ In c ($"[];,!*").
Proof.
  intros I J H. assert (B : forallb (fun w => forallb (fun c => negb (existsb (Ascii.eqb c) ($"[];,!*"))) w) white = true) by (vm_compute; reflexivity).
  rewrite forallb_forall in B. specialize (B w I). rewrite forallb_forall in B. specialize (B c J). apply negb_true_iff in B.
  assert (X : existsb (Ascii.eqb c) ($"[];,!*") = true); [|congruence]. apply existsb_exists. exists c. split; [exact H|apply Ascii.eqb_refl].
Qed.
Lemma white_head w : In w white -> exists c r, w = c :: r.
Proof. intro I. pose proof white_nonempty as NE. unfold nonempty_all in NE. rewrite Forall_forall in NE. specialize (NE w I). destruct w as [|c r]; [congruence|eauto]. Qed.
Lemma has_white_spec s : has_white s = true <-> exists a w z, In w white /\ s = a ++ w ++ z.
Proof.
  induction s as [|c s IH].
  - cbn. split; [discriminate|]. intros (a & w & z & I & E). destruct (white_head w I) as (d & r & ->). destruct a; discriminate.
  - cbn [has_white]. destruct (strip_any white (c :: s)) as [t|] eqn:S.
    + apply strip_any_some in S as (w & I & E). split; [intros _; exists [], w, t; auto|reflexivity].
    + rewrite IH. split; [intros (a & w & z & I & ->); exists (c :: a), w, z; auto|]. intros (a & w & z & I & E).
      destruct a as [|d a]; [destruct (strip_any_none _ _ S w z I E)|]. injection E as _ E. exists a, w, z. auto.
Qed.
Lemma has_white_no s : has_white s = false <-> no_white s.
Proof.
  split.
  - intros H a w z I E. assert (X : has_white s = true) by (apply has_white_spec; exists a, w, z; auto). congruence.
  - intro N. destruct (has_white s) eqn:E; [|reflexivity]. apply has_white_spec in E as (a & w & z & I & E). destruct (N a w z I E).
Qed.
Lemma nonspace_spec s : exists z, s = nonspace s ++ z /\ no_white (nonspace s).
Proof.
  induction s as [|c s (z & E & N)].
  - exists []. split; [reflexivity|]. intros a w z I E. destruct (white_head w I) as (d & r & ->). destruct a; discriminate.
  - cbn [nonspace]. destruct (strip_any white (c :: s)) as [t|] eqn:S.
    + exists (c :: s). split; [reflexivity|]. intros a w z' I E'. destruct (white_head w I) as (d & r & ->). destruct a; discriminate.
    + exists z. cbn [app]. split; [f_equal; exact E|]. intros a w y I Q. destruct a as [|d a].
      * apply (strip_any_none _ _ S w (y ++ z) I). rewrite app_assoc. cbn [app] in Q. rewrite <- Q. cbn [app]. f_equal. exact E.
      * injection Q as _ Q. exact (N a w y I Q).
Qed.
(** a white character inside [x ++ y] that starts in [x], where [y] starts with a byte no white character has *)
Lemma white_inside x b y w r : In b ($"[];,!*") -> In w white -> x ++ b :: y = w ++ r -> exists x', x = w ++ x'.
Proof.
  intros B I. revert x. assert (G : forall u x, (forall c, In c u -> In c w) -> x ++ b :: y = u ++ r -> exists x', x = u ++ x'); [|intros x E; exact (G w x (fun c H => H) E)].
  induction u as [|c u IH]; intros x S E; [exists x; reflexivity|]. destruct x as [|d x].
  - cbn in E. injection E as -> _. destruct (white_no w c I (S c (or_introl eq_refl)) B).
  - cbn in E. injection E as -> E. destruct (IH x) as (x' & ->); [intros e H; apply S; right; exact H|exact E|]. exists x'. reflexivity.
Qed.
Lemma nonspace_run n b y : In b ($"[];,!*") -> no_white n -> nonspace (n ++ b :: y) = n ++ nonspace (b :: y).
Proof.
  intros B. induction n as [|c n IH]; intro N; [reflexivity|]. cbn [app]. cbn [nonspace]. destruct (strip_any white (c :: n ++ b :: y)) as [t|] eqn:S.
  - apply strip_any_some in S as (w & I & E). destruct (white_inside (c :: n) b y w t B I E) as (x' & Q). destruct (N [] w x' I Q).
  - f_equal. apply IH. intros a w z I E. apply (N (c :: a) w z I). rewrite E. reflexivity.
Qed.
Lemma nonspace_special b y : In b ($"[];,!*") -> nonspace (b :: y) = b :: nonspace y.
Proof.
  intro B. cbn [nonspace]. destruct (strip_any white (b :: y)) as [t|] eqn:S; [|reflexivity]. apply strip_any_some in S as (w & I & E).
  destruct (white_head w I) as (c & r & ->). injection E as -> _. destruct (white_no _ c I (or_introl eq_refl) B).
Qed.
Definition tail_ok (z : bytes) : Prop := z = [] \/ z = [return_] \/ exists r, z = " "%char :: r.
Lemma name_at_spec s n : name_at s = Some n <-> exists z, s = n ++ $"[]" ++ z /\ n <> [] /\ no_white n /\ tail_ok z.
Proof.
  split.
  - unfold name_at. destruct (nonspace_spec s) as (z & E & N). set (run := nonspace s) in *. assert (R : skipn (length run) s = z) by (rewrite E; apply skipn_len). rewrite R.
    destruct (rev run) as [|c1 [|c2 [|c3 r]]] eqn:Q; try (intro H; exfalso; revert H; repeat match goal with |- context [match ?c with Ascii _ _ _ _ _ _ _ _ => _ end] => destruct c as [[] [] [] [] [] [] [] []] end; discriminate).
    assert (C : c1 = "]"%char /\ c2 = "["%char \/ ~ (c1 = "]"%char /\ c2 = "["%char)). { destruct (Ascii.ascii_dec c1 "]"), (Ascii.ascii_dec c2 "["); tauto. }
    destruct C as [[-> ->]|C].
    + cbn [skipn]. destruct (bytes_eqb z [] || bytes_eqb z [CR] || starts_with ($" ") z) eqn:T; [|discriminate]. intro H. injection H as <-. exists z.
      assert (ER : run = rev (c3 :: r) ++ $"[]"). { apply (f_equal (@rev ascii)) in Q. rewrite rev_involutive in Q. rewrite Q. cbn [rev]. rewrite <- !app_assoc. reflexivity. }
      split; [rewrite app_assoc; change (rev r ++ [c3]) with (rev (c3 :: r)); rewrite <- ER; exact E|]. split; [cbn; destruct (rev r); discriminate|]. split.
      * intros a w y I X. apply (N a w (y ++ $"[]") I). rewrite ER. change (rev r ++ [c3]) with (rev (c3 :: r)) in X. rewrite X, <- !app_assoc. reflexivity.
      * apply orb_prop in T as [T|T]; [apply orb_prop in T as [T|T]; apply bytes_eqb_eq in T; [left; exact T|right; left; exact T]|]. right. right. apply starts_with_spec in T as (x & ->). eexists. reflexivity.
    + intro H. exfalso. apply C. clear - H. destruct c1 as [[] [] [] [] [] [] [] []]; try discriminate H; destruct c2 as [[] [] [] [] [] [] [] []]; try discriminate H. auto.
  - intros (z & -> & NE & N & T). unfold name_at.
    assert (R : nonspace (n ++ $"[]" ++ z) = n ++ $"[]").
    { change ($"[]" ++ z) with ("["%char :: "]"%char :: z). rewrite nonspace_run by (cbn; auto). f_equal. rewrite !nonspace_special by (cbn; auto). do 2 f_equal.
      destruct T as [->|[->|(r & ->)]]; reflexivity. }
    rewrite R. rewrite app_assoc, skipn_len. rewrite rev_app_distr. change (rev ($"[]")) with ["]"%char; "["%char]. cbn [app].
    assert (RN : rev n <> []) by (intro X; apply (f_equal (@rev ascii)) in X; rewrite rev_involutive in X; exact (NE X)). destruct (rev n) as [|c r] eqn:Q; [congruence|].
    replace (bytes_eqb z [] || bytes_eqb z [CR] || starts_with ($" ") z) with true; [|symmetry; destruct T as [->|[->|(r' & ->)]]; reflexivity].
    cbn [skipn]. rewrite <- Q, rev_involutive. reflexivity.
Qed.
(** ** Word boundary *)
Lemma word_byte_spec a : word_byte a = true <-> In a ($"abcdefghijklmnopqrstuvwxyzABCDEFGHIJKLMNOPQRSTUVWXYZ0123456789_").
Proof.
  assert (H : forall a, word_byte a = existsb (Ascii.eqb a) ($"abcdefghijklmnopqrstuvwxyzABCDEFGHIJKLMNOPQRSTUVWXYZ0123456789_")).
  { intro c. destruct c as [[] [] [] [] [] [] [] []]; vm_compute; reflexivity. }
  rewrite H, existsb_exists. split; [intros (x & I & E); apply Ascii.eqb_eq in E; subst; exact I|]. intro I. exists a. split; [exact I|apply Ascii.eqb_refl].
Qed.
Lemma last_char_cont r' : forall cs acc, Forall (fun c => continuation c = true) cs -> last_char (cs ++ r') acc = last_char r' (rev cs ++ acc).
Proof. induction cs as [|c cs IH]; intros acc F; [reflexivity|]. inversion F as [|? ? H F']. subst. cbn [app last_char]. rewrite H, IH by exact F'. cbn [rev]. rewrite <- app_assoc. reflexivity. Qed.
Lemma last_char_spec x c : utf8_char c -> last_char (rev (x ++ c)) [] = c.
Proof.
  intro U. destruct c as [|a r]; [destruct (utf8_char_nonempty _ U eq_refl)|]. destruct (utf8_char_head a r U) as (H & F & _).
  rewrite rev_app_distr. cbn [rev]. rewrite <- app_assoc. rewrite last_char_cont by (apply Forall_rev, F). cbn [app last_char]. rewrite H, rev_involutive, app_nil_r. reflexivity.
Qed.
Lemma after_word_char word x c : utf8_char c -> (after_word word (rev (x ++ c)) = true <-> word_char word c).
Proof.
  intro U. destruct c as [|a r]; [destruct (utf8_char_nonempty _ U eq_refl)|]. destruct r as [|d r].
  - rewrite rev_app_distr. cbn [rev app after_word]. assert (A : between 0 127 a = true) by (inversion U; assumption). rewrite A. apply word_byte_spec.
  - pose proof (last_char_spec x _ U) as L. destruct (utf8_char_head _ _ U) as (_ & F & _). unfold after_word.
    destruct (rev (x ++ a :: d :: r)) as [|e q] eqn:Q; [apply (f_equal (@length ascii)) in Q; rewrite rev_length, app_length in Q; cbn in Q; lia|].
    assert (C : continuation e = true).
    { assert (E : exists y, d :: r = y ++ [e]). { apply (f_equal (@rev ascii)) in Q. rewrite rev_involutive in Q. cbn [rev] in Q.
        destruct (exists_last (l := d :: r) ltac:(discriminate)) as (y & e' & E). rewrite E in Q. change (a :: y ++ [e']) with ((a :: y) ++ [e']) in Q. rewrite app_assoc in Q. apply app_inj_tail in Q as [_ ->]. exists y. exact E. }
      destruct E as (y & E). rewrite E in F. apply Forall_app in F as [_ F]. inversion F. assumption. }
    unfold continuation in C. destruct (between 0 127 e) eqn:B; [apply between_spec in B, C; lia|]. rewrite L. reflexivity.
Qed.
Lemma after_word_spec word a : utf8 a -> (after_word word (rev a) = true <-> ends_in_word word a).
Proof.
  intros (cs & F & ->). destruct cs as [|c cs _] using rev_ind.
  - cbn. split; [discriminate|]. intros (x & c & E & U & _). symmetry in E. apply app_eq_nil in E as [_ ->]. destruct (utf8_char_nonempty _ U eq_refl).
  - apply Forall_app in F as [F U]. inversion U as [|? ? U' _]. subst. rewrite concat_app. cbn [concat]. rewrite app_nil_r. rewrite (after_word_char word _ c U'). split.
    + intro W. exists (concat cs), c. auto.
    + intros (x & c' & E & U2 & W). replace c with c'; [exact W|]. rewrite <- (last_char_spec x c' U2), <- E. apply last_char_spec, U'.
Qed.
(** ** Directives *)
Definition mk (k : kind) (n : bytes) : directive := match k with Opens => Start n | Closes => End n end.
Lemma ascii_head_utf8 a c r : utf8 (a ++ c :: r) -> between 0 127 c = true -> utf8 a.
Proof.
  intros U B. apply utf8_cut in U as [U _]; [exact U|]. intros d x E. injection E as <- _. unfold continuation. apply between_spec in B.
  destruct (between 128 191 c) eqn:Q; [apply between_spec in Q; lia|reflexivity].
Qed.
Lemma at_position word before s k n : utf8 (rev before ++ s) ->
  (directive_after word (rev before ++ s) (rev before) k n <->
   after_word word before = false /\ exists r, s = keyword k ++ $"::" ++ r /\ name_at r = Some n).
Proof.
  intro U. split.
  - intros (z & E & NW & NE & N & T). apply app_inv_head in E.
    assert (UB : utf8 (rev before)). { rewrite E in U. destruct k; cbn [keyword app] in U; eapply ascii_head_utf8; try exact U; reflexivity. }
    split.
    + destruct (after_word word before) eqn:Q; [|reflexivity]. destruct NW. apply after_word_spec; [exact UB|]. rewrite rev_involutive. exact Q.
    + exists (n ++ $"[]" ++ z). split; [exact E|]. apply name_at_spec. exists z. auto.
  - intros [A (r & -> & NA)]. apply name_at_spec in NA as (z & -> & NE & N & T). exists z. split; [reflexivity|]. split; [|auto].
    assert (UB : utf8 (rev before)). { destruct k; cbn [keyword app] in U; eapply ascii_head_utf8; try exact U; reflexivity. }
    intro W. apply (after_word_spec word _ UB) in W. rewrite rev_involutive in W. congruence.
Qed.
Lemma after_prefix word line a k n : directive_after word line a k n -> exists r, line = a ++ r /\ r <> [].
Proof. intros (z & -> & _). eexists. split; [reflexivity|]. destruct k; discriminate. Qed.
Lemma prefix_same (a b x y : bytes) : a ++ x = b ++ y -> length a = length b -> a = b.
Proof. intros E L. apply (f_equal (firstn (length a))) in E. rewrite firstn_len, L, firstn_len in E. exact E. Qed.
Lemma tag_directive_spec word : forall s before, utf8 (rev before ++ s) ->
  let line := rev before ++ s in
  match tag_directive word before s with
  | Some d => exists a k n, d = mk k n /\ directive_after word line a k n /\ length before <= length a /\
      (forall a' k' n', directive_after word line a' k' n' -> length before <= length a' -> length a <= length a')
  | None => forall a k n, directive_after word line a k n -> length a < length before
  end.
Proof.
  induction s as [|c s IH]; intros before U; cbv zeta.
  - assert (N : tag_directive word before [] = None) by (cbn; destruct (after_word word before); reflexivity). rewrite N. intros a k n D.
    destruct (after_prefix _ _ _ _ _ D) as (r & E & NE). rewrite app_nil_r in E. apply (f_equal (@length ascii)) in E. rewrite rev_length, app_length in E. destruct r; [congruence|cbn in E; lia].
  - assert (UL : utf8 (rev (c :: before) ++ s)) by (cbn [rev]; rewrite <- app_assoc; exact U). specialize (IH (c :: before) UL). cbv zeta in IH.
    assert (LE : rev (c :: before) ++ s = rev before ++ c :: s) by (cbn [rev]; rewrite <- app_assoc; reflexivity). rewrite LE in IH.
    set (line := rev before ++ c :: s) in *.
    assert (NEXT : (forall k n, ~ directive_after word line (rev before) k n) ->
      match tag_directive word (c :: before) s with
      | Some d => exists a k n, d = mk k n /\ directive_after word line a k n /\ length before <= length a /\
          (forall a' k' n', directive_after word line a' k' n' -> length before <= length a' -> length a <= length a')
      | None => forall a k n, directive_after word line a k n -> length a < length before
      end).
    { intro NO. assert (ST : forall a k n, directive_after word line a k n -> length before <= length a -> length (c :: before) <= length a).
      { intros a k n D L. cbn [length]. destruct (Nat.eq_dec (length a) (length before)) as [Q|Q]; [exfalso|lia]. destruct (after_prefix _ _ _ _ _ D) as (r & E & _).
        assert (a = rev before) as ->; [|exact (NO _ _ D)]. eapply prefix_same; [symmetry; exact E|]. rewrite rev_length. exact Q. }
      destruct (tag_directive word (c :: before) s) as [d|].
      - destruct IH as (a & k & n & E & D & L & M). exists a, k, n. split; [exact E|]. split; [exact D|]. cbn [length] in L. split; [lia|]. intros a' k' n' D' L'. eapply M; [exact D'|eapply ST; eauto].
      - intros a k n D. destruct (Nat.lt_ge_cases (length a) (length before)) as [X|X]; [exact X|exfalso]. specialize (IH a k n D). specialize (ST a k n D X). lia. }
    assert (HERE : forall k n, directive_after word line (rev before) k n -> exists a k' n', mk k n = mk k' n' /\ directive_after word line a k' n' /\ length before <= length a /\
          (forall a' k'' n'', directive_after word line a' k'' n'' -> length before <= length a' -> length a <= length a')).
    { intros k n D. exists (rev before), k, n. rewrite rev_length. auto. }
    cbn [tag_directive]. fold line in U. pose proof (at_position word before (c :: s)) as AP. fold line in AP.
    destruct (after_word word before) eqn:AW; [apply NEXT; intros k n D; apply AP in D as [X _]; [discriminate|exact U]|].
    destruct (starts_with ($"tag::") (c :: s)) eqn:S1.
    { apply starts_with_spec in S1 as (r & ES). replace (skipn 5 (c :: s)) with r by (rewrite ES; reflexivity). destruct (name_at r) as [n|] eqn:NA.
      - apply (HERE Opens n). apply AP; [exact U|]. split; [reflexivity|]. exists r. auto.
      - apply NEXT. intros k n D. apply AP in D as [_ (r' & ES' & NA')]; [|exact U]. rewrite ES in ES'. destruct k; cbn in ES'; [injection ES' as <-|discriminate]. congruence. }
    destruct (starts_with ($"end::") (c :: s)) eqn:S2.
    { apply starts_with_spec in S2 as (r & ES). replace (skipn 5 (c :: s)) with r by (rewrite ES; reflexivity). destruct (name_at r) as [n|] eqn:NA.
      - apply (HERE Closes n). apply AP; [exact U|]. split; [reflexivity|]. exists r. auto.
      - apply NEXT. intros k n D. apply AP in D as [_ (r' & ES' & NA')]; [|exact U]. rewrite ES in ES'. destruct k; cbn in ES'; [discriminate|injection ES' as <-]. congruence. }
    apply NEXT. intros k n D. apply AP in D as [_ (r' & ES' & NA')]; [|exact U]. destruct k.
    + assert (X : starts_with ($"tag::") (c :: s) = true) by (apply starts_with_spec; exists r'; exact ES'). congruence.
    + assert (X : starts_with ($"end::") (c :: s) = true) by (apply starts_with_spec; exists r'; exact ES'). congruence.
Qed.
Lemma same_place word line a k n k' n' : utf8 line -> directive_after word line a k n -> directive_after word line a k' n' -> k = k' /\ n = n'.
Proof.
  intros U D D'. destruct (after_prefix _ _ _ _ _ D) as (s & E & _). subst line. assert (P : forall k n, directive_after word (a ++ s) a k n -> exists r, s = keyword k ++ $"::" ++ r /\ name_at r = Some n).
  { intros k0 n0 D0. assert (R : rev (rev a) = a) by apply rev_involutive. rewrite <- R in D0 at 1. rewrite <- R in D0 at 2. apply at_position in D0 as [_ X]; [exact X|rewrite R; exact U]. }
  destruct (P _ _ D) as (r & E1 & N1). destruct (P _ _ D') as (r' & E2 & N2). rewrite E1 in E2. destruct k, k'; try discriminate E2; apply app_inv_head in E2; apply app_inv_head in E2; subst; split; congruence.
Qed.
Lemma directive_spec word line k n : utf8 line -> (tag_directive word [] line = Some (mk k n) <-> directive_line word line k n).
Proof.
  intro U. pose proof (tag_directive_spec word line [] U) as H. cbn [rev app] in H. cbv zeta in H. split.
  - intro E. rewrite E in H. destruct H as (a & k' & n' & Q & D & _ & M). assert (k = k' /\ n = n') as [-> ->] by (destruct k, k'; cbn in Q; try discriminate; injection Q as ->; auto).
    exists a. split; [exact D|]. intros a' k0 n0 D0. apply (M _ _ _ D0). cbn. lia.
  - intros (a & D & M). destruct (tag_directive word [] line) as [d|].
    + destruct H as (a' & k' & n' & -> & D' & _ & M'). assert (a = a') as <-.
      { destruct (after_prefix _ _ _ _ _ D) as (r & E & _), (after_prefix _ _ _ _ _ D') as (r' & E' & _). eapply prefix_same; [rewrite <- E; exact E'|]. specialize (M _ _ _ D'). specialize (M' _ _ _ D ltac:(cbn; lia)). lia. }
      destruct (same_place _ _ _ _ _ _ _ U D D') as [-> ->]. reflexivity.
    + specialize (H _ _ _ D). cbn in H. lia.
Qed.
Lemma plain_spec word line : utf8 line -> (tag_directive word [] line = None <-> plain_line word line).
Proof.
  intro U. pose proof (tag_directive_spec word line [] U) as H. cbn [rev app] in H. cbv zeta in H. split.
  - intro E. rewrite E in H. intros a k n D. specialize (H _ _ _ D). cbn in H. lia.
  - intro P. destruct (tag_directive word [] line) as [d|]; [|reflexivity]. destruct H as (a & k & n & _ & D & _). destruct (P _ _ _ D).
Qed.

(** ** Parsing the selection *)
Lemma no_white_app x b y : In b ($"[];,!*") -> no_white x -> no_white y -> no_white (x ++ b :: y).
Proof.
  intros B NX NY. induction x as [|c x IH]; intros a w z I E.
  - destruct a as [|d a]; [destruct (white_inside [] b y w z B I E) as (x' & Q); destruct (white_head w I) as (e & r & ->); discriminate|].
    injection E as _ E. exact (NY a w z I E).
  - destruct a as [|d a]; [destruct (white_inside (c :: x) b y w z B I E) as (x' & Q); exact (NX [] w x' I Q)|]. injection E as _ E.
    assert (N : no_white x) by (intros a' w' z' I' E'; apply (NX (c :: a') w' z' I'); rewrite E'; reflexivity). exact (IH N a w z I E).
Qed.
Lemma no_white_nil : no_white [].
Proof. intros a w z I E. destruct (white_head w I) as (d & r & ->). destruct a; discriminate. Qed.
Lemma trim_no_white s : no_white s -> trim s = s.
Proof.
  intro N. apply trim_unique. exists [], []. split; [rewrite app_nil_r; reflexivity|]. split; [exists []; split; [constructor|reflexivity]|]. split; [exists []; split; [constructor|reflexivity]|].
  split; intros w r I E; [exact (N [] w r I E)|]. apply (N r w [] I). rewrite app_nil_r. exact E.
Qed.
Definition item (s : bytes) : Prop := no_white s /\ Forall (fun c => separator c = false) s.
Lemma sep_false c : c <> ","%char -> c <> ";"%char -> separator c = false.
Proof. destruct c as [[] [] [] [] [] [] [] []]; intros; try reflexivity; congruence. Qed.
Lemma free_item t : no_white t -> ~ In ","%char t -> ~ In ";"%char t -> item t.
Proof. intros N C S. split; [exact N|]. apply Forall_forall. intros c I. apply sep_false; intros ->; auto. Qed.
Lemma name_item t : tag_name t -> item t.
Proof. intros (_ & N & C & S & _). apply free_item; auto. Qed.
Lemma not_item t : tag_name t -> item ("!"%char :: t).
Proof. intros (_ & N & C & S & _). apply free_item; [apply (no_white_app [] "!"%char t); [cbn; tauto|apply no_white_nil|exact N]| |]; intros [X|X]; try discriminate; auto. Qed.
Lemma sep_in sep : sep_text sep -> In sep ($"[];,!*") /\ separator sep = true.
Proof. intros [->| ->]; split; cbn; tauto. Qed.
Lemma join_items sep items : sep_text sep -> Forall item items -> no_white (join_byte sep items) /\ (items <> [] -> split_by separator (join_byte sep items) = items).
Proof.
  intros S. destruct (sep_in sep S) as [SI SS]. induction items as [|x items IH]; intro F; [split; [apply no_white_nil|congruence]|]. inversion F as [|? ? [N C] F']. subst. destruct (IH F') as [NJ SJ].
  destruct items as [|y items].
  - cbn [join_byte]. split; [exact N|]. intros _. apply split_by_one, C.
  - change (join_byte sep (x :: y :: items)) with (x ++ sep :: join_byte sep (y :: items)). split; [apply no_white_app; auto|]. intros _. rewrite split_by_app by auto. rewrite SJ by discriminate. reflexivity.
Qed.
Lemma parse_items sep items : sep_text sep -> items <> [] -> Forall item items ->
  parse_selection (join_byte sep items) = fold_left push (flat_map (fun p => match parse_spec p with Some sp => [sp] | None => [] end) items) [].
Proof. intros S NE F. destruct (join_items sep items S F) as [N E]. unfold parse_selection. rewrite trim_no_white by exact N. rewrite E by exact NE. reflexivity. Qed.
Lemma neqb x y : x <> y -> bytes_eqb x y = false.
Proof. intro H. destruct (bytes_eqb x y) eqn:E; [apply bytes_eqb_eq in E; congruence|reflexivity]. Qed.
Lemma parse_name t : tag_name t -> parse_spec t = Some (Tag t).
Proof.
  intros (NE & N & C & S & B & S1 & S2). unfold parse_spec. rewrite trim_no_white by exact N. rewrite (neqb t ($"**")), (neqb t ($"*")) by auto.
  rewrite (neqb t ($"!**")), (neqb t ($"!*")) by (apply B).
  assert (E : match t with "!"%char :: t' => (t', true) | _ => (t, false) end = (t, false)).
  { destruct t as [|c t]; [reflexivity|]. destruct (Ascii.ascii_dec c "!") as [->|Q]; [destruct (B t eq_refl)|]. destruct c as [[] [] [] [] [] [] [] []]; try reflexivity; congruence. }
  rewrite E. rewrite (neqb t []) by exact NE. cbn [orb]. apply has_white_no in N. rewrite N. reflexivity.
Qed.
Lemma parse_not t : tag_name t -> parse_spec ("!"%char :: t) = Some (AllLinesExcl t).
Proof.
  intro T. pose proof (not_item t T) as [NW _]. destruct T as (NE & N & C & S & B & S1 & S2). unfold parse_spec. rewrite trim_no_white by exact NW.
  rewrite (neqb ("!"%char :: t) ($"**")), (neqb ("!"%char :: t) ($"*")) by discriminate.
  rewrite (neqb ("!"%char :: t) ($"!**")), (neqb ("!"%char :: t) ($"!*")) by (intro Q; injection Q as Q; auto).
  rewrite (neqb t []) by exact NE. cbn [orb]. apply has_white_no in N. rewrite N. reflexivity.
Qed.
Lemma push_tags : forall ts acc, Forall (fun s => exists t, s = Tag t) acc -> fold_left push (map Tag ts) acc = acc ++ map Tag ts.
Proof.
  induction ts as [|t ts IH]; intros acc F; cbn [map fold_left]; [rewrite app_nil_r; reflexivity|].
  assert (P : push acc (Tag t) = acc ++ [Tag t]).
  { destruct acc as [|x acc _] using rev_ind; [reflexivity|]. apply Forall_app in F as [_ F]. inversion F as [|? ? (u & ->) _]. unfold push. rewrite map_app. cbn [map]. rewrite last_last. reflexivity. }
  rewrite P, IH; [rewrite <- app_assoc; reflexivity|]. apply Forall_app. split; [exact F|]. constructor; [eauto|constructor].
Qed.
Lemma push_nots : forall ts acc, Forall (fun s => exists t, s = AllLinesExcl t) acc -> fold_left push (map AllLinesExcl ts) acc = acc ++ map AllLinesExcl ts.
Proof.
  induction ts as [|t ts IH]; intros acc F; cbn [map fold_left]; [rewrite app_nil_r; reflexivity|].
  assert (P : push acc (AllLinesExcl t) = acc ++ [AllLinesExcl t]).
  { destruct acc as [|x acc _] using rev_ind; [reflexivity|]. apply Forall_app in F as [_ F]. inversion F as [|? ? (u & ->) _]. unfold push. rewrite map_app. cbn [map]. rewrite last_last. reflexivity. }
  rewrite P, IH; [rewrite <- app_assoc; reflexivity|]. apply Forall_app. split; [exact F|]. constructor; [eauto|constructor].
Qed.
Lemma parse_names sep names : sep_text sep -> names <> [] -> Forall tag_name names -> parse_selection (join_byte sep names) = map Tag names.
Proof.
  intros S NE F. rewrite parse_items; [|exact S|exact NE|eapply Forall_impl; [|exact F]; apply name_item].
  replace (flat_map _ names) with (map Tag names); [apply (push_tags names []); constructor|]. clear NE. induction F as [|t ts T F IH]; [reflexivity|]. cbn [flat_map map]. rewrite parse_name by exact T. cbn [app]. f_equal. exact IH.
Qed.
Lemma parse_nots sep names : sep_text sep -> names <> [] -> Forall tag_name names -> parse_selection (join_byte sep (map (cons "!"%char) names)) = map AllLinesExcl names.
Proof.
  intros S NE F. rewrite parse_items; [|exact S|destruct names; [congruence|discriminate]|apply Forall_map; eapply Forall_impl; [|exact F]; apply not_item].
  replace (flat_map _ (map (cons "!"%char) names)) with (map AllLinesExcl names); [apply (push_nots names []); constructor|]. clear NE. induction F as [|t ts T F IH]; [reflexivity|]. cbn [flat_map map]. rewrite parse_not by exact T. cbn [app]. f_equal. exact IH.
Qed.
Lemma parse_two sep x y a c : sep_text sep -> item x -> item y -> parse_spec x = Some a -> parse_spec y = Some c -> parse_selection (x ++ sep :: y) = push (push [] a) c.
Proof.
  intros S I J X Y. change (x ++ sep :: y) with (join_byte sep [x; y]). rewrite parse_items; [|exact S|discriminate|repeat constructor; apply I || apply J].
  cbn [flat_map]. rewrite X, Y. reflexivity.
Qed.
(** ** The stack of open tags *)
Lemma contains_spec t st : contains t st = true <-> In t (map fst st).
Proof. unfold contains. rewrite existsb_exists, in_map_iff. split; intros ((u & i) & A & B); cbn [fst] in *; [apply bytes_eqb_eq in B; exists (u, i); auto|]. exists (u, i). subst. cbn [fst]. split; [exact B|apply bytes_eqb_refl]. Qed.
Lemma contains_not t st : negb (contains t st) = true <-> ~ In t (map fst st).
Proof. rewrite negb_true_iff, <- contains_spec. destruct (contains t st); split; congruence. Qed.
Lemma last_is_spec t st : last_is t st = true <-> exists r, map fst st = t :: r.
Proof. destruct st as [|(u, i) st]; cbn; [split; [discriminate|intros (r & E); discriminate]|]. rewrite bytes_eqb_eq. split; [intros ->; eauto|]. intros (r & E). injection E as -> _. reflexivity. Qed.
Lemma none_spec st : none_open st = true <-> map fst st = [].
Proof. destruct st; cbn; split; congruence. Qed.
Lemma some_spec st : negb (none_open st) = true <-> map fst st <> [].
Proof. destruct st; cbn; split; congruence. Qed.
Lemma one_selected sp st : selected [sp] st = satisfied_by sp st.
Proof. unfold selected. destruct sp; cbn [strategy_all forallb is_excl existsb andb]; rewrite ?andb_true_r, ?orb_false_r; reflexivity. Qed.
Definition selects (sel : list tspec) (P : list bytes -> Prop) : Prop := forall st, selected sel st = true <-> P (map fst st).
Lemma wild_item x : In x [$"*"; $"!*"; $"**"; $"!**"] -> item x.
Proof.
  intro I. apply free_item; cbn in I; repeat (destruct I as [<-|I]); try contradiction; try (cbn; intuition discriminate).
  - apply (no_white_app [] "*"%char []); cbn; auto 8 using no_white_nil.
  - apply (no_white_app [] "!"%char ["*"%char]); cbn; auto 8 using no_white_nil. apply (no_white_app [] "*"%char []); cbn; auto 8 using no_white_nil.
  - apply (no_white_app [] "*"%char ["*"%char]); cbn; auto 8 using no_white_nil. apply (no_white_app [] "*"%char []); cbn; auto 8 using no_white_nil.
  - apply (no_white_app [] "!"%char ["*"%char; "*"%char]); cbn; auto 8 using no_white_nil. apply (no_white_app [] "*"%char ["*"%char]); cbn; auto 8 using no_white_nil. apply (no_white_app [] "*"%char []); cbn; auto 8 using no_white_nil.
Qed.
Lemma means_selects s P : means s P -> selects (parse_selection s) P.
Proof.
  intros M st. destruct M as [| | | |sep names S NE F|sep names S NE F|sep t n S T N|sep t S T|sep n S N|sep t S T|sep n S N].
  - change (parse_selection ($"**")) with [AllNonTagDirectiveLines]. rewrite one_selected. cbn. tauto.
  - change (parse_selection ($"!**")) with [NoLines]. rewrite one_selected. cbn. split; [discriminate|tauto].
  - change (parse_selection ($"*")) with [AllTaggedRegions]. rewrite one_selected. cbn [satisfied_by]. apply some_spec.
  - change (parse_selection ($"!*")) with [AllUntaggedRegions]. rewrite one_selected. cbn [satisfied_by]. apply none_spec.
  - rewrite parse_names by assumption. unfold selected. replace (strategy_all (map Tag names)) with false by (destruct names; [congruence|reflexivity]).
    rewrite existsb_exists. split.
    + intros (x & I & C). apply in_map_iff in I as (t & <- & I). cbn [satisfied_by] in C. apply contains_spec in C. eauto.
    + intros (t & I & C). exists (Tag t). split; [apply in_map, I|]. cbn [satisfied_by]. apply contains_spec, C.
  - rewrite parse_nots by assumption. unfold selected. replace (strategy_all (map AllLinesExcl names)) with true.
    + rewrite forallb_forall. split.
      * intros H t I. apply contains_not. exact (H (AllLinesExcl t) (in_map AllLinesExcl _ _ I)).
      * intros H x I. apply in_map_iff in I as (t & <- & I). cbn [satisfied_by]. apply contains_not, H, I.
    + destruct names as [|t ts]; [congruence|]. cbn [map strategy_all]. symmetry. apply forallb_forall. intros x I. change (AllLinesExcl t :: map AllLinesExcl ts) with (map AllLinesExcl (t :: ts)) in I. apply in_map_iff in I as (u & <- & _). reflexivity.
  - rewrite (parse_two sep t _ (Tag t) (AllLinesExcl n)); auto using name_item, not_item, parse_name, parse_not. change (push (push [] (Tag t)) (AllLinesExcl n)) with [TagExclNested t n].
    rewrite one_selected. cbn [satisfied_by]. rewrite andb_true_iff, contains_spec, contains_not. reflexivity.
  - rewrite (parse_two sep t _ (Tag t) AllUntaggedRegions); auto using name_item, parse_name; [|apply wild_item; cbn; auto]. change (push (push [] (Tag t)) AllUntaggedRegions) with [TagExclAllNested t].
    rewrite one_selected. apply last_is_spec.
  - rewrite (parse_two sep _ _ AllTaggedRegions (AllLinesExcl n)); auto using not_item, parse_not; [|apply wild_item; cbn; auto]. change (push (push [] AllTaggedRegions) (AllLinesExcl n)) with [AllTaggedExcl n].
    rewrite one_selected. cbn [satisfied_by]. rewrite andb_true_iff, some_spec, contains_not. reflexivity.
  - rewrite (parse_two sep _ _ AllUntaggedRegions (Tag t)); auto using name_item, parse_name; [|apply wild_item; cbn; auto]. change (push (push [] AllUntaggedRegions) (Tag t)) with [AllUntaggedIncl t].
    rewrite one_selected. cbn [satisfied_by]. rewrite orb_true_iff, none_spec, last_is_spec. reflexivity.
  - rewrite (parse_two sep _ _ AllNonTagDirectiveLines (AllLinesExcl n)); auto using not_item, parse_not; [|apply wild_item; cbn; auto].
    change (push (push [] AllNonTagDirectiveLines) (AllLinesExcl n)) with [AllNonTagDirectiveLines; AllLinesExcl n]. unfold selected. cbn [strategy_all forallb satisfied_by andb]. rewrite andb_true_r. apply contains_not.
Qed.
(** ** The loop *)
Lemma loop_nested word sel P : selects sel P -> forall path ls res, nested word path ls res -> Forall utf8 ls -> forall all idx st ex rest, map fst st = path ->
  exists out kept ex', those P res kept /\ visible out = visible kept /\
    tag_loop word sel all idx st ex (ls ++ rest) =
      let '(out2, ne2, ps2, st2, ex2) := tag_loop word sel all (idx + length ls) st ex' rest in
      (out ++ out2, existsb (fun l => negb (bytes_eqb l [])) kept || ne2, ps2, st2, ex2).
Proof.
  intros HS path ls res N. induction N as [path|path l ls res PL N IH|path s t body e rst r1 r2 DS N1 IH1 DE N2 IH2]; intros U all idx st ex rest EP.
  - exists [], [], ex. split; [constructor|]. split; [reflexivity|]. cbn [app length existsb orb]. rewrite Nat.add_0_r. destruct (tag_loop _ _ _ _ _ _ _) as [[[[? ?] ?] ?] ?]. reflexivity.
  - inversion U as [|? ? UL U']. subst. destruct (IH U' all (S idx) st ex rest eq_refl) as (out & kept & ex' & T & V & E). apply plain_spec in PL; [|exact UL].
    cbn [app tag_loop]. rewrite PL, E. cbn [length]. replace (idx + S (length ls)) with (S idx + length ls) by lia. destruct (selected sel st) eqn:Q.
    + apply HS in Q. exists (l :: out), (l :: kept), ex'. split; [constructor; assumption|]. split; [unfold visible in *; cbn [filter]; rewrite V; reflexivity|].
      clear E; destruct (tag_loop word sel all (S idx + length ls) st ex' rest) as [[[[? ?] ?] ?] ?]. cbn [app existsb]. assert (R : forall a b c, (a || b) || c = (c || a) || b) by (intros [] [] []; reflexivity). rewrite R. reflexivity.
    + exists out, kept, ex'. split; [constructor; [rewrite <- (HS st); congruence|exact T]|]. split; [exact V|]. clear E; destruct (tag_loop word sel all (S idx + length ls) st ex' rest) as [[[[? ?] ?] ?] ?]. reflexivity.
  - inversion U as [|? ? US U']. subst. apply Forall_app in U' as [UB U']. inversion U' as [|? ? UE UR]. subst.
    apply (directive_spec word s Opens t US) in DS. apply (directive_spec word e Closes t UE) in DE. cbn [mk] in DS, DE.
    destruct (IH1 UB all (S idx) ((t, idx) :: st) (filter (fun e => negb (bytes_eqb e t)) ex) (e :: rst ++ rest) eq_refl) as (o1 & k1 & x1 & T1 & V1 & E1).
    destruct (IH2 UR all (S (S idx + length body)) st x1 rest eq_refl) as (o2 & k2 & x2 & T2 & V2 & E2).
    exists (marker :: o1 ++ marker :: o2), (k1 ++ k2), x2. split; [|split].
    + clear - T1 T2. induction T1 as [|? ? ? ? H T IH|? ? ? ? H T IH]; cbn [app]; [exact T2|apply T_keep; assumption|apply T_drop; assumption].
    + unfold visible in *. assert (M : starts_with ($"asciidorkinclude::") marker = true) by reflexivity. cbn [filter]. rewrite M. cbn [negb]. rewrite !filter_app. cbn [filter]. rewrite M. cbn [negb]. rewrite V1, V2. reflexivity.
    + cbn [app tag_loop]. rewrite DS, <- app_assoc. cbn [app]. rewrite E1. cbn [tag_loop]. rewrite DE. unfold last_is at 1 2. rewrite bytes_eqb_refl. cbn [tl]. rewrite E2.
      replace (idx + length (s :: body ++ e :: rst)) with (S (S idx + length body) + length rst) by (cbn [length]; rewrite app_length; cbn [length]; lia).
      destruct (tag_loop _ _ _ _ _ _ rest) as [[[[? ?] ?] ?] ?]. cbn [app]. rewrite existsb_app, <- app_assoc, orb_assoc. reflexivity.
Qed.
Lemma utf8_lines ls : utf8 (join_byte newline ls) -> Forall utf8 ls.
Proof.
  induction ls as [|l ls IH]; intro U; [constructor|]. destruct ls as [|m ls]; [constructor; [exact U|constructor]|].
  change (join_byte newline (l :: m :: ls)) with (l ++ newline :: join_byte newline (m :: ls)) in U. constructor.
  - eapply ascii_head_utf8; [exact U|reflexivity].
  - apply IH. change (newline :: join_byte newline (m :: ls)) with ([newline] ++ join_byte newline (m :: ls)) in U. rewrite app_assoc in U.
    apply (utf8_after_ascii l newline (join_byte newline (m :: ls))); [rewrite <- app_assoc in U; exact U|reflexivity].
Qed.
Lemma those_sub P res kept : those P res kept -> forall l, In l kept -> exists path, In (path, l) res.
Proof. induction 1 as [|path l res kept H T IH|path l res kept H T IH]; intros m I; [destruct I| |]; [destruct I as [<-|I]; [exists path; left; reflexivity|]|]; destruct (IH _ I) as (p & J); exists p; right; exact J. Qed.
Lemma nested_sub word path ls res : nested word path ls res -> forall p l, In (p, l) res -> In l ls.
Proof.
  induction 1 as [path|path l ls res PL N IH|path s t body e rst r1 r2 DS N1 IH1 DE N2 IH2]; intros p m I; [destruct I| |].
  - destruct I as [E|I]; [injection E as _ ->; left; reflexivity|right; eauto].
  - right. apply in_or_app. apply in_app_or in I as [I|I]; [left; eauto|right; right; eauto].
Qed.
Lemma visible_all ls : (forall l, In l ls -> starts_with ($"asciidorkinclude::") l = false) -> visible ls = ls.
Proof. unfold visible. induction ls as [|l ls IH]; intro H; [reflexivity|]. cbn [filter]. rewrite (H l) by (left; reflexivity). cbn [negb]. f_equal. apply IH. intros m I. apply H. right. exact I. Qed.
Lemma filter_true_all {A} (f : A -> bool) l : forallb f l = true -> filter f l = l.
Proof. induction l as [|x l IH]; intro H; [reflexivity|]. cbn in *. apply andb_prop in H as [H1 H2]. rewrite H1. f_equal. auto. Qed.
(** what is left of the expected tags *)
Lemma loop_expected word sel all : forall lines idx st ex out ne ps st' ex',
  tag_loop word sel all idx st ex lines = (out, ne, ps, st', ex') ->
  forall t, In t ex' <-> In t ex /\ forall l, In l lines -> tag_directive word [] l <> Some (Start t).
Proof.
  induction lines as [|l lines IH]; intros idx st ex out ne ps st' ex' E t.
  - cbn in E. injection E as _ _ _ _ <-. split; [intro I; split; [exact I|intros ? []]|tauto].
  - cbn [tag_loop] in E. destruct (tag_directive word [] l) as [[u|u]|] eqn:D.
    + destruct (tag_loop _ _ _ _ _ _ _) as [[[[o1 n1] p1] s1] e1] eqn:Q. injection E as _ _ _ _ <-. rewrite (IH _ _ _ _ _ _ _ _ Q t), filter_In, negb_true_iff. split.
      * intros [[I B] H]. split; [exact I|]. intros m [<-|J]; [rewrite D; intro X; injection X as ->; rewrite bytes_eqb_refl in B; discriminate|auto].
      * intros [I H]. split; [split; [exact I|]|intros m J; apply H; right; exact J]. apply neqb. intros ->. apply (H l); [left; reflexivity|exact D].
    + destruct (tag_loop _ _ _ _ _ _ _) as [[[[o1 n1] p1] s1] e1] eqn:Q. injection E as _ _ _ _ <-. rewrite (IH _ _ _ _ _ _ _ _ Q t). split; intros [I H]; (split; [exact I|]).
      * intros m [<-|J]; [rewrite D; discriminate|auto].
      * intros m J. apply H. right. exact J.
    + destruct (tag_loop _ _ _ _ _ _ _) as [[[[o1 n1] p1] s1] e1] eqn:Q. assert (X : e1 = ex') by (destruct (selected sel st); congruence). subst e1. rewrite (IH _ _ _ _ _ _ _ _ Q t). split; intros [I H]; (split; [exact I|]).
      * intros m [<-|J]; [rewrite D; discriminate|auto].
      * intros m J. apply H. right. exact J.
Qed.
Lemma insert_in x l y : In y (insert x l) <-> y = x \/ In y l.
Proof.
  induction l as [|z l IH]; cbn [insert]; [cbn; intuition auto|]. destruct (bytes_eqb x z) eqn:E; [apply bytes_eqb_eq in E; subst; cbn; intuition auto|].
  destruct (bytes_leb x z); cbn [In]; [intuition auto|]. rewrite IH. intuition auto.
Qed.
Lemma sorted_set_in l y : In y (sorted_set l) <-> In y l.
Proof. induction l as [|x l IH]; cbn [sorted_set fold_right]; [reflexivity|]. fold (sorted_set l). rewrite insert_in, IH. cbn. intuition auto. Qed.
Lemma bytes_leb_total x y : bytes_leb x y = false -> bytes_leb y x = true.
Proof.
  revert y. induction x as [|a x IH]; intros [|c y]; cbn; try discriminate; try reflexivity. rewrite N.eqb_sym. destruct (val c =? val a)%N eqn:E; [apply IH|].
  intro H. apply N.ltb_ge in H. apply N.ltb_lt. apply N.eqb_neq in E. lia.
Qed.
Definition le (x y : bytes) : Prop := bytes_leb x y = true.
Lemma insert_sorted x l : Sorted (fun a c => le a c /\ a <> c) l -> Sorted (fun a c => le a c /\ a <> c) (insert x l).
Proof.
  induction l as [|z l IH]; cbn [insert]; intro S; [repeat constructor|]. destruct (bytes_eqb x z) eqn:E; [exact S|].
  assert (XZ : x <> z) by (intros ->; rewrite bytes_eqb_refl in E; discriminate). destruct (bytes_leb x z) eqn:L; [constructor; [exact S|constructor; split; assumption]|].
  inversion S as [|? ? S' H]. subst. constructor; [apply IH, S'|]. destruct l as [|w l]; cbn [insert]; [constructor; split; [apply bytes_leb_total, L|congruence]|].
  destruct (bytes_eqb x w) eqn:E2; [inversion H; constructor; assumption|]. destruct (bytes_leb x w); [constructor; split; [apply bytes_leb_total, L|congruence]|inversion H; constructor; assumption].
Qed.
Lemma sorted_set_sorted l : Sorted (fun a c => le a c /\ a <> c) (sorted_set l).
Proof. induction l as [|x l IH]; cbn [sorted_set fold_right]; [constructor|]. apply insert_sorted, IH. Qed.
Lemma le_precedes : forall x y, le x y -> x <> y -> precedes x y.
Proof.
  unfold le. induction x as [|a x IH]; intros [|c y] L NE; try congruence; try discriminate.
  - exists []. left. split; [reflexivity|]. exists c, y. reflexivity.
  - cbn in L. destruct (val a =? val c)%N eqn:E.
    + apply N.eqb_eq in E. assert (a = c) as <- by (rewrite <- (ascii_N_embedding a), <- (ascii_N_embedding c); unfold val in E; rewrite E; reflexivity).
      destruct (IH y L) as (p & H); [congruence|]. exists (a :: p). destruct H as [(-> & d & r & ->)|(d & u & e & v & -> & -> & H)]; [left; split; [reflexivity|]; exists d, r; reflexivity|].
      right. exists d, u, e, v. auto.
    + apply N.ltb_lt in L. exists []. right. exists a, x, c, y. auto.
Qed.
Lemma sorted_set_ascending l : Sorted precedes (sorted_set l).
Proof.
  pose proof (sorted_set_sorted l) as S. induction S as [|x r S IH H]; constructor; [exact IH|]. inversion H as [|y r' [L N]]; constructor. apply le_precedes; assumption.
Qed.
