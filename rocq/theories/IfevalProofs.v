(** Proofs about ifeval. *)
From Verif Require Import Base Text Utf8 LexerModel LexerSpec LexerProofs RootModel AttrsModel TagsProofs IfdefModel IfdefSpec IfdefProofs AttrRefsModel IfevalModel IfevalSpec.
From Coq Require Import Lia ZArith.

Lemma bytes_compare_spec x : forall y,
  match bytes_compare x y with Eq => x = y | Lt => text_less x y | Gt => text_less y x end.
Proof.
  assert (CONS : forall c x y, text_less x y -> text_less (c :: x) (c :: y)).
  { intros c x0 y0 (p & [(d & r & -> & ->)|(d & e & r & r' & -> & -> & L)]); exists (c :: p); [left; exists d, r; split; reflexivity|right; exists d, e, r, r'; repeat split; exact L]. }
  induction x as [|a x IH]; intros [|c y]; cbn [bytes_compare]; [reflexivity|exists []; left; exists c, y; split; reflexivity|exists []; left; exists a, x; split; reflexivity|].
  destruct (N.compare_spec (N_of_ascii a) (N_of_ascii c)) as [E|L|L].
  - assert (a = c) by (rewrite <- (ascii_N_embedding a), <- (ascii_N_embedding c), E; reflexivity). subst c. specialize (IH y).
    destruct (bytes_compare x y); [congruence|apply CONS, IH|apply CONS, IH].
  - exists []. right. exists a, c, x, y. repeat split. exact L.
  - exists []. right. exists c, a, y, x. repeat split. exact L.
Qed.
Lemma text_less_irrefl_asym x y : text_less x y -> x <> y /\ ~ text_less y x.
Proof.
  intro H. assert (A : bytes_compare x y = Lt /\ bytes_compare y x = Gt).
  { destruct H as (p & [(c & r & -> & ->)|(c & d & r & r' & -> & -> & L)]).
    - induction p as [|a p [I1 I2]]; [split; reflexivity|]. cbn [app bytes_compare]. rewrite N.compare_refl. auto.
    - induction p as [|a p [I1 I2]].
      + cbn [app bytes_compare]. unfold val in L. rewrite N.compare_antisym with (n := N_of_ascii c). apply N.compare_lt_iff in L. rewrite L. split; reflexivity.
      + cbn [app bytes_compare]. rewrite N.compare_refl. auto. }
  destruct A as [A1 A2]. assert (R : forall z, bytes_compare z z = Eq) by (induction z as [|a z IH]; [reflexivity|]; cbn; rewrite N.compare_refl; exact IH).
  split; [intros ->; rewrite R in A1; discriminate|].
  intros (p & [(c & r & -> & ->)|(c & d & r & r' & -> & -> & L)]); clear H A1.
  - assert (X : bytes_compare p (p ++ c :: r) = Lt) by (induction p as [|a p IH]; [reflexivity|]; cbn [app bytes_compare]; rewrite N.compare_refl; apply IH; cbn [app bytes_compare] in A2; rewrite N.compare_refl in A2; exact A2). congruence.
  - assert (X : bytes_compare (p ++ c :: r) (p ++ d :: r') = Lt).
    { induction p as [|a p IH]; [|cbn [app bytes_compare]; rewrite N.compare_refl; apply IH; cbn [app bytes_compare] in A2; rewrite N.compare_refl in A2; exact A2].
      cbn [app bytes_compare]. unfold val in L. apply N.compare_lt_iff in L. rewrite L. reflexivity. }
    congruence.
Qed.
Lemma eqb_false x y : bytes_eqb x y = false -> x <> y.
Proof. intros H ->. rewrite bytes_eqb_refl in H. discriminate. Qed.
Section F.
Variable F : floats.
Lemma int_eval o x y : eval (F := F) (VInt x) o (VInt y) = true <-> int_rel o x y.
Proof. unfold eval. destruct (Z.compare_spec x y); destruct o; cbn; intuition (try discriminate; try lia). Qed.
Lemma text_eval o x y : eval (F := F) (VStr x) o (VStr y) = true <-> text_rel o x y.
Proof.
  unfold eval. pose proof (bytes_compare_spec x y) as S0. pose proof (text_less_irrefl_asym x y) as A1. pose proof (text_less_irrefl_asym y x) as A2.
  destruct (bytes_compare x y); destruct o; cbn; intuition (try discriminate; try congruence).
  all: subst; intuition congruence.
Qed.
Lemma float_eval o x y : eval (F := F) (VFloat x) o (VFloat y) = true <-> float_rel o x y.
Proof. unfold eval, float_rel. destruct (fcmp F x y) as [[]|]; destruct o; cbn; intuition (try discriminate; try congruence). Qed.
Lemma op_opposite o c : op_holds (opposite o) (Some c) = negb (op_holds o (Some c)).
Proof. destruct o, c; reflexivity. Qed.
Lemma eval_opposite (x y : value F) o : comparable x y -> eval x (opposite o) y = negb (eval x o y).
Proof.
  destruct x, y; cbn [comparable]; try contradiction; intro C; cbn [eval]; try apply op_opposite.
  destruct (fcmp F x x0) as [c|]; [apply op_opposite|congruence].
Qed.

(** ** operands *)
Lemma digits_lit bound ds n : ds <> [] ->
  (match ds with [] => None | _ => match digits_value 0 ds with Some n => if (n <? bound)%N then Some n else None | None => None end end) = Some n <->
  Forall Text.digit ds /\ n = Text.value ds /\ (n < bound)%N.
Proof.
  intro NE. destruct ds as [|d ds]; [congruence|]. set (l := d :: ds) in *. destruct (digits_value 0 l) as [m|] eqn:E.
  - apply digits_value_spec in E as [FA ->]. fold (Text.value l). destruct (N.ltb_spec (Text.value l) bound).
    + split; [intro H'; injection H' as <-; auto|intros (_ & -> & _); reflexivity].
    + split; [discriminate|]. intros (_ & -> & L). lia.
  - split; [discriminate|]. intros (FA & -> & _). assert (digits_value 0 l = Some (Text.value l)) by (apply digits_value_spec; auto). congruence.
Qed.
Lemma not_digit_sign c : Text.digit c -> c <> "-"%char /\ c <> "+"%char.
Proof. unfold Text.digit. cbn. intuition (subst; discriminate). Qed.
Lemma parse_isize_spec s n : parse_isize s = Some n <-> int_literal s n.
Proof.
  unfold parse_isize, int_literal. cbv zeta. destruct s as [|c r].
  { split; [discriminate|]. intros (sign & ds & E & NE & _). destruct sign, ds; try discriminate. congruence. }
  destruct (Ascii.eqb_spec c "-"%char) as [->|NM].
  - split.
    + intro H. match type of H with option_map _ ?m = _ => destruct m as [k|] eqn:E; [|discriminate] end. injection H as <-.
      destruct r as [|d r]; [discriminate|]. apply (digits_lit _ (d :: r) k) in E; [|discriminate]. destruct E as (FA & -> & L).
      exists ($"-"), (d :: r). repeat split; try assumption; try discriminate; [right; auto|unfold isize_bound in L; lia|unfold isize_bound in L; lia].
    + intros (sign & ds & E & NE & FA & SG & R). destruct SG as [[[->| ->] _]|[-> ->]]; cbn in E.
      * subst ds. inversion FA as [|? ? D]; subst. destruct (not_digit_sign _ D); congruence.
      * discriminate.
      * injection E as ->. rewrite (proj2 (digits_lit (isize_bound + 1)%N ds (Text.value ds) NE)); [reflexivity|]. repeat split; [exact FA|unfold isize_bound; lia].
  - destruct (Ascii.eqb_spec c "+"%char) as [->|NP].
    + split.
      * intro H. match type of H with option_map _ ?m = _ => destruct m as [k|] eqn:E; [|discriminate] end. injection H as <-.
        destruct r as [|d r]; [discriminate|]. apply (digits_lit _ (d :: r) k) in E; [|discriminate]. destruct E as (FA & -> & L).
        exists ($"+"), (d :: r). repeat split; try assumption; try discriminate; [left; auto|unfold isize_bound in L; lia|unfold isize_bound in L; lia].
      * intros (sign & ds & E & NE & FA & SG & R). destruct SG as [[[->| ->] ->]|[-> _]]; cbn in E.
        -- subst ds. inversion FA as [|? ? D]; subst. destruct (not_digit_sign _ D); congruence.
        -- injection E as ->. rewrite (proj2 (digits_lit isize_bound ds (Text.value ds) NE)); [reflexivity|]. repeat split; [exact FA|unfold isize_bound; lia].
        -- discriminate.
    + split.
      * intro H. match type of H with option_map _ ?m = _ => destruct m as [k|] eqn:E; [|discriminate] end. injection H as <-.
        apply (digits_lit _ (c :: r) k) in E; [|discriminate]. destruct E as (FA & -> & L).
        exists [], (c :: r). repeat split; try assumption; try discriminate; [left; auto|unfold isize_bound in L; lia|unfold isize_bound in L; lia].
      * intros (sign & ds & E & NE & FA & SG & R). destruct SG as [[[->| ->] ->]|[-> _]]; cbn in E; try (injection E as E' _; congruence).
        subst ds. rewrite (proj2 (digits_lit isize_bound (c :: r) (Text.value (c :: r)) NE)); [reflexivity|]. repeat split; [exact FA|unfold isize_bound; lia].
Qed.
Lemma ascii_ws_blank c : ascii_ws c = true <-> blank_byte c.
Proof. rewrite asciiws_same. unfold blank_byte. apply in_list_In. Qed.
Lemma all_blank s : forallb ascii_ws s = true <-> Forall blank_byte s.
Proof. rewrite forallb_forall, Forall_forall. split; intros H c I; apply ascii_ws_blank, H, I. Qed.
Lemma quoted_spec q s : starts_with [q] s && ends_with s [q] = true <-> s = [q] \/ exists t, s = q :: t ++ [q].
Proof.
  rewrite andb_true_iff, starts_with_spec. split.
  - intros [(r & ->) E]. apply ends_with_spec in E as (p & E). destruct p as [|a p]; cbn in E; [left; exact E|].
    injection E as -> E. right. exists p. cbn. rewrite E. reflexivity.
  - intros [->|(t & ->)]; (split; [eexists; reflexivity|]); [apply (ends_with_app [] [q])|apply (ends_with_app (q :: t) [q])].
Qed.
Definition is_quoted (s : bytes) : bool :=
  (starts_with ["'"%char] s && ends_with s ["'"%char]) || (starts_with [ch 34] s && ends_with s [ch 34]).
Lemma is_quoted_spec s : is_quoted s = true <-> exists q, quote_mark q /\ (s = [q] \/ exists t, s = q :: t ++ [q]).
Proof.
  unfold is_quoted. rewrite orb_true_iff, !quoted_spec. unfold quote_mark, quote, ch. split.
  - intros [H|H]; eauto.
  - intros (q & [->| ->] & H); auto.
Qed.
Lemma quote_not_int q s n : quote_mark q -> ~ int_literal (q :: s) n.
Proof.
  intros Q (sign & ds & E & NE & FA & SG & _). destruct SG as [[[->| ->] _]|[-> _]]; cbn in E.
  - subst ds. inversion FA as [|? ? D]; subst. destruct Q as [->| ->]; unfold Text.digit in D; cbn in D; intuition discriminate.
  - injection E as -> _. destruct Q; discriminate.
  - injection E as -> _. destruct Q; discriminate.
Qed.
Lemma blank_not_int c s n : blank_byte c -> ~ int_literal (c :: s) n.
Proof.
  intros Q (sign & ds & E & NE & FA & SG & _). destruct SG as [[[->| ->] _]|[-> _]]; cbn in E.
  - subst ds. inversion FA as [|? ? D]; subst. unfold blank_byte in Q. cbn in Q. unfold Text.digit in D. cbn in D. intuition (subst; discriminate).
  - injection E as -> _. unfold blank_byte in Q. cbn in Q. intuition discriminate.
  - injection E as -> _. unfold blank_byte in Q. cbn in Q. intuition discriminate.
Qed.
Lemma parse_none s : parse_isize s = None <-> forall n, ~ int_literal s n.
Proof.
  split.
  - intros H n I. apply parse_isize_spec in I. congruence.
  - intro H. destruct (parse_isize s) as [n|] eqn:E; [|reflexivity]. apply parse_isize_spec in E. destruct (H n E).
Qed.
(** what the code does, in one line per case *)
Lemma coerce_cases s : s <> $"true" -> s <> $"false" -> s <> [] -> coerce_text F s =
  match parse_isize s with Some n => Ret (VInt n) | None => match fparse F s with Some x => Ret (VFloat x) | None =>
    if is_quoted s then if length s <? 2 then Panic else Ret (VStr (firstn (length s - 2) (skipn 1 s)))
    else if forallb ascii_ws s then Ret (VStr ($" ")) else Ret (VInt 0%Z) end end.
Proof.
  intros N1 N2 N3. unfold coerce_text. rewrite (neqb _ _ N1), (neqb _ _ N2). destruct s; [congruence|]. reflexivity.
Qed.
Lemma coerce_literal s v : ordinary_floats F -> literal F s v -> coerce_text F s = Ret v.
Proof.
  intros OF H. inversion H as [| | |? n I|? x I N1 N2 N3 P|q t Q|? N B|? I N1 N2 N3 P NQ NL NB]; subst; try reflexivity.
  - rewrite coerce_cases.
    + apply parse_isize_spec in I. rewrite I. reflexivity.
    + intros ->. apply parse_isize_spec in I. discriminate.
    + intros ->. apply parse_isize_spec in I. discriminate.
    + intros ->. apply parse_isize_spec in I. discriminate.
  - rewrite coerce_cases by assumption. apply parse_none in I. rewrite I, P. reflexivity.
  - assert (QF : forall c r, q :: t ++ [q] = c :: r -> quote_mark c) by (intros c r E; injection E as <- _; exact Q).
    rewrite coerce_cases; [|intro E; destruct (QF _ _ E); discriminate|intro E; destruct (QF _ _ E); discriminate|discriminate].
    rewrite (proj2 (parse_none _)) by (intro n; apply quote_not_int, Q). rewrite (OF q (t ++ [q]) (or_introl Q)).
    rewrite (proj2 (is_quoted_spec _)) by (exists q; eauto). cbn [length skipn]. rewrite app_length. cbn [length].
    destruct (Nat.ltb_spec (S (length t + 1)) 2) as [L|_]; [lia|]. replace (S (length t + 1) - 2) with (length t) by lia. rewrite firstn_pre. reflexivity.
  - destruct s as [|c s]; [congruence|]. inversion B as [|? ? Bc]; subst.
    rewrite coerce_cases; [|intros E; injection E as -> _; unfold blank_byte in Bc; cbn in Bc; intuition discriminate|intros E; injection E as -> _; unfold blank_byte in Bc; cbn in Bc; intuition discriminate|discriminate].
    rewrite (proj2 (parse_none _)) by (intro n; apply blank_not_int, Bc). rewrite (OF c s (or_intror Bc)).
    replace (is_quoted (c :: s)) with false; [rewrite (proj2 (all_blank _) B); reflexivity|].
    symmetry. apply not_true_iff_false. intro Q. apply is_quoted_spec in Q as (q & Q & E). assert (c = q) by (destruct E as [E|(t & E)]; congruence). subst q.
    unfold blank_byte in Bc. cbn in Bc. destruct Q as [->| ->]; intuition discriminate.
  - rewrite coerce_cases by assumption. apply parse_none in I. rewrite I, P. replace (is_quoted s) with false.
    + replace (forallb ascii_ws s) with false; [reflexivity|]. symmetry. apply not_true_iff_false. rewrite all_blank. exact NB.
    + symmetry. apply not_true_iff_false. intro Q. apply is_quoted_spec in Q as (q & Q & [E|(t & E)]); [exact (NL q Q E)|exact (NQ q t Q E)].
Qed.
Lemma literal_total s : (exists q, quote_mark q /\ s = [q]) \/ exists v, literal F s v.
Proof.
  destruct (bytes_eqb s ($"true")) eqn:E1; [apply bytes_eqb_eq in E1; subst; right; eexists; constructor|].
  destruct (bytes_eqb s ($"false")) eqn:E2; [apply bytes_eqb_eq in E2; subst; right; eexists; constructor|].
  apply eqb_false in E1, E2. destruct (list_eq_dec ascii_dec s []) as [->|N3]; [right; eexists; constructor|].
  destruct (parse_isize s) as [n|] eqn:P; [apply parse_isize_spec in P; right; eexists; apply L_int, P|]. pose proof (proj1 (parse_none s) P) as P0. clear P. rename P0 into P.
  destruct (fparse F s) as [x|] eqn:FP; [right; eexists; apply L_float; eassumption|].
  destruct (is_quoted s) eqn:Q.
  - apply is_quoted_spec in Q as (q & Q & [->|(t & ->)]); [left; eauto|right; eexists; apply L_quoted, Q].
  - destruct (forallb ascii_ws s) eqn:B; [apply all_blank in B; right; eexists; apply L_blank; assumption|].
    right. eexists. apply L_other; try assumption.
    + intros q t QM E. apply not_true_iff_false in Q. apply Q, is_quoted_spec. exists q. eauto.
    + intros q QM E. apply not_true_iff_false in Q. apply Q, is_quoted_spec. exists q. auto.
    + intro H. apply all_blank in H. congruence.
Qed.

(** ** the line *)
Lemma skip_spaces_of n s : (forall t, s <> " "%char :: t) -> skip_spaces (repeat " "%char n ++ s) = s.
Proof.
  intro N. induction n as [|n IH]; [|exact IH]. destruct s as [|c t]; [reflexivity|]. cbn. destruct (Ascii.eqb_spec c " "%char) as [->|]; [destruct (N t eq_refl)|reflexivity].
Qed.
Lemma op_front_no s : (forall c t, s = c :: t -> ~ In c ($"=!<>")) -> op_front s = None.
Proof.
  intro N. destruct s as [|c s]; [reflexivity|]. specialize (N c s eq_refl). unfold op_front, op_rhs.
  assert (K : forall t, op_of (c :: t) = None).
  { intro t. unfold op_of. assert (X : forall w, In w [$"=="; $"!="; $"<"; $"<="; $">"; $">="] -> bytes_eqb (c :: t) w = false).
    { intros w I. apply neqb. intros <-. cbn in I. apply N. cbn. destruct I as [I|[I|[I|[I|[I|[I|[]]]]]]]; injection I as <- _; auto. }
    rewrite !X by (cbn; tauto). reflexivity. }
  cbn [firstn]. rewrite !K. reflexivity.
Qed.
Lemma op_front_of o n r : right_operand o r -> op_front (op_text o ++ repeat " "%char n ++ r) = Some (o, r).
Proof.
  intros (NE & NS & NQ). assert (RH : rhs_of (repeat " "%char n ++ r) = Some r).
  { unfold rhs_of. rewrite skip_spaces_of by (intros t ->; exact (NS t eq_refl)). destruct r as [|c r]; [congruence|]. reflexivity. }
  assert (TWO : length (op_text o) = 2 -> op_rhs 2 (op_text o ++ repeat " "%char n ++ r) = Some (o, r)).
  { intro L. unfold op_rhs. rewrite <- L, firstn_pre, skipn_pre, RH, app_length. replace (op_of (op_text o)) with (Some o) by (destruct o; reflexivity).
    destruct (Nat.leb_spec (length (op_text o)) (length (op_text o) + length (repeat " "%char n ++ r))); [reflexivity|lia]. }
  unfold op_front. destruct o; try (rewrite TWO by reflexivity; reflexivity).
  - replace (op_rhs 2 (op_text OLess ++ repeat " "%char n ++ r)) with (@None (op * bytes)); [unfold op_rhs; cbn [op_text b list_ascii_of_string app firstn skipn]; rewrite RH; reflexivity|].
    symmetry. unfold op_rhs. assert (X : op_of (firstn 2 (op_text OLess ++ repeat " "%char n ++ r)) = None); [|rewrite X; reflexivity].
    destruct n as [|n]; [|reflexivity]. destruct r as [|c r]; [congruence|]. cbn [op_text b list_ascii_of_string app firstn repeat].
    assert (c <> "="%char) by (intros ->; apply (NQ (or_introl eq_refl) r eq_refl)).
    unfold op_of. replace (bytes_eqb ["<"%char; c] ($"<=")) with false by (symmetry; apply neqb; cbn; congruence). reflexivity.
  - replace (op_rhs 2 (op_text OGreater ++ repeat " "%char n ++ r)) with (@None (op * bytes)); [unfold op_rhs; cbn [op_text b list_ascii_of_string app firstn skipn]; rewrite RH; reflexivity|].
    symmetry. unfold op_rhs. assert (X : op_of (firstn 2 (op_text OGreater ++ repeat " "%char n ++ r)) = None); [|rewrite X; reflexivity].
    destruct n as [|n]; [|reflexivity]. destruct r as [|c r]; [congruence|]. cbn [op_text b list_ascii_of_string app firstn repeat].
    assert (c <> "="%char) by (intros ->; apply (NQ (or_intror eq_refl) r eq_refl)).
    unfold op_of. replace (bytes_eqb [">"%char; c] ($">=")) with false by (symmetry; apply neqb; cbn; congruence). reflexivity.
Qed.
Lemma skip_spaces_left l s : l <> [] -> (forall p, l <> p ++ $" ") -> exists c t q, skip_spaces (l ++ s) = c :: t /\ l = q ++ c :: firstn (length l - length q - 1) (skipn (length q + 1) l) /\ c <> " "%char.
Proof.
  induction l as [|c l IH]; intros NE NS; [congruence|]. cbn [app skip_spaces]. destruct (Ascii.eqb_spec c " "%char) as [->|N].
  - destruct l as [|d l]; [destruct (NS [] eq_refl)|]. destruct IH as (e & t & q & E & EL & NE'); [discriminate|intros p E; apply (NS (" "%char :: p)); cbn; rewrite E; reflexivity|].
    exists e, t, (" "%char :: q). split; [exact E|]. split; [|exact NE']. cbn [length app Nat.add skipn]. rewrite EL at 1. reflexivity.
  - exists c, (l ++ s), []. split; [reflexivity|]. split; [|exact N]. cbn [length app Nat.add skipn]. f_equal. rewrite Nat.sub_0_r. cbn. rewrite Nat.sub_0_r, firstn_all. reflexivity.
Qed.
Lemma split_op_of o n m r l : right_operand o r -> left_operand l -> forall pre,
  split_op pre (l ++ repeat " "%char n ++ op_text o ++ repeat " "%char m ++ r) = Some (rev pre ++ l, o, r).
Proof.
  intros RO (NE & NO & NS). induction l as [|c l IH]; intro pre; [congruence|]. cbn [app split_op]. destruct l as [|d l].
  - cbn [app]. rewrite skip_spaces_of by (intro t; destruct o; discriminate). rewrite (op_front_of o m r RO). cbn [rev]. reflexivity.
  - destruct (skip_spaces_left (d :: l) (repeat " "%char n ++ op_text o ++ repeat " "%char m ++ r)) as (e & t & q & E & EL & _);
      [discriminate|intros p E; apply (NS (c :: p)); cbn; rewrite E; reflexivity|].
    rewrite E, op_front_no.
    + rewrite IH; [cbn [rev]; rewrite <- app_assoc; reflexivity|discriminate|intros x I; apply NO; right; exact I|intros p K; apply (NS (c :: p)); cbn; rewrite K; reflexivity].
    + intros x y K. injection K as <- _. apply NO. right. rewrite EL. apply in_or_app. right. left. reflexivity.
Qed.
Lemma ifeval_line_spec get l n o m r : left_operand l -> right_operand o r ->
  ifeval F get (ifeval_line l n o m r) =
  match coerce F get l, coerce F get r with Ret x, Ret y => Ret (Decided (eval x o y)) | _, _ => Panic end.
Proof.
  intros LO RO. unfold ifeval. replace (skipn 8 (ifeval_line l n o m r)) with ($"[" ++ (l ++ repeat " "%char n ++ op_text o ++ repeat " "%char m ++ r) ++ $"]").
  2: { unfold ifeval_line. change ($"ifeval::[") with ($"ifeval::" ++ $"["). rewrite <- (app_assoc ($"ifeval::")). rewrite (skipn_pre ($"ifeval::")), <- !app_assoc. reflexivity. }
  set (B := l ++ repeat " "%char n ++ op_text o ++ repeat " "%char m ++ r).
  assert (IP : ifeval_parts ($"[" ++ B ++ $"]") = Some ([], (l, o, r))).
  { unfold ifeval_parts. change (split_once ($"[") ($"[" ++ B ++ $"]")) with (at_bracket ([] ++ "["%char :: B ++ $"]")). rewrite split_bracket by intros [].
    rewrite ends_with_app, app_length. cbn [length]. replace (length B + length ($"]") - 1) with (length B) by (cbn; lia).
    rewrite firstn_pre. unfold B. rewrite (split_op_of o n m r l RO LO []). reflexivity. }
  rewrite IP. reflexivity.
Qed.
End F.

(** ** the directive in a document *)
Section DOC.
Context {A : Type} (E : env A) (plugins : list bytes).
Hypothesis PL : plain_plugins plugins.
Lemma ifeval_tokens x y z fuel : one_line y -> utf8 (y ++ LF :: z) -> 1 <= length y -> length ($"ifeval::[" ++ y) < fuel ->
  exists lo ks, read_tokens plugins fuel (here x (($"ifeval::[" ++ y) ++ LF :: z)) = Ret (mkRtok Directive ($"ifeval::") lo :: ks, here (x ++ $"ifeval::[" ++ y) (LF :: z)) /\
    source_of ks = $"[" ++ y.
Proof.
  intros O U L FU. destruct fuel as [|fuel]; [lia|]. cbn [read_tokens].
  change (($"ifeval::[" ++ y) ++ LF :: z) with ($"ifeval::" ++ "["%char :: y ++ LF :: z).
  unfold at_newline. rewrite peek_here, eof_here. cbn [b list_ascii_of_string app hd_error is].
  replace (Ascii.eqb "i" LF || Ascii.eqb "i" CR) with false by reflexivity.
  pose proof (recognise_directive plugins x ($"ifeval") "["%char (y ++ LF :: z) 0) as RD. cbn zeta in RD.
  change (next_tok plugins (here x ("i"%char :: "f"%char :: "e"%char :: "v"%char :: "a"%char :: "l"%char :: ":"%char :: ":"%char :: "["%char :: y ++ LF :: z)))
    with (next_tok plugins (here x (($"ifeval" ++ $"::") ++ "["%char :: y ++ LF :: z))).
  erewrite next_here; [|apply RD; [cbn; tauto|vm_compute; intuition discriminate|rewrite app_length; cbn [length]; lia]].
  destruct (line_tokens plugins z PL (length ($"[" ++ y)) ($"[" ++ y) (x ++ $"ifeval" ++ $"::") fuel) as (ks & R & SO & _).
  - apply le_n.
  - destruct O as [O1 O2]. split; intros [I|I]; try discriminate; auto.
  - change (($"[" ++ y) ++ LF :: z) with ($"[" ++ (y ++ LF :: z)). apply utf8_app; [apply is_utf8_spec; reflexivity|exact U].
  - cbn [b list_ascii_of_string app length] in FU |- *. lia.
  - change ("["%char :: y ++ LF :: z) with (($"[" ++ y) ++ LF :: z). rewrite R. eexists _, ks. split; [|exact SO]. rewrite <- !app_assoc. reflexivity.
Qed.
Lemma pass_ifeval_on a k r x y z : one_line y -> utf8 (y ++ LF :: z) -> 1 <= length y -> IfdefModel.eval E a ($"ifeval::[" ++ y) = Ret (Some true) ->
  forall again, pass again E plugins (st a k x (($"ifeval::[" ++ y) ++ LF :: z) r) = Ret (Next (st a ($"[ifeval]" :: k) (x ++ ($"ifeval::[" ++ y) ++ [LF]) z r)).
Proof.
  intros O U L EV again. unfold pass, st. cbn [lex attrs stk reports]. rewrite eof_here, left_here.
  change (match ($"ifeval::[" ++ y) ++ LF :: z with [] => true | _ => false end) with false. cbn iota.
  destruct (ifeval_tokens x y z (S (length (($"ifeval::[" ++ y) ++ LF :: z))) O U L) as (lo & ks & RT & SO); [rewrite (app_length _ (LF :: z)); lia|].
  rewrite RT, newline_here, !nd_self.
  replace (bytes_eqb ($"ifeval::") ($"ifdef::")) with false by reflexivity. replace (bytes_eqb ($"ifeval::") ($"ifndef::")) with false by reflexivity.
  replace (bytes_eqb ($"ifeval::") ($"endif::")) with false by reflexivity. replace (bytes_eqb ($"ifeval::") ($"ifeval::")) with true by reflexivity.
  unfold do_ifeval. change (source_of (mkRtok Directive ($"ifeval::") lo :: ks)) with ($"ifeval::" ++ source_of ks). rewrite SO. cbn [attrs lex stk reports].
  change ($"ifeval::" ++ $"[" ++ y) with ($"ifeval::[" ++ y). rewrite EV. rewrite <- app_assoc. reflexivity.
Qed.
Lemma pass_ifeval_off a k r x y body z : one_line y -> utf8 y -> 1 <= length y -> IfdefModel.eval E a ($"ifeval::[" ++ y) = Ret (Some false) ->
  Forall proper body -> utf8 z ->
  forall again, pass again E plugins (st a k x (($"ifeval::[" ++ y) ++ LF :: written body ++ $"endif::[]" ++ LF :: z) r) =
    Ret (Next (st a k ((x ++ ($"ifeval::[" ++ y) ++ [LF]) ++ written body ++ $"endif::[]" ++ [LF]) z r)).
Proof.
  intros O U L EV P Uz again. set (Z := $"endif::[]" ++ LF :: z).
  assert (NZ : Z <> []) by discriminate. assert (UZ : utf8 Z) by (apply utf8_app; [apply is_utf8_spec; reflexivity|apply utf8_nl, Uz]).
  assert (UB : utf8 (written body ++ Z)) by (apply utf8_app; [apply written_utf8, P|exact UZ]).
  assert (UA : utf8 (y ++ LF :: written body ++ Z)) by (apply utf8_app; [exact U|apply utf8_nl, UB]).
  unfold pass, st. cbn [lex attrs stk reports]. rewrite eof_here, left_here.
  change (match ($"ifeval::[" ++ y) ++ LF :: written body ++ Z with [] => true | _ => false end) with false. cbn iota.
  destruct (ifeval_tokens x y (written body ++ Z) (S (length (($"ifeval::[" ++ y) ++ LF :: written body ++ Z))) O UA L) as (lo & ks & RT & SO);
    [rewrite (app_length _ (LF :: written body ++ Z)); lia|].
  rewrite RT, newline_here, !nd_self.
  replace (bytes_eqb ($"ifeval::") ($"ifdef::")) with false by reflexivity. replace (bytes_eqb ($"ifeval::") ($"ifndef::")) with false by reflexivity.
  replace (bytes_eqb ($"ifeval::") ($"endif::")) with false by reflexivity. replace (bytes_eqb ($"ifeval::") ($"ifeval::")) with true by reflexivity.
  unfold do_ifeval. change (source_of (mkRtok Directive ($"ifeval::") lo :: ks)) with ($"ifeval::" ++ source_of ks). rewrite SO. cbn [attrs lex stk reports].
  change ($"ifeval::" ++ $"[" ++ y) with ($"ifeval::[" ++ y). rewrite EV, left_here.
  rewrite <- (app_assoc x).
  destruct (skip_items plugins Z PL NZ UZ body P (x ++ ($"ifeval::[" ++ y) ++ [LF])) as (m & Lm & M).
  replace (S (S (length (written body ++ Z)))) with (m + S (S (length (written body ++ Z)) - m)) by (rewrite app_length in *; lia).
  rewrite M by lia. unfold Z. change ($"endif::[]" ++ LF :: z) with (closing true false [] ++ LF :: z).
  rewrite (skip_close plugins z _ true false [] _ 1 PL Uz (Forall_nil _)). cbn [Nat.eqb]. rewrite <- !app_assoc. reflexivity.
Qed.
Theorem document_ifeval a before out a1 y (v : bool) body after mid out2 a2 a3 : kept E a before out a1 -> Forall proper before ->
  one_line y -> utf8 y -> 1 <= length y -> IfdefModel.eval E a1 ($"ifeval::[" ++ y) = Ret (Some v) -> Forall proper body -> Forall proper after ->
  (if v then kept E a1 body mid a2 else mid = [] /\ a2 = a1) -> kept E a2 after out2 a3 ->
  exists k x, read_document E plugins a (written before ++ ($"ifeval::[" ++ y) ++ [newline] ++ written body ++ $"endif::[]" ++ [newline] ++ written after) =
    Ret (Some (out ++ mid ++ out2, mkP a3 k (here x []) [])).
Proof.
  intros K P O U L EV Pb Pa KB KA. pose proof (written_utf8 after Pa) as Ua. pose proof (written_utf8 body Pb) as Ub.
  assert (UC : utf8 ($"endif::[]" ++ LF :: written after)) by (apply utf8_app; [apply is_utf8_spec; reflexivity|apply utf8_nl, Ua]).
  assert (UR : utf8 (written body ++ $"endif::[]" ++ LF :: written after)) by (apply utf8_app; assumption).
  assert (UY : utf8 (y ++ LF :: written body ++ $"endif::[]" ++ LF :: written after)) by (apply utf8_app; [exact U|apply utf8_nl, UR]).
  set (line := $"ifeval::[" ++ y) in *.
  assert (UL : utf8 (line ++ LF :: written body ++ $"endif::[]" ++ LF :: written after)).
  { unfold line. rewrite <- app_assoc. apply utf8_app; [apply is_utf8_spec; reflexivity|exact UY]. }
  destruct (kept_steps E plugins PL a before out a1 K P [] [] [] _ UL) as (k & ST & _). set (x := [] ++ written before) in *. clearbody x.
  assert (U0 : utf8 []) by (apply is_utf8_spec; reflexivity).
  destruct v.
  - pose proof (pass_ifeval_on a1 k [] x y _ O UY L EV) as PO. fold line in PO.
    destruct (kept_steps E plugins PL a1 body mid a2 KB Pb (x ++ line ++ [LF]) ($"[ifeval]" :: k) [] _ UC) as (k1 & ST1 & NK & _).
    destruct k1 as [|e k1]; [exfalso; apply NK; [discriminate|reflexivity]|].
    pose proof (pass_close E plugins PL true false [] a2 e k1 [] ((x ++ line ++ [LF]) ++ written body) (written after) (Forall_nil _) ltac:(discriminate) Ua) as PC.
    change (closing true false []) with ($"endif::[]") in PC.
    destruct (kept_steps E plugins PL a2 after out2 a3 KA Pa (((x ++ line ++ [LF]) ++ written body) ++ $"endif::[]" ++ [LF]) (e :: k1) [] [] U0) as (k2 & ST2 & _).
    rewrite app_nil_r in ST2.
    eexists k2, _. eapply read_steps; [eapply steps_app; [exact ST|]|apply pass_over].
    eapply St_next; [intro; apply PO|unfold st; cbn [lex]; rewrite !left_here, (app_length line); cbn [length]; lia|].
    eapply steps_app; [exact ST1|]. eapply St_next; [intro; apply PC|unfold st; cbn [lex]; rewrite !left_here, !(app_length ($"endif::[]")); cbn [length]; lia|]. exact ST2.
  - destruct KB as [-> ->]. pose proof (pass_ifeval_off a1 k [] x y body (written after) O U L EV Pb Ua) as PO. fold line in PO.
    destruct (kept_steps E plugins PL a1 after out2 a3 KA Pa ((x ++ line ++ [LF]) ++ written body ++ $"endif::[]" ++ [LF]) k [] [] U0) as (k2 & ST2 & _).
    rewrite app_nil_r in ST2. eexists k2, _. eapply read_steps; [eapply steps_app; [exact ST|]|apply pass_over]. cbn [app].
    eapply St_next; [intro; apply PO| |exact ST2].
    unfold st. cbn [lex]. rewrite !left_here, (app_length line). cbn [length]. rewrite !app_length. cbn [length]. lia.
Qed.
End DOC.
