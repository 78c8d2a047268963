(** Proofs about attribute entries (C61). *)
From Verif Require Import Base Text LexerModel AttrRefsModel AttrDefModel AttrDefSpec.
From Coq Require Import Lia.
Import ListNotations.

Lemma ends_iff s p : ends_with s p = true <-> exists q, s = q ++ p.
Proof.
  unfold ends_with. rewrite starts_with_spec. split.
  - intros [r E]. apply (f_equal (@rev ascii)) in E. rewrite rev_involutive, rev_app_distr, rev_involutive in E. now exists (rev r).
  - intros [q ->]. rewrite rev_app_distr. eauto.
Qed.
Lemma ends_no s p : ends_with s p = false <-> forall q, s <> q ++ p.
Proof.
  split.
  - intros E q H. assert (X : ends_with s p = true) by (apply ends_iff; eauto). congruence.
  - intros H. destruct (ends_with s p) eqn:E; [|reflexivity]. apply ends_iff in E as [q E]. now destruct (H q).
Qed.
Lemma tail2 (u q : bytes) a c d e : u ++ [a; c] = q ++ [d; e] -> u = q /\ a = d /\ c = e.
Proof.
  intros H. change [a; c] with ([a] ++ [c]) in H. change [d; e] with ([d] ++ [e]) in H. rewrite !app_assoc in H.
  apply app_inj_tail in H as [H ->]. apply app_inj_tail in H as [-> ->]. auto.
Qed.

(** *** names *)
Lemma word_char_iff c : word_char c = true <-> name_char c.
Proof. unfold word_char, name_char. rewrite !orb_true_iff, !Ascii.eqb_eq. tauto. Qed.
Lemma not_word c : In c [":"; "!"]%char -> word_char c = false.
Proof. intros [<-|[<-|[]]]; reflexivity. Qed.
Lemma name_end_own r t v : Forall name_char r -> name_end (r ++ bang t ++ ":"%char :: v) = Some (r, t, v).
Proof.
  induction 1 as [|c r C F IH]; [destruct t; reflexivity|].
  apply word_char_iff in C. cbn [app name_end]. now rewrite C, IH.
Qed.
Lemma name_end_some s n t v : name_end s = Some (n, t, v) -> Forall name_char n /\ s = n ++ bang t ++ ":"%char :: v.
Proof.
  revert n; induction s as [|c r IH]; [discriminate|]. intros n H. cbn in H.
  destruct (word_char c) eqn:W.
  - destruct (name_end r) as [[[m t'] v']|]; [|discriminate]. injection H as <- -> ->. destruct (IH m eq_refl) as [F ->].
    split; [constructor; [now apply word_char_iff|exact F]|reflexivity].
  - destruct (Ascii.eqb_spec c "!").
    + destruct r as [|d r]; [discriminate|]. destruct (Ascii.eqb_spec d ":"); [|discriminate]. injection H as <- <- <-. subst. split; [constructor|reflexivity].
    + destruct (Ascii.eqb_spec c ":"); [|discriminate]. injection H as <- <- <-. subst. split; [constructor|reflexivity].
Qed.

(** *** lines *)
Lemma at_eol_iff s : at_eol s = true <-> line_end s.
Proof.
  unfold line_end. destruct s as [|c r]; unfold at_eol; [tauto|]. rewrite orb_true_iff, andb_true_iff, !Ascii.eqb_eq. split.
  - intros [->|[-> H]]; [right; left; eauto|]. destruct r as [|d r]; [discriminate|]. apply Ascii.eqb_eq in H as ->. right; right; eauto.
  - intros [H|[[z H]|[z H]]]; [discriminate|injection H as -> ->; tauto|injection H as -> ->; right; split; [reflexivity|apply Ascii.eqb_refl]].
Qed.
Lemma to_eol_line l r : one_line l -> line_end r -> to_eol (l ++ r) = (l, r).
Proof.
  intros [A B] E. induction l as [|c l IH]; cbn [app].
  - apply at_eol_iff in E. destruct r as [|d r]; [reflexivity|]. cbn [to_eol]. now rewrite E.
  - cbn [to_eol]. assert (X : at_eol (c :: l ++ r) = false).
    { unfold at_eol. destruct (Ascii.eqb_spec c LF) as [->|]; [destruct A; now left|]. destruct (Ascii.eqb_spec c CR) as [->|]; [destruct B; now left|reflexivity]. }
    rewrite X, IH; [reflexivity| |]; intros H; [apply A|apply B]; now right.
Qed.
Lemma to_eol_some s l z : to_eol s = (l, z) -> s = l ++ z /\ line_end z.
Proof.
  revert l; induction s as [|c r IH]; intros l H.
  - injection H as <- <-. split; [reflexivity|now left].
  - cbn [to_eol] in H. destruct (at_eol (c :: r)) eqn:E.
    + injection H as <- <-. split; [reflexivity|now apply at_eol_iff].
    + destruct (to_eol r) as [m y]. injection H as <- <-. destruct (IH m eq_refl) as [-> L]. split; [reflexivity|exact L].
Qed.

(** *** lines that are continued *)
Definition spaced (acc : bytes) : Prop := acc = [] \/ exists q c, acc = q ++ [c] /\ (c = " "%char \/ c = LF).
Lemma spaced_wrap acc p v : wrap p v -> spaced (acc ++ v).
Proof. intros [q|q _]; right; [exists (acc ++ q ++ $" +"), LF|exists (acc ++ q), " "%char]; rewrite <- !app_assoc; auto. Qed.
Lemma no_end2 acc l a d : spaced acc -> d <> " "%char -> d <> LF -> (forall q, l <> q ++ [a; d]) -> (acc <> [] -> l <> [d]) -> forall q, acc ++ l <> q ++ [a; d].
Proof.
  intros S D1 D2 N O q H. destruct (rev l) as [|x [|y r]] eqn:R; apply (f_equal (@rev ascii)) in R; rewrite rev_involutive in R; cbn in R; subst l.
  - rewrite app_nil_r in H. destruct S as [->|(p & c & -> & C)]; [now destruct q|].
    change [a; d] with ([a] ++ [d]) in H. rewrite app_assoc in H. apply app_inj_tail in H as [_ ->]. destruct C; congruence.
  - change [a; d] with ([a] ++ [d]) in H. rewrite app_assoc in H. apply app_inj_tail in H as [H ->].
    destruct acc as [|z acc]; [now destruct q|]. now apply O.
  - rewrite <- app_assoc in H. cbn in H. rewrite app_assoc in H. apply tail2 in H as (_ & -> & ->). apply (N (rev r)). now rewrite <- app_assoc.
Qed.

Lemma removelast_snoc (u : bytes) c : removelast (u ++ [c]) = u.
Proof. apply removelast_last. Qed.
Definition wrapped (ps : list bytes) (last : bytes) : bytes := concat (map continued ps) ++ last.

Lemma no_cr_head ps last rest : Forall one_line (last :: ps) -> (ps <> [] \/ forall z, rest <> CR :: z) -> forall z, wrapped ps last ++ rest <> CR :: z.
Proof.
  intros F O z H. inversion F as [|? ? L P]; subst. unfold wrapped in H. destruct ps as [|p ps].
  - cbn in H. destruct last as [|c last]; [destruct O as [O|O]; [congruence|now apply (O z)]|]. injection H as -> _. apply L. now left.
  - inversion P as [|? ? Q _]; subst. cbn in H. unfold continued in H. destruct p as [|c p]; [discriminate|]. injection H as -> _. apply Q. now left.
Qed.

Lemma gather_wrapped ps : forall vs acc last rest fuel l z,
  Forall2 wrap ps vs -> Forall one_line (last :: ps) -> Forall (fun p => p <> $"+") ps ->
  (forall q, last <> q ++ $" \") -> (acc <> [] \/ ps <> [] -> last <> $"\") -> line_end rest -> (acc <> [] \/ ps <> [] -> forall y, rest <> CR :: y) ->
  spaced acc -> length ps <= fuel -> to_eol (wrapped ps last ++ rest) = (l, z) ->
  gather fuel (acc ++ l) z = Ret (acc ++ concat vs ++ last, rest).
Proof.
  induction ps as [|p ps IH]; intros vs acc last rest fuel l z V F P L1 L2 E U S N T; inversion V as [|? v ? vs' W V']; subst.
  - inversion F as [|? ? FL _]; subst. unfold wrapped in T. cbn in T. rewrite (to_eol_line _ _ FL E) in T. injection T as <- <-. cbn [concat app].
    assert (X : ends_with (acc ++ last) soft = false).
    { apply ends_no. apply no_end2; [exact S|discriminate|discriminate|exact L1|]. intros A. apply L2. now left. }
    destruct fuel; cbn [gather]; now rewrite X.
  - inversion F as [|? ? FL FP]; subst. inversion FP as [|? ? Fp Fps]; subst. inversion P as [|? ? Pp Pps]; subst.
    destruct fuel as [|fuel]; [cbn in N; lia|].
    assert (Q : wrapped (p :: ps) last ++ rest = (p ++ $" \") ++ LF :: wrapped ps last ++ rest).
    { unfold wrapped, continued. cbn [map concat]. rewrite <- !app_assoc. reflexivity. }
    assert (O : one_line (p ++ $" \")).
    { destruct Fp as [A B]. split; intros H; apply in_app_or in H as [H|H]; [now apply A| |now apply B|]; cbn in H; destruct H as [H|[H|[]]]; discriminate. }
    rewrite Q, to_eol_line in T; [|exact O|right; left; eauto]. injection T as <- <-.
    change [" "%char; "\"%char] with ($" \"). cbn [gather].
    assert (X : ends_with (acc ++ p ++ $" \") soft = true) by (apply ends_iff; exists (acc ++ p); now rewrite <- app_assoc). rewrite X.
    assert (R : removelast (acc ++ p ++ $" \") = (acc ++ p) ++ $" ").
    { replace (acc ++ p ++ $" \") with (((acc ++ p) ++ $" ") ++ ["\"%char]) by (rewrite <- !app_assoc; reflexivity). apply removelast_snoc. }
    rewrite R.
    assert (Y : (if ends_with ((acc ++ p) ++ $" ") $" + " then removelast ((acc ++ p) ++ $" ") ++ [LF] else (acc ++ p) ++ $" ") = acc ++ v).
    { destruct W as [q|p W].
      - assert (Z : ends_with ((acc ++ q ++ $" +") ++ $" ") $" + " = true) by (apply ends_iff; exists (acc ++ q); rewrite <- !app_assoc; reflexivity).
        rewrite Z. change ($" ") with [" "%char]. rewrite removelast_snoc, <- !app_assoc. reflexivity.
      - assert (Z : ends_with ((acc ++ p) ++ $" ") $" + " = false).
        { apply ends_no. intros q H. assert (H' : (acc ++ p) ++ [" "%char] = (q ++ $" +") ++ [" "%char]) by (etransitivity; [exact H|rewrite <- app_assoc; reflexivity]).
          apply app_inj_tail in H' as [H' _]. revert H'. apply no_end2; [exact S|discriminate|discriminate|exact W|intros _; exact Pp]. }
        rewrite Z, <- app_assoc. reflexivity. }
    rewrite Y.
    assert (C : match wrapped ps last ++ rest with c :: r' => if Ascii.eqb c CR then r' else wrapped ps last ++ rest | [] => wrapped ps last ++ rest end = wrapped ps last ++ rest).
    { destruct (wrapped ps last ++ rest) as [|c r] eqn:H; [reflexivity|]. destruct (Ascii.eqb_spec c CR) as [->|]; [|reflexivity].
      exfalso. eapply no_cr_head; [constructor; [exact FL|exact Fps]| |exact H]. right. apply U. right. discriminate. }
    rewrite C. destruct (to_eol (wrapped ps last ++ rest)) as [l z] eqn:T.
    rewrite (IH vs' (acc ++ v) last rest fuel l z); auto.
    + cbn [concat]. now rewrite <- !app_assoc.
    + intros _. apply L2. right. discriminate.
    + intros _. apply U. right. discriminate.
    + now apply (spaced_wrap acc p).
    + cbn in N. lia.
Qed.

(** *** the whole entry *)
Lemma attr_def_head get h lead n trail t : name n -> 4 <= length (head_of lead n trail ++ t) ->
  attr_def get h (head_of lead n trail ++ t) =
  (let (v, rest) := to_eol t in
   match gather (length (head_of lead n trail ++ t)) v rest with
   | Panic => Panic
   | Ret (v, rest) => Ret (Some (Def (lowercase n) (def_value get h (lead || trail) v) rest ((lead || trail) && match trim v with [] => false | _ => true end)))
   end).
Proof.
  intros (c & r & -> & C & F) N. unfold attr_def.
  destruct (head_of lead (c :: r) trail ++ t) as [|c0 s0] eqn:E; [now unfold head_of in E|].
  apply Nat.ltb_ge in N as N'. rewrite N'.
  assert (C' : alnum c || Ascii.eqb c "_" = true) by (rewrite orb_true_iff, Ascii.eqb_eq; exact C).
  assert (B : Ascii.eqb c "!" = false) by (destruct (Ascii.eqb_spec c "!") as [->|]; [destruct C as [C|C]; discriminate|reflexivity]).
  unfold head_of in E. rewrite <- !app_assoc in E. cbn in E. injection E as <- <-.
  assert (M : name_end (r ++ bang trail ++ ":"%char :: t) = Some (r, trail, t)) by now apply name_end_own.
  destruct lead; cbn [bang app].
  - rewrite Ascii.eqb_refl, C', M. reflexivity.
  - rewrite B, C', M. reflexivity.
Qed.

Lemma gathered ps last text rest fuel l z : in_lines ps last text rest -> length ps <= fuel -> to_eol (wrapped ps last ++ rest) = (l, z) -> gather fuel l z = Ret (text, rest).
Proof.
  intros [(vs & V & ->) F P [L1 L2] E U] N T. apply (gather_wrapped ps vs [] last rest fuel l z); auto.
  - intros [H|H]; [congruence|now apply L2].
  - intros [H|H]; [congruence|now apply U].
  - now left.
Qed.
Lemma wrapped_length ps last : length ps <= length (wrapped ps last).
Proof. unfold wrapped. rewrite app_length. induction ps as [|p ps IH]; cbn; [lia|]. unfold continued at 1. rewrite !app_length. cbn. lia. Qed.

Lemma attr_def_lines get h lead n trail ps last text rest : name n -> in_lines ps last text rest -> 4 <= length (head_of lead n trail ++ wrapped ps last ++ rest) ->
  attr_def get h (head_of lead n trail ++ wrapped ps last ++ rest) =
  Ret (Some (Def (lowercase n) (def_value get h (lead || trail) text) rest ((lead || trail) && match trim text with [] => false | _ => true end))).
Proof.
  intros M I N. rewrite (attr_def_head get h lead n trail _ M N). destruct (to_eol (wrapped ps last ++ rest)) as [l z] eqn:T.
  rewrite (gathered ps last text rest _ l z I); [reflexivity| |exact T]. rewrite !app_length. pose proof (wrapped_length ps last). lia.
Qed.

(** *** where an entry ends *)
Lemma gather_rest fuel : forall v rest v' rest', line_end rest -> gather fuel v rest = Ret (v', rest') -> line_end rest' /\ exists u, rest = u ++ rest'.
Proof.
  induction fuel as [|f IH]; intros v rest v' rest' E H; cbn [gather] in H; destruct (ends_with v soft);
    try (injection H as <- <-; split; [exact E|now exists []]); destruct rest as [|c r]; try discriminate.
  - destruct (to_eol _); discriminate.
  - set (r' := match r with c :: r' => if Ascii.eqb c CR then r' else r | [] => r end) in H.
    assert (R : exists u, c :: r = u ++ r').
    { subst r'. destruct r as [|d r]; [now exists [c]|]. destruct (Ascii.eqb d CR); [now exists [c; d]|now exists [c]]. }
    destruct (to_eol r') as [l z] eqn:T. apply to_eol_some in T as [T L]. destruct R as [u R].
    destruct (IH _ _ _ _ L H) as [L' [w W]]. split; [exact L'|]. exists (u ++ l ++ w). rewrite R, T, W, <- !app_assoc. reflexivity.
Qed.

Lemma gather_panics fuel : forall v rest, line_end rest -> length rest <= fuel -> gather fuel v rest = Panic -> exists u, v ++ rest = u ++ $"\".
Proof.
  induction fuel as [|f IH]; intros v rest E N H; cbn [gather] in H; destruct (ends_with v soft) eqn:X; try discriminate.
  - destruct rest as [|c r]; [|cbn in N; lia]. apply ends_iff in X as [q ->]. exists (q ++ $" "). rewrite app_nil_r, <- app_assoc. reflexivity.
  - destruct rest as [|c r]; [apply ends_iff in X as [q ->]; exists (q ++ $" "); rewrite app_nil_r, <- app_assoc; reflexivity|].
    set (r' := match r with c :: r' => if Ascii.eqb c CR then r' else r | [] => r end) in H.
    assert (R : (exists u, c :: r = u ++ r') /\ length r' <= length r).
    { subst r'. destruct r as [|d r]; [split; [now exists [c]|auto]|]. destruct (Ascii.eqb d CR); split; [now exists [c; d]|cbn; lia|now exists [c]|auto]. }
    set (v1 := if ends_with (removelast v) $" + " then removelast (removelast v) ++ [LF] else removelast v) in H.
    assert (S : spaced v1).
    { subst v1. destruct (ends_with (removelast v) $" + "); [right; eauto|]. apply ends_iff in X as [q ->]. unfold soft.
      replace (q ++ [" "%char; "\"%char]) with ((q ++ [" "%char]) ++ ["\"%char]) by now rewrite <- app_assoc. rewrite removelast_snoc. right; eauto. }
    destruct R as [[u R] N'].
    destruct (to_eol r') as [l z] eqn:T. apply to_eol_some in T as [T L].
    destruct (IH (v1 ++ l) z L) as [w W]; [rewrite T, app_length in N'; cbn in N; lia|exact H|].
    rewrite <- app_assoc, <- T in W. rewrite R.
    destruct (rev r') as [|x k] eqn:RR; apply (f_equal (@rev ascii)) in RR; rewrite rev_involutive in RR; cbn in RR; rewrite RR in *.
    + exfalso. rewrite app_nil_r in W. destruct S as [S|(q & d & S & D)]; rewrite S in W; [now destruct w|]. apply app_inj_tail in W as [_ ->]. destruct D; discriminate.
    + rewrite app_assoc in W. apply app_inj_tail in W as [_ ->]. exists (v ++ u ++ rev k). rewrite <- !app_assoc. reflexivity.
Qed.

Lemma attr_def_some get h r d : attr_def get h (":"%char :: r) = Ret (Some d) ->
  exists lead n trail t, ":"%char :: r = head_of lead n trail ++ t /\ name n /\ d_name d = lowercase n /\ line_end (d_rest d) /\ exists u, t = u ++ d_rest d.
Proof.
  unfold attr_def. destruct (length _ <? 4); [discriminate|].
  destruct (match r with d :: r' => if Ascii.eqb d "!" then (true, r') else (false, r) | [] => (false, r) end) as [lead r0] eqn:E.
  assert (R : r = bang lead ++ r0).
  { destruct r as [|e r]; [injection E as <- <-; reflexivity|]. destruct (Ascii.eqb_spec e "!"); injection E as <- <-; subst; reflexivity. }
  destruct r0 as [|f r0]; [discriminate|]. destruct (alnum f || Ascii.eqb f "_") eqn:F; [|discriminate].
  destruct (name_end r0) as [[[n trail] t]|] eqn:M; [|discriminate]. apply name_end_some in M as [FN M].
  destruct (to_eol t) as [v rest] eqn:T. apply to_eol_some in T as [T L].
  destruct (gather _ v rest) as [[v' rest']|] eqn:G; [|discriminate]. intros H; injection H as <-.
  destruct (gather_rest _ _ _ _ _ L G) as [L' [u U]]. cbn [d_name d_rest].
  exists lead, (f :: n), trail, t. repeat split; auto.
  - rewrite R, M. unfold head_of. rewrite <- !app_assoc. reflexivity.
  - exists f, n. repeat split; auto. now rewrite orb_true_iff, Ascii.eqb_eq in F.
  - exists (v ++ u). rewrite T, U, <- app_assoc. reflexivity.
Qed.

Lemma attr_def_panics get h r : attr_def get h (":"%char :: r) = Panic -> exists u, ":"%char :: r = u ++ $"\".
Proof.
  unfold attr_def. destruct (length (":"%char :: r) <? 4) eqn:N; [discriminate|]. apply Nat.ltb_ge in N.
  destruct (match r with d :: r' => if Ascii.eqb d "!" then (true, r') else (false, r) | [] => (false, r) end) as [lead r0] eqn:E.
  assert (R : r = bang lead ++ r0).
  { destruct r as [|e r]; [injection E as <- <-; reflexivity|]. destruct (Ascii.eqb_spec e "!"); injection E as <- <-; subst; reflexivity. }
  destruct r0 as [|f r0]; [rewrite R in N; destruct lead; cbn in N; lia|]. destruct (alnum f || Ascii.eqb f "_") eqn:F; [|discriminate].
  destruct (name_end r0) as [[[n trail] t]|] eqn:M; [|discriminate]. apply name_end_some in M as [FN M].
  destruct (to_eol t) as [v rest] eqn:T. apply to_eol_some in T as [T L].
  destruct (gather _ v rest) as [[v' rest']|] eqn:G; [discriminate|]. intros _.
  apply gather_panics in G as [u U]; [|exact L|].
  - rewrite <- T in U. rewrite R, M, U. exists (":"%char :: bang lead ++ f :: n ++ bang trail ++ ":"%char :: u). repeat (cbn [app]; rewrite <- ?app_assoc). reflexivity.
  - rewrite R, M, T. cbn [length]. rewrite !app_length. cbn [length]. rewrite !app_length. cbn [length]. rewrite app_length. lia.
Qed.
