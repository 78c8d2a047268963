(** Lemmas for JsonProps.v *)
From Verif Require Import Base JsonModel JsonSpec.

Lemma escape_cons c x : escape (c :: x) =
  (if Ascii.eqb c QUOTE then $"\""" else if Ascii.eqb c NL then $"\n" else [c]) ++ escape x.
Proof.
  unfold escape, replace. cbn [flat_map]. rewrite flat_map_app. f_equal.
  destruct (Ascii.eqb_spec c QUOTE) as [->|Q]; [reflexivity|]. cbn [flat_map app].
  destruct (Ascii.eqb_spec c NL); reflexivity.
Qed.
Lemma eqb_false c d : c <> d -> Ascii.eqb c d = false.
Proof. apply Ascii.eqb_neq. Qed.

(** characters that come back *)
Lemma body_quote r : string_body ($"\""" ++ r) = front (Byte """") (string_body r).
Proof. reflexivity. Qed.
Lemma body_nl r : string_body ($"\n" ++ r) = front (Byte "010") (string_body r).
Proof. reflexivity. Qed.
Lemma body_plain c r : c <> """"%char -> c <> "\"%char -> is_control c = false ->
  string_body (c :: r) = front (Byte c) (string_body r).
Proof. intros A B C. cbn [string_body]. rewrite (eqb_false _ _ A), (eqb_false _ _ B), C. reflexivity. Qed.
Lemma body_step c x k : c <> "\"%char -> (is_control c = true -> c = "010"%char) ->
  string_body (escape (c :: x) ++ k) = front (Byte c) (string_body (escape x ++ k)).
Proof.
  intros A B. rewrite escape_cons, <- app_assoc.
  destruct (Ascii.eqb_spec c QUOTE) as [->|Q]; [apply body_quote|].
  destruct (Ascii.eqb_spec c NL) as [->|N]; [apply body_nl|]. cbn [app].
  apply body_plain; [exact Q|exact A|]. destruct (is_control c); [|reflexivity]. exfalso. apply N. apply B. reflexivity.
Qed.
Lemma body_escape x : plain x -> forall k, string_body (escape x ++ """"%char :: k) = Some (text x, k).
Proof.
  induction 1 as [|c x [A B] P IH]; intros k; [reflexivity|].
  rewrite body_step by assumption. rewrite IH. reflexivity.
Qed.

Lemma behind_app p x : behind p (p ++ x) = Some x.
Proof. induction p as [|c p IH]; [reflexivity|]. cbn [behind app]. rewrite Ascii.eqb_refl. exact IH. Qed.

(** the object ends behind the string *)
Definition ended (o : option (list jchar * bytes)) : option (list jchar) :=
  match o with Some (s, k) => if bytes_eqb k $"}" then Some s else None | None => None end.
Definition raw (x : bytes) : bytes := escape x ++ $"""}".
Lemma read_html_reply x : read_html (reply (Html x)) = ended (string_body (raw x)).
Proof. unfold read_html, reply. rewrite behind_app. reflexivity. Qed.
Lemma ended_front v o : ended (front v o) = match ended o with Some s => Some (v :: s) | None => None end.
Proof. destruct o as [[s k]|]; [|reflexivity]. cbn [front ended]. destruct (bytes_eqb k $"}"); reflexivity. Qed.
Lemma raw_cons c x : raw (c :: x) =
  (if Ascii.eqb c QUOTE then $"\""" else if Ascii.eqb c NL then $"\n" else [c]) ++ raw x.
Proof. unfold raw. rewrite escape_cons, <- app_assoc. reflexivity. Qed.
Lemma raw_nil : raw [] = $"""}". Proof. reflexivity. Qed.
Lemma raw_hex x c r n : raw x = c :: r -> hex c = Some n -> exists x', x = c :: x' /\ r = raw x'.
Proof.
  destruct x as [|d x]; [rewrite raw_nil; intros E H; injection E as <- _; discriminate|].
  rewrite raw_cons. destruct (Ascii.eqb_spec d QUOTE) as [->|Q]; [intros E H; injection E as <- _; discriminate|].
  destruct (Ascii.eqb_spec d NL) as [->|N]; [intros E H; injection E as <- _; discriminate|].
  intros E H. injection E as -> <-. eauto.
Qed.
Lemma hex4_some c0 c1 c2 c3 v : hex4 c0 c1 c2 c3 = Some v ->
  hex c0 <> None /\ hex c1 <> None /\ hex c2 <> None /\ hex c3 <> None.
Proof. unfold hex4. destruct (hex c0); [|discriminate]. destruct (hex c1); [|discriminate]. destruct (hex c2); [|discriminate].
  destruct (hex c3); [|discriminate]. intros _. repeat split; discriminate. Qed.
Lemma raw_long x : exists c d r, raw x = c :: d :: r.
Proof. unfold raw. destruct (escape x) as [|c [|d r]]; [exists """"%char, "}"%char, []|exists c, """"%char, ["}"%char]|exists c, d, (r ++ $"""}")]; reflexivity. Qed.

(** a backslash is read with what is behind it *)
Lemma body_backslash x s : ended (string_body ("\"%char :: raw x)) = Some s ->
  exists v y s', s = v :: s' /\ ended (string_body (raw y)) = Some s' /\ length y < length x \/
  exists y s', x = NL :: y /\ s = Byte "\" :: Byte "n" :: s' /\ ended (string_body (raw y)) = Some s'.
Proof.
  intros E. destruct x as [|d x]; [vm_compute in E; discriminate|]. rewrite raw_cons in E.
  destruct (Ascii.eqb_spec d QUOTE) as [->|Q].
  { exfalso. change ("\"%char :: $"\""" ++ raw x) with ("\"%char :: "\"%char :: """"%char :: raw x) in E.
    change (string_body ("\"%char :: "\"%char :: """"%char :: raw x)) with (Some ([Byte "\"], raw x)) in E.
    cbn [ended] in E. destruct (raw_long x) as (c1 & c2 & r & R). rewrite R in E. cbn in E. rewrite andb_false_r in E. discriminate. }
  destruct (Ascii.eqb_spec d NL) as [->|N].
  { change ("\"%char :: $"\n" ++ raw x) with ("\"%char :: "\"%char :: "n"%char :: raw x) in E.
    change (string_body ("\"%char :: "\"%char :: "n"%char :: raw x)) with (front (Byte "\") (front (Byte "n") (string_body (raw x)))) in E.
    rewrite !ended_front in E. destruct (ended (string_body (raw x))) as [s'|] eqn:D; [|discriminate]. injection E as <-.
    exists (Unit 0), [], []. right. eauto 6. }
  cbn [app] in E. cbn [string_body] in E. rewrite Ascii.eqb_refl in E. change (Ascii.eqb "\" """") with false in E. cbv iota in E.
  destruct (Ascii.eqb_spec d "u") as [->|U].
  - destruct (raw x) as [|c0 [|c1 [|c2 [|c3 r]]]] eqn:R; try discriminate.
    destruct (hex4 c0 c1 c2 c3) as [v|] eqn:H; [|discriminate]. rewrite ended_front in E.
    destruct (hex4_some _ _ _ _ _ H) as (H0 & H1 & H2 & H3).
    destruct (hex c0) as [n0|] eqn:X0; [|congruence]. destruct (raw_hex _ _ _ _ R X0) as (x0 & -> & R0). symmetry in R0.
    destruct (hex c1) as [n1|] eqn:X1; [|congruence]. destruct (raw_hex _ _ _ _ R0 X1) as (x1 & -> & R1). symmetry in R1.
    destruct (hex c2) as [n2|] eqn:X2; [|congruence]. destruct (raw_hex _ _ _ _ R1 X2) as (x2 & -> & R2). symmetry in R2.
    destruct (hex c3) as [n3|] eqn:X3; [|congruence]. destruct (raw_hex _ _ _ _ R2 X3) as (x3 & -> & R3).
    rewrite R3 in E. destruct (ended (string_body (raw x3))) as [s'|] eqn:D; [|discriminate]. injection E as <-.
    exists v, x3, s'. left. split; [reflexivity|]. split; [exact D|]. cbn [length]. lia.
  - destruct (short_escape d) as [v|]; [|discriminate]. rewrite ended_front in E.
    destruct (ended (string_body (raw x))) as [s'|] eqn:D; [|discriminate]. injection E as <-.
    exists (Byte v), x, s'. left. split; [reflexivity|]. split; [exact D|]. cbn [length]. lia.
Qed.

Lemma read_back n : forall x s, length x <= n -> ended (string_body (raw x)) = Some s ->
  length s <= length x /\ (s = text x -> plain x).
Proof.
  induction n as [|n IH]; intros x s L E.
  { destruct x; [|cbn in L; lia]. vm_compute in E. injection E as <-. split; [apply Nat.le_refl|intros _; constructor]. }
  destruct x as [|c x]; [vm_compute in E; injection E as <-; split; [apply Nat.le_refl|intros _; constructor]|].
  cbn [length] in L.
  destruct (Ascii.eqb_spec c "\") as [->|B].
  - rewrite raw_cons in E. change (Ascii.eqb "\" QUOTE) with false in E. change (Ascii.eqb "\" NL) with false in E.
    cbv iota in E. cbn [app] in E.
    destruct (body_backslash x s E) as (v & y & s' & [(-> & D & M)|(y' & s'' & -> & -> & D)]).
    + destruct (IH y s' ltac:(lia) D) as [A _]. split; [cbn [length]; lia|].
      intros H. apply (f_equal (@length jchar)) in H. unfold text in H. rewrite map_length in H. cbn [length] in H. lia.
    + cbn [length] in L. destruct (IH y' s'' ltac:(lia) D) as [A _]. split; [cbn [length]; lia|].
      intros H. discriminate.
  - destruct (is_control c) eqn:K.
    + destruct (Ascii.eqb_spec c NL) as [->|N].
      * unfold raw in E. rewrite body_step in E by (try discriminate; auto). fold (raw x) in E. rewrite ended_front in E.
        destruct (ended (string_body (raw x))) as [s'|] eqn:D; [|discriminate]. injection E as <-.
        destruct (IH x s' ltac:(lia) D) as [A P]. split; [cbn [length]; lia|].
        intros H. injection H as H. constructor; [split; [exact B|auto]|apply P; exact H].
      * exfalso. assert (Q : c <> """"%char) by (intro Q; subst c; discriminate).
        rewrite raw_cons in E. rewrite (eqb_false c QUOTE Q), (eqb_false c NL N) in E. cbn [app string_body] in E.
        rewrite (eqb_false c _ Q), (eqb_false c _ B), K in E. discriminate.
    + unfold raw in E. rewrite body_step in E by (auto; congruence). fold (raw x) in E. rewrite ended_front in E.
      destruct (ended (string_body (raw x))) as [s'|] eqn:D; [|discriminate]. injection E as <-.
      destruct (IH x s' ltac:(lia) D) as [A P]. split; [cbn [length]; lia|].
      intros H. injection H as H. constructor; [split; [exact B|congruence]|apply P; exact H].
Qed.

Lemma join_plain l : Forall plain l -> plain (join $""",""" l).
Proof.
  induction 1 as [|x l P F IH]; [constructor|]. cbn [join]. destruct l as [|y l]; [exact P|].
  apply Forall_app. split; [exact P|]. apply Forall_app. split; [|exact IH].
  repeat constructor; try discriminate.
Qed.
