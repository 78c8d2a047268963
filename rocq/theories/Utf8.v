(** UTF-8, as Rust's [str] requires it (Unicode standard, table 3-7). Specification and a checker. *)
From Verif Require Import Base.

(** The numeric value of a byte. *)
Definition val (c : ascii) : N := N_of_ascii c.
Definition between (lo hi : N) (c : ascii) : bool := ((lo <=? val c) && (val c <=? hi))%N.

(** One encoded character. *)
Inductive utf8_char : bytes -> Prop :=
| U1 a : between 0 127 a = true -> utf8_char [a]
| U2 a c : between 194 223 a = true -> between 128 191 c = true -> utf8_char [a; c]
| U3a a c d : val a = 224%N -> between 160 191 c = true -> between 128 191 d = true -> utf8_char [a; c; d]
| U3b a c d : between 225 236 a || between 238 239 a = true -> between 128 191 c = true -> between 128 191 d = true ->
    utf8_char [a; c; d]
| U3c a c d : val a = 237%N -> between 128 159 c = true -> between 128 191 d = true -> utf8_char [a; c; d]
| U4a a c d e : val a = 240%N -> between 144 191 c = true -> between 128 191 d = true -> between 128 191 e = true ->
    utf8_char [a; c; d; e]
| U4b a c d e : between 241 243 a = true -> between 128 191 c = true -> between 128 191 d = true -> between 128 191 e = true ->
    utf8_char [a; c; d; e]
| U4c a c d e : val a = 244%N -> between 128 143 c = true -> between 128 191 d = true -> between 128 191 e = true ->
    utf8_char [a; c; d; e].
(** A text: a sequence of characters. *)
Definition utf8 (s : bytes) : Prop := exists cs, Forall utf8_char cs /\ s = concat cs.

(** Bytes that can only occur inside a character. *)
Definition continuation (c : ascii) : bool := between 128 191 c.

(** A checker, by reading off one character at a time. *)
Definition char_len (s : bytes) : option nat :=
  match s with
  | [] => None
  | a :: r =>
      if between 0 127 a then Some 1 else
      match r with
      | [] => None
      | c :: r =>
          if between 194 223 a && between 128 191 c then Some 2 else
          match r with
          | [] => None
          | d :: r =>
              if ((val a =? 224)%N && between 160 191 c || (between 225 236 a || between 238 239 a) && between 128 191 c
                  || (val a =? 237)%N && between 128 159 c) && between 128 191 d then Some 3 else
              match r with
              | [] => None
              | e :: r =>
                  if ((val a =? 240)%N && between 144 191 c || between 241 243 a && between 128 191 c
                      || (val a =? 244)%N && between 128 143 c) && between 128 191 d && between 128 191 e then Some 4 else None
              end
          end
      end
  end.
Fixpoint check (fuel : nat) (s : bytes) : bool :=
  match s with
  | [] => true
  | _ => match fuel with
         | O => false
         | S f => match char_len s with Some n => check f (skipn n s) | None => false end
         end
  end.
Definition is_utf8 (s : bytes) : bool := check (length s) s.

(** ** facts *)
Lemma char_len_spec s n : char_len s = Some n <-> (exists c r, s = c ++ r /\ utf8_char c /\ length c = n).
Proof.
  split.
  - unfold char_len. destruct s as [|a r]; [discriminate|].
    destruct (between 0 127 a) eqn:E1; [intro H; injection H as <-; exists [a], r; repeat split; constructor; exact E1|].
    destruct r as [|c r]; [discriminate|].
    destruct (between 194 223 a && between 128 191 c) eqn:E2.
    { intro H; injection H as <-. apply andb_prop in E2 as []. exists [a; c], r. repeat split; constructor; assumption. }
    destruct r as [|d r]; [discriminate|].
    match goal with |- (if ?x then _ else _) = _ -> _ => destruct x eqn:E3 end.
    { intro H; injection H as <-. apply andb_prop in E3 as [E3 Ed]. exists [a; c; d], r. repeat split.
      apply orb_prop in E3 as [E3|E3]; [apply orb_prop in E3 as [E3|E3]|]; apply andb_prop in E3 as [E3 Ec].
      - apply U3a; [apply N.eqb_eq, E3|assumption..].
      - apply U3b; assumption.
      - apply U3c; [apply N.eqb_eq, E3|assumption..]. }
    destruct r as [|e r]; [discriminate|].
    match goal with |- (if ?x then _ else _) = _ -> _ => destruct x eqn:E4 end; [|discriminate].
    intro H; injection H as <-. apply andb_prop in E4 as [E4 Ee]. apply andb_prop in E4 as [E4 Ed]. exists [a; c; d; e], r. repeat split.
    apply orb_prop in E4 as [E4|E4]; [apply orb_prop in E4 as [E4|E4]|]; apply andb_prop in E4 as [E4 Ec].
    + apply U4a; [apply N.eqb_eq, E4|assumption..].
    + apply U4b; assumption.
    + apply U4c; [apply N.eqb_eq, E4|assumption..].
  - intros (ch & r & -> & U & <-).
    assert (B : forall lo hi x, between lo hi x = true <-> (lo <= val x <= hi)%N).
    { intros. unfold between. rewrite andb_true_iff, !N.leb_le. tauto. }
    assert (NB : forall lo hi x, (val x < lo \/ hi < val x)%N -> between lo hi x = false).
    { intros lo hi x H. destruct (between lo hi x) eqn:E; [apply B in E; lia|reflexivity]. }
    destruct U as [a H|a c H H0|a c d H H0 H1|a c d H H0 H1|a c d H H0 H1|a c d e H H0 H1 H2|a c d e H H0 H1 H2|a c d e H H0 H1 H2]; cbn [app char_len length];
      repeat match goal with H : (_ || _)%bool = true |- _ => apply orb_prop in H as [H|H] end;
      repeat match goal with H : between _ _ _ = true |- _ => pose proof (proj1 (B _ _ _) H); revert H end; intros;
      rewrite ?(NB 0%N 127%N a) by lia;
      rewrite ?(NB 194%N 223%N a) by lia;
      repeat match goal with H : between _ _ _ = true |- _ => rewrite H end; cbn [andb]; try reflexivity.
    all: repeat match goal with
      | |- context [between ?lo ?hi ?x] => first [rewrite (NB lo hi x) by lia|rewrite (proj2 (B lo hi x)) by lia]
      | |- context [(val ?x =? ?k)%N] =>
           first [rewrite (proj2 (N.eqb_eq (val x) k)) by lia|rewrite (proj2 (N.eqb_neq (val x) k)) by lia]
      end; rewrite ?andb_false_r, ?orb_false_r, ?orb_true_r; cbn; try reflexivity.
    all: match goal with |- (if ?x then _ else _) = _ => destruct x eqn:?; [reflexivity|] end.
    all: rewrite ?orb_false_r, ?orb_true_r in *; cbn in *; congruence.
Qed.
Lemma utf8_char_nonempty c : utf8_char c -> c <> [].
Proof. intro U; destruct U; discriminate. Qed.
Lemma utf8_nil : utf8 [].
Proof. exists []. split; constructor. Qed.
Lemma utf8_cons c s : utf8_char c -> utf8 s -> utf8 (c ++ s).
Proof. intros U (cs & F & ->). exists (c :: cs). split; [constructor; assumption|reflexivity]. Qed.
Lemma utf8_app x y : utf8 x -> utf8 y -> utf8 (x ++ y).
Proof. intros (a & F & ->) (c & G & ->). exists (a ++ c). rewrite concat_app. split; [apply Forall_app; auto|reflexivity]. Qed.

Lemma check_sound f s : check f s = true -> utf8 s.
Proof.
  revert s. induction f as [|f IH]; intros [|a s] H; try apply utf8_nil; [discriminate|].
  cbn [check] in H. destruct (char_len (a :: s)) as [n|] eqn:E; [|discriminate].
  apply char_len_spec in E as (c & r & E & U & L). rewrite E in *. subst n.
  rewrite skipn_app, skipn_all, Nat.sub_diag in H. apply utf8_cons; [exact U|apply IH, H].
Qed.
Lemma check_complete f s : length s <= f -> utf8 s -> check f s = true.
Proof.
  revert s. induction f as [|f IH]; intros s L (cs & F & E).
  - destruct s; [reflexivity|cbn in L; lia].
  - destruct cs as [|c cs]; [cbn in E; subst; reflexivity|]. inversion F as [|? ? U G]; subst.
    assert (K : char_len (c ++ concat cs) = Some (length c)) by (apply char_len_spec; exists c, (concat cs); auto).
    pose proof (utf8_char_nonempty c U) as NE. cbn [concat] in *.
    destruct c as [|a c]; [congruence|]. cbn [app check]. cbn [app] in K, L. rewrite K.
    change (skipn (length (a :: c)) (a :: c ++ concat cs)) with (skipn (length (a :: c)) ((a :: c) ++ concat cs)).
    rewrite skipn_app, skipn_all, Nat.sub_diag. apply IH; [|exists cs; auto].
    cbn [length] in L. rewrite app_length in L. cbn. lia.
Qed.
Lemma is_utf8_spec s : is_utf8 s = true <-> utf8 s.
Proof. split; [apply check_sound|apply check_complete; auto]. Qed.

Lemma between_spec lo hi c : between lo hi c = true <-> (lo <= val c <= hi)%N.
Proof. unfold between. rewrite andb_true_iff, !N.leb_le. tauto. Qed.

(** The first byte of a character is never a continuation byte, the others always are. *)
Lemma utf8_char_head a r : utf8_char (a :: r) -> continuation a = false /\ Forall (fun c => continuation c = true) r /\
  (between 0 127 a = true -> r = []).
Proof.
  assert (NB : forall lo hi x, (val x < lo \/ hi < val x)%N -> between lo hi x = false).
  { intros lo hi x H. destruct (between lo hi x) eqn:E; [apply between_spec in E; lia|reflexivity]. }
  intro U. unfold continuation.
  inversion U; subst;
    repeat match goal with H : (_ || _)%bool = true |- _ => apply orb_prop in H as [H|H] end;
    repeat match goal with H : between _ _ _ = true |- _ => apply between_spec in H end;
    (split; [apply NB; lia|]); (split; [repeat constructor; apply between_spec; lia|]);
    intro K; try reflexivity; apply between_spec in K; exfalso; lia.
Qed.
(** A text may be cut in front of any byte that is not a continuation byte. *)
Lemma utf8_cut x y : utf8 (x ++ y) -> (forall c r, y = c :: r -> continuation c = false) -> utf8 x /\ utf8 y.
Proof.
  intros (cs & F & E) Y. revert x E. induction F as [|c cs U F IH]; intros x E.
  - cbn in E. apply app_eq_nil in E as [-> ->]. split; apply utf8_nil.
  - cbn [concat] in E. apply app_eq_app in E as (l & [[-> E]|[E ->]]).
    + destruct (IH l (eq_sym E)) as [A B]. split; [apply utf8_cons; assumption|exact B].
    + destruct x as [|a x].
      { split; [apply utf8_nil|]. cbn in E. subst l. apply utf8_cons; [exact U|exists cs; auto]. }
      destruct l as [|d l].
      { rewrite app_nil_r in E. subst c. split.
        - rewrite <- (app_nil_r (a :: x)). apply utf8_cons; [exact U|apply utf8_nil].
        - exists cs. auto. }
      subst c. apply utf8_char_head in U as (_ & U & _). apply Forall_app in U as [_ U]. inversion U; subst.
      rewrite (Y d (l ++ concat cs) eq_refl) in *. discriminate.
Qed.
(** After a 7-bit byte comes the start of a character. *)
Lemma utf8_after_ascii x a y : utf8 (x ++ a :: y) -> between 0 127 a = true -> utf8 (x ++ [a]) /\ utf8 y.
Proof.
  intros U A. assert (C : continuation a = false).
  { unfold continuation. destruct (between 128 191 a) eqn:E; [|reflexivity]. apply between_spec in A, E. lia. }
  destruct (utf8_cut x (a :: y) U) as [X Y]; [intros c r E; injection E as <- _; exact C|].
  destruct Y as (cs & F & E). destruct F as [|c cs Uc F]; [discriminate|].
  pose proof (utf8_char_nonempty c Uc). destruct c as [|d c]; [congruence|]. cbn in E. injection E as <- E.
  destruct (utf8_char_head _ _ Uc) as (_ & _ & K). specialize (K A). subst c. cbn in E. split.
  - apply utf8_app; [exact X|]. exists [[a]]. split; [constructor; [apply U1, A|constructor]|reflexivity].
  - exists cs. auto.
Qed.
Lemma utf8_ascii s : Forall (fun c => between 0 127 c = true) s -> utf8 s.
Proof. intro F. exists (map (fun c => [c]) s). split.
  - apply Forall_map. eapply Forall_impl; [|exact F]. intros c H. apply U1, H.
  - clear F. induction s as [|c s IH]; [reflexivity|]. cbn. congruence.
Qed.
