(** Shared basics: byte strings, results, decimal rendering. No model content. *)
From Coq Require Export String Ascii.
From Coq Require Export List Arith ZArith NArith Bool Lia.
From Coq Require Import DecimalString DecimalNat DecimalFacts.
Export ListNotations.

(** Rust [Result<A, E>]; the error payload is kept only where it is observable. *)
Inductive result (A E : Type) : Type :=
| Ok (a : A)
| Err (e : E).
Arguments Ok {A E} _.
Arguments Err {A E} _.

(** A computation that may panic (index out of range, [unwrap] on [None], overflow ...). *)
Inductive outcome (A : Type) : Type :=
| Ret (a : A)
| Panic.
Arguments Ret {A} _.
Arguments Panic {A}.

(** Byte strings (Rust [&str] seen as its UTF-8 bytes; [ascii] is an 8-bit byte). *)
Definition bytes := list ascii.
Definition b (s : string) : bytes := list_ascii_of_string s.
Notation "$ s" := (b s%string) (at level 1, format "$ s").

Definition byte_eqb : ascii -> ascii -> bool := Ascii.eqb.

Fixpoint bytes_eqb (x y : bytes) : bool :=
  match x, y with
  | [], [] => true
  | c :: x', d :: y' => Ascii.eqb c d && bytes_eqb x' y'
  | _, _ => false
  end.

Lemma bytes_eqb_eq x y : bytes_eqb x y = true <-> x = y.
Proof.
  revert y; induction x as [|c x IH]; intros [|d y]; simpl; split; intro H; try discriminate; auto.
  - apply andb_prop in H as [H1 H2]. apply Ascii.eqb_eq in H1. apply IH in H2. congruence.
  - injection H as -> ->. rewrite Ascii.eqb_refl. simpl. apply IH. reflexivity.
Qed.

Lemma bytes_eqb_refl x : bytes_eqb x x = true.
Proof. apply bytes_eqb_eq; reflexivity. Qed.

(** Decimal rendering of a natural number, as Rust's [format!("{n}")]. *)
Definition dec (n : nat) : string := NilZero.string_of_uint (Nat.to_uint n).

Lemma nilempty_inj d d' :
  NilEmpty.string_of_uint d = NilEmpty.string_of_uint d' -> d = d'.
Proof.
  intro H. apply (f_equal NilEmpty.uint_of_string) in H.
  rewrite !NilEmpty.usu in H. congruence.
Qed.

Lemma nat_to_uint_nonnil n : Nat.to_uint n <> Decimal.Nil.
Proof.
  intro H. pose proof (DecimalNat.Unsigned.to_of (Nat.to_uint n)) as E.
  rewrite DecimalNat.Unsigned.of_to, H in E. vm_compute in E. discriminate.
Qed.

Lemma dec_inj n m : dec n = dec m -> n = m.
Proof.
  unfold dec, NilZero.string_of_uint. intro H.
  pose proof (nat_to_uint_nonnil n) as Hn. pose proof (nat_to_uint_nonnil m) as Hm.
  apply DecimalNat.Unsigned.to_uint_inj.
  destruct (Nat.to_uint n) eqn:En; destruct (Nat.to_uint m) eqn:Em; try congruence;
    apply nilempty_inj; exact H.
Qed.

Lemma string_app_inv_head s t u : String.append s t = String.append s u -> t = u.
Proof. induction s as [|c s IH]; simpl; intro H; [exact H|injection H as H; auto]. Qed.

Lemma dec_suffix_inj p n m : String.append p (dec n) = String.append p (dec m) -> n = m.
Proof. intro H. apply dec_inj. eapply string_app_inv_head; eauto. Qed.

(** Rust [str::split(c)] on bytes: always at least one part. *)
Fixpoint split_byte (c : ascii) (s : bytes) : list bytes :=
  match s with
  | [] => [[]]
  | d :: r =>
      if Ascii.eqb d c then [] :: split_byte c r
      else match split_byte c r with
           | h :: t => (d :: h) :: t
           | [] => [[d]]
           end
  end.
Fixpoint join_byte (c : ascii) (ps : list bytes) : bytes :=
  match ps with
  | [] => []
  | [p] => p
  | p :: r => p ++ c :: join_byte c r
  end.
Lemma split_byte_nonnil c s : split_byte c s <> [].
Proof. destruct s as [|d s]; simpl; [discriminate|]. destruct (Ascii.eqb d c); [discriminate|]. destruct (split_byte c s); discriminate. Qed.
Lemma split_byte_one c p : ~ In c p -> split_byte c p = [p].
Proof.
  induction p as [|d p IH]; intro N; [reflexivity|]. simpl.
  destruct (Ascii.eqb_spec d c) as [->|NE]; [exfalso; apply N; left; reflexivity|].
  rewrite IH by (intro I; apply N; right; exact I). reflexivity.
Qed.
Lemma split_byte_app c p r : ~ In c p -> split_byte c (p ++ c :: r) = p :: split_byte c r.
Proof.
  induction p as [|d p IH]; intro N; simpl.
  - rewrite Ascii.eqb_refl. reflexivity.
  - destruct (Ascii.eqb_spec d c) as [->|NE]; [exfalso; apply N; left; reflexivity|].
    rewrite IH by (intro I; apply N; right; exact I). reflexivity.
Qed.
Lemma split_join c ps : ps <> [] -> Forall (fun p => ~ In c p) ps -> split_byte c (join_byte c ps) = ps.
Proof.
  induction ps as [|p ps IH]; intros NE F; [congruence|].
  inversion F as [|? ? F1 F2]; subst. destruct ps as [|q ps].
  - simpl. apply split_byte_one, F1.
  - change (join_byte c (p :: q :: ps)) with (p ++ c :: join_byte c (q :: ps)).
    rewrite split_byte_app, IH; auto; discriminate.
Qed.
Lemma split_byte_parts c s : Forall (fun p => ~ In c p) (split_byte c s) /\ join_byte c (split_byte c s) = s.
Proof.
  induction s as [|d s [F E]]; simpl.
  - split; [constructor; [intros []|constructor]|reflexivity].
  - pose proof (split_byte_nonnil c s) as NN. destruct (Ascii.eqb_spec d c) as [->|NE].
    + split; [constructor; [intros []|exact F]|]. destruct (split_byte c s); [congruence|].
      change (join_byte c ([] :: b0 :: l)) with (c :: join_byte c (b0 :: l)). congruence.
    + destruct (split_byte c s) as [|h t]; [congruence|]. inversion F; subst. split.
      * constructor; [|assumption]. intros [I|I]; [congruence|contradiction].
      * destruct t; reflexivity.
Qed.

(** substring search helpers on bytes *)
Fixpoint starts_with (p s : bytes) : bool :=
  match p, s with
  | [], _ => true
  | c :: p', d :: s' => Ascii.eqb c d && starts_with p' s'
  | _ :: _, [] => false
  end.
Lemma starts_with_spec p s : starts_with p s = true <-> exists r, s = p ++ r.
Proof.
  revert s; induction p as [|c p IH]; intros s; simpl.
  - split; [intros _; exists s; reflexivity|reflexivity].
  - destruct s as [|d s]; [split; [discriminate|intros (r & E); discriminate]|].
    rewrite andb_true_iff, Ascii.eqb_eq, IH. split.
    + intros [-> (r & ->)]. exists r. reflexivity.
    + intros (r & E). injection E as -> ->. split; [reflexivity|exists r; reflexivity].
Qed.
Definition contains_byte (c : ascii) (s : bytes) : bool := existsb (Ascii.eqb c) s.
Lemma contains_byte_spec c s : contains_byte c s = true <-> In c s.
Proof.
  unfold contains_byte. rewrite existsb_exists. split.
  - intros (x & I & E). apply Ascii.eqb_eq in E. congruence.
  - intro I. exists c. split; [exact I|apply Ascii.eqb_refl].
Qed.
Lemma contains_byte_false c s : contains_byte c s = false <-> ~ In c s.
Proof. rewrite <- contains_byte_spec. destruct (contains_byte c s); intuition congruence. Qed.
