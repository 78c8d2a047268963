From Verif Require Import Base DeqModel DeqSpec.

Section Proofs.
Context {T : Type} (dflt : T).

(** the queue holds the list [l] after [k] consumed slots *)
Definition holds (d : deq T) (l : list T) (k : nat) : Prop :=
  exists pre, buf d = pre ++ l /\ length pre = k /\ pos d = k.

Lemma holds_len d l k : holds d l k -> len d = Ret (length l).
Proof.
  intros (pre & E & L & P). unfold len. rewrite E, P, app_length, L.
  replace (k <=? k + length l) with true by (symmetry; apply Nat.leb_le; lia). f_equal. lia.
Qed.
Lemma holds_empty d l k : holds d l k -> is_empty d = Ret (match l with [] => true | _ => false end).
Proof. intro H. unfold is_empty. rewrite (holds_len _ _ _ H). destruct l; reflexivity. Qed.
Lemma holds_iter d l k : holds d l k -> iter d = l /\ as_slice d = Ret l.
Proof.
  intros (pre & E & L & P).
  assert (S : skipn (pos d) (buf d) = l).
  { rewrite E, P, <- L, skipn_app, skipn_all, Nat.sub_diag. reflexivity. }
  unfold iter, as_slice. rewrite S. split; [reflexivity|].
  rewrite E, P, app_length, L. replace (k <=? k + length l) with true by (symmetry; apply Nat.leb_le; lia). reflexivity.
Qed.
Lemma holds_get d l k i : holds d l k -> get d i = nth_error l i.
Proof.
  intros (pre & E & L & P). unfold get. rewrite E, P, nth_error_app2 by lia. f_equal. lia.
Qed.
Lemma holds_first d l k : holds d l k -> first d = nth_error l 0.
Proof. intro H. rewrite <- (holds_get d l k 0 H). reflexivity. Qed.
Lemma vec_pop_snoc (l : list T) x : vec_pop (l ++ [x]) = (Some x, l).
Proof. unfold vec_pop. rewrite rev_app_distr. simpl. rewrite rev_involutive. reflexivity. Qed.
Lemma holds_last d l k : holds d l k -> last d = Ret (nth_error (rev l) 0).
Proof.
  intro H. unfold last. rewrite (holds_empty d l k H). destruct H as (pre & E & L & P).
  destruct l as [|y l]; [reflexivity|].
  destruct (@exists_last _ (y :: l) ltac:(discriminate)) as (m & x & Em).
  rewrite Em in E |- *. rewrite E, app_assoc, vec_pop_snoc, rev_app_distr. reflexivity.
Qed.

Lemma set_nth_app (pre l : list T) y x :
  set_nth (pre ++ y :: l) (length pre) x = Ret (pre ++ x :: l).
Proof. induction pre as [|z pre IH]; simpl; [reflexivity|]. rewrite IH. reflexivity. Qed.

Lemma step_holds d l k o x s' :
  holds d l k -> list_step (l, k) o x s' ->
  exists d', step dflt d o = Ret (x, d') /\ holds d' (fst s') (snd s').
Proof.
  intros H ST. pose proof (holds_empty d l k H) as HE. destruct H as (pre & E & L & P).
  inversion ST; subst l x s' o; try subst k; cbn [step fst snd].
  - eexists; split; [reflexivity|]. exists pre. cbn [push buf DeqModel.pos]. rewrite E, app_assoc. auto.
  - eexists; split; [reflexivity|]. exists pre. cbn [extend buf DeqModel.pos]. rewrite E, app_assoc. auto.
  - unfold pop. rewrite HE. eexists; split; [reflexivity|]. exists pre. auto.
  - unfold pop. rewrite HE. rewrite E, app_assoc, vec_pop_snoc.
    destruct (l0 ++ [x0]) eqn:Z; [destruct l0; discriminate|].
    eexists; split; [reflexivity|]. exists pre. auto.
  - unfold pop_front. rewrite HE. eexists; split; [reflexivity|]. exists pre. auto.
  - unfold pop_front. rewrite HE, P, E.
    rewrite nth_error_app2, Nat.sub_diag by lia. cbn [nth_error]. rewrite set_nth_app.
    eexists; split; [reflexivity|]. exists (pre ++ [dflt]). cbn [buf DeqModel.pos].
    rewrite <- app_assoc, app_length. cbn [app length]. repeat split; lia.
  - eexists; split; [reflexivity|]. exists (pre ++ [x0]). cbn [remove_first buf DeqModel.pos].
    rewrite E, <- app_assoc, app_length, P. cbn [app length]. repeat split; lia.
  - assert (pre = []) as -> by (destruct pre; [reflexivity|discriminate]). eexists; split; [reflexivity|]. exists [].
    cbn [truncate buf DeqModel.pos]. rewrite E. auto.
  - unfold restore_front. rewrite P.
    destruct (@exists_last _ pre) as (p & y & ->); [destruct pre; discriminate|].
    match goal with H : S _ = length (p ++ [y]) |- _ => rewrite app_length in H; cbn [length] in H end.
    assert (k0 = length p) as -> by lia. rewrite app_length. cbn [length].
    replace (length p + 1) with (S (length p)) by lia.
    rewrite E, <- app_assoc. cbn [app]. rewrite set_nth_app.
    eexists; split; [reflexivity|]. exists p. auto.
  - unfold slowly_push_front. rewrite P. destruct pre as [|z pre] using rev_ind.
    + cbn [length]. eexists; split; [reflexivity|]. exists []. cbn [buf DeqModel.pos] in *. rewrite E. auto.
    + clear IHpre. rewrite app_length. cbn [length]. replace (length pre + 1) with (S (length pre)) by lia.
      rewrite E, <- app_assoc. cbn [app]. rewrite set_nth_app.
      eexists; split; [reflexivity|]. exists pre. auto.
  - eexists; split; [reflexivity|]. exists []. auto.
Qed.

Lemma run_holds d s h xs s' :
  holds d (fst s) (snd s) -> list_run s h xs s' ->
  exists d', run dflt d h = Ret (xs, d') /\ holds d' (fst s') (snd s').
Proof.
  intros H R. revert d H. induction R as [s|s o x s1 h xs s2 S R IH]; intros d H.
  - exists d. split; [reflexivity|exact H].
  - destruct s as [l k]. destruct (step_holds d l k o x s1 H S) as (d1 & E1 & H1).
    destruct (IH d1 H1) as (d2 & E2 & H2). exists d2. cbn [run]. rewrite E1, E2. auto.
Qed.

Lemma from_vec_holds l : holds (from_vec l) l 0.
Proof. exists []. auto. Qed.
Lemma new_holds : holds new [] 0.
Proof. exists []. auto. Qed.

Lemma observe d l k : holds d l k ->
  len d = Ret (length l) /\ is_empty d = Ret (match l with [] => true | _ => false end) /\
  iter d = l /\ as_slice d = Ret l /\ first d = nth_error l 0 /\ last d = Ret (nth_error (rev l) 0) /\
  (forall i, get d i = nth_error l i).
Proof.
  intro H. destruct (holds_iter _ _ _ H). repeat split; eauto using holds_len, holds_empty, holds_first, holds_last, holds_get.
Qed.

Lemma refinement l h xs l' k' :
  list_run (l, 0) h xs (l', k') ->
  exists d, run dflt (from_vec l) h = Ret (xs, d) /\
    len d = Ret (length l') /\ is_empty d = Ret (match l' with [] => true | _ => false end) /\
    iter d = l' /\ as_slice d = Ret l' /\ first d = nth_error l' 0 /\ last d = Ret (nth_error (rev l') 0) /\
    (forall i, get d i = nth_error l' i).
Proof.
  intro R. destruct (run_holds (from_vec l) (l, 0) h xs (l', k') (from_vec_holds l) R) as (d & E & H).
  exists d. split; [exact E|]. apply (observe d l' k' H).
Qed.

(** the list semantics is functional, and total except for its documented restrictions *)
Lemma list_step_fun (s : list T * nat) o x1 s1 x2 s2 : list_step s o x1 s1 -> list_step s o x2 s2 -> x1 = x2 /\ s1 = s2.
Proof.
  intros H1 H2. inversion H1; subst; inversion H2; subst; auto;
  repeat match goal with
  | H : (_, _) = (_, _) |- _ => injection H as ? ?; subst
  end;
  try (match goal with
  | H : ?l ++ [_] = ?m ++ [_] |- _ => apply app_inj_tail in H as [-> ->]; auto
  | H : [] = ?l ++ [_] |- _ => destruct l; discriminate
  | H : ?l ++ [_] = [] |- _ => destruct l; discriminate
  end).
Qed.
Lemma list_step_total (l : list T) k o :
  (exists x s', list_step (l, k) o x s') <->
  match o with
  | ORemoveFirst => l <> []
  | OTruncate _ => k = 0
  | ORestoreFront _ => k <> 0
  | _ => True
  end.
Proof.
  split.
  - intros (x & s' & H). inversion H; subst; auto; discriminate.
  - destruct o; intro C; try (do 2 eexists; constructor; fail).
    + destruct l as [|y l]; [do 2 eexists; constructor|].
      destruct (@exists_last _ (y :: l) ltac:(discriminate)) as (m & x & E). rewrite E.
      do 2 eexists; constructor.
    + destruct l; do 2 eexists; constructor.
    + destruct l; [congruence|]. do 2 eexists; constructor.
    + subst k. do 2 eexists; constructor.
    + destruct k; [congruence|]. do 2 eexists; constructor.
Qed.
End Proofs.
