(** Lemmas for RevLineProps. *)
From Coq Require Import Lia.
From Verif Require Import Base Text Unicode CollectTextModel AuthorLineModel AuthorLineSpec AuthorLineProofs RevLineModel RevLineSpec.

(** ** What may be found *)
Lemma in_seq a b s e : In e (seq a b s) <-> exists x, In x (a s) /\ In e (b x).
Proof. unfold seq. apply in_flat_map. Qed.
Lemma in_maybe a s e : In e (maybe a s) <-> In e (a s) \/ e = s.
Proof. unfold maybe. rewrite in_app_iff. cbn. intuition. Qed.
Lemma in_one f p s c e : In e (one f (RS p s c)) <-> exists x r, s = x :: r /\ f x = true /\ e = RS (Some x) r c.
Proof.
  unfold one. cbn [rest caps]. destruct s as [|x r]; [split; [intros []|intros (y & z & H & _); discriminate]|].
  destruct (f x) eqn:F; cbn.
  - split; [intros [<-|[]]; eauto|intros (y & z & H & _ & ->); injection H as -> ->; now left].
  - split; [intros []|]. intros (y & z & H & G & _). injection H as -> ->. congruence.
Qed.
Definition run_of (f : N -> bool) (p : option N) (s : text) (c : list (nat * text)) (e : rstate) : Prop :=
  exists t r, s = t ++ r /\ Forall (fun x => f x = true) t /\ e = RS (end_of p t) r c.
Lemma end_of_cons p x t : end_of (Some x) t = end_of p (x :: t).
Proof. destruct t; reflexivity. Qed.
Lemma in_star_ f n : forall p s c e, length s <= n -> In e (star_ n (one f) (RS p s c)) <-> run_of f p s c e.
Proof.
  induction n as [|n IH]; intros p s c e L.
  - destruct s; [|cbn in L; lia]. cbn. split.
    + intros [<-|[]]. exists [], []. auto.
    + intros (t & r & E & F & ->). symmetry in E. apply app_eq_nil in E as [-> ->]. now left.
  - cbn [star_]. rewrite in_app_iff, in_flat_map. split.
    + intros [(x & X & E)|[<-|[]]]; [|exists [], s; auto].
      apply in_one in X as (y & r & -> & F & ->). apply IH in E as (t & r' & -> & G & ->); [|cbn in L; lia].
      exists (y :: t), r'. repeat split; [constructor; assumption|]. now rewrite (end_of_cons p).
    + intros (t & r & -> & F & ->). destruct t as [|y t]; [right; left; reflexivity|]. left. inversion F; subst.
      exists (RS (Some y) (t ++ r) c). split; [apply in_one; exists y, (t ++ r); auto|]. apply IH; [cbn in L; lia|]. exists t, r. repeat split; auto. now rewrite (end_of_cons p).
Qed.
Lemma in_star f p s c e : In e (star (one f) (RS p s c)) <-> run_of f p s c e.
Proof. unfold star. apply in_star_. auto. Qed.
Lemma in_lazy_star_ f n : forall p s c e, length s <= n -> In e (lazy_star_ n (one f) (RS p s c)) <-> run_of f p s c e.
Proof.
  induction n as [|n IH]; intros p s c e L.
  - destruct s; [|cbn in L; lia]. cbn. split.
    + intros [<-|[]]. exists [], []. auto.
    + intros (t & r & E & F & ->). symmetry in E. apply app_eq_nil in E as [-> ->]. now left.
  - cbn [lazy_star_]. cbn [In]. rewrite in_flat_map. split.
    + intros [<-|(x & X & E)]; [exists [], s; auto|].
      apply in_one in X as (y & r & -> & F & ->). apply IH in E as (t & r' & -> & G & ->); [|cbn in L; lia].
      exists (y :: t), r'. repeat split; [constructor; assumption|]. now rewrite (end_of_cons p).
    + intros (t & r & -> & F & ->). destruct t as [|y t]; [left; reflexivity|]. right. inversion F; subst.
      exists (RS (Some y) (t ++ r) c). split; [apply in_one; exists y, (t ++ r); auto|]. apply IH; [cbn in L; lia|]. exists t, r. repeat split; auto. now rewrite (end_of_cons p).
Qed.
Definition run1_of (f : N -> bool) (p : option N) (s : text) (c : list (nat * text)) (e : rstate) : Prop :=
  exists t r, s = t ++ r /\ t <> [] /\ Forall (fun x => f x = true) t /\ e = RS (end_of p t) r c.
Lemma run1_intro f p s c e (R : regex) : (forall p s c e, In e (R (RS p s c)) <-> run_of f p s c e) -> In e (seq (one f) R (RS p s c)) <-> run1_of f p s c e.
Proof.
  intros H. rewrite in_seq. split.
  - intros (x & X & E). apply in_one in X as (y & r & -> & F & ->). apply H in E as (t & r' & -> & G & ->).
    exists (y :: t), r'. repeat split; [discriminate|constructor; assumption|]. now rewrite (end_of_cons p).
  - intros (t & r & -> & N & F & ->). destruct t as [|y t]; [congruence|]. inversion F; subst.
    exists (RS (Some y) (t ++ r) c). split; [apply in_one; exists y, (t ++ r); auto|]. apply H. exists t, r. repeat split; auto. now rewrite (end_of_cons p).
Qed.
Lemma in_plus f p s c e : In e (plus (one f) (RS p s c)) <-> run1_of f p s c e.
Proof. unfold plus. apply run1_intro. intros. apply in_star. Qed.
Lemma in_lazy_plus f p s c e : In e (lazy_plus (one f) (RS p s c)) <-> run1_of f p s c e.
Proof. unfold lazy_plus. apply run1_intro. intros. cbn [rest]. apply in_lazy_star_. auto. Qed.
Lemma in_at_end s e : In e (at_end s) <-> e = s /\ rest s = [].
Proof. unfold at_end. destruct (rest s); cbn; intuition congruence. Qed.

(** ** What is found first, with what comes behind *)
Lemma flat_map_flat_map {A B C} (f : A -> list B) (g : B -> list C) l : flat_map g (flat_map f l) = flat_map (fun x => flat_map g (f x)) l.
Proof. induction l as [|x l IH]; [reflexivity|]. cbn. now rewrite flat_map_app, IH. Qed.
Lemma seq_seq_finds a b k s x e : finds a s x -> finds (seq b k) x e -> finds (seq (seq a b) k) s e.
Proof. intros [l A] [m M]. unfold finds, seq in *. rewrite A. cbn [flat_map]. rewrite flat_map_app, M. eexists. reflexivity. Qed.
Lemma maybe_seq_finds a k s e : finds (seq a k) s e -> finds (seq (maybe a) k) s e.
Proof. intros [l A]. unfold finds, seq, maybe in *. rewrite flat_map_app, A. eexists. reflexivity. Qed.
Lemma maybe_seq_skips a k s e : a s = [] -> finds k s e -> finds (seq (maybe a) k) s e.
Proof. intros A [l K]. unfold finds, seq, maybe. rewrite A. cbn. rewrite K. eexists. reflexivity. Qed.
Definition close (n : nat) (s e : rstate) : rstate := RS (prev e) (rest e) ((n, firstn (length (rest s) - length (rest e)) (rest s)) :: caps e).
Lemma group_seq n a k s : seq (group n a) k s = seq a (fun e => k (close n s e)) s.
Proof. unfold seq, group, close. induction (a s) as [|x l IH]; [reflexivity|]. cbn. now rewrite IH. Qed.
(** a run that only its whole length satisfies is found though the shortest is asked for *)
Lemma lazy_star_finds f k t : forall n p r c e, length t <= n -> Forall (fun x => f x = true) t -> (forall x y q, f x = true -> k (RS q (x :: y) c) = []) ->
  finds k (RS (end_of p t) r c) e -> finds (seq (lazy_star_ n (one f)) k) (RS p (t ++ r) c) e.
Proof.
  induction t as [|x t IH]; intros n p r c e L F K E.
  - destruct E as [l E]. unfold finds, seq. destruct n; cbn [lazy_star_ flat_map app end_of] in *; rewrite E; eexists; reflexivity.
  - destruct n as [|n]; [cbn in L; lia|]. inversion F; subst. cbn in L.
    assert (E' : finds (seq (lazy_star_ n (one f)) k) (RS (Some x) (t ++ r) c) e) by (apply IH; [lia|assumption|assumption|now rewrite (end_of_cons p)]).
    destruct E' as [l E']. unfold finds, seq in *. cbn [lazy_star_ flat_map app]. rewrite K by assumption.
    unfold one at 2. cbn [rest caps]. rewrite H1. cbn [flat_map app]. rewrite app_nil_r, E'. eexists. reflexivity.
Qed.
Lemma lazy_plus_finds f k t p r c e : t <> [] -> Forall (fun x => f x = true) t -> (forall x y q, f x = true -> k (RS q (x :: y) c) = []) ->
  finds k (RS (end_of p t) r c) e -> finds (seq (lazy_plus (one f)) k) (RS p (t ++ r) c) e.
Proof.
  intros N F K E. destruct t as [|x t]; [congruence|]. inversion F; subst. unfold lazy_plus.
  apply seq_seq_finds with (x := RS (Some x) (t ++ r) c); [apply one_finds; assumption|].
  apply lazy_star_finds; [cbn; rewrite app_length; lia|assumption|assumption|now rewrite (end_of_cons p)].
Qed.

(** ** The expression *)
Definition date_re : regex := seq (one (is comma)) (seq (star (one is_white)) (group 2 (lazy_plus (one (not_in [colon] false))))).
Definition remark_re : regex := seq (one (is colon)) (seq (star (one is_white)) (group 3 (plus (one (not_in [newline] false))))).
Lemma firstn_part {A} (x r : list A) : firstn (length (x ++ r) - length r) (x ++ r) = x.
Proof. apply firstn_here. Qed.
Lemma starts_stops w x : starts_black x -> forall r, stops is_white (x ++ r) /\ (blank w -> Forall (fun c => is_white c = true) w).
Proof. intros (c & z & -> & C) r. split; [exact C|]. intros B. apply Forall_forall. exact B. Qed.
Lemma starts_nonempty x : starts_black x -> x <> [].
Proof. intros (c & z & -> & _). discriminate. Qed.
Lemma not_in_all l x : (forall c, In c l -> ~ In c x) -> Forall (fun c => not_in l false c = true) x.
Proof. intros H. apply Forall_forall. intros c C. apply not_in_true; [|discriminate]. intros y Y ->. now apply (H y). Qed.

Lemma remark_none p s c : (forall r, s <> colon :: r) -> remark_re (RS p s c) = [].
Proof. intros H. unfold remark_re. unfold seq at 1. rewrite one_stops; [reflexivity|]. destruct s as [|x r]; [exact I|]. apply N.eqb_neq. intros ->. now apply (H r). Qed.
Lemma date_none p s c : (forall r, s <> comma :: r) -> date_re (RS p s c) = [].
Proof. intros H. unfold date_re. unfold seq at 1. rewrite one_stops; [reflexivity|]. destruct s as [|x r]; [exact I|]. apply N.eqb_neq. intros ->. now apply (H r). Qed.

Definition cap_of (n : nat) (o : option (text * text)) : list (nat * text) := match o with Some (_, x) => [(n, x)] | None => [] end.
Lemma remark_finds p o c : (forall w x, o = Some (w, x) -> blank w /\ remark_ok x) -> exists q, finds (seq (maybe remark_re) at_end) (RS p (part colon o) c) (RS q [] (cap_of 3 o ++ c)).
Proof.
  intros O. destruct o as [[w x]|]; cbn [part cap_of app].
  - destruct (O w x eq_refl) as [W [B N]]. destruct (starts_stops w x B []) as [S F]. rewrite app_nil_r in S.
    eexists. eapply seq_finds; [apply maybe_finds; unfold remark_re|].
    + eapply seq_finds; [apply one_finds; apply N.eqb_refl|]. eapply seq_finds; [apply star_finds; [exact (F W)|exact S]|].
      pose proof (group_finds 3 (plus (one (not_in [newline] false))) (end_of (Some colon) w) x [] c) as G. rewrite app_nil_r in G. apply G.
      replace x with (x ++ []) at 1 by apply app_nil_r. apply plus_finds; [now apply starts_nonempty| |exact I].
      apply not_in_all. intros y [<-|[]]. exact N.
    + eexists. reflexivity.
  - exists p. apply maybe_seq_skips; [apply remark_none; discriminate|]. eexists. reflexivity.
Qed.
Lemma part_head sign o x y : part sign o = x :: y -> x = sign.
Proof. destruct o as [[w z]|]; [|discriminate]. cbn. intros H. now injection H. Qed.
Lemma tail_none p x y c : x <> colon -> seq (maybe remark_re) at_end (RS p (x :: y) c) = [].
Proof. intros X. unfold seq, maybe. rewrite remark_none; [reflexivity|]. intros r H. injection H as -> _. congruence. Qed.

Lemma date_finds p d r c : (forall w x, d = Some (w, x) -> blank w /\ date_ok x) -> (forall w x, r = Some (w, x) -> blank w /\ remark_ok x) ->
  exists q, finds (seq (maybe date_re) (seq (maybe remark_re) at_end)) (RS p (part comma d ++ part colon r) c) (RS q [] (cap_of 3 r ++ cap_of 2 d ++ c)).
Proof.
  intros D R. destruct d as [[w x]|]; cbn [part cap_of app].
  - destruct (D w x eq_refl) as [W [B N]]. destruct (starts_stops w x B (part colon r)) as [S F].
    destruct (remark_finds (end_of (end_of (Some comma) w) x) r ((2, x) :: c) R) as [q Q]. exists q.
    apply maybe_seq_finds. unfold date_re. eapply seq_seq_finds; [apply one_finds; apply N.eqb_refl|].
    rewrite <- app_assoc. eapply seq_seq_finds; [apply star_finds; [exact (F W)|exact S]|].
    unfold finds. rewrite group_seq. apply lazy_plus_finds; [now apply starts_nonempty| | |].
    + apply not_in_all. intros y [<-|[]]. exact N.
    + intros y z q0 Y. unfold close. apply tail_none. intros ->. discriminate.
    + unfold finds, close. cbn [prev rest caps]. rewrite firstn_part. exact Q.
  - destruct (remark_finds p r c R) as [q Q]. exists q. apply maybe_seq_skips; [|exact Q]. apply date_none. intros z H. apply part_head in H. discriminate.
Qed.

Lemma version_class v : version_ok v -> v <> [] /\ Forall (fun c => not_in [comma; colon] true c = true) v.
Proof.
  intros [A (c & C & _)]. split; [intros ->; destruct C|]. apply Forall_forall. intros x X. destruct (A x X) as (W & C1 & C2).
  apply not_in_true; [|auto]. intros y [<-|[<-|[]]]; assumption.
Qed.
Lemma rest_stops d r : stops (not_in [comma; colon] true) (part comma d ++ part colon r).
Proof. destruct d as [[w x]|]; [reflexivity|]. destruct r as [[w x]|]; [reflexivity|exact I]. Qed.
Lemma revision_finds r : revision_ok r -> exists q, finds revision_re (RS None (rev_line r) []) (RS q [] (cap_of 3 (r_remark r) ++ cap_of 2 (r_date r) ++ [(1, r_version r)])).
Proof.
  intros (V & D & R). apply version_class in V as [V1 V2]. unfold revision_re, rev_line.
  destruct (date_finds (end_of None (r_version r)) (r_date r) (r_remark r) [(1, r_version r)] D R) as [q Q]. exists q.
  eapply seq_finds; [apply group_finds; apply plus_finds; [exact V1|exact V2|apply rest_stops]|exact Q].
Qed.

(** ** The parts *)
Lemma from_digit_some digit v : (exists c, In c v /\ digit c = true) -> exists n, from_digit digit v = Some n /\ number_of digit v n.
Proof.
  induction v as [|x v IH]; intros (c & C & D); [destruct C|]. cbn [from_digit]. destruct (digit x) eqn:X.
  - exists (x :: v). split; [reflexivity|]. exists [], x, v. repeat split; auto. intros y [].
  - destruct C as [->|C]; [congruence|]. destruct IH as (n & N & p & y & r & E & -> & Y & A); [eauto|]. exists (y :: r). split; [exact N|].
    exists (x :: p), y, r. repeat split; [cbn; now rewrite E|exact Y|]. intros z [<-|Z]; [exact X|now apply A].
Qed.
Lemma number_unique digit v n m : number_of digit v n -> number_of digit v m -> n = m.
Proof.
  intros (p & c & r & -> & -> & C & A) (p' & c' & r' & E & -> & C' & A'). revert p' A' E. induction p as [|x p IH]; intros [|y p'] A' E; cbn in E.
  - exact E.
  - injection E as -> _. rewrite (A' y) in C by now left. discriminate.
  - injection E as -> _. rewrite (A c') in C' by now left. discriminate.
  - injection E as -> E. apply (IH (fun z Z => A z (or_intror Z)) p'); [|exact E]. intros z Z. apply A'. now right.
Qed.
Lemma lone_iff digit v : digits_ok digit -> (forall c, In c v -> is_white c = false) ->
  (lone_re digit (RS None v []) <> [] <-> exists d x r, v = letter_v :: d :: x :: r /\ digit d = true).
Proof.
  intros [_ DW] W. split.
  - intros H. destruct (lone_re digit (RS None v [])) as [|e l] eqn:E; [congruence|]. assert (I : In e (lone_re digit (RS None v []))) by (rewrite E; now left).
    apply in_seq in I as (s & S & I). apply in_one in S as (x & r & -> & X & ->). apply N.eqb_eq in X as ->.
    apply in_seq in I as (s & S & I). unfold group in S. apply in_map_iff in S as (s' & <- & S). apply in_seq in S as (u & U & S). apply in_one in U as (d & r' & -> & D & ->).
    apply in_plus in S as (t & r & -> & T & F & ->). destruct t as [|y t]; [congruence|]. exists d, y, (t ++ r). auto.
  - intros (d & x & r & -> & D) H.
    assert (F : finds (lone_re digit) (RS None (letter_v :: d :: x :: r) []) (RS (end_of (Some d) (x :: r)) [] [(1, d :: x :: r)])).
    { unfold lone_re. eapply seq_finds; [apply one_finds; apply N.eqb_refl|]. apply seq_finds with (x := RS (end_of (Some d) (x :: r)) [] [(1, d :: x :: r)]); [|eexists; reflexivity].
      pose proof (group_finds 1 (seq (one digit) (plus (one (not_in [] true)))) (Some letter_v) (d :: x :: r) [] []) as G. rewrite app_nil_r in G. apply G.
      eapply seq_finds; [apply one_finds; exact D|]. replace (x :: r) with ((x :: r) ++ []) at 1 by apply app_nil_r. apply plus_finds; [discriminate| |exact I].
      apply Forall_forall. intros y Y. apply not_in_true; [intros z []|]. intros _. apply W. right. now right. }
    destruct F as [l F]. congruence.
Qed.

(** ** What is taken *)
Lemma Forall_not_in l x w : Forall (fun c => not_in l w c = true) x -> forall c, In c l -> ~ In c x.
Proof. intros F c C X. rewrite Forall_forall in F. specialize (F c X). rewrite not_in_sign in F; [discriminate|exact C]. Qed.
Lemma date_in p s c e : In e (date_re (RS p s c)) -> exists w d r, s = part comma (Some (w, d)) ++ r /\ blank w /\ d <> [] /\ ~ In colon d /\ rest e = r /\ caps e = (2, d) :: c.
Proof.
  intros I. apply in_seq in I as (s1 & S & I). apply in_one in S as (x & r & -> & X & ->). apply N.eqb_eq in X as ->.
  apply in_seq in I as (s2 & S & I). apply in_star in S as (w & r' & -> & W & ->).
  unfold group in I. apply in_map_iff in I as (s3 & <- & S). apply in_lazy_plus in S as (d & r & -> & N & F & ->).
  exists w, d, r. cbn [rest prev caps part]. rewrite firstn_part. cbn [app]. rewrite <- app_assoc. repeat split; auto.
  - intros x Hx. rewrite Forall_forall in W. now apply W.
  - apply (Forall_not_in [colon] d false F). now left.
Qed.
Lemma remark_in p s c e : In e (remark_re (RS p s c)) -> exists w d r, s = part colon (Some (w, d)) ++ r /\ blank w /\ d <> [] /\ ~ In newline d /\ rest e = r /\ caps e = (3, d) :: c.
Proof.
  intros I. apply in_seq in I as (s1 & S & I). apply in_one in S as (x & r & -> & X & ->). apply N.eqb_eq in X as ->.
  apply in_seq in I as (s2 & S & I). apply in_star in S as (w & r' & -> & W & ->).
  unfold group in I. apply in_map_iff in I as (s3 & <- & S). apply in_plus in S as (d & r & -> & N & F & ->).
  exists w, d, r. cbn [rest prev caps part]. rewrite firstn_part. cbn [app]. rewrite <- app_assoc. repeat split; auto.
  - intros x Hx. rewrite Forall_forall in W. now apply W.
  - apply (Forall_not_in [newline] d false F). now left.
Qed.
Lemma revision_in s e : In e (revision_re (RS None s [])) -> exists v d r, s = rev_line (Revision v d r) /\ v <> [] /\ all (fun c => is_white c = false /\ c <> comma /\ c <> colon) v /\
  (forall w x, d = Some (w, x) -> blank w /\ x <> [] /\ ~ In colon x) /\ (forall w x, r = Some (w, x) -> blank w /\ x <> [] /\ ~ In newline x) /\ caps e = cap_of 3 r ++ cap_of 2 d ++ [(1, v)].
Proof.
  intros I. apply in_seq in I as (s1 & S & I). unfold group in S. apply in_map_iff in S as (s0 & <- & S). apply in_plus in S as (v & r0 & -> & N & F & ->).
  cbn [rest prev caps] in I. rewrite firstn_part in I.
  assert (V : all (fun c => is_white c = false /\ c <> comma /\ c <> colon) v).
  { intros c C. rewrite Forall_forall in F. specialize (F c C). unfold not_in in F. apply andb_true_iff in F as [F1 F2]. cbn in F1. rewrite !orb_false_r in F1.
    apply negb_true_iff, orb_false_iff in F1 as [A B]. apply N.eqb_neq in A, B. cbn in F2. apply negb_true_iff in F2. auto. }
  apply in_seq in I as (s2 & S2 & I). apply in_seq in I as (s3 & S3 & I). apply in_at_end in I as [-> E].
  assert (D : exists d r, r0 = part comma d ++ r /\ (forall w x, d = Some (w, x) -> blank w /\ x <> [] /\ ~ In colon x) /\ rest s2 = r /\ caps s2 = cap_of 2 d ++ [(1, v)]).
  { apply in_maybe in S2 as [S2| ->].
    - apply date_in in S2 as (w & d & r & -> & W & D & C & R & K). exists (Some (w, d)), r. repeat split; auto; intros; injection H as <- <-; auto.
    - exists None, r0. repeat split; auto; discriminate. }
  destruct D as (d & r1 & -> & D & R1 & K1). destruct s2 as [p2 r2 c2]. cbn [rest caps] in R1, K1. subst r2 c2.
  assert (R : exists r, r1 = part colon r /\ (forall w x, r = Some (w, x) -> blank w /\ x <> [] /\ ~ In newline x) /\ caps s3 = cap_of 3 r ++ cap_of 2 d ++ [(1, v)]).
  { apply in_maybe in S3 as [S3| ->].
    - apply remark_in in S3 as (w & x & r & -> & W & X & C & R & K). rewrite E in R. subst r. exists (Some (w, x)). rewrite app_nil_r. repeat split; auto; intros; injection H as <- <-; auto.
    - cbn in E. subst r1. exists None. repeat split; auto; discriminate. }
  destruct R as (r & -> & R & K). exists v, d, r. split; [reflexivity|]. auto 8.
Qed.
Lemma revision_out r : loosely_ok r -> exists e, In e (revision_re (RS None (rev_line r) [])).
Proof.
  intros (V & D & R). destruct (version_class _ V) as [V1 V2]. unfold rev_line.
  assert (H : exists q, In (RS q [] (cap_of 3 (r_remark r) ++ cap_of 2 (r_date r) ++ [(1, r_version r)])) (revision_re (RS None (r_version r ++ part comma (r_date r) ++ part colon (r_remark r)) []))).
  { assert (B : forall w, blank w -> Forall (fun c => is_white c = true) w) by (intros w W; apply Forall_forall; exact W).
    assert (X : forall k p o c, (forall w x, o = Some (w, x) -> blank w /\ x <> [] /\ ~ In newline x) -> k = part colon o -> exists q, In (RS q [] (cap_of 3 o ++ c)) (seq (maybe remark_re) at_end (RS p k c))).
    { intros k p o c O ->. destruct o as [[w x]|]; cbn [part cap_of app].
      - destruct (O w x eq_refl) as (W & X & N). exists (end_of (end_of (Some colon) w) x). apply in_seq. eexists. split; [apply in_maybe; left|apply in_at_end; split; reflexivity].
        unfold remark_re. apply in_seq. eexists. split; [apply in_one; exists colon, (w ++ x); repeat split|]. apply in_seq. eexists. split; [apply in_star; exists w, x; repeat split; now apply B|].
        unfold group. apply in_map_iff. eexists. split; [|apply in_plus; exists x, []; rewrite app_nil_r; repeat split; [exact X|apply not_in_all; intros y [<-|[]]; exact N]].
        cbn [rest prev caps]. rewrite Nat.sub_0_r, firstn_all. reflexivity.
      - exists p. apply in_seq. eexists. split; [apply in_maybe; right; reflexivity|apply in_at_end; split; reflexivity]. }
    unfold revision_re. fold date_re. fold remark_re.
    set (c1 := [(1, r_version r)]). set (p1 := end_of None (r_version r)).
    assert (Y : exists q, In (RS q [] (cap_of 3 (r_remark r) ++ cap_of 2 (r_date r) ++ c1)) (seq (maybe date_re) (seq (maybe remark_re) at_end) (RS p1 (part comma (r_date r) ++ part colon (r_remark r)) c1))).
    { destruct (r_date r) as [[w x]|]; cbn [part cap_of app].
      - destruct (D w x eq_refl) as (W & X' & N). destruct (X (part colon (r_remark r)) (end_of (end_of (Some comma) w) x) (r_remark r) ((2, x) :: c1) R eq_refl) as [q Q]. exists q.
        apply in_seq. eexists. split; [apply in_maybe; left|exact Q].
        unfold date_re. apply in_seq. eexists. split; [apply in_one; exists comma, ((w ++ x) ++ part colon (r_remark r)); repeat split|]. rewrite <- app_assoc. apply in_seq. eexists. split; [apply in_star; exists w, (x ++ part colon (r_remark r)); repeat split; now apply B|].
        unfold group. apply in_map_iff. eexists. split; [|apply in_lazy_plus; exists x, (part colon (r_remark r)); repeat split; [exact X'|apply not_in_all; intros y [<-|[]]; exact N]].
        cbn [rest prev caps]. rewrite firstn_part. reflexivity.
      - destruct (X (part colon (r_remark r)) p1 (r_remark r) c1 R eq_refl) as [q Q]. exists q. apply in_seq. eexists. split; [apply in_maybe; right; reflexivity|exact Q]. }
    destruct Y as [q Q]. exists q. apply in_seq. eexists. split; [|exact Q]. unfold group. apply in_map_iff. eexists. split; [|apply in_plus; exists (r_version r), (part comma (r_date r) ++ part colon (r_remark r)); repeat split; assumption].
    cbn [rest prev caps]. rewrite firstn_part. reflexivity. }
  destruct H as [q Q]. eauto.
Qed.
