(** C62: the revision line under the author line gives number, date and remark as they are written. *)
From Coq Require Import Lia.
From Verif Require Import Base Text Unicode CollectTextModel AuthorLineModel AuthorLineSpec AuthorLineProofs RevLineModel RevLineSpec RevLineProofs.
From Verif Require AttrsModel.

(** A version with a date, a remark or both. *)
Theorem C62_revision digit r n : digits_ok digit -> revision_ok r -> (r_date r <> None \/ r_remark r <> None) -> number_of digit (r_version r) n ->
  parse_revision_line digit true (rev_line r) = Ret (Some ((Revnumber, n) :: set_date (r_date r) ++ set_remark (r_remark r))).
Proof.
  intros G O S N. destruct (revision_finds r O) as (q & l & F). unfold parse_revision_line. rewrite F. destruct O as ((V1 & c & V2 & V3) & D & R). cbn [caps].
  assert (C1 : cap 1 (cap_of 3 (r_remark r) ++ cap_of 2 (r_date r) ++ [(1, r_version r)]) = Some (r_version r)) by (destruct (r_remark r) as [[]|], (r_date r) as [[]|]; reflexivity).
  assert (C2 : cap 2 (cap_of 3 (r_remark r) ++ cap_of 2 (r_date r) ++ [(1, r_version r)]) = option_map snd (r_date r)) by (destruct (r_remark r) as [[]|], (r_date r) as [[]|]; reflexivity).
  assert (C3 : cap 3 (cap_of 3 (r_remark r) ++ cap_of 2 (r_date r) ++ [(1, r_version r)]) = option_map snd (r_remark r)) by (destruct (r_remark r) as [[]|], (r_date r) as [[]|]; reflexivity).
  rewrite C1, C2, C3. assert (X : existsb ascii_digit (r_version r) = true) by (apply existsb_exists; eauto). rewrite X.
  destruct (from_digit_some digit (r_version r)) as (m & M & K); [exists c; split; [exact V2|now apply G]|]. rewrite M, (number_unique _ _ _ _ N K).
  destruct (r_date r) as [[w d]|], (r_remark r) as [[w' x]|]; try reflexivity. destruct S; congruence.
Qed.
Print Assumptions C62_revision.

(** A version alone counts if it is the letter v, a digit and at least one more character; any other is read and sets nothing. *)
Theorem C62_version_alone digit v n : digits_ok digit -> version_ok v -> number_of digit v n ->
  ((exists d x r, v = letter_v :: d :: x :: r /\ digit d = true) -> parse_revision_line digit true v = Ret (Some [(Revnumber, n)])) /\
  ((forall d x r, v = letter_v :: d :: x :: r -> digit d = false) -> parse_revision_line digit true v = Ret (Some [])).
Proof.
  intros G V N. assert (O : revision_ok (Revision v None None)) by (split; [exact V|split; discriminate]). destruct (revision_finds _ O) as (q & l & F).
  unfold rev_line in F. cbn [r_version r_date r_remark part cap_of app] in F. rewrite app_nil_r in F.
  pose proof V as (V1 & c & V2 & V3).
  assert (X : existsb ascii_digit v = true) by (apply existsb_exists; eauto).
  destruct (from_digit_some digit v) as (m & M & K); [exists c; split; [exact V2|now apply G]|].
  assert (E : parse_revision_line digit true v = Ret (Some (match lone_re digit (RS None v []) with [] => [] | _ => [(Revnumber, n)] end))).
  { unfold parse_revision_line. rewrite F. cbn [caps cap Nat.eqb]. rewrite X, M, (number_unique _ _ _ _ N K). reflexivity. }
  rewrite E. pose proof (lone_iff digit v G (fun c C => proj1 (V1 c C))) as L. split.
  - intros H. apply L in H. destruct (lone_re digit (RS None v [])); [congruence|reflexivity].
  - intros H. destruct (lone_re digit (RS None v [])); [reflexivity|]. assert (Y : exists d x r, v = letter_v :: d :: x :: r /\ digit d = true) by (apply L; discriminate).
    destruct Y as (d & x & z & E' & D). rewrite (H d x z E') in D. discriminate.
Qed.
Print Assumptions C62_version_alone.

(** Which lines are taken. *)
Theorem C62_taken digit line : digits_ok digit -> (exists l, parse_revision_line digit true line = Ret (Some l)) <-> exists r, line = rev_line r /\ loosely_ok r.
Proof.
  intros G. split.
  - intros [l H]. unfold parse_revision_line in H. destruct (revision_re (RS None line [])) as [|e es] eqn:E; [discriminate|].
    assert (I : In e (revision_re (RS None line []))) by (rewrite E; now left). apply revision_in in I as (v & d & r & -> & N & V & D & R & K).
    exists (Revision v d r). split; [reflexivity|]. split; [|split; assumption]. split; [exact V|].
    assert (C1 : cap 1 (caps e) = Some v) by (rewrite K; destruct r as [[]|], d as [[]|]; reflexivity). rewrite C1 in H.
    destruct (existsb ascii_digit v) eqn:X; [now apply existsb_exists in X|discriminate].
  - intros (r & -> & L). destruct (revision_out r L) as [e I]. destruct (revision_re (RS None (rev_line r) [])) as [|e0 es] eqn:E; [destruct I|].
    assert (I0 : In e0 (revision_re (RS None (rev_line r) []))) by (rewrite E; now left). apply revision_in in I0 as (v & d & x & Q & N & V & D & R & K).
    unfold parse_revision_line. rewrite E.
    assert (C1 : cap 1 (caps e0) = Some v) by (rewrite K; destruct x as [[]|], d as [[]|]; reflexivity). rewrite C1.
    destruct L as ((A & c & C & CD) & _).
    assert (W : v = r_version r).
    { unfold rev_line in Q. cbn [r_version r_date r_remark] in Q.
      assert (S : forall d x, match part comma d ++ part colon x with [] => True | c :: _ => c = comma \/ c = colon end) by (intros [[]|] [[]|]; cbn; auto).
      pose proof (S (r_date r) (r_remark r)) as S1. pose proof (S d x) as S2.
      generalize dependent (part comma (r_date r) ++ part colon (r_remark r)). generalize dependent (part comma d ++ part colon x). clear - A V.
      revert A V. generalize (r_version r). induction v as [|a v IH]; intros [|b u] A V z S2 y Q S1; cbn in Q; try reflexivity.
      - subst z. destruct (A b (or_introl eq_refl)) as (_ & ? & ?). destruct S2; congruence.
      - subst y. destruct (V a (or_introl eq_refl)) as (_ & ? & ?). destruct S1; congruence.
      - injection Q as -> Q. f_equal. apply (IH u (fun c C => A c (or_intror C)) (fun c C => V c (or_intror C)) z S2 y Q S1). }
    subst v. assert (X : existsb ascii_digit (r_version r) = true) by (apply existsb_exists; eauto). rewrite X.
    destruct (from_digit_some digit (r_version r)) as (m & M & _); [exists c; split; [exact C|now apply G]|]. rewrite M.
    destruct (cap 2 (caps e0)), (cap 3 (caps e0)); eauto.
Qed.
Print Assumptions C62_taken.

(** Reading the line does not panic: there is always a digit to start the number, and the three attributes may always be set. *)
Theorem C62_no_panic digit word line : digits_ok digit -> parse_revision_line digit word line <> Panic.
Proof.
  intros G. unfold parse_revision_line. destruct word; [|discriminate]. destruct (revision_re _) as [|e es]; [discriminate|]. cbv zeta.
  destruct (existsb ascii_digit _) eqn:X; [|discriminate]. apply existsb_exists in X as (c & C & D).
  match goal with |- context[from_digit digit ?v] => destruct (from_digit_some digit v) as (m & M & _); [exists c; split; [exact C|now apply G]|]; rewrite M end.
  destruct (cap 2 (caps e)), (cap 3 (caps e)); discriminate.
Qed.
Print Assumptions C62_no_panic.
Theorem C62_attributes_set m k v : In k ["revnumber"; "revdate"; "revremark"]%string -> snd (AttrsModel.insert_header_attr m k (AttrsModel.AStr v)) = true.
Proof. intros [<-|[<-|[<-|[]]]]; reflexivity. Qed.
Print Assumptions C62_attributes_set.

(** Cases, with the digits of ASCII. *)
Definition t (s : string) : text := map (fun a => N_of_ascii a) (list_ascii_of_string s).
Example C62_case : parse_revision_line ascii_digit true (t "v2.9,  October 31, 2021: Fall: the end") = Ret (Some [(Revnumber, t "2.9"); (Revdate, t "October 31, 2021"); (Revremark, t "Fall: the end")]).
Proof. vm_compute. reflexivity. Qed.
Example C62_hyps : digits_ok ascii_digit /\ revision_ok (Revision (t "v2.9") (Some (t "  ", t "October 31, 2021")) (Some (t " ", t "Fall: the end"))) /\ number_of ascii_digit (t "v2.9") (t "2.9").
Proof.
  split; [|split; [split; [|split]|]].
  - split; [auto|]. intros c H. unfold ascii_digit in H. apply andb_true_iff in H as [A B]. apply N.leb_le in A, B.
    assert (I : In c (map N.of_nat (List.seq 48 10))).
    { apply in_map_iff. exists (N.to_nat c). split; [apply N2Nat.id|]. apply List.in_seq. lia. }
    assert (F : forallb (fun c => negb (is_white c)) (map N.of_nat (List.seq 48 10)) = true) by reflexivity. rewrite forallb_forall in F. apply negb_true_iff, F, I.
  - split; [|exists 50%N; split; [cbn; auto|reflexivity]]. intros c C. cbn in C. repeat (destruct C as [<-|C]; [repeat split; discriminate|]). destruct C.
  - intros w d H. injection H as <- <-. split; [intros c C; cbn in C; repeat (destruct C as [<-|C]; [reflexivity|]); destruct C|].
    split; [eexists _, _; split; reflexivity|]. intros C. cbn in C. repeat (destruct C as [C|C]; [discriminate|]). destruct C.
  - intros w d H. injection H as <- <-. split; [intros c C; cbn in C; repeat (destruct C as [<-|C]; [reflexivity|]); destruct C|].
    split; [eexists _, _; split; reflexivity|]. intros C. cbn in C. repeat (destruct C as [C|C]; [discriminate|]). destruct C.
  - exists (t "v"), 50%N, (t ".9"). repeat split. intros c [<-|[]]. reflexivity.
Qed.
Example C62_alone_case : parse_revision_line ascii_digit true (t "v7.5") = Ret (Some [(Revnumber, t "7.5")]).
Proof. vm_compute. reflexivity. Qed.
(** "v1" names no revision, though it is read as a revision line; so is any word with a digit. *)
Theorem C62_one_digit_refuted : parse_revision_line ascii_digit true (t "v1") = Ret (Some []).
Proof. vm_compute. reflexivity. Qed.
Theorem C62_word_refuted : parse_revision_line ascii_digit true (t "Mp3s") = Ret (Some []).
Proof. vm_compute. reflexivity. Qed.
(** A colon without a remark, or white space behind a version, keep the line from being one. *)
Theorem C62_empty_remark_refuted : parse_revision_line ascii_digit true (t "v1.0, 2020:") = Ret None /\ parse_revision_line ascii_digit true (t "v1.0 ") = Ret None.
Proof. vm_compute. auto. Qed.
