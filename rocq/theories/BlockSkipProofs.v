(** Sections that skip a level. The proofs go as in BlockTreeProofs. *)
From Verif Require Import Base BlockModel BlockSpec BlockReadProofs.
Import ListNotations.

(** the level of the section and the number of errors about sections that skip a level *)
Definition now (N C : nat) (s : pst) : Prop := level s = N /\ skips (probs s) = C.
Lemma now_problem N C s p : now N C s -> now N (C + if is_skip p then 1 else 0) (problem_at p s).
Proof. intros [H1 H2]. split; [exact H1|]. cbn [probs problem_at]. unfold skips in *. rewrite filter_app, app_length, H2. cbn [filter]. destruct (is_skip p); reflexivity. Qed.
Lemma now_quiet N C s p : is_skip p = false -> now N C s -> now N C (problem_at p s).
Proof. intros Q H. apply (now_problem N C s p) in H. rewrite Q, Nat.add_0_r in H. exact H. Qed.
Ltac n1 := match goal with
  | |- now _ _ (match ?x with _ => _ end) => destruct x
  | |- now _ _ (problem_at _ _) => apply now_quiet; [reflexivity|]
  | H : now _ _ ?s |- now _ _ ?s => exact H
  | |- now ?a ?b (with_stk _ ?s) => change (now a b s)
  | |- now ?a ?b (with_bib _ ?s) => change (now a b s)
  | |- now ?a ?b (with_cmt _ ?s) => change (now a b s)
  | |- now ?a ?b (with_ist _ ?s) => change (now a b s)
  | |- now ?a ?b (with_conts _ ?s) => change (now a b s)
  | |- now ?a ?b (with_inmd _ ?s) => change (now a b s)
  | |- now ?a ?b (with_nests _ ?s) => change (now a b s)
  | |- now ?a ?b (with_delim _ ?s) => change (now a b s)
  | |- now ?a ?b (with_pmeta _ ?s) => change (now a b s)
  | |- now ?a ?b (with_src _ ?s) => change (now a b s)
  | |- now ?a ?b (one_empty ?s) => change (now a b s)
  | |- now ?a ?b (one_stray ?s) => change (now a b s)
  | |- now ?a ?b (set_ist_subs _ ?s) => change (now a b s)
  end.
Ltac nn := cbv zeta; repeat n1.

Lemma read_now N C s ls s' : now N C s -> read_lines s = (ls, s') -> now N C s'.
Proof.
  intros K. unfold read_lines. destruct (peeked s); [|injection 1 as _ <-; exact K]. destruct (skip_empty (src s)) as [|x r]; [injection 1 as _ <-; exact K|]. destruct (group r). injection 1 as _ <-. exact K.
Qed.
Lemma read_until_now N C d s ls s' : now N C s -> read_until d s = (ls, s') -> now N C s'.
Proof.
  intros K. unfold read_until. destruct (read_lines s) as [l1 s1] eqn:E. apply (read_now N C) in E; [|exact K]. destruct l1; [injection 1 as _ <-; exact E|]. destruct (existsb _ _); [injection 1 as _ <-; exact E|].
  destruct (until_delim d (src s1)). injection 1 as _ <-. exact E.
Qed.
Lemma restore_now P N C ls s : now N C s -> post (fun _ => now N C) (restore_lines P ls s).
Proof. intros K. unfold restore_lines. destruct (peeked s); [exact K|]. destruct (dbg (p_env P)); [exact I|]. destruct ls; exact K. Qed.
Lemma restore_meta_now P N C m s : now N C s -> post (fun _ => now N C) (restore_meta P m s).
Proof. intros K. unfold restore_meta. destruct (meta_empty m); [exact K|]. destruct (pmeta s); [|exact K]. destruct (dbg (p_env P)); [exact I|exact K]. Qed.
Lemma restore_peeked_now P N C ls m s : now N C s -> post (fun _ => now N C) (restore_peeked P ls m s).
Proof. intros K. unfold restore_peeked. eapply post_bind; [apply (restore_now P N C); exact K|]. cbv beta. intros _ s1 K1. apply restore_meta_now. exact K1. Qed.
Lemma inlines_now P N C ls s : now N C s -> post (fun _ => now N C) (inlines P ls s).
Proof. intros K. unfold inlines. destruct (parse_inlines_until _ _ _ _ _); [exact K|exact I..]. Qed.
Lemma meta_lines_now P N C : forall ls m s, now N C s -> post (fun _ => now N C) (meta_lines P ls m s).
Proof.
  induction ls as [|l r IH]; intros m s K; cbn [meta_lines]; [exact K|]. destruct (chunk_title l); [eapply post_bind; [apply (inlines_now P N C); exact K|]; cbv beta; intros x s1 K1; apply IH; exact K1|].
  destruct (attr_list_line l); [destruct (block_attr_list _) as [[? ?]|]; [apply IH; exact K|exact I]|]. destruct (anchor_line l).
  - destruct (parse_anchor _ _) as [[[[i ref]|] ?]|]; [apply IH; exact K|cbn [post]; nn|exact I].
  - destruct (_ && _); [apply IH; exact K|exact K].
Qed.
Lemma chunk_meta_now P N C ls s : now N C s -> post (fun _ => now N C) (chunk_meta P ls s).
Proof.
  intros K. unfold chunk_meta. destruct (pmeta s); [cbn [post]; nn|]. destruct ls as [|l r]; [exact I|]. destruct (toks l); [exact I|]. destruct (unconsumed l); [apply meta_lines_now; exact K|exact K].
Qed.

(** what the calls give *)
Definition opt {A} (f : A -> nat) (o : option A) : nat := match o with Some x => f x | None => 0 end.
Definition opt_ok {A} (f : A -> bool) (o : option A) : bool := match o with Some x => f x | None => true end.
Definition part_val (N : nat) (p : meta * list inode * list blk * list sect) : nat := list_sum (map (skipped N) (snd (fst p))) + list_sum (map (skipped_sect N) (snd p)).
Definition val {A} (c : call A) (N : nat) : A -> nat :=
  match c in call T return T -> nat with
  | Block => opt (skipped N)
  | BlockLoop | Continuations => fun bs => list_sum (map (skipped N) bs)
  | ItemLoop _ => fun is_ => list_sum (map (skipped_item N) is_)
  | SectionLoop | SpecialLoop => fun ss => list_sum (map (skipped_sect N) ss)
  | PartLoop => fun ps => list_sum (map (part_val N) ps)
  | ExtraTerms _ => fun _ => 0
  | Peek => fun _ => 0
  | Book => fun _ => 0
  end.
Definition grows {A} (c : call A) (N : nat) : A -> bool :=
  match c in call T return T -> bool with
  | Block => opt_ok (deeper N)
  | BlockLoop | Continuations => forallb (deeper N)
  | ItemLoop _ => forallb (deeper_item N)
  | SectionLoop | SpecialLoop => forallb levels_grow
  | PartLoop => forallb (fun p => forallb (deeper N) (snd (fst p)) && forallb levels_grow (snd p))
  | ExtraTerms _ => fun _ => true
  | Peek => fun _ => true
  | Book => fun c => match c with Some c => if N =? 0 then content_levels_grow c else true | None => true end
  end.
Definition isnt_book {A} (c : call A) : bool := match c with Book => false | _ => true end.
(** from a state to a result *)
Definition gives {A} (N C : nat) (v : A -> nat) (g : A -> bool) (x : A) (s' : pst) : Prop := now N (C + v x) s' /\ g x = true.

Lemma sum_cons x l : list_sum (x :: l) = x + list_sum l.
Proof. reflexivity. Qed.
Lemma now_eq N C C' s : now N C s -> C = C' -> now N C' s.
Proof. intros H ->. exact H. Qed.

Section Tree.
Variables (P : params) (rec : parser).
Hypothesis R : forall (A : Set) (c : call A) N C s, isnt_book c = true -> now N C s -> post (gives N C (val c N) (grows c N)) (rec A c s).
Hypothesis RP : forall s k, start_level P (peeked s) = Some k -> post (fun p _ => match p with Some p => semantic p = k | None => True end) (rec _ Peek s).
Hypothesis RB : forall N s, level s = N -> post (fun x s' => level s' = N /\ grows Book N x = true) (rec _ Book s).

Ltac nb L := match goal with |- post (gives ?N ?C _ _) _ => eapply (post_bind (fun _ => now N C)) end; [apply L; nn|cbv beta; let x := fresh "x" in let s := fresh "s" in let K := fresh "K" in intros x s K].
Ltac nr := eapply post_bind; [eapply R; [reflexivity|nn]|cbv beta; let x := fresh "x" in let s := fresh "s" in let K := fresh "K" in let G := fresh "G" in intros x s [K G]; cbn [val grows] in K, G].
(* a result: *)
Ltac ny := cbn [post gives]; split; [cbn [opt skipped skipped_item skipped_sect map] in *; rewrite ?sum_cons, ?Nat.add_0_r in *; nn|cbn [opt_ok deeper deeper_item deeper_sect levels_grow forallb] in *].

Lemma paragraph_tree N C ls m s : now N C s -> post (gives N C (opt (skipped N)) (opt_ok (deeper N))) (paragraph P ls m s).
Proof.
  intros K. unfold paragraph. cbv zeta. destruct (paragraph_context _ _). nb inlines_now. destruct (fst x); (nb restore_now; ny; reflexivity).
Qed.
Lemma quoted_tree N C ls m s : now N C s -> post (gives N C (opt (skipped N)) (opt_ok (deeper N))) (quoted P ls m s).
Proof.
  intros K. unfold quoted. destruct (rev ls); [exact I|]. destruct (toks i) as [|d [|w r]]; [exact I..|]. destruct (_ && _); [|exact I]. destruct (split_comma r). nb inlines_now.
  eapply (post_bind (fun _ => now N C)). { destruct l1; [exact K0|]. eapply post_bind; [apply (inlines_now P N C); exact K0|]. cbv beta. intros y s1 K1. exact K1. }
  cbv beta zeta. intros y s1 K1. destruct (rev l); [exact I|]. destruct (toks i0); [exact I|]. destruct (inmd s1); [nb inlines_now; ny; reflexivity|]. destruct (is_k DoubleQuote t); [|exact I]. destruct (_ && _); [exact I|]. nb inlines_now. ny. reflexivity.
Qed.
Lemma of_line_tree N C (f : list tok -> blk) ls s : (forall x, (skipped N) (f x) = 0) -> (forall x, deeper N (f x) = true) -> now N C s -> post (gives N C (opt (skipped N)) (opt_ok (deeper N))) (of_line P f ls s).
Proof. intros F1 F2 K. unfold of_line. destruct ls as [|l r]; [exact I|]. nb restore_now. cbn [post]. split; [cbn [opt]; rewrite F1, Nat.add_0_r; nn|apply F2]. Qed.
Lemma discrete_tree N C ls m s : now N C s -> post (gives N C (opt (skipped N)) (opt_ok (deeper N))) (discrete_heading P ls m s).
Proof. intros K. unfold discrete_heading. destruct ls as [|l r]; [exact I|]. destruct (toks l) as [|t [|w x]]; [exact I..|]. destruct (_ && _); [|exact I]. nb inlines_now. nb restore_now. ny. reflexivity. Qed.
Lemma table_tree N C ls m s : now N C s -> post (gives N C (opt (skipped N)) (opt_ok (deeper N))) (table P ls m s).
Proof.
  intros K. unfold table. destruct ls as [|l r]; [exact I|]. destruct (table_lines _ _) as [? [?|]]; [nb restore_now; cbn [post]; split; [cbn; rewrite Nat.add_0_r; exact K0|reflexivity]|]. destruct (table_src _ _) as [[x e] rest].
  cbn [post]. split; [|reflexivity]. cbn [opt skipped]. rewrite Nat.add_0_r. destruct e; nn.
Qed.
Lemma each_tree N : forall ps C s, now N C s -> post (gives N C (fun bs => list_sum (map (skipped N) bs)) (forallb (deeper N))) (each_paragraph P rec ps s).
Proof.
  induction ps as [|p r IH]; intros C s K; cbn [each_paragraph]; [cbn [post]; split; [cbn; rewrite Nat.add_0_r; exact K|reflexivity]|]. nb restore_now. nr. eapply post_bind; [apply IH; exact K1|]. cbv beta. intros bs s2 [K2 G2].
  cbn [post]. destruct x0 as [b|]; cbn [opt opt_ok] in *; split.
  - cbn [map]. rewrite sum_cons. eapply now_eq; [exact K2|lia].
  - cbn [forallb]. rewrite G, G2. reflexivity.
  - eapply now_eq; [exact K2|lia].
  - exact G2.
Qed.
Lemma markdown_tree N C ls m s : now N C s -> post (gives N C (opt (skipped N)) (opt_ok (deeper N))) (markdown_quote P rec ls m s).
Proof.
  intros K. unfold markdown_quote. destruct (peeked s); [|exact I]. eapply post_bind; [apply (each_tree N _ C); exact K|]. cbv beta. intros bs s1 [K1 G1]. cbn [post].
  assert (A : gives N C (opt (skipped N)) (opt_ok (deeper N)) (Some (BMarkdown m bs)) (with_inmd false s1)) by (split; [exact K1|exact G1]).
  destruct bs as [|b [|b2 bs]]; [exact A| |destruct b; exact A]. destruct b; try exact A; split; (exact K1 || reflexivity).
Qed.
Lemma delimited_tree N C ls m s : now N C s -> post (gives N C (opt (skipped N)) (opt_ok (deeper N))) (delimited P rec ls m s).
Proof.
  intros K. unfold delimited. destruct ls as [|l r]; [exact I|]. destruct (toks l) as [|t af]; [exact I|]. destruct (to_delimiter t) as [d|]; [|exact I]. destruct (fence d af); [|exact I]. cbv zeta.
  eapply (post_bind (fun _ => now N C)); [apply restore_now; exact K|]. cbv beta. intros [] s1 K1.
  set (c := match block_style _ m with Some c => c | None => _ end). clearbody c. set (V := fun b : body => match b with Compound bs => list_sum (map (skipped N) bs) | _ => 0 end). set (G := fun b : body => match b with Compound bs => match c with CComment => false | _ => true end && forallb (deeper N) bs | _ => true end).
  eapply (post_bind (gives N C V G)).
  { destruct (verbatim_context c) eqn:VC.
    - match goal with |- context [read_until d ?z] => destruct (read_until d z) as [vs s3] eqn:E end. apply (read_until_now N C) in E; [|nn]. set (s4 := match c with CListing | CLiteral => _ | _ => s3 end). assert (K4 : now N C s4) by (unfold s4; nn). clearbody s4.
      assert (D : post (gives N C V G) (take (x, s5) := inlines P vs (with_nests false s4) in take (_, s6) := restore_lines P (snd x) (with_cmt None (with_nests true s5)) in Yes (Simple (fst x)) s6)).
      { nb inlines_now. nb restore_now. cbn [post]. split; [cbn [V]; rewrite Nat.add_0_r; nn|reflexivity]. }
      destruct c; try exact D. nb restore_now. cbn [post]. split; [cbn [V]; rewrite Nat.add_0_r; nn|reflexivity].
    - nr. cbn [post]. split; [exact K0|]. cbn [G]. rewrite G0. destruct c; (reflexivity || discriminate VC). }
  cbv beta. intros y s9 [Q GQ]. match goal with |- context [read_lines ?z] => destruct (read_lines z) as [es s5] eqn:E end. apply (read_now N (C + V y)) in E; [|nn].
  assert (U : forall e, (skipped N) (BDelimited m c t y e) = V y) by (intros e; destruct y, c; (reflexivity || discriminate GQ)). assert (D : forall e, deeper N (BDelimited m c t y e) = true) by (intros e; destruct y as [|bs|]; [reflexivity| |reflexivity]; apply andb_prop in GQ; exact (proj2 GQ)).
  destruct es as [|e more].
  - cbn [post]. split; [|apply D]. cbn [opt]. rewrite U. nn.
  - destruct (match delim s5 with Some _ => _ | None => _ end).
    + eapply (post_bind (fun _ => now N (C + V y))); [apply restore_now; exact E|]. cbv beta. intros [] s6 K6. cbn [post]. split; [|apply D]. cbn [opt]. rewrite U. exact K6.
    + cbn [post]. split; [|apply D]. cbn [opt]. rewrite U. nn.
Qed.
Lemma a_list_tree N C ls m s : now N C s -> post (gives N C (skipped N) (deeper N)) (a_list P rec ls m s).
Proof.
  intros K. unfold a_list. destruct ls; [exact I|]. destruct (list_marker i); [|exact I]. nb restore_now. cbv zeta. nr. cbn [post]. split; [cbn [skipped]; nn|exact G].
Qed.
Definition bs_val (N : nat) (bs : list blk) : nat := list_sum (map (skipped N) bs).
Lemma one_val N C (b : option blk) s : now N (C + opt (skipped N) b) s -> opt_ok (deeper N) b = true -> gives N C (bs_val N) (forallb (deeper N)) (match b with Some x => [x] | None => [] end) s.
Proof. intros K G. destruct b; cbn in *; (split; [unfold bs_val; cbn; eapply now_eq; [exact K|lia]|]); [cbn; rewrite G; reflexivity|reflexivity]. Qed.
Lemma none_val N C s : now N C s -> gives N C (bs_val N) (forallb (deeper N)) [] s.
Proof. intros K. split; [cbn; rewrite Nat.add_0_r; exact K|reflexivity]. Qed.
Lemma single_val N C (b : blk) s : now N (C + (skipped N) b) s -> deeper N b = true -> gives N C (bs_val N) (forallb (deeper N)) [b] s.
Proof. intros K G. apply (one_val N C (Some b)); assumption. Qed.
Lemma item_blocks_tree N C ls s : now N C s -> post (gives N C (bs_val N) (forallb (deeper N))) (item_blocks P rec ls s).
Proof.
  intros K. unfold item_blocks. destruct (starts_nested _ _ _). { nb restore_now. nr. cbn [post]. apply one_val; assumption. }
  destruct (starts_continuation ls). { nb restore_now. apply (R _ Continuations N C s0 eq_refl K0). }
  destruct ls; [|nb restore_now; apply none_val; exact K0]. destruct (read_lines s) as [ls s1] eqn:E. apply (read_now N C) in E; [|exact K].
  destruct ls; [apply none_val; exact E|]. destruct (starts_nested _ _ _); [|nb restore_now; apply none_val; exact K0]. eapply post_bind; [apply (a_list_tree N C); exact E|]. cbv beta. intros b s2 [K2 G2]. cbn [post]. apply single_val; assumption.
Qed.
Lemma continuations_tree N C s : now N C s -> post (gives N C (bs_val N) (forallb (deeper N))) (continuations P rec s).
Proof.
  intros K. unfold continuations. destruct (read_lines s) as [ls s1] eqn:E. apply (read_now N C) in E; [|exact K]. destruct ls as [|l r]; [apply none_val; exact E|].
  destruct (starts_nested _ _ _); [eapply post_bind; [apply (a_list_tree N C); exact E|]; cbv beta; intros b s2 [K2 G2]; cbn [post]; apply single_val; assumption|].
  destruct (negb _); [nb restore_now; apply none_val; exact K0|]. destruct (match r with [] => _ | _ => _ end); [nb restore_now; apply none_val; exact K0|].
  nb restore_now. nr. nr. cbn [post]. destruct x0 as [b|]; cbn [opt opt_ok] in *; split.
  - unfold bs_val in *. cbn [map]. rewrite sum_cons. eapply now_eq; [exact K2|lia].
  - cbn [forallb]. rewrite G, G0. reflexivity.
  - eapply now_eq; [exact K2|unfold bs_val; lia].
  - exact G0.
Qed.
Lemma desc_term_now N C l s : now N C s -> post (fun _ => now N C) (desc_term P l s).
Proof. intros K. unfold desc_term. destruct (before_term _ _) as [[b r]|]; [|exact I]. eapply post_bind; [apply (inlines_now P N C); exact K|]. cbv beta. intros x s1 K1. exact K1. Qed.
Lemma extra_now N C m s : now N C s -> post (fun _ => now N C) (extra_terms P rec m s).
Proof.
  intros K. unfold extra_terms. destruct (read_lines s) as [ls s1] eqn:E. apply (read_now N C) in E; [|exact K]. destruct ls as [|l r]; [exact E|]. destruct (starts_extra _ _).
  - destruct (drop_comments _); [exact I|]. eapply post_bind; [apply (desc_term_now N C); exact E|]. cbv beta. intros x s2 K2. eapply post_bind; [apply (restore_now P N C); exact K2|]. cbv beta. intros [] s3 K3.
    eapply post_bind; [apply (R _ (ExtraTerms m) N C s3 eq_refl K3)|]. cbv beta. intros y s4 [K4 _]. cbn [val] in K4. rewrite Nat.add_0_r in K4. exact K4.
  - eapply post_bind; [apply (restore_now P N C); exact E|]. cbv beta. intros [] s2 K2. exact K2.
Qed.
Lemma desc_blocks_tree N C s : now N C s -> post (gives N C (bs_val N) (forallb (deeper N))) (desc_blocks P rec s).
Proof.
  intros K. unfold desc_blocks. destruct (read_lines s) as [ls s1] eqn:E. apply (read_now N C) in E; [|exact K]. destruct ls as [|l r]; [apply none_val; exact E|]. nb restore_now.
  destruct (starts_continuation _); [apply (R _ Continuations N C s0 eq_refl K0)|]. destruct (starts_nested _ _ _); [|apply none_val; exact K0]. nr. cbn [post]. apply one_val; assumption.
Qed.
Lemma desc_item_tree N C mk l r s : now N C s -> post (gives N C (skipped_item N) (deeper_item N)) (desc_item P rec mk l r s).
Proof.
  intros K. unfold desc_item. nb desc_term_now. eapply (post_bind (fun _ => now N C)).
  { destruct (toks (snd x)).
    - eapply post_bind; [apply (restore_now P N C); exact K0|]. cbv beta. intros [] s1 K1. eapply post_weaken; [apply (R _ (ExtraTerms mk) N C s1 eq_refl K1)|]. intros y s2 [K2 _]. cbn [val] in K2. rewrite Nat.add_0_r in K2. exact K2.
    - eapply post_bind; [apply (restore_now P N C); exact K0|]. cbv beta. intros [] s1 K1. exact K1. }
  cbv beta. intros more s1 K1. nr. eapply post_bind; [apply (desc_blocks_tree N (C + opt (skipped N) x0)); assumption|]. cbv beta. intros bs s3 [K3 G3]. cbn [post]. split.
  - cbn [skipped_item]. set (d := match x0 with Some (BParagraph _ CComment _ | BDelimited _ CComment _ _ _ | BComment) => _ | _ => _ end).
    assert (D : match d with Some b => skipped N b | None => 0 end = opt (skipped N) x0) by (unfold d; destruct x0 as [b|]; [destruct b; try destruct c; reflexivity|reflexivity]).
    eapply now_eq; [exact K3|unfold bs_val; lia].
  - cbn [deeper_item]. rewrite G3, andb_true_r. destruct x0 as [b|]; cbn [opt_ok] in G; [|reflexivity]. destruct b; try destruct c; (exact G || reflexivity).
Qed.
Lemma list_item_tree N C m s : now N C s -> post (gives N C (opt (skipped_item N)) (opt_ok (deeper_item N))) (list_item P rec m s).
Proof.
  intros K. unfold list_item. assert (NO : forall s1, now N C s1 -> gives N C (opt (skipped_item N)) (opt_ok (deeper_item N)) None s1) by (intros s1 H; split; [cbn; rewrite Nat.add_0_r; exact H|reflexivity]).
  destruct (read_lines s) as [ls s1] eqn:E. apply (read_now N C) in E; [|exact K]. destruct ls as [|l r]; [apply NO; exact E|]. destruct (list_marker l) as [mk|]; [|nb restore_now; apply NO; exact K0]. destruct (negb _); [nb restore_now; apply NO; exact K0|].
  destruct (is_description m); [eapply post_bind; [apply (desc_item_tree N C); exact E|]; cbv beta; intros i s2 [K2 G2]; cbn [post]; split; assumption|].
  destruct (consume_until _ _) as [[? ?]|]; [|exact I]. destruct (discard_assert _ _) as [rest2|]; [|exact I].
  set (cr := match m with LS.Star _ | LS.Dash => _ | _ => _ end); clearbody cr; destruct cr as [? ?]. destruct (principle_lines r) as [more r2]. nb inlines_now.
  eapply post_bind; [apply (item_blocks_tree N C); exact K0|]. cbv beta. intros bs s2 [K2 G2]. cbn [post]. split; [exact K2|exact G2].
Qed.

(** *** Sections *)
Lemma peek_now N C s : now N C s -> post (fun _ => now N C) (peek_section P rec s).
Proof.
  intros K. unfold peek_section. destruct (read_lines s) as [ls s1] eqn:E. apply (read_now N C) in E; [|exact K]. destruct ls as [|l r]; [exact E|]. destruct (drop_comments _).
  - eapply post_weaken; [apply (R _ Peek N C s1 eq_refl E)|]. intros p s2 [K2 _]. cbn [val] in K2. rewrite Nat.add_0_r in K2. exact K2.
  - eapply post_bind; [apply (chunk_meta_now P N C); exact E|]. cbv beta. intros x s2 K2. destruct (snd x).
    + eapply post_bind; [apply (restore_meta_now P N C); nn|]. cbv beta. intros [] s3 K3. exact K3.
    + destruct (heading_level _ _); [exact K2|]. eapply post_bind; [apply (restore_peeked_now P N C); exact K2|]. cbv beta. intros [] s3 K3. exact K3.
Qed.
Lemma peeked_tree N C p s : now N C s -> post (fun x s' => gives N C (skipped_sect N) levels_grow x s' /\ match x with Sect _ k _ _ => k = semantic p end) (peeked_to_section P rec p s).
Proof.
  intros [K1 K2]. unfold peeked_to_section. destruct (ps_lines p) as [|l r]; [exact I|]. destruct (heading_text l); [|exact I]. cbv zeta. rewrite K1. set (M := semantic p). assert (K : now M C (with_level M s)) by (split; [reflexivity|exact K2]). set (s0 := with_level M s) in *. clearbody s0.
  set (D := C + if N + 1 <? M then 1 else 0). set (sx := if _ && _ then _ else s0). assert (KD : now M D sx).
  { unfold sx, D. destruct (Nat.ltb_spec (N + 1) M) as [L|L].
    - replace (N <? M) with true by (symmetry; apply Nat.ltb_lt; lia). replace (1 <? M - N) with true by (symmetry; apply Nat.ltb_lt; lia). apply (now_problem M C s0 OutOfSequence K).
    - replace ((N <? M) && (1 <? M - N)) with false; [rewrite Nat.add_0_r; exact K|]. symmetry. apply andb_false_iff. right. apply Nat.ltb_ge. lia. }
  clearbody sx. eapply (post_bind (fun _ => now M D)); [apply inlines_now; nn|]. cbv beta. intros x s1 H1. eapply (post_bind (fun _ => now M D)); [apply restore_now; nn|]. cbv beta. intros [] s2 H2. nr. cbn [post]. split; [split; [split; [reflexivity|]|exact G]|reflexivity].
  destruct K0 as [_ K0]. cbn [probs with_level with_bib skipped_sect]. rewrite K0. unfold D. fold M. lia.
Qed.
Lemma section_tree N C s : now N C s ->
  post (fun x s' => gives N C (opt (skipped_sect N)) (opt_ok levels_grow) x s' /\ (forall k, start_level P (peeked s) = Some k -> match x with Some (Sect _ k' _ _) => k' = k | None => True end)) (section P rec s).
Proof.
  intros K. unfold section.
  assert (Q : post (fun p s' => now N C s' /\ forall k, start_level P (peeked s) = Some k -> match p with Some p => semantic p = k | None => True end) (rec _ Peek s)).
  { apply post_and.
    - eapply post_weaken; [apply (R _ Peek N C s eq_refl K)|]. intros p s2 [K2 _]. cbn [val] in K2. rewrite Nat.add_0_r in K2. exact K2.
    - destruct (start_level P (peeked s)) as [k|] eqn:E; [|destruct (rec _ Peek s); cbn; (exact I || discriminate)]. eapply post_weaken; [apply (RP _ _ E)|]. cbv beta. intros p s' Z k' [= <-]. exact Z. }
  eapply post_bind; [exact Q|]. cbv beta. intros p s1 [K1 H1]. destruct p as [p|]; [|cbn [post]; split; [split; [cbn; rewrite Nat.add_0_r; exact K1|reflexivity]|auto]].
  assert (Z : forall s2, now N C s2 -> post (fun x s' => gives N C (opt (skipped_sect N)) (opt_ok levels_grow) x s' /\ (forall k, start_level P (peeked s) = Some k -> match x with Some (Sect _ k' _ _) => k' = k | None => True end)) (take (x, s3) := peeked_to_section P rec p s2 in Yes (Some x) s3)).
  { intros s2 K2. eapply post_bind; [apply (peeked_tree N C); exact K2|]. cbv beta. intros [m k h bs] s3 [G ->]. cbn [post]. split; [exact G|]. exact H1. }
  destruct (semantic p =? 0); [|apply Z; exact K1]. destruct (book P); [|apply Z; nn]. eapply post_bind; [apply (restore_peeked_now P N C); exact K1|]. cbv beta. intros [] s2 K2. cbn [post]. split; [split; [cbn; rewrite Nat.add_0_r; exact K2|reflexivity]|auto].
Qed.
Lemma chunk_tree N C ls m s : now N C s -> post (gives N C (opt (skipped N)) (opt_ok (deeper N))) (chunk P rec ls m s).
Proof.
  intros K. unfold chunk. destruct ls as [|l r] eqn:L; [exact I|]. destruct (toks l) as [|t ts] eqn:T; [exact I|]. rewrite <- L. rewrite <- T.
  destruct (is_block_macro _). { destruct (existsb _ _); [apply of_line_tree; auto|]. unfold plugin_macro. destruct ls; [exact I|]. ny. reflexivity. }
  destruct (starts_list ls). { eapply post_bind; [apply (a_list_tree N C); exact K|]. cbv beta. intros b s2 [K2 G2]. cbn [post]. split; assumption. }
  destruct (_ && is_discrete m); [apply discrete_tree; exact K|]. destruct (is_k DelimiterLine t); [destruct (match delim s with Some _ => _ | None => _ end); [nb restore_now; ny; reflexivity|apply delimited_tree; exact K]|].
  destruct (LineModel.one_of _ t && _); [apply table_tree; exact K|]. destruct (is_k GreaterThan t && _); [apply markdown_tree; exact K|]. destruct (is_k AttrDef t); [nb restore_now; ny; reflexivity|].
  destruct (_ && thematic _); [apply of_line_tree; auto|]. destruct (is_quoted _ _); [apply quoted_tree; exact K|]. apply paragraph_tree. exact K.
Qed.
Lemma block_tree N C s : now N C s -> post (gives N C (opt (skipped N)) (opt_ok (deeper N))) (block P rec s).
Proof.
  intros K. unfold block. destruct (read_lines s) as [ls s1] eqn:E. pose proof E as ER. apply (read_now N C) in E; [|exact K]. destruct ls as [|l r]; [ny; reflexivity|].
  destruct (comment_block _) as [ls2|]; [|destruct (pmeta s1) as [m|]; [destruct (meta_empty m)|]; (exact I || (ny; reflexivity))]. nb chunk_meta_now.
  destruct (snd x) as [|l2 r2] eqn:X; [apply (R _ Block N C _ eq_refl); nn|]. destruct (section_start P (l2 :: r2) (fst x)) as [lv|] eqn:SS; [|apply chunk_tree; exact K0]. destruct (_ && is_some _); [apply chunk_tree; exact K0|].
  unfold section_start in SS. destruct (is_discrete (fst x)); [discriminate|].
  eapply (post_bind (fun _ s' => now N C s' /\ peeked s' = l2 :: r2)).
  { apply post_and; [apply restore_peeked_now; exact K0|]. unfold restore_peeked, restore_lines.
    assert (M : forall s, peeked s = l2 :: r2 -> post (fun _ s' => peeked s' = l2 :: r2) (restore_meta P (fst x) s)). { intros s2 H. unfold restore_meta. destruct (meta_empty _); [exact H|]. destruct (pmeta s2); [destruct (dbg _); [exact I|exact H]|exact H]. }
    destruct (peeked s0); cbn [bind]; [apply M; reflexivity|]. destruct (dbg (p_env P)); [exact I|]. cbn [bind]. apply M. reflexivity. }
  cbv beta. intros [] s3 [K3 P3]. destruct (_ || _) eqn:LT; [ny; reflexivity|]. apply orb_false_elim in LT. destruct LT as [_ LT]. eapply post_bind; [apply (section_tree N C); exact K3|]. cbv beta. intros y s4 [[K4 G4] H4]. destruct y as [[m k h bs]|]; [|exact I].
  cbn [post]. split; [exact K4|]. cbn [opt_ok deeper deeper_sect levels_grow] in *. rewrite P3 in H4. rewrite (H4 _ SS) in *. rewrite G4, andb_true_r. destruct K3 as [K3 _]. rewrite K3 in LT. apply Nat.leb_gt in LT. apply Nat.ltb_lt. exact LT.
Qed.

(** *** Documents *)
Lemma sectioned_tree N C s : now N C s -> post (gives N C (fun x => list_sum (map (skipped N) (fst x)) + list_sum (map (skipped_sect N) (snd x))) (fun x => forallb (deeper N) (fst x) && forallb levels_grow (snd x))) (sectioned rec s).
Proof. intros K. unfold sectioned. nr. nr. cbn [post]. split; [cbn [fst snd]; rewrite Nat.add_assoc; exact K1|]. cbn [fst snd]. rewrite G, G0. reflexivity. Qed.
Lemma special_tree N C s : now N C s -> post (gives N C (opt (skipped_sect N)) (opt_ok levels_grow)) (special_sect P rec s).
Proof.
  intros K. unfold special_sect. nr. rewrite Nat.add_0_r in K0. destruct x as [p|]; [|ny; reflexivity]. destruct (special P p); [|nb restore_peeked_now; ny; reflexivity].
  eapply post_bind; [apply (peeked_tree N C); exact K0|]. cbv beta. intros x s2 [G2 _]. exact G2.
Qed.
Lemma part_tree N C s : now N C s -> post (gives N C (opt (part_val N)) (opt_ok (fun p => forallb (deeper N) (snd (fst p)) && forallb levels_grow (snd p)))) (book_part P rec s).
Proof.
  intros K. unfold book_part. nr. rewrite Nat.add_0_r in K0. destruct x as [p|]; [|ny; reflexivity]. destruct (_ || _); [nb restore_peeked_now; ny; reflexivity|]. destruct (ps_lines p); [exact I|]. destruct (toks i); [exact I|]. destruct (discard_assert _ _); [|exact I].
  nb inlines_now. eapply post_bind; [apply (sectioned_tree N C); exact K1|]. cbv beta. intros x0 s2 [K2 G2]. cbn [post]. split; [cbn [opt]; unfold part_val; cbn [fst snd]; nn|exact G2].
Qed.
Lemma one_more_tree {A : Set} (loop : call (list A)) (v : A -> nat) (g : A -> bool) N C (x : option A) s :
  isnt_book loop = true -> (forall l, val loop N l = list_sum (map v l)) -> (forall l, grows loop N l = forallb g l) -> gives N C (opt v) (opt_ok g) x s -> post (gives N C (val loop N) (grows loop N)) (one_more rec loop x s).
Proof.
  intros B V G [K H]. unfold one_more. destruct x as [a|].
  - eapply post_bind; [apply (R _ loop N (C + v a) s B K)|]. cbv beta. intros r s2 [K2 G2]. cbn [post]. split; rewrite ?V, ?G in *; [cbn [map]; rewrite sum_cons; eapply now_eq; [exact K2|lia]|]. cbn [forallb]. cbn [opt_ok] in H. rewrite H, G2. reflexivity.
  - cbn [post]. split; rewrite ?V, ?G; [exact K|reflexivity].
Qed.
Lemma book_tree s N : level s = N -> post (fun x s' => level s' = N /\ grows Book N x = true) (parse_book P rec s).
Proof.
  intros H. assert (K : now N (skips (probs s)) s) by (split; [exact H|reflexivity]). set (C := skips (probs s)) in *. clearbody C. unfold parse_book. destruct (negb _); [cbn [post]; auto|].
  assert (BW : forall (A : Set) (c : call A) C s (Q : option content -> pst -> Prop) k, isnt_book c = true -> now N C s -> (forall x C s, now N C s -> grows c N x = true -> post Q (k x s)) -> post Q (bind (rec A c s) k)).
  { intros A c C0 s0 Q k B K0 F. eapply post_bind; [apply (R _ c N C0 s0 B K0)|]. cbv beta. intros x s2 [K2 G2]. eapply F; eassumption. }
  eapply (BW _ SpecialLoop C s); [reflexivity|exact K|]. intros opening C1 s1 K1 G1. cbn [grows] in G1. destruct (_ && _). { cbn [post]. split; [apply K1|]. cbn. rewrite G1. destruct (N =? 0); reflexivity. }
  eapply post_bind; [apply (part_tree N C1); exact K1|]. cbv beta. intros p s2 [K2 G2]. destruct p as [p|].
  - eapply (BW _ PartLoop _ s2); [reflexivity|exact K2|]. intros ps C3 s3 K3 G3. eapply (BW _ SpecialLoop _ s3); [reflexivity|exact K3|]. intros closing C4 s4 K4 G4. cbn [post]. split; [apply K4|]. cbn [grows] in *. destruct (N =? 0) eqn:Z; [|reflexivity]. apply Nat.eqb_eq in Z. rewrite Z in *.
    cbn [content_levels_grow forallb]. rewrite G1, G4. cbn [opt_ok] in G2. unfold part_levels_grow at 1. rewrite G2. cbn [andb]. unfold part_levels_grow. rewrite G3. reflexivity.
  - eapply (BW _ Peek _ s2); [reflexivity|exact K2|]. intros k C3 s3 K3 _. destruct k as [k|].
    + eapply post_bind; [apply (restore_peeked_now P N C3); exact K3|]. cbv beta. intros [] s4 K4. eapply post_bind; [apply (sectioned_tree N C3); exact K4|]. cbv beta. intros x s5 [K5 G5]. cbn [post]. split; [apply K5|]. cbn [grows]. destruct (N =? 0) eqn:Z; [|reflexivity]. apply Nat.eqb_eq in Z. rewrite Z in *.
      cbn [content_levels_grow]. apply andb_prop in G5. destruct G5 as [G5 G6]. rewrite G5, forallb_app, G1, G6. reflexivity.
    + eapply (BW _ BlockLoop _ s3); [reflexivity|exact K3|]. intros bs C4 s4 K4 G4. cbn [grows] in G4. assert (B : forall s, level s = N -> level s = N /\ grows Book N (Some (Blocks bs)) = true) by (intros s5 H5; split; [exact H5|]; cbn [grows content_levels_grow]; destruct (N =? 0) eqn:Z; [apply Nat.eqb_eq in Z; rewrite Z in *; exact G4|reflexivity]).
      destruct (at_end s4); [cbn [post]; apply B; apply K4|]. eapply post_bind; [apply (RB N); apply K4|]. cbv beta. intros c s5 [L5 G5]. destruct c as [c|]; [|cbn [post]; apply B; exact L5].
      cbn [grows] in *. destruct c as [b|pre ss|pre o ps cl]; [exact I|cbn [post]..]; (split; [exact L5|]); (destruct (N =? 0) eqn:Z; [apply Nat.eqb_eq in Z; rewrite Z in *; cbn [content_levels_grow] in *; rewrite forallb_app, G4; exact G5|reflexivity]).
Qed.
Lemma step_tree (A : Set) (c : call A) N C s : isnt_book c = true -> now N C s -> post (gives N C (val c N) (grows c N)) (step P rec A c s).
Proof.
  intros B K. destruct c; cbn [step isnt_book] in *; try discriminate B.
  - apply block_tree. exact K.
  - eapply post_bind; [apply (R _ Block N C s eq_refl K)|]. cbv beta. intros b s1 G. apply (one_more_tree BlockLoop (skipped N) (deeper N)); auto.
  - eapply post_bind; [apply (list_item_tree N C); exact K|]. cbv beta. intros b s1 G. apply (one_more_tree (ItemLoop m) (skipped_item N) (deeper_item N)); auto.
  - apply continuations_tree. exact K.
  - eapply post_weaken; [apply (extra_now N C); exact K|]. cbv beta. intros x s1 K1. split; [cbn [val]; rewrite Nat.add_0_r; exact K1|reflexivity].
  - eapply post_weaken; [apply (peek_now N C); exact K|]. cbv beta. intros x s1 K1. split; [cbn [val]; rewrite Nat.add_0_r; exact K1|reflexivity].
  - eapply post_bind; [apply (section_tree N C); exact K|]. cbv beta. intros b s1 [G _]. apply (one_more_tree SectionLoop (skipped_sect N) levels_grow); auto.
  - eapply post_bind; [apply (special_tree N C); exact K|]. cbv beta. intros b s1 G. apply (one_more_tree SpecialLoop (skipped_sect N) levels_grow); auto.
  - eapply post_bind; [apply (part_tree N C); exact K|]. cbv beta. intros b s1 G. apply (one_more_tree PartLoop (part_val N) (fun p => forallb (deeper N) (snd (fst p)) && forallb levels_grow (snd p))); auto.
Qed.
Lemma meta_level : forall ls m s k, start_level P ls = Some k -> (begun m = true \/ match ls with l :: _ => is_comment l = false | [] => True end) ->
  post (fun x _ => match snd x with l :: _ => heading_level P (toks l) = Some k \/ heading_level P (toks l) = None | [] => True end) (meta_lines P ls m s).
Proof.
  induction ls as [|l r IH]; intros m s k H Cc; cbn [meta_lines]; [exact I|]. cbn [start_level] in H. destruct (chunk_title l) eqn:T.
  { rewrite orb_true_r in H. eapply (post_bind (fun _ _ => True)); [destruct (inlines _ _ _); exact I|]. intros x s1 _. apply IH; [exact H|left; apply begun_title]. }
  destruct (attr_list_line l) eqn:A. { destruct (block_attr_list _) as [[a ?]|]; [|exact I]. apply IH; [exact H|left; apply begun_app]. }
  cbn [orb] in H. destruct (is_comment l) eqn:CM.
  - destruct Cc as [Cc|Cc]; [|congruence]. assert (N : anchor_line l = false).
    { revert CM. clear. unfold is_comment, anchor_line, is_block_anchor. destruct (toks l) as [|t x]; [reflexivity|]. cbn [starts_with_seq satisfies]. unfold is_k. destruct (unconsumed l); [|discriminate]. destruct (tk t); try discriminate; destruct x; reflexivity. }
    rewrite N. fold (begun m). rewrite Cc. cbn [andb]. apply IH; [exact H|left; exact Cc].
  - destruct (heading_plain P _ _ H) as (_ & _ & _ & N & _). rewrite N. cbn [andb post snd]. left. exact H.
Qed.
Lemma peek_level s k : start_level P (peeked s) = Some k -> post (fun p _ => match p with Some p => semantic p = k | None => True end) (peek_section P rec s).
Proof.
  intros H. unfold peek_section, read_lines. destruct (peeked s) as [|l r] eqn:PK; [discriminate H|]. pose proof (start_drop P (l :: r)) as SD. rewrite H in SD. destruct (drop_comments (l :: r)) as [|l1 r1] eqn:D; [discriminate SD|].
  pose proof (drop_first _ _ _ D) as F. eapply (post_bind (fun x _ => match snd x with l :: _ => heading_level P (toks l) = Some k \/ heading_level P (toks l) = None | [] => True end)).
  - unfold chunk_meta. cbn [with_peeked pmeta].
    assert (Z : match l1 :: r1 with l0 :: _ => heading_level P (toks l0) = Some k \/ heading_level P (toks l0) = None | [] => True end).
    { cbn [start_level] in SD. rewrite F, orb_false_r in SD. destruct (attr_list_line l1 || chunk_title l1) eqn:AT; [|left; exact SD]. right. destruct (heading_level P (toks l1)) as [q|] eqn:Q; [|reflexivity]. destruct (heading_plain P _ _ Q) as (_ & Q1 & Q2 & _). rewrite Q1, Q2 in AT. discriminate. }
    destruct (pmeta s); [cbn [post snd]; exact Z|]. destruct (toks l1) eqn:T; [exact I|]. destruct (unconsumed l1); [apply (meta_level (l1 :: r1)); [exact SD|right; exact F]|]. cbn [post snd]. exact Z.
  - cbv beta. intros x s2 Q. destruct (snd x) as [|l2 r2]; [destruct (restore_meta _ _ _); exact I|]. destruct (heading_level P (toks l2)) as [q|]; [|destruct (restore_peeked _ _ _ _); exact I]. cbn [post semantic]. destruct Q as [Q|Q]; congruence.
Qed.
End Tree.
Lemma run_tree P : forall n,
  (forall (A : Set) (c : call A) N C s, isnt_book c = true -> now N C s -> post (gives N C (val c N) (grows c N)) (run n P A c s)) /\
  (forall s k, start_level P (peeked s) = Some k -> post (fun p _ => match p with Some p => semantic p = k | None => True end) (run n P _ Peek s)) /\
  (forall N s, level s = N -> post (fun x s' => level s' = N /\ grows Book N x = true) (run n P _ Book s)).
Proof.
  induction n as [|n (I1 & I2 & I3)]; [repeat split; intros; exact I|]. repeat split; intros; cbn [run].
  - apply step_tree; assumption.
  - apply (peek_level P (run n P)). exact H.
  - cbn [step]. apply book_tree; assumption.
Qed.
