(** The text of a paragraph that ends at a delimiter (C72). *)
From Verif Require Import Base Utf8 LexerModel LineModel SubsModel InlineModel InlineSpec WholeModel WholeSpec WholeLexProofs WholePieceProofs WholeInlineProofs.
From Verif Require Import InlineTermSpec InlineTermProofs.
Import ListNotations.
Open Scope list_scope.
Open Scope nat_scope.

Section Runs.
Variable E : env.
Hypothesis free : forall l, ordinary_start (toks l) = true -> stops E l = false.
(** nothing follows, or a line that no text goes on with *)
Definition halts (rest : list iline) : Prop := match rest with [] => True | x :: _ => stops E x = true /\ toks x <> [] /\ unconsumed x = true end.
Lemma halt_ends s a rest : halts rest -> fine a -> exists ns, forallb good ns = true /\ (forall nl, nodes_html nl ns = shows nl a) /\ ends E [] normal s (joining_newline a rest) None rest (Done s ns rest).
Proof.
  intros H F. destruct rest as [|x r].
  - destruct (finish_fine a F) as [S G]. exists (finish a None). split; [exact G|]. split; [exact S|]. now apply ends_fin.
  - destruct H as (H & N & U). rewrite joining_fine by exact F. assert (FC : fine (commit a)) by (unfold fine, commit; cbn [nodes_of]; now apply add_text_good).
    destruct (finish_fine (commit a) FC) as [S G]. exists (finish (commit a) None). split; [exact G|]. split; [intros nl; rewrite S; apply commit_shows|]. apply ends_fin. cbn [step]. rewrite H. unfold restore. destruct (toks x) as [|t u] eqn:T; [easy|].
    f_equal. f_equal. unfold push_node. cbn [nodes_of text]. unfold remove_trailing_newline. rewrite rev_unit, rev_involutive. reflexivity.
Qed.
Lemma run_lines_halt s rest : calm s -> halts rest -> forall ls lns a, ls <> [] -> Forall2 of_line lns ls -> Forall (fun l => l <> [] /\ forallb item_ok l = true) ls -> fine a ->
  exists ns, forallb good ns = true /\ (forall nl, nodes_html nl ns = shows nl a ++ join nl (map line_html ls)) /\ ends E [] normal s a None (lns ++ rest) (Done s ns rest).
Proof.
  intros C H. induction ls as [|l ls IH]; intros lns a NE F OK FA; [easy|]. inversion F as [|ln l' lns' ls' OL F']; subst. inversion OK as [|? ? [NL OI] OK']; subst. destruct OL as (M & O & p & prev & T & B).
  assert (FN : fresh_next (lns' ++ rest)).
  { inversion F' as [|ln2 l2 lns2 ls2 OL2 F2]; subst; [|destruct OL2 as (_ & O2 & _); cbn [app]; unfold fresh_next, unconsumed; rewrite O2; apply Nat.eqb_refl]. destruct rest as [|x r]; [exact I|]. now destruct H as (_ & _ & U). }
  destruct (run_line E free s (lns' ++ rest) C FN l p prev a ln NL M T OI B ltac:(lia) FA) as (a' & _ & FA' & S' & K). cbn [app].
  destruct ls as [|l2 ls].
  - inversion F'; subst. cbn [app] in K. destruct (halt_ends s a' rest H FA') as (ns & G & SH & E2). exists ns. split; [exact G|]. split; [intros nl; rewrite SH, S'; reflexivity|]. apply enter; [exact free|rewrite T; now apply line_ordinary|]. now apply K.
  - assert (J : joining_newline a' (lns' ++ rest) = push_node NNewline a') by (inversion F'; subst; cbn [app]; now apply joining_fine). rewrite J in K.
    destruct (IH lns' (push_node NNewline a') ltac:(discriminate) F' OK' (node_fine NNewline _ FA' eq_refl)) as (ns & G & SH & E2). exists ns. split; [exact G|]. split.
    + intros nl. rewrite SH, node_shows, S'. change (map line_html (l :: l2 :: ls)) with (line_html l :: map line_html (l2 :: ls)). change (join nl (line_html l :: map line_html (l2 :: ls))) with (line_html l ++ nl ++ join nl (map line_html (l2 :: ls))). cbn [node_html]. now rewrite <- !app_assoc.
    + apply enter; [exact free|rewrite T; now apply line_ordinary|]. apply K. exact E2.
Qed.
Lemma parse_paragraph_halt s lns ls rest : calm s -> halts rest -> Forall2 of_line lns ls -> Forall (fun l => l <> [] /\ forallb item_ok l = true) ls -> ls <> [] ->
  exists ns, forallb good ns = true /\ (forall nl, nodes_html nl ns = join nl (map line_html ls)) /\ parse_inlines_until (enough (lns ++ rest)) E [] s (lns ++ rest) = Done s ns rest.
Proof.
  intros C H F OK NE. destruct (run_lines_halt s rest C H ls lns acc0 NE F OK eq_refl) as (ns & G & S & _ & n & R). exists ns. split; [exact G|]. split; [exact S|].
  inversion F as [|ln l lns' ls' OL F']; subst; [easy|]. destruct OL as (M & O & p & prev & T & B). pose proof (Forall_inv OK) as [NL OI]. pose proof (line_ordinary l p prev NL OI) as LO. rewrite <- T in LO. cbn [app] in *.
  pose proof (parse_ends E [] s (ln :: lns' ++ rest) (enough (ln :: lns' ++ rest)) (le_n _)) as PE. unfold parse_inlines_until in *. destruct (toks ln) as [|t r] eqn:TE; [discriminate LO|].
  destruct C as (CS & _). rewrite CS in *. set (f := enough (ln :: lns' ++ rest)) in *.
  rewrite <- (go_more E f _ _ _ _ _ _ _ PE (Nat.max f n)) by lia. rewrite (go_more E n) by (try lia; rewrite R; discriminate). exact R.
Qed.
End Runs.
