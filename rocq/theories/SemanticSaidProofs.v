(** Proofs for C77: the semantic HTML shows what SaidSpec.v says, piece by piece. *)
From Verif Require Import Base WholeSpec OutlineSpec BoxSpec ManualSpec SemanticSpec SaidSpec SaidProofs.
From Verif Require ArticleSpec.
Import ListNotations.
Open Scope list_scope.
Open Scope nat_scope.

Lemma newline_says : says WholeSpec.newline [].
Proof. intros r. reflexivity. Qed.
Lemma lines_html_say ls : forallb (forallb item_ok) ls = true -> says (lines_html ls) (flat_map line_said ls).
Proof. intros H. apply join_says; [exact newline_says|]. intros l I. rewrite forallb_forall in H. apply line_says. now apply H. Qed.
Lemma text_html_says ls : forallb line_ok ls = true -> says (text_html ls) (flat_map line_said ls).
Proof.
  intros H. assert (OK : forallb (forallb item_ok) ls = true) by exact (forallb_weak _ _ _ line_items H). pose proof (paragraphs_ok ls [] eq_refl OK) as F. rewrite Forall_forall in F.
  unfold text_html. rewrite <- (app_nil_l (flat_map line_said ls)). change (@nil ascii) with (flat_map line_said []). rewrite <- paragraphs_lines. apply concat_says. intros p I. apply says_around; [intros r; reflexivity|apply lines_html_say; now apply F|intros r; reflexivity].
Qed.
Lemma outermost_says n open x close t : says open [] -> says x t -> says close [] -> says (outermost n open x close) t.
Proof. intros O X C. unfold outermost. destruct (n =? 1); [now apply says_around|exact X]. Qed.
Lemma list_html_says k n x t : says x t -> says (SemanticSpec.list_html k n x) t.
Proof.
  intros H. destruct k; cbn [SemanticSpec.list_html]; (apply outermost_says; [| |intros r; reflexivity]).
  - intros r; reflexivity.
  - apply says_around; [intros r; reflexivity|exact H|intros r; reflexivity].
  - intros r. destruct n as [|[|[|[|[|n]]]]]; reflexivity.
  - assert (E : $"<ol class=""" ++ numbering n ++ $"""" ++ numbering_type n ++ $">" ++ x ++ $"</ol>" = ($"<ol class=""" ++ numbering n ++ $"""" ++ numbering_type n ++ $">") ++ x ++ $"</ol>") by (now rewrite <- !app_assoc).
    rewrite E. apply says_around; [|exact H|intros r; reflexivity]. intros r. destruct n as [|[|[|[|[|n]]]]]; reflexivity.
Qed.
Lemma entry_html_says : forall e n d, entry_ok n e = true -> says (SemanticSpec.entry_html d e) (entry_said e).
Proof.
  induction e as [bl f more k subs IH] using entry_rect'. intros n d H. cbn [entry_ok] in H. apply andb_true_iff in H as [H OS]. apply andb_true_iff in H as [H OM]. apply andb_true_iff in H as [_ OF].
  assert (TX : says (lines_html (f :: more)) (line_said f ++ flat_map line_said more)).
  { change (line_said f ++ flat_map line_said more) with (flat_map line_said (f :: more)). apply lines_html_say. cbn [forallb]. rewrite (words_items f OF). cbn [andb]. revert OM. apply forallb_weak. intros l L. apply line_items. now destruct l. }
  assert (SB : says (match subs with [] => [] | _ => SemanticSpec.list_html k (S d) (concat (map (SemanticSpec.entry_html (S d)) subs)) end) (flat_map entry_said subs)).
  { assert (C : says (concat (map (SemanticSpec.entry_html (S d)) subs)) (flat_map entry_said subs)). { apply concat_says. intros x X. rewrite Forall_forall in IH. rewrite forallb_forall in OS. exact (IH x X _ _ (OS x X)). }
    destruct subs; [exact says_nil|]. now apply list_html_says. }
  cbn [SemanticSpec.entry_html entry_said]. rewrite (app_assoc (line_said f)). apply says_app0; [intros r; reflexivity|]. apply says_app; [exact TX|]. rewrite <- (app_nil_r (flat_map entry_said subs)). apply says_app; [exact SB|intros r; reflexivity].
Qed.
Lemma part_html_says p : part_ok p = true -> says (SemanticSpec.part_html p) (part_said p).
Proof.
  destruct p as [ls|k es]; cbn [part_ok SemanticSpec.part_html part_said]; [apply text_html_says|]. intros H. assert (OS : forallb (entry_ok 1) es = true) by (destruct es; [discriminate H|exact H]). apply list_html_says, concat_says. intros e E. rewrite forallb_forall in OS. exact (entry_html_says e 1 1 (OS e E)).
Qed.
Lemma box_html_says b x t : says x t -> says (SemanticSpec.box_html b x) t.
Proof. intros H. destruct b; cbn [SemanticSpec.box_html]; (apply says_around; [intros r; reflexivity|exact H|intros r; reflexivity]). Qed.
Lemma body_html_says : forall x o, body_ok o x = true -> says (SemanticSpec.body_html x) (body_said x).
Proof.
  induction x as [p|b l IH|b ls] using body_rect'; intros o H; cbn [body_ok SemanticSpec.body_html body_said] in *.
  - now apply part_html_says.
  - apply box_html_says, concat_says. intros y Y. apply andb_true_iff in H as [H _]. apply andb_true_iff in H as [_ H]. rewrite Forall_forall in IH. rewrite forallb_forall in H. exact (IH y Y _ (H y Y)).
  - apply andb_true_iff in H as [_ H]. apply box_html_says. now apply kept_lines.
Qed.
Lemma bodies_html_say l : bodies_ok l = true -> says (bodies_html l) (flat_map body_said l).
Proof. intros H. apply andb_true_iff in H as [H _]. unfold bodies_html. apply concat_says. intros x X. rewrite forallb_forall in H. exact (body_html_says x None (H x X)). Qed.
Section Ids.
Variable ids : list bytes.
Hypothesis ids_ok : forallb (forallb in_tag) ids = true.
Lemma section_html_says : forall s n k, section_ok n s = true -> says (SemanticSpec.section_html ids n k s) (section_said s).
Proof.
  induction s as [h l subs IH] using section_ind'. intros n k H. cbn [section_ok] in H. apply andb_true_iff in H as [H OS]. apply andb_true_iff in H as [H OB]. apply andb_true_iff in H as [_ OH].
  cbn [SemanticSpec.section_html section_said]. unfold SemanticSpec.whole_section_html. set (id := nth k ids []). assert (IT : forallb in_tag id = true) by exact (nth_in_tag k ids ids_ok). clearbody id.
  assert (E : forall x y, $"<section class=""doc-section level-" ++ b (dec n) ++ $"""><h" ++ b (dec (S n)) ++ $" id=""" ++ id ++ $""">" ++ line_html h ++ $"</h" ++ b (dec (S n)) ++ $">" ++ x ++ y ++ $"</section>" =
    ($"<" ++ ($"section class=""doc-section level-" ++ b (dec n) ++ $"""") ++ $">") ++ ((($"<" ++ ($"h" ++ b (dec (S n)) ++ $" id=""" ++ id ++ $"""") ++ $">") ++ line_html h ++ ($"<" ++ ($"/h" ++ b (dec (S n))) ++ $">")) ++ (x ++ y)) ++ $"</section>") by (intros x y; rewrite <- !app_assoc; reflexivity).
  rewrite E. apply says_around; [apply tag_says; rewrite !forallb_app, dec_in_tag; reflexivity| |intros r; reflexivity].
  apply says_app; [apply says_around; [|apply line_says; now apply heading_items|]; apply tag_says; rewrite !forallb_app, ?IT, !dec_in_tag; reflexivity|]. apply says_app; [now apply bodies_html_say|].
  generalize (S k). clear - IH OS. induction IH as [|s subs I _ IHs]; intros k; [exact says_nil|]. cbn [forallb flat_map] in *. apply andb_true_iff in OS as [O1 OS]. apply says_app; [now apply I|now apply IHs].
Qed.
Lemma sections_html_say n : forall l k, forallb (section_ok n) l = true -> says (SemanticSpec.sections_html ids n k l) (flat_map section_said l).
Proof. induction l as [|s l IH]; intros k H; [exact says_nil|]. cbn [forallb SemanticSpec.sections_html flat_map] in *. apply andb_true_iff in H as [H1 H]. apply says_app; [now apply section_html_says|now apply IH]. Qed.
End Ids.
Lemma semantic_says m : manual_ok m = true -> shown (SemanticSpec.html m) = said m.
Proof.
  intros OK. apply andb_true_iff in OK as [OK OS]. apply andb_true_iff in OK as [_ OI]. apply says_shown. unfold SemanticSpec.html, said. apply says_app.
  - unfold SemanticSpec.preamble_html. pose proof (bodies_html_say _ OI) as B. destruct (title m), (sections m), (bodies_html (intro m)) eqn:E; try exact B. apply says_around; [intros r; reflexivity|exact B|intros r; reflexivity].
  - apply sections_html_say; [|exact OS]. apply ids_in_tag. clear OI. revert OS. generalize (sections m). clear. induction l as [|s l IH]; [reflexivity|]. cbn [forallb flat_map]. intros H. apply andb_true_iff in H as [H1 H]. rewrite forallb_app, (headings_fine s _ H1). now apply IH.
Qed.
