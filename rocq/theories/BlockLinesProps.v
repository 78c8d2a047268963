(** C60: cutting a source into groups of lines loses only blank lines. *)
From Verif Require Import Base InlineModel InlineSpec VerbatimProofs BlockModel BlockSpec.
Import ListNotations.

Lemma toks_line x : toks (line_of x) = x.
Proof. apply line_of_spec. Qed.
Lemma skip_split : forall l, exists b, l = b ++ skip_empty l /\ blank b.
Proof.
  induction l as [|x r (b & E & B)]; [exists []; split; [reflexivity|intros x []]|]. cbn [skip_empty]. destruct (emptyish x) eqn:X; [|exists []; split; [reflexivity|intros y []]].
  exists (x :: b). split; [cbn; congruence|]. intros y [<-|H]; auto.
Qed.
Lemma skip_first : forall l x r, skip_empty l = x :: r -> emptyish x = false.
Proof. induction l as [|x r IH]; [discriminate|]. cbn [skip_empty]. destruct (emptyish x) eqn:X; [apply IH|]. intros y z [= <- _]. exact X. Qed.
Lemma group_split : forall l g m, group l = (g, m) -> exists w, l = map toks g ++ w ++ m /\ with_text g /\ blank w /\ length w <= 1 /\ (w = [] -> m = [] \/ exists r, m = [] :: r).
Proof.
  induction l as [|x r IH]; cbn [group]; intros g m.
  - intros [= <- <-]. exists []. repeat split; try (intros ? []); auto.
  - destruct x as [|t x].
    + intros [= <- <-]. exists []. repeat split; try (intros ? []); auto. right. exists r. reflexivity.
    + destruct (emptyish (t :: x)) eqn:X.
      * intros [= <- <-]. exists [t :: x]. split; [reflexivity|]. split; [intros ? []|]. split; [intros y [<-|[]]; exact X|]. split; [apply le_n|discriminate].
      * destruct (group r) as [g1 m1]. intros [= <- <-]. destruct (IH _ _ eq_refl) as (w & -> & T & B & L & E). exists w. rewrite <- (toks_line (t :: x)) in X. repeat split; auto; [cbn [map app]; rewrite toks_line; reflexivity|]. intros y [<-|H]; auto.
Qed.
(** A group of lines read from the source: blank lines before it, at most one blank line after it, and it ends only at a blank line or the end of the source. *)
Theorem C60_group s ls s' : peeked s = [] -> read_lines s = (ls, s') ->
  exists b w, src s = b ++ map toks ls ++ w ++ src s' /\ blank b /\ with_text ls /\ blank w /\ length w <= 1 /\ (w = [] -> src s' = [] \/ exists r, src s' = [] :: r) /\ (ls = [] -> src s' = []).
Proof.
  intros K. unfold read_lines. rewrite K. destruct (skip_split (src s)) as (b & E & B). destruct (skip_empty (src s)) as [|x r] eqn:S.
  - intros [= <- <-]. exists b, []. cbn [map app with_src src]. rewrite <- E. repeat split; auto; try (intros ? []).
  - destruct (group r) as [g m] eqn:G. intros [= <- <-]. destruct (group_split _ _ _ G) as (w & -> & T & BW & L & EW). exists b, w. cbn [map app with_src src]. rewrite toks_line. apply skip_first in S. rewrite <- (toks_line x) in S. repeat split; auto; [intros y [<-|H]; auto|discriminate].
Qed.
Print Assumptions C60_group.
(** Lines that were put back are read again, and nothing else. *)
Theorem C60_put_back s : peeked s <> [] -> read_lines s = (peeked s, with_peeked [] s).
Proof. unfold read_lines. destruct (peeked s); [congruence|reflexivity]. Qed.
Print Assumptions C60_put_back.
Lemma until_split d : forall l g m, until_delim d l = (g, m) -> l = map toks g ++ m /\ (m = [] \/ exists x r, m = x :: r /\ opens_with d x = true).
Proof.
  induction l as [|x r IH]; cbn [until_delim]; intros g m; [intros [= <- <-]; auto|]. destruct (opens_with d x) eqn:O; [intros [= <- <-]; split; [reflexivity|right; exists x, r; auto]|].
  destruct (until_delim d r) as [g1 m1]. intros [= <- <-]. destruct (IH _ _ eq_refl) as [-> H]. split; [cbn; rewrite toks_line; reflexivity|exact H].
Qed.
Lemma drop_split : forall l, exists e, l = e ++ drop_empty l /\ (forall x, In x e -> toks x = []).
Proof. induction l as [|x r (e & E & B)]; [exists []; split; [reflexivity|intros x []]|]. cbn [drop_empty]. destruct (toks x) eqn:X; [|exists []; split; [reflexivity|intros y []]]. exists (x :: e). split; [cbn; congruence|]. intros y [<-|H]; auto. Qed.
(** The lines of a verbatim block: all the lines up to the next line with its delimiter, without the blank lines at both ends, and without one blank line [w] after the first group. *)
Theorem C60_verbatim d s ls s' : peeked s = [] -> read_until d s = (ls, s') ->
  (exists l, In l ls /\ is_delimiter d (toks l) = true) \/
  exists b f w g e, src s = b ++ map toks f ++ w ++ map toks g ++ e ++ src s' /\ ls = f ++ g /\ blank b /\ with_text f /\ blank w /\ length w <= 1 /\ (forall x, In x e -> x = []) /\
    (src s' = [] \/ exists x r, src s' = x :: r /\ opens_with d x = true).
Proof.
  intros K. unfold read_until. destruct (read_lines s) as [f s1] eqn:R. destruct (C60_group _ _ _ K R) as (b & w & E & B & T & BW & L & _ & N). destruct f as [|l r] eqn:F.
  - intros [= <- <-]. right. exists b, [], w, [], []. cbn [map app] in *. repeat split; auto; try (intros ? []).
  - rewrite <- F in *. destruct (existsb _ f) eqn:X; [intros [= <- <-]; left; apply existsb_exists in X; exact X|]. destruct (until_delim d (src s1)) as [g m] eqn:U. intros [= <- <-]. right. destruct (until_split _ _ _ _ U) as [E2 H]. cbn [with_src src].
    destruct (drop_split (rev (f ++ g))) as (e & E3 & BE). apply (f_equal (@rev iline)) in E3. rewrite rev_involutive, rev_app_distr in E3.
    (* what is dropped is in g, the lines of f having text *)
    assert (G : exists g', g = g' ++ rev e /\ rev (drop_empty (rev (f ++ g))) = f ++ g').
    { set (k := rev (drop_empty (rev (f ++ g)))) in *. clearbody k. assert (LE : length f <= length k).
      { destruct (le_lt_dec (length f) (length k)) as [Q|Q]; [exact Q|]. exfalso. assert (I : nth_error f (length k) <> None) by (apply nth_error_Some; exact Q). destruct (nth_error f (length k)) as [y|] eqn:Y; [|congruence].
        assert (Z : nth_error (k ++ rev e) (length k) = Some y) by (rewrite <- E3, nth_error_app1; assumption). rewrite nth_error_app2, Nat.sub_diag in Z by lia. apply nth_error_In in Z. apply in_rev in Z. apply BE in Z. apply nth_error_In in Y. apply T in Y. rewrite Z in Y. discriminate. }
      exists (skipn (length f) k). assert (F1 : firstn (length f) k = f).
      { apply (f_equal (firstn (length f))) in E3. rewrite firstn_app, firstn_app, Nat.sub_diag, firstn_all, firstn_O, app_nil_r in E3. replace (length f - length k) with 0 in E3 by lia. rewrite firstn_O, app_nil_r in E3. symmetry. exact E3. }
      split; [|rewrite <- (firstn_skipn (length f) k) at 1; rewrite F1; reflexivity]. apply (f_equal (skipn (length f))) in E3. rewrite skipn_app, skipn_app, Nat.sub_diag, skipn_all in E3. replace (length f - length k) with 0 in E3 by lia. exact E3. }
    destruct G as (g' & -> & ->). exists b, f, w, g', (map toks (rev e)). rewrite E, E2, map_app, <- !app_assoc. repeat split; auto. intros x I. apply in_map_iff in I as (y & <- & Y). apply in_rev in Y. apply BE. exact Y.
Qed.
Print Assumptions C60_verbatim.
(** The lines of a table up to its closing line, comments left out. *)
Theorem C60_table d : forall l x e m, table_src d l = (x, e, m) ->
  exists k, x = filter (fun t => negb (is_comment (line_of t))) k /\ if e then exists c, l = k ++ c :: m /\ src_eq c d = true else l = k /\ m = [].
Proof.
  induction l as [|y r IH]; cbn [table_src]; intros x e m; [intros [= <- <- <-]; exists []; auto|]. destruct (is_comment (line_of y)) eqn:C; cbn [negb andb].
  - destruct (table_src d r) as [[x1 e1] m1]. intros [= <- <- <-]. destruct (IH _ _ _ eq_refl) as (k & -> & H). exists (y :: k). split; [cbn [filter]; rewrite C; reflexivity|]. destruct e1; [destruct H as (c & -> & H); exists c; auto|destruct H as [-> ->]; auto].
  - destruct (src_eq y d) eqn:Q; [intros [= <- <- <-]; exists []; split; [reflexivity|exists y; auto]|].
    destruct (table_src d r) as [[x1 e1] m1]. intros [= <- <- <-]. destruct (IH _ _ _ eq_refl) as (k & -> & H). exists (y :: k). split; [cbn [filter]; rewrite C; reflexivity|]. destruct e1; [destruct H as (c & -> & H); exists c; auto|destruct H as [-> ->]; auto].
Qed.
Print Assumptions C60_table.

Open Scope string_scope.
Definition texts (ls : list iline) : list bytes := map (fun l => LineModel.text_of (toks l)) ls.
Definition source (l : list string) : pst := fresh normal (para (doc l)).
Example C60_group_sample : let (ls, s') := read_lines (source [""; " "; "one"; "two"; ""; "three"]) in texts ls = [$"one"; $"two"] /\ map LineModel.text_of (src s') = [[]; $"three"].
Proof. vm_compute. split; reflexivity. Qed.
Definition dashes : delimiter := Delim DListing 4.
Example C60_verbatim_sample : let (ls, s') := read_until dashes (source ["one"; ""; "two"; " "; "three"; ""; ""; "----"; "x"]) in texts ls = [$"one"; []; $"two"; $" "; $"three"] /\ map LineModel.text_of (src s') = [$"----"; $"x"].
Proof. vm_compute. split; reflexivity. Qed.
(** "The lines of a listing are the lines between its delimiters" is false: a line of white space that ends the first group is lost. *)
Theorem C60_white_line_refuted : let (ls, s') := read_until dashes (source ["one"; " "; "two"; "----"]) in texts ls = [$"one"; $"two"] /\ map LineModel.text_of (src s') = [$"----"].
Proof. vm_compute. split; reflexivity. Qed.
Print Assumptions C60_white_line_refuted.
(** In a whole document: *)
Theorem C60_listing_refuted :
  match parsed true false ["----"; "one"; " "; "two"; "----"] with Yes (Sections [BDelimited _ CListing _ (Simple ns) true] []) s => ns = [NText $"one"; NNewline; NText $"two"] /\ probs s = [] | _ => False end.
Proof. vm_compute. split; reflexivity. Qed.
Print Assumptions C60_listing_refuted.
Example C60_listing_sample :
  match parsed true false ["----"; "one"; "x"; ""; "two"; " "; "----"] with Yes (Sections [BDelimited _ CListing _ (Simple ns) true] []) s => ns = [NText $"one"; NNewline; NText $"x"; NNewline; NNewline; NText $"two"; NNewline; NText $" "] /\ probs s = [] | _ => False end.
Proof. vm_compute. split; reflexivity. Qed.
