(** Listings among other blocks, and texts with special characters that look the same (C73). *)
From Verif Require Import Base WholeSpec OutlineSpec BoxSpec.
Import ListNotations.
Open Scope list_scope.

Lemma apart_app l m : forall a, apart a l = true -> boxed (hd (Shown ListingBox []) m) = true -> apart false m = true -> apart a (l ++ m) = true.
Proof.
  induction l as [|x l IH]; intros a A B M; cbn [app].
  - destruct m as [|[[ls|k es]|b ins|b ls] m]; try reflexivity; try discriminate B; exact M.
  - destruct x as [[ls|k es]|b ins|b ls]; cbn [apart] in *; [now apply IH| |now apply IH..]. apply andb_true_iff in A as [-> A]. now apply IH.
Qed.
Lemma around_ok before after b ls : bodies_ok before = true -> bodies_ok after = true -> as_is b = true -> forallb line_ok ls = true -> bodies_ok (before ++ [Shown b ls] ++ after) = true.
Proof.
  unfold bodies_ok. intros B A AI OL. apply andb_true_iff in B as [B1 B2], A as [A1 A2]. rewrite !forallb_app, B1, A1. cbn [forallb body_ok other andb]. rewrite AI, OL. cbn [andb]. now apply apart_app.
Qed.
Lemma box_html_inj b x y : box_html b x = box_html b y -> x = y.
Proof. destruct b; cbn [box_html]; intros E; apply app_inv_head, app_inv_tail in E; exact E. Qed.
Definition special (c : ascii) : bool := existsb (Ascii.eqb c) ["&"; "<"; ">"]%char.
Lemma special_cases c : special c = true -> c = "&"%char \/ c = "<"%char \/ c = ">"%char.
Proof.
  unfold special. cbn [existsb]. intros H. apply orb_true_iff in H as [H|H]; [left; now apply Ascii.eqb_eq in H|]. apply orb_true_iff in H as [H|H]; [right; left; now apply Ascii.eqb_eq in H|]. apply orb_true_iff in H as [H|H]; [right; right; now apply Ascii.eqb_eq in H|discriminate H].
Qed.
Lemma escape_cons c x : escape (c :: x) = (if special c then escaped c else [c]) ++ escape x.
Proof. reflexivity. Qed.
Lemma escape_inj x : forall y, escape x = escape y -> x = y.
Proof.
  induction x as [|c x IH]; intros [|d y] E; [reflexivity| | |]; rewrite ?escape_cons in E.
  - cbn [escape flat_map] in E. destruct (special d) eqn:S; [|discriminate E]. apply special_cases in S as [->|[->| ->]]; discriminate E.
  - cbn [escape flat_map] in E. destruct (special c) eqn:S; [|discriminate E]. apply special_cases in S as [->|[->| ->]]; discriminate E.
  - destruct (special c) eqn:S, (special d) eqn:S'.
    + apply special_cases in S as [->|[->| ->]]; apply special_cases in S' as [->|[->| ->]]; try discriminate E; cbn [escaped Ascii.eqb Bool.eqb] in E; injection E as E; f_equal; now apply IH.
    + cbn [app] in E. apply special_cases in S as [->|[->| ->]]; injection E as E1 E2; subst d; discriminate S'.
    + cbn [app] in E. apply special_cases in S' as [->|[->| ->]]; injection E as E1 E2; subst c; discriminate S.
    + cbn [app] in E. injection E as -> E. f_equal. now apply IH.
Qed.
