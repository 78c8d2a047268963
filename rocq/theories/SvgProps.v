(** C82: an SVG file is shown as it is, or with the sizes that are given. *)
From Verif Require Import Base SvgModel SvgSpec SvgProofs.
Import ListNotations.

(** the whitespace meant here: tab, line feed, form feed, carriage return and space; before attributes also the vertical tab *)
Theorem C82_whitespace : forall c, (is_blank c = true <-> In (nat_of_ascii c) [9; 10; 12; 13; 32]) /\ (is_space c = true <-> In (nat_of_ascii c) [9; 10; 11; 12; 13; 32]).
Proof.
  intros c. assert (B : is_blank c = existsb (Nat.eqb (nat_of_ascii c)) [9; 10; 12; 13; 32]) by (destruct c as [[] [] [] [] [] [] [] []]; vm_compute; reflexivity).
  assert (S : is_space c = existsb (Nat.eqb (nat_of_ascii c)) [9; 10; 11; 12; 13; 32]) by (destruct c as [[] [] [] [] [] [] [] []]; vm_compute; reflexivity).
  assert (X : forall l, existsb (Nat.eqb (nat_of_ascii c)) l = true <-> In (nat_of_ascii c) l).
  { intros l. rewrite existsb_exists. split; [intros (y & I & E); apply Nat.eqb_eq in E; now rewrite E|]. intros I. exists (nat_of_ascii c). split; [exact I|apply Nat.eqb_refl]. }
  rewrite B, S. split; apply X.
Qed.
Print Assumptions C82_whitespace.

(** C82, no size given: of a file with one [svg] element all that begins with it is shown, except whitespace at the end. *)
Theorem C82_as_it_is_partial : forall front rest out, ~ within $"<svg" rest -> trimmed_end ($"<svg" ++ rest) out ->
  inline_svg (front ++ $"<svg" ++ rest) None None = Some out.
Proof.
  intros front rest out N T. unfold inline_svg. rewrite (from_last_is front rest N), (trim_of rest out T).
  destruct out as [|c out]; [|reflexivity]. exfalso. destruct T as (w & E & F & _). cbn in E. subst w. inversion F. discriminate.
Qed.
Print Assumptions C82_as_it_is_partial.

(** C82, a size given: the element begins with the sizes that are given, and what follows has lost its own. *)
Theorem C82_with_size_partial : forall front rest r m width height, ~ within $"<svg" rest -> trimmed_end ($"<svg" ++ rest) ($"<svg" ++ r) ->
  loses_sizes r m -> width <> None \/ height <> None ->
  inline_svg (front ++ $"<svg" ++ rest) width height = Some ($"<svg" ++ sizes width height ++ m).
Proof.
  intros front rest r m width height N T L G. unfold inline_svg. rewrite (from_last_is front rest N), (trim_of rest _ T).
  assert (E : strip 0 ($"<svg" ++ r) = $"<svg" ++ m) by (rewrite <- (strip_is r m L); reflexivity).
  rewrite E. destruct width as [w|], height as [h|]; [..|destruct G; congruence].
  all: cbn; rewrite <- ?app_assoc; cbn; rewrite <- ?app_assoc; reflexivity.
Qed.
Print Assumptions C82_with_size_partial.

(** a file that has no [svg] element is shown too, and nothing is said unless it is blank *)
Theorem C82_no_element : forall file, ~ within $"<svg" file -> inline_svg file None None = None <-> Forall (fun c => is_blank c = true) file.
Proof.
  intros file N. unfold inline_svg. rewrite (from_last_none file N). destruct (trim_start_is file) as (w & E & F & H). unfold trim.
  destruct (trim_end_is (trim_start file)) as (w' & E' & F' & _). destruct (rev (trim_start (rev (trim_start file)))) as [|c o] eqn:O.
  - split; [|reflexivity]. intros _. cbn in E'. rewrite E. apply Forall_app. split; [exact F|]. now rewrite E'.
  - split; [discriminate|]. intros A. exfalso. rewrite E' in H. cbn in H. rewrite E, E' in A. apply Forall_app in A as (_ & A). cbn in A. inversion A. congruence.
Qed.
Print Assumptions C82_no_element.

Definition q (x : bytes) : bytes := [quote] ++ x ++ [quote].
(** [<svg viewBox="0" width="500"><circle r="5"/></svg>] after a preamble and before a line break, with a width of 100 *)
Definition circle : bytes := $" viewBox=" ++ q $"0" ++ $" width=" ++ q $"500" ++ $"><circle r=" ++ q $"5" ++ $"/></svg>".
Definition circle' : bytes := $" viewBox=" ++ q $"0" ++ $"><circle r=" ++ q $"5" ++ $"/></svg>".
Lemma within_check w l : within w l -> existsb (fun k => begins w (skipn k l)) (seq 0 (S (length l))) = true.
Proof.
  intros (u & v & ->). apply existsb_exists. exists (length u). split; [apply in_seq; rewrite !app_length; lia|]. apply begins_is. exists v. now rewrite skipn_app, skipn_all, Nat.sub_diag.
Qed.
Lemma unsized_check l : forallb (fun c => forallb (fun n => negb (existsb (fun k => begins (c :: n ++ $"=") (skipn k l)) (seq 0 (S (length l))))) size_names)
  [" "%char; ascii_of_nat 9; ascii_of_nat 10; ascii_of_nat 12; ascii_of_nat 13; ascii_of_nat 11] = true -> unsized l.
Proof.
  intros H c n S I W. rewrite forallb_forall in H. assert (C : In c [" "%char; ascii_of_nat 9; ascii_of_nat 10; ascii_of_nat 12; ascii_of_nat 13; ascii_of_nat 11]).
  { unfold is_space, is_blank in S. apply orb_true_iff in S as [S|S].
    - apply existsb_exists in S as (d & D & E). apply Ascii.eqb_eq in E. subst d. cbn in D |- *. tauto.
    - apply Ascii.eqb_eq in S. subst c. cbn. tauto. }
  specialize (H c C). rewrite forallb_forall in H. specialize (H n I). apply negb_true_iff in H. apply within_check in W. congruence.
Qed.
Example C82_case : let front := $"<?xml?> " in
  ~ within $"<svg" (circle ++ $" ") /\ trimmed_end ($"<svg" ++ circle ++ $" ") ($"<svg" ++ circle) /\ loses_sizes circle circle'
  /\ inline_svg (front ++ $"<svg" ++ circle ++ $" ") None None = Some ($"<svg" ++ circle)
  /\ inline_svg (front ++ $"<svg" ++ circle ++ $" ") (Some $"100") None = Some ($"<svg width=" ++ q $"100" ++ circle').
Proof.
  cbn zeta. split; [|split; [|split; [|split; vm_compute; reflexivity]]].
  - intros W. apply within_check in W. vm_compute in W. discriminate.
  - exists $" ". split; [reflexivity|]. split; [repeat constructor|]. intros u c E.
    assert (L : last ($"<svg" ++ circle) " "%char = c) by (rewrite E; apply last_last). vm_compute in L. now subst c.
  - apply (Sized ($" viewBox=" ++ q $"0") " "%char $"width" quote $"500" ($"><circle r=" ++ q $"5" ++ $"/></svg>") ($"><circle r=" ++ q $"5" ++ $"/></svg>")).
    + apply unsized_check. vm_compute. reflexivity.
    + reflexivity.
    + now left.
    + now left.
    + cbn. intuition discriminate.
    + apply Unsized. apply unsized_check. vm_compute. reflexivity.
Qed.

(** Of a file with an [svg] element in another only what begins with the last one is shown. *)
Theorem C82_nested_refuted : ~ forall rest out, trimmed_end ($"<svg" ++ rest) out -> inline_svg ($"<svg" ++ rest) None None = Some out.
Proof.
  intros H. specialize (H $"><g/><svg></svg></svg>" $"<svg><g/><svg></svg></svg>"). assert (T : trimmed_end ($"<svg" ++ $"><g/><svg></svg></svg>") $"<svg><g/><svg></svg></svg>").
  { exists []. split; [reflexivity|]. split; [constructor|]. intros u c E. assert (L : last $"<svg><g/><svg></svg></svg>" " "%char = c) by (rewrite E; apply last_last). vm_compute in L. now subst c. }
  apply H in T. vm_compute in T. discriminate.
Qed.
Print Assumptions C82_nested_refuted.

(** With a size given, the elements in the image lose theirs as well: [<rect width="4"/>] becomes [<rect/>], which is not shown. *)
Theorem C82_inner_sizes_refuted : ~ forall w attrs inner out, ~ within $"<svg" inner -> ~ In ">"%char attrs ->
  inline_svg ($"<svg" ++ attrs ++ $">" ++ inner ++ $"</svg>") (Some w) None = Some out -> within inner out.
Proof.
  intros H. assert (N : ~ within $"<svg" ($"<rect width=" ++ q $"4" ++ $"/>")) by (intros W; apply within_check in W; vm_compute in W; discriminate).
  specialize (H $"9" [] ($"<rect width=" ++ q $"4" ++ $"/>") ($"<svg width=" ++ q $"9" ++ $"><rect/></svg>") N (fun x => x)).
  assert (E : inline_svg ($"<svg" ++ [] ++ $">" ++ ($"<rect width=" ++ q $"4" ++ $"/>") ++ $"</svg>") (Some $"9") None = Some ($"<svg width=" ++ q $"9" ++ $"><rect/></svg>")) by (vm_compute; reflexivity).
  apply H in E. clear H. rename E into H. apply within_check in H. vm_compute in H. discriminate.
Qed.
Print Assumptions C82_inner_sizes_refuted.

(** With both sizes given there is no space between them: [<svg width="9"height="8">]. *)
Theorem C82_both_sizes_refuted : ~ forall w h rest out, ~ within $"<svg" rest -> inline_svg ($"<svg" ++ rest) (Some w) (Some h) = Some out -> within ($" height=" ++ q h) out.
Proof.
  intros H. assert (N : ~ within $"<svg" $"></svg>") by (intros W; apply within_check in W; vm_compute in W; discriminate).
  specialize (H $"9" $"8" $"></svg>" ($"<svg width=" ++ q $"9" ++ $"height=" ++ q $"8" ++ $"></svg>") N).
  assert (E : inline_svg ($"<svg" ++ $"></svg>") (Some $"9") (Some $"8") = Some ($"<svg width=" ++ q $"9" ++ $"height=" ++ q $"8" ++ $"></svg>")) by (vm_compute; reflexivity).
  apply H in E. clear H. rename E into H. apply within_check in H. vm_compute in H. discriminate.
Qed.
Print Assumptions C82_both_sizes_refuted.
