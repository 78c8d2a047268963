(** C13: the indent= attribute of an include. *)
From Verif Require Import Base Text LexerModel LinesModel IndentModel IndentSpec IndentProofs.

(** Every line of a text is moved by the same amount, so that the least indentation becomes [n], and keeps its text. (A
    terminated text loses its last newline, and gains a last line of [n] spaces if some line was not indented at all; lines
    that are place holders for lines not selected go away or, if some line was not indented at all, become text.) *)
Theorem C13_moves_every_line : forall n ls terminated s m, text_of ls terminated s -> least ls m ->
  (n = m -> set_indentation n s = s) /\
  (n <> m -> exists ls', moved m n ls ls' /\ set_indentation n s = join_byte newline (ls' ++ (if terminated && (m =? 0) then [spaces n] else []))).
Proof. intros n ls terminated s m T L. destruct (set_spec n ls terminated s T) as (_ & A & B). split; [exact (A m L)|exact (B m L)]. Qed.
Print Assumptions C13_moves_every_line.

(** The result's lines are indented by at least [n], one of them by exactly [n]; there is one result only. *)
Theorem C13_least_indent_is_n : forall m n ls ls', least ls m -> moved m n ls ls' ->
  Forall (fun l => exists k r, n <= k /\ indented l k r) ls' /\ (exists l r, In l ls' /\ indented l n r) /\
  (forall ls'', moved m n ls ls'' -> ls'' = ls').
Proof.
  intros m n ls ls' L M. split; [exact (moved_all _ _ _ _ M)|]. split; [exact (moved_least _ _ _ _ M L)|]. intros ls'' M'. exact (moved_fun _ _ _ _ _ M' M).
Qed.
Print Assumptions C13_least_indent_is_n.

(** Without place holders no line is lost: lines correspond one to one. *)
Theorem C13_no_line_lost : forall m n ls ls', moved m n ls ls' -> ~ In placeholder ls ->
  Forall2 (fun l l' => exists k r, indented l (m + k) r /\ indented l' (n + k) r) ls ls'.
Proof.
  intros m n ls ls' M. induction M as [|l k r ls ls' X L M IH|ls ls' L M IH]; intro N; [constructor| |destruct N; left; reflexivity].
  constructor; [|apply IH; intro I; apply N; right; exact I]. exists (k - m), r. replace (m + (k - m)) with k by lia. split; [exact X|]. split; [reflexivity|apply X].
Qed.
Print Assumptions C13_no_line_lost.

(** Nothing happens without the attribute, or if it is not a number, or if only place holders are left. *)
Theorem C13_ignored : forall attr s, (forall t, attr = Some t -> forall n, ~ numeral usize_bound t n) -> set_include_indentation attr s = s.
Proof.
  intros [t|] s H; [|reflexivity]. cbn. destruct (parse_usize t) as [n|] eqn:E; [|reflexivity]. apply parse_bounded_spec in E. destruct (H t eq_refl n E).
Qed.
Print Assumptions C13_ignored.
Theorem C13_attribute_number : forall t n s, numeral usize_bound t n -> set_include_indentation (Some t) s = set_indentation (N.to_nat n) s.
Proof. intros t n s H. apply parse_bounded_spec in H. cbn. unfold parse_usize. rewrite H. reflexivity. Qed.
Print Assumptions C13_attribute_number.
Theorem C13_nothing_selected : forall n ls terminated s, text_of ls terminated s -> Forall (fun l => l = placeholder) ls -> set_indentation n s = s.
Proof. intros n ls terminated s T A. exact (proj1 (set_spec n ls terminated s T) A). Qed.
Print Assumptions C13_nothing_selected.

(** The claim for non-blank lines is false: an empty line counts as one without indentation, so this text is not moved at all. *)
Theorem C13_blank_line_prevents_outdent_refuted : exists s,
  s = $"  a" ++ [newline; newline] ++ $"  b" /\ set_include_indentation (Some ($"0")) s = s.
Proof. eexists. split; [reflexivity|]. vm_compute. reflexivity. Qed.
Print Assumptions C13_blank_line_prevents_outdent_refuted.

(** A place holder of a line that was not selected is indented and so becomes visible text. *)
Theorem C13_placeholder_leaks_refuted :
  select_line_ranges true ($"1") ($"a" ++ [newline] ++ $"b") = Ret ($"a" ++ [newline] ++ placeholder ++ [newline]) /\
  set_include_indentation (Some ($"2")) ($"a" ++ [newline] ++ placeholder ++ [newline]) = $"  a" ++ [newline] ++ $"  " ++ placeholder ++ [newline] ++ $"  ".
Proof. split; vm_compute; reflexivity. Qed.
Print Assumptions C13_placeholder_leaks_refuted.

(** A tab is not indentation. *)
Theorem C13_tabs_not_indentation_refuted :
  set_include_indentation (Some ($"0")) (ascii_of_nat 9 :: $"a") = ascii_of_nat 9 :: $"a" /\
  set_include_indentation (Some ($"2")) (ascii_of_nat 9 :: $"a") = spaces 2 ++ ascii_of_nat 9 :: $"a".
Proof. split; vm_compute; reflexivity. Qed.
Print Assumptions C13_tabs_not_indentation_refuted.

Example C13_example : set_include_indentation (Some ($"1")) ($"    a" ++ [newline] ++ $"      b" ++ [newline] ++ $"    c") =
  $" a" ++ [newline] ++ $"   b" ++ [newline] ++ $" c".
Proof. vm_compute. reflexivity. Qed.
Example C13_hypotheses : text_of [$"    a"; $"      b"] true ($"    a" ++ [newline] ++ $"      b" ++ [newline]) /\ least [$"    a"; $"      b"] 4.
Proof.
  split.
  - split; [discriminate|]. split; [repeat constructor; cbn; intro H; repeat destruct H as [H|H]; try discriminate; contradiction|]. split; [reflexivity|discriminate].
  - pose proof (min_none [$"    a"; $"      b"]) as M. vm_compute in M. exact M.
Qed.
