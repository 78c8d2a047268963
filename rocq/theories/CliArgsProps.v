(** C41: command line attribute definitions. *)
From Verif Require Import Base Text AttrRefsModel AttrRefsSpec AttrRefsProofs CliArgsModel CliArgsSpec CliArgsProofs.

(** Every definition: marks, a valid name, marks, and possibly a value that is one line, gives the name in lower case and what is meant. *)
Theorem C41_definition b1 a1 n b2 a2 v : valid_name n -> (forall w, v = Some w -> one_line w) ->
  exists k r, lowered n k /\ means (b1 || b2) (a1 || a2) v r /\ parse_attr (definition_text b1 a1 n b2 a2 v) = with_key k r.
Proof.
  intros N V. assert (R : rest_ok v []) by (destruct v; cbn; auto).
  pose proof (match_at_text b1 a1 n b2 a2 v [] N R) as M. rewrite app_nil_r in M. apply search_text in M.
  destruct (parse_means _ _ M) as (r & H & E). cbn [bang1 bang2 at1 at2 val key] in *.
  exists (lowercase n), r. split; [apply lowered_lowercase|]. auto.
Qed.
Print Assumptions C41_definition.
(** What is meant is one thing. *)
Theorem C41_meaning_unique b a v r1 r2 : means b a v r1 -> means b a v r2 -> r1 = r2.
Proof.
  intros H1 H2; inversion H1; subst; inversion H2; subst; try reflexivity; try discriminate; try congruence.
  all: repeat match goal with H : without_ats _ _ |- _ => apply strip_ats_spec in H end; congruence.
Qed.
Print Assumptions C41_meaning_unique.
(** Every argument that is accepted has a definition in it, with what is meant by it. *)
Theorem C41_accepted s k a : parse_attr s = Ok (k, a) -> exists x b1 a1 n b2 a2 v rest, s = x ++ definition_text b1 a1 n b2 a2 v ++ rest /\
  valid_name n /\ (forall w, v = Some w -> one_line w) /\ lowered n k /\ means (b1 || b2) (a1 || a2) v (Ok a).
Proof.
  intro H. destruct (search s) as [m|] eqn:E; [|unfold parse_attr in H; rewrite E in H; discriminate].
  destruct (parse_means s m E) as (r & M & P). rewrite H in P. destruct r as [a'|]; [|discriminate]. cbn in P. injection P as -> ->.
  destruct (search_only s m E) as (x & s' & -> & Es). apply match_at_only in Es. destruct Es as (V & L & rest & ->).
  exists x, (bang1 m), (at1 m), (key m), (bang2 m), (at2 m), (val m), rest. split; [reflexivity|]. split; [exact V|]. split; [exact L|]. split; [apply lowered_lowercase|exact M].
Qed.
Print Assumptions C41_accepted.
(** An argument is invalid exactly when it has no letter, digit or underscore. *)
Theorem C41_invalid s : parse_attr s = Err InvalidAttribute <-> Forall (fun c => ~ word c) s.
Proof.
  rewrite <- search_none. unfold parse_attr. destruct (search s) as [m|]; [|intuition].
  split; [|discriminate]. destruct (bang1 m || bang2 m), (at1 m || at2 m), (val m) as [v|]; try discriminate. destruct (ends_with_at v); discriminate.
Qed.
Print Assumptions C41_invalid.

Example C41_sample : valid_name ($"Foo-bar") /\ one_line ($"a b@c") /\
  parse_attr ($"Foo-bar=a b@c") = Ok ($"foo-bar", JobAttr true (SetStr ($"a b@c"))) /\
  parse_attr ($"foo=bar@") = Ok ($"foo", JobAttr false (SetStr ($"bar"))) /\
  parse_attr ($"foo@=bar") = Ok ($"foo", JobAttr false (SetStr ($"bar"))) /\
  parse_attr ($"!foo") = Ok ($"foo", JobAttr true (SetBool false)) /\
  parse_attr ($"foo!@") = Ok ($"foo", JobAttr false (SetBool false)) /\
  parse_attr ($"foo") = Ok ($"foo", JobAttr true (SetBool true)) /\
  parse_attr ($"!foo=bar") = Err UnsetWithValue /\ parse_attr ($"=-!") = Err InvalidAttribute.
Proof.
  split; [apply valid_name_check; reflexivity|].
  split; [split; [discriminate|]; intro H; apply CliArgsProofs.in_ascii in H; discriminate H|].
  repeat split; vm_compute; reflexivity.
Qed.

(** What stands before and behind is not looked at: an argument that is not a definition is accepted as one. *)
Theorem C41_rest_ignored_refuted : exists s, parse_attr s = Ok ($"foo", JobAttr true (SetBool true)) /\ s = $"--foo bar=baz".
Proof. eexists. split; [|reflexivity]. vm_compute; reflexivity. Qed.
Print Assumptions C41_rest_ignored_refuted.
Theorem C41_any_rest_refuted n rest : valid_name n -> match rest with [] => True | c :: _ => ~ word c /\ ~ In c ($"-!@=") end ->
  parse_attr (n ++ rest) = Ok (lowercase n, JobAttr true (SetBool true)).
Proof.
  intros N R. assert (RO : rest_ok None rest).
  { destruct rest as [|c rest]; [exact Logic.I|]. destruct R as [W I]. cbn in I |- *. assert (name_char c = false).
    { destruct (name_char c) eqn:E; [|reflexivity]. apply name_char_spec in E. destruct E as [E| ->]; [easy|]. tauto. }
    repeat split; auto; try (intros ->; tauto); intros ->; tauto. }
  pose proof (match_at_text false false n false false None rest N RO) as M. unfold definition_text in M.
  change (marks false false) with (@nil ascii) in M. cbn [app] in M. rewrite app_nil_r in M.
  apply search_text in M. unfold parse_attr. now rewrite M.
Qed.
Print Assumptions C41_any_rest_refuted.
(** A definition with an empty value sets the attribute, instead of giving it the empty text. *)
Theorem C41_empty_value_refuted n : valid_name n -> parse_attr (n ++ $"=") = Ok (lowercase n, JobAttr true (SetBool true)).
Proof.
  intros N. assert (RO : rest_ok None ($"=")) by (cbn; repeat split; try discriminate; auto).
  pose proof (match_at_text false false n false false None ($"=") N RO) as M. unfold definition_text in M.
  change (marks false false) with (@nil ascii) in M. cbn [app] in M. rewrite !app_nil_r in M.
  apply search_text in M. unfold parse_attr. now rewrite M.
Qed.
Print Assumptions C41_empty_value_refuted.
(** A value ends at the end of its line. *)
Theorem C41_lines_cut_refuted n v r : valid_name n -> one_line v -> (forall w, v <> w ++ $"@") -> parse_attr (n ++ $"=" ++ v ++ ascii_of_N 10 :: r) = Ok (lowercase n, JobAttr true (SetStr v)).
Proof.
  intros N V A. assert (RO : rest_ok (Some v) (ascii_of_N 10 :: r)) by (cbn; split; [exact V|right; eauto]).
  pose proof (match_at_text false false n false false (Some v) _ N RO) as M. unfold definition_text in M.
  change (marks false false) with (@nil ascii) in M. cbn [app] in M. repeat rewrite <- app_assoc in M.
  apply search_text in M. unfold parse_attr. rewrite M. cbn [bang1 bang2 at1 at2 val key orb].
  assert (W : without_ats v v) by (exists 0; cbn; rewrite app_nil_r; auto).
  destruct (ends_with_at v) eqn:E; [|reflexivity]. apply (ends_with_at_spec v v W) in E. easy.
Qed.
Print Assumptions C41_lines_cut_refuted.
(** Marks in the other order: the one in front is lost. *)
Theorem C41_order_of_marks_refuted : parse_attr ($"@!foo") = Ok ($"foo", JobAttr true (SetBool false)) /\ parse_attr ($"foo@!") = Ok ($"foo", JobAttr false (SetBool true)).
Proof. split; vm_compute; reflexivity. Qed.
Print Assumptions C41_order_of_marks_refuted.
