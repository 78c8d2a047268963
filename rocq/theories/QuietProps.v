(** C75: a well formed article is converted without a diagnostic. *)
From Verif Require Import Base BlockModel BlockSpec HeaderModel InlineModel WholeSpec OutlineSpec BoxSpec ManualModel ManualSpec ManualDocProofs ManualProps.
Import ListNotations.
Open Scope list_scope.
Open Scope nat_scope.

(** For every article of the grammar of ManualSpec.v (C74) the parser reports nothing: no diagnostic about a heading, a delimiter, a list or a text, so strict mode accepts it as well. Whatever macros the plugins have, in
    builds with and without debug assertions; in books if there is nothing before the first section. *)
Theorem C75_no_false_alarm plugins P author_set revision_line (m : manual) :
  (forall x, custom_subs P [] x = x) -> (forall n, n <= 5 -> adjust P n = n) -> book P = false \/ intro m = [] -> manual_ok m = true ->
  diagnostics plugins P author_set revision_line (source m) = Some ([], []).
Proof.
  intros NS NO BK OK. unfold diagnostics. destruct (whole_run P author_set revision_line NS NO plugins m OK BK) as (ls & o & bs & ys & c & s' & -> & -> & H & _). destruct H as (l & g & rr & rs & -> & _). reflexivity.
Qed.
(** The sample of C74 is such an article. Without one of its delimiters, or with a heading that skips a level, there is a diagnostic. *)
Example C75_case :
  let report ls := diagnostics [] (plain_params true false) (fun _ => true) (fun _ => true) (join newline ls) in
  manual_ok C74_sample = true /\ report (manual_lines C74_sample) = Some ([], []) /\
  report [ $"= Title"; []; $"== One"; []; $"===="; $"a"; []; $"b"; []; $"===="; []; $"== Two" ] = Some ([], []) /\
  report [ $"= Title"; []; $"== One"; []; $"===="; $"a"; []; $"b" ] = Some ([NeverClosed], []) /\
  report [ $"== One"; []; $"==== Three"; []; $"text"; []; $"=== Two" ] = Some ([OutOfSequence], []) /\
  report [ $"a"; []; $"footnote:[]" ] = Some ([], [EmptyFootnote]).
Proof. vm_compute. repeat split. Qed.
Print Assumptions C75_no_false_alarm.
