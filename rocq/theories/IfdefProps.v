(** C18: properly nested conditionals keep exactly the lines whose enclosing conditions hold, and report nothing. *)
From Verif Require Import Base Text Utf8 LexerModel LexerSpec RootModel AttrsModel IfdefModel IfdefSpec IfdefProofs.

(** A set of attributes for the examples: the names that are set, and an entry line [:name:] sets one. *)
Definition names_env : env (list bytes) := mkEnv _
  (fun a n => if existsb (bytes_eqb n) a then Some (AStr "") else None)
  (fun a l => if starts_with ($":") l then firstn (length l - 2) (skipn 1 l) :: a else a)
  (fun _ _ => Ret None).
Definition doc (ls : list bytes) : bytes := flat_map (fun l => l ++ [newline]) ls.
(** the lines read, and what was reported *)
Definition lines_and_reports (r : outcome (option (list bytes * pstate (list bytes)))) : option (list bytes * list report) :=
  match r with Ret (Some (ls, p)) => Some (ls, reports p) | _ => None end.
Definition read_with (a : list bytes) (ls : list bytes) := lines_and_reports (read_document names_env [] a (doc ls)).

(** The documents of [proper] (IfdefSpec.v), whatever the attributes are and however ordinary lines change them: the lines that
    are kept are those of [kept], and there are no reports. Partial: [proper] leaves out what is refuted below. *)
Theorem C18_kept_lines_partial {A} (E : env A) plugins a is out a' : plain_plugins plugins -> Forall proper is -> kept E a is out a' ->
  exists k l, read_document E plugins a (written is) = Ret (Some (out, mkP a' k l [])).
Proof. intros PL P K. destruct (document_kept E plugins PL a is out a' K P) as (k & x & R). eauto. Qed.
Print Assumptions C18_kept_lines_partial.
(** [kept] says what happens for each of these documents, and says only one thing. *)
Theorem C18_kept_is_a_function {A} (E : env A) a is : Forall proper is ->
  exists out a', kept E a is out a' /\ forall out2 a2, kept E a is out2 a2 -> out2 = out /\ a2 = a'.
Proof. intro P. destruct (kept_total E is P a) as (out & a' & K). exists out, a'. split; [exact K|apply kept_one, K]. Qed.
Print Assumptions C18_kept_is_a_function.

Definition sample : list item :=
  [Line ($"one"); Cond false true false [$"nope"; $"web"] [Line ($":late:"); Cond true true true [$"late"] [Line ($"two")]; Line ($"three")];
   Cond true true false [$"late"] [Line ($"four"); Cond false false false [$"web"; $"late"] [Line ($"five")]];
   Cond false false true [$"web"; $"late"] [Line ($"six")]; Line []].
Example C18_sample_text : written sample = doc [$"one"; $"ifdef::nope,web[]"; $":late:"; $"ifndef::late[]"; $"two"; $"endif::late[]"; $"three"; $"endif::[]";
  $"ifndef::late[]"; $"four"; $"ifdef::web+late[]"; $"five"; $"endif::[]"; $"endif::[]"; $"ifdef::web+late[]"; $"six"; $"endif::web+late[]"; []].
Proof. vm_compute. reflexivity. Qed.
Lemma find_inside w l : find_sub w l = None -> ~ inside w l.
Proof. intros F (p & q & E). exact (find_sub_none _ _ F p q E). Qed.
Lemma ordinary_dec l : is_utf8 l = true -> existsb (fun c => Ascii.eqb c newline || Ascii.eqb c return_) l = false ->
  forallb (fun w => match find_sub w l with None => true | _ => false end) [$"ifdef::"; $"ifndef::"; $"endif::"] = true ->
  forallb (fun w => negb (starts_with w l)) [$"ifeval::"; $"asciidorkinclude::"] = true -> ordinary l.
Proof.
  intros U N Q S0. assert (NO : forall c, In c l -> Ascii.eqb c newline || Ascii.eqb c return_ = false).
  { intros c I. apply not_true_iff_false. intro H. apply not_true_iff_false in N. apply N, existsb_exists. exists c. auto. }
  split; [apply is_utf8_spec, U|]. split; [intro I; specialize (NO _ I); discriminate|]. split; [intro I; specialize (NO _ I); discriminate|].
  rewrite forallb_forall in Q, S0. split; intros w I; [|apply negb_true_iff, S0, I].
  specialize (Q w I). destruct (find_sub w l) eqn:F; [discriminate|]. apply find_inside, F.
Qed.
Example C18_sample_proper : Forall proper sample.
Proof.
  assert (N : forall s, existsb (fun c => negb (name_byte c)) s = false -> s <> [] -> attribute_name s).
  { intros s H NE. split; [exact NE|]. apply Forall_forall. intros c I. apply not_false_iff_true. intro X.
    apply not_true_iff_false in H. apply H, existsb_exists. exists c. rewrite X. auto. }
  unfold sample. repeat apply Forall_cons; try apply Forall_nil; cbn [proper];
    repeat match goal with
    | |- _ /\ _ => split | |- ordinary _ => apply ordinary_dec; vm_compute; reflexivity
    | |- Forall attribute_name _ => repeat apply Forall_cons; try apply Forall_nil; apply N; [vm_compute; reflexivity|discriminate]
    | |- _ <= _ => apply Nat.leb_le; vm_compute; reflexivity
    | |- _ = true -> Forall leaf _ => intro; try discriminate; repeat constructor
    | |- _ -> _ \/ _ => intro; try discriminate; auto
    | |- _ <> [] => discriminate | |- True => exact I end.
  all: repeat apply Forall_cons; try apply Forall_nil. all: apply N; [vm_compute; reflexivity|discriminate].
Qed.
Example C18_sample_read : lines_and_reports (read_document names_env [] [$"web"] (written sample)) = Some ([$"one"; $":late:"; $"three"; $"six"; []], []).
Proof. vm_compute. reflexivity. Qed.
Example C18_sample_kept : kept names_env [$"web"] sample [$"one"; $":late:"; $"three"; $"six"; []] [$"late"; $"web"].
Proof.
  destruct (kept_total names_env sample C18_sample_proper [$"web"]) as (out & a' & K).
  destruct (C18_kept_lines_partial names_env [] [$"web"] sample out a' (fun _ H => match H with end) C18_sample_proper K) as (k & l & R).
  vm_compute in R. injection R as <- <- _ _. exact K.
Qed.

(** A conditional that fails and is never closed: nothing behind it is kept, and that is reported. *)
Theorem C18_unclosed_reported {A} (E : env A) plugins a before out a' neg any names body : plain_plugins plugins ->
  kept E a before out a' -> Forall proper before -> proper (Cond neg any false names body) -> ~ holds E a' neg any names ->
  exists k l, read_document E plugins a (written before ++ opening neg any names ++ [newline] ++ written body) =
    Ret (Some (out, mkP a' k l [NeverClosed])).
Proof. intros PL K P (NE & F & L & NP & _ & Pb) H. apply proper_all in Pb. apply document_unclosed; assumption. Qed.
Print Assumptions C18_unclosed_reported.
Example C18_unclosed_read : read_with [$"web"] [$"one"; $"ifndef::web[]"; $"two"; $"ifdef::web[]"; $"endif::[]"] = Some ([$"one"], [NeverClosed]).
Proof. vm_compute. reflexivity. Qed.
(** But one that holds and is never closed is not reported. *)
Theorem C18_open_end_unreported_refuted : exists ls, In ($"ifdef::web[]") ls /\ ~ In ($"endif::[]") ls /\ read_with [$"web"] ls = Some ([$"one"; $"two"], []).
Proof. exists [$"one"; $"ifdef::web[]"; $"two"]. split; [cbn; tauto|]. split; [|vm_compute; reflexivity]. intro I. cbn in I. intuition discriminate. Qed.
Print Assumptions C18_open_end_unreported_refuted.

(** The one-line form, between two proper documents: its text is kept exactly when the condition holds. *)
Theorem C18_one_line_form {A} (E : env A) plugins a before out a1 (neg any : bool) names l after : plain_plugins plugins ->
  kept E a before out a1 -> Forall proper before -> proper (Cond neg any false names []) -> ordinary l -> l <> [] -> Forall proper after ->
  exists mid a2 out2 a3 k r,
    (holds E a1 neg any names /\ mid = [l] /\ a2 = upd E a1 l \/ ~ holds E a1 neg any names /\ mid = [] /\ a2 = a1) /\
    kept E a2 after out2 a3 /\
    read_document E plugins a (written before ++
      ((if neg then $"ifndef::" else $"ifdef::") ++ expression any names ++ $"[" ++ l ++ $"]") ++ [newline] ++ written after) =
      Ret (Some (out ++ mid ++ out2, mkP a3 k r [])).
Proof.
  intros PL K P (NE & F & L & NP & _) O NL Pa.
  pose proof (evaluate_spec E a1 neg any names NE F NP) as EV.
  assert (D : holds E a1 neg any names \/ ~ holds E a1 neg any names).
  { destruct (evaluate_ifdef E a1 (negb neg) (expression any names)); [left; apply EV; reflexivity|right; intro X; apply EV in X; discriminate]. }
  destruct D as [H|H].
  - destruct (kept_total E after Pa (upd E a1 l)) as (out2 & a3 & K2).
    destruct (document_inline E plugins PL a before out a1 neg any names l after out2 a3 K P NE F L NP O NL Pa) as (k & x & mid & [[_ ->]|[X _]] & R); [auto|tauto| |tauto].
    eexists [l], _, out2, a3, k, _. split; [left; auto|]. split; [exact K2|exact R].
  - destruct (kept_total E after Pa a1) as (out2 & a3 & K2).
    destruct (document_inline E plugins PL a before out a1 neg any names l after out2 a3 K P NE F L NP O NL Pa) as (k & x & mid & [[X _]|[_ ->]] & R); [tauto|auto|tauto|].
    eexists [], _, out2, a3, k, _. split; [right; auto|]. split; [exact K2|exact R].
Qed.
Print Assumptions C18_one_line_form.
Example C18_one_line_read : read_with [$"web"] [$"one"; $"ifdef::web[:late:]"; $"ifndef::late[two]"; $"ifdef::late[see [three]]"; $"four"]
  = Some ([$"one"; $":late:"; $"see [three]"; $"four"], []).
Proof. vm_compute. reflexivity. Qed.

(** ** what goes wrong otherwise *)
(** An attribute with a one-letter name cannot be tested: both directive lines become text, and the closing one is reported. *)
Theorem C18_one_letter_name_refuted : exists ls, ls = [$"ifdef::a[]"; $"hidden"; $"endif::[]"] /\ read_with [] ls = Some (ls, [NoPreviousIfdef]).
Proof. eexists. split; [reflexivity|]. vm_compute. reflexivity. Qed.
Print Assumptions C18_one_letter_name_refuted.
(** [ifndef::a1+a2[]] means that the last attribute is not set, whatever the others are: with the first one unset and the last one
    set the text is hidden, although not all of them are set. *)
Theorem C18_ifndef_all_looks_at_last_refuted :
  read_with [$"bb"] [$"ifndef::aa+bb[]"; $"text"; $"endif::[]"] = Some ([], []) /\
  read_with [$"aa"] [$"ifndef::aa+bb[]"; $"text"; $"endif::[]"] = Some ([$"text"], []).
Proof. split; vm_compute; reflexivity. Qed.
Print Assumptions C18_ifndef_all_looks_at_last_refuted.
(** Closing lines that name what they close are only compared with the conditional opened last: properly nested ones are reported
    and left in the text. *)
Theorem C18_named_closing_nested_refuted :
  read_with [$"aa"; $"bb"] [$"ifdef::aa[]"; $"one"; $"ifdef::bb[]"; $"two"; $"endif::bb[]"; $"endif::aa[]"] =
    Some ([$"one"; $"two"; $"endif::aa[]"], [MismatchedEndif ($"bb") ($"aa")]).
Proof. vm_compute. reflexivity. Qed.
Print Assumptions C18_named_closing_nested_refuted.
(** For the same reason, closing lines that close nothing are accepted silently after the first conditional. *)
Theorem C18_stray_closing_refuted : read_with [$"aa"] [$"ifdef::aa[]"; $"one"; $"endif::[]"; $"two"; $"endif::[]"; $"endif::aa[]"] = Some ([$"one"; $"two"], []).
Proof. vm_compute. reflexivity. Qed.
Print Assumptions C18_stray_closing_refuted.
(** Inside a conditional that fails, a one-line conditional (which needs no closing line) counts as an opening one: everything up to
    the end of the document is lost. *)
Theorem C18_one_line_inside_skipped_refuted :
  read_with [] [$"ifdef::aa[]"; $"ifdef::bb[x]"; $"endif::[]"; $"visible"] = Some ([], [NeverClosed]).
Proof. vm_compute. reflexivity. Qed.
Print Assumptions C18_one_line_inside_skipped_refuted.
(** So does the mere mention of a directive in the middle of a line, and the mention of a closing one closes. *)
Theorem C18_mention_inside_skipped_refuted :
  read_with [] [$"ifdef::aa[]"; $"write ifdef::bb to test bb"; $"endif::[]"; $"visible"] = Some ([], [NeverClosed]) /\
  read_with [] [$"ifdef::aa[]"; $"close it with endif::[]"; $"hidden"; $"endif::[]"; $"visible"] = Some ([$"hidden"; $"visible"], []).
Proof. split; vm_compute; reflexivity. Qed.
Print Assumptions C18_mention_inside_skipped_refuted.
(** Inside a conditional that fails, the closing line of an ifeval closes the conditional. *)
Theorem C18_ifeval_inside_skipped_refuted :
  read_with [] [$"ifdef::aa[]"; $"ifeval::[1 == 1]"; $"hidden"; $"endif::[]"; $"also hidden"; $"endif::[]"; $"visible"] = Some ([$"also hidden"; $"visible"], []).
Proof. vm_compute. reflexivity. Qed.
Print Assumptions C18_ifeval_inside_skipped_refuted.
(** A closing line at the very end of a document without a final newline is not recognised. *)
Theorem C18_last_line_refuted :
  lines_and_reports (read_document names_env [] [$"aa"] (doc [$"ifdef::aa[]"; $"one"] ++ $"endif::[]")) = Some ([$"one"; $"endif::[]"], []) /\
  lines_and_reports (read_document names_env [] [] (doc [$"ifdef::aa[]"; $"one"] ++ $"endif::[]")) = Some ([], [NeverClosed]).
Proof. split; vm_compute; reflexivity. Qed.
Print Assumptions C18_last_line_refuted.
(** A one-line conditional whose text is again a directive that yields no line makes the program panic at the end of a document. *)
Theorem C18_one_line_panics_refuted : read_document names_env [] [$"aa"] (doc [$"ifdef::aa[ifdef::zz[x]]"]) = Panic.
Proof. vm_compute. reflexivity. Qed.
Print Assumptions C18_one_line_panics_refuted.
