(** C20: attribute references. *)
From Verif Require Import Base Text Utf8 LexerModel LexerSpec LexerProofs RootModel AttrsModel IfdefProofs AttrRefsModel AttrRefsSpec AttrRefsProofs.

(** Substitution in values, ifeval expressions and other directly substituted texts, for every text and every attribute state: the
    result is the one the left-to-right reading of [substituted] gives, and that reading gives no other. *)
Theorem C20_values_substituted (get : lookup) (s : bytes) :
  substituted get s (replace_attr_vals get s) /\ forall out, substituted get s out -> out = replace_attr_vals get s.
Proof.
  assert (H : substituted get s (replace_attr_vals get s)) by (apply replace_substituted, le_n). split; [exact H|].
  intros out K. exact (substituted_one get s _ H out K).
Qed.
Print Assumptions C20_values_substituted.

(** In the lines of a document. The full property would be for all attribute values; this is for values without opening braces and
    line ends (the refutations below show what the others do). *)
Theorem C20_lines_expanded_partial (get : lookup) (plugins : list bytes) (rep : bytes -> bytes) (ls : list bytes) :
  word_plugins plugins -> inert_values get -> replacement get rep -> Forall text_line ls ->
  exists outs warned, lines_read get rep ls outs warned /\
    exists enough, forall fuel, enough <= fuel -> all_refs_lines get plugins fuel (new_root (document ls)) = Ret (Some (outs, warned)).
Proof.
  intros PL IV REP T. destruct (document_refs get plugins rep PL IV REP ls [] T) as (f & outs & ws & R & X); [discriminate|].
  exists outs, ws. split; [exact X|]. exists f. intros fuel L. exact (all_refs_lines_more get plugins f fuel _ _ L R).
Qed.
Print Assumptions C20_lines_expanded_partial.

(** The reading of a line the theorem speaks of exists and is unique, and so is the replacement of each name. *)
Theorem C20_expansion_is_a_function (rep : bytes -> bytes) (prev : option ascii) (s : bytes) :
  exists out refs, expanded rep prev s out refs /\ forall out' refs', expanded rep prev s out' refs' -> out' = out /\ refs' = refs.
Proof.
  destruct (expanded_total rep (length s) s prev (le_n _)) as (o & r & X). exists o, r. split; [exact X|]. exact (expanded_one rep prev s o r X).
Qed.
Print Assumptions C20_expansion_is_a_function.
Theorem C20_replacement_is_a_function (get : lookup) :
  exists rep, replacement get rep /\ forall rep', replacement get rep' -> forall n, rep' n = rep n.
Proof.
  exists (the_replacement get). split; [apply the_replacement_ok|]. intros rep' R n. unfold the_replacement.
  destruct (get (lowercase n)) as [[v|v]|] eqn:G; [apply (rep_known get rep' R n v G)| |];
    apply (rep_missing get rep' R), rep_unknown; intros s; rewrite G; discriminate.
Qed.
Print Assumptions C20_replacement_is_a_function.
(** Text without an opening brace is left as it is, whatever the attributes. *)
Theorem C20_plain_text_untouched (get : lookup) (rep : bytes -> bytes) (prev : option ascii) (s out : bytes) (refs : list bytes) :
  ~ In "{"%char s -> expanded rep prev s out refs -> out = s /\ refs = [].
Proof.
  intros N X. assert (Y : expanded rep prev (s ++ []) (s ++ []) []) by (apply expanded_plain; [exact N|constructor]). rewrite app_nil_r in Y.
  exact (expanded_one rep prev s _ _ Y _ _ X).
Qed.
Print Assumptions C20_plain_text_untouched.

(** ** examples *)
Definition table (l : list (string * string)) : lookup := fun n =>
  match find (fun p => bytes_eqb (b (fst p)) n) l with Some p => Some (AStr (snd p)) | None => None end.
Definition lines_of (get : lookup) (s : bytes) := all_refs_lines get [] 60 (new_root s).
Example C20_case_missing_kept :
  lines_of (table [("name", "Ann")]%string) (document [$"Hi {NAME}, {nope}!"; $"\{name} {na me} x{name}y"]) =
  Ret (Some ([$"Hi Ann, {nope}!"; $"\{name} {na me} xAnny"], [])).
Proof. vm_compute. reflexivity. Qed.
Example C20_case_warned :
  lines_of (table [("name", "Ann"); ("attribute-missing", "warn")]%string) (document [$"{name} {one}"; $"{two}{three}"]) =
  Ret (Some ([$"Ann {one}"; $"{two}{three}"], [$"one"; $"two"; $"three"])).
Proof. vm_compute. reflexivity. Qed.
Example C20_case_dropped_line :
  lines_of (table [("name", "Ann"); ("attribute-missing", "drop-line")]%string) (document [$"{name} {one}"; $"b {name}"; $"{two}"]) =
  Ret (Some ([$"b Ann"], [])).
Proof. vm_compute. reflexivity. Qed.
Example C20_hypotheses_met : inert_values (table [("name", "Ann"); ("attribute-missing", "drop-line")]%string) /\
  Forall text_line [$"{name} {one}"; $"b {name}"] /\ word_plugins [].
Proof.
  split; [|split].
  - intros n v. unfold table. cbn [find fst snd]. destruct (bytes_eqb _ n); [|destruct (bytes_eqb _ n); [|discriminate]]; intro E; injection E as <-;
      (split; [apply is_utf8_spec; reflexivity|]); vm_compute; intuition discriminate.
  - repeat constructor; try (apply is_utf8_spec; reflexivity); vm_compute; intuition discriminate.
  - intros p [].
Qed.
Example C20_case_value : replace_attr_vals (table [("name", "{Ann}"); ("a.b", "1")]%string) ($"x {name}{a.b} {} {a b} {{name}") = $"x {Ann}1 {} {a b} ".
Proof. vm_compute. reflexivity. Qed.

(** ** where the property fails *)
(** In a line, what was put in is scanned again: here the value of aa is the text of a reference. (Values set in a document have
    their references substituted first; values given to the program, with -a for example, do not.) *)
Theorem C20_values_rescanned_refuted : exists get s outs ws,
  lines_of get s = Ret (Some (outs, ws)) /\ get ($"aa") = Some (AStr "{bb}") /\ s = document [$"{aa}"] /\ outs <> [$"{bb}"].
Proof.
  exists (table [("aa", "{bb}"); ("bb", "1")]%string), (document [$"{aa}"]), [$"1"], []. split; [vm_compute; reflexivity|]. split; [reflexivity|]. split; [reflexivity|]. discriminate.
Qed.
Print Assumptions C20_values_rescanned_refuted.
(** And what follows a reference inside a value is lost: the value "{bb} tail" shows as the value of bb only. *)
Theorem C20_rest_of_value_lost_refuted : exists get s outs ws,
  lines_of get s = Ret (Some (outs, ws)) /\ get ($"aa") = Some (AStr "{bb} tail") /\ get ($"bb") = Some (AStr "1") /\ s = document [$"{aa} end"] /\ outs = [$"1 end"].
Proof. exists (table [("aa", "{bb} tail"); ("bb", "1")]%string), (document [$"{aa} end"]), [$"1 end"], []. vm_compute. auto. Qed.
Print Assumptions C20_rest_of_value_lost_refuted.
(** An attribute whose value refers to itself makes reading the line go on for ever. *)
Theorem C20_self_reference_diverges_refuted : exists get s, get ($"aa") = Some (AStr "{aa}") /\ s = document [$"{aa}"] /\
  forall fuel, read_refs get [] fuel (new_root s) = Ret None.
Proof.
  set (get := table [("aa", "{aa}")]%string). exists get, (document [$"{aa}"]). split; [reflexivity|]. split; [reflexivity|].
  assert (L : forall fuel, read_refs get [] fuel (valbuf ($"{aa}") [LF] [] ($"{aa}") (mkLoc 0 4 0)) = Ret None).
  { induction fuel as [|fuel IH]; [reflexivity|]. cbn [read_refs].
    replace (at_newline (valbuf ($"{aa}") [LF] [] ($"{aa}") (mkLoc 0 4 0))) with (Ret false : outcome bool) by (vm_compute; reflexivity).
    replace (is_eof (valbuf ($"{aa}") [LF] [] ($"{aa}") (mkLoc 0 4 0))) with (Ret false : outcome bool) by (vm_compute; reflexivity).
    replace (next_tok [] (valbuf ($"{aa}") [LF] [] ($"{aa}") (mkLoc 0 4 0))) with (Ret (mkRtok AttrRef ($"{aa}") (mkLoc 0 4 0), here ($"{aa}") [LF])) by (vm_compute; reflexivity).
    replace (push_token get (mkRtok AttrRef ($"{aa}") (mkLoc 0 4 0)) (here ($"{aa}") [LF])) with
      ([mkRtok AttrRef ($"{aa}") (mkLoc 0 4 0)], @nil bytes, valbuf ($"{aa}") [LF] [] ($"{aa}") (mkLoc 0 4 0)) by (vm_compute; reflexivity).
    rewrite IH. reflexivity. }
  destruct fuel as [|fuel]; [reflexivity|]. cbn [read_refs].
  replace (at_newline (new_root (document [$"{aa}"]))) with (Ret false : outcome bool) by (vm_compute; reflexivity).
  replace (is_eof (new_root (document [$"{aa}"]))) with (Ret false : outcome bool) by (vm_compute; reflexivity).
  replace (next_tok [] (new_root (document [$"{aa}"]))) with (Ret (mkRtok AttrRef ($"{aa}") (mkLoc 0 4 0), here ($"{aa}") [LF])) by (vm_compute; reflexivity).
  replace (push_token get (mkRtok AttrRef ($"{aa}") (mkLoc 0 4 0)) (here ($"{aa}") [LF])) with
    ([mkRtok AttrRef ($"{aa}") (mkLoc 0 4 0)], @nil bytes, valbuf ($"{aa}") [LF] [] ($"{aa}") (mkLoc 0 4 0)) by (vm_compute; reflexivity).
  rewrite L. reflexivity.
Qed.
Print Assumptions C20_self_reference_diverges_refuted.
(** In values an undefined reference does not stay, it is removed; and so is one written with a capital letter. *)
Theorem C20_undefined_in_value_removed_refuted : exists get s, (forall n v, In "x"%char n -> get n <> Some (AStr v)) /\ s = $"a {xx} b" /\ replace_attr_vals get s = $"a  b".
Proof. exists (fun _ => None), ($"a {xx} b"). split; [discriminate|]. split; reflexivity. Qed.
Print Assumptions C20_undefined_in_value_removed_refuted.
Theorem C20_value_names_case_sensitive_refuted : exists get, get ($"name") = Some (AStr "Ann") /\
  replace_attr_vals get ($"{Name}") = [] /\ lines_of get (document [$"{Name}"]) = Ret (Some ([$"Ann"], [])).
Proof. exists (table [("name", "Ann")]%string). vm_compute. auto. Qed.
Print Assumptions C20_value_names_case_sensitive_refuted.
