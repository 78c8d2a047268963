(** Property C37: substitution sets. *)
From Verif Require Import Base SubsModel SubsSpec SubsProofs.

(** The presets enable the documented steps, in the documented order. *)
Theorem C37_presets :
  shows normal [SpecialChars; InlineFormatting; AttrRefs; CharReplacement; Macros; PostReplacement] /\
  shows attr_value [SpecialChars; InlineFormatting; AttrRefs; CharReplacement] /\
  shows verbatim [SpecialChars; Callouts] /\
  shows only_special_chars [SpecialChars] /\
  shows all [SpecialChars; InlineFormatting; AttrRefs; CharReplacement; Macros; PostReplacement; Callouts] /\
  shows none [].
Proof.
  exact (conj normal_shows (conj attr_value_shows (conj verbatim_shows (conj special_shows (conj all_shows none_shows))))).
Qed.
Print Assumptions C37_presets.

(** Every history of insert/remove/prepend from a value that shows [l]: unless some insert asks for
    a seventh step, the result shows exactly the list the documentation predicts. *)
Theorem C37_history_is_ordered_set :
  forall dbg st l h, shows st l -> no_overflow l h ->
    exists st', run dbg st h = Ret st' /\ shows st' (fold_left spec_op h l).
Proof. exact shows_run. Qed.
Print Assumptions C37_history_is_ordered_set.

Example C37_history_example :
  no_overflow normal_steps [ORemove Macros; OInsert Callouts; OPrepend Callouts; OInsert Callouts] /\
  fold_left spec_op [ORemove Macros; OInsert Callouts; OPrepend Callouts; OInsert Callouts] normal_steps
  = [Callouts; SpecialChars; InlineFormatting; AttrRefs; CharReplacement; PostReplacement].
Proof.
  split; [|vm_compute; reflexivity]. intros h1 o h2 E (s & -> & NI & L6).
  destruct h1 as [|o1 h1]; [discriminate|]. injection E as <- E.
  destruct h1 as [|o2 h1].
  - vm_compute in L6. discriminate.
  - injection E as <- E. destruct h1 as [|o3 h1]; [discriminate|]. injection E as <- E.
    destruct h1 as [|o4 h1].
    + injection E as <- _. apply NI. vm_compute. auto.
    + injection E as <- E. destruct h1; discriminate.
Qed.

(** Exactly when a debug build panics: an insert that would complete the set of seven. *)
Theorem C37_debug_panic_exactly :
  forall st l h, shows st l ->
    (run true st h = Panic <->
     exists h1 s h2, h = h1 ++ OInsert s :: h2 /\ ~ In s (fold_left spec_op h1 l) /\ length (fold_left spec_op h1 l) = 6).
Proof.
  intros st l h S. rewrite (run_debug_panic_iff st l h S). split.
  - intros (h1 & o & h2 & E & (s & -> & A & B)). exists h1, s, h2. auto.
  - intros (h1 & s & h2 & E & A & B). exists h1, (OInsert s), h2. split; [exact E|]. exists s. auto.
Qed.
Print Assumptions C37_debug_panic_exactly.

(** In release builds no history panics and the membership test is set membership. *)
Theorem C37_release_membership :
  forall st l h, shows st l ->
    exists st', run false st h = Ret st' /\ forall t, contains st' t = true <-> In t (fold_left spec_op h l).
Proof. exact release_shows. Qed.
Print Assumptions C37_release_membership.

(** Finding: the insertion loop never looks at the seventh slot, so the documented
    [[subs="+callouts"]] on a normal paragraph trips the debug assertion, and in release the
    order array loses the step although the membership test reports it. *)
Theorem C37_seventh_step_refuted :
  insert true normal Callouts = Panic /\
  from_meta true normal (Some ($"+callouts")) = Panic /\
  exists st, insert false normal Callouts = Ret st /\ contains st Callouts = true /\
    ~ In (Some Callouts) (order st).
Proof.
  split; [reflexivity|]. split; [reflexivity|]. eexists. split; [reflexivity|]. split; [reflexivity|].
  vm_compute. intuition discriminate.
Qed.
Print Assumptions C37_seventh_step_refuted.

(** Finding: [append] can duplicate a step and can write out of bounds. *)
Theorem C37_append_refuted :
  (exists st, append normal SpecialChars = Ret st /\ ~ NoDup (somes (order st))) /\
  append all SpecialChars = Panic.
Proof.
  split; [|reflexivity]. eexists. split; [reflexivity|]. intro N. vm_compute in N.
  inversion N as [|? ? H _]. apply H. simpl. tauto.
Qed.
Print Assumptions C37_append_refuted.

(** The [subs] block attribute: for every value, written as comma-separated parts, the outcome is the
    documented one: start from the block's own steps if a [+] or [-] occurs anywhere, else from none;
    then perform what each part asks for, in order. *)
Theorem C37_subs_attribute :
  forall dbg cur l v ps opss start,
  shows cur l -> ps <> [] -> Forall no_comma ps -> joined ps = v -> Forall2 asks ps opss ->
  (In "+"%char v \/ In "-"%char v -> start = l) ->
  (~ In "+"%char v -> ~ In "-"%char v -> start = []) ->
  (no_overflow start (concat opss) ->
   exists st', from_meta dbg cur (Some v) = Ret st' /\ shows st' (fold_left spec_op (concat opss) start)) /\
  (exists st', from_meta false cur (Some v) = Ret st' /\
     forall t, contains st' t = true <-> In t (fold_left spec_op (concat opss) start)) /\
  (from_meta true cur (Some v) = Panic <-> ~ no_overflow start (concat opss)).
Proof. intros dbg cur l v ps opss start S NE NC <- F. exact (from_meta_shows dbg cur l ps opss start S NE NC F). Qed.
Print Assumptions C37_subs_attribute.

(** every value has such a reading, and the reading of a part is unique *)
Theorem C37_subs_attribute_total :
  (forall v, exists ps opss, ps <> [] /\ Forall no_comma ps /\ joined ps = v /\ Forall2 asks ps opss) /\
  (forall p o1 o2, asks p o1 -> asks p o2 -> o1 = o2) /\
  (forall dbg cur, from_meta dbg cur None = Ret cur).
Proof. exact (conj parts_exist (conj asks_fun (fun _ _ => eq_refl))). Qed.
Print Assumptions C37_subs_attribute_total.

Example C37_subs_attribute_example :
  exists st, from_meta true verbatim (Some ($"attributes+,-callouts,bogus")) = Ret st /\
    shows st [AttrRefs; SpecialChars].
Proof. eexists. split; [vm_compute; reflexivity|]. preset. Qed.

(** Finding: [subs=verbatim] is not the verbatim preset: it enables character replacements and
    turns callouts off. *)
Theorem C37_verbatim_group_refuted :
  exists st, from_meta true verbatim (Some ($"verbatim")) = Ret st /\
    contains st Callouts = false /\ contains verbatim Callouts = true /\
    contains st CharReplacement = true /\ contains verbatim CharReplacement = false.
Proof. eexists. split; [vm_compute; reflexivity|]. repeat split; reflexivity. Qed.
Print Assumptions C37_verbatim_group_refuted.

(** The pass-macro target: never panics, enables what its words ask for, never callouts. *)
Theorem C37_pass_macro_target :
  forall dbg t ps es,
  t <> [] -> ps <> [] -> Forall no_comma ps -> joined ps = t -> Forall2 pass_reads ps es ->
  exists st, from_pass_target dbg t = Ret st /\ shows st (fold_left pass_apply es []) /\
    ~ In Callouts (fold_left pass_apply es []).
Proof. exact pass_target. Qed.
Print Assumptions C37_pass_macro_target.
Theorem C37_pass_macro_target_total :
  (forall t, exists ps es, ps <> [] /\ Forall no_comma ps /\ joined ps = t /\ Forall2 pass_reads ps es) /\
  (forall p e1 e2, pass_reads p e1 -> pass_reads p e2 -> e1 = e2) /\
  (forall dbg, from_pass_target dbg [] = Ret none).
Proof. exact (conj pass_total (conj pass_reads_fun (fun _ => eq_refl))). Qed.
Print Assumptions C37_pass_macro_target_total.
Example C37_pass_macro_example :
  exists st, from_pass_target true ($"q,a,zz") = Ret st /\ shows st [InlineFormatting; AttrRefs].
Proof. eexists. split; [vm_compute; reflexivity|]. preset. Qed.

(** [+++x+++] applies nothing, [+x+] and [++x++] escape special characters only. *)
Theorem C37_plus_passthrough :
  forall n, shows (from_pass_plus_len n) (if n =? 3 then [] else [SpecialChars]).
Proof. exact plus_len. Qed.
Print Assumptions C37_plus_passthrough.
