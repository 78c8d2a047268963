(** Properties C01-C05 and C43: document attributes. *)
From Verif Require Import Base AttrsModel AttrsSpec AttrsProofs.

(** Settings used by the examples: a secure job, read-only [foo], modifiable [bar]. *)
Definition ex_settings : job_settings :=
  {| js_doctype := None; js_safe := Secure;
     js_job := [("foo"%string, readonly (AStr "job")); ("bar"%string, modifiable (AStr "soft"))];
     js_embedded := false |}.
Definition ex_author : author :=
  {| first_name := "Ann"; middle_name := Some "B"%string; last_name := "Lee"; email := None |}.
Definition ex_ops : list op :=
  [OHeader "foo" (AStr "doc"); OHeader "bar" (AStr "hdr"); OAuthor ex_author; OBody "bar" (AStr "body");
   OHeader "doctype" (AStr "book"); OBody "foo" (ABool false); OBody "docdir" (AStr "/etc")].

(** ** C01 *)

(** A read-only job attribute keeps the embedder's value whatever the document does. *)
Theorem C01_readonly_job_attr_survives_any_document :
  forall s k v ops m,
    aget (js_job s) k = Some (readonly v) -> ~ spec_reserved k ->
    run (from_settings s) ops = Ret m -> get m k = Some v.
Proof.
  intros s k v ops m J R H.
  assert (D : ~ spec_derived k) by (intro C; apply R; left; exact C).
  assert (N : ~ In k ["doctype"; "safe-mode-level"; "safe-mode-name"; "safe-mode-unsafe"; "safe-mode-safe";
        "safe-mode-server"; "safe-mode-secure"]%string) by (intro C; apply R; right; exact C).
  rewrite (readonly_wins m k (readonly v)); [reflexivity|exact D| |reflexivity].
  rewrite (run_job _ _ _ H), from_settings_job. unfold spec_job. simpl in N.
  destruct (String.eqb_spec k "doctype"); [subst; tauto|].
  destruct (String.eqb_spec k "safe-mode-name"); [subst; tauto|].
  destruct (String.eqb_spec k "safe-mode-level"); [subst; tauto|].
  destruct (String.eqb_spec k (match js_safe s with Unsafe => "safe-mode-unsafe" | Safe => "safe-mode-safe"
                       | Server => "safe-mode-server" | Secure => "safe-mode-secure" end));
    [subst; destruct (js_safe s); tauto|exact J].
Qed.
Print Assumptions C01_readonly_job_attr_survives_any_document.
Example C01_nonvacuous : exists m, run (from_settings ex_settings) ex_ops = Ret m
  /\ aget (js_job ex_settings) "foo" = Some (readonly (AStr "job")) /\ ~ spec_reserved "foo"
  /\ get m "foo" = Some (AStr "job") /\ get m "bar" = Some (AStr "body").
Proof.
  eexists. split; [vm_compute; reflexivity|]. split; [reflexivity|]. split; [|split; reflexivity].
  unfold spec_reserved, spec_derived; simpl; intuition discriminate.
Qed.

(** The safe-mode name, level and flag of the job always show through. *)
Theorem C01_safe_mode_attrs_cannot_be_forged :
  forall s ops m,
    run (from_settings s) ops = Ret m ->
    get m "safe-mode-name" = Some (AStr (match js_safe s with
       Unsafe => "UNSAFE" | Safe => "SAFE" | Server => "SERVER" | Secure => "SECURE" end)) /\
    get m "safe-mode-level" = Some (AStr (match js_safe s with
       Unsafe => "0" | Safe => "1" | Server => "10" | Secure => "20" end)) /\
    get m (match js_safe s with Unsafe => "safe-mode-unsafe" | Safe => "safe-mode-safe"
       | Server => "safe-mode-server" | Secure => "safe-mode-secure" end) = Some (ABool true) /\
    (forall d, js_doctype s = Some d -> get m "doctype" = Some (AStr (doctype_str d))).
Proof.
  intros s ops m H.
  repeat split.
  - erewrite readonly_wins; [| |rewrite (run_job _ _ _ H), from_settings_job; reflexivity|reflexivity];
      [reflexivity|unfold spec_derived; simpl; intuition discriminate].
  - erewrite readonly_wins; [| |rewrite (run_job _ _ _ H), from_settings_job; reflexivity|reflexivity];
      [reflexivity|unfold spec_derived; simpl; intuition discriminate].
  - erewrite readonly_wins with (j := readonly (ABool true)); [reflexivity| | |reflexivity].
    + destruct (js_safe s); unfold spec_derived; simpl; intuition discriminate.
    + rewrite (run_job _ _ _ H), from_settings_job. unfold spec_job. destruct (js_safe s); reflexivity.
  - intros d Hd. erewrite readonly_wins with (j := readonly (AStr (doctype_str d))); [reflexivity| | |reflexivity].
    + unfold spec_derived; simpl; intuition discriminate.
    + rewrite (run_job _ _ _ H), from_settings_job. unfold spec_job. rewrite Hd. reflexivity.
Qed.
Print Assumptions C01_safe_mode_attrs_cannot_be_forged.

(** Secure mode: after the lockdown no document can switch data-uri embedding on. *)
Theorem C01_secure_lockdown_disables_data_uri :
  forall s ops m,
    js_safe s = Secure -> run (lockdown_secure_mode (from_settings s)) ops = Ret m ->
    get m "data-uri" = Some (ABool false).
Proof.
  intros s ops m S H.
  erewrite readonly_wins with (j := readonly (ABool false)); [reflexivity| | |reflexivity].
  - unfold spec_derived; simpl; intuition discriminate.
  - rewrite (run_job _ _ _ H). apply lockdown_data_uri.
    unfold from_settings. destruct (js_doctype s); exact S.
Qed.
Print Assumptions C01_secure_lockdown_disables_data_uri.
Example C01_lockdown_nonvacuous :
  exists m, run (lockdown_secure_mode (from_settings ex_settings)) [OHeader "data-uri" (ABool true)] = Ret m
    /\ get m "data-uri" = Some (ABool false).
Proof. eexists. split; [vm_compute; reflexivity|vm_compute; reflexivity]. Qed.

(** Table cells inherit every read-only job attribute except the five title/toc names. *)
Theorem C01_cells_inherit_readonly :
  forall m k v,
    aget (m_job m) k = Some (readonly v) -> ~ spec_derived k ->
    ~ In k ["toc"; "toc-placement"; "toc-position"; "showtitle"; "notitle"]%string ->
    get (clone_for_cell m) k = Some v.
Proof.
  intros m k v J D N. erewrite readonly_wins with (j := readonly v); [reflexivity|exact D| |reflexivity].
  rewrite clone_job by exact N. exact J.
Qed.
Print Assumptions C01_cells_inherit_readonly.
(** The exception is real: a read-only job [toc] is dropped inside an AsciiDoc cell. *)
Theorem C01_cells_drop_readonly_toc_refuted :
  exists m v, aget (m_job m) "toc" = Some (readonly v) /\ get m "toc" = Some v
    /\ get (clone_for_cell m) "toc" = None.
Proof.
  exists (from_settings {| js_doctype := None; js_safe := Safe;
     js_job := [("toc"%string, readonly (AStr "left"))]; js_embedded := false |}), (AStr "left").
  vm_compute. repeat split.
Qed.
Print Assumptions C01_cells_drop_readonly_toc_refuted.

(** ** C02 *)

(** Lookup of every plain name equals the history-based specification: the job's read-only
    value; otherwise last accepted body, header, default, then soft job value. *)
Theorem C02_lookup_precedence :
  forall s ops m k rb rh,
    run (from_settings s) ops = Ret m -> ~ spec_derived k ->
    spec_body (rev ops) k rb -> spec_header s (rev ops) k rh ->
    let layered := spec_layers rb rh (aget default_attrs k) in
    match spec_job s k with
    | Some j => if ja_readonly j then get m k = Some (ja_value j)
                else get m k = match layered with Some v => Some v | None => Some (ja_value j) end
    | None => k <> "doctitle"%string -> get m k = layered
    end.
Proof.
  intros s ops m k rb rh H D HB HH. cbn zeta.
  pose proof (agrees_run _ _ _ H) as A.
  rewrite (get_plain m k D), (run_job _ _ _ H), from_settings_job.
  rewrite (spec_body_fun _ _ _ _ HB (ag_body _ _ _ A k)), (spec_header_fun _ _ _ _ _ HH (ag_header _ _ _ A k)).
  rewrite <- (ag_default _ _ _ A), <- resolve_layers.
  destruct (spec_job s k) as [j|].
  - destruct (ja_readonly j); reflexivity.
  - intro N. apply String.eqb_neq in N. rewrite N. reflexivity.
Qed.
Print Assumptions C02_lookup_precedence.

(** The specification is total and functional on every history the model accepts. *)
Theorem C02_spec_is_a_function :
  forall s ops m k, run (from_settings s) ops = Ret m ->
    (exists! rb, spec_body (rev ops) k rb) /\ (exists! rh, spec_header s (rev ops) k rh).
Proof.
  intros s ops m k H. pose proof (agrees_run _ _ _ H) as A. split.
  - eexists. split; [apply (ag_body _ _ _ A)|]. intros r Hr. eapply spec_body_fun; [apply (ag_body _ _ _ A)|exact Hr].
  - eexists. split; [apply (ag_header _ _ _ A)|]. intros r Hr. eapply spec_header_fun; [apply (ag_header _ _ _ A)|exact Hr].
Qed.
Print Assumptions C02_spec_is_a_function.

(** [doctitle] falls back to the derived title. *)
Theorem C02_doctitle_fallback :
  forall s ops m rh rd,
    run (from_settings s) ops = Ret m -> aget (js_job s) "doctitle" = None ->
    spec_header s (rev ops) "doctitle" rh ->
    spec_body (rev ops) "_asciidork_derived_doctitle" None ->
    spec_header s (rev ops) "_asciidork_derived_doctitle" rd ->
    get m "doctitle" = match rh with Some v => Some v | None => rd end.
Proof.
  intros s ops m rh rd H J HH HB HD. pose proof (agrees_run _ _ _ H) as A.
  assert (HBT : aget (m_doc m) "doctitle" = None).
  { assert (X : forall h, spec_body h "doctitle" None).
    { induction h as [|[k v|k v|a|] h IH]; try (constructor; exact IH).
      destruct (String.eqb_spec k "doctitle") as [->|N].
      - apply SB_rejected; [|exact IH]. intros [_ [C _]]. apply C. unfold spec_header_only. simpl. tauto.
      - apply SB_other; [exact N| |exact IH]. intros [[_ C]|[_ C]]; discriminate C. }
    exact (spec_body_fun _ _ _ _ (ag_body _ _ _ A "doctitle") (X _)). }
  rewrite get_plain by (unfold spec_derived; simpl; intuition discriminate).
  rewrite (run_job _ _ _ H), from_settings_job. unfold spec_job.
  destruct (js_safe s); cbn [String.eqb Ascii.eqb Bool.eqb]; rewrite J; unfold resolve_attr;
  rewrite HBT, (spec_header_fun _ _ _ _ _ HH (ag_header _ _ _ A _)), (spec_header_fun _ _ _ _ _ HD (ag_header _ _ _ A _)),
    <- (spec_body_fun _ _ _ _ HB (ag_body _ _ _ A _)), (ag_default _ _ _ A);
  destruct (aget (m_header m) "doctitle"); try reflexivity;
  destruct (aget (m_header m) "_asciidork_derived_doctitle"); reflexivity.
Qed.
Print Assumptions C02_doctitle_fallback.

(** Every documented built-in has its documented value in a document that, like its job, never
    mentions the name; a name that is neither mentioned nor built in is undefined. *)
Theorem C02_builtin_defaults :
  forall s ops m k,
    run (from_settings s) ops = Ret m -> ~ spec_derived k -> k <> "doctitle"%string ->
    spec_job s k = None -> spec_body (rev ops) k None -> spec_header s (rev ops) k None ->
    (forall v, In (k, v) documented_builtins -> get m k = Some (AStr v)) /\
    (~ In k (map fst documented_builtins) -> get m k = None).
Proof.
  intros s ops m k H D N J HB HH.
  pose proof (C02_lookup_precedence s ops m k None None H D HB HH) as P.
  cbn zeta in P. rewrite J in P. specialize (P N). rewrite P. exact (default_documented k).
Qed.
Print Assumptions C02_builtin_defaults.
Example C02_builtin_defaults_nonvacuous :
  exists m, run (from_settings ex_settings) [OHeader "foo" (ABool true)] = Ret m /\
    spec_job ex_settings "table-caption" = None /\
    spec_body (rev [OHeader "foo" (ABool true)]) "table-caption" None /\
    spec_header ex_settings (rev [OHeader "foo" (ABool true)]) "table-caption" None /\
    get m "table-caption" = Some (AStr "Table").
Proof.
  assert (X : exists m, run (from_settings ex_settings) [OHeader "foo" (ABool true)] = Ret m
    /\ aget (m_doc m) "table-caption" = None /\ aget (m_header m) "table-caption" = None
    /\ get m "table-caption" = Some (AStr "Table")).
  { eexists. split; [vm_compute; reflexivity|]. vm_compute. repeat split. }
  destruct X as [m [R [B [H G]]]]. exists m. split; [exact R|]. split; [reflexivity|].
  pose proof (agrees_run _ _ _ R) as A.
  split; [rewrite <- B; apply (ag_body _ _ _ A)|]. split; [rewrite <- H; apply (ag_header _ _ _ A)|exact G].
Qed.

(** A surprise: a soft job value never beats a built-in default. *)
Theorem C02_soft_job_value_shadowed_by_default_refuted :
  exists s m, run (from_settings s) [] = Ret m /\
    aget (js_job s) "note-caption" = Some (modifiable (AStr "Nota")) /\
    get m "note-caption" = Some (AStr "Note").
Proof.
  exists {| js_doctype := None; js_safe := Safe;
     js_job := [("note-caption"%string, modifiable (AStr "Nota"))]; js_embedded := false |}.
  eexists. split; [reflexivity|]. split; reflexivity.
Qed.
Print Assumptions C02_soft_job_value_shadowed_by_default_refuted.

(** ** C03 *)

(** Header assignments: accepted exactly when allowed; rejected ones change nothing. *)
Theorem C03_header_assignment :
  forall m k v,
    (snd (insert_header_attr m k v) = true <->
       ~ spec_job_only k /\ spec_value_ok k v /\
       (k = "doctype"%string -> exists d, spec_names_doctype v d) /\
       (spec_book_only k -> m_doctype m = Book)) /\
    (snd (insert_header_attr m k v) = false -> fst (insert_header_attr m k v) = m).
Proof.
  intros m k v. split; [exact (insert_header_accept_iff m k v)|exact (insert_header_rejected m k v)].
Qed.
Print Assumptions C03_header_assignment.

(** Body assignments likewise. *)
Theorem C03_body_assignment :
  forall m k v,
    (snd (insert_doc_attr m k v) = true <-> ~ spec_job_only k /\ ~ spec_header_only k /\ spec_value_ok k v) /\
    (snd (insert_doc_attr m k v) = false -> fst (insert_doc_attr m k v) = m).
Proof.
  intros m k v. split; [exact (insert_doc_accept_iff m k v)|exact (insert_doc_rejected m k v)].
Qed.
Print Assumptions C03_body_assignment.
Example C03_nonvacuous :
  snd (insert_doc_attr (from_settings ex_settings) "docdir" (AStr "/etc")) = false /\
  snd (insert_doc_attr (from_settings ex_settings) "author" (AStr "x")) = false /\
  snd (insert_header_attr (from_settings ex_settings) "showtitle" (AStr "x")) = false /\
  snd (insert_header_attr (from_settings ex_settings) "part-refsig" (AStr "x")) = false /\
  snd (insert_header_attr (from_settings ex_settings) "foo" (AStr "x")) = true.
Proof. repeat split. Qed.

(** An accepted body assignment only affects that name (and the opposite title switch). *)
Theorem C03_body_assignment_frame :
  forall m k v k',
    k' <> k -> ~ spec_opposite k k' -> ~ (k = "_asciidork_derived_doctitle" /\ k' = "doctitle")%string ->
    get (fst (insert_doc_attr m k v)) k' = get m k'.
Proof.
  intros m k v k' N O DT.
  destruct (snd (insert_doc_attr m k v)) eqn:ES.
  2:{ rewrite (insert_doc_rejected _ _ _ ES). reflexivity. }
  pose proof (insert_doc_frame m k v) as [F1 [F2 [F3 [_ [_ [_ F7]]]]]]. cbn zeta in *.
  pose proof (insert_doc_accepted _ _ _ ES) as G.
  assert (RG : forall j, j <> k -> ~ spec_opposite k j ->
     resolve_attr (fst (insert_doc_attr m k v)) j = resolve_attr m j).
  { intros j Nj Oj. unfold resolve_attr. rewrite F2, F3, G.
    destruct (String.eqb_spec k j) as [C|_]; [congruence|].
    match goal with |- context[if ?c then None else _] => destruct c eqn:E end; [|reflexivity].
    apply opposite_bool in E. contradiction. }
  unfold get. rewrite F1, F7. rewrite (RG k') by assumption.
  destruct (String.eqb_spec k' "doctitle") as [->|]; [|reflexivity].
  rewrite (RG "doctitle"%string), (RG "_asciidork_derived_doctitle"%string);
    [reflexivity|intro C; apply DT; split; congruence|intros [[_ C]|[_ C]]; discriminate C|congruence|exact O].
Qed.
Print Assumptions C03_body_assignment_frame.

(** ** C04 *)
Theorem C04_showtitle_notitle_exclusive :
  forall s ops m,
    run (from_settings s) ops = Ret m ->
    ~ (aget (m_header m) "showtitle" <> None /\ aget (m_header m) "notitle" <> None) /\
    ~ (aget (m_doc m) "showtitle" <> None /\ aget (m_doc m) "notitle" <> None).
Proof.
  intros s ops m H.
  assert (I : title_excl (m_header (from_settings s)) /\ title_excl (m_doc (from_settings s))).
  { unfold from_settings. split; [|left; destruct (js_doctype s); reflexivity].
    destruct (js_doctype s); [|left; reflexivity]. left. rewrite set_doctype_header. reflexivity. }
  pose proof (excl_run _ _ _ I H) as [[H1|H1] [H2|H2]]; rewrite H1, H2; split; intros [C1 C2]; congruence.
Qed.
Print Assumptions C04_showtitle_notitle_exclusive.

(** Job insertions keep the job layer exclusive too. *)
Theorem C04_job_layer_exclusive :
  forall m entries,
    ~ (aget (m_job m) "showtitle" <> None /\ aget (m_job m) "notitle" <> None) ->
    let m' := fold_left (fun m e => fst (insert_job_attr m (fst e) (snd e))) entries m in
    ~ (aget (m_job m') "showtitle" <> None /\ aget (m_job m') "notitle" <> None).
Proof.
  intros m entries H.
  assert (E : title_excl (m_job m)).
  { unfold title_excl. destruct (aget (m_job m) "showtitle"); [|left; reflexivity].
    destruct (aget (m_job m) "notitle"); [|right; reflexivity]. exfalso. apply H. split; discriminate. }
  clear H. cbn zeta. revert m E. induction entries as [|e r IH]; intros m E; simpl.
  - destruct E as [E|E]; rewrite E; intros [C1 C2]; congruence.
  - apply IH. apply excl_job. exact E.
Qed.
Print Assumptions C04_job_layer_exclusive.

(** Across layers the later switch does not win: body [showtitle] after header [notitle]
    leaves the title hidden, and a document's [notitle] beats the job's read-only [showtitle]. *)
Theorem C04_cross_layer_refuted :
  (exists m, run (from_settings ex_settings) [OHeader "notitle" (ABool true); OBody "showtitle" (ABool true)] = Ret m
     /\ get m "showtitle" = Some (ABool true) /\ show_doc_title m = false) /\
  (exists s m, aget (js_job s) "showtitle" = Some (readonly (ABool true)) /\
     run (from_settings s) [OHeader "notitle" (ABool true)] = Ret m /\ show_doc_title m = false).
Proof.
  split.
  - eexists. split; [vm_compute; reflexivity|]. split; vm_compute; reflexivity.
  - exists {| js_doctype := None; js_safe := Safe;
       js_job := [("showtitle"%string, readonly (ABool true))]; js_embedded := false |}.
    eexists. split; [reflexivity|]. split; vm_compute; reflexivity.
Qed.
Print Assumptions C04_cross_layer_refuted.

(** Title visibility in a standalone document whose job says nothing about titles and whose
    body makes no assignment: hidden exactly when the last accepted switch hides it. *)
Theorem C04_standalone_title_visibility :
  forall s ops m rs rn,
    js_embedded s = false -> aget (js_job s) "showtitle" = None -> aget (js_job s) "notitle" = None ->
    run (from_settings s) ops = Ret m ->
    (forall k v, ~ In (OBody k v) ops) ->
    spec_header s (rev ops) "showtitle" rs -> spec_header s (rev ops) "notitle" rn ->
    show_doc_title m = negb (match rn with Some (ABool true) => true | _ => false end)
                       && negb (match rs with Some (ABool false) => true | _ => false end).
Proof.
  intros s ops m rs rn E J1 J2 H NB HS HN.
  pose proof (agrees_run _ _ _ H) as A.
  assert (B : forall k, aget (m_doc m) k = None).
  { intro k. assert (X : forall h, (forall k v, ~ In (OBody k v) h) -> spec_body h k None).
    { induction h as [|[k0 v|k0 v|a|] h IH]; intro N; try (constructor; apply IH; intros j w C; apply (N j w); right; exact C).
      exfalso. apply (N k0 v). left. reflexivity. }
    refine (spec_body_fun _ _ _ _ (ag_body _ _ _ A k) (X _ _)).
    intros j w C. apply in_rev in C. exact (NB _ _ C). }
  rewrite (spec_header_fun _ _ _ _ _ HS (ag_header _ _ _ A _)), (spec_header_fun _ _ _ _ _ HN (ag_header _ _ _ A _)).
  assert (G1 : get m "showtitle" = aget (m_header m) "showtitle").
  { rewrite get_plain by (unfold spec_derived; simpl; intuition discriminate).
    rewrite (run_job _ _ _ H), from_settings_job. unfold spec_job.
    destruct (js_safe s); cbn [String.eqb Ascii.eqb Bool.eqb]; rewrite J1; unfold resolve_attr; rewrite B, (ag_default _ _ _ A);
      destruct (aget (m_header m) "showtitle"); reflexivity. }
  assert (G2 : get m "notitle" = aget (m_header m) "notitle").
  { rewrite get_plain by (unfold spec_derived; simpl; intuition discriminate).
    rewrite (run_job _ _ _ H), from_settings_job. unfold spec_job.
    destruct (js_safe s); cbn [String.eqb Ascii.eqb Bool.eqb]; rewrite J2; unfold resolve_attr; rewrite B, (ag_default _ _ _ A);
      destruct (aget (m_header m) "notitle"); reflexivity. }
  unfold show_doc_title, get_is_true, get_is_false. rewrite G1, G2, (ag_embedded _ _ _ A), E.
  destruct (aget (m_header m) "notitle") as [[?|[|]]|]; destruct (aget (m_header m) "showtitle") as [[?|[|]]|]; reflexivity.
Qed.
Print Assumptions C04_standalone_title_visibility.

(** ** C05 *)
(** Unless the job fixes the document type, the three views of it always agree. *)
Theorem C05_doctype_views_agree :
  forall s ops m,
    js_doctype s = None -> run (from_settings s) ops = Ret m ->
    get m "doctype" = Some (AStr (doctype_str (m_doctype m))) /\
    spec_doctype s (rev ops) (m_doctype m) /\
    (forall d, get m ("doctype-" ++ doctype_str d)%string = if doctype_eqb (m_doctype m) d then Some (ABool true) else None).
Proof.
  intros s ops m E H. split; [exact (doctype_consistent s ops m E H)|].
  split; [exact (ag_doctype _ _ _ (agrees_run _ _ _ H))|intro d; exact (derived_get m d)].
Qed.
Print Assumptions C05_doctype_views_agree.
(** Job-fixed type: consistent as long as the document does not assign [doctype]. *)
Theorem C05_fixed_doctype_partial :
  forall s d ops m,
    js_doctype s = Some d -> run (from_settings s) ops = Ret m ->
    (forall v, ~ In (OHeader "doctype" v) ops) ->
    get m "doctype" = Some (AStr (doctype_str d)) /\ m_doctype m = d.
Proof.
  intros s d ops m E H N. split.
  - apply (proj2 (proj2 (proj2 (C01_safe_mode_attrs_cannot_be_forged s ops m H)))). exact E.
  - rewrite (no_doctype_op_keeps _ _ _ H N). unfold from_settings. rewrite E. reflexivity.
Qed.
Print Assumptions C05_fixed_doctype_partial.
(** Finding: a header entry changes the effective document type although the job fixed it. *)
Theorem C05_job_fixed_doctype_refuted :
  exists s m, js_doctype s = Some Article /\
    run (from_settings s) [OHeader "doctype" (AStr "book")] = Ret m /\
    get m "doctype" = Some (AStr "article") /\ m_doctype m = Book /\
    get m "doctype-book" = Some (ABool true) /\ get m "doctype-article" = None.
Proof.
  exists {| js_doctype := Some Article; js_safe := Secure; js_job := []; js_embedded := false |}.
  eexists. split; [reflexivity|]. split; [vm_compute; reflexivity|]. vm_compute. repeat split.
Qed.
Print Assumptions C05_job_fixed_doctype_refuted.
(** Finding: a doctype given as a read-only job attribute (instead of the setting) is discarded. *)
Theorem C05_job_attr_doctype_ignored_refuted :
  exists s m, js_doctype s = None /\ aget (js_job s) "doctype" = Some (readonly (AStr "book")) /\
    run (from_settings s) [] = Ret m /\ get m "doctype" = Some (AStr "article") /\ m_doctype m = Article.
Proof.
  exists {| js_doctype := None; js_safe := Secure;
            js_job := [("doctype"%string, readonly (AStr "book"))]; js_embedded := false |}.
  eexists. repeat split.
Qed.
Print Assumptions C05_job_attr_doctype_ignored_refuted.

(** An AsciiDoc table cell is always parsed as an article: its effective type, its
    [doctype-*] flags and (unless the job fixed the attribute) its [doctype] all say so. *)
Theorem C05_cells_are_articles :
  forall m,
    m_doctype (clone_for_cell m) = Article /\
    (forall d, get (clone_for_cell m) ("doctype-" ++ doctype_str d)%string
       = if doctype_eqb Article d then Some (ABool true) else None) /\
    (aget (m_job m) "doctype" = None -> aget (m_doc m) "doctype" = None ->
     get (clone_for_cell m) "doctype" = Some (AStr "article")).
Proof.
  intro m. split; [reflexivity|]. split.
  - intro d. exact (derived_get (clone_for_cell m) d).
  - exact (clone_doctype m).
Qed.
Print Assumptions C05_cells_are_articles.

(** ** C43 (attribute part) *)
(** Authors are numbered 1..n in order; the unsuffixed names describe the first one. *)
Theorem C43_author_attributes :
  forall s ops a m,
    run (from_settings s) (ops ++ [OAuthor a]) = Ret m ->
    let n := spec_authors ops + 1 in
    length (m_authors m) = n /\ nth_error (m_authors m) (n - 1) = Some a /\
    (forall k v, spec_author_attr n a k v -> aget (m_header m) k = Some (AStr v)).
Proof.
  intros s ops a m H. cbn zeta. rewrite run_app in H.
  destruct (run (from_settings s) ops) as [m0|] eqn:E; [|discriminate].
  simpl in H. destruct (add_author m0 a) as [m1|] eqn:EA; [|discriminate]. injection H as <-.
  pose proof (agrees_run _ _ _ E) as A. pose proof (ag_authors _ _ _ A) as L.
  assert (LR : spec_authors (rev ops) = spec_authors ops).
  { unfold spec_authors. clear. induction ops as [|o l IH]; [reflexivity|].
    simpl. rewrite filter_app, app_length, IH. destruct o; simpl; lia. }
  pose proof (add_author_frame _ _ _ EA) as [_ [_ [_ [F _]]]]. rewrite LR in L.
  split; [rewrite F, app_length, L; reflexivity|]. split.
  - rewrite F, nth_error_app2 by lia. replace (spec_authors ops + 1 - 1 - length (m_authors m0)) with 0 by lia. reflexivity.
  - intros k v Hv. rewrite (add_author_header _ _ _ k EA), L.
    destruct (String.eqb_spec "authors" k) as [<-|N]; [inversion Hv|].
    apply author_val_spec in Hv. rewrite Hv. reflexivity.
Qed.
Print Assumptions C43_author_attributes.
(** The number of authors is not an attribute: after one author and after two, authorcount is unset. *)
Theorem C43_authorcount_refuted : exists m m', run (from_settings ex_settings) [OAuthor ex_author] = Ret m /\ get m "authorcount" = None /\
  run (from_settings ex_settings) [OAuthor ex_author; OAuthor ex_author] = Ret m' /\ get m' "authorcount" = None.
Proof. eexists _, _. vm_compute. repeat split. Qed.
Print Assumptions C43_authorcount_refuted.
Example C43_nonvacuous : exists m,
  run (from_settings ex_settings) ([OAuthor ex_author] ++ [OAuthor {| first_name := "Bo"; middle_name := None; last_name := "Z"; email := Some "b@z"%string |}]) = Ret m
  /\ aget (m_header m) "author_2" = Some (AStr "Bo Z") /\ aget (m_header m) "author" = Some (AStr "Ann B Lee")
  /\ aget (m_header m) "authors" = Some (AStr "Ann B Lee, Bo Z") /\ aget (m_header m) "authorinitials" = Some (AStr "ABL").
Proof. eexists. split; [vm_compute; reflexivity|]. vm_compute. repeat split. Qed.
