From Verif Require Import Base AttrsModel AttrsSpec AttrsProofs IncludeModel IncludeSpec IncludeProofs.
From Verif Require PathModel.

(** ** C07: the command line resolver *)
Definition ex_canon (p : bytes) : option (list bytes) :=
  if bytes_eqb p ($"/docs") then Some [$"docs"]
  else if bytes_eqb p ($"/docs/a.adoc") then Some [$"docs"; $"a.adoc"]
  else if bytes_eqb p ($"/docs/link.adoc") then Some [$"etc"; $"passwd"]
  else if bytes_eqb p ($"/docs-private/x.adoc") then Some [$"docs-private"; $"x.adoc"]
  else None.
Definition ex_fs : fs := {| canon := ex_canon; stored := fun l => match l with [_; _] => Some ($"text") | _ => None end |}.

(** On a file system that does not change while a request is served, every file opened lies under the base
    directory, unless the mode is unsafe. *)
Theorem C07_reads_stay_under_base :
  forall base strict f p mode files r,
    mode <> Unsafe -> cli_resolve_filepath base strict f f p mode = (files, r) ->
    forall x, In x files -> exists d dc, base = Some d /\ canon f d = Some dc /\ under dc x.
Proof.
  intros base strict f p mode files r M H x I.
  apply cli_under in H as [[-> _]|(pc & rc & c & -> & _ & H0 & H1 & _ & U & _)]; [destruct I|].
  destruct I as [<-|[]]. rewrite H0 in H1. injection H1 as <-. exact (U M).
Qed.
Print Assumptions C07_reads_stay_under_base.
(** A successful request returns the contents of the file the path leads to, and opens nothing else. *)
Theorem C07_ok_is_the_file :
  forall base strict f p mode files c,
    cli_resolve_filepath base strict f f p mode = (files, Ok c) ->
    exists pc, canon f p = Some pc /\ stored f pc = Some c /\ files = [pc].
Proof.
  intros base strict f p mode files c H.
  apply cli_under in H as [[_ [e E]]|(pc & rc & c' & -> & E & H0 & H1 & S & _)]; [discriminate|].
  injection E as <-. exists pc. rewrite H0 in H1. injection H1 as <-. auto.
Qed.
Print Assumptions C07_ok_is_the_file.
(** Which requests are refused, and that a refused request opens nothing — for any change of the file system. *)
Theorem C07_refused_without_reading :
  forall base strict f f' p mode, mode <> Unsafe ->
    (canon f p = None -> cli_resolve_filepath base strict f f' p mode = ([], Err NotFound)) /\
    (canon f p <> None -> base = None -> cli_resolve_filepath base strict f f' p mode = ([], Err BaseDirRequired)) /\
    (forall d, canon f p <> None -> base = Some d -> canon f d = None ->
       cli_resolve_filepath base strict f f' p mode = ([], Err BaseDirRequired)) /\
    (forall d dc pc, canon f p = Some pc -> base = Some d -> canon f d = Some dc -> ~ under dc pc ->
       cli_resolve_filepath base strict f f' p mode = ([], Err RestrictedPath)).
Proof.
  intros base strict f f' p mode M. unfold cli_resolve_filepath. repeat split.
  - intros ->. reflexivity.
  - intros H ->. destruct (canon f p); [|congruence]. destruct mode; try congruence; reflexivity.
  - intros d H -> E. destruct (canon f p); [|congruence]. rewrite E. destruct mode; try congruence; reflexivity.
  - intros d dc pc -> -> -> N. destruct (comps_prefix dc pc) eqn:C; [apply comps_prefix_spec in C; contradiction|].
    destruct mode; try congruence; reflexivity.
Qed.
Print Assumptions C07_refused_without_reading.
(** Conversely nothing under the base is refused (outside strict mode); strict mode serves exactly the
    requests spelled canonically. *)
Theorem C07_served :
  forall d dc pc c strict f p mode,
    canon f p = Some pc -> canon f d = Some dc -> under dc pc -> stored f pc = Some c ->
    (strict = true -> std_components p = (true, pc)) ->
    cli_resolve_filepath (Some d) strict f f p mode = ([pc], Ok c).
Proof.
  intros d dc pc c strict f p mode P D U S ST. unfold cli_resolve_filepath. rewrite P, D, S.
  apply comps_prefix_spec in U. rewrite U.
  assert (E : (let '(rooted, parts) := std_components p in strict && negb (rooted && list_eqb parts pc)) = false).
  { destruct (std_components p) as [ro pa]. destruct strict; [|reflexivity].
    injection (ST eq_refl) as -> ->. rewrite (proj2 (list_eqb_eq pc pc) eq_refl). reflexivity. }
  destruct (std_components p) as [ro pa]. destruct mode; rewrite E; reflexivity.
Qed.
Print Assumptions C07_served.
Theorem C07_strict_serves_canonical_spelling :
  forall base f f' p mode files c,
    cli_resolve_filepath base true f f' p mode = (files, Ok c) -> exists pc, canon f p = Some pc /\ std_components p = (true, pc).
Proof.
  intros base f f' p mode files c H.
  apply cli_under in H as [[_ [e E]]|(pc & rc & c' & _ & _ & H0 & _ & _ & _ & ST)]; [discriminate|]. exists pc. auto.
Qed.
Print Assumptions C07_strict_serves_canonical_spelling.
(** served; refused although the name shares a prefix with the base; refused because it is a link out *)
Example C07_examples :
  cli_resolve_filepath (Some ($"/docs")) true ex_fs ex_fs ($"/docs/a.adoc") Safe = ([[$"docs"; $"a.adoc"]], Ok ($"text")) /\
  cli_resolve_filepath (Some ($"/docs")) false ex_fs ex_fs ($"/docs-private/x.adoc") Safe = ([], Err RestrictedPath) /\
  cli_resolve_filepath (Some ($"/docs")) false ex_fs ex_fs ($"/docs/link.adoc") Server = ([], Err RestrictedPath) /\
  cli_resolve_filepath (Some ($"/docs")) false ex_fs ex_fs ($"/docs/link.adoc") Unsafe = ([[$"etc"; $"passwd"]], Ok ($"text")).
Proof. vm_compute. repeat split. Qed.
(** Finding: the check and the open use the path twice; if the last component is swapped for a link in
    between, a file outside the base is read in safe mode. *)
Theorem C07_check_then_open_refuted :
  exists f f' files c, cli_resolve_filepath (Some ($"/docs")) false f f' ($"/docs/a.adoc") Safe = (files, Ok c) /\
    exists x, In x files /\ ~ under [$"docs"] x.
Proof.
  exists ex_fs, {| canon := fun _ => Some [$"etc"; $"passwd"]; stored := stored ex_fs |}.
  eexists. eexists. split; [vm_compute; reflexivity|]. eexists. split; [left; reflexivity|].
  intros [r E]. discriminate E.
Qed.
Print Assumptions C07_check_then_open_refuted.
(** Finding: URI targets are fetched in every safe mode, secure included; the resolver relies on the parser. *)
Theorem C07_uri_fetched_in_secure_mode_refuted :
  forall base strict f f' get u, cli_resolve base strict f f' get (Uri u) Secure =
    ([], [u], match get u with Some c => Ok c | None => Err UriRead end).
Proof. reflexivity. Qed.
Print Assumptions C07_uri_fetched_in_secure_mode_refuted.

(** ** C08: which includes reach the resolver *)
Definition ex_job (mode : safe_mode) (j : amap job_attr) : job_settings :=
  {| js_doctype := None; js_safe := mode; js_job := j; js_embedded := false |}.
Definition ex_env (m : meta) : env :=
  {| e_meta := m; e_idx := 0; e_limits := [None]; e_max := 64; e_src := SrcPath (PathModel.new ($"/docs/main.adoc"));
     e_resolver := Some (Some ($"/docs")) |}.
Definition ex_dir (t : bytes) : directive := {| d_line := $"include::" ++ t ++ $"[]"; d_target := t; d_optional := false |}.

(** Secure mode: whatever the document did before, whatever the resolver, no include directive reaches it. *)
Theorem C08_secure_never_resolves :
  forall s ops e d dbg resolve norm,
    js_safe s = Secure -> run (lockdown_secure_mode (from_settings s)) ops = Ret (e_meta e) ->
    process_include dbg resolve norm e d = Ret {| calls := []; act := Link; reported := false |}.
Proof.
  intros s ops e d dbg resolve norm S R. apply include_secure.
  rewrite (proj1 (allowed_iff_job _ _ _ R)). exact S.
Qed.
Print Assumptions C08_secure_never_resolves.
(** A target written as a URL is only resolved when the job (not the document) allowed it. *)
Theorem C08_url_needs_job_permission :
  forall s ops e d dbg resolve norm eff,
    run (lockdown_secure_mode (from_settings s)) ops = Ret (e_meta e) ->
    process_include dbg resolve norm e d = Ret eff -> url_text (d_target d) -> ~ job_allows_uri s ->
    calls eff = [] /\ act eff = Link.
Proof.
  intros s ops e d dbg resolve norm eff R H U N. destruct (allowed_iff_job _ _ _ R) as [M A].
  assert (F : get_is_true (e_meta e) "allow-uri-read" = false)
    by (destruct (get_is_true (e_meta e) "allow-uri-read"); [exfalso; apply N, A; reflexivity|reflexivity]).
  destruct (m_safe (e_meta e)) eqn:S;
    [rewrite include_url_denied in H by (rewrite ?S; congruence || assumption)..
    |rewrite include_secure in H by exact S]; injection H as <-; split; reflexivity.
Qed.
Print Assumptions C08_url_needs_job_permission.
Example C08_url_example :
  exists m, run (lockdown_secure_mode (from_settings (ex_job Safe []))) [OHeader "allow-uri-read" (ABool true)] = Ret m /\
    url_text ($"https://x.org/a.adoc") /\ ~ job_allows_uri (ex_job Safe []) /\
    process_include false (fun _ _ => Ok []) Some (ex_env m) (ex_dir ($"https://x.org/a.adoc"))
      = Ret {| calls := []; act := Link; reported := true |}.
Proof.
  eexists. split; [vm_compute; reflexivity|]. split.
  - exists ($"https"), ($"x.org/a.adoc"). left. split; [cbn; tauto|reflexivity].
  - split; [intros [j [E _]]; discriminate E|vm_compute; reflexivity].
Qed.
(** At most one request per directive, made with the document's own safe mode; its content is what the
    resolver answered. *)
Theorem C08_at_most_one_call :
  forall e d dbg resolve norm eff,
    process_include dbg resolve norm e d = Ret eff ->
    calls eff = [] \/ (exists t, calls eff = [(t, m_safe (e_meta e))] /\ m_safe (e_meta e) <> Secure).
Proof.
  intros e d dbg resolve norm eff H.
  destruct (include_calls _ _ _ _ _ _ H) as [E|(t & base & _ & E & S & _)]; [left; exact E|right; exists t; auto].
Qed.
Print Assumptions C08_at_most_one_call.
Theorem C08_spliced_text_is_the_resolvers :
  forall e d dbg resolve norm eff c,
    process_include dbg resolve norm e d = Ret eff -> act eff = Splice c ->
    exists t raw, calls eff = [(t, m_safe (e_meta e))] /\ resolve t (m_safe (e_meta e)) = Ok raw /\ norm raw = Some c.
Proof.
  intros e d dbg resolve norm eff c H A.
  destruct (include_calls _ _ _ _ _ _ H) as [E|(t & base & _ & E & S & _ & _ & _ & Q)].
  - exfalso. revert H. unfold process_include.
    repeat match goal with
    | |- (if ?x then _ else _) = _ -> _ => destruct x
    | |- match ?x with _ => _ end = _ -> _ => destruct x
    | |- Ret _ = _ -> _ => let Q := fresh in intro Q; injection Q as <-; cbn in *; congruence
    | |- Panic = _ -> _ => discriminate
    | |- Ret (if ?x then _ else _) = _ -> _ => destruct x
    end.
  - destruct (Q c A) as [raw [Q1 Q2]]. exists t, raw. auto.
Qed.
Print Assumptions C08_spliced_text_is_the_resolvers.
(** The general statement about URI requests, as far as it is true: a URI is requested only with permission,
    or for a target whose first segment is [http:]/[https:] but that is not written as a URL, or from inside a
    document that was itself fetched from a URI. *)
Theorem C08_uri_requests_partial :
  forall e d dbg resolve norm eff u,
    process_include dbg resolve norm e d = Ret eff -> In (Uri u, m_safe (e_meta e)) (calls eff) ->
    get_is_true (e_meta e) "allow-uri-read" = true
    \/ (scheme_segment (d_target d) /\ ~ url_text (d_target d))
    \/ (exists p, e_src e = SrcPath p /\ PathModel.is_uri (PathModel.new (PathModel.dirname p)) = true).
Proof.
  intros e d dbg resolve norm eff u H I.
  destruct (include_calls _ _ _ _ _ _ H) as [E|(t & base & _ & E & S & P & A & _)]; rewrite E in I; [destruct I|].
  destruct I as [I|[]]. injection I as ->.
  destruct (lexes_as_uri (d_target d)) eqn:L; [left; apply A; reflexivity|].
  assert (NU : ~ url_text (d_target d)) by (intro U; apply lexes_spec in U; congruence).
  rewrite <- L in P. apply prepare_uri in P as [[U _]|[U|U]]; [contradiction|right; left; auto|right; right; exact U].
Qed.
Print Assumptions C08_uri_requests_partial.
(** Finding (security): one slash is enough to get around the permission. [include::http:/evil.org/x[]] is not
    taken for a URL by the permission check, but the target is normalised to [http://evil.org/x] and fetched,
    although neither job nor document set allow-uri-read. *)
Theorem C08_single_slash_bypass_refuted :
  exists m, run (lockdown_secure_mode (from_settings (ex_job Safe []))) [] = Ret m /\
    ~ job_allows_uri (ex_job Safe []) /\
    (forall resolve norm, exists eff,
      process_include false resolve norm (ex_env m) (ex_dir ($"http:/evil.org/x.adoc")) = Ret eff /\
      calls eff = [(Uri ($"http://evil.org/x.adoc"), Safe)]) /\
    (forall get, snd (fst (cli_resolve (Some ($"/docs")) true ex_fs ex_fs get (Uri ($"http://evil.org/x.adoc")) Safe))
      = [$"http://evil.org/x.adoc"]).
Proof.
  eexists. split; [vm_compute; reflexivity|]. split; [intros [j [E _]]; discriminate E|]. split; [|reflexivity].
  intros resolve norm. unfold process_include. vm_compute (m_safe _). cbn match.
  vm_compute (lexes_as_uri _). cbn [andb]. vm_compute (exceeded_max_include_depth _ _ _ _). cbn match.
  vm_compute (prepare _ _ _ _ _). cbn [e_resolver ex_env].
  match goal with |- exists eff, match resolve ?t ?m with _ => _ end = _ /\ _ => destruct (resolve t m) as [raw|[]] end;
    try (eexists; split; reflexivity).
  destruct (norm raw); eexists; split; reflexivity.
Qed.
Print Assumptions C08_single_slash_bypass_refuted.
(** The line put in place of a denied include is a link to the target marked with the role [include]. *)
Theorem C08_denied_include_becomes_link :
  forall t a spaces,
    ~ In "["%char t -> ~ In "["%char a -> ~ occurs ($"include::") (t ++ $"[" ++ a ++ $"]") ->
    link_line ($"include::" ++ t ++ $"[" ++ a ++ $"]") spaces =
    $"link:" ++ (if spaces then $"pass:c[" ++ t ++ $"]" else t) ++ $"[role=include," ++ a ++ $"]".
Proof. exact link_line_text. Qed.
Print Assumptions C08_denied_include_becomes_link.
Example C08_link_example :
  link_line ($"include::a b.adoc[tag=x]") true = $"link:pass:c[a b.adoc][role=include,tag=x]" /\
  link_line ($"include::ab.adoc[]") false = $"link:ab.adoc[role=include,]".
Proof. vm_compute. auto. Qed.
(** Finding: every bracket in the attribute list is rewritten too, and so is a second [include::]. *)
Theorem C08_link_line_brackets_refuted :
  link_line ($"include::a.adoc[opts=""x[1]""]") false = $"link:a.adoc[role=include,opts=""x[role=include,1]""]" /\
  link_line ($"include::include::b[]") false = $"link:link:b[role=include,]".
Proof. vm_compute. auto. Qed.
Print Assumptions C08_link_line_brackets_refuted.
(** Finding: a document read from standard input that includes an absolute path aborts the program. *)
Theorem C08_stdin_absolute_include_refuted :
  forall resolve norm m, m_safe m = Safe ->
    process_include false resolve norm
      {| e_meta := m; e_idx := 0; e_limits := [None]; e_max := 64; e_src := SrcStdin; e_resolver := Some (Some ($"/docs")) |}
      (ex_dir ($"/docs/a.adoc")) = Panic.
Proof.
  intros resolve norm m S. unfold process_include. cbn [e_meta e_idx e_limits e_max e_src e_resolver]. rewrite S. cbn match.
  vm_compute (lexes_as_uri _). cbn [andb]. vm_compute (exceeded_max_include_depth _ _ _ _). cbn match.
  vm_compute (prepare _ _ _ _ _). reflexivity.
Qed.
Print Assumptions C08_stdin_absolute_include_refuted.

(** ** C46: images *)
(** Secure mode: no image and no admonition icon is ever read, whatever the document does. *)
Theorem C46_secure_reads_no_image :
  forall s ops m base t inline format svg_name icon,
    js_safe s = Secure -> run (lockdown_secure_mode (from_settings s)) ops = Ret m ->
    image_call m base t inline format svg_name = None /\ admonition_call m base icon = None /\
    image_call (clone_for_cell m) base t inline format svg_name = None /\ admonition_call (clone_for_cell m) base icon = None.
Proof.
  intros s ops m base t inline format svg_name icon S R.
  assert (J : aget (m_job m) "data-uri" = Some (readonly (ABool false))).
  { rewrite (run_job _ _ _ R). apply lockdown_data_uri. exact (eq_trans (proj1 (proj2 (proj2 (proj2 (from_settings_frame s))))) S). }
  assert (M : m_safe m = Secure) by (rewrite (proj1 (allowed_iff_job _ _ _ R)); exact S).
  assert (G : forall m', aget (m_job m') "data-uri" = Some (readonly (ABool false)) -> get_is_true m' "data-uri" = false).
  { intros m' H. unfold get_is_true. erewrite readonly_wins with (j := readonly (ABool false)); [reflexivity| |exact H|reflexivity].
    unfold spec_derived; simpl; intuition discriminate. }
  assert (K : forall m', aget (m_job m') "data-uri" = Some (readonly (ABool false)) -> m_safe m' = Secure ->
     image_call m' base t inline format svg_name = None /\ admonition_call m' base icon = None).
  { intros m' H MS. unfold image_call, admonition_call, should_resolve_as_inline_svg. rewrite (G m' H), MS. cbn.
    split; [|reflexivity]. destruct (negb inline || _); reflexivity. }
  destruct (K m J M) as [K1 K2].
  destruct (K (clone_for_cell m)) as [K3 K4]; [rewrite clone_job; [exact J|simpl; intuition discriminate]|exact M|].
  repeat split; assumption.
Qed.
Print Assumptions C46_secure_reads_no_image.
Example C46_secure_example :
  exists m, run (lockdown_secure_mode (from_settings (ex_job Secure [])))
     [OHeader "data-uri" (ABool true); OBody "data-uri" (ABool true)] = Ret m /\
    image_call m (Some (Some ($"/docs"))) ($"a.svg") true None true = None.
Proof. eexists. split; [vm_compute; reflexivity|vm_compute; reflexivity]. Qed.
(** Without permission a URI is requested for an image only through a target or directory whose first
    segment is a bare [http:]/[https:], or a base directory that is one. *)
Theorem C46_image_uri_requests_partial :
  forall m base t inline format svg_name u mode,
    image_call m base t inline format svg_name = Some (Uri u, mode) ->
    get_is_true m "allow-uri-read" = true
    \/ (scheme_segment t /\ ~ url_text t)
    \/ (exists d, base = Some (Some d) /\ scheme_segment d)
    \/ (exists d, get_str m "imagesdir" = Some d /\ scheme_segment d).
Proof.
  intros m base t inline format svg_name u mode H.
  assert (K : forall k, dir_attr k = "imagesdir"%string -> image_bytes_call m base t (lexes_as_uri t) k = Some (Uri u, mode) ->
    get_is_true m "allow-uri-read" = true
    \/ (scheme_segment t /\ ~ url_text t)
    \/ (exists d, base = Some (Some d) /\ scheme_segment d)
    \/ (exists d, get_str m "imagesdir" = Some d /\ scheme_segment d)).
  { intros k DK. unfold image_bytes_call. rewrite DK. destruct base as [dir|]; [|discriminate].
    destruct (get_is_true m "allow-uri-read") eqn:A; [left; reflexivity|]. cbn [negb]. rewrite !andb_true_r.
    destruct (lexes_as_uri t) eqn:L; [discriminate|].
    assert (NU : ~ url_text t) by (intro U; apply lexes_spec in U; congruence).
    destruct dir as [d|]; [|discriminate]. unfold target_of_path.
    assert (G : forall p, (if PathModel.is_uri (PathModel.join p (PathModel.new t))
        then Uri (PathModel.to_string (PathModel.join p (PathModel.new t)))
        else FilePath (PathModel.to_string (PathModel.join p (PathModel.new t)))) = Uri u ->
        (scheme_segment t /\ ~ url_text t) \/ PathModel.is_uri p = true).
    { intros p E. destruct (PathModel.is_uri (PathModel.join p (PathModel.new t))) eqn:U; [|discriminate].
      apply is_uri_join in U as [U|U]; [left; split; [apply is_uri_segment, U|exact NU]|right; exact U]. }
    destruct (get_str m "imagesdir") as [im|] eqn:GI.
    - destruct (uri_sniff im); [discriminate|]. intro H2. injection H2 as E _. destruct (G _ E) as [Q|Q]; [right; left; exact Q|].
      apply is_uri_join in Q as [Q|Q].
      + right; right; right. exists im. split; [reflexivity|apply is_uri_segment, Q].
      + right; right; left. exists d. split; [reflexivity|apply is_uri_segment, Q].
    - intro H2. injection H2 as E _. destruct (G _ E) as [Q|Q]; [right; left; exact Q|].
      right; right; left. exists d. split; [reflexivity|apply is_uri_segment, Q]. }
  unfold image_call in H.
  destruct (should_resolve_as_inline_svg _ _ _ _); [exact (K InlineSvg eq_refl H)|].
  destruct (_ || _)%bool; [discriminate|exact (K DataUri eq_refl H)].
Qed.
Print Assumptions C46_image_uri_requests_partial.
(** Finding (security): the single-slash spelling also defeats the check for images. *)
Theorem C46_single_slash_image_bypass_refuted :
  exists m, run (lockdown_secure_mode (from_settings (ex_job Safe []))) [OHeader "data-uri" (ABool true)] = Ret m /\
    get_is_true m "allow-uri-read" = false /\
    image_call m (Some (Some ($"/docs"))) ($"http:/evil.org/x.svg") true None true = Some (Uri ($"http://evil.org/x.svg"), Safe) /\
    image_call m (Some (Some ($"/docs"))) ($"https:/evil.org/x.png") false None false = Some (Uri ($"https://evil.org/x.png"), Safe).
Proof. eexists. split; [vm_compute; reflexivity|]. vm_compute. repeat split. Qed.
Print Assumptions C46_single_slash_image_bypass_refuted.

(** ** C47: the custom stylesheet *)
(** Outside unsafe mode only a file under the working directory is read. *)
Theorem C47_stylesheet_stays_in_cwd :
  forall m f cwd cwdc files err, m_safe m <> Unsafe -> css_read m f cwd cwdc = (files, err) ->
    forall x, In x files -> under cwdc x.
Proof.
  intros m f cwd cwdc files err M H x I. unfold css_read in H.
  destruct (value_str _) as [[|c name]|]; try (injection H as <- <-; destruct I; fail).
  destruct (canon f _) as [pc|]; [|injection H as <- <-; destruct I].
  assert (N : (match m_safe m with Unsafe => true | _ => false end) = false) by (destruct (m_safe m); congruence).
  rewrite N in H. cbn in H. destruct (comps_prefix cwdc pc) eqn:C; [|injection H as <- <-; destruct I].
  cbn in H. destruct (stored f pc); injection H as <- <-; [|destruct I]. destruct I as [<-|[]]. apply comps_prefix_spec, C.
Qed.
Print Assumptions C47_stylesheet_stays_in_cwd.
(** Finding: secure mode does not prevent the read: a document header can make the tool read and embed any
    file under the working directory. *)
Theorem C47_secure_mode_reads_stylesheet_refuted :
  exists m, run (lockdown_secure_mode (from_settings (ex_job Secure []))) [OHeader "stylesheet" (AStr "a.adoc")] = Ret m /\
    m_safe m = Secure /\
    css_read m {| canon := fun p => if bytes_eqb p ($"/docs/./a.adoc") then Some [$"docs"; $"a.adoc"] else None;
                  stored := stored ex_fs |} ($"/docs") [$"docs"] = ([[$"docs"; $"a.adoc"]], false).
Proof. eexists. split; [vm_compute; reflexivity|]. vm_compute. repeat split. Qed.
Print Assumptions C47_secure_mode_reads_stylesheet_refuted.

(** ** C08, positively: what is asked for and what happens with the answer *)
(** From the primary document a relative target is asked for under the resolver's base directory; from an
    included file, relative to that file's own directory; an absolute target is asked for as it is. *)
Theorem C08_relative_targets :
  forall e d dbg resolve norm eff t,
    process_include dbg resolve norm e d = Ret eff -> calls eff = [(t, m_safe (e_meta e))] -> ~ url_text (d_target d) ->
    (e_idx e = 0%N -> PathModel.is_relative (PathModel.new (d_target d)) = true ->
       exists base, e_resolver e = Some (Some base) /\
         t = FilePath (PathModel.to_string (PathModel.join (PathModel.new base) (PathModel.new (d_target d))))) /\
    (forall s, e_src e = SrcPath s -> e_idx e <> 0%N -> PathModel.is_relative (PathModel.new (d_target d)) = true ->
       t = target_of_path (PathModel.join (PathModel.new (PathModel.dirname s)) (PathModel.new (d_target d)))) /\
    (PathModel.is_relative (PathModel.new (d_target d)) = false -> t = target_of_path (PathModel.new (d_target d))).
Proof.
  intros e d dbg resolve norm eff t H C U.
  destruct (include_calls _ _ _ _ _ _ H) as [E|(t' & base & R & E & _ & P & _)]; [congruence|].
  rewrite C in E. injection E as <-.
  destruct (lexes_as_uri (d_target d)) eqn:L; [exfalso; apply U, lexes_spec, L|].
  revert P. unfold prepare. set (r := PathModel.is_relative _). repeat split.
  - intros I ->. rewrite I in P. cbn in P. destruct base as [base|]; [|discriminate]. cbn in P.
    injection P as <-. exists base. auto.
  - intros s S I ->. rewrite S in P. replace (e_idx e =? 0)%N with false in P by (symmetry; apply N.eqb_neq, I).
    cbn in P. injection P as <-. reflexivity.
  - intros ->. rewrite andb_false_r in P. destruct (e_src e); try discriminate. injection P as <-. reflexivity.
Qed.
Print Assumptions C08_relative_targets.
Example C08_relative_example :
  let m := lockdown_secure_mode (from_settings (ex_job Safe [])) in
  let nested := {| e_meta := m; e_idx := 1; e_limits := [None; None]; e_max := 64;
                   e_src := SrcPath (PathModel.new ($"/docs/sub/b.adoc")); e_resolver := Some (Some ($"/docs")) |} in
  let ask e := match process_include false (fun _ _ => Err NotFound) Some e (ex_dir ($"c.adoc")) with
               | Ret eff => calls eff | Panic => [] end in
  ask (ex_env m) = [(FilePath ($"/docs/c.adoc"), Safe)] /\ ask nested = [(FilePath ($"/docs/sub/c.adoc"), Safe)].
Proof. vm_compute. auto. Qed.
(** What happens with the resolver's answer: content is spliced in; a missing file is skipped if the include
    is optional and otherwise replaced by the "unresolved" text; nothing else is silent. *)
Theorem C08_outcomes :
  forall e d dbg resolve norm eff t,
    process_include dbg resolve norm e d = Ret eff -> calls eff = [(t, m_safe (e_meta e))] ->
    match resolve t (m_safe (e_meta e)) with
    | Ok raw => match norm raw with
                | Some c => act eff = Splice c /\ reported eff = false
                | None => act eff = Link /\ reported eff = true
                end
    | Err NotFound => if d_optional d then act eff = Skip /\ reported eff = false
                      else act eff = Unresolved /\ reported eff = true
    | Err Io => act eff = Unresolved /\ reported eff = true
    | Err _ => act eff = Passthrough /\ reported eff = true
    end.
Proof.
  intros e d dbg resolve norm eff t H C. revert H. unfold process_include.
  repeat match goal with
  | |- Ret _ = Ret _ -> _ => let Q := fresh in intro Q; injection Q as <-; cbn in C |- *; try discriminate C
  | |- Panic = _ -> _ => discriminate
  | |- (if ?x then _ else _) = _ -> _ => destruct x eqn:?
  | |- match resolve ?u ?m with _ => _ end = _ -> _ => fail 1
  | |- match ?x with _ => _ end = _ -> _ => destruct x eqn:?
  end.
  match goal with |- match resolve ?u ?m with _ => _ end = _ -> _ =>
    destruct (resolve u m) as [raw|er] eqn:R; [destruct (norm raw) eqn:NR|destruct er; try destruct (d_optional d)] end;
  intro Q; injection Q as <-; cbn in C; injection C as <-; rewrite R, ?NR; cbn; auto.
Qed.
Print Assumptions C08_outcomes.
(** A file target within the depth limit is always asked for outside secure mode. *)
Theorem C08_files_are_requested :
  forall e d resolve norm base,
    m_safe (e_meta e) <> Secure -> ~ url_text (d_target d) -> e_resolver e = Some (Some base) ->
    (e_idx e = 0%N /\ PathModel.is_relative (PathModel.new (d_target d)) = true \/ (exists s, e_src e = SrcPath s)) ->
    exceeded_max_include_depth false (e_idx e) (e_limits e) (e_max e) = Ret None ->
    exists eff t, process_include false resolve norm e d = Ret eff /\ calls eff = [(t, m_safe (e_meta e))].
Proof.
  intros e d resolve norm base M U R P D. unfold process_include.
  replace (match m_safe (e_meta e) with Secure => true | _ => false end) with false by (destruct (m_safe (e_meta e)); congruence).
  destruct (lexes_as_uri (d_target d)) eqn:L; [exfalso; apply U, lexes_spec, L|].
  cbn [andb orb]. rewrite D, R. cbn [option_map].
  assert (K : exists t, prepare (d_target d) false (e_src e) (e_idx e =? 0)%N (Some (PathModel.new base)) = Ret (Ok t)).
  { unfold prepare. destruct P as [[-> ->]|[s ->]]; [eexists; reflexivity|]. destruct (_ && _)%bool; eexists; reflexivity. }
  destruct K as [t ->].
  destruct (resolve t _) as [raw|er]; [destruct (norm raw)|destruct er; try destruct (d_optional d)]; eexists; exists t; split; reflexivity.
Qed.
Print Assumptions C08_files_are_requested.
(** With data-uri set outside secure mode, a local image is asked for under the base directory and imagesdir. *)
Theorem C46_local_images_are_requested :
  forall m base t,
    get_is_true m "data-uri" = true -> ~ url_text t -> starts_with ($"data:") t = false ->
    (get m "imagesdir" = None ->
       image_call m (Some (Some base)) t false None false =
       Some (target_of_path (PathModel.join (PathModel.new base) (PathModel.new t)), m_safe m)) /\
    (forall d, get m "imagesdir" = Some (AStr d) -> uri_sniff (b d) = false ->
       image_call m (Some (Some base)) t false None false =
       Some (target_of_path (PathModel.join (PathModel.join (PathModel.new base) (PathModel.new (b d))) (PathModel.new t)), m_safe m)).
Proof.
  intros m base t D U S. destruct (lexes_as_uri t) eqn:L; [exfalso; apply U, lexes_spec, L|].
  unfold image_call, should_resolve_as_inline_svg, is_disallowed_abs_uri, image_bytes_call, get_str.
  rewrite L, D, S. cbn. split; [intros ->; reflexivity|]. intros d -> N. cbn. rewrite N. reflexivity.
Qed.
Print Assumptions C46_local_images_are_requested.
(** Inline SVG: requested exactly when the option is given, the mode is not secure, and the format attribute
    says svg or is absent and the name looks like an svg. *)
Theorem C46_inline_svg_iff :
  forall m base t inline format svg_name,
    get_is_true m "data-uri" = false -> ~ url_text t -> get m "imagesdir" = None ->
    (image_call m (Some (Some base)) t inline format svg_name <> None <->
     inline = true /\ m_safe m <> Secure /\ (format = Some ($"svg") \/ (format = None /\ svg_name = true))).
Proof.
  intros m base t inline format svg_name D U I. destruct (lexes_as_uri t) eqn:L; [exfalso; apply U, lexes_spec, L|].
  unfold image_call, should_resolve_as_inline_svg, image_bytes_call, get_str. cbn [dir_attr]. rewrite L, D, I. cbn [andb value_str].
  assert (F : forall f, bytes_eqb f ($"svg") = true <-> f = $"svg") by (intro f; apply bytes_eqb_eq).
  destruct inline; cbn [negb orb]; [|cbn; intuition congruence].
  destruct format as [f|].
  - specialize (F f). destruct (bytes_eqb f ($"svg")); cbn.
    + rewrite (proj1 F eq_refl). destruct (m_safe m); cbn; intuition congruence.
    + split; [intro Q; exfalso; apply Q; reflexivity|]. intros (_ & _ & [Q|[Q _]]); [|discriminate]. injection Q as ->. discriminate (proj2 F eq_refl).
  - destruct (m_safe m), svg_name; cbn; intuition congruence.
Qed.
Print Assumptions C46_inline_svg_iff.
Example C46_positive_examples :
  exists m, run (lockdown_secure_mode (from_settings (ex_job Safe []))) [OHeader "data-uri" (ABool true); OHeader "imagesdir" (AStr "img")] = Ret m /\
    image_call m (Some (Some ($"/docs"))) ($"a.png") false None false = Some (FilePath ($"/docs/img/a.png"), Safe).
Proof. eexists. split; [vm_compute; reflexivity|]. vm_compute. reflexivity. Qed.
(** A stylesheet under the working directory is read. *)
Theorem C47_stylesheet_in_cwd_is_read :
  forall m f cwd cwdc pc name text,
    aget (m_header m) "stylesheet" = Some (AStr name) -> name <> ""%string -> aget (m_header m) "stylesdir" = None ->
    canon f (PathModel.to_string (PathModel.join (PathModel.join (PathModel.new cwd) (PathModel.new ($"."))) (PathModel.new (b name)))) = Some pc ->
    under cwdc pc -> stored f pc = Some text -> css_read m f cwd cwdc = ([pc], false).
Proof.
  intros m f cwd cwdc pc name text H N D C U S. unfold css_read. rewrite H, D. cbn [value_str].
  destruct name as [|a name]; [congruence|]. unfold b in *. cbn [list_ascii_of_string] in *. rewrite C, S.
  apply comps_prefix_spec in U. rewrite U. rewrite andb_false_r. reflexivity.
Qed.
Print Assumptions C47_stylesheet_in_cwd_is_read.
