From Verif Require Import Base AttrsModel AttrsSpec AttrsProofs IncludeModel IncludeSpec.
From Verif Require PathModel PathProofs.

(** ** who can allow URI reads *)
Lemma job_only_step k m o m' :
  k = "allow-uri-read"%string -> step m o = Ret m' ->
  aget (m_header m) k = None -> aget (m_doc m) k = None ->
  aget (m_header m') k = None /\ aget (m_doc m') k = None /\ m_default m' = m_default m /\ m_safe m' = m_safe m.
Proof.
  intros -> S H B. destruct o as [k v|k v|a|]; simpl in S; try (injection S as <-).
  - pose proof (insert_header_frame m k v) as [F1 [F2 [F3 [F4 [F5 F6]]]]]. cbn zeta in *.
    rewrite F2, F3, F5. repeat split; auto.
    destruct (snd (insert_header_attr m k v)) eqn:E.
    + pose proof (proj1 (insert_header_accepted m k v E) "allow-uri-read"%string) as G. cbn zeta in G. rewrite G.
      destruct (String.eqb_spec k "allow-uri-read") as [->|N]; [discriminate E|].
      destruct (_ || _)%bool; [reflexivity|exact H].
    + rewrite (insert_header_rejected _ _ _ E). exact H.
  - pose proof (insert_doc_frame m k v) as [F1 [F2 [F3 [F4 [F5 [F6 F7]]]]]]. cbn zeta in *.
    rewrite F2, F3, F5. repeat split; auto.
    destruct (snd (insert_doc_attr m k v)) eqn:E.
    + rewrite (insert_doc_accepted m k v E).
      destruct (String.eqb_spec k "allow-uri-read") as [->|N]; [discriminate E|].
      destruct (_ || _)%bool; [reflexivity|exact B].
    + rewrite (insert_doc_rejected _ _ _ E). exact B.
  - pose proof (add_author_frame _ _ _ S) as [F1 [F2 [F3 [F4 [F5 _]]]]].
    rewrite F2, F3, F5. repeat split; auto. rewrite (add_author_header _ _ _ _ S).
    replace (String.eqb "authors" "allow-uri-read") with false by reflexivity.
    destruct (author_val (length (m_authors m) + 1) a "allow-uri-read") eqn:E; [|exact H].
    apply author_val_spec in E. inversion E.
  - repeat split; auto.
Qed.
Lemma job_only_run m ops m' :
  run m ops = Ret m' ->
  aget (m_header m) "allow-uri-read" = None -> aget (m_doc m) "allow-uri-read" = None ->
  aget (m_header m') "allow-uri-read" = None /\ aget (m_doc m') "allow-uri-read" = None
  /\ m_default m' = m_default m /\ m_safe m' = m_safe m.
Proof.
  revert m; induction ops as [|o ops IH]; intros m R H B; simpl in R; [injection R as <-; auto|].
  destruct (step m o) as [m1|] eqn:E; [|discriminate].
  destruct (job_only_step _ _ _ _ eq_refl E H B) as [H1 [B1 [D1 S1]]].
  destruct (IH _ R H1 B1) as [H2 [B2 [D2 S2]]]. repeat split; auto; congruence.
Qed.
Lemma insert_job_frame m k j :
  let m' := fst (insert_job_attr m k j) in
  m_header m' = m_header m /\ m_doc m' = m_doc m /\ m_default m' = m_default m /\ m_safe m' = m_safe m.
Proof. unfold insert_job_attr. destruct (job_insert (m_job m) k j). repeat split. Qed.
Lemma insert_job_uri m k j :
  k <> "allow-uri-read"%string -> legal_value k (ja_value j) = true ->
  aget (m_job (fst (insert_job_attr m k j))) "allow-uri-read" = aget (m_job m) "allow-uri-read".
Proof.
  intros N L. rewrite insert_job_get by exact L. apply String.eqb_neq in N. rewrite N.
  replace (String.eqb "allow-uri-read" "notitle") with false by reflexivity.
  replace (String.eqb "allow-uri-read" "showtitle") with false by reflexivity.
  rewrite !andb_false_r. reflexivity.
Qed.
Lemma lockdown_frame m :
  let m' := lockdown_secure_mode m in
  m_header m' = m_header m /\ m_doc m' = m_doc m /\ m_default m' = m_default m /\ m_safe m' = m_safe m /\
  aget (m_job m') "allow-uri-read" = aget (m_job m) "allow-uri-read".
Proof.
  unfold lockdown_secure_mode. destruct (m_safe m) eqn:S; try (rewrite ?S; repeat split; fail). cbn zeta.
  set (P := fun m' => m_header m' = m_header m /\ m_doc m' = m_doc m /\ m_default m' = m_default m /\
     m_safe m' = Secure /\ aget (m_job m') "allow-uri-read" = aget (m_job m) "allow-uri-read").
  assert (STEP : forall m' k j, k <> "allow-uri-read"%string -> legal_value k (ja_value j) = true -> P m' ->
     P (fst (insert_job_attr m' k j))).
  { intros m' k j N L [P1 [P2 [P3 [P4 P5]]]]. destruct (insert_job_frame m' k j) as [F1 [F2 [F3 F4]]]. cbn zeta in *.
    unfold P. rewrite F1, F2, F3, F4, insert_job_uri by assumption. repeat split; assumption. }
  assert (P0 : P m) by (repeat split; auto). change (P (
    let m0 := fst (insert_job_attr m "data-uri" (readonly (ABool false))) in
    let m1 := if is_unset m0 "max-attribute-value-size"
               then fst (insert_job_attr m0 "max-attribute-value-size" (readonly (AStr "4096"))) else m0 in
    let m2 := if is_unset m1 "linkcss" then fst (insert_job_attr m1 "linkcss" (readonly (AStr ""))) else m1 in
    if is_unset m2 "icons" then fst (insert_job_attr m2 "icons" (readonly (ABool false))) else m2)).
  cbn zeta.
  assert (P1 : P (fst (insert_job_attr m "data-uri" (readonly (ABool false))))) by (apply STEP; [discriminate|reflexivity|exact P0]).
  revert P1. generalize (fst (insert_job_attr m "data-uri" (readonly (ABool false)))). intros m0 P1.
  assert (P2 : P (if is_unset m0 "max-attribute-value-size"
               then fst (insert_job_attr m0 "max-attribute-value-size" (readonly (AStr "4096"))) else m0))
    by (destruct (is_unset m0 "max-attribute-value-size"); [apply STEP; [discriminate|reflexivity|exact P1]|exact P1]).
  revert P2. generalize (if is_unset m0 "max-attribute-value-size"
               then fst (insert_job_attr m0 "max-attribute-value-size" (readonly (AStr "4096"))) else m0). intros m1 P2.
  assert (P3 : P (if is_unset m1 "linkcss" then fst (insert_job_attr m1 "linkcss" (readonly (AStr ""))) else m1))
    by (destruct (is_unset m1 "linkcss"); [apply STEP; [discriminate|reflexivity|exact P2]|exact P2]).
  revert P3. generalize (if is_unset m1 "linkcss" then fst (insert_job_attr m1 "linkcss" (readonly (AStr ""))) else m1).
  intros m2 P3. destruct (is_unset m2 "icons"); [apply STEP; [discriminate|reflexivity|exact P3]|exact P3].
Qed.
Lemma from_settings_frame s :
  aget (m_header (from_settings s)) "allow-uri-read" = None /\ aget (m_doc (from_settings s)) "allow-uri-read" = None /\
  aget (m_default (from_settings s)) "allow-uri-read" = None /\ m_safe (from_settings s) = js_safe s /\
  aget (m_job (from_settings s)) "allow-uri-read" = aget (js_job s) "allow-uri-read".
Proof.
  rewrite from_settings_job. unfold from_settings.
  destruct (js_doctype s) as [d|] eqn:E.
  - repeat split; try reflexivity; unfold spec_job; rewrite ?E; destruct (js_safe s); reflexivity.
  - repeat split; try reflexivity; unfold spec_job; rewrite ?E; destruct (js_safe s); reflexivity.
Qed.

Lemma allowed_iff_job s ops m :
  run (lockdown_secure_mode (from_settings s)) ops = Ret m ->
  m_safe m = js_safe s /\ (get_is_true m "allow-uri-read" = true <-> job_allows_uri s).
Proof.
  intro R. destruct (from_settings_frame s) as [F1 [F2 [F3 [F4 F5]]]].
  destruct (lockdown_frame (from_settings s)) as [L1 [L2 [L3 [L4 L5]]]]. cbn zeta in *.
  destruct (job_only_run _ _ _ R) as [G1 [G2 [G3 G4]]]; [congruence|congruence|]. split; [congruence|].
  unfold get_is_true, job_allows_uri.
  rewrite get_plain by (unfold spec_derived; simpl; intuition discriminate).
  rewrite (run_job _ _ _ R), L5, F5. unfold resolve_attr. rewrite G2, G1, G3, L3, F3.
  replace (String.eqb "allow-uri-read" "doctitle") with false by reflexivity.
  destruct (aget (js_job s) "allow-uri-read") as [j|].
  - replace (if ja_readonly j then Some (ja_value j) else Some (ja_value j)) with (Some (ja_value j))
      by (destruct (ja_readonly j); reflexivity). split.
    + intro T. exists j. split; [reflexivity|]. destruct (ja_value j) as [?|[|]]; simpl in T; congruence.
    + intros [j' [E V]]. injection E as <-. rewrite V. reflexivity.
  - split; [discriminate|]. intros [j [E _]]. discriminate E.
Qed.

(** ** the URL test *)
Lemma lexes_spec t : lexes_as_uri t = true <-> url_text t.
Proof.
  unfold lexes_as_uri, url_text. rewrite existsb_exists. split.
  - intros [p [I S]]. apply starts_with_spec in S as [r ->]. cbn [In] in I.
    destruct I as [<-|[<-|[<-|[<-|[<-|[<-|[]]]]]]].
    + exists ($"http"), r. left. split; [cbn [In]; tauto|reflexivity].
    + exists ($"https"), r. left. split; [cbn [In]; tauto|reflexivity].
    + exists ($"ftp"), r. left. split; [cbn [In]; tauto|reflexivity].
    + exists ($"mailto"), r. left. split; [cbn [In]; tauto|reflexivity].
    + exists ($"irc"), r. left. split; [cbn [In]; tauto|reflexivity].
    + exists [], r. right. reflexivity.
  - intros [sc [r [[I ->]| ->]]].
    + cbn [In] in I. destruct I as [<-|[<-|[<-|[<-|[<-|[]]]]]];
        (eexists; split; [|apply starts_with_spec; exists r; rewrite app_assoc; reflexivity]); cbn; tauto.
    + exists ($"file:///"). split; [cbn; tauto|apply starts_with_spec; exists r; reflexivity].
Qed.

Lemma split_first c t : exists h r, split_byte c t = h :: r /\ ~ In c h /\
  ((t = h /\ r = []) \/ exists r', t = h ++ c :: r').
Proof.
  destruct (split_byte_parts c t) as [F E]. destruct (split_byte c t) as [|h r] eqn:S.
  - exfalso. exact (split_byte_nonnil _ _ S).
  - inversion F as [|? ? F1 F2]. exists h, r. split; [reflexivity|]. split; [exact F1|].
    destruct r as [|q r]; [left; split; [exact (eq_sym E)|reflexivity]|right]. eexists. exact (eq_sym E).
Qed.

(** a path that starts with a scheme component was written with a scheme segment *)
Lemma is_uri_segment t : PathModel.is_uri (PathModel.new t) = true -> scheme_segment t.
Proof.
  unfold PathModel.is_uri, PathModel.new, PathModel.from_optional_sep.
  destruct (PathModel.drive_prefix t) as [d|]; [cbn; discriminate|]. cbn [PathModel.components app].
  set (sep := PathModel.infer t).
  assert (SEP : sep = "/"%char \/ sep = "\"%char) by (unfold sep, PathModel.infer; destruct (contains_byte _ t); auto).
  clearbody sep.
  unfold PathModel.body. destruct t as [|c t].
  - cbn. discriminate.
  - destruct (Ascii.eqb_spec c sep) as [->|N]; [cbn; discriminate|].
    destruct (split_first sep (c :: t)) as [h [r [-> [NI E]]]]. cbn [flat_map].
    assert (HN : h <> []).
    { intro; subst h. destruct E as [[E _]|[r' E]]; [discriminate|]. cbn in E. congruence. }
    unfold PathModel.segment.
    destruct (bytes_eqb h []) eqn:E0; [apply bytes_eqb_eq in E0; congruence|].
    destruct (bytes_eqb h ($".")); [cbn; discriminate|].
    destruct (bytes_eqb h ($"..")); [cbn; discriminate|].
    destruct (bytes_eqb h ($"https:")) eqn:E1.
    { intros _. apply bytes_eqb_eq in E1. subst h. exists ($"https:"). split; [cbn; tauto|].
      destruct E as [[E _]|[r' E]]; [left; exact E|]. right. destruct SEP as [Q|Q]; rewrite Q in E; [left|right]; exists r'; exact E. }
    destruct (bytes_eqb h ($"http:")) eqn:E2; [|cbn; discriminate].
    intros _. apply bytes_eqb_eq in E2. subst h. exists ($"http:"). split; [cbn; tauto|].
    destruct E as [[E _]|[r' E]]; [left; exact E|]. right. destruct SEP as [Q|Q]; rewrite Q in E; [left|right]; exists r'; exact E.
Qed.

Lemma is_uri_join p q : PathModel.is_uri (PathModel.join p q) = true ->
  PathModel.is_uri q = true \/ PathModel.is_uri p = true.
Proof.
  unfold PathModel.join, PathModel.push, PathModel.is_absolute. unfold PathModel.is_uri at 1. cbn [PathModel.components].
  destruct (PathModel.is_uri q) eqn:U; [auto|]. cbn [orb].
  destruct (PathModel.components q) as [|c l] eqn:C; [cbn|].
  - rewrite app_nil_r. intro H. right. exact H.
  - unfold PathModel.is_uri in U |- *. rewrite C in U. destruct (PathModel.components p) as [|c' l'].
    + intro H. exfalso. revert H U. destruct c; try discriminate;
      match goal with |- context[if ?x then [] else []] => destruct x end; cbn; congruence.
    + match goal with |- context[if ?x then [] else _] => destruct x end; cbn; [|tauto]. destruct c; congruence.
Qed.

(** ** include directives *)
Lemma prepare_uri t src pr base u :
  prepare t (lexes_as_uri t) src pr base = Ret (Ok (Uri u)) ->
  (url_text t /\ u = t) \/ scheme_segment t \/
  (exists p, src = SrcPath p /\ PathModel.is_uri (PathModel.new (PathModel.dirname p)) = true).
Proof.
  unfold prepare. destruct (lexes_as_uri t) eqn:L.
  { intro H. injection H as ->. left. split; [apply lexes_spec, L|reflexivity]. }
  destruct (pr && PathModel.is_relative (PathModel.new t)); [destruct base; discriminate|].
  destruct src as [p| |]; try discriminate. unfold target_of_path.
  destruct (PathModel.is_relative (PathModel.new t)) eqn:R.
  - destruct (PathModel.is_uri (PathModel.join _ _)) eqn:U; [|discriminate]. intros _. right.
    apply is_uri_join in U as [U|U]; [left; apply is_uri_segment, U|right; exists p; auto].
  - destruct (PathModel.is_uri (PathModel.new t)) eqn:U; [|discriminate]. intros _. right. left. apply is_uri_segment, U.
Qed.

Lemma include_secure dbg resolve norm e d :
  m_safe (e_meta e) = Secure ->
  process_include dbg resolve norm e d = Ret {| calls := []; act := Link; reported := false |}.
Proof. intro S. unfold process_include. rewrite S. reflexivity. Qed.

Lemma include_url_denied dbg resolve norm e d :
  m_safe (e_meta e) <> Secure -> url_text (d_target d) -> get_is_true (e_meta e) "allow-uri-read" = false ->
  process_include dbg resolve norm e d = Ret {| calls := []; act := Link; reported := true |}.
Proof.
  intros S U A. apply lexes_spec in U. unfold process_include. rewrite U, A.
  destruct (m_safe (e_meta e)); try contradiction; reflexivity.
Qed.

Lemma include_calls dbg resolve norm e d eff :
  process_include dbg resolve norm e d = Ret eff ->
  calls eff = [] \/
  exists t base, e_resolver e = Some base /\ calls eff = [(t, m_safe (e_meta e))] /\ m_safe (e_meta e) <> Secure /\
    prepare (d_target d) (lexes_as_uri (d_target d)) (e_src e) (e_idx e =? 0)%N (option_map PathModel.new base) = Ret (Ok t) /\
    (lexes_as_uri (d_target d) = true -> get_is_true (e_meta e) "allow-uri-read" = true) /\
    exceeded_max_include_depth dbg (e_idx e) (e_limits e) (e_max e) = Ret None /\
    (forall c, act eff = Splice c -> exists raw, resolve t (m_safe (e_meta e)) = Ok raw /\ norm raw = Some c).
Proof.
  unfold process_include.
  destruct (match m_safe (e_meta e) with Secure => true | _ => false end) eqn:S.
  { intro H. injection H as <-. left. reflexivity. }
  cbn [orb].
  destruct (lexes_as_uri (d_target d) && negb (get_is_true (e_meta e) "allow-uri-read")) eqn:U.
  { intro H. injection H as <-. left. reflexivity. }
  destruct (exceeded_max_include_depth dbg (e_idx e) (e_limits e) (e_max e)) as [[x|]|] eqn:X; try discriminate.
  { intro H. injection H as <-. left. reflexivity. }
  destruct (e_resolver e) as [base|]; [|intro H; injection H as <-; left; reflexivity].
  destruct (prepare _ _ _ _ _) as [[t|er]|] eqn:P; try discriminate.
  2:{ intro H. injection H as <-. left. reflexivity. }
  intro H. right. exists t, base. split; [reflexivity|].
  assert (Q : calls eff = [(t, m_safe (e_meta e))] /\
     (forall c, act eff = Splice c -> exists raw, resolve t (m_safe (e_meta e)) = Ok raw /\ norm raw = Some c)).
  { destruct (resolve t (m_safe (e_meta e))) as [raw|er] eqn:R.
    - destruct (norm raw) as [c|] eqn:N; injection H as <-; (split; [reflexivity|]); cbn; intros c' E; [|discriminate].
      injection E as <-. exists raw. auto.
    - destruct er; try (injection H as <-; split; [reflexivity|cbn; discriminate]).
      destruct (d_optional d); injection H as <-; (split; [reflexivity|cbn; discriminate]). }
  destruct Q as [Q1 Q2]. split; [exact Q1|]. split; [destruct (m_safe (e_meta e)); congruence|].
  split; [exact P|]. split.
  - intro L. rewrite L in U. cbn in U. apply negb_false_iff in U. exact U.
  - split; [reflexivity|exact Q2].
Qed.

(** ** the link that replaces a denied include *)
Lemma replace_none pat rep s : ~ occurs pat s -> pat <> [] -> replace_all pat rep 0 s = s.
Proof.
  intros N P. induction s as [|c s IH]; [reflexivity|]. cbn [replace_all].
  destruct (starts_with pat (c :: s)) eqn:E.
  - apply starts_with_spec in E as [r E]. exfalso. apply N. exists [], r. exact E.
  - f_equal. apply IH. intros [x [y E2]]. apply N. exists (c :: x), y. rewrite E2. reflexivity.
Qed.
Lemma replace_skip pat rep n s : replace_all pat rep n s = replace_all pat rep 0 (skipn n s).
Proof.
  revert n; induction s as [|c s IH]; intros [|n]; try reflexivity.
  cbn [replace_all skipn]. apply IH.
Qed.
Lemma replace_head pat rep r : pat <> [] ->
  replace_all pat rep 0 (pat ++ r) = rep ++ replace_all pat rep 0 r.
Proof.
  destruct pat as [|c p]; [congruence|]. intros _. cbn [app replace_all].
  replace (starts_with (c :: p) (c :: p ++ r)) with true
    by (symmetry; apply starts_with_spec; exists r; reflexivity).
  f_equal. rewrite replace_skip. cbn [length].
  replace (S (length p) - 1) with (length p) by lia.
  rewrite skipn_app, skipn_all, Nat.sub_diag. reflexivity.
Qed.
Lemma no_bracket_id f (s : bytes) : ~ In "["%char s ->
  flat_map (fun c => if Ascii.eqb c "["%char then f else [c]) s = s.
Proof.
  induction s as [|c s IH]; intro N; [reflexivity|]. cbn [flat_map].
  destruct (Ascii.eqb_spec c "["%char) as [->|_]; [exfalso; apply N; left; reflexivity|].
  rewrite IH by (intro I; apply N; right; exact I). reflexivity.
Qed.
Lemma link_line_text t a sp :
  ~ In "["%char t -> ~ In "["%char a -> ~ occurs ($"include::") (t ++ $"[" ++ a ++ $"]") ->
  link_line ($"include::" ++ t ++ $"[" ++ a ++ $"]") sp =
  $"link:" ++ (if sp then $"pass:c[" ++ t ++ $"]" else t) ++ $"[role=include," ++ a ++ $"]".
Proof.
  intros T A O. unfold link_line.
  rewrite replace_head by discriminate. rewrite (replace_none _ _ _ O) by discriminate.
  change (firstn 5 ($"link:" ++ t ++ $"[" ++ a ++ $"]")) with ($"link:").
  change (skipn 5 ($"link:" ++ t ++ $"[" ++ a ++ $"]")) with (t ++ $"[" ++ a ++ $"]").
  rewrite !flat_map_app, (no_bracket_id _ t T), (no_bracket_id _ a A).
  destruct sp; cbn -[app]; rewrite <- ?app_assoc; reflexivity.
Qed.

(** ** the command line resolver *)
Lemma comps_prefix_spec x y : comps_prefix x y = true <-> under x y.
Proof.
  unfold under. revert y; induction x as [|a x IH]; intros y; cbn.
  - split; [intros _; exists y; reflexivity|reflexivity].
  - destruct y as [|c y]; [split; [discriminate|intros [r E]; discriminate]|].
    rewrite andb_true_iff, bytes_eqb_eq, IH. split.
    + intros [-> [r ->]]. exists r. reflexivity.
    + intros [r E]. injection E as -> ->. split; [reflexivity|exists r; reflexivity].
Qed.
Lemma list_eqb_eq x y : list_eqb x y = true <-> x = y.
Proof.
  revert y; induction x as [|a x IH]; intros [|c y]; cbn; split; intro H; try discriminate; auto.
  - apply andb_prop in H as [H1 H2]. apply bytes_eqb_eq in H1. apply IH in H2. congruence.
  - injection H as -> ->. rewrite bytes_eqb_refl. apply IH. reflexivity.
Qed.

Lemma cli_under base strict fs0 fs1 p mode files r :
  cli_resolve_filepath base strict fs0 fs1 p mode = (files, r) ->
  (files = [] /\ exists e, r = Err e) \/
  (exists pc rc c, files = [rc] /\ r = Ok c /\ canon fs0 p = Some pc /\ canon fs1 p = Some rc /\ stored fs1 rc = Some c /\
     (mode <> Unsafe -> exists d dc, base = Some d /\ canon fs0 d = Some dc /\ under dc pc) /\
     (strict = true -> std_components p = (true, pc))).
Proof.
  unfold cli_resolve_filepath.
  destruct (canon fs0 p) as [pc|]; [|intro H; injection H as <- <-; left; split; [reflexivity|eauto]].
  cbn zeta.
  set (denied := match mode with Unsafe => None | _ => _ end).
  assert (D : denied = None -> mode <> Unsafe -> exists d dc, base = Some d /\ canon fs0 d = Some dc /\ under dc pc).
  { unfold denied. destruct mode; try congruence; destruct base as [d|]; try discriminate;
      destruct (canon fs0 d) as [dc|] eqn:E; try discriminate; destruct (comps_prefix dc pc) eqn:CP; try discriminate;
      intros _ _; exists d, dc; (split; [reflexivity|split; [exact E|apply comps_prefix_spec, CP]]). }
  destruct denied as [e|]; [intro H; injection H as <- <-; left; split; [reflexivity|eauto]|].
  destruct (std_components p) as [rooted parts].
  destruct (strict && negb (rooted && list_eqb parts pc)) eqn:ST.
  { intro H. left. destruct (std_file_name parts) as [a|], (std_file_name pc) as [c|];
      try (injection H as <- <-; split; [reflexivity|eauto]).
    destruct (negb (bytes_eqb a c)); injection H as <- <-; (split; [reflexivity|eauto]). }
  destruct (canon fs1 p) as [rc|]; [|intro H; injection H as <- <-; left; split; [reflexivity|eauto]].
  destruct (stored fs1 rc) as [c|] eqn:C; intro H; injection H as <- <-; [|left; split; [reflexivity|eauto]].
  right. exists pc, rc, c. repeat split; auto.
  intros ->. cbn in ST. apply negb_false_iff in ST. apply andb_prop in ST as [-> E]. apply list_eqb_eq in E. congruence.
Qed.
