(** C44: docinfo files are never read in secure mode, and otherwise exactly the files requested by the docinfo attribute are asked for. *)
From Verif Require Import Base Text AttrsModel IncludeModel NormModel AttrRefsModel AttrRefsSpec LexerModel DocinfoModel DocinfoSpec DocinfoProofs.
From Verif Require PathModel PathProofs.

(** Secure mode: nothing is asked for and the document has no docinfo. *)
Theorem C44_secure m lossy resolver content : m_safe m = Secure ->
  fst (resolve_docinfo m lossy resolver content) = [] /\ snd (resolve_docinfo m lossy resolver content) = no_docinfo.
Proof. intros E. unfold resolve_docinfo. rewrite E. auto. Qed.
Print Assumptions C44_secure.

(** In the other modes: exactly the files [files] tells, once each, head before header before footer, with the safe mode of the job. *)
Theorem C44_files_asked m lossy base content : m_safe m <> Secure ->
  exists fh fd ff, files m Head fh /\ files m Header fd /\ files m Footer ff /\
    fst (resolve_docinfo m lossy (Some base) content) = map (fun f => (docinfo_target m base f, m_safe m)) (fh ++ fd ++ ff).
Proof.
  intros NS. exists (asked m Head), (asked m Header), (asked m Footer). repeat (split; [now apply files_spec|]).
  apply (resolve_spec m lossy base content NS).
Qed.
Print Assumptions C44_files_asked.
Theorem C44_files_unique m p fs fs' : files m p fs -> files m p fs' -> fs = fs'.
Proof. intros H H'. apply files_spec in H, H'. congruence. Qed.
Print Assumptions C44_files_unique.

(** Where a file with a relative name is looked for. *)
Theorem C44_directory m base file dir :
  PathModel.is_absolute (PathModel.new file) = false -> directory m base dir ->
  exists p, docinfo_target m base file = target_of_path p /\
    PathModel.components p = match dir with Some d => PathModel.components d | None => [] end ++ PathModel.components (PathModel.new file).
Proof.
  intros R D. unfold directory in D. unfold docinfo_target. cbv zeta.
  assert (J : forall q, PathModel.components (PathModel.join q (PathModel.new file)) = PathModel.components q ++ PathModel.components (PathModel.new file))
    by (intros q; apply PathProofs.join_relative; exact R).
  destruct (get_str m "docinfodir") as [i|], base as [d|].
  - destruct D as [D1 D2]. destruct (PathModel.is_absolute (PathModel.new i)); [rewrite D1 by reflexivity|rewrite D2 by reflexivity]; eexists; (split; [reflexivity|apply J]).
  - subst dir. destruct (PathModel.is_absolute (PathModel.new i)); eexists; (split; [reflexivity|apply J]).
  - subst dir. eexists; (split; [reflexivity|apply J]).
  - subst dir. eexists; (split; [reflexivity|reflexivity]).
Qed.
Print Assumptions C44_directory.

(** What comes of the files: the ones that can be read and decoded, line by line. *)
Theorem C44_content m lossy base content : m_safe m <> Secure ->
  let readable := fun f text => exists raw s, content (docinfo_target m base f) = Some raw /\ normalize_encoding None raw = Ok s /\ text = lossy s in
  let d := snd (resolve_docinfo m lossy (Some base) content) in
  (forall fs, files m Head fs -> fragment m readable fs (head d)) /\
  (forall fs, files m Header fs -> fragment m readable fs (header d)) /\
  (forall fs, files m Footer fs -> fragment m readable fs (footer d)).
Proof.
  intros NS. destruct (resolve_spec m lossy base content NS) as (_ & H1 & H2 & H3).
  repeat split; intros fs F; apply files_spec in F as ->; assumption.
Qed.
Print Assumptions C44_content.
Theorem C44_text_unique m text its its' : text_result m text its -> text_result m text its' -> its = its'.
Proof. intros H H'. apply text_spec in H, H'. congruence. Qed.
Print Assumptions C44_text_unique.

(** Without a resolver nothing is asked for. *)
Theorem C44_no_resolver m lossy content : resolve_docinfo m lossy None content = ([], no_docinfo).
Proof. unfold resolve_docinfo. destruct (m_safe m); destruct (docinfo_attributes m); reflexivity. Qed.
Print Assumptions C44_no_resolver.

Definition ex_meta (attrs : list (string * attr_value)) : meta := with_header (meta_new Safe []) attrs.
Definition ex1 : meta := ex_meta [("docinfo", AStr " shared , private-footer"); ("docname", AStr "doc"); ("docinfodir", AStr "inc"); ("docinfosubs", AStr "replacements, attributes"); ("who", AStr "Ann")]%string.
Definition store (l : list (bytes * bytes)) (t : target) : option bytes :=
  match t with FilePath p => match find (fun e => bytes_eqb (fst e) p) l with Some e => Some (snd e) | None => None end | Uri _ => None end.
Example C44_ex_modes : m_safe ex1 <> Secure.
Proof. discriminate. Qed.
Example C44_ex_calls : fst (resolve_docinfo ex1 (fun s => s) (Some (Some ($"/base"))) (store [])) =
  [(FilePath ($"/base/inc/docinfo.html"), Safe); (FilePath ($"/base/inc/docinfo-header.html"), Safe);
   (FilePath ($"/base/inc/docinfo-footer.html"), Safe); (FilePath ($"/base/inc/doc-docinfo-footer.html"), Safe)].
Proof. vm_compute. reflexivity. Qed.
Example C44_ex_content : footer (snd (resolve_docinfo ex1 (fun s => s) (Some (Some ($"/base")))
  (store [($"/base/inc/docinfo-footer.html", $"<p>{who} (C)"); ($"/base/inc/doc-docinfo-footer.html", $"{nope}---</p>")]))) =
  Some [DText ($"<p>Ann "); DSym Copyright; DText [LF]; DText ($"{nope}"); DSym TripleDash; DText ($"</p>")].
Proof. vm_compute. reflexivity. Qed.

(** Refuted: that a file becomes its text. The line ends are lost, so that a line comment, for one, swallows the rest of a script. *)
Theorem C44_line_ends_lost_refuted : exists m,
  m_safe m = Safe /\ head (snd (resolve_docinfo m (fun s => s) (Some (Some ($"/b"))) (fun _ => Some ($"<script>" ++ [LF] ++ $"// start" ++ [LF] ++ $"go()" ++ [LF] ++ $"</script>")))) =
  Some [DText ($"<script>"); DText ($"// start"); DText ($"go()"); DText ($"</script>")].
Proof. exists (ex_meta [("docinfo", AStr "shared")]%string). split; [reflexivity|vm_compute; reflexivity]. Qed.
Print Assumptions C44_line_ends_lost_refuted.

(** Refuted: that unsetting docinfo2 asks for nothing: an attribute that is unset has a value, false, and counts. *)
Theorem C44_unset_asks_refuted : exists m,
  get m "docinfo2" = Some (ABool false) /\ get m "docinfo" = None /\ get m "docinfo1" = None /\
  fst (resolve_docinfo m (fun s => s) (Some (Some ($"/b"))) (fun _ => None)) <> [].
Proof. exists (ex_meta [("docinfo2", ABool false)]%string). repeat split; try reflexivity. vm_compute. discriminate. Qed.
Print Assumptions C44_unset_asks_refuted.

(** Refuted: that a URL is only asked for if the job allows it. docinfodir may be a URL whatever allow-uri-read says. *)
Theorem C44_url_needs_permission_refuted : exists m,
  m_safe m = Safe /\ get m "allow-uri-read" = None /\
  fst (resolve_docinfo m (fun s => s) (Some (Some ($"/b"))) (fun _ => None)) =
  [(Uri ($"https://evil.example/docinfo.html"), Safe); (Uri ($"https://evil.example/docinfo-header.html"), Safe); (Uri ($"https://evil.example/docinfo-footer.html"), Safe)].
Proof. exists (ex_meta [("docinfo", AStr "shared"); ("docinfodir", AStr "https://evil.example")]%string). repeat split; vm_compute; reflexivity. Qed.
Print Assumptions C44_url_needs_permission_refuted.

(** Refuted: that a file asked for is a docinfo file. The suffix is a document attribute and may lead anywhere. *)
Theorem C44_suffix_leads_away_refuted : exists m,
  m_safe m = Safe /\ fst (resolve_docinfo m (fun s => s) (Some (Some ($"/b"))) (fun _ => None)) =
  [(FilePath ($"/b/docinfo/../secret.txt"), Safe); (FilePath ($"/b/docinfo-header/../secret.txt"), Safe); (FilePath ($"/b/docinfo-footer/../secret.txt"), Safe)].
Proof. exists (ex_meta [("docinfo", AStr "shared"); ("outfilesuffix", AStr "/../secret.txt")]%string). repeat split; vm_compute; reflexivity. Qed.
Print Assumptions C44_suffix_leads_away_refuted.
