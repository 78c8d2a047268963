(** C65: cross references without a target are reported, and links lead to what was found. *)
From Verif Require Import Base PathModel EvalModel XrefModel XrefSpec XrefProofs.
From Coq Require Import Permutation.
Open Scope list_scope.

(** ** Ids of the same document *)
(** In whatever order the hash map gives the references: an id is reported exactly if the last reference to it is in a file that has no anchor of this id; it is reported at that reference, and once. *)
Theorem C65_reported sources anchors l rep id at_ : reports sources anchors l rep -> id <> [] -> ~ In "#"%char id -> has_adoc_ext id = false -> id <> $"__self__" ->
  (In (id, at_) rep <-> exists r, last_reference l r id /\ at_ = id_loc r id /\ ~ anchored anchors id (l_file (r_loc r))).
Proof. intros R A B C E. apply (reported_iff sources anchors l rep id at_ R). now repeat split. Qed.
Print Assumptions C65_reported.
Theorem C65_reported_once sources anchors l rep : reports sources anchors l rep -> NoDup (map fst rep).
Proof.
  intros (entries & P & ->). unfold diagnose_invalid_xrefs. pose proof (Permutation_NoDup (Permutation_map fst (Permutation_sym P)) (collect_keys l)) as N. clear P.
  induction entries as [|e es IH]; [constructor|]. cbn [map] in N. apply NoDup_cons_iff in N. destruct N as [N1 N2]. cbn [filter]. destruct (invalid sources anchors e); [|now apply IH].
  cbn [map]. constructor; [|now apply IH]. intros H. apply N1. apply in_map_iff in H. destruct H as (x & E & I). apply filter_In in I. apply in_map_iff. now exists x.
Qed.
Print Assumptions C65_reported_once.
(** Hence no silent dead links: if an id is not reported, all references to it are in one file, and they are no macros with a dot in the id, then their links lead to this id, and the file has an anchor of it. *)
Theorem C65_links_lead_somewhere sources anchors l rep m r id kind file : reports sources anchors l rep -> In r l -> refers r id -> from_one_file l id file ->
  kind = Shorthand \/ ~ In "."%char (basename (r_target r)) -> ~ In id (map fst rep) -> in_this_document (href m (r_target r) kind true) id /\ anchored anchors id file.
Proof.
  intros R I Re O K N. split; [exact (href_plain m (r_target r) id kind Re K)|]. pose proof Re as Re'. destruct Re' as [_ P]. assert (Pl : plain id) by exact P.
  destruct (last_exists l r id I) as (v & C & r' & I' & K'); [now apply refers_key|]. destruct (invalid sources anchors (id, v)) eqn:V.
  { destruct N. apply in_map_iff. exists (id, v). split; [reflexivity|]. apply (in_reports sources anchors l rep _ R). now split. }
  apply not_true_iff_false in V. rewrite (invalid_plain sources anchors id v Pl) in V. assert (Re' : refers r' id) by (apply refers_key; [exact Pl|]; now rewrite K').
  destruct (refers_loc r' id Re') as [L1 L2]. rewrite K' in L1. cbn [snd] in L1. rewrite <- (O r' I' Re'), <- L2, <- L1. unfold anchored in *.
  destruct (find_key id anchors) as [a|]; [|exfalso; apply V; now intros (x & E & _)]. exists a. split; [reflexivity|]. destruct (Nat.eq_dec (a_file a) (l_file v)) as [E|E]; [exact E|]. exfalso. apply V. intros (x & Ex & F). injection Ex as <-. contradiction.
Qed.
Print Assumptions C65_links_lead_somewhere.
Definition at0 (n : nat) : loc := Loc n (n + 3) 0.
Definition here (n : nat) : place := Place (Some (at0 n)) 0 false.
Definition sample_refs : list ref := [Ref ($"one") (at0 0); Ref ($"#two") (at0 10); Ref ($"one") (at0 20); Ref ($"two") (at0 30); Ref ($"#") (at0 40)].
Definition html : settings := Settings (Some ($"main.adoc")) None None (Some ($".html")) [$"sub/b.adoc"].
Example C65_sample_ids : reports [Stdin] [($"two", here 5)] sample_refs [($"one", at0 20)] /\ refers (Ref ($"#two") (at0 10)) ($"two") /\ from_one_file sample_refs ($"two") 0 /\ ~ In ($"two") (map fst [($"one", at0 20)]) /\
  href html ($"#two") Macro true = $"#two".
Proof.
  split; [exists (rev (collect sample_refs)); split; [apply Permutation_sym, Permutation_rev|vm_compute; reflexivity]|]. split; [|split; [|split; [|reflexivity]]].
  - split; [now right|]. vm_compute. repeat split; try discriminate. intuition discriminate.
  - intros r I _. cbn [sample_refs In] in I. now repeat (destruct I as [<-|I]; [reflexivity|]).
  - vm_compute. intuition discriminate.
Qed.

(** ** Ids in other files *)
(** A reference of the form file#id is reported exactly if no source is named by the path, or the first that is has no anchor of this id. *)
Theorem C65_file_reported sources anchors l rep r path id : reports sources anchors l rep -> In r l -> names_id_in_file (r_target r) path id ->
  (In (r_target r) (map fst rep) <-> ~ exists i, first_named path sources i /\ anchored anchors id i).
Proof.
  intros R I H. pose proof (file_no_hash _ _ _ H) as NH. assert (K : fst (key_of r) = r_target r) by (destruct r as [t lo]; now rewrite key_plain by exact NH).
  destruct (last_exists l r (r_target r) I K) as (v & C & _). split.
  - intros J. apply in_map_iff in J. destruct J as ([t w] & E & J). cbn [fst] in E. subst t. apply (in_reports sources anchors l rep _ R) in J. destruct J as [_ J]. intros X. apply (invalid_file sources anchors _ path id w H) in X. congruence.
  - intros X. apply in_map_iff. exists (r_target r, v). split; [reflexivity|]. apply (in_reports sources anchors l rep _ R). split; [exact C|].
    destruct (invalid sources anchors (r_target r, v)) eqn:V; [reflexivity|]. exfalso. apply X. now apply (invalid_file sources anchors _ path id v H) in V.
Qed.
Print Assumptions C65_file_reported.
(** If the path is written as in the include directive, the link leads to the id in this document; otherwise to the output of that file. *)
Theorem C65_file_links sources anchors l rep m r path id kind : reports sources anchors l rep -> In r l -> names_id_in_file (r_target r) path id -> id <> [] -> has_adoc_ext path = true ->
  ~ In (r_target r) (map fst rep) ->
  (exists i, first_named path sources i /\ anchored anchors id i) /\
  (In path (included m) \/ docfilename m = Some path -> in_this_document (href m (r_target r) kind true) id) /\
  (~ In path (included m) -> docfilename m <> Some path ->
   exists prefix stem suffix, prefix_of m prefix /\ adoc_path path stem /\ suffix_of m suffix /\ href m (r_target r) kind true = prefix ++ stem ++ suffix ++ "#"%char :: id).
Proof.
  intros R I H Id A N. split; [|].
  - pose proof (proj2 (C65_file_reported sources anchors l rep r path id R I H)) as X. destruct (source_idx_of 0 sources path) as [i|] eqn:S.
    + assert (F : first_named path sources i) by (apply source_idx_iff in S; destruct S as (j & -> & J); exact J). destruct (find_key id anchors) as [a|] eqn:K.
      * destruct (Nat.eq_dec (a_file a) i) as [E|E]; [exists i; split; [exact F|]; now exists a|]. exfalso. apply N, X. intros (j & J & x & Ex & Fx). rewrite K in Ex. injection Ex as <-.
        assert (Q : j = i) by (assert (W : source_idx_of 0 sources path = Some j) by (apply source_idx_iff; now exists j); congruence). congruence.
      * exfalso. apply N, X. intros (j & _ & x & Ex & _). congruence.
    + exfalso. apply N, X. intros (j & J & _). assert (W : source_idx_of 0 sources path = Some j) by (apply source_idx_iff; now exists j). congruence.
  - rewrite (href_file m (r_target r) path id kind H Id). rewrite A, orb_true_r. cbn [orb]. unfold path_was_included. rewrite A. split.
    + intros Q. assert (X : opt_eqb (Some path) (docfilename m) || existsb (bytes_eqb path) (included m) = true).
      { destruct Q as [Q|Q]; [|rewrite Q; cbn; now rewrite bytes_eqb_refl]. apply orb_true_iff. right. apply existsb_exists. exists path. split; [exact Q|apply bytes_eqb_refl]. }
      now rewrite X.
    + intros Q1 Q2. assert (X : opt_eqb (Some path) (docfilename m) || existsb (bytes_eqb path) (included m) = false).
      { apply orb_false_iff. split; [apply not_true_iff_false; intros E; apply opt_eqb_eq in E; congruence|]. apply not_true_iff_false. intros E. apply existsb_exists in E. destruct E as (y & Y & E).
        apply bytes_eqb_eq in E. now subst y. }
      rewrite X. exists (match relfileprefix m with Some p => p | None => [] end), (remove_ext path), (interdoc_suffix m). split; [unfold prefix_of; destruct (relfileprefix m); auto|].
      split; [now apply adoc_path_of|]. split; [apply suffix_of_model|reflexivity].
Qed.
Print Assumptions C65_file_links.
Definition two_files : list source := [FileSource ($"main.adoc") ($"/d/main.adoc"); FileSource ($"b.adoc") ($"/d/sub/b.adoc")].
Example C65_sample_files : let l := [Ref ($"sub/b.adoc#x") (at0 0); Ref ($"sub/b.adoc#y") (at0 9)] in
  reports two_files [($"x", Place None 1 false)] l [($"sub/b.adoc#y", at0 9)] /\ names_id_in_file ($"sub/b.adoc#x") ($"sub/b.adoc") ($"x") /\ has_adoc_ext ($"sub/b.adoc") = true /\ In ($"sub/b.adoc") (included html).
Proof. split; [eexists; split; [apply Permutation_refl|vm_compute; reflexivity]|]. split; [|split; [reflexivity|now left]]. vm_compute. split; [reflexivity|]. repeat split; try discriminate; intuition discriminate. Qed.

(** ** What is not true *)
(** There are dead links that are not reported: in two files that refer to the same id, only the last reference is looked at *)
Theorem C65_two_files_refuted : exists l r, In r l /\ refers r ($"x") /\ reports two_files [($"x", Place None 1 false)] l [] /\ href html (r_target r) Macro true = $"#x" /\ ~ anchored [($"x", Place None 1 false)] ($"x") (l_file (r_loc r)).
Proof.
  exists [Ref ($"x") (Loc 0 1 0); Ref ($"x") (Loc 0 1 1)], (Ref ($"x") (Loc 0 1 0)). split; [now left|]. split; [split; [now left|]; vm_compute; repeat split; try discriminate; intuition discriminate|].
  split; [eexists; split; [apply Permutation_refl|vm_compute; reflexivity]|]. split; [reflexivity|]. intros (a & E & F). vm_compute in E. injection E as <-. discriminate F.
Qed.
Print Assumptions C65_two_files_refuted.
(** an id with a dot, in a macro: it is found, and the link leads to a file of this name *)
Theorem C65_dot_refuted : let l := [Ref ($"v1.0") (at0 0)] in reports [Stdin] [($"v1.0", here 9)] l [] /\ href html ($"v1.0") Macro true = $"v1.0".
Proof. split; [eexists; split; [apply Permutation_refl|vm_compute; reflexivity]|reflexivity]. Qed.
Print Assumptions C65_dot_refuted.
(** a file in a subdirectory: it is found by its name alone, and the link leads to another file; and by the end of its name *)
Theorem C65_file_by_its_end_refuted : forall t, In t [$"b.adoc#x"; $"ain.adoc#x"; $"n#x"] ->
  exists i path, names_id_in_file t path ($"x") /\ first_named path two_files i /\ reports two_files [($"x", Place None i false)] [Ref t (at0 0)] [] /\ ~ in_this_document (href html t Macro true) ($"x").
Proof.
  assert (F : forall path i, source_idx_of 0 two_files path = Some i -> first_named path two_files i) by (intros path i E; apply source_idx_iff in E; destruct E as (j & -> & J); exact J).
  intros t [<-|[<-|[<-|[]]]]; [exists 1, ($"b.adoc")|exists 0, ($"ain.adoc")|exists 0, ($"n")];
    (split; [vm_compute; repeat split; (now left) || (now right) || discriminate || intuition discriminate|]; split; [apply F; reflexivity|]; split; [eexists; split; [apply Permutation_refl|vm_compute; reflexivity]|discriminate]).
Qed.
Print Assumptions C65_file_by_its_end_refuted.
(** the name of the document itself, in the short form: nothing is reported, and the link leads to an id of this name; so does the id that stands for the document in the code *)
Theorem C65_itself_refuted : forall t, In t [$"main.adoc"; $"__self__"] -> reports two_files [] [Ref t (at0 0)] [] /\ href html t Shorthand true = "#"%char :: t.
Proof. intros t [<-|[<-|[]]]; (split; [eexists; split; [apply Permutation_refl|vm_compute; reflexivity]|reflexivity]). Qed.
Print Assumptions C65_itself_refuted.
(** Links to other documents are reported though they need no anchor here, and go where they should. *)
Theorem C65_other_documents_refuted : forall t h, In (t, h) [($"other.adoc", $"other.html"); ($"other.adoc#x", $"other.html#x"); ($"page.html", $"page.html"); ($"page.html#x", $"page.html#x")] ->
  reports [FileSource ($"main.adoc") ($"/d/main.adoc")] [] [Ref t (at0 0)] [(t, at0 0)] /\ href html t Macro true = h.
Proof. intros t h [E|[E|[E|[E|[]]]]]; injection E as <- <-; (split; [eexists; split; [apply Permutation_refl|vm_compute; reflexivity]|reflexivity]). Qed.
Print Assumptions C65_other_documents_refuted.

(** ** Anchors *)
(** Every id that is defined is found. *)
Theorem C65_anchors_known l d : In d l -> find_key (def_id d) (fst (anchors_of l)) <> None.
Proof. apply anchor_known. Qed.
Print Assumptions C65_anchors_known.
(** Of anchors that stand at places of their own, the first of each id counts, and the others are reported, in order. *)
Theorem C65_duplicates l : own_places l -> (forall id p, find_key id (fst (anchors_of l)) = Some p <-> first_definition l id p) /\ snd (anchors_of l) = repeated [] l.
Proof. intros O. destruct (anchors_once l O) as (A & B & _). now split. Qed.
Print Assumptions C65_duplicates.
Example C65_sample_anchors : let l := [AnchorDef ($"a") (at0 1) (here 0); AnchorDef ($"b") (at0 11) (here 10); AnchorDef ($"a") (at0 21) (Place (Some (at0 20)) 0 true)] in
  own_places l /\ repeated [] l = [DuplicateBiblio (at0 21)].
Proof. split; [|reflexivity]. split; [repeat constructor; discriminate|]. cbn. repeat constructor; cbn; intuition discriminate. Qed.
(** A section takes over an id that an anchor has, and nothing is reported; the other way round it is. *)
Theorem C65_section_replaces_anchor_refuted : let a := AnchorDef ($"a") (at0 1) (here 0) in let s := SectionDef ($"a") 0 in
  snd (anchors_of [a; s]) = [] /\ find_key ($"a") (fst (anchors_of [a; s])) = Some (Place None 0 false) /\ snd (anchors_of [s; a]) = [DuplicateAnchor (at0 1)].
Proof. now repeat split. Qed.
Print Assumptions C65_section_replaces_anchor_refuted.

(** ** The table of contents *)
(** A place that the document does not have is reported, and only that. *)
Theorem C65_contents_reported t saw c : (forall p, c <> WithParts p) ->
  (diagnose_toc t saw c <> None <-> (t = Some TocMacro /\ saw = false) \/ (t = Some TocPreamble /\ c <> WithSections true)).
Proof.
  intros N. destruct t as [[]|]; cbn; [| |now split; [|intros [[]|[]]]|now split; [|intros [[]|[]]]].
  - destruct saw; (split; [|intros [[]|[]]]); try discriminate; try congruence. intros _. now left.
  - destruct c as [|[]|p]; try (now destruct (N p)); (split; [|intros [[]|[]]]); try discriminate; try congruence; intros _; right; now split.
Qed.
Print Assumptions C65_contents_reported.
Theorem C65_contents_of_book_refuted : diagnose_toc (Some TocPreamble) false (WithParts false) = None.
Proof. reflexivity. Qed.
Print Assumptions C65_contents_of_book_refuted.

(** ** The text of a reference *)
Definition plain_texts (l : list string) : list inline := map IText l.
Lemma texts_out anchors wants fuel l s : each (eval_inline anchors wants fuel) (plain_texts l) s = Done (St (out s ++ map (Visit "inline_text" 0) l) (resolving s)).
Proof.
  revert s. induction l as [|t l IH]; intros s; [destruct s; cbn; now rewrite app_nil_r|]. cbn [plain_texts map each]. unfold then_. destruct fuel; cbn [eval_inline]; unfold visit, emit; fold (plain_texts l);
    rewrite IH; cbn [out resolving]; now rewrite <- app_assoc.
Qed.
Lemma own_text_steps anchors wants fuel target d l s biblio : resolving s = false -> match EvalModel.lookup anchors (get_id target) with Some a => reftext a = None /\ biblio = flag (is_biblio a) | None => biblio = 0 end ->
  eval_inline anchors wants fuel (IXref target d (Some l)) s =
  seq [enter "xref" [d; 1]; replace_resolving true (fun _ => seq [enter "xref_text" [biblio]; each (eval_inline anchors wants fuel) l; exit "xref_text" [biblio]]);
       replace_resolving false (fun _ => skip); exit "xref" [d; 1]] s.
Proof.
  intros R A. destruct fuel as [|f]; cbn [eval_inline seq some flag Nat.b2n]; unfold then_ at 1, enter at 1, emit at 1; cbn [out resolving];
    destruct (EvalModel.lookup anchors (get_id target)) as [a|]; [destruct A as [A ->]; rewrite A|rewrite A|destruct A as [A ->]; rewrite A|rewrite A];
    unfold then_ at 1, replace_resolving at 1; cbn [out resolving]; rewrite R; reflexivity.
Qed.
(** The text that is given in a reference is the text of the link, if the anchor has no text of its own ([reftext]) or there is no anchor. *)
Theorem C65_own_text anchors wants fuel target d l s : resolving s = false -> (forall a, EvalModel.lookup anchors (get_id target) = Some a -> reftext a = None) ->
  exists biblio, eval_inline anchors wants fuel (IXref target d (Some (plain_texts l))) s =
    Done (St (out s ++ [Enter "xref" [d; 1]; Enter "xref_text" [biblio]] ++ map (Visit "inline_text" 0) l ++ [Exit "xref_text" [biblio]; Exit "xref" [d; 1]]) false).
Proof.
  intros R A. exists (match EvalModel.lookup anchors (get_id target) with Some a => flag (is_biblio a) | None => 0 end).
  rewrite own_text_steps with (biblio := match EvalModel.lookup anchors (get_id target) with Some a => flag (is_biblio a) | None => 0 end).
  - cbn [seq]. unfold then_, enter, exit, emit, replace_resolving, skip. cbn [out resolving]. rewrite texts_out. cbn [out resolving]. rewrite <- !app_assoc. reflexivity.
  - exact R.
  - destruct (EvalModel.lookup anchors (get_id target)) as [a|] eqn:E; [|reflexivity]. split; [now apply A|reflexivity].
Qed.
Print Assumptions C65_own_text.
Example C65_sample_text : exists s, resolving s = false /\ forall a, EvalModel.lookup [("x"%string, Anchor None [IText "Title"] false)] (get_id "#x") = Some a -> reftext a = None.
Proof. exists (St [] false). split; [reflexivity|]. intros a E. vm_compute in E. now injection E as <-. Qed.
(** An anchor with a text of its own: what is written in the reference is lost. *)
Theorem C65_own_text_refuted : exists s, eval_inline [("x"%string, Anchor (Some [IText "reftext"]) [] false)] (fun _ => true) 1 (IXref "x" 0 (Some [IText "my own text"])) (St [] false) = Done s /\
  ~ In (Visit "inline_text" 0 "my own text") (out s).
Proof. eexists. split; [vm_compute; reflexivity|]. vm_compute. intuition discriminate. Qed.
Print Assumptions C65_own_text_refuted.
