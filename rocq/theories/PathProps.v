(** Property C06: path laws. *)
From Verif Require Import Base PathModel PathSpec PathProofs.

(** Parsing a forward-slash path: the root marker and one component per non-empty segment. *)
Theorem C06_parse_segments :
  forall (root : bool) segs cs s,
  segs <> [] ->
  Forall (fun p => ~ In "/"%char p /\ ~ In "\"%char p) segs ->
  s = (if root then ["/"%char] else []) ++ join_byte "/"%char segs ->
  (root = false -> hd [] segs <> [] \/ segs = [[]]) ->
  ~ has_drive s ->
  Forall2 denotes (filter (fun p => negb (bytes_eqb p [])) segs) cs ->
  new s = mkPath "/"%char ((if root then [Root] else []) ++ cs).
Proof. exact new_segments. Qed.
Print Assumptions C06_parse_segments.
Example C06_parse_example :
  new ($"https://example.com/./a") =
  mkPath "/"%char [UriScheme ($"https"); Normal ($"example.com"); CurrentDir; Normal ($"a")] /\ ~ has_drive ($"https://example.com/./a").
Proof. split; [vm_compute; reflexivity|]. apply drive_none. reflexivity. Qed.

(** Printing and parsing again changes nothing, for every path written with forward slashes. *)
Theorem C06_print_parse_stable :
  forall s, ~ In "\"%char s -> ~ has_drive s -> new (to_string (new s)) = new s.
Proof. exact roundtrip_unix. Qed.
Print Assumptions C06_print_parse_stable.
Example C06_print_parse_example :
  ~ In "\"%char ($"/a//b/../c/") /\ ~ has_drive ($"/a//b/../c/") /\ to_string (new ($"/a//b/../c/")) = $"/a/b/../c".
Proof. split; [vm_compute; intuition discriminate|]. split; [apply drive_none; reflexivity|vm_compute; reflexivity]. Qed.

(** The same for paths written with backslashes only, with or without a drive letter; the separator
    of a one-component path is not recoverable from its text, hence equality of components and text. *)
Theorem C06_print_parse_stable_backslash :
  forall s, ~ In "/"%char s -> Forall (fun c => ~ is_scheme c) (components (new s)) ->
    components (new (to_string (new s))) = components (new s) /\
    to_string (new (to_string (new s))) = to_string (new s).
Proof. exact roundtrip_windows. Qed.
Print Assumptions C06_print_parse_stable_backslash.
Example C06_backslash_example :
  ~ In "/"%char ($"c:\a\b") /\ components (new ($"c:\a\b")) = [DrivePrefix ($"c:"); Root; Normal ($"a"); Normal ($"b")].
Proof. split; [vm_compute; intuition discriminate|vm_compute; reflexivity]. Qed.

(** Findings: mixing the separators, or a scheme in a backslash path, is not stable; a drive path with
    forward slashes is neither split nor absolute. *)
Theorem C06_mixed_separators_refuted :
  to_string (new (to_string (new ($"a//b\")))) <> to_string (new ($"a//b\")) /\
  components (new (to_string (new ($"http:\x")))) <> components (new ($"http:\x")) /\
  is_absolute (new ($"c:/x/y")) = false /\ file_name (new ($"c:/x/y")) = Ret ($"/x/y").
Proof. vm_compute. repeat split; try discriminate. Qed.
Print Assumptions C06_mixed_separators_refuted.

(** Joining. *)
Theorem C06_join_absolute_replaces :
  forall p q, is_absolute q = true -> components (join p q) = components q /\ separator (join p q) = separator p.
Proof. exact join_absolute. Qed.
Print Assumptions C06_join_absolute_replaces.
Theorem C06_join_relative_extends :
  forall p q, is_absolute q = false ->
    components (join p q) = components p ++ components q /\
    is_absolute (join p q) = is_absolute p /\ is_uri (join p q) = is_uri p.
Proof. exact join_relative. Qed.
Print Assumptions C06_join_relative_extends.
Example C06_join_example :
  is_absolute (new ($"/bin")) = true /\ is_absolute (new ($"../x")) = false /\
  to_string (join (new ($"https://h/a")) (new ($"../x"))) = $"https://h/a/../x".
Proof. vm_compute. auto. Qed.

(** The file name is the last component that is not ".", when that names something. *)
Theorem C06_file_name_is_last :
  forall p c, last_real (components p) c -> file_name p = Ret (match c with Normal s => s | _ => [] end).
Proof. exact file_name_last. Qed.
Print Assumptions C06_file_name_is_last.
Theorem C06_stem_and_extension :
  forall p f, file_name p = Ret f ->
    exists st ex, file_stem p = Ret st /\ extension p = Ret ex /\ f = st ++ ex /\
      (In "."%char f -> exists t, ex = "."%char :: t /\ ~ In "."%char t) /\ (~ In "."%char f -> ex = []).
Proof. exact stem_extension. Qed.
Print Assumptions C06_stem_and_extension.
Example C06_file_name_example :
  last_real (components (new ($"tmp/foo.tar.gz/./."))) (Normal ($"foo.tar.gz")) /\
  file_stem (new ($"tmp/foo.tar.gz/./.")) = Ret ($"foo.tar").
Proof. split; [exists [Normal ($"tmp")], 2; split; [reflexivity|discriminate]|vm_compute; reflexivity]. Qed.

(** Finding: exactly the paths made of "." components only (including the empty path) make it panic. *)
Theorem C06_file_name_panics_iff :
  forall p, file_name p = Panic <-> components p = repeat CurrentDir (length (components p)).
Proof. exact file_name_panics. Qed.
Print Assumptions C06_file_name_panics_iff.
Theorem C06_file_name_total_refuted :
  file_name (new ($"")) = Panic /\ file_name (new ($".")) = Panic /\ extension (new ($"./")) = Panic.
Proof. vm_compute. auto. Qed.
Print Assumptions C06_file_name_total_refuted.

(** The directory of a forward-slash path, read back as a path, is the path without its last component. *)
Theorem C06_dirname :
  forall s, ~ In "\"%char s -> ~ has_drive s -> components (new s) <> [Root] ->
    components (new (dirname (new s))) = removelast (components (new s)).
Proof. exact dirname_unix. Qed.
Print Assumptions C06_dirname.
(** Finding: as text, the directory of a URL has lost a slash. *)
Theorem C06_dirname_of_url_text_refuted :
  dirname (new ($"https://example.com/a")) = $"https:/example.com".
Proof. vm_compute. reflexivity. Qed.
Print Assumptions C06_dirname_of_url_text_refuted.
(** Popping removes exactly the last component, except that the last remaining component stays. *)
Theorem C06_pop :
  forall p, (forall l x, components p = l ++ [x] -> l <> [] ->
               pop p = (true, {| separator := separator p; components := l |})) /\
            (length (components p) <= 1 -> pop p = (false, p)).
Proof.
  intros p. unfold pop. split.
  - intros l x E N. rewrite E, app_length, removelast_last. destruct l as [|y l]; [congruence|].
    replace (1 <? _) with true by (symmetry; apply Nat.ltb_lt; cbn; lia). reflexivity.
  - intro H. replace (1 <? length (components p)) with false by (symmetry; apply Nat.ltb_ge; lia). reflexivity.
Qed.
Print Assumptions C06_pop.
Example C06_pop_example : to_string (snd (pop (new ($"a/b/c")))) = $"a/b" /\ to_string (snd (pop (new ($"a")))) = $"a".
Proof. vm_compute. auto. Qed.
(** The directory of the root is the root. *)
Theorem C06_dirname_of_root :
  forall s, components (new s) = [Root] -> dirname (new s) = to_string (new s).
Proof. intros s E. unfold dirname. rewrite E. reflexivity. Qed.
Print Assumptions C06_dirname_of_root.
Example C06_dirname_of_root_example : components (new ($"/")) = [Root] /\ dirname (new ($"/")) = $"/".
Proof. vm_compute. auto. Qed.
