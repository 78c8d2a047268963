(** C12: normalisation of included bytes. *)
From Verif Require Import Base Utf8 Unicode PathModel LexerModel NormModel NormSpec NormProofs.

(** Valid UTF-8 passes the encoding step unchanged, without its byte order mark if it has one. *)
Theorem C12_utf8_kept : forall s, utf8 s -> (forall r, s <> utf8_bom ++ r) ->
  normalize_encoding None s = Ok s /\ normalize_encoding None (utf8_bom ++ s) = Ok s.
Proof.
  intros s U N. unfold normalize_encoding. change (raw [239; 187; 191]) with utf8_bom. rewrite starts_self. split; [|reflexivity].
  destruct (starts_with utf8_bom s) eqn:E; [apply starts_with_spec in E as [r E]; destruct (N r E)|].
  assert (NF : forall n x r, s = ascii_of_nat n :: x :: r -> n <> 255 /\ n <> 254).
  { intros n x r ->. assert (X : utf8 ([] ++ ascii_of_nat n :: x :: r)) by exact U. destruct U as (cs & F & EQ). destruct cs as [|c cs]; [discriminate|]. inversion F as [|? ? UC _]. subst.
    pose proof (utf8_char_nonempty c UC) as NE. destruct c as [|a c]; [congruence|]. cbn [concat app] in EQ. injection EQ as EA _. rewrite <- EA in UC.
    split; intros ->; inversion UC; subst; repeat match goal with H : between _ _ _ = true |- _ => vm_compute in H; try discriminate H | H : (_ || _)%bool = true |- _ => vm_compute in H; discriminate H | H : val _ = _ |- _ => vm_compute in H; discriminate H end. }
  destruct (starts_with (raw [255; 254]) s) eqn:E1; [apply starts_with_spec in E1 as [r ->]; destruct (NF 255 (ascii_of_nat 254) r eq_refl); congruence|].
  destruct (starts_with (raw [254; 255]) s) eqn:E2; [apply starts_with_spec in E2 as [r ->]; destruct (NF 254 (ascii_of_nat 255) r eq_refl); congruence|].
  apply is_utf8_spec in U. rewrite U. reflexivity.
Qed.
Print Assumptions C12_utf8_kept.

(** UTF-16 with a byte order mark (either byte order), or announced by encoding=utf-16, is converted: the result is the UTF-8
    text of the very same characters, and it is refused exactly when it is not UTF-16 (an odd last byte counts as a unit with a
    zero byte added). *)
Theorem C12_utf16_converted : forall s t,
  (normalize_encoding None (le_bom ++ s) = Ok t <-> exists ns, Forall scalar ns /\ made_even s (utf16_le ns) /\ t = utf8_text ns) /\
  (normalize_encoding None (be_bom ++ s) = Ok t <-> exists ns, Forall scalar ns /\ made_even s (utf16_be ns) /\ t = utf8_text ns) /\
  (forall e, In e [$"utf-16"; $"utf16"; $"UTF-16"; $"UTF16"] ->
     (normalize_encoding (Some e) s = Ok t <-> exists ns, Forall scalar ns /\ made_even s (utf16_le ns) /\ t = utf8_text ns)).
Proof.
  intros s t. split; [exact (convert_le_spec s t)|]. split; [exact (convert_be_spec s t)|].
  intros e I. replace (normalize_encoding (Some e) s) with (convert_utf16_le s); [exact (convert_le_spec s t)|].
  cbn in I. destruct I as [<-|[<-|[<-|[<-|[]]]]]; reflexivity.
Qed.
Print Assumptions C12_utf16_converted.

(** In particular any text written in UTF-16 arrives as that text, and the result is valid UTF-8. *)
Theorem C12_utf16_round_trip : forall ns, Forall scalar ns ->
  normalize_encoding None (le_bom ++ utf16_le ns) = Ok (utf8_text ns) /\ normalize_encoding None (be_bom ++ utf16_be ns) = Ok (utf8_text ns) /\
  utf8 (utf8_text ns).
Proof.
  intros ns F. assert (E : forall l, Nat.Even (length (flat_map le_bytes l)) /\ Nat.Even (length (flat_map be_bytes l))).
  { induction l as [|u l [[k K] [j J]]]; [split; exists 0; reflexivity|]. cbn [flat_map]. rewrite !app_length. change (length (le_bytes u)) with 2. change (length (be_bytes u)) with 2. split; [exists (S k)|exists (S j)]; lia. }
  split; [|split; [|exact (utf8_text_utf8 ns F)]].
  - apply C12_utf16_converted. exists ns. split; [exact F|]. split; [left; split; [apply E|reflexivity]|reflexivity].
  - apply C12_utf16_converted. exists ns. split; [exact F|]. split; [left; split; [apply E|reflexivity]|reflexivity].
Qed.
Print Assumptions C12_utf16_round_trip.

(** Anything else is refused. *)
Theorem C12_other_bytes_refused : forall s, ~ utf8 s -> (forall r, s <> utf8_bom ++ r /\ s <> le_bom ++ r /\ s <> be_bom ++ r) ->
  normalize_encoding None s = Err ($"Invalid UTF-8").
Proof.
  intros s U N. unfold normalize_encoding.
  destruct (starts_with (raw [239; 187; 191]) s) eqn:E0; [apply starts_with_spec in E0 as [r E0]; destruct (N r) as (X & _ & _); destruct (X E0)|].
  destruct (starts_with (raw [255; 254]) s) eqn:E1; [apply starts_with_spec in E1 as [r E1]; destruct (N r) as (_ & X & _); destruct (X E1)|].
  destruct (starts_with (raw [254; 255]) s) eqn:E2; [apply starts_with_spec in E2 as [r E2]; destruct (N r) as (_ & _ & X); destruct (X E2)|].
  destruct (is_utf8 s) eqn:Q; [apply is_utf8_spec in Q; contradiction|reflexivity].
Qed.
Print Assumptions C12_other_bytes_refused.

(** Bytes after a UTF-8 byte order mark are not checked: this input is accepted although it is not UTF-8. *)
Theorem C12_bom_hides_invalid_utf8_refuted :
  normalize_encoding None (utf8_bom ++ octets [255]) = Ok (octets [255]) /\ ~ utf8 (octets [255]) /\ normalize_encoding None (octets [255]) = Err ($"Invalid UTF-8").
Proof. split; [vm_compute; reflexivity|]. split; [|vm_compute; reflexivity]. rewrite <- is_utf8_spec. vm_compute. discriminate. Qed.
Print Assumptions C12_bom_hides_invalid_utf8_refuted.

(** With encoding=utf-16 the byte order mark is not removed, and big endian text is read as little endian. *)
Theorem C12_encoding_attribute_ignores_bom_refuted :
  normalize_encoding (Some ($"utf-16")) (le_bom ++ utf16_le [97%N]) = Ok (utf8_text [65279%N; 97%N]) /\
  normalize_encoding (Some ($"utf-16")) (be_bom ++ utf16_be [97%N]) = Ok (utf8_text [65534%N; 24832%N]).
Proof. split; vm_compute; reflexivity. Qed.
Print Assumptions C12_encoding_attribute_ignores_bom_refuted.

(** In a file with an AsciiDoc extension every terminated line loses its carriage return and the blanks at its end, nothing
    else changes (the relation [cleaned_text] allows one result only); in any other file nothing changes. *)
Theorem C12_lines_cleaned : forall p ext s, extension p = Ret ext ->
  exists u, normalize_asciidoc p s = Ret u /\ (In ext asciidoc_extensions -> cleaned_text s u) /\ (~ In ext asciidoc_extensions -> u = s).
Proof.
  intros p ext s E. unfold normalize_asciidoc. rewrite E. fold asciidoc_extensions.
  assert (X : existsb (bytes_eqb ext) asciidoc_extensions = true <-> In ext asciidoc_extensions).
  { rewrite existsb_exists. split; [intros (y & I & Q); apply bytes_eqb_eq in Q; subst; exact I|]. intro I. exists ext. split; [exact I|apply bytes_eqb_refl]. }
  destruct (existsb (bytes_eqb ext) asciidoc_extensions) eqn:Q.
  - eexists. split; [reflexivity|]. split; [intros _; apply clean_cleaned|]. intro N. destruct N. apply X. reflexivity.
  - eexists. split; [reflexivity|]. split; [|reflexivity]. intro I. apply X in I. discriminate.
Qed.
Print Assumptions C12_lines_cleaned.
Theorem C12_cleaned_text_unique : forall s u u', cleaned_text s u -> cleaned_text s u' -> u = u'.
Proof. exact cleaned_text_fun. Qed.
Print Assumptions C12_cleaned_text_unique.

(** Cleaning keeps text valid. *)
Theorem C12_cleaning_keeps_utf8 : forall p s u, utf8 s -> normalize_asciidoc p s = Ret u -> utf8 u.
Proof.
  intros p s u U E. unfold normalize_asciidoc in E. destruct (extension p) as [x|]; [|discriminate]. destruct (existsb _ _); injection E as <-; [apply clean_utf8, U|exact U].
Qed.
Print Assumptions C12_cleaning_keeps_utf8.

(** Cleaning twice is cleaning once, for text in which every carriage return belongs to a line end. *)
Theorem C12_idempotent : forall p s u, no_lone_return s -> normalize_asciidoc p s = Ret u -> normalize_asciidoc p u = Ret u.
Proof.
  intros p s u R E. unfold normalize_asciidoc in *. destruct (extension p) as [x|]; [|discriminate]. destruct (existsb _ _); [|reflexivity]. injection E as <-.
  f_equal. symmetry. eapply cleaned_text_fun; [|apply clean_cleaned]. exact (cleaned_text_id _ _ (clean_cleaned s) R).
Qed.
Print Assumptions C12_idempotent.
(** Otherwise it may not be: a lone carriage return before trailing blanks becomes part of a line end and goes the second time. *)
Theorem C12_not_idempotent_refuted : exists s u v, clean [] s = u /\ clean [] u = v /\ u <> v /\ utf8 s.
Proof.
  exists ($"a" ++ [return_] ++ $" " ++ [newline]), ($"a" ++ [return_; newline]), ($"a" ++ [newline]).
  split; [vm_compute; reflexivity|]. split; [vm_compute; reflexivity|]. split; [discriminate|]. apply is_utf8_spec. vm_compute. reflexivity.
Qed.
Print Assumptions C12_not_idempotent_refuted.

(** The whole step on a valid AsciiDoc file: it succeeds, and the result is the cleaned text. *)
Theorem C12_include_normalised : forall p ext s, utf8 s -> (forall r, s <> utf8_bom ++ r) -> extension p = Ret ext -> In ext asciidoc_extensions ->
  exists u, normalize_include_bytes p None s = Ret (Ok u) /\ normalize_include_bytes p None (utf8_bom ++ s) = Ret (Ok u) /\ cleaned_text s u /\ utf8 u.
Proof.
  intros p ext s U N E I. destruct (C12_utf8_kept s U N) as [E1 E2]. destruct (C12_lines_cleaned p ext s E) as (u & EU & C & _). exists u.
  unfold normalize_include_bytes. rewrite E1, E2, EU. split; [reflexivity|]. split; [reflexivity|]. split; [exact (C I)|]. exact (C12_cleaning_keeps_utf8 _ _ _ U EU).
Qed.
Print Assumptions C12_include_normalised.

Example C12_example : normalize_include_bytes (new ($"dir/f.adoc")) None (utf8_bom ++ $"one  " ++ [return_; newline] ++ $" two  ") =
  Ret (Ok ($"one" ++ [newline] ++ $" two  ")).
Proof. vm_compute. reflexivity. Qed.
Example C12_example_utf16 : normalize_encoding None (le_bom ++ octets [60; 216; 77; 223; 33; 0]) = Ok (utf8_text [127821%N; 33%N]).
Proof. vm_compute. reflexivity. Qed.
Example C12_ex_hyps : extension (new ($"dir/f.adoc")) = Ret ($".adoc") /\ In ($".adoc") asciidoc_extensions /\ no_lone_return ($"a" ++ [return_; newline]) /\ Forall scalar [97%N; 128512%N].
Proof.
  split; [vm_compute; reflexivity|]. split; [left; reflexivity|]. split; [|repeat constructor; unfold scalar; lia].
  intros a z E. destruct a as [|c [|d [|e [|]]]]; cbn in E; try discriminate. injection E as _ <-. exists []. reflexivity.
Qed.
