(** C63: where the lines of a document go when its header is read. *)
From Verif Require Import Base BlockModel BlockSpec BlockTermProofs BlockReadProofs BlockProps HeaderModel HeaderSpec HeaderProofs.
From Coq Require Import Lia.
Import ListNotations.
Open Scope string_scope.

(** Every line is blank, a comment, in a comment block, an attribute entry, part of the header, left for the body, or among the lines [h_lost h]. *)
Theorem C63_header P author_set revision_line sb L h s : document_header P author_set revision_line (fresh sb L) = Yes h s -> accounted P revision_line L h s.
Proof. intros H. pose proof (header_split P author_set revision_line L (fresh sb L) (remains_fresh sb L) eq_refl) as F. rewrite H in F. apply F. Qed.
Print Assumptions C63_header.
(** Reading the header ends. *)
Theorem C63_header_ends P author_set revision_line sb L : document_header P author_set revision_line (fresh sb L) <> More.
Proof. intros H. pose proof (header_split P author_set revision_line L (fresh sb L) (remains_fresh sb L) eq_refl) as F. rewrite H in F. exact F. Qed.
Print Assumptions C63_header_ends.
(** It panics only in a header: a source without one does not make it panic. *)
Theorem C63_header_panics P author_set revision_line sb L : document_header P author_set revision_line (fresh sb L) = Panics ->
  exists F k g w, L = (F ++ map toks g ++ w)%list /\ front_matter F k /\ starts_header P g.
Proof.
  intros H. unfold document_header in H. pose proof (front_split P (S (S (size (fresh sb L)))) L [] _ (remains_fresh sb L) ltac:(lia)) as X.
  destruct (front (S (S (size (fresh sb L)))) P [] (fresh sb L)) as [[b lost] s1| |]; [|destruct X..]. destruct X as (F & k & w & E & F1 & _). cbn [bind fst snd] in H.
  destruct b as [|l r]; [discriminate|]. destruct (is_doc_header P (l :: r)) eqn:D; [|discriminate]. exists F, (map toks k), (l :: r), (w ++ src s1)%list. repeat split; auto. now apply is_doc_header_iff.
Qed.
Print Assumptions C63_header_panics.
(** An article, with its header, is parsed in a number of steps that its size bounds. *)
Theorem C63_ends P author_set revision_line sb L : book P = false -> whole_document P author_set revision_line (enough_steps L) (fresh sb L) <> More.
Proof.
  intros B. unfold whole_document. pose proof (header_small P author_set revision_line L (fresh sb L) (remains_fresh sb L) eq_refl) as F. destruct (document_header P author_set revision_line (fresh sb L)) as [h s| |]; [|discriminate|destruct F].
  cbn [bind fine] in *. pose proof (SL_size L) as Z. pose proof (document_ends P B (enough_steps L) s) as D. unfold enough_steps in D at 1. specialize (D ltac:(lia)). destruct (document (enough_steps L) P s); [discriminate|discriminate|congruence].
Qed.
Print Assumptions C63_ends.
(** And it is read to its end: the header first, then what the header leaves. *)
Theorem C63_read P author_set revision_line sb L n h c s : book P = false -> whole_document P author_set revision_line n (fresh sb L) = Yes (h, c) s ->
  (all_read s \/ irregular s) /\ exists s1, accounted P revision_line L h s1 /\ document n P s1 = Yes c s.
Proof.
  intros B. unfold whole_document. pose proof (header_split P author_set revision_line L (fresh sb L) (remains_fresh sb L) eq_refl) as F. destruct (document_header P author_set revision_line (fresh sb L)) as [h1 s1| |]; [|discriminate..].
  cbn [bind fine] in *. destruct F as [(A & _) D]. destruct (document n P s1) as [c1 s2| |] eqn:E; [|discriminate..]. cbn [bind]. intros [= <- <- <-]. split; [|exists s1; auto]. eapply document_reads; eassumption.
Qed.
Print Assumptions C63_read.

(** ** Examples *)
(** the lexer makes one token of an attribute entry (parse_doc_attrs.rs:194-201) *)
Definition lexed (l : list string) : list (list tok) := map (fun x => match x with t :: _ => if LineModel.is_k Colon t then [Tok AttrDef (text_of x)] else x | [] => x end) (para (doc l)).
Definition header_of (l : list string) : out header := document_header (plain_params true false) (fun _ => true) (fun l => current_is Word (toks l)) (fresh normal (lexed l)).
Definition shown (o : out header) : option (bool * list bytes * list bytes * list bytes * list bytes * list bytes) :=
  match o with
  | Yes h s => Some (match h_title h with Some _ => true | None => false end, map text_of (map toks (opt_list (h_author h))), map text_of (map toks (opt_list (h_revision h))), map text_of (map toks (h_lost h)),
                     map text_of (map toks (peeked s)), map text_of (src s))
  | _ => None
  end.
Example C63_case : shown (header_of ["// note"; ":a: b"; "////"; "x"; "////"; ""; "[abstract]"; "= Title"; "Bob Smith"; "v1.0, 2020"; ":c: d"; ""; "text"]) = Some (true, [$"Bob Smith"], [$"v1.0, 2020"], [], [], [[]; $"text"]).
Proof. vm_compute. reflexivity. Qed.
Example C63_no_header_case : shown (header_of ["// note"; "text"; "more"; ""; "= Title"]) = Some (false, [], [], [], [$"text"; $"more"], [[]; $"= Title"]).
Proof. vm_compute. reflexivity. Qed.
Example C63_whole_case : exists h c s, whole_document (plain_params true false) (fun _ => true) (fun _ => false) (enough_steps (para (doc ["= Title"; "Bob"; ""; "== A"; ""; "text"]))) (fresh normal (para (doc ["= Title"; "Bob"; ""; "== A"; ""; "text"]))) = Yes (h, c) s /\ all_read s /\ h_lost h = [].
Proof. vm_compute. do 3 eexists. repeat split. Qed.
Example C63_panics_case : header_of ["= A pass:[]"] = Panics.
Proof. vm_compute. reflexivity. Qed.
(** ** "No line of a document is lost" is false *)
(** a line after the title that is none of a header's is lost *)
Theorem C63_title_refuted : shown (header_of ["= Title"; "* item"; "* other"; ""; "text"]) = Some (true, [], [], [$"* item"; $"* other"], [], [[]; $"text"]).
Proof. vm_compute. reflexivity. Qed.
Print Assumptions C63_title_refuted.
(** so is a paragraph right after an attribute list and an attribute entry *)
Theorem C63_entry_refuted : shown (header_of ["[role]"; ":a: b"; "text"]) = Some (false, [], [], [$"text"], [], []).
Proof. vm_compute. reflexivity. Qed.
Print Assumptions C63_entry_refuted.
(** and what follows a comment block in which there is a blank line, even the title *)
Theorem C63_comment_refuted : shown (header_of ["////"; "a"; ""; "b"; "////"; "= Title"; "Bob"; ""; "text"]) = Some (false, [], [], [$"= Title"; $"Bob"], [$"text"], []).
Proof. vm_compute. reflexivity. Qed.
Print Assumptions C63_comment_refuted.
(** "More than four slashes delimit a comment block as well" is false: it is read as text. *)
Theorem C63_slashes_refuted : shown (header_of ["/////"; "a"; "/////"; ""; "= Title"]) = Some (false, [], [], [], [$"/////"; $"a"; $"/////"], [[]; $"= Title"]).
Proof. vm_compute. reflexivity. Qed.
Print Assumptions C63_slashes_refuted.
