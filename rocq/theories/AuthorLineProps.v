(** C43: authors, from the author line and from the author attribute. *)
From Coq Require Import Lia.
From Verif Require Import Base Text Unicode CollectTextModel AuthorLineModel AuthorLineSpec AuthorLineProofs.

(** An author line says who the authors are: for any number of people, with any first and middle names and with or without email, as long as last names are of letters,
    digits and underscores. White space at the end does not matter. *)
Theorem C43_author_line word ps w : letters_ok word -> Forall (person_ok word) ps -> ps <> [] -> blank w -> parse_author_line word (line ps ++ w) = (map author_of ps, true).
Proof. intros WO F N B. apply (parse_line word WO ps F N). apply all_Forall. exact B. Qed.
Print Assumptions C43_author_line.

(** The full name of an author is their name on the line, with spaces for underscores. *)
Theorem C43_full_name p : fullname (author_of p) = spaced (name_of p).
Proof. unfold fullname, author_of, name_of. cbn [first_name middle_name last_name]. rewrite !spaced_app, spaced_space. destruct (p_middle p) as [m|]; cbn [option_map]; [rewrite spaced_app, spaced_space, <- !app_assoc|]; reflexivity. Qed.
Print Assumptions C43_full_name.

(** An author attribute of two words or more: the first is the first name, the last the last name, the full name is the words with a space between them, and the initials are the first letters of the first, the second and the last of them. *)
Theorem C43_author_attribute v w ws z : words v (w :: ws ++ [z]) -> exists a, author_from_attr v = Some a /\
  first_name a = spaced w /\ middle_name a = match ws with [] => None | _ => Some (spaced (one_space ws)) end /\ last_name a = spaced z /\
  fullname a = spaced (one_space (w :: ws ++ [z])) /\ (Forall word_text (w :: ws ++ [z]) -> initials a = Ret (firstn 1 (spaced w) ++ match ws with [] => [] | y :: _ => firstn 1 (spaced y) end ++ firstn 1 (spaced z))).
Proof.
  intro W. pose proof (split_words v _ W) as SW. exists (Author (spaced w) (match ws with [] => None | _ => Some (spaced (one_space ws)) end) (spaced z) None).
  cbn [first_name middle_name last_name]. split; [|split; [reflexivity|split; [reflexivity|split; [reflexivity|split]]]].
  - unfold author_from_attr. destruct v as [|c v]; [discriminate SW|]. rewrite SW.
    assert (L : last (w :: ws ++ [z]) [] = z) by (rewrite app_comm_cons; apply last_last).
    assert (R : removelast (tl (w :: ws ++ [z])) = ws) by (cbn [tl]; apply removelast_last).
    rewrite L, R. cbn [hd]. f_equal. f_equal. destruct ws as [|y ws]; [reflexivity|]. cbn [length app]. rewrite app_length. cbn [length]. destruct (Nat.ltb_spec 2 (S (S (length ws + 1)))); [reflexivity|lia].
  - unfold fullname. cbn [first_name middle_name last_name]. destruct ws as [|y ws].
    + cbn [app one_space flat_map]. rewrite app_nil_r, spaced_app. reflexivity.
    + rewrite app_comm_cons, one_space_snoc by discriminate. cbn [one_space flat_map]. change (space :: y) with ([space] ++ y). change (space :: z) with ([space] ++ z).
      rewrite !spaced_app, spaced_space, <- !app_assoc. cbn [app]. rewrite <- app_assoc. reflexivity.
  - intros A. apply Forall_cons_iff in A as [[Nw _] A]. apply Forall_app in A as [A B]. apply Forall_cons_iff in B as [[Nz _] _]. unfold initials. cbn [first_name last_name middle_name].
    destruct w; [destruct (Nw eq_refl)|]. destruct z; [destruct (Nz eq_refl)|]. destruct ws as [|y ws]; [reflexivity|]. apply Forall_cons_iff in A as [[Ny _] _]. destruct y; [destruct (Ny eq_refl)|]. reflexivity.
Qed.
Print Assumptions C43_author_attribute.

Definition t (s : string) : text := map (fun a => N_of_ascii a) (list_ascii_of_string s).
(** letters, digits and underscore of ASCII *)
Definition ascii_word (c : N) : bool := ((48 <=? c) && (c <=? 57) || (65 <=? c) && (c <=? 90) || (97 <=? c) && (c <=? 122) || (c =? 95))%N.
Lemma ascii_word_ok : letters_ok ascii_word.
Proof.
  intros c W. assert (L : (c < 128)%N).
  { unfold ascii_word in W. rewrite !orb_true_iff, !andb_true_iff, !N.leb_le, N.eqb_eq in W. lia. }
  split; [|split; intros ->; discriminate W].
  assert (A : forallb (fun n => negb (ascii_word (N.of_nat n)) || negb (is_white (N.of_nat n))) (Coq.Lists.List.seq 0 128) = true) by (vm_compute; reflexivity).
  rewrite forallb_forall in A. specialize (A (N.to_nat c)). rewrite List.in_seq, N2Nat.id, W in A. apply negb_true_iff. apply A. lia.
Qed.

(** A last name with a hyphen or an apostrophe is cut: its last part is the last name and the rest a middle name, and the full name has a space in it. *)
Theorem C43_hyphen_refuted : parse_author_line ascii_word (t "Mary Smith-Jones") = ([Author (t "Mary") (Some (t "Smith-")) (t "Jones") None], true) /\
  fullname (Author (t "Mary") (Some (t "Smith-")) (t "Jones") None) = t "Mary Smith- Jones".
Proof. split; vm_compute; reflexivity. Qed.
Print Assumptions C43_hyphen_refuted.
Theorem C43_apostrophe_refuted : parse_author_line ascii_word (t "Conan O'Brien") = ([Author (t "Conan") (Some (t "O'")) (t "Brien") None], true).
Proof. vm_compute. reflexivity. Qed.
Print Assumptions C43_apostrophe_refuted.
Theorem C43_suffix_refuted : parse_author_line ascii_word (t "Bob Foo Jr.") = ([Author (t "Bob") (Some (t "Foo Jr")) (t ".") None], true).
Proof. vm_compute. reflexivity. Qed.
Print Assumptions C43_suffix_refuted.
(** A person with one name is cut in two by the line, and named twice by the attribute. *)
Theorem C43_one_name_refuted : parse_author_line ascii_word (t "Plato") = ([Author (t "Plat") None (t "o") None], true) /\
  option_map fullname (author_from_attr (t "Plato")) = Some (t "Plato Plato").
Proof. split; vm_compute; reflexivity. Qed.
Print Assumptions C43_one_name_refuted.
(** The sign of an email that is not closed is passed over, its text is another author, and the line is not reported. *)
Theorem C43_gap_refuted : parse_author_line ascii_word (t "Ann Lee <ann@lee.org") = ([Author (t "Ann") None (t "Lee") None; Author (t "ann@lee.") None (t "org") None], true).
Proof. vm_compute. reflexivity. Qed.
Print Assumptions C43_gap_refuted.
(** An author attribute of white space ends in a panic. *)
Theorem C43_blank_refuted : exists a, author_from_attr (t " ") = Some a /\ initials a = Panic.
Proof. eexists. split; vm_compute; reflexivity. Qed.
Print Assumptions C43_blank_refuted.

Definition kismet : person := Person (t "Kismet") (Some (t "R. St-John")) (t "Lee") (Some (t "kismet", t "asciidoctor.org")).
Definition ann : person := Person (t "Ann_Marie") None (t "Jenson") None.
Definition jr : person := Person (t "J.") (Some (t "R. R.")) (t "Tolkien") None.
Ltac all_in := intros c I; repeat (destruct I as [<-|I]; [repeat split; (discriminate || reflexivity)|]); contradiction.
Lemma person_okI f g m l e : p_first (Person f m l e) = g \/ f = g ++ [dot] -> g <> [] -> all (fun c => is_white c = false /\ c <> lt /\ c <> dot) g ->
  match m with Some m => middle_ok m | None => True end -> last_ok ascii_word l -> match e with Some (x, d) => local_ok x /\ domain_ok d | None => True end -> person_ok ascii_word (Person f m l e).
Proof.
  intros F N A M L E. split; [exists g; split; [exact N|split; [exact A|exact F]]|]. split; [intros x X; cbn in X; subst; exact M|]. split; [exact L|]. intros x d X. cbn in X. subst. exact E.
Qed.
Example people_ok : Forall (person_ok ascii_word) [kismet; ann; jr].
Proof.
  apply Forall_cons; [|apply Forall_cons; [|apply Forall_cons; [|apply Forall_nil]]].
  - apply (person_okI _ (t "Kismet")); [left; reflexivity|discriminate|all_in| |split; [discriminate|all_in]|split; (split; [discriminate|all_in])].
    split; [eexists _, _; split; [reflexivity|reflexivity]|]. split; [exists 110%N, (t "R. St-Joh"); split; reflexivity|all_in].
  - apply (person_okI _ (t "Ann_Marie")); [left; reflexivity|discriminate|all_in|exact I|split; [discriminate|all_in]|exact I].
  - apply (person_okI _ (t "J")); [right; reflexivity|discriminate|all_in| |split; [discriminate|all_in]|exact I].
    split; [eexists _, _; split; [reflexivity|reflexivity]|]. split; [exists 46%N, (t "R. R"); split; reflexivity|all_in].
Qed.
Example people_line : line [kismet; ann; jr] = t "Kismet R. St-John Lee <kismet@asciidoctor.org>; Ann_Marie Jenson; J. R. R. Tolkien".
Proof. vm_compute. reflexivity. Qed.
Example people_authors : fst (parse_author_line ascii_word (line [kismet; ann; jr])) =
  [Author (t "Kismet") (Some (t "R. St-John")) (t "Lee") (Some (t "kismet@asciidoctor.org")); Author (t "Ann Marie") None (t "Jenson") None; Author (t "J.") (Some (t "R. R.")) (t "Tolkien") None].
Proof. vm_compute. reflexivity. Qed.
Example attr_words : words (t "  Ann  B C Lee ") (t "Ann" :: [t "B"; t "C"] ++ [t "Lee"]).
Proof.
  apply (W_more (t "  ") (t "Ann") (t "  ") (t "B C Lee ")); [all_in|split; [discriminate|all_in]|discriminate|all_in| |discriminate].
  apply (W_more [] (t "B") (t " ") (t "C Lee ")); [all_in|split; [discriminate|all_in]|discriminate|all_in| |discriminate].
  apply (W_more [] (t "C") (t " ") (t "Lee ")); [all_in|split; [discriminate|all_in]|discriminate|all_in| |discriminate].
  apply (W_last [] (t "Lee") (t " ")); [all_in|split; [discriminate|all_in]|all_in].
Qed.
Example attr_author : author_from_attr (t "  Ann  B C Lee ") = Some (Author (t "Ann") (Some (t "B C")) (t "Lee") None).
Proof. vm_compute. reflexivity. Qed.
