(** C21: ids made from section titles are new ones. *)
From Verif Require Import Base SectionIdModel SectionIdSpec SectionIdProofs.
From Coq Require Import NArith.

(** One heading, after any ids: the id differs from all of them and is remembered. *)
Theorem C21_auto_id_fresh U st title used id used' : section_id U st None title used = Ret (Some (Some id, used')) -> ~ In id used /\ used' = id :: used.
Proof.
  unfold section_id. destruct (sectids_off st); [discriminate|].
  destruct (autogen_spec U (id_prefix st) (id_sep st) title) as [(_ & s & _ & _ & P)|(base & plain & _ & F)].
  - rewrite P. discriminate.
  - destruct (F used) as (r & -> & FU). intros [= <- <-]. split; [exact (first_unused_fresh _ _ _ _ _ FU)|reflexivity].
Qed.
Print Assumptions C21_auto_id_fresh.
(** Generation ends, with an id, unless the separator has several bytes and the prefix is empty. *)
Theorem C21_terminates U st title used : sectids_off st = false -> id_prefix st <> [] \/ (forall s, id_sep st = Some s -> (s < 128)%N) ->
  exists id, section_id U st None title used = Ret (Some (Some id, id :: used)).
Proof.
  intros ON OK. unfold section_id. rewrite ON.
  destruct (autogen_spec U (id_prefix st) (id_sep st) title) as [(PE & s & SE & L & P)|(base & plain & _ & F)].
  - destruct OK as [N|N]; [congruence|]. specialize (N s SE). lia.
  - destruct (F used) as (r & -> & FU). eauto.
Qed.
Print Assumptions C21_terminates.
(** In every case generation ends: with an id, or with the failure refuted below, but never runs on. *)
Theorem C21_never_runs_on U used hs : heading_ids U used hs <> Ret None.
Proof.
  revert used. induction hs as [|h hs IH]; intro used; cbn [heading_ids]; [discriminate|].
  assert (S0 : section_id U (h_settings h) (h_explicit h) (h_title h) used <> Ret None).
  { unfold section_id. destruct (sectids_off (h_settings h)); [discriminate|]. destruct (h_explicit h); [discriminate|].
    destruct (autogen_spec U (id_prefix (h_settings h)) (id_sep (h_settings h)) (h_title h)) as [(_ & s & _ & _ & P)|(base & plain & _ & F)]; [rewrite P; discriminate|].
    destruct (F used) as (r & -> & _). discriminate. }
  destruct (section_id U (h_settings h) (h_explicit h) (h_title h) used) as [[[id used']|]|]; try discriminate; [|congruence].
  specialize (IH used'). destruct (heading_ids U used' hs) as [[ids|]|]; try discriminate. congruence.
Qed.
Print Assumptions C21_never_runs_on.
(** All headings of a document, whatever their titles, settings and explicit ids: two headings have the same id only if the later
    one was given its id explicitly; no id made from a title occurs before. In particular ids made from titles are all different. *)
Theorem C21_document_ids_distinct U used hs ids : heading_ids U used hs = Ret (Some ids) ->
  length ids = length hs /\
  (forall j x h, nth_error ids j = Some (Some x) -> nth_error hs j = Some h -> h_explicit h = None ->
     ~ In x used /\ forall i, i < j -> nth_error ids i <> Some (Some x)).
Proof.
  revert used ids. induction hs as [|h hs IH]; intros used ids; cbn [heading_ids].
  { intros [= <-]. split; [reflexivity|]. intros [|j] x h; discriminate. }
  destruct (section_id U (h_settings h) (h_explicit h) (h_title h) used) as [[[id used']|]|] eqn:E; try discriminate.
  destruct (heading_ids U used' hs) as [[ids'|]|] eqn:R; try discriminate. intros [= <-].
  destruct (IH used' ids' R) as [L D]. split; [cbn; congruence|].
  assert (K : incl used used' /\ forall x, id = Some x -> In x used').
  { unfold section_id in E. destruct (sectids_off (h_settings h)); [injection E as <- <-; split; [apply incl_refl|discriminate]|].
    destruct (h_explicit h); [injection E as <- <-; split; [apply incl_tl, incl_refl|intros x [= ->]; left; reflexivity]|].
    destruct (autogen_sect_id U used (id_prefix (h_settings h)) (id_sep (h_settings h)) (h_title h)) as [[r|]|]; try discriminate.
    injection E as <- <-. split; [apply incl_tl, incl_refl|intros x [= ->]; left; reflexivity]. }
  destruct K as [K1 K2]. intros [|j] x h' X H' NE; cbn [nth_error] in X, H'.
  - injection X as ->. injection H' as <-. rewrite NE in E. destruct (C21_auto_id_fresh U _ _ _ _ _ E) as [F _]. split; [exact F|]. intros; lia.
  - destruct (D j x h' X H' NE) as [NU ND]. split; [intro I; apply NU, K1, I|]. intros [|i] L0; cbn [nth_error]; [intros [= ->]; apply NU, K2; reflexivity|apply ND; lia].
Qed.
Print Assumptions C21_document_ids_distinct.
(** The id: there is a text that depends on the title and the settings only, and the id is this text, or the text with the least
    number that is new. *)
Theorem C21_least_number U st title : sectids_off st = false -> id_prefix st <> [] \/ (forall s, id_sep st = Some s -> (s < 128)%N) ->
  exists base plain, (base <> [] -> plain = true) /\ forall used, exists id, section_id U st None title used = Ret (Some (Some id, id :: used)) /\
    first_unused used base (id_sep st) plain id.
Proof.
  intros ON OK. unfold section_id. rewrite ON.
  destruct (autogen_spec U (id_prefix st) (id_sep st) title) as [(PE & s & SE & L & P)|(base & plain & PB & F)].
  - destruct OK as [N|N]; [congruence|]. specialize (N s SE). lia.
  - exists base, plain. split; [exact PB|]. intro used. destruct (F used) as (r & -> & FU). eauto.
Qed.
Print Assumptions C21_least_number.
Theorem C21_number_is_decimal base sep n : exists ds, numbered base sep n = base ++ sep_text sep ++ ds /\ digits_of n ds.
Proof. exists (numeral n). split; [reflexivity|apply numeral_digits]. Qed.
Print Assumptions C21_number_is_decimal.
(** Which text, for titles made of words: the prefix, and the words in lower case with the separator between them. *)
Theorem C21_words_of_title U st title ts : sectids_off st = false -> words_of U title ts -> (forall s t, id_sep st = Some s -> In t ts -> ~ In s t) ->
  forall used, exists id, section_id U st None title used = Ret (Some (Some id, id :: used)) /\
    first_unused used (id_prefix st ++ joined (id_sep st) ts) (id_sep st) true id.
Proof.
  intros ON W NS used. unfold section_id. rewrite ON. destruct (words_id U (id_prefix st) (id_sep st) title ts W NS used) as (id & -> & F). eauto.
Qed.
Print Assumptions C21_words_of_title.
(** Tags in the title change nothing. *)
Theorem C21_tags_ignored U st title plain : with_tags title plain -> forall used, section_id U st None title used = section_id U st None plain used.
Proof.
  intros W used. unfold section_id, autogen_sect_id. destruct (sectids_off st); [reflexivity|].
  cbn [characters]. rewrite (scan_with_tags _ _ _ _ W).
  match goal with |- context [scan _ ?s _ _ _ ?l ?i plain] => destruct (scan_with_tags_done U s title plain W l i) as (i2 & l2 & ->) end. reflexivity.
Qed.
Print Assumptions C21_tags_ignored.
(** The defaults are an underscore each; an empty or true value means none; only the first character of idseparator counts. *)
Theorem C21_settings off : (id_sep (mkSettings off NotSet NotSet) = Some 95%N /\ id_prefix (mkSettings off NotSet NotSet) = [95%N]) /\
  (forall x, id_sep (mkSettings off (Flag true) x) = None /\ id_sep (mkSettings off (Text []) x) = None) /\
  (forall x c t, id_sep (mkSettings off (Text (c :: t)) x) = Some c) /\
  (forall x t, id_prefix (mkSettings off x (Text t)) = t) /\ (forall x, id_prefix (mkSettings off x (Flag true)) = []).
Proof. repeat split. Qed.
Print Assumptions C21_settings.
(** An explicit id is used as it is. *)
Theorem C21_explicit_id_used U st id title used : sectids_off st = false -> section_id U st (Some id) title used = Ret (Some (Some id, id :: used)).
Proof. intro ON. unfold section_id. rewrite ON. reflexivity. Qed.
Print Assumptions C21_explicit_id_used.

Definition t_ (s : string) : text := map N_of_ascii (list_ascii_of_string s).
(** tables that know one letter outside ASCII: E with an acute accent *)
Definition few : unicode := mkUnicode (fun c => (c =? 201) || (c =? 233))%N (fun c => if (c =? 201)%N then [233]%N else [c]) (fun _ => false).
Definition standard : settings := mkSettings false NotSet NotSet.
Definition auto (st : settings) (used : list text) (title : text) : outcome (option text) := autogen_sect_id few used (id_prefix st) (id_sep st) title.
Example C21_sample_words : words_of few (t_ "Foo's  Bar" ++ [32; 201]%N ++ t_ "t. ") [t_ "foos"; t_ "bar"; [233]%N ++ t_ "t"].
Proof.
  assert (D : forall c, In c (t_ "'") -> dropped few c).
  { intros c [<-|[]]. repeat split; try reflexivity; unfold gap, special; cbn; intuition discriminate. }
  assert (G : forall g, Forall gap g -> g <> [] -> gap_text few g).
  { intros g F N. split; [eapply Forall_impl; [|exact F]; auto|]. destruct F; [congruence|]. constructor. assumption. }
  assert (KA : forall c k, ascii_alnum c = true -> [ascii_lower c] = k -> kept_as few c k) by (intros c k A <-; constructor; exact A).
  change (t_ "Foo's  Bar" ++ [32; 201]%N ++ t_ "t. ") with (t_ "Foo's" ++ t_ "  " ++ t_ "Bar" ++ t_ " " ++ ([201]%N ++ t_ "t") ++ t_ ". ").
  apply Ws_more; [| discriminate | |apply Ws_more; [| discriminate | |apply Ws_trailing; [| discriminate |]]].
  - apply (W_kept few _ [102%N] _ (t_ "oos")); [apply KA; reflexivity|]. apply (W_kept few _ [111%N] _ (t_ "os")); [apply KA; reflexivity|].
    apply (W_kept few _ [111%N] _ (t_ "s")); [apply KA; reflexivity|]. apply W_dropped; [apply D; left; reflexivity|].
    apply (W_kept few _ [115%N] _ []); [apply KA; reflexivity|]. constructor.
  - apply G; [|discriminate]. repeat constructor; unfold gap; cbn; tauto.
  - apply (W_kept few _ [98%N] _ (t_ "ar")); [apply KA; reflexivity|]. apply (W_kept few _ [97%N] _ (t_ "r")); [apply KA; reflexivity|].
    apply (W_kept few _ [114%N] _ []); [apply KA; reflexivity|]. constructor.
  - apply G; [|discriminate]. repeat constructor; unfold gap; cbn; tauto.
  - apply (W_kept few 201%N [233%N] _ (t_ "t")); [constructor; [lia|reflexivity]|]. apply (W_kept few _ [116%N] _ []); [apply KA; reflexivity|]. constructor.
  - apply G; [|discriminate]. repeat constructor; unfold gap; cbn; tauto.
Qed.
Example C21_sample_document :
  heading_ids few [] [mkHeading standard None (t_ "Foo Bar"); mkHeading standard (Some (t_ "_foo_bar_2")) (t_ "x"); mkHeading standard None (t_ "foo-bar");
    mkHeading (mkSettings true NotSet NotSet) (Some (t_ "gone")) (t_ "y"); mkHeading (mkSettings false (Text (t_ "-")) (Flag true)) None (t_ "Foo's, Bar."); mkHeading standard None (t_ "?!")]
  = Ret (Some [Some (t_ "_foo_bar"); Some (t_ "_foo_bar_2"); Some (t_ "_foo_bar_3"); None; Some (t_ "foos-bar"); Some (t_ "_2")]).
Proof. vm_compute. reflexivity. Qed.
(** tags, entities, anchors and cross references in titles *)
Example C21_markup_in_titles :
  auto standard [] (t_ "Ben & Jerry's Ice Cream!") = Ret (Some (t_ "_ben_jerrys_ice_cream")) /\
  auto standard [] (t_ "a &#xae;&AMP;&#xA9; b&#8217;s &frac12; &x;") = Ret (Some (t_ "_a_bs_x")) /\
  auto standard [] (t_ "a <i>b</i> c") = Ret (Some (t_ "_a_b_c")) /\
  auto standard [] (t_ "a <<b>> c <d <<e> f") = Ret (Some (t_ "_a_b_c_f")).
Proof. vm_compute. repeat split. Qed.
Example C21_anchors_in_titles :
  auto standard [] (t_ "[[a]]foo[[b]] [Bar]") = Ret (Some (t_ "_foo_bar")) /\ auto standard [] (t_ "[[a]foo") = Ret (Some (t_ "_afoo")) /\
  auto standard [] (t_ "[[a&lt;]] &lt;b") = Ret (Some (t_ "_b")) /\
  auto (mkSettings false (Text (t_ ".")) NotSet) [] (t_ "Version 5.0.1") = Ret (Some (t_ "_version.5.0.1")).
Proof. vm_compute. repeat split. Qed.

(** ** what does not hold *)
(** An explicit id may repeat an id that was made from a title before it. *)
Theorem C21_explicit_id_repeats_refuted : exists hs id, heading_ids few [] hs = Ret (Some [Some id; Some id]).
Proof. exists [mkHeading standard None (t_ "A"); mkHeading standard (Some (t_ "_a")) (t_ "B")], (t_ "_a"). vm_compute. reflexivity. Qed.
Print Assumptions C21_explicit_id_repeats_refuted.
(** While sectids is off, explicit ids are lost as well, and a later title can take one of them. *)
Theorem C21_explicit_ids_need_sectids_refuted U st id title used : sectids_off st = true -> section_id U st (Some id) title used = Ret (Some (None, used)).
Proof. intro OFF. unfold section_id. rewrite OFF. reflexivity. Qed.
Print Assumptions C21_explicit_ids_need_sectids_refuted.
(** Without a prefix, and with a separator outside ASCII, a title that begins with a blank stops the program. *)
Theorem C21_wide_separator_panics_refuted : exists st title, section_id few st None title [] = Panic /\ sectids_off st = false.
Proof. exists (mkSettings false (Text [183]%N) (Text [])), (t_ "-a"). split; vm_compute; reflexivity. Qed.
Print Assumptions C21_wide_separator_panics_refuted.
(** Without prefix and separator a title can give the empty id. *)
Theorem C21_empty_id_refuted : exists st title, section_id few st None title [] = Ret (Some (Some [], [[]])).
Proof. exists (mkSettings false (Flag true) (Flag true)), (t_ "?"). vm_compute. reflexivity. Qed.
Print Assumptions C21_empty_id_refuted.
(** A letter as separator is taken away from the end of the title. *)
Theorem C21_letter_as_separator_refuted : exists st, auto st [] (t_ "box") = Ret (Some (t_ "_bo")).
Proof. exists (mkSettings false (Text (t_ "x")) NotSet). vm_compute. reflexivity. Qed.
Print Assumptions C21_letter_as_separator_refuted.

Example C21_tagged : with_tags (t_ "a <i>b</i> c") (t_ "a b c").
Proof.
  assert (O : forall c, existsb (N.eqb c) [60; 62; 91; 38]%N = false -> ~ special c)
    by (intros c H I; assert (existsb (N.eqb c) [60; 62; 91; 38]%N = true) by (apply existsb_exists; exists c; split; [exact I|apply N.eqb_refl]); congruence).
  assert (G : forall c, gap_char c = false -> ~ gap c) by (intros c H I; apply gap_spec in I; congruence).
  cbn. constructor; [now apply O|]. constructor; [now apply O|].
  apply (WT_tag [105%N]); [repeat constructor; first [now apply O|now apply G]|]. constructor; [now apply O|].
  apply (WT_tag [47; 105]%N); [repeat constructor; first [now apply O|now apply G]|]. repeat (constructor; [now apply O|]). constructor.
Qed.
