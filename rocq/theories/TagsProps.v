(** C11: tag= and tags= on include directives. *)
From Coq Require Import Sorting.Sorted.
From Verif Require Import Base Utf8 Text LinesModel TagsModel TagsSpec TagsProofs.

(** A line is a tag directive exactly when it has the written form [tag::name[]] or [end::name[]]; the first one counts. *)
Theorem C11_directive_lines word line : utf8 line ->
  (forall n, tag_directive word [] line = Some (Start n) <-> directive_line word line Opens n) /\
  (forall n, tag_directive word [] line = Some (End n) <-> directive_line word line Closes n) /\
  (tag_directive word [] line = None <-> plain_line word line).
Proof. intro U. split; [intro n; exact (directive_spec word line Opens n U)|]. split; [intro n; exact (directive_spec word line Closes n U)|exact (plain_spec word line U)]. Qed.
Print Assumptions C11_directive_lines.

(** In a file whose regions are properly nested, tags= keeps exactly the plain lines whose enclosing regions satisfy the
    specification's meaning, in order; if all of them are empty, nothing is included. *)
Theorem C11_selects_exactly_the_regions word text P src ls res :
  means text P -> utf8 src -> line_list src ls -> nested word [] ls res -> (forall l, In l ls -> starts_with ($"asciidorkinclude::") l = false) ->
  exists kept os, those P res kept /\ visible os = kept /\
    fst (select_tagged_lines word None (Some text) src) = (if existsb (fun l => negb (bytes_eqb l [])) kept then unlines os else []).
Proof.
  intros M U (E & NE & F) N NP. pose proof (means_selects _ _ M) as HS. subst src.
  assert (TE : text <> []). { destruct M as [| | | |sep names S NN FN|sep names S NN FN|sep t n S T _|sep t S T|sep n S T|sep t S T|sep n S T]; try discriminate.
    - destruct names as [|t names]; [congruence|]. inversion FN as [|? ? (X & _) _]. destruct names; [exact X|destruct t; [congruence|discriminate]].
    - destruct names as [|t names]; [congruence|]. destruct names; discriminate.
    - destruct t; discriminate.
    - destruct t; discriminate. }
  unfold select_tagged_lines. rewrite (neqb text []) by exact TE. unfold select_tagged. change LF with newline. rewrite split_join by assumption.
  destruct (loop_nested word _ P HS [] ls res N (utf8_lines ls U) ls 0 [] (expected_tags (parse_selection text)) [] eq_refl) as (out & kept & ex' & T & V & L).
  rewrite app_nil_r in L. rewrite L. cbn [tag_loop]. rewrite app_nil_r, orb_false_r. exists kept, out. split; [exact T|]. split.
  - rewrite V. apply visible_all. intros l I. apply NP. destruct (those_sub _ _ _ T l I) as (p & J). exact (nested_sub _ _ _ _ N p l J).
  - cbn [fst]. reflexivity.
Qed.
Print Assumptions C11_selects_exactly_the_regions.

(** tag= asks for one specification; it means what it means in tags=. *)
Theorem C11_single_tag word t tags src : tag_name t -> select_tagged_lines word (Some t) tags src = select_tagged_lines word None (Some t) src /\
  select_tagged_lines word (Some ("!"%char :: t)) tags src = select_tagged_lines word None (Some ("!"%char :: t)) src.
Proof.
  intro T. pose proof (parse_names ";"%char [t] (or_introl eq_refl) ltac:(discriminate) (Forall_cons t T (Forall_nil _))) as P1. pose proof (parse_nots ";"%char [t] (or_introl eq_refl) ltac:(discriminate) (Forall_cons t T (Forall_nil _))) as P2.
  cbn [join_byte map] in P1, P2. unfold select_tagged_lines. assert (NE : t <> []) by apply T. rewrite (neqb t []), (neqb ("!"%char :: t) []) by (exact NE || discriminate). rewrite parse_name, parse_not by exact T. rewrite P1, P2. auto.
Qed.
Print Assumptions C11_single_tag.
(** Without tag= and tags= (or with both empty) the text is untouched and nothing is reported. *)
Theorem C11_no_attribute_no_change word tag tags src : tag = None \/ tag = Some [] -> tags = None \/ tags = Some [] -> select_tagged_lines word tag tags src = (src, []).
Proof. intros [->| ->] [->| ->]; reflexivity. Qed.
Print Assumptions C11_no_attribute_no_change.

(** tags=names: in any file whatever, the names that no line opens are reported, in order and once each, and no others; and nothing
    is reported about missing names if there are none. *)
Theorem C11_missing_names_reported word sep names src ls :
  sep_text sep -> names <> [] -> Forall tag_name names -> utf8 src -> line_list src ls ->
  exists missing ps, (forall t, In t missing <-> In t names /\ never_opened word ls t) /\ Sorted precedes missing /\
    Forall (fun p => p_line p <> 0) ps /\
    snd (select_tagged_lines word None (Some (join_byte sep names)) src) = ps ++ match missing with [] => [] | _ => [mkProblem 0 (not_found_message missing) 0 0] end.
Proof.
  intros S NE F U (E & LN & FL). subst src. assert (TE : join_byte sep names <> []).
  { destruct names as [|t names]; [congruence|]. inversion F as [|? ? (X & _) _]. destruct names; [exact X|destruct t; [congruence|discriminate]]. }
  unfold select_tagged_lines. rewrite (neqb _ []) by exact TE. rewrite parse_names by assumption. unfold select_tagged. change LF with newline. rewrite split_join by assumption.
  assert (EX : expected_tags (map Tag names) = names). { clear. unfold expected_tags. induction names as [|t r IH]; [reflexivity|]. cbn. f_equal. exact IH. } rewrite EX.
  pose proof (utf8_lines ls U) as UL. rewrite Forall_forall in UL.
  assert (PL : forall l idx st ex out ne ps st' ex', tag_loop word (map Tag names) ls idx st ex l = (out, ne, ps, st', ex') -> Forall (fun p => p_line p <> 0) ps).
  { induction l as [|x l IH]; intros idx st ex out ne ps st' ex' Q.
    - cbn in Q. injection Q as _ _ <- _ _. constructor.
    - cbn [tag_loop] in Q. destruct (tag_directive word [] x) as [[t|t]|]; destruct (tag_loop _ _ _ (Datatypes.S idx) _ _ l) as [[[[o1 n1] p1] s1] e1] eqn:R; specialize (IH _ _ _ _ _ _ _ _ R).
      + injection Q as _ _ <- _ _. exact IH.
      + injection Q as _ _ <- _ _. apply Forall_app. split; [|exact IH]. destruct (last_is t st); [constructor|]. destruct (existsb _ _); [|constructor]. constructor; [cbn; lia|constructor].
      + destruct (selected _ _); injection Q as _ _ <- _ _; exact IH. }
  destruct (tag_loop word (map Tag names) ls 0 [] names ls) as [[[[out ne] ps] st] ex] eqn:Q. cbn [snd]. match goal with |- context [ps ++ ?u ++ _] => exists (sorted_set ex), (ps ++ u) end. split; [|split; [apply sorted_set_ascending|split]].
  - intro t. rewrite sorted_set_in, (loop_expected _ _ _ _ _ _ _ _ _ _ _ _ Q t). split; intros [I H]; (split; [exact I|]); intros l J.
    + intro D. apply (H l J). apply (directive_spec word l Opens t (UL l J)), D.
    + intro D. apply (H l J). apply (directive_spec word l Opens t (UL l J)), D.
  - apply Forall_app. split; [exact (PL _ _ _ _ _ _ _ _ _ Q)|]. destruct st as [|(t, i) st]; [constructor|]. destruct (existsb (bytes_eqb t) names); [|constructor]. repeat constructor. cbn. lia.
  - rewrite <- app_assoc. f_equal. f_equal. destruct (sorted_set ex) as [|t [|u r]]; [reflexivity| |].
    + cbn [length]. cbn [Nat.ltb Nat.leb]. reflexivity.
    + f_equal. f_equal. cbn [length Nat.ltb Nat.leb]. unfold not_found_message, quoted_list.
      assert (J : forall x l, join_with ($"`, `") (x :: l) = x ++ concat (map (fun u => $"`, `" ++ u) l)).
      { intros x l. revert x. induction l as [|y l IH]; intro x; [cbn; rewrite app_nil_r; reflexivity|]. change (join_with ($"`, `") (x :: y :: l)) with (x ++ $"`, `" ++ join_with ($"`, `") (y :: l)). rewrite IH. cbn [map concat]. rewrite <- !app_assoc. reflexivity. }
      rewrite J. rewrite <- !app_assoc. reflexivity.
Qed.
Print Assumptions C11_missing_names_reported.

(** A region of a requested name that is not closed is reported, at the line that opens it, when everything around it is proper. *)
Theorem C11_unclosed_region_reported word sep names src ls1 s t ls2 r1 r2 :
  sep_text sep -> Forall tag_name names -> In t names -> utf8 src -> line_list src (ls1 ++ s :: ls2) ->
  nested word [] ls1 r1 -> directive_line word s Opens t -> nested word [t] ls2 r2 ->
  exists p rest, snd (select_tagged_lines word None (Some (join_byte sep names)) src) = p :: rest /\
    p_line p = length ls1 + 1 /\ p_msg p = $"Tag `" ++ t ++ $"` was not closed" /\ p_width p = length t /\
    (exists a z, s = a ++ t ++ z /\ p_start p = length a).
Proof.
  intros S F I U (E & LN & FL) N1 D N2. subst src. assert (NE : names <> []) by (intros ->; destruct I).
  assert (TE : join_byte sep names <> []). { destruct names as [|u names]; [congruence|]. inversion F as [|? ? (X & _) _]. destruct names; [exact X|destruct u; [congruence|discriminate]]. }
  unfold select_tagged_lines. rewrite (neqb _ []) by exact TE. rewrite parse_names by assumption. unfold select_tagged. change LF with newline. rewrite split_join by assumption.
  assert (EX : expected_tags (map Tag names) = names). { clear. unfold expected_tags. induction names as [|u r IH]; [reflexivity|]. cbn. f_equal. exact IH. } rewrite EX.
  set (all := ls1 ++ s :: ls2) in *. pose proof (utf8_lines _ U) as UL. unfold all in UL. apply Forall_app in UL as [U1 U2]. inversion U2 as [|? ? US UB]. subst.
  assert (HS : selects (map Tag names) (fun path => exists t, In t names /\ In t path)) by (rewrite <- (parse_names sep names) by assumption; apply means_selects; constructor; assumption).
  destruct (loop_nested word _ _ HS [] ls1 r1 N1 U1 all 0 [] names (s :: ls2) eq_refl) as (o1 & k1 & e1 & _ & _ & L1).
  pose proof D as D'. apply (directive_spec word s Opens t US) in D. cbn [mk] in D.
  destruct (loop_nested word _ _ HS [t] ls2 r2 N2 UB all (Datatypes.S (length ls1)) [(t, length ls1)] (filter (fun e => negb (bytes_eqb e t)) e1) [] eq_refl) as (o2 & k2 & e2 & _ & _ & L2).
  rewrite app_nil_r in L2. cbn [plus] in L1. change (tag_loop word (map Tag names) all 0 [] names all) with (tag_loop word (map Tag names) all 0 [] names (ls1 ++ s :: ls2)). rewrite L1. cbn [tag_loop]. rewrite D, L2. cbn [tag_loop].
  assert (C : existsb (bytes_eqb t) names = true) by (apply existsb_exists; exists t; split; [exact I|apply bytes_eqb_refl]). rewrite C.
  eexists. eexists. split; [cbn [snd app]; reflexivity|]. unfold tag_problem. cbn [p_line p_msg p_width p_start]. split; [reflexivity|]. split; [reflexivity|]. split; [reflexivity|].
  assert (NT : nth (length ls1) all [] = s) by (unfold all; rewrite app_nth2 by lia; rewrite Nat.sub_diag; reflexivity). rewrite NT. destruct D' as (a & (z & Es & _) & _).
  destruct (find_sub t s) as [i|] eqn:FS; [apply find_sub_spec in FS as (x & y & E2 & -> & _); eauto|]. exfalso. apply (find_sub_none _ _ FS (a ++ keyword Opens ++ $"::") ($"[]" ++ z)). rewrite Es. rewrite <- !app_assoc. reflexivity.
Qed.
Print Assumptions C11_unclosed_region_reported.
(** A closing line of a requested name that does not match the innermost open region is reported at its line. *)
Theorem C11_wrong_end_reported word sep names src ls1 e t ls2 r1 :
  sep_text sep -> Forall tag_name names -> In t names -> utf8 src -> line_list src (ls1 ++ e :: ls2) ->
  nested word [] ls1 r1 -> directive_line word e Closes t ->
  exists p rest, snd (select_tagged_lines word None (Some (join_byte sep names)) src) = p :: rest /\
    p_line p = length ls1 + 1 /\ p_msg p = $"Unexpected end tag `" ++ t ++ $"`" /\ p_width p = length t.
Proof.
  intros S F I U (E & LN & FL) N1 D. subst src. assert (NE : names <> []) by (intros ->; destruct I).
  assert (TE : join_byte sep names <> []). { destruct names as [|u names]; [congruence|]. inversion F as [|? ? (X & _) _]. destruct names; [exact X|destruct u; [congruence|discriminate]]. }
  unfold select_tagged_lines. rewrite (neqb _ []) by exact TE. rewrite parse_names by assumption. unfold select_tagged. change LF with newline. rewrite split_join by assumption.
  assert (EX : expected_tags (map Tag names) = names). { clear. unfold expected_tags. induction names as [|u r IH]; [reflexivity|]. cbn. f_equal. exact IH. }
  set (all := ls1 ++ e :: ls2) in *. pose proof (utf8_lines _ U) as UL. unfold all in UL. apply Forall_app in UL as [U1 U2]. inversion U2 as [|? ? US UB]. subst.
  assert (HS : selects (map Tag names) (fun path => exists t, In t names /\ In t path)) by (rewrite <- (parse_names sep names) by assumption; apply means_selects; constructor; assumption).
  destruct (loop_nested word _ _ HS [] ls1 r1 N1 U1 all 0 [] (expected_tags (map Tag names)) (e :: ls2) eq_refl) as (o1 & k1 & e1 & _ & _ & L1).
  apply (directive_spec word e Closes t US) in D. cbn [mk] in D. cbn [plus] in L1.
  change (tag_loop word (map Tag names) all 0 [] (expected_tags (map Tag names)) all) with (tag_loop word (map Tag names) all 0 [] (expected_tags (map Tag names)) (ls1 ++ e :: ls2)). rewrite L1. cbn [tag_loop]. rewrite D. cbn [last_is]. rewrite EX.
  assert (C : existsb (bytes_eqb t) names = true) by (apply existsb_exists; exists t; split; [exact I|apply bytes_eqb_refl]). rewrite C.
  destruct (tag_loop word (map Tag names) all _ [] e1 ls2) as [[[[? ?] ?] ?] ?]. cbn [snd app]. eexists. eexists. split; [reflexivity|]. unfold tag_problem. cbn [p_line p_msg p_width]. auto.
Qed.
Print Assumptions C11_wrong_end_reported.

(** ** Examples *)
Definition no_word : bytes -> bool := fun _ => false.
Definition nl (l : list bytes) : bytes := join_byte newline l.
Definition doc1 : list bytes := [$"top"; $"# tag::a[]"; $"in a"; $"// tag::b[] x"; $"in b"; $"end::b[]"; $"a again"; $"end::a[]"; $"end"].
Lemma plain_by word line : is_utf8 line = true -> tag_directive word [] line = None -> plain_line word line.
Proof. intros U D. apply plain_spec; [apply is_utf8_spec, U|exact D]. Qed.
Lemma dir_by word line k n : is_utf8 line = true -> tag_directive word [] line = Some (mk k n) -> directive_line word line k n.
Proof. intros U D. apply directive_spec; [apply is_utf8_spec, U|exact D]. Qed.
Example C11_doc1_nested : nested no_word [] doc1
  [([], $"top"); ([$"a"], $"in a"); ([$"b"; $"a"], $"in b"); ([$"a"], $"a again"); ([], $"end")].
Proof.
  constructor; [apply plain_by; vm_compute; reflexivity|].
  apply (N_region no_word [] ($"# tag::a[]") ($"a") [$"in a"; $"// tag::b[] x"; $"in b"; $"end::b[]"; $"a again"] ($"end::a[]") [$"end"]
    [([$"a"], $"in a"); ([$"b"; $"a"], $"in b"); ([$"a"], $"a again")] [([], $"end")]).
  - apply dir_by; vm_compute; reflexivity.
  - constructor; [apply plain_by; vm_compute; reflexivity|].
    apply (N_region no_word [$"a"] ($"// tag::b[] x") ($"b") [$"in b"] ($"end::b[]") [$"a again"] [([$"b"; $"a"], $"in b")] [([$"a"], $"a again")]).
    + apply dir_by; vm_compute; reflexivity.
    + constructor; [apply plain_by; vm_compute; reflexivity|constructor].
    + apply dir_by; vm_compute; reflexivity.
    + constructor; [apply plain_by; vm_compute; reflexivity|constructor].
  - apply dir_by; vm_compute; reflexivity.
  - constructor; [apply plain_by; vm_compute; reflexivity|constructor].
Qed.
Example C11_tag_name_ex : tag_name ($"a") /\ tag_name ($"a-b[]").
Proof. repeat split; try discriminate; try (apply has_white_no; vm_compute; reflexivity); cbn; intuition discriminate. Qed.
Example C11_doc1_hyps : utf8 (nl doc1) /\ line_list (nl doc1) doc1 /\ (forall l, In l doc1 -> starts_with ($"asciidorkinclude::") l = false) /\
  means ($"a;!b") (fun path => In ($"a") path /\ ~ In ($"b") path).
Proof.
  split; [apply is_utf8_spec; vm_compute; reflexivity|]. split; [split; [reflexivity|split; [discriminate|]]|split].
  - repeat (constructor; [cbn; intuition discriminate|]). constructor.
  - intros l I. cbn [doc1 In] in I. repeat (destruct I as [<-|I]; [vm_compute; reflexivity|]). destruct I.
  - apply (M_but ";"%char ($"a") ($"b")); [left; reflexivity| |]; repeat split; try discriminate; try (apply has_white_no; vm_compute; reflexivity); cbn; intuition discriminate.
Qed.
Example C11_doc1_result : select_tagged_lines no_word None (Some ($"a;!b")) (nl doc1) =
  (unlines [marker; $"in a"; marker; marker; $"a again"; marker], []).
Proof. vm_compute. reflexivity. Qed.
Example C11_ex_reports : map p_msg (snd (select_tagged_lines no_word None (Some ($"b,zz,a,zz")) (nl [$"tag::a[]"; $"x"; $"end::b[]"]))) =
  [$"Mismatched end tag, expected `a` but found `b`"; $"Tag `a` was not closed"; $"Tags `b`, `zz` not found in included file"].
Proof. vm_compute. reflexivity. Qed.

(** ** What does not hold *)
(** The stated rule, that the innermost tag the specification mentions decides, is not what is done: with tags=foo;!bar a line in foo
    inside bar is dropped although foo is the innermost region. *)
Theorem C11_innermost_rule_refuted :
  let ls := [$"tag::bar[]"; $"tag::foo[]"; $"x"; $"end::foo[]"; $"end::bar[]"] in
  exists path, nested no_word [] ls [(path, $"x")] /\ by_innermost [$"foo"] [$"bar"] path /\
    fst (select_tagged_lines no_word None (Some ($"foo;!bar")) (nl ls)) = [].
Proof.
  exists [$"foo"; $"bar"]. split; [|split; [cbn; intuition discriminate|vm_compute; reflexivity]].
  apply (N_region no_word [] ($"tag::bar[]") ($"bar") [$"tag::foo[]"; $"x"; $"end::foo[]"] ($"end::bar[]") [] [([$"foo"; $"bar"], $"x")] []); try (apply dir_by; vm_compute; reflexivity); [|constructor].
  apply (N_region no_word [$"bar"] ($"tag::foo[]") ($"foo") [$"x"] ($"end::foo[]") [] [([$"foo"; $"bar"], $"x")] []); try (apply dir_by; vm_compute; reflexivity); [|constructor].
  constructor; [apply plain_by; vm_compute; reflexivity|constructor].
Qed.
Print Assumptions C11_innermost_rule_refuted.
(** In tags=a;b;!c the exclusion concerns only b: a line in a and c is kept. *)
Theorem C11_exclusion_binds_to_last_refuted :
  fst (select_tagged_lines no_word None (Some ($"a;b;!c")) (nl [$"tag::a[]"; $"tag::c[]"; $"x"; $"end::c[]"; $"end::a[]"])) = unlines [marker; marker; $"x"; marker; marker].
Proof. vm_compute. reflexivity. Qed.
Print Assumptions C11_exclusion_binds_to_last_refuted.
(** A second exclusion turns the selection around: tags=foo;!bar;!baz includes lines outside foo, and even those in bar. *)
Theorem C11_second_exclusion_refuted :
  fst (select_tagged_lines no_word None (Some ($"foo;!bar;!baz")) (nl [$"outside"; $"tag::foo[]"; $"tag::bar[]"; $"x"; $"end::bar[]"; $"end::foo[]"])) = unlines [$"outside"; marker; marker; $"x"; marker; marker] /\
  fst (select_tagged_lines no_word None (Some ($"*;!a;!b")) (nl [$"outside"; $"tag::a[]"; $"x"; $"end::a[]"])) = unlines [$"outside"; marker; $"x"; marker].
Proof. split; vm_compute; reflexivity. Qed.
Print Assumptions C11_second_exclusion_refuted.
(** The order of the parts matters: tags=!c;a keeps untagged lines, tags=a;!c does not. *)
Theorem C11_order_matters_refuted : let f t := fst (select_tagged_lines no_word None (Some t) (nl [$"outside"; $"tag::a[]"; $"x"; $"end::a[]"])) in
  f ($"!c;a") = unlines [$"outside"; marker; $"x"; marker] /\ f ($"a;!c") = unlines [marker; $"x"; marker].
Proof. split; vm_compute; reflexivity. Qed.
Print Assumptions C11_order_matters_refuted.
(** Dropped lines leave no place holder, so lines after them have other numbers than in the file; a file without any directive gets
    an extra empty line from tags=**. *)
Theorem C11_line_numbers_shift_refuted :
  fst (select_tagged_lines no_word None (Some ($"a")) (nl [$"1"; $"2"; $"tag::a[]"; $"line 4"; $"end::a[]"])) = unlines [marker; $"line 4"; marker] /\
  fst (select_tagged_lines no_word None (Some ($"**")) (unlines [$"1"])) = unlines [$"1"; []].
Proof. split; vm_compute; reflexivity. Qed.
Print Assumptions C11_line_numbers_shift_refuted.
(** What does agree with the innermost rule: only names, or only exclusions. *)
Theorem C11_innermost_rule_partial names nots path :
  (names <> [] -> (by_innermost names [] path <-> exists t, In t names /\ In t path)) /\
  (by_innermost [] nots path <-> forall t, In t nots -> ~ In t path).
Proof.
  split.
  - intro NE. induction path as [|t path IH]; cbn [by_innermost].
    + split; [congruence|intros (t & _ & [])].
    + rewrite IH. destruct (in_dec (list_eq_dec Ascii.ascii_dec) t names) as [I|I]; split.
      * intros _. exists t. split; [exact I|left; reflexivity].
      * intros _. left. split; [exact I|intros []].
      * intros [[X _]|(_ & _ & u & J & K)]; [contradiction|]. exists u. split; [exact J|right; exact K].
      * intros (u & J & [->|K]); [contradiction|]. right. split; [exact I|]. split; [intros []|]. eauto.
  - induction path as [|t path IH]; cbn [by_innermost]; [split; [intros _ t _ []|reflexivity]|]. rewrite IH. split.
    + intros [[[] _]|(_ & N & H)] u J [<-|K]; [exact (N J)|exact (H u J K)].
    + intro H. right. split; [intros []|]. split; [intro J; apply (H t J); left; reflexivity|]. intros u J K. apply (H u J). right. exact K.
Qed.
Print Assumptions C11_innermost_rule_partial.
