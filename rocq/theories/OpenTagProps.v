(** C32: opening tags; C33: the attributes of links. *)
From Verif Require Import Base EscapeModel EscapeProofs OpenTagModel OpenTagSpec OpenTagProofs.

Definition unquoted (s : bytes) : Prop := ~ In dquote s.
(** The attributes of a tag can be read in one way only. *)
Theorem C32_reading_unique : forall elem text l1 l2, reads_as text elem l1 -> reads_as text elem l2 -> l1 = l2.
Proof. intros elem text l1 l2 (t1 & E1 & A1) (t2 & E2 & A2). subst text. apply app_inv_head, app_inv_head in E2. subst t2. exact (attrs_text_unique l1 t1 A1 l2 A2). Qed.
Print Assumptions C32_reading_unique.
(** For any calls in order the tag has the id, the attributes in the order they were added, one class attribute with every class once and in order and
    the roles behind them, and one style attribute with every style. Values of attributes and styles may be any text. *)
Theorem C32_tag : forall elem id roles calls, in_order Before calls -> Forall unquoted (classes_of calls) -> Forall unquoted roles ->
  reads_as (open_tag elem id roles calls) elem (tag_attrs id roles calls).
Proof. intros elem id roles calls O C R. eexists. split; [exact (tag_text elem id roles calls O)|]. apply text_of, tag_attrs_good; assumption. Qed.
Print Assumptions C32_tag.
(** So there is at most one class and one style attribute, and none if nothing was added. *)
Theorem C32_one_class_one_style : forall id roles calls, in_order Before calls -> (forall n v, In (CAttr n v) calls -> n <> $"class" /\ n <> $"style") ->
  length (filter (fun a => bytes_eqb (fst a) ($"class")) (tag_attrs id roles calls)) <= 1 /\ length (filter (fun a => bytes_eqb (fst a) ($"style")) (tag_attrs id roles calls)) <= 1.
Proof.
  intros id roles calls O H.
  assert (K : forall cs k, (forall n v, In (CAttr n v) cs -> n <> k) -> filter (fun a => bytes_eqb (fst a) k) (attrs_of cs) = []).
  { intros cs k N. induction cs as [|c cs IH]; [reflexivity|]. unfold attrs_of. rewrite flat_map_cons, filter_app. fold (attrs_of cs). rewrite IH by (intros n v I; apply (N n v); right; exact I). rewrite app_nil_r.
    destruct c as [p q|s|n v|]; try reflexivity. cbn [filter fst]. destruct (bytes_eqb n k) eqn:E; [|reflexivity]. apply bytes_eqb_eq in E. exfalso. apply (N n v); [left; reflexivity|exact E]. }
  assert (B : forall n v, In (CAttr n v) (before_classes calls) -> In (CAttr n v) calls).
  { intros n v. clear. induction calls as [|c cs IH]; [intros []|]. destruct c; cbn [before_classes]; try (intros []; fail); intros [E|I]; [left; exact E|right; exact (IH I)|left; exact E|right; exact (IH I)]. }
  assert (F : forall n v, In (CAttr n v) (from_classes calls) -> In (CAttr n v) calls).
  { intros n v. clear. induction calls as [|c cs IH]; [intros []|]. destruct c; cbn [from_classes]; try (intro I; exact I); intro I; right; exact (IH I). }
  assert (L : forall k n s ps f, length (filter (fun a => bytes_eqb (fst a) k) (opt_attr n s ps f)) <= if bytes_eqb n k then 1 else 0).
  { intros k n s ps f. destruct ps as [|p ps]; cbn [opt_attr filter fst]; destruct (bytes_eqb n k); cbn; lia. }
  unfold tag_attrs. split; rewrite !filter_app, !app_length.
  - rewrite (K (before_classes calls)), (K (from_classes calls)) by (intros n v I; apply (H n v); auto). pose proof (L ($"class") ($"class") ($" ") (classes_of calls ++ filter (fun r => negb (bytes_eqb r [])) roles) (fun x => x)) as L1.
    pose proof (L ($"class") ($"style") ($"; ") (styles_of calls) (push_escaped true)) as L2. change (bytes_eqb ($"class") ($"class")) with true in L1. change (bytes_eqb ($"style") ($"class")) with false in L2. cbv iota in L1, L2. destruct id; cbn [filter fst length]; try change (bytes_eqb ($"id") ($"class")) with false; cbn [length]; lia.
  - rewrite (K (before_classes calls)), (K (from_classes calls)) by (intros n v I; apply (H n v); auto). pose proof (L ($"style") ($"class") ($" ") (classes_of calls ++ filter (fun r => negb (bytes_eqb r [])) roles) (fun x => x)) as L1.
    pose proof (L ($"style") ($"style") ($"; ") (styles_of calls) (push_escaped true)) as L2. change (bytes_eqb ($"class") ($"style")) with false in L1. change (bytes_eqb ($"style") ($"style")) with true in L2. cbv iota in L1, L2. destruct id; cbn [filter fst length]; try change (bytes_eqb ($"id") ($"style")) with false; cbn [length]; lia.
Qed.
Print Assumptions C32_one_class_one_style.
Definition sample_calls : list call := [CStyle ($"a: 1"); CAttr ($"title") ($"x" ++ [dquote] ++ $"<y"); CClass [] ($"table"); CClass ($"frame-") ($"all"); CStyle ($"b: 2"); CFinishClasses; CAttr ($"lang") ($"c")].
Example C32_sample : in_order Before sample_calls /\ Forall unquoted (classes_of sample_calls) /\
  open_tag ($"div") (Some ($"i")) [$"r1"; []; $"r2"] sample_calls =
    $"<div id=" ++ quoted ($"i") ++ $" title=" ++ quoted ($"x&quot;&lt;y") ++ $" class=" ++ quoted ($"table frame-all r1 r2") ++ $" lang=" ++ quoted ($"c") ++ $" style=" ++ quoted ($"a: 1; b: 2") ++ $">" /\
  tag_attrs (Some ($"i")) [$"r1"; []; $"r2"] sample_calls = [($"id", $"i"); ($"title", $"x&quot;&lt;y"); ($"class", $"table frame-all r1 r2"); ($"lang", $"c"); ($"style", $"a: 1; b: 2")].
Proof.
  split; [cbn [in_order sample_calls]; repeat split; try discriminate; apply name_ok; reflexivity|]. split; [|split; vm_compute; reflexivity].
  repeat (constructor; [intro H; apply contains_byte_spec in H; discriminate H|]). constructor.
Qed.
(** The class taken from an attribute of the block, of the document, or the default one, in this order. *)
Theorem C32_resolved_class : forall name named doc default, name <> $"frame" ->
  resolved_class name named doc default = match named with Some v => Some v | None => match doc with Some v => Some v | None => default end end.
Proof.
  intros name named doc default N. unfold resolved_class. destruct (bytes_eqb name ($"frame")) eqn:E; [apply bytes_eqb_eq in E; contradiction|]. destruct named, doc; rewrite ?andb_false_r; reflexivity.
Qed.
Print Assumptions C32_resolved_class.
(** A class or role with a quote in it closes the attribute: roles are not escaped. *)
Theorem C32_role_injection_refuted : reads_as (open_tag ($"div") None [$"a" ++ [dquote] ++ $" onclick=" ++ [dquote] ++ $"f()"] []) ($"div") [($"class", $"a"); ($"onclick", $"f()")].
Proof.
  eexists. split; [vm_compute; reflexivity|]. apply (text_of [($"class", $"a"); ($"onclick", $"f()")]).
  repeat (constructor; [split; [discriminate|split; [apply name_ok; reflexivity|intro H; apply contains_byte_spec in H; discriminate H]]|]). constructor.
Qed.
Print Assumptions C32_role_injection_refuted.
(** Calls out of order: an attribute among the classes ends up in the class value, and classes after the end give a second class attribute. *)
Theorem C32_out_of_order_refuted :
  open_tag ($"p") None [] [CClass [] ($"a"); CAttr ($"title") ($"t")] = $"<p class=" ++ quoted ($"a title=") ++ $"t" ++ quoted [] ++ $">".
Proof. vm_compute. reflexivity. Qed.
Print Assumptions C32_out_of_order_refuted.
Theorem C32_two_class_attributes_refuted : reads_as (open_tag ($"p") None [] [CClass [] ($"a"); CFinishClasses; CClass [] ($"b")]) ($"p") [($"class", $"a"); ($"class", $"b")].
Proof.
  eexists. split; [vm_compute; reflexivity|]. apply (text_of [($"class", $"a"); ($"class", $"b")]).
  repeat (constructor; [split; [discriminate|split; [apply name_ok; reflexivity|intro H; apply contains_byte_spec in H; discriminate H]]|]). constructor.
Qed.
Print Assumptions C32_two_class_attributes_refuted.

(** C33. The tag of a link: href, classes, title, and the target and rel that are asked for. *)
Theorem C33_link_tag : forall target attrs mailto has_text blank, unquoted target ->
  (forall a, attrs = Some a -> Forall unquoted (l_roles a)) ->
  (forall a w, attrs = Some a -> blank = false -> l_window a = Some w -> unquoted w /\ (w <> $"_blank" -> l_noopener a = false -> l_nofollow a = false)) ->
  reads_as (link_tag target attrs mailto has_text blank) ($"a") (link_tag_attrs target attrs mailto has_text blank).
Proof.
  intros target attrs mailto has_text blank T R W. eexists. split; [rewrite link_text; [reflexivity|]; intros a w A Bl Wi; exact (proj2 (W a w A Bl Wi))|]. apply text_of.
  assert (HQ : unquoted ((if mailto then $"mailto:" else []) ++ push_escaped false target)).
  { intro I. apply in_app_iff in I. destruct I as [I|I]; [destruct mailto; [apply contains_byte_spec in I; discriminate I|destruct I]|].
    assert (G : forall s, ~ In dquote s -> ~ In dquote (push_escaped false s)).
    { clear. induction s as [|c r IH]; intros N I; [destruct I|]. cbn [push_escaped] in I. apply in_app_iff in I. destruct I as [I|I]; [|apply IH in I; [exact I|]; intro J; apply N; right; exact J].
      unfold escape_char in I. assert (C : c <> dquote) by (intros ->; apply N; left; reflexivity).
      assert (K : forall l, forallb (fun x => negb (Ascii.eqb x dquote)) l = true -> ~ In dquote l) by (intros l F J; rewrite forallb_forall in F; specialize (F _ J); rewrite Ascii.eqb_refl in F; discriminate F).
      destruct (Ascii.eqb c "&"%char) eqn:E1.
      - apply Ascii.eqb_eq in E1. subst c. destruct (starts_with _ r); [destruct (peek6 _) as [p|]; [destruct (is_match p)|]|]; revert I; apply K; reflexivity.
      - destruct (Ascii.eqb c "<"%char); [revert I; apply K; reflexivity|]. destruct (Ascii.eqb c ">"%char); [revert I; apply K; reflexivity|]. rewrite !andb_false_r in I. destruct I as [I|[]]. congruence. }
    exact (G target T I). }
  assert (HG : Forall good [($"href", (if mailto then $"mailto:" else []) ++ push_escaped false target)]) by (constructor; [|constructor]; split; [discriminate|split; [apply name_ok; reflexivity|exact HQ]]).
  assert (OneB : Forall good [($"class", $"bare")]) by (constructor; [|constructor]; split; [discriminate|split; [apply name_ok; reflexivity|intro H; apply contains_byte_spec in H; discriminate H]]).
  destruct attrs as [a|].
  - unfold link_tag_attrs. repeat (apply Forall_app; split).
    + destruct (l_id a); [|constructor]. constructor; [|constructor]. split; [discriminate|split; [apply name_ok; reflexivity|apply escaped_no_quote]].
    + exact HG.
    + apply class_good. apply Forall_app. split; [destruct has_text; [constructor|]; constructor; [|constructor]; intro H; apply contains_byte_spec in H; discriminate H|].
      specialize (R a eq_refl). rewrite Forall_forall in *. intros x I. apply filter_In in I. exact (R x (proj1 I)).
    + destruct (l_title a); [|constructor]. constructor; [|constructor]. split; [discriminate|split; [apply name_ok; reflexivity|apply escaped_no_quote]].
    + destruct blank.
      * repeat (constructor; [split; [discriminate|split; [apply name_ok; reflexivity|intro H; apply contains_byte_spec in H; discriminate H]]|]). constructor.
      * apply constraint_good. intros w Wi. exact (proj1 (W a w eq_refl eq_refl Wi)).
  - unfold link_tag_attrs. cbn zeta. constructor; [inversion HG; assumption|]. destruct (has_text || mailto); [constructor|exact OneB].
Qed.
Print Assumptions C33_link_tag.
Definition sample_link : link_attrs := LinkAttrs (Some ($"i")) [$"r"] (Some ($"t")) (Some ($"_blank")) false true.
Example C33_sample : link_tag_attrs ($"https://a.b/?x&y") (Some sample_link) false false false =
    [($"id", $"i"); ($"href", $"https://a.b/?x&amp;y"); ($"class", $"bare r"); ($"title", $"t"); ($"target", $"_blank"); ($"rel", $"noopener nofollow")] /\
  (forall a w, Some sample_link = Some a -> false = false -> l_window a = Some w -> unquoted w /\ (w <> $"_blank" -> l_noopener a = false -> l_nofollow a = false)).
Proof. split; [vm_compute; reflexivity|]. intros a w [= <-] _ [= <-]. split; [intro H; apply contains_byte_spec in H; discriminate H|intro X; exfalso; apply X; reflexivity]. Qed.
(** nofollow with a window other than _blank ends up in the target, and no rel is written. *)
Theorem C33_nofollow_in_target_refuted : forall w, w <> $"_blank" -> unquoted w -> exists t, link_constraint (Some w) false true ++ $">" = t /\ attrs_text [($"target", w ++ $" nofollow")] t.
Proof.
  intros w N U. eexists. split; [reflexivity|]. unfold link_constraint. destruct (bytes_eqb w ($"_blank")) eqn:E; [apply bytes_eqb_eq in E; contradiction|]. cbn [orb app].
  replace (($" target=" ++ dquote :: w ++ $" nofollow" ++ [dquote]) ++ $">") with (attrs_str [($"target", w ++ $" nofollow")] ++ $">").
  - apply text_of. constructor; [|constructor]. split; [discriminate|split; [apply name_ok; reflexivity|]]. cbn [snd]. intro I. apply in_app_iff in I. destruct I as [I|I]; [exact (U I)|apply contains_byte_spec in I; discriminate I].
  - cbn [attrs_str flat_map]. unfold attr_str, quoted. cbn [fst snd app]. rewrite app_nil_r. repeat rewrite <- app_assoc. reflexivity.
Qed.
Print Assumptions C33_nofollow_in_target_refuted.
(** The window and, in a link, the target are written without escaping quotes: they can add attributes. *)
Theorem C33_target_injection_refuted : reads_as (link_tag ($"x" ++ [dquote] ++ $" onclick=" ++ [dquote] ++ $"f()") None false true false) ($"a") [($"href", $"x"); ($"onclick", $"f()")].
Proof.
  eexists. split; [vm_compute; reflexivity|]. apply (text_of [($"href", $"x"); ($"onclick", $"f()")]).
  repeat (constructor; [split; [discriminate|split; [apply name_ok; reflexivity|intro H; apply contains_byte_spec in H; discriminate H]]|]). constructor.
Qed.
Print Assumptions C33_target_injection_refuted.
Theorem C33_window_injection_refuted : exists t, link_constraint (Some ($"x" ++ [dquote] ++ $" onclick=" ++ [dquote] ++ $"f()")) false false ++ $">" = t /\ attrs_text [($"target", $"x"); ($"onclick", $"f()")] t.
Proof.
  eexists. split; [vm_compute; reflexivity|]. apply (text_of [($"target", $"x"); ($"onclick", $"f()")]).
  repeat (constructor; [split; [discriminate|split; [apply name_ok; reflexivity|intro H; apply contains_byte_spec in H; discriminate H]]|]). constructor.
Qed.
Print Assumptions C33_window_injection_refuted.
