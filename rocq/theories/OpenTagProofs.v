From Verif Require Import Base EscapeModel EscapeProofs OpenTagModel OpenTagSpec.

Definition attr_str (a : bytes * bytes) : bytes := $" " ++ fst a ++ $"=" ++ quoted (snd a).
Definition attrs_str (l : list (bytes * bytes)) : bytes := flat_map attr_str l.
Lemma attrs_str_app l m : attrs_str (l ++ m) = attrs_str l ++ attrs_str m.
Proof. apply flat_map_app. Qed.
Definition good (a : bytes * bytes) : Prop := fst a <> [] /\ Forall name_char (fst a) /\ ~ In dquote (snd a).
Lemma text_of l : Forall good l -> attrs_text l (attrs_str l ++ $">").
Proof.
  induction 1 as [|[n v] l (A & B & C) F IH]; [exact at_end|]. cbn [attrs_str flat_map]. unfold attr_str at 1. cbn [fst snd].
  replace (($" " ++ n ++ $"=" ++ quoted v) ++ flat_map attr_str l) with ($" " ++ n ++ $"=" ++ quoted v ++ flat_map attr_str l) by (rewrite <- !app_assoc; reflexivity).
  rewrite <- !app_assoc. exact (at_attr n v l _ A B C IH).
Qed.

Lemma html_attr_str n v : html_attr n v = attr_str (n, push_escaped true v).
Proof. reflexivity. Qed.

(** classes and styles *)
Definition spaced (sep : bytes) (ps : list bytes) : bytes := flat_map (fun p => sep ++ p) ps.
Lemma joined_with_spaced sep p ps : joined_with sep (p :: ps) = p ++ spaced sep ps.
Proof. revert p. induction ps as [|q ps IH]; intro p; [cbn; symmetry; apply app_nil_r|]. change (joined_with sep (p :: q :: ps)) with (p ++ sep ++ joined_with sep (q :: ps)). rewrite IH. cbn [spaced flat_map]. rewrite <- app_assoc. reflexivity. Qed.
Lemma joined_spaced sep p ps : joined sep p ps = p ++ spaced sep ps.
Proof. revert p. induction ps as [|q ps IH]; intro p; [cbn; symmetry; apply app_nil_r|]. change (joined sep p (q :: ps)) with (joined sep (p ++ sep ++ q) ps). rewrite IH. cbn [spaced flat_map]. rewrite <- !app_assoc. reflexivity. Qed.
Lemma spaced_app sep x y : spaced sep (x ++ y) = spaced sep x ++ spaced sep y.
Proof. apply flat_map_app. Qed.
Definition opt_joined (sep : bytes) (ps : list bytes) : option bytes := match ps with [] => None | p :: r => Some (joined_with sep (p :: r)) end.
Lemma opt_joined_app sep ps s : opt_joined sep (ps ++ [s]) = Some (match opt_joined sep ps with None => s | Some st => st ++ sep ++ s end).
Proof.
  destruct ps as [|p ps]; [reflexivity|]. cbn [app opt_joined]. f_equal. rewrite !joined_with_spaced, spaced_app. cbn [spaced flat_map]. rewrite app_nil_r, <- app_assoc. reflexivity.
Qed.
Definition style_str (ss : list bytes) : bytes := attrs_str (opt_attr ($"style") ($"; ") ss (push_escaped true)).
Lemma finish_closed elembuf ss : finish (Tag elembuf false None (opt_joined ($"; ") ss)) = elembuf ++ style_str ss ++ $">".
Proof.
  unfold finish, finish_classes. cbn [append_classes opened_classes styles buf]. destruct ss as [|s ss]; [reflexivity|]. cbn [opt_joined push_html_attr push_str buf style_str opt_attr attrs_str flat_map].
  rewrite app_nil_r, html_attr_str, <- app_assoc. reflexivity.
Qed.
Definition class_str (cs : list bytes) : bytes := attrs_str (opt_attr ($"class") ($" ") cs (fun x => x)).
Lemma class_str_cons c cs : class_str (c :: cs) = $" class=" ++ [dquote] ++ c ++ spaced ($" ") cs ++ [dquote].
Proof. unfold class_str. cbn [opt_attr attrs_str flat_map]. rewrite app_nil_r. unfold attr_str. cbn [fst snd]. rewrite joined_with_spaced. unfold quoted. rewrite <- !app_assoc. reflexivity. Qed.

Lemma flat_map_cons {A B} (f : A -> list B) x l : flat_map f (x :: l) = f x ++ flat_map f l. Proof. reflexivity. Qed.
(** after the classes are finished *)
Lemma run_after calls : forall bf ss, in_order After calls ->
  finish (fold_left apply_call calls (Tag bf false None (opt_joined ($"; ") ss))) = bf ++ attrs_str (attrs_of calls) ++ style_str (ss ++ styles_of calls) ++ $">" /\ classes_of calls = [].
Proof.
  induction calls as [|c calls IH]; intros bf ss O; [split; [|reflexivity]; cbn [fold_left attrs_of flat_map attrs_str styles_of]; rewrite app_nil_r; apply finish_closed|]. cbn [fold_left].
  destruct c as [p k|s|n v|]; cbn [in_order] in O.
  - destruct O as [O _]. congruence.
  - cbn [apply_call]. unfold push_style. cbn [buf opened_classes append_classes styles]. rewrite <- opt_joined_app. destruct (IH bf (ss ++ [s]) O) as [E C]. split; [|exact C]. rewrite E. cbn [attrs_of styles_of flat_map app]. rewrite <- app_assoc. reflexivity.
  - destruct O as (_ & _ & _ & O). cbn [apply_call]. unfold push_html_attr, push_str. cbn [buf opened_classes append_classes styles]. destruct (IH (bf ++ html_attr n v) ss O) as [E C]. split; [|exact C].
    rewrite E. unfold attrs_of. rewrite flat_map_cons. cbn [app]. unfold attrs_str. rewrite flat_map_cons, html_attr_str, <- !app_assoc. reflexivity.
  - cbn [apply_call]. unfold finish_classes. cbn [buf opened_classes append_classes styles]. exact (IH bf ss O).
Qed.
(** while the classes are written; the roles rs will follow *)
Lemma run_classes rs calls : forall bf ss, in_order Classes calls ->
  finish (fold_left apply_call calls (Tag bf true (opt_joined ($" ") rs) (opt_joined ($"; ") ss))) = bf ++ spaced ($" ") (classes_of calls ++ rs) ++ [dquote] ++ attrs_str (attrs_of calls) ++ style_str (ss ++ styles_of calls) ++ $">".
Proof.
  assert (F : forall bf ss, finish_classes (Tag bf true (opt_joined ($" ") rs) (opt_joined ($"; ") ss)) = Tag (bf ++ spaced ($" ") rs ++ [dquote]) false None (opt_joined ($"; ") ss)).
  { intros bf ss. unfold finish_classes. cbn [append_classes opened_classes]. destruct rs as [|r rs]; cbn [opt_joined]; cbn [buf opened_classes append_classes styles push_str].
    - reflexivity.
    - f_equal. unfold push_str. cbn [buf]. rewrite joined_with_spaced. cbn [spaced flat_map]. rewrite <- !app_assoc. reflexivity. }
  induction calls as [|c calls IH]; intros bf ss O.
  - cbn [fold_left classes_of attrs_of styles_of flat_map app attrs_str]. rewrite app_nil_r. 
    assert (K : finish (Tag bf true (opt_joined ($" ") rs) (opt_joined ($"; ") ss)) = finish (finish_classes (Tag bf true (opt_joined ($" ") rs) (opt_joined ($"; ") ss)))) by (rewrite F; unfold finish at 1; rewrite F; reflexivity).
    rewrite K, F, finish_closed, <- !app_assoc. reflexivity.
  - cbn [fold_left]. destruct c as [p k|s|n v|]; cbn [in_order] in O.
    + destruct O as [_ O]. cbn [apply_call]. unfold push_prefixed_class, push_str. cbn [buf opened_classes append_classes styles]. rewrite (IH _ ss O). unfold classes_of. rewrite flat_map_cons. cbn [app spaced flat_map attrs_of styles_of]. rewrite <- !app_assoc. reflexivity.
    + cbn [apply_call]. unfold push_style. cbn [buf opened_classes append_classes styles]. rewrite <- opt_joined_app, (IH bf (ss ++ [s]) O). cbn [attrs_of styles_of classes_of flat_map app]. rewrite <- !app_assoc. reflexivity.
    + destruct O as [O _]. congruence.
    + cbn [apply_call]. rewrite F. destruct (run_after calls (bf ++ spaced ($" ") rs ++ [dquote]) ss O) as [E C]. rewrite E. cbn [attrs_of styles_of classes_of flat_map app].
      unfold classes_of in C. rewrite C. cbn [app]. rewrite <- !app_assoc. reflexivity.
Qed.
Lemma run_before rs calls : forall bf ss, in_order Before calls ->
  finish (fold_left apply_call calls (Tag bf false (opt_joined ($" ") rs) (opt_joined ($"; ") ss))) =
  bf ++ attrs_str (attrs_of (before_classes calls)) ++ class_str (classes_of calls ++ rs) ++ attrs_str (attrs_of (from_classes calls)) ++ style_str (ss ++ styles_of calls) ++ $">".
Proof.
  assert (F : forall bf ss, finish_classes (Tag bf false (opt_joined ($" ") rs) (opt_joined ($"; ") ss)) = Tag (bf ++ class_str rs) false None (opt_joined ($"; ") ss)).
  { intros bf ss. unfold finish_classes. cbn [append_classes opened_classes]. destruct rs as [|r rs]; cbn [opt_joined]; cbn [buf opened_classes append_classes styles push_str].
    - cbn [class_str opt_attr attrs_str flat_map]. rewrite app_nil_r. reflexivity.
    - f_equal. unfold push_str. cbn [buf]. rewrite class_str_cons, joined_with_spaced, <- !app_assoc. reflexivity. }
  induction calls as [|c calls IH]; intros bf ss O.
  - cbn [fold_left classes_of attrs_of styles_of before_classes from_classes flat_map app attrs_str]. rewrite app_nil_r.
    assert (K : finish (Tag bf false (opt_joined ($" ") rs) (opt_joined ($"; ") ss)) = finish (finish_classes (Tag bf false (opt_joined ($" ") rs) (opt_joined ($"; ") ss)))) by (rewrite F; unfold finish at 1; rewrite F; reflexivity).
    rewrite K, F, finish_closed, <- !app_assoc. reflexivity.
  - cbn [fold_left]. destruct c as [p k|s|n v|]; cbn [in_order] in O.
    + destruct O as [_ O]. cbn [apply_call]. unfold push_prefixed_class, push_str. cbn [buf opened_classes append_classes styles before_classes from_classes].
      rewrite (run_classes rs calls _ ss O). cbn [attrs_of flat_map attrs_str app]. unfold classes_of. rewrite flat_map_cons. cbn [app]. rewrite class_str_cons. cbn [styles_of flat_map app]. rewrite <- !app_assoc. cbn [app]. rewrite <- !app_assoc. reflexivity.
    + cbn [apply_call]. unfold push_style. cbn [buf opened_classes append_classes styles]. rewrite <- opt_joined_app, (IH bf (ss ++ [s]) O). cbn [attrs_of styles_of classes_of before_classes from_classes flat_map app]. rewrite <- !app_assoc. reflexivity.
    + destruct O as (_ & _ & _ & O). cbn [apply_call]. unfold push_html_attr, push_str. cbn [buf opened_classes append_classes styles]. rewrite (IH _ ss O).
      cbn [before_classes from_classes classes_of styles_of flat_map app]. unfold attrs_of at 3. rewrite flat_map_cons. cbn [app]. unfold attrs_str at 3. rewrite flat_map_cons, html_attr_str, <- !app_assoc. reflexivity.
    + cbn [apply_call]. rewrite F. destruct (run_after calls (bf ++ class_str rs) ss O) as [E C]. rewrite E. cbn [before_classes from_classes attrs_of styles_of classes_of flat_map app attrs_str].
      unfold classes_of in C. rewrite C. cbn [app]. rewrite <- !app_assoc. reflexivity.
Qed.
Lemma new_tag elem id roles : new elem id roles =
  Tag ($"<" ++ elem ++ attrs_str (match id with Some i => [($"id", push_escaped true i)] | None => [] end)) false (opt_joined ($" ") (filter (fun r => negb (bytes_eqb r [])) roles)) None.
Proof.
  unfold new. assert (J : forall t, opened_classes t = false -> append_classes t = None -> styles t = None ->
    match filter (fun r => negb (bytes_eqb r [])) roles with [] => t | r :: rs => Tag (buf t) (opened_classes t) (Some (joined ($" ") r rs)) (styles t) end = Tag (buf t) false (opt_joined ($" ") (filter (fun r => negb (bytes_eqb r [])) roles)) None).
  { intros [bf o a s]. cbn [opened_classes append_classes styles buf]. intros -> -> ->. destruct (filter _ roles) as [|r rs]; [reflexivity|]. cbn [opt_joined]. rewrite joined_spaced, joined_with_spaced. reflexivity. }
  destruct id as [i|]; cbn zeta; rewrite J by reflexivity; cbn [attrs_str flat_map].
  - rewrite app_nil_r. unfold push_html_attr, push_str. cbn [buf]. rewrite html_attr_str, <- !app_assoc. reflexivity.
  - cbn [buf]. rewrite app_nil_r. reflexivity.
Qed.
Lemma tag_text elem id roles calls : in_order Before calls -> open_tag elem id roles calls = $"<" ++ elem ++ attrs_str (tag_attrs id roles calls) ++ $">".
Proof.
  intro O. unfold open_tag. rewrite new_tag. change (@None bytes) with (opt_joined ($"; ") []).
  assert (X : forall bf rs, finish (fold_left apply_call calls (Tag bf false (opt_joined ($" ") rs) (opt_joined ($"; ") []))) =
    bf ++ attrs_str (attrs_of (before_classes calls)) ++ class_str (classes_of calls ++ rs) ++ attrs_str (attrs_of (from_classes calls)) ++ style_str ([] ++ styles_of calls) ++ $">") by (intros bf rs; exact (run_before rs calls bf [] O)).
  rewrite X. unfold tag_attrs. rewrite !attrs_str_app. unfold class_str, style_str. rewrite <- !app_assoc. reflexivity.
Qed.

(** ** goodness *)
Lemma escaped_no_quote v : ~ In dquote (push_escaped true v).
Proof. intro I. apply no_markup in I. destruct I as (_ & _ & C). destruct (C eq_refl). contradiction. Qed.
Lemma name_ok s : forallb (fun c => existsb (Ascii.eqb c) ($"abcdefghijklmnopqrstuvwxyz-")) s = true -> Forall name_char s.
Proof. intro H. rewrite forallb_forall in H. apply Forall_forall. intros c I. specialize (H c I). apply existsb_exists in H. destruct H as (x & Ix & E). apply Ascii.eqb_eq in E. subst. exact Ix. Qed.
Lemma attrs_good p calls : in_order p calls -> Forall good (attrs_of calls).
Proof.
  revert p. induction calls as [|c calls IH]; intros p O; [constructor|]. destruct c as [pr k|s|n v|]; cbn [in_order] in O; unfold attrs_of; rewrite flat_map_cons; cbn [app].
  - exact (IH _ (proj2 O)).
  - exact (IH _ O).
  - destruct O as (_ & N & F & O). constructor; [|exact (IH _ O)]. repeat split; [exact N|exact F|apply escaped_no_quote].
  - exact (IH _ O).
Qed.
Lemma before_in_order p calls : in_order p calls -> in_order p (before_classes calls).
Proof. revert p. induction calls as [|c calls IH]; intros p O; [exact I|]. destruct c; cbn [in_order before_classes] in *; try exact I; [exact (IH _ O)|]. destruct O as (A & B & C & O). repeat split; auto. Qed.
Lemma from_in_order p calls : in_order p calls -> in_order p (from_classes calls).
Proof. revert p. induction calls as [|c calls IH]; intros p O; [exact I|]. destruct c; cbn [from_classes] in *; try exact O; [exact (IH _ O)|]. destruct O as (A & B & C & O). exact (IH _ O). Qed.
Lemma joined_no_quote sep ps : ~ In dquote sep -> Forall (fun p => ~ In dquote p) ps -> ~ In dquote (joined_with sep ps).
Proof.
  intros S F. destruct F as [|p ps P F]; [intros []|]. rewrite joined_with_spaced. rewrite in_app_iff. intros [H|H]; [contradiction|].
  unfold spaced in H. rewrite in_flat_map in H. destruct H as (q & Iq & H). rewrite in_app_iff in H. rewrite Forall_forall in F. destruct H as [H|H]; [contradiction|exact (F q Iq H)].
Qed.
Lemma opt_good name sep ps f : name <> [] -> Forall name_char name -> ~ In dquote (f (joined_with sep ps)) -> Forall good (opt_attr name sep ps f).
Proof. intros A B C. destruct ps; [constructor|]. constructor; [|constructor]. split; [exact A|]. split; [exact B|exact C]. Qed.
Lemma class_good cs : Forall (fun p => ~ In dquote p) cs -> Forall good (opt_attr ($"class") ($" ") cs (fun x => x)).
Proof. intro F. apply opt_good; [discriminate|apply name_ok; reflexivity|]. apply joined_no_quote; [|exact F]. cbn. intros [H|[]]; discriminate. Qed.
Lemma tag_attrs_good id roles calls : in_order Before calls -> Forall (fun p => ~ In dquote p) (classes_of calls) -> Forall (fun p => ~ In dquote p) roles -> Forall good (tag_attrs id roles calls).
Proof.
  intros O C R. unfold tag_attrs. repeat (apply Forall_app; split).
  - destruct id; [|constructor]. constructor; [|constructor]; split; [discriminate|split; [apply name_ok; reflexivity|apply escaped_no_quote]].
  - exact (attrs_good _ _ (before_in_order _ _ O)).
  - apply class_good. apply Forall_app. split; [exact C|]. rewrite Forall_forall in *. intros x I. apply filter_In in I. apply R, I.
  - exact (attrs_good _ _ (from_in_order _ _ O)).
  - apply opt_good; [discriminate|apply name_ok; reflexivity|apply escaped_no_quote].
Qed.

(** ** links *)
Lemma link_constraint_str window noopener nofollow :
  (forall w, window = Some w -> w <> $"_blank" -> noopener = false -> nofollow = false) ->
  link_constraint window noopener nofollow = attrs_str (constraint_attrs window noopener nofollow).
Proof.
  intro H. unfold link_constraint, constraint_attrs, rel_words. destruct window as [w|].
  - destruct (bytes_eqb w ($"_blank") || noopener) eqn:E.
    + destruct nofollow; cbn [app opt_attr attrs_str flat_map]; unfold attr_str; cbn [fst snd]; unfold quoted; rewrite <- !app_assoc; reflexivity.
    + apply orb_false_iff in E. destruct E as [E ->]. rewrite (H w eq_refl); [|intros ->; rewrite bytes_eqb_refl in E; discriminate|reflexivity]. cbn [app opt_attr attrs_str flat_map]; unfold attr_str; cbn [fst snd]; unfold quoted; rewrite <- !app_assoc; reflexivity.
  - destruct nofollow; reflexivity.
Qed.
Lemma constraint_good window noopener nofollow : (forall w, window = Some w -> ~ In dquote w) -> Forall good (constraint_attrs window noopener nofollow).
Proof.
  intro W. unfold constraint_attrs. apply Forall_app. split.
  - destruct window as [w|]; [|constructor]. constructor; [|constructor]; split; [discriminate|split; [apply name_ok; reflexivity|exact (W w eq_refl)]].
  - apply opt_good; [discriminate|apply name_ok; reflexivity|]. apply joined_no_quote; [cbn; intros [H|[]]; discriminate|]. unfold rel_words. apply Forall_app. split.
    + destruct window; [|constructor]. destruct (_ || _); [|constructor]. constructor; [|constructor]. cbn. intro H. repeat (destruct H as [H|H]; [discriminate|]). destruct H.
    + destruct nofollow; [|constructor]. constructor; [|constructor]. cbn. intro H. repeat (destruct H as [H|H]; [discriminate|]). destruct H.
Qed.
(** attributes are read back uniquely *)
Lemma split_at_quote v1 v2 t1 t2 : ~ In dquote v1 -> ~ In dquote v2 -> v1 ++ dquote :: t1 = v2 ++ dquote :: t2 -> v1 = v2 /\ t1 = t2.
Proof.
  revert v2. induction v1 as [|c v1 IH]; intros [|d v2] N1 N2 E.
  - injection E as E. auto.
  - cbn in E. injection E as <- _. exfalso. apply N2. left. reflexivity.
  - cbn in E. injection E as -> _. exfalso. apply N1. left. reflexivity.
  - cbn in E. injection E as <- E. destruct (IH v2) as [-> ->]; [intro I; apply N1; right; exact I|intro I; apply N2; right; exact I|exact E|auto].
Qed.
Lemma split_at_eq n1 n2 t1 t2 : Forall name_char n1 -> Forall name_char n2 -> n1 ++ "="%char :: t1 = n2 ++ "="%char :: t2 -> n1 = n2 /\ t1 = t2.
Proof.
  assert (K : ~ name_char "="%char) by (unfold name_char; cbn; intro H; repeat (destruct H as [H|H]; [discriminate|]); destruct H).
  intro F. revert n2. induction F as [|c n1 C F IH]; intros n2 F2 E; destruct F2 as [|d n2 D F2].
  - injection E as E. auto.
  - cbn in E. injection E as <- _. contradiction.
  - cbn in E. injection E as -> _. contradiction.
  - cbn in E. injection E as <- E. destruct (IH n2 F2 E) as [-> ->]. auto.
Qed.
Lemma attrs_text_unique l1 t : attrs_text l1 t -> forall l2, attrs_text l2 t -> l1 = l2.
Proof.
  assert (K : forall l2 u, attrs_text l2 u -> (l2 = [] /\ u = $">") \/ exists n v l t, l2 = (n, v) :: l /\ n <> [] /\ Forall name_char n /\ ~ In dquote v /\ attrs_text l t /\ u = $" " ++ n ++ "="%char :: dquote :: v ++ dquote :: t).
  { destruct 1 as [|n v l u N F Q A]; [left; auto|]. right. exists n, v, l, u. unfold quoted. rewrite <- !app_assoc. repeat split; auto. }
  induction 1 as [|n v l t N F Q A IH]; intros l2 B; apply K in B; destruct B as [[-> E]|(n2 & v2 & l2' & t2 & -> & N2 & F2 & Q2 & A2 & E)]; try discriminate E; [reflexivity|].
  unfold quoted in E. rewrite <- !app_assoc in E. cbn [b list_ascii_of_string app] in E. injection E as E.
  apply split_at_eq in E; [|assumption|assumption]. destruct E as [-> E]. injection E as E.
  apply split_at_quote in E; [|assumption|assumption]. destruct E as [-> ->]. rewrite (IH _ A2). reflexivity.
Qed.
Lemma finish_before rs bf st : finish_classes (Tag bf false (opt_joined ($" ") rs) st) = Tag (bf ++ class_str rs) false None st.
Proof.
  unfold finish_classes. cbn [append_classes opened_classes]. destruct rs as [|r rs]; cbn [opt_joined]; cbn [buf opened_classes append_classes styles push_str].
  - cbn [class_str opt_attr attrs_str flat_map]. rewrite app_nil_r. reflexivity.
  - f_equal. unfold push_str. cbn [buf]. rewrite class_str_cons, joined_with_spaced, <- !app_assoc. reflexivity.
Qed.
Lemma finish_one_class k rs bf st : finish_classes (push_prefixed_class [] k (Tag bf false (opt_joined ($" ") rs) st)) = Tag (bf ++ class_str (k :: rs)) false None st.
Proof.
  unfold push_prefixed_class, finish_classes, push_str. cbn [append_classes opened_classes buf styles app]. rewrite class_str_cons. destruct rs as [|r rs]; cbn [opt_joined]; cbn [buf opened_classes append_classes styles push_str].
  - cbn [spaced flat_map app]. repeat rewrite <- app_assoc. reflexivity.
  - f_equal. rewrite joined_with_spaced. unfold spaced. rewrite flat_map_cons. repeat rewrite <- app_assoc. cbn [app]. repeat rewrite <- app_assoc. reflexivity.
Qed.
Lemma link_text target attrs mailto has_text blank :
  (forall a w, attrs = Some a -> blank = false -> l_window a = Some w -> w <> $"_blank" -> l_noopener a = false -> l_nofollow a = false) ->
  link_tag target attrs mailto has_text blank = $"<a" ++ attrs_str (link_tag_attrs target attrs mailto has_text blank) ++ $">".
Proof.
  intro H. unfold link_tag. set (href := $" href=" ++ [dquote] ++ (if mailto then $"mailto:" else []) ++ push_escaped false target ++ [dquote]).
  assert (HR : forall l, attrs_str (($"href", (if mailto then $"mailto:" else []) ++ push_escaped false target) :: l) = href ++ attrs_str l).
  { intro l. unfold attrs_str. rewrite flat_map_cons. unfold attr_str at 1, href, quoted. cbn [fst snd]. repeat rewrite <- app_assoc. reflexivity. }
  destruct attrs as [a|].
  - cbn zeta. rewrite new_tag. unfold push_str at 2. cbn [buf opened_classes append_classes styles andb]. set (rs := filter _ (l_roles a)).
    set (bf := ($"<" ++ $"a" ++ attrs_str match l_id a with Some i => [($"id", push_escaped true i)] | None => [] end) ++ href).
    assert (C : finish_classes (if has_text then Tag bf false (opt_joined ($" ") rs) None else push_prefixed_class [] ($"bare") (Tag bf false (opt_joined ($" ") rs) None)) =
      Tag (bf ++ class_str ((if has_text then [] else [$"bare"]) ++ rs)) false None None) by (destruct has_text; [apply finish_before|apply finish_one_class]).
    unfold push_link_attrs. cbn zeta. rewrite C. set (cs := (if has_text then [] else [$"bare"]) ++ rs).
    assert (T : match l_title a with Some v => push_html_attr ($"title") v (Tag (bf ++ class_str cs) false None None) | None => Tag (bf ++ class_str cs) false None None end =
      Tag (bf ++ class_str cs ++ attrs_str match l_title a with Some v => [($"title", push_escaped true v)] | None => [] end) false None None).
    { destruct (l_title a); [unfold push_html_attr, push_str; cbn [buf opened_classes append_classes styles attrs_str flat_map]; rewrite app_nil_r, html_attr_str, <- app_assoc; reflexivity|cbn [attrs_str flat_map]; rewrite app_nil_r; reflexivity]. }
    rewrite T. 
    assert (E : forall x, finish (push_str x (Tag (bf ++ class_str cs ++ attrs_str match l_title a with Some v => [($"title", push_escaped true v)] | None => [] end) false None None)) =
      $"<a" ++ attrs_str (match l_id a with Some i => [($"id", push_escaped true i)] | None => [] end) ++ href ++ class_str cs ++ attrs_str match l_title a with Some v => [($"title", push_escaped true v)] | None => [] end ++ x ++ $">").
    { intro x. unfold push_str. cbn [buf opened_classes append_classes styles]. change (@None bytes) with (opt_joined ($"; ") []) at 2. rewrite finish_closed. cbn [style_str opt_attr attrs_str flat_map app]. unfold bf. repeat rewrite <- app_assoc. reflexivity. }
    assert (HR0 : attrs_str [($"href", (if mailto then $"mailto:" else []) ++ push_escaped false target)] = href) by (rewrite HR; apply app_nil_r).
    unfold link_tag_attrs. rewrite !attrs_str_app, HR0. fold rs. fold cs. fold (class_str cs).
    destruct blank.
    + rewrite E. repeat rewrite <- app_assoc. repeat f_equal.
    + rewrite E. rewrite (link_constraint_str (l_window a) (l_noopener a) (l_nofollow a)) by (intros w W; exact (H a w eq_refl eq_refl W)). repeat rewrite <- app_assoc. reflexivity.
  - cbn zeta. change (new ($"a") None []) with (Tag ($"<a") false None None). unfold push_str. cbn [buf opened_classes append_classes styles]. unfold link_tag_attrs.
    assert (FP : forall bf, finish (Tag bf false None None) = bf ++ $">") by (intro bf; reflexivity).
    destruct has_text, mailto; cbn [negb andb orb].
    1-3: rewrite FP, HR; cbn [attrs_str flat_map]; repeat rewrite <- app_assoc; reflexivity.
    unfold finish. change (Tag ($"<a" ++ href) false None None) with (Tag ($"<a" ++ href) false (opt_joined ($" ") []) None). rewrite finish_one_class, HR. cbn zeta. cbn [styles buf]. repeat rewrite <- app_assoc. reflexivity.
Qed.
