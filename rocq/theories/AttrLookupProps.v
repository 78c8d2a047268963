(** C80: which attribute list decides. *)
From Verif Require Import Base AttrLookupModel AttrLookupSpec AttrLookupProofs.
From Verif Require BlockModel.
Import ListNotations.

(** C80, lines above a block: its id, the value of each named attribute, the text at each place, the language of a listing and
    the style of a list are what the first line says that says anything about it; later lines do not replace it. *)
Theorem C80_first_line_decides : forall l,
  first_to_say has_id l (get_id l)
  /\ (forall key, first_to_say (names key) l (get_named key l))
  /\ (forall key, first_to_say (fun a => sets a key) l (named_nodes key l))
  /\ (forall n, first_to_say (places n) l (str_positional n l))
  /\ (forall n, first_to_say (fun a v => nth_error (positional a) n = Some (Some v)) l (positional_at n l))
  /\ first_to_say speaks l (source_language l)
  /\ first_to_say (styles number_words) l (number_style l)
  /\ first_to_say (styles marker_words) l (marker_style l).
Proof.
  intros l. repeat split; intros; apply find_map_first; intros.
  - reflexivity.
  - apply named1_is.
  - apply named_nodes1_is.
  - apply str_positional1_is.
  - apply positional1_is.
  - apply source_language1_is.
  - apply word_of.
  - apply word_of.
Qed.
Print Assumptions C80_first_line_decides.

(** the kind of block that a style makes of it: that of the first line whose first place names a kind it can become *)
Theorem C80_style : forall c l, first_to_say (turns c) l (block_style c l).
Proof. intros c l. apply find_map_first. intros a k. apply block_style1_is. Qed.
Print Assumptions C80_style.

(** C80, what adds up: options and words at any place hold if any line has them, the roles are those of all lines in their
    order, and a block is a listing of source code if any line says so *)
Theorem C80_lines_add_up : forall l,
  (forall x, has_option x l = true <-> exists a, In a l /\ In x (options a))
  /\ (forall x, has_str_positional x l = true <-> exists a n, In a l /\ places n a x)
  /\ (forall x, has_role x l = true <-> exists a, In a l /\ In x (roles a))
  /\ (forall x, In x (all_roles l) <-> x <> [] /\ exists a, In a l /\ In x (roles a))
  /\ (is_source l = true <-> exists a, In a l /\ (places 0 a $"source" \/ exists x, speaks a x))
  /\ (is_empty l = true <-> forall a, In a l -> a = AttrList [] [] None [] [])
  /\ (forall k, all_roles (k ++ l) = all_roles k ++ all_roles l).
Proof.
  intros l. split; [|split; [|split; [|split; [|split; [|split]]]]].
  - intros x. unfold has_option. rewrite existsb_exists. split; intros (a & I & H); exists a; split; try exact I; now apply existsb_bytes.
  - intros x. unfold has_str_positional. rewrite existsb_exists. split.
    + intros (a & I & H). apply has_str_positional1_is in H as (n & P). now exists a, n.
    + intros (a & n & I & P). exists a. split; [exact I|]. apply has_str_positional1_is. now exists n.
  - intros x. unfold has_role. rewrite existsb_exists. split; intros (a & I & H); exists a; split; try exact I; now apply existsb_bytes.
  - intros x. unfold all_roles. rewrite in_flat_map. split.
    + intros (a & I & H). apply roles1_is in H as (H & N). split; [exact N|]. now exists a.
    + intros (N & a & I & H). exists a. split; [exact I|]. now apply roles1_is.
  - unfold is_source. rewrite existsb_exists. split; intros (a & I & H); exists a; split; try exact I; now apply is_source1_is.
  - assert (E : is_empty l = forallb is_empty1 l) by (unfold is_empty; now destruct l). rewrite E, forallb_forall. split; intros H a I; specialize (H a I).
    + destruct a as [[|] [|] [|] [|] [|]]; try discriminate H. reflexivity.
    + now subst a.
  - intros k. unfold all_roles. apply flat_map_app.
Qed.
Print Assumptions C80_lines_add_up.

(** a language makes it a listing of source code *)
Theorem C80_language_is_source : forall l x, source_language l = Some x -> is_source l = true.
Proof.
  intros l x E. assert (F : first_to_say speaks l (source_language l)) by (apply find_map_first; intros; apply source_language1_is).
  rewrite E in F. destruct F as (u & a & v & -> & S & _). unfold is_source. apply existsb_exists. exists a. split; [apply in_elt|]. apply is_source1_is. right. now exists x.
Qed.
Print Assumptions C80_language_is_source.

(** C80, macros: the brackets of a block macro count as a line before all the lines above it, for every question *)
Theorem C80_brackets_first : forall p l,
  p_is_empty p l = is_empty (p :: l) /\ p_id p l = get_id (p :: l) /\ p_roles p l = all_roles (p :: l)
  /\ (forall n, p_str_positional p l n = str_positional n (p :: l)) /\ (forall n, p_positional_at p l n = positional_at n (p :: l))
  /\ (forall x, p_has_option p l x = has_option x (p :: l)) /\ (forall x, p_has_str_positional p l x = has_str_positional x (p :: l))
  /\ (forall x, p_has_role p l x = has_role x (p :: l))
  /\ (forall key, p_named p l key = get_named key (p :: l)) /\ (forall key, p_named_nodes p l key = named_nodes key (p :: l))
  /\ p_is_source p l = is_source (p :: l) /\ p_source_language p l = source_language (p :: l)
  /\ p_number_style p l = number_style (p :: l) /\ p_marker_style p l = marker_style (p :: l)
  /\ (forall c, p_block_style p l c = block_style c (p :: l)).
Proof.
  intros p l. split; [unfold p_is_empty, is_empty; cbn; now destruct l|].
  repeat apply conj; intros; try reflexivity; cbv [p_id p_str_positional p_positional_at p_named p_named_nodes p_source_language p_number_style p_marker_style p_block_style or_else get_id str_positional positional_at get_named named_nodes source_language number_style marker_style block_style]; cbn [find_map].
  all: match goal with |- match ?x with _ => _ end = _ => destruct x; reflexivity end.
Qed.
Print Assumptions C80_brackets_first.

(** C80, one line or several: attributes give the same options, roles, and, if their values are texts, the same named values
    whether they are written on one line or on several. *)
Theorem C80_one_line_or_several : forall l,
  (forall x, has_option x l = has_option x [on_one_line l]) /\ (forall x, has_role x l = has_role x [on_one_line l])
  /\ all_roles l = all_roles [on_one_line l]
  /\ (Forall plain l -> forall key, get_named key l = get_named key [on_one_line l]).
Proof.
  intros l. split; [|split; [|split]].
  - intros x. unfold has_option at 2. cbn [existsb]. rewrite orb_false_r. unfold has_option1, on_one_line. cbn [options]. rewrite <- flat_exists. reflexivity.
  - intros x. unfold has_role at 2. cbn [existsb]. rewrite orb_false_r. unfold has_role1, on_one_line. cbn [roles]. rewrite <- flat_exists. reflexivity.
  - unfold all_roles at 2. cbn [flat_map]. rewrite app_nil_r. apply roles_flat.
  - intros P key. rewrite (named_flat key l P). unfold get_named. cbn [find_map]. destruct (named1 key (on_one_line l)); reflexivity.
Qed.
Print Assumptions C80_one_line_or_several.

(** The parser of blocks (C55) asks the lists it has parsed in this way. *)
Theorem C80_in_the_parser : forall m,
  (forall n, BlockModel.positional_at n m = str_positional n (map as_parsed (BlockModel.m_attrs m)))
  /\ (forall key, BlockModel.named_at key m = get_named key (map as_parsed (BlockModel.m_attrs m)))
  /\ (forall x, BlockModel.has_positional x m = has_str_positional x (map as_parsed (BlockModel.m_attrs m)))
  /\ (forall c, BlockModel.block_style c m = block_style c (map as_parsed (BlockModel.m_attrs m))).
Proof.
  intros m. split; [|split; [|split]].
  - intros n. unfold BlockModel.positional_at, str_positional. rewrite find_map_map. apply find_map_same. intros a. apply str_at_as.
  - intros key. unfold BlockModel.named_at, get_named. rewrite find_map_map. apply find_map_same. intros a. rewrite <- named_as. now apply find_map_same.
  - intros x. unfold BlockModel.has_positional, has_str_positional. rewrite existsb_map. apply existsb_same. intros a. apply has_as.
  - intros c. unfold BlockModel.block_style, block_style. rewrite find_map_map. apply find_map_same. intros a. apply masquerade_as.
Qed.
Print Assumptions C80_in_the_parser.

(** [[quote#a.big%x,cite=Bob]] above [[#b.small,cite=Ann,url=u]]: the first id and the first cite, both roles, and the url *)
Definition line1 := AttrList [Some [Word $"quote"]; None] [($"cite", [Word $"Bob"])] (Some $"a") [$"big"] [$"x"].
Definition line2 := AttrList [None; None] [($"cite", [Word $"Ann"]); ($"url", [Word $"u"])] (Some $"b") [$"small"] [].
Example C80_case :
  get_id [line1; line2] = Some $"a" /\ get_named $"cite" [line1; line2] = Some $"Bob" /\ get_named $"url" [line1; line2] = Some $"u"
  /\ all_roles [line1; line2] = [$"big"; $"small"] /\ has_option $"x" [line2; line1] = true /\ Forall plain [line1; line2]
  /\ block_style BlockModel.CParagraph [line2; line1] = Some BlockModel.CBlockQuote
  /\ p_named line2 [line1] $"cite" = Some $"Ann".
Proof.
  repeat apply conj; try (vm_compute; reflexivity).
  repeat constructor; intros key v I; cbn in I.
  - destruct I as [[= <- <-]|[]]. exists $"Bob". now right.
  - destruct I as [[= <- <-]|[[= <- <-]|[]]]; [exists $"Ann"|exists $"u"]; now right.
Qed.
(** [[source%linenums,ruby]], [[,ruby]], and [[#id,ruby]], where [ruby] is at the first place *)
Example C80_language_case :
  source_language [line2; AttrList [Some [Word $"source"]; Some [Word $"ruby"]] [] None [] [$"linenums"]] = Some $"ruby"
  /\ source_language [AttrList [None; Some [Word $"ruby"]] [] None [] []] = Some $"ruby"
  /\ source_language [AttrList [Some [Word $"ruby"]] [] (Some $"id") [] []] = Some $"ruby".
Proof. vm_compute. auto. Qed.

(** A line nearer to the block does not replace what a line further up says: with [[cite=Bob]] above [[cite=Ann]] it is Bob. *)
Theorem C80_last_line_decides_refuted : ~ forall l a key x, names key a x -> get_named key (l ++ [a]) = Some x.
Proof.
  intros H. specialize (H [line1] line2 $"cite" $"Ann"). assert (N : names $"cite" line2 $"Ann") by (apply named1_is; vm_compute; reflexivity).
  apply H in N. vm_compute in N. discriminate.
Qed.
Print Assumptions C80_last_line_decides_refuted.

(** A value with markup does not count as one: [[cap=*a*]] above [[cap=b]] is [b], but [[cap=*a*,cap=b]] is nothing. *)
Theorem C80_markup_one_line_refuted : ~ forall l key, get_named key l = get_named key [on_one_line l].
Proof.
  intros H. specialize (H [AttrList [None] [($"cap", [Markup])] None [] []; AttrList [None] [($"cap", [Word $"b"])] None [] []] $"cap"). vm_compute in H. discriminate.
Qed.
Print Assumptions C80_markup_one_line_refuted.

(** The places begin anew on each line: [[quote]] above [[Bob]] has nothing at the second place, where [[quote,Bob]] has Bob. *)
Theorem C80_places_one_line_refuted : ~ forall l n, str_positional n l = str_positional n [on_one_line l].
Proof.
  intros H. specialize (H [AttrList [Some [Word $"quote"]] [] None [] []; AttrList [Some [Word $"Bob"]] [] None [] []] 1). vm_compute in H. discriminate.
Qed.
Print Assumptions C80_places_one_line_refuted.

(** A listing with [[source%linenums]], or an id or role, and no language is given the language [source]; that word is its style. *)
Theorem C80_style_is_no_language_refuted : ~ forall a, places 0 a $"source" -> (forall x, ~ places 1 a x) -> source_language [a] = None.
Proof.
  intros H. specialize (H (AttrList [Some [Word $"source"]] [] None [] [$"linenums"]) eq_refl).
  assert (N : forall x, ~ places 1 (AttrList [Some [Word $"source"]] [] None [] [$"linenums"]) x) by (intros x P; vm_compute in P; discriminate).
  apply H in N. vm_compute in N. discriminate.
Qed.
Print Assumptions C80_style_is_no_language_refuted.
(** without id, role or option it is given none *)
Theorem C80_style_is_no_language : forall a, ~ shorthand a -> places 0 a $"source" -> (forall x, ~ places 1 a x) -> source_language [a] = None.
Proof.
  intros a S P N. unfold source_language. cbn [find_map]. destruct (source_language1 a) as [x|] eqn:E; [|reflexivity].
  apply source_language1_is in E as [(Q & _)|(_ & _ & K & _)]; [now apply N in Q|now destruct S].
Qed.
Print Assumptions C80_style_is_no_language.

(** An empty role, as [[.#id]] gives, is asked for with success but is not among the roles. *)
Theorem C80_roles_agree_refuted : ~ forall l x, has_role x l = true -> In x (all_roles l).
Proof. intros H. specialize (H [AttrList [] [] None [[]] []] [] eq_refl). vm_compute in H. exact H. Qed.
Print Assumptions C80_roles_agree_refuted.
