(** What C80 says: which of the attribute lists written above a block, or in the brackets of a macro, decides. *)
From Verif Require Import Base AttrLookupModel.
From Verif Require AttrListModel BlockModel.
Import ListNotations.

(** [r] is what the first of the lists that says anything says *)
Definition first_to_say {A B} (says : A -> B -> Prop) (l : list A) (r : option B) : Prop :=
  match r with
  | Some b => exists before a after, l = before ++ a :: after /\ says a b /\ forall x c, In x before -> ~ says x c
  | None => forall x c, In x l -> ~ says x c
  end.

(** a value that is a text: nothing, or one text without markup *)
Definition reads (v : value) (x : bytes) : Prop := v = [] /\ x = [] \/ v = [Word x].
(** the first attribute of that name in a list has that value *)
Definition sets (a : attr_list) (key : bytes) (v : value) : Prop :=
  exists before after, named a = before ++ (key, v) :: after /\ ~ In key (map fst before).
Definition names (key : bytes) (a : attr_list) (x : bytes) : Prop := exists v, sets a key v /\ reads v x.
(** the list has that text without markup at that place, counted from 0 *)
Definition places (n : nat) (a : attr_list) (x : bytes) : Prop := nth_error (positional a) n = Some (Some [Word x]).
Definition has_id (a : attr_list) (x : bytes) : Prop := id a = Some x.
(** an id, a role or an option *)
Definition shorthand (a : attr_list) : Prop := id a <> None \/ roles a <> [] \/ options a <> [].
(** the language a list gives: what follows [source] or an empty first place; otherwise, beside an id, a role or an option,
    the first place itself *)
Definition speaks (a : attr_list) (x : bytes) : Prop :=
  places 1 a x /\ (places 0 a $"source" \/ forall y, ~ places 0 a y)
  \/ places 0 a x /\ x <> $"listing" /\ shorthand a /\ ~ (x = $"source" /\ exists y, places 1 a y).
(** one of those words at the first place *)
Definition styles (words : list bytes) (a : attr_list) (x : bytes) : Prop := places 0 a x /\ In x words.
Definition number_words : list bytes := [$"arabic"; $"decimal"; $"loweralpha"; $"upperalpha"; $"lowerroman"; $"upperroman"; $"lowergreek"].
Definition marker_words : list bytes := [$"square"; $"circle"; $"disc"; $"none"; $"no-bullet"; $"unstyled"].

(** all the attributes of the lists in one list *)
Definition on_one_line (l : list attr_list) : attr_list :=
  AttrList (flat_map positional l) (flat_map named l) (get_id l) (flat_map roles l) (flat_map options l).
(** every named attribute has a text for its value *)
Definition plain (a : attr_list) : Prop := forall key v, In (key, v) (named a) -> exists x, reads v x.

(** the kinds of block that the first place can name, and the blocks that can become them *)
Definition kind_words : list (bytes * BlockModel.context) :=
  [($"sidebar", BlockModel.CSidebar); ($"quote", BlockModel.CBlockQuote); ($"listing", BlockModel.CListing); ($"source", BlockModel.CListing);
   ($"literal", BlockModel.CLiteral); ($"pass", BlockModel.CPassthrough); ($"comment", BlockModel.CComment); ($"verse", BlockModel.CVerse);
   ($"example", BlockModel.CExample); ($"normal", BlockModel.CParagraph); ($"CAUTION", BlockModel.CAdmonition $"CAUTION");
   ($"IMPORTANT", BlockModel.CAdmonition $"IMPORTANT"); ($"NOTE", BlockModel.CAdmonition $"NOTE"); ($"TIP", BlockModel.CAdmonition $"TIP");
   ($"WARNING", BlockModel.CAdmonition $"WARNING")].
Definition may_become (c k : BlockModel.context) : Prop :=
  c = BlockModel.COpen \/ c = BlockModel.CParagraph
  \/ (c = BlockModel.CListing /\ k = BlockModel.CLiteral) \/ (c = BlockModel.CLiteral /\ k = BlockModel.CListing)
  \/ (c = BlockModel.CBlockQuote /\ k = BlockModel.CVerse) \/ (c = BlockModel.CExample /\ exists x, k = BlockModel.CAdmonition x).
Definition turns (c : BlockModel.context) (a : attr_list) (k : BlockModel.context) : Prop :=
  exists x, places 0 a x /\ In (x, k) kind_words /\ may_become c k.

(** a list as the parser of attribute lists (C39) gives it, each value being the text of its tokens *)
Definition as_parsed (a : AttrListModel.attrs) : attr_list :=
  AttrList (map (option_map (fun v => [Word (LineModel.text_of v)])) (AttrListModel.positional a))
           (map (fun p => (fst p, [Word (LineModel.text_of (snd p))])) (AttrListModel.named a))
           (AttrListModel.aid a) (AttrListModel.roles a) (AttrListModel.options a).
