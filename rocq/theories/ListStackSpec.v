(** What nested lists are. *)
From Verif Require Import Base ListStackModel.

(** markers of the same list *)
Inductive same : marker -> marker -> Prop :=
| same_digits a b : same (Digits a) (Digits b)
| same_callout a b : same (Callout a) (Callout b)
| same_refl m : same m m.
Definition is_open (s : list marker) (m : marker) : Prop := exists o, In o s /\ same o m.

(** the markers of the items in the order of the document *)
Fixpoint item_markers (i : item) : list marker := match i with Item m sub => m :: (fix go (l : list item) := match l with [] => [] | x :: r => item_markers x ++ go r end) sub end.
Definition markers (l : list item) : list marker := flat_map item_markers l.
Fixpoint item_depth (i : item) : nat := match i with Item _ sub => S ((fix go (l : list item) := match l with [] => 0 | x :: r => Nat.max (item_depth x) (go r) end) sub) end.
Definition depth (l : list item) : nat := fold_right (fun i d => Nat.max (item_depth i) d) 0 l.

(** [nested open m l]: l is a list of items with the marker m, below lists with the markers open; a list nested in one of the items has a marker that is not open *)
Inductive nested : list marker -> marker -> list item -> Prop :=
| nested_end s m : nested s m []
| nested_leaf s m i rest : same m i -> nested s m rest -> nested s m (Item i [] :: rest)
| nested_sub s m i j sub1 subs rest : same m i -> ~ is_open (m :: s) j -> nested (m :: s) j (Item j sub1 :: subs) -> nested s m rest ->
    nested s m (Item i (Item j sub1 :: subs) :: rest).

(** groups of list items, with something in each *)
Definition list_groups (gs : list group) : Prop := Forall (fun g => match g with Items ms => ms <> [] | Other _ => False end) gs.
Definition group_markers (gs : list group) : list marker := flat_map (fun g => match g with Items ms => ms | Other _ => [] end) gs.
Definition no_empty_group (gs : list group) : Prop := Forall (fun g => g <> Items []) gs.
(** the input and the output as one sequence *)
Definition seq := list (marker + nat).
Definition group_seq (g : group) : seq := match g with Items ms => map inl ms | Other n => [inr n] end.
Definition input_seq (gs : list group) : seq := flat_map group_seq gs.
Definition block_seq (b : block) : seq := match b with BList l => map inl (markers l) | BOther n => [inr n] end.
Definition output_seq (bs : list block) : seq := flat_map block_seq bs.
(** blocks: each list is nested properly, and two lists do not follow each other *)
Definition good_list (l : list item) : Prop := match l with Item m _ :: _ => nested [] m l | [] => False end.
Fixpoint good_blocks (bs : list block) : Prop :=
  match bs with
  | [] => True
  | BOther _ :: r => good_blocks r
  | BList l :: r => good_list l /\ (match r with BList _ :: _ => False | _ => True end) /\ good_blocks r
  end.
