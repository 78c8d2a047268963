(** What a table of contents should be, on the flat sequence of headings. *)
From Verif Require Import Base SectionsModel SectionsSpec TocModel.

(** an entry: level and name *)
Definition entry := (nat * nat)%type.
(** reading the table from top to bottom *)
Fixpoint node_entries (n : node) : list entry := match n with Node l m cs => (l, m) :: flat_map node_entries cs end.
Definition toc_entries (ns : list node) : list entry := flat_map node_entries ns.
(** each entry with the entry it is below *)
Fixpoint node_owned (o : option entry) (n : node) : list (entry * option entry) :=
  match n with Node l m cs => ((l, m), o) :: flat_map (node_owned (Some (l, m))) cs end.
Definition toc_owned (ns : list node) : list (entry * option entry) := flat_map (node_owned None) ns.
(** what it should be below: the nearest entry before it that has a smaller level *)
Fixpoint nearest_smaller (before : list entry) (es : list entry) : list (entry * option entry) :=
  match es with
  | [] => []
  | e :: r => (e, find (fun b => fst b <? fst e) before) :: nearest_smaller (e :: before) r
  end.
(** no entry is more than one level deeper than the entry before it *)
Fixpoint no_jumps (es : list entry) : Prop :=
  match es with a :: ((b :: _) as r) => fst b <= S (fst a) /\ no_jumps r | _ => True end.

(** the headings an article or book shows in its table: those down to [toclevels] that are not out of sequence *)
Fixpoint shown (toclevels : nat) (before : list head) (is : list item) : list entry :=
  match is with
  | [] => []
  | IText _ :: r => shown toclevels before r
  | IHead h :: r =>
      (if (h_level h <=? toclevels) && (h_level h <=? level_of (parent_of before (h_level h)) + 1) then [(h_level h, h_name h)] else []) ++ shown toclevels (h :: before) r
  end.
(** no heading whose sections could be shown skips a level *)
Fixpoint in_sequence_above (toclevels : nat) (before : list head) (is : list item) : Prop :=
  match is with
  | [] => True
  | IText _ :: r => in_sequence_above toclevels before r
  | IHead h :: r => (h_level h < toclevels -> ~ out_of_sequence before h) /\ in_sequence_above toclevels (h :: before) r
  end.
(** all headings down to [toclevels], in order *)
Definition headings_to (toclevels : nat) (is : list item) : list entry :=
  map (fun h => (h_level h, h_name h)) (filter (fun h => h_level h <=? toclevels) (heads is)).
Definition no_special (is : list item) : Prop := forall h, In (IHead h) is -> h_special h = false.
(** the entries a list of events asks for *)
Fixpoint asked (toclevels : nat) (es : list event) : list entry :=
  match es with
  | [] => []
  | TocEntry a _ n :: r => (if a <=? toclevels then [(a, n)] else []) ++ asked toclevels r
  | _ :: r => asked toclevels r
  end.
