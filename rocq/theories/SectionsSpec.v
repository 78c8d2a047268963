(** What the sections of a document are, stated on the flat sequence of its headings and blocks. *)
From Verif Require Import Base SectionsModel.

Inductive item := IHead (h : head) | IText (n : nat).
Definition chunk_items (c : chunk) : list item := map IHead (fst c) ++ match snd c with Some n => [IText n] | None => [] end.
Definition document_items (cs : list chunk) : list item := flat_map chunk_items cs.
(** what the parser has not taken, lines put back among it *)
Definition input_items (s : input) : list item := match peeked s with Some c => chunk_items c | None => [] end ++ document_items (unread s).

(** reading the result from the beginning to the end *)
Fixpoint block_items (x : block) : list item :=
  match x with Txt n => [IText n] | Sec h _ bs => IHead h :: flat_map block_items bs end.
Definition blocks_items (bs : list block) : list item := flat_map block_items bs.
Definition part_items (p : part) : list item := match p with Part h i q => IHead h :: blocks_items i ++ blocks_items q end.
Definition content_items (c : content) : list item :=
  match c with
  | Blocks bs => blocks_items bs
  | Sections p q => blocks_items p ++ blocks_items q
  | Parts p o ps z => blocks_items p ++ blocks_items o ++ flat_map part_items ps ++ blocks_items z
  end.

(** Which section a heading or block belongs to directly. *)
Definition parent_of (before : list head) (level : nat) : option head :=
  if level <=? 1 then None else find (fun h => h_level h <? level) before.
(** [before]: the headings so far, the nearest first. A heading of level two or more belongs to the nearest heading of a smaller
    level, any other block to the nearest heading. *)
Fixpoint owned (before : list head) (is : list item) : list (item * option head) :=
  match is with
  | [] => []
  | IText n :: r => (IText n, hd_error before) :: owned before r
  | IHead h :: r => (IHead h, parent_of before (h_level h)) :: owned (h :: before) r
  end.
(** the same read off the result *)
Fixpoint block_owned (o : option head) (x : block) : list (item * option head) :=
  match x with Txt n => [(IText n, o)] | Sec h _ bs => (IHead h, o) :: flat_map (block_owned (Some h)) bs end.
Definition blocks_owned (bs : list block) : list (item * option head) := flat_map (block_owned None) bs.
Definition content_owned (c : content) : list (item * option head) :=
  match c with Blocks bs => blocks_owned bs | Sections p q => blocks_owned p ++ blocks_owned q | Parts _ _ _ _ => [] end.

(** The headings of a document with the level of the section each belongs to. *)
Definition level_of (o : option head) : nat := match o with Some h => h_level h | None => 0 end.
Definition out_of_sequence (before : list head) (h : head) : Prop := level_of (parent_of before (h_level h)) + 1 < h_level h.
(** reports and entries of the table of contents, for an article *)
Fixpoint expected_events (before : list head) (is : list item) : list event :=
  match is with
  | [] => []
  | IText _ :: r => expected_events before r
  | IHead h :: r =>
      (if h_level h =? 0 then [LevelZero (h_name h)] else []) ++
      (if level_of (parent_of before (h_level h)) + 1 <? h_level h then [OutOfSequence (h_name h)] else [TocEntry (h_level h) (h_level h) (h_name h)]) ++
      expected_events (h :: before) r
  end.
Fixpoint heads (is : list item) : list head := match is with [] => [] | IHead h :: r => h :: heads r | IText _ :: r => heads r end.

(** For books: every heading is at least a chapter; no special section is written at the level of parts. *)
Definition no_parts (is : list item) : Prop := forall h, In (IHead h) is -> 1 <= h_level h.
Definition plain_parts (is : list item) : Prop := forall h, In (IHead h) is -> h_level h = 0 -> h_special h = false.
(** a paragraph with a blank line behind it *)
Definition text_chunk (n : nat) : chunk := ([], Some n).
