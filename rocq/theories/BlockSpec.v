(** What C55 and C56 say. *)
From Verif Require Import Base BlockModel.

(** the size of a source: each token counts its characters and one more, each line one more *)
Definition src_size (l : list (list tok)) : nat := list_sum (map (fun x => S (weight x)) l).
(** enough steps for a source *)
Definition enough_steps (l : list (list tok)) : nat := 30 * src_size l + 10.
(** the parser at the start of the body of a document: nothing has been read, no block, list or section is open *)
Definition fresh (sb : subs) (l : list (list tok)) : pst := PSt l [] None None 0 [] false false true NoBib None (start sb) [] 0 0.
(** nothing is left unread: no line that was put back, and only blank lines in the source *)
Definition all_read (s : pst) : Prop := peeked s = [] /\ forallb emptyish (src s) = true.

(** documents for examples *)
Definition nl : string := String (ascii_of_nat 10) EmptyString.
Fixpoint doc (l : list string) : string := match l with [] => EmptyString | [x] => x | x :: r => (x ++ nl ++ doc r)%string end.
(** ASCII text, no leveloffset, no attribute "subs"; the special sections of the examples *)
Definition plain_params (debug is_book : bool) : params := Params (ascii_env debug) (fun n => n) (fun _ x => x) (fun x => bytes_eqb x $"preface") is_book.
Definition parsed (debug is_book : bool) (l : list string) : out content := let x := para (doc l) in document (enough_steps x) (plain_params debug is_book) (fresh normal x).
(** a paragraph gave nothing, the attributes of a heading went elsewhere, or an anchor was reported as invalid *)
Definition irregular (s : pst) : Prop := 0 < empties s \/ 0 < strays s \/ In BadAnchor (probs s).

(** ** Sections in sections *)
(** every section in a block has a level greater than [n], and so on inside *)
Fixpoint deeper (n : nat) (b : blk) : bool :=
  match b with
  | BSection x => deeper_sect n x
  | BDelimited _ _ _ (Compound bs) _ | BMarkdown _ bs => forallb (deeper n) bs
  | BList _ _ items => forallb (deeper_item n) items
  | _ => true
  end
with deeper_item (n : nat) (i : item) : bool :=
  match i with
  | Item _ _ _ bs => forallb (deeper n) bs
  | DItem _ _ _ desc bs => match desc with Some b => deeper n b | None => true end && forallb (deeper n) bs
  end
with deeper_sect (n : nat) (x : sect) : bool := match x with Sect _ k _ bs => (n <? k) && forallb (deeper k) bs end.
Definition levels_grow (x : sect) : bool := match x with Sect _ k _ bs => forallb (deeper k) bs end.
Definition part_levels_grow (p : meta * list inode * list blk * list sect) : bool := forallb (deeper 0) (snd (fst p)) && forallb levels_grow (snd p).
Definition content_levels_grow (c : content) : bool :=
  match c with
  | Blocks bs => forallb (deeper 0) bs
  | Sections bs ss => forallb (deeper 0) bs && forallb levels_grow ss
  | Parts bs o ps cl => forallb (deeper 0) bs && forallb levels_grow o && forallb part_levels_grow ps && forallb levels_grow cl
  end.

(** ** Blocks without end *)
(** how many delimited blocks and tables in a block have no closing delimiter *)
Definition unless (b : bool) : nat := if b then 0 else 1.
Fixpoint unclosed (w : nat) (b : blk) : nat :=
  match b with
  | BSection x => unclosed_sect w x
  | BDelimited _ CComment _ _ c => unless c
  | BDelimited _ _ _ (Compound bs) c => list_sum (map (unclosed w) bs) + unless c
  | BDelimited _ _ _ _ c | BTable _ _ _ c => unless c
  | BMarkdown _ bs => list_sum (map (unclosed w) bs)
  | BList _ _ items => list_sum (map (unclosed_item w) items)
  | _ => 0
  end
with unclosed_item (w : nat) (i : item) : nat :=
  match i with
  | Item _ _ _ bs => list_sum (map (unclosed w) bs)
  | DItem _ _ _ desc bs => match desc with Some b => unclosed w b | None => w end + list_sum (map (unclosed w) bs)
  end
with unclosed_sect (w : nat) (x : sect) : nat := match x with Sect _ _ _ bs => list_sum (map (unclosed w) bs) end.
(** how many errors say that a block or a table has no end *)
Definition no_end (p : problem) : bool := match p with NeverClosed | TableNeverClosed => true | _ => false end.
Definition no_ends (ps : list problem) : nat := length (filter no_end ps).
(** in the whole of an article *)
Definition unclosed_in (w : nat) (c : content) : nat :=
  match c with
  | Blocks bs => list_sum (map (unclosed w) bs)
  | Sections bs ss => list_sum (map (unclosed w) bs) + list_sum (map (unclosed_sect w) ss)
  | Parts _ _ _ _ => 0 (* not in an article *)
  end.

(** ** Sections that skip a level *)
(** how many sections in a block that is in a section of level [n] have a level that is more than one greater than the level of the section they are in *)
Fixpoint skipped (n : nat) (b : blk) : nat :=
  match b with
  | BSection x => skipped_sect n x
  | BDelimited _ CComment _ _ _ => 0
  | BDelimited _ _ _ (Compound bs) _ | BMarkdown _ bs => list_sum (map (skipped n) bs)
  | BList _ _ items => list_sum (map (skipped_item n) items)
  | _ => 0
  end
with skipped_item (n : nat) (i : item) : nat :=
  match i with
  | Item _ _ _ bs => list_sum (map (skipped n) bs)
  | DItem _ _ _ desc bs => match desc with Some b => skipped n b | None => 0 end + list_sum (map (skipped n) bs)
  end
with skipped_sect (n : nat) (x : sect) : nat := match x with Sect _ k _ bs => (if n + 1 <? k then 1 else 0) + list_sum (map (skipped k) bs) end.
Definition skipped_in (c : content) : nat :=
  match c with
  | Blocks bs => list_sum (map (skipped 0) bs)
  | Sections bs ss => list_sum (map (skipped 0) bs) + list_sum (map (skipped_sect 0) ss)
  | Parts _ _ _ _ => 0 (* not in an article *)
  end.
Definition is_skip (p : problem) : bool := match p with OutOfSequence => true | _ => false end.
Definition skips (ps : list problem) : nat := length (filter is_skip ps).

(** ** Reading lines *)
Definition blank (ls : list (list tok)) : Prop := forall x, In x ls -> emptyish x = true.
Definition with_text (ls : list iline) : Prop := forall l, In l ls -> emptyish (toks l) = false.
