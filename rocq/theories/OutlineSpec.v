(** What C71 says: texts with lists in lists, their source and the HTML for them. Nothing here depends on the model. *)
From Verif Require Import Base WholeSpec.
Import ListNotations.
Open Scope nat_scope.

(** ** Texts with lists *)
Inductive list_kind := Bulleted | Numbered.
(** an item: the number of blank lines before it, its text (the line with the marker and the lines below) and the items of the list in it, if there are any, which is of the kind [k] *)
Inductive entry := Entry (blanks : nat) (first : line) (more : list line) (k : list_kind) (subs : list entry).
(** a part of a document: lines of text (blank ones separate paragraphs) or a list *)
Inductive part := Lines (ls : list line) | Items (k : list_kind) (es : list entry).
(** the line with the marker has words, numbers, special characters and formatted words; the lines below also start with a letter or a mark *)
Definition words_ok (l : line) : bool := match l with [] => false | _ => forallb (fun i => phrase_ok (fst i) && punctuation_ok (snd i)) l end.
Definition full_line_ok (l : line) : bool := match l with [] => false | _ => line_ok l end.
(** lists are nested up to 255 levels deep *)
Fixpoint entry_ok (n : nat) (e : entry) : bool := match e with Entry _ f more _ subs => (n <=? 255) && words_ok f && forallb full_line_ok more && forallb (entry_ok (S n)) subs end.
Definition part_ok (p : part) : bool := match p with Lines ls => forallb line_ok ls | Items _ es => match es with [] => false | _ => forallb (entry_ok 1) es end end.
Definition blank (l : line) : bool := match l with [] => true | _ => false end.
(** there is text between two lists; [after]: there is a list before, and no text since *)
Fixpoint separated (after : bool) (ps : list part) : bool :=
  match ps with
  | [] => true
  | Lines ls :: r => separated (after && forallb blank ls) r
  | Items _ _ :: r => negb after && separated true r
  end.
Definition document_ok (ps : list part) : bool := forallb part_ok ps && separated false ps.

(** ** The source: as many stars or dots as the item is deep; a blank line between parts *)
Definition marker (k : list_kind) (n : nat) : bytes := repeat (match k with Bulleted => "*"%char | Numbered => "."%char end) n.
Fixpoint entry_lines (k : list_kind) (n : nat) (e : entry) : list bytes :=
  match e with Entry bl f more k' subs => repeat [] bl ++ (marker k n ++ $" " ++ line_source f) :: map line_source more ++ flat_map (entry_lines k' (S n)) subs end.
Definition part_lines (p : part) : list bytes := match p with Lines ls => map line_source ls | Items k es => flat_map (entry_lines k 1) es end.
Fixpoint document_lines (ps : list part) : list bytes := match ps with [] => [] | [p] => part_lines p | p :: r => part_lines p ++ [] :: document_lines r end.
Definition source (ps : list part) : bytes := join newline (document_lines ps).

(** ** The HTML *)
(** how the items of a numbered list are numbered: by its depth among all lists it is in *)
Definition numbering (n : nat) : bytes := match n with 1 => $"arabic" | 2 => $"loweralpha" | 3 => $"lowerroman" | 4 => $"upperalpha" | _ => $"upperroman" end.
Definition numbering_type (n : nat) : bytes := match n with 1 => [] | 2 => $" type=""a""" | 3 => $" type=""i""" | 4 => $" type=""A""" | _ => $" type=""I""" end.
Definition list_html (k : list_kind) (n : nat) (x : bytes) : bytes :=
  match k with
  | Bulleted => $"<div class=""ulist""><ul>" ++ x ++ $"</ul></div>"
  | Numbered => $"<div class=""olist " ++ numbering n ++ $"""><ol class=""" ++ numbering n ++ $"""" ++ numbering_type n ++ $">" ++ x ++ $"</ol></div>"
  end.
Fixpoint entry_html (n : nat) (e : entry) : bytes :=
  match e with
  | Entry _ f more k subs =>
      $"<li><p>" ++ join ($" ") (map line_html (f :: more)) ++ $"</p>" ++ match subs with [] => [] | _ => list_html k (S n) (concat (map (entry_html (S n)) subs)) end ++ $"</li>"
  end.
Definition part_html (p : part) : bytes := match p with Lines ls => WholeSpec.html ls | Items k es => list_html k 1 (concat (map (entry_html 1) es)) end.
Definition html (ps : list part) : bytes := concat (map part_html ps).
(** the same text without blank lines between items *)
Fixpoint tight_entry (e : entry) : entry := match e with Entry _ f more k subs => Entry 0 f more k (map tight_entry subs) end.
Definition tight (p : part) : part := match p with Lines ls => Lines ls | Items k es => Items k (map tight_entry es) end.
