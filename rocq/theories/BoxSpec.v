(** What C72 and C73 say: texts with delimited blocks in delimited blocks, their source and the HTML for them. Nothing here depends on the model. *)
From Verif Require Import Base WholeSpec OutlineSpec.
Import ListNotations.
Open Scope nat_scope.

(** ** Delimited blocks *)
(** an example, whose delimiters are four equal signs and [n] more; a sidebar; a quote; an open block; a listing; a literal block *)
Inductive box := ExampleBox (n : nat) | SidebarBox | QuoteBox | OpenBox | ListingBox | LiteralBox.
(** the last two show their lines as they are *)
Definition as_is (b : box) : bool := match b with ListingBox | LiteralBox => true | _ => false end.
(** a part of a document: text or a list, as in C71; a delimited block around more parts; a listing or literal block and its lines *)
Inductive body := Bare (p : part) | Box (b : box) (inside : list body) | Shown (b : box) (lines : list line).
Definition delimiter_line (b : box) : bytes := match b with ExampleBox n => repeat "="%char (4 + n) | SidebarBox => $"****" | QuoteBox => $"____" | OpenBox => $"--" | ListingBox => $"----" | LiteralBox => $"...." end.
(** delimiters are at most 255 characters long *)
Definition box_ok (b : box) : bool := match b with ExampleBox n => n <=? 251 | _ => true end.
(** between two lists there is text or a delimited block; [after]: there is a list before, and nothing since *)
Fixpoint apart (after : bool) (l : list body) : bool :=
  match l with
  | [] => true
  | Bare (Lines ls) :: r => apart (after && forallb blank ls) r
  | Bare (Items _ _) :: r => negb after && apart true r
  | Box _ _ :: r | Shown _ _ :: r => apart false r
  end.
(** a delimited block directly in another one has other delimiters. [around]: the delimiter of the block that this is in *)
Definition other (around : option bytes) (b : box) : bool := match around with Some d => negb (bytes_eqb d (delimiter_line b)) | None => true end.
Fixpoint body_ok (around : option bytes) (x : body) : bool :=
  match x with
  | Bare p => part_ok p
  | Box b l => negb (as_is b) && box_ok b && other around b && forallb (body_ok (Some (delimiter_line b))) l && apart false l
  | Shown b ls => as_is b && other around b && forallb line_ok ls
  end.
Definition bodies_ok (l : list body) : bool := forallb (body_ok None) l && apart false l.

(** ** The source: a blank line between parts, but not around delimited blocks (there, blank lines may be put with [Lines]) *)
Definition boxed (x : body) : bool := match x with Box _ _ | Shown _ _ => true | _ => false end.
Definition adjoins (x : body) (r : list body) : bool := match r with [] => true | y :: _ => boxed x || boxed y end.
Definition spread {A} (f : body -> list A) (gap : A) : list body -> list A := fix go l := match l with [] => [] | x :: r => f x ++ (if adjoins x r then [] else [gap]) ++ go r end.
Fixpoint body_lines (x : body) : list bytes := match x with Bare p => part_lines p | Box b l => delimiter_line b :: spread body_lines [] l ++ [delimiter_line b] | Shown b ls => delimiter_line b :: map line_source ls ++ [delimiter_line b] end.
Definition source (l : list body) : bytes := join newline (spread body_lines [] l).

(** ** The HTML *)
Definition box_html (b : box) (x : bytes) : bytes :=
  match b with
  | ExampleBox _ => $"<div class=""exampleblock""><div class=""content"">" ++ x ++ $"</div></div>"
  | SidebarBox => $"<div class=""sidebarblock""><div class=""content"">" ++ x ++ $"</div></div>"
  | QuoteBox => $"<div class=""quoteblock""><blockquote>" ++ x ++ $"</blockquote></div>"
  | OpenBox => $"<div class=""openblock""><div class=""content"">" ++ x ++ $"</div></div>"
  | ListingBox => $"<div class=""listingblock""><div class=""content""><pre>" ++ x ++ $"</pre></div></div>"
  | LiteralBox => $"<div class=""literalblock""><div class=""content""><pre>" ++ x ++ $"</pre></div></div>"
  end.
(** text that is shown as it is: only the three special characters are written in another way *)
Definition escape (x : bytes) : bytes := flat_map (fun c => if existsb (Ascii.eqb c) ["&"; "<"; ">"]%char then escaped c else [c]) x.
(** the lines from the first that is not blank to the last *)
Fixpoint skip_blank_lines (ls : list line) : list line := match ls with [] :: r => skip_blank_lines r | _ => ls end.
Definition trimmed (ls : list line) : list line := rev (skip_blank_lines (rev (skip_blank_lines ls))).
Definition shown_html (ls : list line) : bytes := escape (join newline (map line_source (trimmed ls))).
Fixpoint body_html (x : body) : bytes := match x with Bare p => part_html p | Box b l => box_html b (concat (map body_html l)) | Shown b ls => box_html b (shown_html ls) end.
Definition html (l : list body) : bytes := concat (map body_html l).
