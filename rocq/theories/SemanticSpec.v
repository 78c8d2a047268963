(** What C77 says: the semantic HTML for the articles of C74. Nothing here depends on the model. *)
From Verif Require Import Base WholeSpec OutlineSpec BoxSpec ManualSpec.
From Verif Require ArticleSpec.
Import ListNotations.
Open Scope nat_scope.

(** lines of a paragraph stay lines *)
Definition lines_html (ls : list line) : bytes := join newline (map line_html ls).
Definition text_html (ls : list line) : bytes := concat (map (fun par => $"<p>" ++ lines_html par ++ $"</p>") (paragraphs ls)).
(** only a list that is in no other list is in an element of its own *)
Definition outermost (n : nat) (open x close : bytes) : bytes := if n =? 1 then open ++ x ++ close else x.
Definition list_html (k : list_kind) (n : nat) (x : bytes) : bytes :=
  match k with
  | Bulleted => outermost n ($"<div class=""ulist"">") ($"<ul>" ++ x ++ $"</ul>") ($"</div>")
  | Numbered => outermost n ($"<div class=""olist " ++ numbering n ++ $""">") ($"<ol class=""" ++ numbering n ++ $"""" ++ numbering_type n ++ $">" ++ x ++ $"</ol>") ($"</div>")
  end.
Fixpoint entry_html (n : nat) (e : entry) : bytes :=
  match e with
  | Entry _ f more k subs => $"<li>" ++ lines_html (f :: more) ++ match subs with [] => [] | _ => list_html k (S n) (concat (map (entry_html (S n)) subs)) end ++ $"</li>"
  end.
Definition part_html (p : part) : bytes := match p with Lines ls => text_html ls | Items k es => list_html k 1 (concat (map (entry_html 1) es)) end.
Definition box_html (b : box) (x : bytes) : bytes :=
  match b with
  | ExampleBox _ => $"<div class=""example-block""><div class=""example"">" ++ x ++ $"</div></div>"
  | SidebarBox => $"<aside class=""sidebar"">" ++ x ++ $"</aside>"
  | QuoteBox => $"<div class=""quote-block""><blockquote>" ++ x ++ $"</blockquote></div>"
  | OpenBox => $"<div class=""open-block""><div class=""content"">" ++ x ++ $"</div></div>"
  | ListingBox => $"<div class=""listing-block""><pre>" ++ x ++ $"</pre></div>"
  | LiteralBox => $"<div class=""literal-block""><pre>" ++ x ++ $"</pre></div>"
  end.
Fixpoint body_html (x : body) : bytes := match x with Bare p => part_html p | Box b l => box_html b (concat (map body_html l)) | Shown b ls => box_html b (shown_html ls) end.
Definition bodies_html (l : list body) : bytes := concat (map body_html l).

(** ** Sections and articles *)
Definition whole_section_html (n : nat) (id : bytes) (h : line) (l : list body) (below : bytes) : bytes :=
  $"<section class=""doc-section level-" ++ b (dec n) ++ $"""><h" ++ b (dec (S n)) ++ $" id=""" ++ id ++ $""">" ++ line_html h ++ $"</h" ++ b (dec (S n)) ++ $">" ++ bodies_html l ++ below ++ $"</section>".
Section Html.
Variable ids : list bytes.
(** a section at level [n] with [k] headings before it *)
Fixpoint section_html (n k : nat) (s : section) {struct s} : bytes :=
  match s with
  | Sec h l subs =>
      whole_section_html n (nth k ids []) h l ((fix go l k := match l with [] => [] | x :: r => section_html (S n) k x ++ go r (k + count x) end) subs (S k))
  end.
Fixpoint sections_html (n k : nat) (l : list section) : bytes := match l with [] => [] | x :: r => section_html n k x ++ sections_html n (k + count x) r end.
End Html.
Definition preamble_html (m : manual) : bytes :=
  let x := bodies_html (intro m) in
  match title m, sections m, x with
  | Some _, _ :: _, _ :: _ => $"<section id=""preamble"" aria-label=""Preamble"">" ++ x ++ $"</section>"
  | _, _, _ => x
  end.
Definition html (m : manual) : bytes := preamble_html m ++ sections_html (manual_ids m) 1 0 (sections m).
