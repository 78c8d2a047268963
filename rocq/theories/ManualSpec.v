(** What C74 says: articles with sections, in which there are texts with lists, delimited blocks and listings; their source and the HTML for them. Nothing here depends on the model. *)
From Verif Require Import Base WholeSpec OutlineSpec BoxSpec.
From Verif Require ArticleSpec.
Import ListNotations.
Open Scope nat_scope.

(** ** Articles *)
(** a section: its heading, what is below it (as in C72 and C73) and its subsections *)
Inductive section := Sec (heading : line) (contents : list body) (subs : list section).
Record manual := Manual { title : option line; intro : list body; sections : list section }.
(** headings are as in C70; sections are nested up to five levels deep *)
Fixpoint section_ok (n : nat) (s : section) : bool :=
  match s with Sec h l subs => (n <=? 5) && ArticleSpec.heading_ok h && bodies_ok l && forallb (section_ok (S n)) subs end.
Definition manual_ok (m : manual) : bool :=
  match title m with Some t => ArticleSpec.heading_ok t | None => true end && bodies_ok (intro m) && forallb (section_ok 1) (sections m).

(** ** The source: before each heading there is a blank line, except at the very start; the rest is as in C72 *)
Fixpoint section_lines (n : nat) (s : section) : list bytes :=
  match s with Sec h l subs => [] :: ArticleSpec.heading_source n h :: spread body_lines [] l ++ flat_map (section_lines (S n)) subs end.
Definition manual_lines (m : manual) : list bytes :=
  let below := spread body_lines [] (intro m) ++ flat_map (section_lines 1) (sections m) in
  match title m, intro m with
  | Some t, _ => ArticleSpec.heading_source 0 t :: [] :: below
  | None, [] => tl below
  | None, _ => below
  end.
Definition source (m : manual) : bytes := join newline (manual_lines m).

(** ** The ids of the headings, as in C70 *)
Fixpoint section_headings (s : section) : list line := match s with Sec h _ subs => h :: flat_map section_headings subs end.
Definition manual_ids (m : manual) : list bytes := ArticleSpec.ids_from [] (flat_map section_headings (sections m)).
Definition count (s : section) : nat := length (section_headings s).

(** ** The HTML *)
Definition whole_section_html (n : nat) (id : bytes) (h : line) (l : list body) (below : bytes) : bytes :=
  $"<div class=""sect" ++ b (dec n) ++ $""">" ++ ArticleSpec.heading_html n id h ++ ArticleSpec.body_html n (BoxSpec.html l ++ below) ++ $"</div>".
Section Html.
Variable ids : list bytes.
(** a section at level [n] with [k] headings before it *)
Fixpoint section_html (n k : nat) (s : section) {struct s} : bytes :=
  match s with
  | Sec h l subs =>
      whole_section_html n (nth k ids []) h l ((fix go l k := match l with [] => [] | x :: r => section_html (S n) k x ++ go r (k + count x) end) subs (S k))
  end.
Fixpoint sections_html (n k : nat) (l : list section) : bytes := match l with [] => [] | x :: r => section_html n k x ++ sections_html n (k + count x) r end.
End Html.
(** the title of an embedded document is not shown, but makes what is before the first section, if anything, its preamble *)
Definition preamble_html (m : manual) : bytes :=
  let x := BoxSpec.html (intro m) in
  match title m, sections m, x with
  | Some _, _ :: _, _ :: _ => $"<div id=""preamble""><div class=""sectionbody"">" ++ x ++ $"</div></div>"
  | _, _, _ => x
  end.
Definition html (m : manual) : bytes := preamble_html m ++ sections_html (manual_ids m) 1 0 (sections m).
