(** What C70 says: articles of texts in sections, their source and the HTML for them. Nothing here depends on the model. *)
From Verif Require Import Base WholeSpec.
Import ListNotations.
Open Scope nat_scope.

(** ** Articles *)
(** a section: its heading, the lines below it (blank ones separate paragraphs) and its subsections *)
Inductive section := Sec (heading : line) (body : list line) (subs : list section).
Record article := Article { title : option line; intro : list line; sections : list section }.
(** a heading has words or numbers, some of them formatted, and punctuation *)
Definition heading_phrase_ok (p : phrase) : bool := match p with Special _ => false | _ => phrase_ok p end.
Definition heading_ok (l : line) : bool := match l with [] => false | _ => forallb (fun i => heading_phrase_ok (fst i) && punctuation_ok (snd i)) l end.
(** sections are nested up to five levels deep *)
Fixpoint section_ok (n : nat) (s : section) : bool :=
  match s with Sec h body subs => (n <=? 5) && heading_ok h && forallb line_ok body && forallb (section_ok (S n)) subs end.
Definition article_ok (a : article) : bool :=
  match title a with Some t => heading_ok t | None => true end && forallb line_ok (intro a) && forallb (section_ok 1) (sections a).

(** ** The source: before each heading there is a blank line, except at the very start *)
Definition heading_source (n : nat) (h : line) : bytes := repeat "="%char (S n) ++ $" " ++ line_source h.
Fixpoint section_lines (n : nat) (s : section) : list bytes :=
  match s with Sec h body subs => [] :: heading_source n h :: map line_source body ++ flat_map (section_lines (S n)) subs end.
Definition article_lines (a : article) : list bytes :=
  match title a with Some t => [heading_source 0 t; []] | None => [] end ++ map line_source (intro a) ++ flat_map (section_lines 1) (sections a).
Definition source (a : article) : bytes := join newline (match article_lines a with [] :: r => r | ls => ls end).

(** ** The ids of the headings: an underscore, then the words in lower case with underscores between them, and a number from two on where that is taken *)
Definition lower (c : ascii) : ascii := if in_range 65 90 c then ascii_of_nat (nat_of_ascii c + 32) else c.
Definition phrase_words (p : phrase) : list bytes := match p with Plain w => [w] | Special _ => [] | Marked _ ws => ws end.
Definition heading_words (h : line) : list bytes := flat_map (fun i => phrase_words (fst i)) h.
Definition plain_id (h : line) : bytes := $"_" ++ join ($"_") (map (map lower) (heading_words h)).
Definition taken (used : list bytes) (x : bytes) : bool := existsb (bytes_eqb x) used.
Definition numbered_id (x : bytes) (n : nat) : bytes := x ++ $"_" ++ b (dec n).
Definition pick (used : list bytes) (x : bytes) : bytes :=
  if taken used x then match find (fun n => negb (taken used (numbered_id x n))) (List.seq 2 (S (length used))) with Some n => numbered_id x n | None => [] end else x.
Fixpoint ids_from (used : list bytes) (hs : list line) : list bytes := match hs with [] => [] | h :: r => pick used (plain_id h) :: ids_from (pick used (plain_id h) :: used) r end.
(** the headings in the order of the source *)
Fixpoint section_headings (s : section) : list line := match s with Sec h _ subs => h :: flat_map section_headings subs end.
Definition article_ids (a : article) : list bytes := ids_from [] (flat_map section_headings (sections a)).
Definition count (s : section) : nat := length (section_headings s).

(** ** The HTML *)
Definition heading_html (n : nat) (id : bytes) (h : line) : bytes := $"<h" ++ b (dec (S n)) ++ $" id=""" ++ id ++ $""">" ++ line_html h ++ $"</h" ++ b (dec (S n)) ++ $">".
(** what is in a section below its heading *)
Definition body_html (n : nat) (x : bytes) : bytes := if n =? 1 then $"<div class=""sectionbody"">" ++ x ++ $"</div>" else x.
Definition whole_section_html (n : nat) (id : bytes) (h : line) (body : list line) (below : bytes) : bytes :=
  $"<div class=""sect" ++ b (dec n) ++ $""">" ++ heading_html n id h ++ body_html n (WholeSpec.html body ++ below) ++ $"</div>".
Section Html.
Variable ids : list bytes.
(** a section at level [n] with [k] headings before it *)
Fixpoint section_html (n k : nat) (s : section) {struct s} : bytes :=
  match s with
  | Sec h body subs =>
      whole_section_html n (nth k ids []) h body ((fix go l k := match l with [] => [] | x :: r => section_html (S n) k x ++ go r (k + count x) end) subs (S k))
  end.
Fixpoint sections_html (n k : nat) (l : list section) : bytes := match l with [] => [] | x :: r => section_html n k x ++ sections_html n (k + count x) r end.
End Html.
(** the title of an embedded document is not shown, but makes the text before the first section its preamble *)
Definition preamble_html (a : article) : bytes :=
  let x := WholeSpec.html (intro a) in
  match title a, sections a, paragraphs (intro a) with
  | Some _, _ :: _, _ :: _ => $"<div id=""preamble""><div class=""sectionbody"">" ++ x ++ $"</div></div>"
  | _, _, _ => x
  end.
Definition html (a : article) : bytes := preamble_html a ++ sections_html (article_ids a) 1 0 (sections a).
