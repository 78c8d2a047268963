(** What C67 says: texts of words, and the HTML for them. Nothing here depends on the model. *)
From Verif Require Import Base.
Import ListNotations.

Definition in_range (lo hi : nat) (c : ascii) : bool := (lo <=? nat_of_ascii c) && (nat_of_ascii c <=? hi).
Definition a_letter (c : ascii) : bool := in_range 65 90 c || in_range 97 122 c.
Definition a_digit (c : ascii) : bool := in_range 48 57 c.
(** a letter and then letters and digits; digits *)
Definition a_name (w : bytes) : bool := match w with c :: r => a_letter c && forallb (fun c => a_letter c || a_digit c) r | [] => false end.
Definition a_number (w : bytes) : bool := match w with [] => false | _ => forallb a_digit w end.

(** ** Texts *)
Inductive style := Strong | Emphasis | Code.
(** a word or number; an ampersand or angle bracket; words between a pair of marks *)
Inductive phrase := Plain (w : bytes) | Special (c : ascii) | Marked (s : style) (ws : list bytes).
(** a phrase and the punctuation behind it *)
Definition item : Type := phrase * bytes.
(** a line: no items is a blank line *)
Definition line := list item.
Definition phrase_ok (p : phrase) : bool :=
  match p with
  | Plain w => a_name w || a_number w
  | Special c => existsb (Ascii.eqb c) ["&"; "<"; ">"]%char
  | Marked _ ws => match ws with [] => false | _ => forallb a_name ws end
  end.
Definition punctuation_ok (x : bytes) : bool := match x with [] => true | [c] => existsb (Ascii.eqb c) [","; "."; "!"; "?"]%char | _ => false end.
(** a line starts with a letter or a mark *)
Definition starts_ok (p : phrase) : bool := match p with Plain w => a_name w | Special _ => false | Marked _ _ => true end.
Definition line_ok (l : line) : bool := forallb (fun i => phrase_ok (fst i) && punctuation_ok (snd i)) l && match l with [] => true | i :: _ => starts_ok (fst i) end.

(** ** The source *)
Fixpoint join (sep : bytes) (l : list bytes) : bytes := match l with [] => [] | [x] => x | x :: r => x ++ sep ++ join sep r end.
Definition newline : bytes := [ascii_of_nat 10].
Definition mark (s : style) : bytes := match s with Strong => $"*" | Emphasis => $"_" | Code => $"`" end.
Definition phrase_source (p : phrase) : bytes := match p with Plain w => w | Special c => [c] | Marked s ws => mark s ++ join ($" ") ws ++ mark s end.
Definition line_source (l : line) : bytes := join ($" ") (map (fun i => phrase_source (fst i) ++ snd i) l).
Definition source (ls : list line) : bytes := join newline (map line_source ls).

(** ** The HTML *)
Definition tag (s : style) : bytes := match s with Strong => $"strong" | Emphasis => $"em" | Code => $"code" end.
Definition escaped (c : ascii) : bytes := if Ascii.eqb c "&" then $"&amp;" else if Ascii.eqb c "<" then $"&lt;" else $"&gt;".
Definition phrase_html (p : phrase) : bytes :=
  match p with
  | Plain w => w
  | Special c => escaped c
  | Marked s ws => $"<" ++ tag s ++ $">" ++ join ($" ") ws ++ $"</" ++ tag s ++ $">"
  end.
Definition line_html (l : line) : bytes := join ($" ") (map (fun i => phrase_html (fst i) ++ snd i) l).
Definition paragraph_html (ls : list line) : bytes := $"<div class=""paragraph""><p>" ++ join ($" ") (map line_html ls) ++ $"</p></div>".
(** paragraphs are the longest runs of lines that are not blank; [cur]: the paragraph so far *)
Fixpoint paragraphs_from (cur : list line) (ls : list line) : list (list line) :=
  match ls with
  | [] => match cur with [] => [] | _ => [cur] end
  | [] :: r => match cur with [] => paragraphs_from [] r | _ => cur :: paragraphs_from [] r end
  | l :: r => paragraphs_from (cur ++ [l]) r
  end.
Definition paragraphs (ls : list line) : list (list line) := paragraphs_from [] ls.
Definition html (ls : list line) : bytes := concat (map paragraph_html (paragraphs ls)).
