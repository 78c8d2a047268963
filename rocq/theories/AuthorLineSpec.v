(** What an author line says: no word of regular expressions. *)
From Verif Require Import Base Text Unicode CollectTextModel AuthorLineModel.

(** A person as a writer puts them on an author line: First Middle Last <local@domain>. *)
Record person := Person { p_first : text; p_middle : option text; p_last : text; p_email : option (text * text) }.
Definition name_of (p : person) : text :=
  p_first p ++ [space] ++ match p_middle p with Some m => m ++ [space] | None => [] end ++ p_last p.
Definition written (p : person) : text :=
  name_of p ++ match p_email p with Some (l, d) => [space; lt] ++ l ++ [atsign] ++ d ++ [gt] | None => [] end.
Fixpoint line (ps : list person) : text :=
  match ps with [] => [] | [p] => written p | p :: r => written p ++ [semi; space] ++ line r end.
(** An underscore stands for a space in a name. *)
Definition spaced (t : text) : text := map (fun c => if N.eqb c underscore then space else c) t.
Definition author_of (p : person) : author :=
  Author (spaced (p_first p)) (option_map spaced (p_middle p)) (spaced (p_last p)) (match p_email p with Some (l, d) => Some (l ++ [atsign] ++ d) | None => None end).

(** The letters of the Unicode tables are not white space, and not the signs that an author line is made of. *)
Definition letters_ok (word : N -> bool) : Prop := forall c, word c = true -> is_white c = false /\ c <> lt /\ c <> semi.
Definition all (P : N -> Prop) (t : text) : Prop := forall c, In c t -> P c.
(** A first name: no white space, "<" or ".", but it may end with "." *)
Definition first_ok (t : text) : Prop := exists f, f <> [] /\ all (fun c => is_white c = false /\ c <> lt /\ c <> dot) f /\ (t = f \/ t = f ++ [dot]).
(** Middle names: anything without "<" and ";" that neither starts nor ends with white space *)
Definition middle_ok (t : text) : Prop := (exists c f, t = c :: f /\ is_white c = false) /\ (exists c f, t = f ++ [c] /\ is_white c = false) /\ all (fun c => c <> lt /\ c <> semi) t.
(** A last name: letters, digits, underscores *)
Definition last_ok (word : N -> bool) (t : text) : Prop := t <> [] /\ all (fun c => word c = true) t.
Definition local_ok (t : text) : Prop := t <> [] /\ all (fun c => is_white c = false /\ c <> gt /\ c <> atsign) t.
Definition domain_ok (t : text) : Prop := t <> [] /\ all (fun c => is_white c = false /\ c <> gt) t.
Definition person_ok (word : N -> bool) (p : person) : Prop :=
  first_ok (p_first p) /\ (forall m, p_middle p = Some m -> middle_ok m) /\ last_ok word (p_last p) /\
  (forall l d, p_email p = Some (l, d) -> local_ok l /\ domain_ok d).

(** The words of a text: it is they, with white space between them and perhaps around them. *)
Definition word_text (w : text) : Prop := w <> [] /\ all (fun c => is_white c = false) w.
Definition blank (t : text) : Prop := all (fun c => is_white c = true) t.
Inductive words : text -> list text -> Prop :=
| W_none t : blank t -> words t []
| W_last b w e : blank b -> word_text w -> blank e -> words (b ++ w ++ e) [w]
| W_more b w s t ws : blank b -> word_text w -> s <> [] -> blank s -> words t ws -> ws <> [] -> words (b ++ w ++ s ++ t) (w :: ws).
Definition one_space (ws : list text) : text := match ws with [] => [] | w :: r => w ++ flat_map (fun w => space :: w) r end.
