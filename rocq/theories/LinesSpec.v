(** What a lines= specification asks for. *)
From Verif Require Import Base Text.

Definition newline : ascii := ascii_of_nat 10.
(** A range text asks for line [k]. *)
Inductive range_asks (t : bytes) (k : N) : Prop :=
| A_one : numeral usize_bound t k -> range_asks t k
| A_range a z lo hi : t = a ++ $".." ++ z -> numeral usize_bound a lo -> numeral usize_bound z hi -> (lo <= k <= hi)%N -> range_asks t k
| A_open a z lo : t = a ++ $".." ++ z -> numeral usize_bound a lo -> z = [] \/ z = $"-1" -> (lo <= k)%N -> range_asks t k.
(** A specification asks for line [k]: one of its pieces between commas and semicolons does, white space aside. *)
Definition asks (spec : bytes) (k : N) : Prop :=
  exists part t, piece (fun c => Ascii.eqb c "," || Ascii.eqb c ";") spec part /\ trimmed part t /\ range_asks t k.
(** No number in the specification is the largest machine integer. *)
Definition no_max (spec : bytes) : Prop := forall a m z n, spec = a ++ m ++ z -> numeral usize_bound m n -> (n < usize_bound - 1)%N.
(** Text made of terminated lines. *)
Definition unlines (ls : list bytes) : bytes := concat (map (fun l => l ++ [newline]) ls).
(** The lines of a text: the pieces between newlines (a final newline is followed by one more, empty, piece). *)
Definition line_list (src : bytes) (ls : list bytes) : Prop := src = join_byte newline ls /\ ls <> [] /\ Forall (fun l => ~ In newline l) ls.
(** The lines the parser gets to see: it drops every line that starts with the place holder's name. *)
Definition visible (ls : list bytes) : list bytes := filter (fun l => negb (starts_with ($"asciidorkinclude::") l)) ls.
(** [kept] is the sublist of [ls] (numbered from [n]) at the numbers satisfying [P], in order. *)
Inductive sublist_at (P : N -> Prop) : N -> list bytes -> list bytes -> Prop :=
| S_nil n : sublist_at P n [] []
| S_keep n l ls kept : P n -> sublist_at P (n + 1)%N ls kept -> sublist_at P n (l :: ls) (l :: kept)
| S_drop n l ls kept : ~ P n -> sublist_at P (n + 1)%N ls kept -> sublist_at P n (l :: ls) kept.
