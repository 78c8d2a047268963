(** C76: the words of an article and the words that its HTML shows. *)
From Verif Require Import Base WholeSpec OutlineSpec BoxSpec ManualSpec.
Import ListNotations.
Open Scope list_scope.
Open Scope nat_scope.

(** ** What HTML shows: all that is not in a tag, here without blanks and line ends. [inside]: in a tag *)
Definition is_blank (c : ascii) : bool := Ascii.eqb c " " || Ascii.eqb c (ascii_of_nat 10).
Fixpoint shown_from (inside : bool) (x : bytes) : bytes :=
  match x with
  | [] => []
  | c :: r => if inside then shown_from (negb (Ascii.eqb c ">")) r
              else if Ascii.eqb c "<" then shown_from true r
              else if is_blank c then shown_from false r else c :: shown_from false r
  end.
Definition shown (x : bytes) : bytes := shown_from false x.

(** ** What an article says: its words and punctuation, one after the other; special characters as in HTML; marks only in listings and literal blocks. The title of an embedded document is not shown. *)
Definition phrase_said (p : phrase) : bytes := match p with Plain w => w | Special c => escaped c | Marked _ ws => concat ws end.
Definition line_said (l : line) : bytes := flat_map (fun i => phrase_said (fst i) ++ snd i) l.
Definition phrase_kept (p : phrase) : bytes := match p with Plain w => w | Special c => escaped c | Marked s ws => mark s ++ concat ws ++ mark s end.
Definition line_kept (l : line) : bytes := flat_map (fun i => phrase_kept (fst i) ++ snd i) l.
Fixpoint entry_said (e : entry) : bytes := match e with Entry _ f more _ subs => line_said f ++ flat_map line_said more ++ flat_map entry_said subs end.
Definition part_said (p : part) : bytes := match p with Lines ls => flat_map line_said ls | Items _ es => flat_map entry_said es end.
Fixpoint body_said (x : body) : bytes := match x with Bare p => part_said p | Box _ l => flat_map body_said l | Shown _ ls => flat_map line_kept ls end.
Fixpoint section_said (s : section) : bytes := match s with Sec h l subs => line_said h ++ flat_map body_said l ++ flat_map section_said subs end.
Definition said (m : manual) : bytes := flat_map body_said (intro m) ++ flat_map section_said (sections m).
