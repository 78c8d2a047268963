(** Indentation of lines. *)
From Verif Require Import Base.

Definition newline : ascii := ascii_of_nat 10.
Definition placeholder : bytes := $"asciidorkinclude::[false]".
Definition spaces (n : nat) : bytes := repeat " "%char n.
(** [l] starts with exactly [k] spaces, followed by [r]. *)
Definition indented (l : bytes) (k : nat) (r : bytes) : Prop := l = spaces k ++ r /\ forall r', r <> " "%char :: r'.
(** [m] is the least indentation of the lines that are not place holders. *)
Definition least (ls : list bytes) (m : nat) : Prop :=
  (exists l r, In l ls /\ l <> placeholder /\ indented l m r) /\
  (forall l k r, In l ls -> l <> placeholder -> indented l k r -> m <= k).
(** Lines moved so that indentation [m] becomes [n]; place holders, which are not indented, disappear when [m > 0]. *)
Inductive moved (m n : nat) : list bytes -> list bytes -> Prop :=
| M_nil : moved m n [] []
| M_line l k r ls ls' : indented l k r -> m <= k -> moved m n ls ls' -> moved m n (l :: ls) ((spaces (n + (k - m)) ++ r) :: ls')
| M_drop ls ls' : 0 < m -> moved m n ls ls' -> moved m n (placeholder :: ls) ls'.
(** A text with these lines, terminated or not. (Unterminated text does not end in a newline.) *)
Definition text_of (ls : list bytes) (terminated : bool) (s : bytes) : Prop :=
  ls <> [] /\ Forall (fun l => ~ In newline l) ls /\ s = join_byte newline ls ++ (if terminated then [newline] else []) /\
  (terminated = false -> last ls [] <> [] \/ ls = [[]]).
