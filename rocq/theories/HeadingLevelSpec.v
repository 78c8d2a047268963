(** What offsets mean. *)
From Verif Require Import Base Text HeadingLevelModel.
Open Scope Z_scope.

Inductive offset_change := Add (n : Z) | Assign (n : Z).
(** how a change is written as the value of leveloffset: a sign and a numeral, a numeral, or the attribute unset *)
Inductive writes : offset_change -> value -> Prop :=
| w_plus s n : numeral 128 s n -> writes (Add (Z.of_N n)) (VStr ("+"%char :: s))
| w_minus s n : numeral 128 s n -> writes (Add (- Z.of_N n)) (VStr ("-"%char :: s))
| w_assign s n : numeral 128 s n -> (forall r, s <> "+"%char :: r) -> writes (Assign (Z.of_N n)) (VStr s)
| w_unset : writes (Assign 0) (VBool false).
Definition change (o : Z) (c : offset_change) : Z := match c with Add n => o + n | Assign n => n end.
Definition in_i8 (z : Z) : Prop := -128 <= z <= 127.
(** all intermediate offsets fit *)
Fixpoint fits (o : Z) (cs : list offset_change) : Prop := match cs with [] => in_i8 o | c :: r => in_i8 o /\ fits (change o c) r end.
