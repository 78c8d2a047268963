(** What C82 says: what an SVG file is shown as. *)
From Verif Require Import Base SvgModel.
Import ListNotations.

Definition within (w l : bytes) : Prop := exists u v, l = u ++ w ++ v.
(** [out] is the text without whitespace at its end *)
Definition trimmed_end (l out : bytes) : Prop :=
  exists w, l = out ++ w /\ Forall (fun c => is_blank c = true) w /\ forall u c, out = u ++ [c] -> is_blank c = false.
Definition size_names : list bytes := [$"width"; $"height"; $"style"].
(** no size or style attribute in the text *)
Definition unsized (l : bytes) : Prop := forall c n, is_space c = true -> In n size_names -> ~ within (c :: n ++ $"=") l.
(** the second text is the first one without its size and style attributes *)
Inductive loses_sizes : bytes -> bytes -> Prop :=
| Unsized a : unsized a -> loses_sizes a a
| Sized a c n q v l m : unsized a -> is_space c = true -> In n size_names -> q = quote \/ q = apostrophe -> ~ In q v ->
    loses_sizes l m -> loses_sizes (a ++ c :: n ++ $"=" ++ q :: v ++ q :: l) (a ++ m).
(** the attributes that are given *)
Definition sizes (width height : option bytes) : bytes :=
  match width, height with
  | None, None => []
  | Some w, None => $" width=" ++ [quote] ++ w ++ [quote]
  | None, Some h => $" height=" ++ [quote] ++ h ++ [quote]
  | Some w, Some h => $" width=" ++ [quote] ++ w ++ [quote] ++ $"height=" ++ [quote] ++ h ++ [quote]
  end.
