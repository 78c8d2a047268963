(** What C52 says. *)
From Verif Require Import Base InlineModel.

(** the size of a text: each token counts its characters and one more *)
Definition weight (l : list tok) : nat := list_sum (map (fun t => S (length (tx t))) l).
Definition size (ls : list iline) : nat := list_sum (map (fun l => weight (toks l)) ls).
(** enough steps for a text *)
Definition enough (ls : list iline) : nat := 4 * size ls + 5 * length ls + 1.
