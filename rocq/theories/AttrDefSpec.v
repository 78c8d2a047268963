(** What attribute entries are, for C61. *)
From Verif Require Import Base LexerModel.
Import ListNotations.

(** A name: a letter, a digit or an underscore, then those and hyphens. *)
Definition name_char (c : ascii) : Prop := alnum c = true \/ c = "_"%char \/ c = "-"%char.
Definition name (n : bytes) : Prop := exists c r, n = c :: r /\ (alnum c = true \/ c = "_"%char) /\ Forall name_char r.
Definition bang (b : bool) : bytes := if b then ["!"%char] else [].
(** [:name:], [:!name:] or [:name!:] *)
Definition head_of (lead : bool) (n : bytes) (trail : bool) : bytes := [":"%char] ++ bang lead ++ n ++ bang trail ++ [":"%char].

Definition one_line (l : bytes) : Prop := ~ In LF l /\ ~ In CR l.
Definition line_end (r : bytes) : Prop := r = [] \/ (exists z, r = LF :: z) \/ exists z, r = CR :: LF :: z.

(** The lines of a value but the last one, and what each stands for: one that ends in " +" keeps its line break, of the others a space is left. *)
Inductive wrap : bytes -> bytes -> Prop :=
| wrap_hard q : wrap (q ++ $" +") (q ++ $" +" ++ [LF])
| wrap_soft p : (forall q, p <> q ++ $" +") -> wrap p (p ++ $" ").
Definition continued (p : bytes) : bytes := p ++ $" \" ++ [LF].
(** The lines of an entry. *)
Definition entry (lead : bool) (n : bytes) (trail : bool) (ps : list bytes) (last rest : bytes) : bytes := head_of lead n trail ++ concat (map continued ps) ++ last ++ rest.
(** A value in lines: how it is written, what it says. *)
Record in_lines (ps : list bytes) (last : bytes) (text : bytes) (rest : bytes) : Prop := {
  il_wrap : exists vs, Forall2 wrap ps vs /\ text = concat vs ++ last;
  il_lines : Forall one_line (last :: ps);
  il_plus : Forall (fun p => p <> $"+") ps;
  il_last : (forall q, last <> q ++ $" \") /\ (ps <> [] -> last <> $"\");
  il_rest : line_end rest;
  il_unix : ps <> [] -> forall z, rest <> CR :: z }.

Definition some_digits (f : ascii -> bool) (d : bytes) : Prop := d <> [] /\ Forall (fun c => f c = true) d.
(** What may stand between [&] and [;]. *)
Inductive entity : bytes -> Prop :=
| e_dec d : some_digits digit d -> entity ("#"%char :: d)
| e_hex d : some_digits hexdigit d -> entity ("#"%char :: "x"%char :: d)
| e_name c r : alpha c = true -> some_digits alnum r -> entity (c :: r).
