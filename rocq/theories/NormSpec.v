(** What normalising included bytes should do. Encodings are those of Unicode.v, valid UTF-8 that of Utf8.v. *)
From Verif Require Import Base Utf8 Unicode.

Definition newline : ascii := ascii_of_nat 10.
Definition return_ : ascii := ascii_of_nat 13.
Definition blank (c : ascii) : Prop := c = " "%char \/ c = ascii_of_nat 9.
Definition octets (l : list nat) : bytes := map ascii_of_nat l.
Definition utf8_bom : bytes := octets [239; 187; 191].
Definition le_bom : bytes := octets [255; 254].
Definition be_bom : bytes := octets [254; 255].
(** [s], with a zero byte added if its length is odd. *)
Definition made_even (s t : bytes) : Prop := (Nat.Even (length s) /\ t = s) \/ (Nat.Odd (length s) /\ t = s ++ octets [0]).
(** A terminated line's text [t] after cleaning: without the carriage return of its line end, and without blanks at the end. *)
Definition cleaned (l t : bytes) : Prop :=
  exists ws cr, l = t ++ ws ++ cr /\ Forall blank ws /\ (forall x c, t = x ++ [c] -> ~ blank c) /\
    (cr = [return_] \/ (cr = [] /\ forall x, l <> x ++ [return_])).
(** Texts are compared line by line; the last line (not terminated) is not touched. *)
Inductive cleaned_text : bytes -> bytes -> Prop :=
| CT_last l : ~ In newline l -> cleaned_text l l
| CT_line l t s u : ~ In newline l -> cleaned l t -> cleaned_text s u -> cleaned_text (l ++ newline :: s) (t ++ newline :: u).
(** Every carriage return is part of a line end. *)
Definition no_lone_return (s : bytes) : Prop := forall a z, s = a ++ return_ :: z -> exists y, z = newline :: y.
Definition asciidoc_extensions : list bytes := [$".adoc"; $".asciidoc"; $".ad"; $".asc"; $".txt"].
