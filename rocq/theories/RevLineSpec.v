(** What a revision line is: no word of regular expressions. *)
From Verif Require Import Base Text Unicode CollectTextModel AuthorLineModel AuthorLineSpec RevLineModel.

(** [version], [version, date], [version: remark], [version, date: remark], with white space behind the comma and the colon *)
Record revision := Revision { r_version : text; r_date : option (text * text); r_remark : option (text * text) }.
Definition part (sign : N) (o : option (text * text)) : text := match o with Some (w, x) => sign :: w ++ x | None => [] end.
Definition rev_line (r : revision) : text := r_version r ++ part comma (r_date r) ++ part colon (r_remark r).
(** A version has a digit, and no white space, comma or colon. *)
Definition version_ok (v : text) : Prop := all (fun c => is_white c = false /\ c <> comma /\ c <> colon) v /\ exists c, In c v /\ ascii_digit c = true.
Definition starts_black (t : text) : Prop := exists c r, t = c :: r /\ is_white c = false.
Definition date_ok (d : text) : Prop := starts_black d /\ ~ In colon d.
Definition remark_ok (r : text) : Prop := starts_black r /\ ~ In newline r.
Definition revision_ok (r : revision) : Prop :=
  version_ok (r_version r) /\ (forall w d, r_date r = Some (w, d) -> blank w /\ date_ok d) /\ (forall w x, r_remark r = Some (w, x) -> blank w /\ remark_ok x).
(** The number of a version is what starts at its first digit. *)
Definition number_of (digit : N -> bool) (v n : text) : Prop :=
  exists p c r, v = p ++ n /\ n = c :: r /\ digit c = true /\ all (fun c => digit c = false) p.
(** The digits of the Unicode tables are digits. *)
Definition digits_ok (digit : N -> bool) : Prop := (forall c, ascii_digit c = true -> digit c = true) /\ forall c, digit c = true -> is_white c = false.
(** As loosely as the parser reads it: a date or a remark of white space will do. *)
Definition loosely_ok (r : revision) : Prop :=
  version_ok (r_version r) /\ (forall w d, r_date r = Some (w, d) -> blank w /\ d <> [] /\ ~ In colon d) /\ (forall w x, r_remark r = Some (w, x) -> blank w /\ x <> [] /\ ~ In newline x).
(** What is set. *)
Definition set_date (o : option (text * text)) : list (rev_attr * text) := match o with Some (_, d) => [(Revdate, d)] | None => [] end.
Definition set_remark (o : option (text * text)) : list (rev_attr * text) := match o with Some (_, x) => [(Revremark, x)] | None => [] end.
