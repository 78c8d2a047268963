(** What the fields of a table of values say *)
From Verif Require Export TableModel PsvSpec.
From Verif Require Import Text ColsModel.
Open Scope nat_scope.

(** ** Fields as they are written *)
(** the separator as a token of its own; a token that is, or holds, no separator *)
Definition is_delim (sep : bytes) (t : ttok) : Prop := nl t = false /\ tk t <> DoubleQuote /\ match sep_kind sep with Some k => tk t = k | None => tx t = sep end.
Definition no_delim (sep : bytes) (t : ttok) : Prop := nl t = false /\ match sep_kind sep with Some k => tk t <> k | None => forall a z, tx t <> a ++ sep ++ z end.
(** a token that is not cut even between quotes *)
Definition whole (sep : bytes) (t : ttok) : Prop := sep_kind sep <> None \/ tk t <> Word \/ forall a z, tx t <> a ++ sep ++ z.

(** delimiter separated: a token, or a backslash and the token it keeps from being a separator *)
Inductive dsv_body (sep : bytes) : list ttok -> list ttok -> Prop :=
| d_nil : dsv_body sep [] []
| d_tok t b v : no_delim sep t -> tk t <> Backslash -> dsv_body sep b v -> dsv_body sep (t :: b) (t :: v)
| d_esc (e t : ttok) b v : tk e = Backslash -> no_delim sep e -> dsv_body sep b v -> dsv_body sep (e :: t :: b) (t :: v).
(** comma separated: tokens without quotes, or between quotes any tokens with every quote doubled *)
Fixpoint quoted (v : list ttok) : list ttok := match v with [] => [] | t :: v => if is_k DoubleQuote t then t :: t :: quoted v else t :: quoted v end.
Inductive csv_body (sep : bytes) : list ttok -> list ttok -> Prop :=
| c_plain b : Forall (fun t => no_delim sep t /\ tk t <> DoubleQuote) b -> csv_body sep b b
| c_quoted (q q' : ttok) white v after : tk q = DoubleQuote -> tk q' = DoubleQuote -> Forall (fun t => wsish t = true) white -> Forall (whole sep) v ->
    match v with [] => True | t :: _ => wsish t = false end -> Forall (fun t => ws t = true /\ no_delim sep t) after ->
    csv_body sep (q :: white ++ quoted v ++ q' :: after) (v ++ after).
Definition body_ok (fmt : format) (sep : bytes) (b v : list ttok) : Prop :=
  match fmt with Prefix => False | Csv => csv_body sep b v | Delimited => dsv_body sep b v end.
(** a field: white space before it, its tokens, what they say, and the token that ends it *)
Record field := Field { lead : list ttok; body : list ttok; value : list ttok; fin : ttok }.
Definition field_ok (fmt : format) (sep : bytes) (f : field) : Prop :=
  Forall (fun t => ws t = true) (lead f) /\ body_ok fmt sep (body f) (value f) /\ (forall t b, body f = t :: b -> wsish t = false).
Definition field_src (f : field) : list ttok := lead f ++ body f ++ [fin f].
(** a record: fields with separators after all but the last. It is not an empty line. Where the separator is white space, fields are not empty. *)
Inductive fields_ok (fmt : format) (sep : bytes) : bool -> list field -> Prop :=
| f_last start f : field_ok fmt sep f -> nl (fin f) = true -> (start = true -> body f <> []) -> fields_ok fmt sep start [f]
| f_more start f fs : field_ok fmt sep f -> is_delim sep (fin f) -> (body f = [] -> wsish (fin f) = false) -> fields_ok fmt sep false fs -> fields_ok fmt sep start (f :: fs).
(** before a record there may be white space and empty lines *)
Record record := Record_ { gap : list ttok; fields : list field }.
Definition record_ok (fmt : format) (sep : bytes) (n : nat) (r : record) : Prop := Forall (fun t => wsish t = true) (gap r) /\ fields_ok fmt sep true (fields r) /\ length (fields r) = n.
Definition record_src (r : record) : list ttok := gap r ++ flat_map field_src (fields r).
(** what a field adds to the table *)
Definition field_shape (f : field) : shape := (1, 1, core (value f)).
(** an empty line follows the first record, whose last field is not empty *)
Definition blank_after (recs : list record) : bool :=
  match recs with
  | r :: s :: _ => match rev (fields r) with f :: _ => negb (match body f with [] => true | _ => false end) | [] => false end && match record_src s with t :: _ => nl t | [] => false end
  | _ => false
  end.
(** the header row that the options and the records make *)
Definition has_head (h : header) (recs : list record) : bool :=
  match recs with [] => false | _ => match h with HSet | HImplicit => true | HUnknown => blank_after recs | _ => false end end.

(** ** Any tokens, split at separators and line ends *)
(** for separators that are tokens of their own *)
Definition ends_field (sep : bytes) (t : ttok) : Prop := nl t = true \/ exists k, sep_kind sep = Some k /\ tk t = k.
(** the text of a last field that nothing ends: a backslash at its end goes *)
Definition dsv_open (sep : bytes) (b v : list ttok) : Prop := dsv_body sep b v \/ exists b' (e : ttok), b = b' ++ [e] /\ tk e = Backslash /\ no_delim sep e /\ dsv_body sep b' v.
Definition starts_plain (l : list ttok) : Prop := match l with t :: _ => wsish t = false | [] => True end.
(** white space before a field; after a separator it does not go on to the next line *)
Definition lead_ok (after_sep : bool) (l : list ttok) : Prop := Forall (fun t => wsish t = true) l /\ (after_sep = true -> existsb nl l = false).
(** [splits sep after_sep l vs]: the fields of [l] are [vs]; [after_sep] says that a separator stands before [l] *)
Inductive splits (sep : bytes) : bool -> list ttok -> list (list ttok) -> Prop :=
| sp_end a : splits sep a [] []
| sp_field a white b v e l vs : lead_ok a white -> dsv_body sep b v -> starts_plain (b ++ [e]) -> ends_field sep e -> splits sep (negb (nl e)) l vs -> splits sep a (white ++ b ++ e :: l) (v :: vs)
| sp_empty white e more l vs : Forall (fun t => ws t = true) white -> nl e = true -> Forall (fun t => wsish t = true) more -> starts_plain l -> splits sep true l vs -> splits sep true (white ++ e :: more ++ l) ([] :: vs)
| sp_open a white b v : lead_ok a white -> dsv_open sep b v -> starts_plain b -> white ++ b <> [] -> splits sep a (white ++ b) [v].
Definition value_shape (v : list ttok) : shape := (1, 1, core v).

(** ** What a table of records says: its rows, its columns, no problems, its header and its footer *)
Definition table_says (rt : read_table) (o : options) (h : header) (n : nat) (recs : list record) : Prop :=
  map (map shape_of_cell) (all_rows rt) = map (fun r => map field_shape (fields r)) recs /\ rt_cols rt = n /\ rt_probs rt = [] /\
  (t_header (rt_table rt) <> None <-> has_head h recs = true) /\ (rt_footer rt <> None <-> opt_footer o = true /\ (if t_header (rt_table rt) then 1 else 0) < length recs).

(** ** Values in quotes *)
(** a row of values, each between quotes with its quotes doubled, with a comma after all but the last and a line end after that *)
Definition comma : ttok := TT (Tok Comma ($",")) false.
Definition quote_tok : ttok := TT (Tok DoubleQuote ($"""")) false.
Definition line_end : ttok := TT (Tok Newline [LF]) false.
Definition in_quotes (v : list ttok) : list ttok := quote_tok :: quoted v ++ [quote_tok].
Fixpoint write_row (row : list (list ttok)) : list ttok :=
  match row with [] => [] | [v] => in_quotes v ++ [line_end] | v :: row => in_quotes v ++ comma :: write_row row end.
