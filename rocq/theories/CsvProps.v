(** C28: comma separated tables decode what comma separated quoting writes *)
From Verif Require Import ValueSpec Text ColsModel PsvProofs ValueProofs ValueEndProofs PsvProps.
Open Scope nat_scope.

(** A table with a [cols] attribute whose records all have as many fields as there are columns is read as those records: every field in its
    place, a field between quotes with its separators and line ends kept and its doubled quotes halved, and no problem is reported. The first
    record is the header when the options say so, or when they leave it open and an empty line follows it. *)
Theorem C28_records sep cs o h recs fuel : cs <> [] -> Forall (record_ok Csv sep (length cs)) recs -> length recs < fuel ->
  exists rt, parse_tokens fuel Csv sep cs o h (flat_map record_src recs) = Done rt /\ table_says rt o h (length cs) recs.
Proof. apply values_explicit. discriminate. Qed.
Print Assumptions C28_records.

(** The same without a [cols] attribute: the fields of the first record are counted, which must not contain line ends. *)
Theorem C28_records_counted sep o h first recs fuel : gap first = [] -> Forall (fun f => no_nl (ValueSpec.value f) = true) (fields first) ->
  Forall (record_ok Csv sep (length (fields first))) (first :: recs) -> length recs < fuel ->
  exists rt, parse_tokens fuel Csv sep [] o h (flat_map record_src (first :: recs)) = Done rt /\ table_says rt o h (length (fields first)) (first :: recs).
Proof. apply values_counted. discriminate. Qed.
Print Assumptions C28_records_counted.

(** Any values at all, written between quotes with their quotes doubled, come back: the tokens of every value but for white space around it. *)
Definition value_fields : list (list ttok) -> list field := fix go row := match row with [] => [] | [v] => [Field [] (in_quotes v) v line_end] | v :: row => Field [] (in_quotes v) v comma :: go row end.
Lemma value_fields_src row : flat_map field_src (value_fields row) = write_row row.
Proof.
  induction row as [|v row IH]; [reflexivity|]. destruct row as [|w row]; [cbn; rewrite app_nil_r; reflexivity|]. change (value_fields (v :: w :: row)) with (Field [] (in_quotes v) v comma :: value_fields (w :: row)). cbn [flat_map]. rewrite IH. unfold field_src. cbn [lead body fin app].
  change (write_row (v :: w :: row)) with (in_quotes v ++ comma :: write_row (w :: row)). rewrite <- app_assoc. reflexivity.
Qed.
Lemma value_fields_shape row : map field_shape (value_fields row) = map value_shape row.
Proof. induction row as [|v row IH]; [reflexivity|]. destruct row as [|w row]; [reflexivity|]. change (value_fields (v :: w :: row)) with (Field [] (in_quotes v) v comma :: value_fields (w :: row)). cbn [map]. rewrite IH. reflexivity. Qed.
Lemma value_fields_len row : length (value_fields row) = length row.
Proof. rewrite <- (map_length field_shape), value_fields_shape, map_length. reflexivity. Qed.
Lemma value_field_ok v e : starts_plain v -> field_ok Csv ($",") (Field [] (in_quotes v) v e).
Proof.
  intro S. split; [constructor|]. cbn [body ValueSpec.value]. split; [|intros t b E; injection E as <- _; reflexivity]. cbn [body_ok]. rewrite <- (app_nil_r v) at 2. unfold in_quotes. change (quote_tok :: quoted v ++ [quote_tok]) with (quote_tok :: [] ++ quoted v ++ quote_tok :: []).
  apply c_quoted; try reflexivity; try constructor; [|exact S]. apply Forall_forall. intros t _. left. discriminate.
Qed.
Lemma value_fields_ok row : row <> [] -> Forall starts_plain row -> forall start, fields_ok Csv ($",") start (value_fields row).
Proof.
  intros NE F. induction F as [|v row S F IH]; [congruence|]. intro start. destruct row as [|w row].
  - apply f_last; [apply value_field_ok, S|reflexivity|discriminate].
  - change (value_fields (v :: w :: row)) with (Field [] (in_quotes v) v comma :: value_fields (w :: row)). apply f_more; [apply value_field_ok, S| |discriminate|apply IH; discriminate]. split; [reflexivity|]. split; [discriminate|reflexivity].
Qed.
Theorem C28_quoting cs o h rows fuel : cs <> [] -> Forall (fun row => length row = length cs /\ Forall starts_plain row) rows -> length rows < fuel ->
  exists rt, parse_tokens fuel Csv ($",") cs o h (flat_map write_row rows) = Done rt /\ map (map shape_of_cell) (all_rows rt) = map (map value_shape) rows /\ rt_cols rt = length cs /\ rt_probs rt = [].
Proof.
  intros CE F L. set (recs := map (fun row => Record_ [] (value_fields row)) rows).
  assert (SR : flat_map record_src recs = flat_map write_row rows).
  { unfold recs. clear. induction rows as [|row rows IH]; [reflexivity|]. cbn [map flat_map]. rewrite IH. f_equal. apply value_fields_src. }
  destruct (C28_records ($",") cs o h recs fuel CE) as (rt & E & S).
  - unfold recs. apply Forall_map. eapply Forall_impl; [|exact F]. cbn beta. intros row [LE SP]. split; [constructor|]. cbn [fields]. rewrite value_fields_len. split; [|exact LE]. apply value_fields_ok; [|exact SP]. intros ->. destruct cs; [congruence|discriminate].
  - unfold recs. rewrite map_length. exact L.
  - exists rt. rewrite SR in E. split; [exact E|]. destruct S as (S1 & S2 & S3 & _). rewrite S1. split; [|auto]. unfold recs. rewrite map_map. apply map_ext. intro row. apply value_fields_shape.
Qed.
Print Assumptions C28_quoting.

(** Whatever the tokens are, reading a table with a usual separator ends without a panic; every row but the last has as many cells as the
    table has columns, and the last has at least one cell and no more than that. *)
Theorem C28_rows sep cs o h l fuel : sep_kind sep <> None -> size l < fuel ->
  exists rt, parse_tokens fuel Csv sep cs o h l = Done rt /\ Forall (fun r => length r = rt_cols rt) (removelast (all_rows rt)) /\ Forall (fun r => 1 <= length r <= rt_cols rt) (all_rows rt) /\
    (cs <> [] -> rt_cols rt = length cs).
Proof.
  intros S F. destruct (table_total Csv sep cs S (fun _ _ _ => True) (fun _ _ _ _ _ _ _ => I) o h l fuel F) as (rt & _ & A & B & C & D & _). exists rt. auto.
Qed.
Print Assumptions C28_rows.

(** ** Examples *)
Definition read_values (fmt : format) (sep : string) (cs : list col_spec) (h : header) (s : string) : res read_table := parse_tokens 20 fmt ($sep) cs no_options h (src s).
Open Scope string_scope.
Definition plain_field (s : string) (e : ttok) : field := Field [] [T Word s] [T Word s] e.
Definition example_head := Record_ [] [plain_field "a" comma; Field [T Whitespace " "] [T Word "b"; T Whitespace " "] [T Word "b"; T Whitespace " "] eol].
Definition example_quoted := [T Word "x"; comma; quote_tok; eol; T Word "y"].
Definition example_body := Record_ [eol] [Field [] (in_quotes example_quoted) example_quoted comma; Field [] [] [] eol].
Example C28_example_source : flat_map record_src [example_head; example_body] = src ("a, b " ++ NLs ++ NLs ++ """x,""""" ++ NLs ++ "y""," ++ NLs).
Proof. vm_compute. reflexivity. Qed.
Example C28_example_ok : Forall (record_ok Csv ($",") 2) [example_head; example_body] /\ gap example_head = [] /\ Forall (fun f => no_nl (ValueSpec.value f) = true) (fields example_head) /\
  has_head HUnknown [example_head; example_body] = true.
Proof.
  assert (D : is_delim ($",") comma) by (split; [reflexivity|split; [discriminate|reflexivity]]).
  assert (N : forall t : ttok, nl t = false -> tk t <> Comma -> no_delim ($",") t) by (intros t A B; split; [exact A|exact B]).
  split; [|split; [reflexivity|split; [repeat constructor|reflexivity]]].
  constructor; [|constructor; [|constructor]].
  - split; [constructor|]. split; [|reflexivity]. apply f_more; [|exact D|discriminate|apply f_last; [|reflexivity|discriminate]].
    + split; [constructor|]. split; [|intros ? ? E; injection E as <- _; reflexivity]. apply c_plain. constructor; [|constructor]. split; [apply N; [reflexivity|discriminate]|discriminate].
    + split; [constructor; [reflexivity|constructor]|]. split; [|intros ? ? E; injection E as <- _; reflexivity]. apply c_plain. constructor; [|constructor; [|constructor]]; (split; [apply N; [reflexivity|discriminate]|discriminate]).
  - split; [constructor; [reflexivity|constructor]|]. split; [|reflexivity]. apply f_more; [apply value_field_ok; reflexivity|exact D|discriminate|apply f_last; [|reflexivity|discriminate]].
    split; [constructor|]. split; [apply c_plain; constructor|discriminate].
Qed.
Example C28_example_read : rows_seen (read_values Csv "," [] HUnknown ("a, b " ++ NLs ++ NLs ++ """x,""""" ++ NLs ++ "y""," ++ NLs)) =
  Some [[(1, 1, "a"); (1, 1, "b")]; [(1, 1, "x,""" ++ NLs ++ "y"); (1, 1, "")]].
Proof. vm_compute. reflexivity. Qed.

(** ** Where decoding does not invert writing *)
(** a separator that is not a usual one, inside quotes, makes the reader panic: debug assertions fail, or it never ends without them *)
Theorem C28_quoted_separator_refuted : ~ (forall sep s, sep <> "" -> read_values Csv sep [] HNone s <> Crash).
Proof. intro H. apply (H "x" ("""axb""" ++ NLs)); [discriminate|]. vm_compute. reflexivity. Qed.
Print Assumptions C28_quoted_separator_refuted.
(** without [cols] a line end between quotes ends the count of the columns *)
Theorem C28_quoted_line_end_refuted : ~ (forall rows n, Forall (fun row => length row = S n /\ Forall starts_plain row) rows ->
  exists rt, parse_tokens 20 Csv ($",") [] no_options HNone (flat_map write_row rows) = Done rt /\ map (map shape_of_cell) (all_rows rt) = map (map value_shape) rows).
Proof.
  intro H. destruct (H [[[T Word "a"; eol; T Word "b"]; [T Word "c"]]] 1) as (rt & E & R).
  - repeat constructor.
  - revert R. vm_compute in E. injection E as <-. vm_compute. discriminate.
Qed.
Print Assumptions C28_quoted_line_end_refuted.
(** white space at the start of a quoted value is lost *)
Theorem C28_quoted_space_refuted : ~ (forall rows, Forall (fun row => length row = 1) rows ->
  exists rt, parse_tokens 20 Csv ($",") (columns 1) no_options HNone (flat_map write_row rows) = Done rt /\ map (map shape_of_cell) (all_rows rt) = map (map value_shape) rows).
Proof.
  intro H. destruct (H [[[T Whitespace " "; T Word "a"]]]) as (rt & E & R).
  - repeat constructor.
  - revert R. vm_compute in E. injection E as <-. vm_compute. discriminate.
Qed.
Print Assumptions C28_quoted_space_refuted.
(** an empty line before the end of the table makes a row with one empty cell *)
Theorem C28_trailing_empty_line_refuted : ~ (forall s, rows_seen (read_values Csv "," [] HNone (s ++ NLs)) = rows_seen (read_values Csv "," [] HNone s)).
Proof. intro H. specialize (H ("a,b" ++ NLs)). vm_compute in H. discriminate. Qed.
Print Assumptions C28_trailing_empty_line_refuted.
Definition tab_string : string := String (Ascii.ascii_of_nat 9) "".
(** a space before a tab keeps the tab from separating *)
Theorem C28_space_before_tab_refuted : ~ (forall a b, rows_seen (read_values Csv tab_string [] HNone (a ++ " " ++ tab_string ++ b ++ NLs)) = rows_seen (read_values Csv tab_string [] HNone (a ++ tab_string ++ b ++ NLs))).
Proof. intro H. specialize (H "a" "b"). vm_compute in H. discriminate. Qed.
Print Assumptions C28_space_before_tab_refuted.
(** text after the closing quote is added to the value, and nothing is reported *)
Theorem C28_text_after_quote_refuted : ~ (forall s rt, read_values Csv "," [] HNone s = Done rt -> rows_seen (Done rt) = Some [[(1, 1, "ab")]] -> rt_probs rt = [] -> s = "ab" ++ NLs).
Proof. intro H. eassert (X : read_values Csv "," [] HNone ("""a""b" ++ NLs) = Done _) by (vm_compute; reflexivity). specialize (H _ _ X ltac:(vm_compute; reflexivity) ltac:(reflexivity)). vm_compute in H. discriminate H. Qed.
Print Assumptions C28_text_after_quote_refuted.
(** an empty line after the first record does not make it the header when its last field is empty *)
Theorem C28_empty_field_header_refuted : ~ (forall a b rt, read_values Csv "," [] HUnknown (a ++ NLs ++ NLs ++ b ++ NLs) = Done rt -> length (all_rows rt) = 2 -> t_header (rt_table rt) <> None).
Proof. intro H. eassert (X : read_values Csv "," [] HUnknown ("a," ++ NLs ++ NLs ++ "b,c" ++ NLs) = Done _) by (vm_compute; reflexivity). apply (H "a," "b,c" _ X); [vm_compute; reflexivity|]. reflexivity. Qed.
Print Assumptions C28_empty_field_header_refuted.
(** a comment line inside quotes is not part of the value *)
Definition lines_of (s : list string) : list (list ttok) := map src s.
Theorem C28_quoted_comment_refuted : ~ (forall a b c, let q := """" in
  rows_seen (parse_table 20 Csv ($",") (columns 1) no_options (src ",===") (lines_of [q ++ a; b; c ++ q; ",==="]) []) = Some [[(1, 1, a ++ NLs ++ b ++ NLs ++ c)]]).
Proof. intro H. specialize (H "a" "// b" "c"). vm_compute in H. discriminate. Qed.
Print Assumptions C28_quoted_comment_refuted.
Example C28_quoted_lines : rows_seen (parse_table 20 Csv ($",") (columns 1) no_options (src ",===") (lines_of ["""a"; "b"; "c"""; ",==="]) []) = Some [[(1, 1, "a" ++ NLs ++ "b" ++ NLs ++ "c")]].
Proof. vm_compute. reflexivity. Qed.
