(** C29: delimiter separated tables are split at the delimiters and line ends that nothing escapes *)
From Verif Require Import ValueSpec Text ColsModel PsvProofs ValueProofs ValueEndProofs DsvProofs PsvProps CsvProps.
Open Scope nat_scope.

(** Whatever the tokens are, a table with a usual separator has as its cells exactly the fields into which separators and line ends split the
    tokens, in order ([splits], which has one answer: [C29_split_unique]). Every row but the last has as many cells as the table has columns,
    and the last has at least one cell and no more than that. *)
Theorem C29_split sep cs o h l fuel : sep_kind sep <> None -> size l < fuel ->
  exists rt vs, parse_tokens fuel Delimited sep cs o h l = Done rt /\ splits sep false l vs /\ map shape_of_cell (concat (all_rows rt)) = map value_shape vs /\
    Forall (fun r => length r = rt_cols rt) (removelast (all_rows rt)) /\ Forall (fun r => 1 <= length r <= rt_cols rt) (all_rows rt) /\ (cs <> [] -> rt_cols rt = length cs).
Proof.
  intros S F. destruct (sep_kind sep) as [k|] eqn:SK; [clear S|congruence]. assert (SO : sep_ok Delimited sep) by (cbn; intros ->; discriminate).
  destruct (table_total Delimited sep cs SO (split_into sep) (split_step sep k SK cs) o h l fuel F) as (rt & ls & A & B & C & D & E).
  destruct (E []) as (vs & V1 & V2); [exists []; split; [constructor|reflexivity]|]. rewrite app_nil_r in V2. exists rt, vs. auto 10.
Qed.
Print Assumptions C29_split.
Theorem C29_split_unique sep a l vs vs' : sep_kind sep <> None -> splits sep a l vs -> splits sep a l vs' -> vs = vs'.
Proof. intros S. destruct (sep_kind sep) as [k|] eqn:SK; [|congruence]. intros A B. eapply splits_unique; eassumption. Qed.
Print Assumptions C29_split_unique.

(** With any separator, reading ends without a panic, and the rows have their width. *)
Theorem C29_rows sep cs o h l fuel : sep <> [] -> size l < fuel ->
  exists rt, parse_tokens fuel Delimited sep cs o h l = Done rt /\ Forall (fun r => length r = rt_cols rt) (removelast (all_rows rt)) /\ Forall (fun r => 1 <= length r <= rt_cols rt) (all_rows rt) /\
    (cs <> [] -> rt_cols rt = length cs).
Proof.
  intros S F. destruct (table_total Delimited sep cs S (fun _ _ _ => True) (fun _ _ _ _ _ _ _ => I) o h l fuel F) as (rt & _ & A & B & C & D & _). exists rt. auto.
Qed.
Print Assumptions C29_rows.

(** A table whose records all have as many fields as there are columns is read as those records. *)
Theorem C29_records sep cs o h recs fuel : cs <> [] -> Forall (record_ok Delimited sep (length cs)) recs -> length recs < fuel ->
  exists rt, parse_tokens fuel Delimited sep cs o h (flat_map record_src recs) = Done rt /\ table_says rt o h (length cs) recs.
Proof. apply values_explicit. discriminate. Qed.
Print Assumptions C29_records.
Theorem C29_records_counted sep o h first recs fuel : gap first = [] -> Forall (fun f => no_nl (ValueSpec.value f) = true) (fields first) ->
  Forall (record_ok Delimited sep (length (fields first))) (first :: recs) -> length recs < fuel ->
  exists rt, parse_tokens fuel Delimited sep [] o h (flat_map record_src (first :: recs)) = Done rt /\ table_says rt o h (length (fields first)) (first :: recs).
Proof. apply values_counted. discriminate. Qed.
Print Assumptions C29_records_counted.

(** ** Examples *)
Open Scope string_scope.
Example C29_split_example : rows_seen (read_values Delimited ":" (columns 2) HNone ("a:b\:c" ++ NLs ++ NLs ++ "d:" ++ NLs ++ "\e: f:g")) = Some [[(1, 1, "a"); (1, 1, "b:c")]; [(1, 1, "d"); (1, 1, "")]; [(1, 1, "e"); (1, 1, "f")]; [(1, 1, "g")]].
Proof. vm_compute. reflexivity. Qed.
Definition colon := T Colon ":".
Definition escaped_field (e : ttok) : field := Field [T Whitespace " "] [T Word "b"; T Backslash "\"; colon; T Word "c"] [T Word "b"; colon; T Word "c"] e.
Definition example_record := Record_ [] [plain_field "a" colon; escaped_field eol].
Example C29_example_source : record_src example_record = src ("a: b\:c" ++ NLs).
Proof. vm_compute. reflexivity. Qed.
Example C29_example_ok : record_ok Delimited ($":") 2 example_record /\ gap example_record = [] /\ Forall (fun f => no_nl (ValueSpec.value f) = true) (fields example_record).
Proof.
  assert (N : forall t : ttok, nl t = false -> tk t <> Colon -> no_delim ($":") t) by (intros t A B; split; [exact A|exact B]).
  split; [|split; [reflexivity|repeat constructor]]. split; [constructor|]. split; [|reflexivity]. apply f_more; [|split; [reflexivity|split; [discriminate|reflexivity]]|discriminate|apply f_last; [|reflexivity|discriminate]].
  - split; [constructor|]. split; [|intros ? ? E; injection E as <- _; reflexivity]. apply d_tok; [apply N; [reflexivity|discriminate]|discriminate|constructor].
  - split; [constructor; [reflexivity|constructor]|]. split; [|intros ? ? E; injection E as <- _; reflexivity].
    apply d_tok; [apply N; [reflexivity|discriminate]|discriminate|]. apply d_esc; [reflexivity|apply N; [reflexivity|discriminate]|]. apply d_tok; [apply N; [reflexivity|discriminate]|discriminate|constructor].
Qed.

(** ** Where text is not split, or split otherwise *)
(** a backslash keeps the whole next token, and any separator in it, not only a separator that follows it *)
Theorem C29_backslash_token_refuted : ~ (forall a b, rows_seen (read_values Delimited "¦" [] HNone ("\" ++ a ++ "¦" ++ b ++ NLs)) = Some [[(1, 1, a); (1, 1, b)]]).
Proof. intro H. specialize (H "ab" "cd"). vm_compute in H. discriminate. Qed.
Print Assumptions C29_backslash_token_refuted.
(** two colons at the end of a line are not two separators *)
Theorem C29_two_colons_refuted : ~ (forall a b, rows_seen (read_values Delimited ":" (columns 3) HNone (a ++ ":" ++ b ++ ":" ++ NLs)) = Some [[(1, 1, a); (1, 1, b); (1, 1, "")]]).
Proof. intro H. specialize (H "a" ""). vm_compute in H. discriminate. Qed.
Print Assumptions C29_two_colons_refuted.
(** nor is the colon after the name of a macro a separator *)
Theorem C29_macro_name_refuted : ~ (forall a b, rows_seen (read_values Delimited ":" [] HNone (a ++ ":" ++ b ++ NLs)) = Some [[(1, 1, a); (1, 1, b)]]).
Proof. intro H. specialize (H "image" "b"). vm_compute in H. discriminate. Qed.
Print Assumptions C29_macro_name_refuted.
(** an empty line before the end of the table makes a row with one empty cell *)
Theorem C29_trailing_empty_line_refuted : ~ (forall s, rows_seen (read_values Delimited ":" [] HNone (s ++ NLs)) = rows_seen (read_values Delimited ":" [] HNone s)).
Proof. intro H. specialize (H ("a:b" ++ NLs)). vm_compute in H. discriminate. Qed.
Print Assumptions C29_trailing_empty_line_refuted.
(** a record that is too long spills into the next row *)
Theorem C29_long_record_refuted : ~ (forall a b c d e, length (filter (fun s => (s =? "")%string) [a; b; c; d; e]) = 0 ->
  rows_seen (read_values Delimited ":" [] HNone (a ++ ":" ++ b ++ NLs ++ c ++ ":" ++ d ++ ":" ++ e ++ NLs)) = Some [[(1, 1, a); (1, 1, b)]; [(1, 1, c); (1, 1, d); (1, 1, e)]]).
Proof. intro H. specialize (H "a" "b" "c" "d" "e" eq_refl). vm_compute in H. discriminate. Qed.
Print Assumptions C29_long_record_refuted.
