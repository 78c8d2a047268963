{
 "claims": [
  {
   "property": "C01",
   "status": "proved",
   "theorems": [
    "C01_readonly_job_attr_survives_any_document",
    "C01_safe_mode_attrs_cannot_be_forged",
    "C01_secure_lockdown_disables_data_uri",
    "C01_cells_inherit_readonly",
    "C01_cells_drop_readonly_toc_refuted"
   ],
   "note": "Assignments to read-only job attributes are silently ignored rather than reported (property text adjusted). Deliberate exception: five title/toc names are dropped inside AsciiDoc table cells (C01_cells_drop_readonly_toc_refuted)."
  },
  {
   "property": "C02",
   "status": "proved",
   "theorems": [
    "C02_lookup_precedence",
    "C02_spec_is_a_function",
    "C02_doctitle_fallback",
    "C02_builtin_defaults",
    "C02_soft_job_value_shadowed_by_default_refuted"
   ],
   "note": "Lookup equals a history-based relational specification, itself proved total and functional. Finding: a soft (modifiable) job value never beats a built-in default."
  },
  {
   "property": "C03",
   "status": "proved",
   "theorems": [
    "C03_header_assignment",
    "C03_body_assignment",
    "C03_body_assignment_frame"
   ],
   "note": "Exact acceptance condition and frame for every state."
  },
  {
   "property": "C04",
   "status": "partial",
   "theorems": [
    "C04_showtitle_notitle_exclusive",
    "C04_job_layer_exclusive",
    "C04_cross_layer_refuted",
    "C04_standalone_title_visibility"
   ],
   "note": "Per-layer exclusivity and standalone title visibility proved; the cross-layer reading is refuted (later body showtitle does not undo header notitle; document notitle beats a read-only job showtitle)."
  },
  {
   "property": "C05",
   "status": "partial",
   "theorems": [
    "C05_doctype_views_agree",
    "C05_fixed_doctype_partial",
    "C05_job_fixed_doctype_refuted",
    "C05_job_attr_doctype_ignored_refuted",
    "C05_cells_are_articles"
   ],
   "note": "Proved when the job does not fix the doctype; refuted when it does: a header doctype entry is accepted and changes the effective type."
  },
  {
   "property": "C06",
   "status": "partial",
   "theorems": [
    "C06_parse_segments",
    "C06_print_parse_stable",
    "C06_print_parse_stable_backslash",
    "C06_mixed_separators_refuted",
    "C06_join_absolute_replaces",
    "C06_join_relative_extends",
    "C06_file_name_is_last",
    "C06_stem_and_extension",
    "C06_file_name_panics_iff",
    "C06_file_name_total_refuted",
    "C06_dirname",
    "C06_dirname_of_url_text_refuted",
    "C06_pop",
    "C06_dirname_of_root"
   ],
   "note": "Segments, joining, file name, stem/extension and dirname proved for every text; printing is stable for paths that use one separator kind. Refuted: mixed separators are not stable, file_name panics on paths without a final component, dirname of URL text."
  },
  {
   "property": "C07",
   "status": "proved",
   "theorems": [
    "C07_reads_stay_under_base",
    "C07_ok_is_the_file",
    "C07_refused_without_reading",
    "C07_served",
    "C07_strict_serves_canonical_spelling",
    "C07_check_then_open_refuted",
    "C07_uri_fetched_in_secure_mode_refuted"
   ],
   "note": "Reads stay under the canonical base on a stable file system; exact refusals; findings: check-then-open race, URIs are not restricted by the resolver."
  },
  {
   "property": "C08",
   "status": "partial",
   "theorems": [
    "C08_secure_never_resolves",
    "C08_url_needs_job_permission",
    "C08_at_most_one_call",
    "C08_spliced_text_is_the_resolvers",
    "C08_uri_requests_partial",
    "C08_single_slash_bypass_refuted",
    "C08_denied_include_becomes_link",
    "C08_link_line_brackets_refuted",
    "C08_stdin_absolute_include_refuted",
    "C08_relative_targets",
    "C08_outcomes",
    "C08_files_are_requested"
   ],
   "note": "Secure mode and textual URLs proved for all documents; the full claim is false: single-slash URLs bypass allow-uri-read (refuted), so URI requests are characterised instead. Link line findings, stdin panic."
  },
  {
   "property": "C09",
   "status": "proved",
   "theorems": [
    "C09_nesting_bounded",
    "C09_pulling_terminates",
    "C09_pulling_terminates_or_panics",
    "C09_siblings_use_up_depth_refuted",
    "C09_depth_attribute_leaks_refuted",
    "C09_latest_depth_attribute_counts",
    "C09_depth_overflow_refuted"
   ],
   "note": "Nesting never exceeds the limit and reading terminates for every (also cyclic) family of files. Refuted corners: the limit counts opened files rather than nesting, depth= leaks to later siblings, u16 overflow panics with checks on."
  },
  {
   "property": "C10",
   "status": "proved",
   "theorems": [
    "C10_selects_exactly",
    "C10_parser_sees_selection",
    "C10_invalid_specification_includes_everything",
    "C10_extra_last_line_refuted",
    "C10_largest_bound_refuted",
    "C10_marker_in_source_refuted"
   ],
   "note": "Line selection modelled on bytes (lines= of an include). Selection is exact for specifications naming no usize::MAX; three corner cases are refuted (extra empty last line, usize::MAX bound, text that starts with the place holder's name)."
  },
  {
   "property": "C11",
   "status": "partial",
   "theorems": [
    "C11_directive_lines",
    "C11_selects_exactly_the_regions",
    "C11_single_tag",
    "C11_no_attribute_no_change",
    "C11_missing_names_reported",
    "C11_unclosed_region_reported",
    "C11_wrong_end_reported",
    "C11_innermost_rule_refuted",
    "C11_exclusion_binds_to_last_refuted",
    "C11_second_exclusion_refuted",
    "C11_order_matters_refuted",
    "C11_line_numbers_shift_refuted",
    "C11_innermost_rule_partial"
   ],
   "note": "Which lines are directives is characterised for every valid UTF-8 line, and for properly nested files of any size and depth the kept lines are exactly those whose enclosing regions satisfy the meaning of the tags= text, for all the documented forms (names, exclusions, *, **, !*, !**, foo;!bar, foo;!*, *;!foo, !*;foo, **;!foo) and for tag=. Missing, unclosed and unexpected names are reported exactly. The stated innermost-tag rule is refuted for mixed specifications; it is proved equal to what is done for lists of names only or exclusions only. \\w outside ASCII (regex crate tables) is a parameter."
  },
  {
   "property": "C12",
   "status": "proved",
   "theorems": [
    "C12_utf8_kept",
    "C12_utf16_converted",
    "C12_utf16_round_trip",
    "C12_other_bytes_refused",
    "C12_bom_hides_invalid_utf8_refuted",
    "C12_encoding_attribute_ignores_bom_refuted",
    "C12_lines_cleaned",
    "C12_cleaned_text_unique",
    "C12_cleaning_keeps_utf8",
    "C12_idempotent",
    "C12_not_idempotent_refuted",
    "C12_include_normalised"
   ],
   "note": "Encoding and line cleaning on bytes, exact characterisations both ways; idempotence holds when every carriage return ends a line, refuted otherwise; two encoding defects refuted (invalid UTF-8 behind a BOM accepted; BOM kept with encoding=utf-16)."
  },
  {
   "property": "C13",
   "status": "proved",
   "theorems": [
    "C13_moves_every_line",
    "C13_least_indent_is_n",
    "C13_no_line_lost",
    "C13_ignored",
    "C13_attribute_number",
    "C13_nothing_selected",
    "C13_blank_line_prevents_outdent_refuted",
    "C13_placeholder_leaks_refuted",
    "C13_tabs_not_indentation_refuted"
   ],
   "note": "Re-indentation characterised for every text with or without place holders; the claim for non-blank lines only is refuted (an empty line counts as unindented), as is hiding of place holders."
  },
  {
   "property": "C14",
   "status": "proved",
   "theorems": [
    "C14_lossless",
    "C14_kinds",
    "C14_placement",
    "C14_newlines",
    "C14_attr_ref_recognised",
    "C14_directive_recognised",
    "C14_final_endif_refuted",
    "C14_delimiter_recognised",
    "C14_callout_recognised",
    "C14_entity_recognised",
    "C14_uri_recognised",
    "C14_macro_recognised",
    "C14_invalid_utf8_refuted",
    "C14_end_moves_refuted"
   ],
   "note": "For valid UTF-8 text. The refuted theorems record that invalid UTF-8 (possible through include) panics, that a final endif::[] without newline is not recognised, and that the end position is not stable."
  },
  {
   "property": "C15",
   "status": "proved",
   "theorems": [
    "C15_in_place_expansion",
    "C15_read_takes_the_front",
    "C15_token_location",
    "C15_inserted_token_location",
    "C15_push_in_front",
    "C15_read_line",
    "C15_double_push_refuted",
    "C15_inserted_text_names_primary_refuted",
    "C15_source_limit_refuted"
   ],
   "note": "Refinement: any history of reads and pushes delivers what a stack of whole-file token streams delivers. Refuted corners: two pushes in a row lose the first; text inserted for an embedded conditional line is located in the primary source; 65536 sources."
  },
  {
   "property": "C16",
   "status": "partial",
   "theorems": [
    "C16_peek_shows_next_byte",
    "C16_end_is_reported",
    "C16_eof_only_at_end_partial",
    "C16_eof_exact_after_blank_lines",
    "C16_early_end_refuted"
   ],
   "note": "Lookahead is sound, the end is always reported, and exact at nesting <= 1 or after blank lines. The full converse is false of the code (C16_early_end_refuted): a file ending in an include hides what follows in the outermost document."
  },
  {
   "property": "C17",
   "status": "proved",
   "theorems": [
    "C17_every_position_on_one_line",
    "C17_line_number",
    "C17_line_text",
    "C17_lone_return_refuted",
    "C17_panics_exactly_outside",
    "C17_positions_distinct",
    "C17_raw_lines",
    "C17_raw_lines_whole",
    "C17_cell_lines",
    "C17_adapter_agrees",
    "C17_adapter_span"
   ],
   "note": "Line numbers, columns, raw lines, cell relining and the TCK adapter, for every text and position; panics exactly outside the text. Refuted corner: a lone CR cuts the reported text."
  },
  {
   "property": "C18",
   "status": "partial",
   "theorems": [
    "C18_kept_lines_partial",
    "C18_kept_is_a_function",
    "C18_unclosed_reported",
    "C18_open_end_unreported_refuted",
    "C18_one_line_form",
    "C18_one_letter_name_refuted",
    "C18_ifndef_all_looks_at_last_refuted",
    "C18_named_closing_nested_refuted",
    "C18_stray_closing_refuted",
    "C18_one_line_inside_skipped_refuted",
    "C18_mention_inside_skipped_refuted",
    "C18_ifeval_inside_skipped_refuted",
    "C18_last_line_refuted",
    "C18_one_line_panics_refuted"
   ],
   "note": "Proved for every nesting depth and every attribute state, with ordinary lines free to change attributes: the lines kept are those whose enclosing conditions hold and nothing is reported; a failing conditional that is never closed is reported; the one-line form keeps its text exactly when its condition holds. Partial because the full statement is false of the program: one-letter names, ifndef with '+', closing lines that name an outer conditional, stray closing lines, one-line conditionals / mentions / ifeval inside a skipped region, a last line without newline, and a panic are each refuted."
  },
  {
   "property": "C19",
   "status": "proved",
   "theorems": [
    "C19_same_type_order",
    "C19_text_order_total",
    "C19_complement",
    "C19_booleans",
    "C19_nothing",
    "C19_mixed_types",
    "C19_operand_value",
    "C19_directive",
    "C19_document",
    "C19_nil_asymmetric_refuted",
    "C19_whole_against_fraction_refuted",
    "C19_not_a_number_refuted",
    "C19_booleans_unordered_refuted",
    "C19_lone_quote_panics_refuted",
    "C19_operator_in_quotes_refuted",
    "C19_everything_else_is_zero_refuted"
   ],
   "note": "Order and complement laws on comparable values, mixed types never equal; the exceptions (nil on the left, whole against fractional numbers, nan, booleans under <) are refuted separately. Floating point parsing and comparison are parameters (record floats). Operand text to value, directive line to operands and the effect on the document's lines are proved too; the line form is restricted to operands the expression regex cannot misread, misreadings are refuted."
  },
  {
   "property": "C20",
   "status": "partial",
   "theorems": [
    "C20_values_substituted",
    "C20_lines_expanded_partial",
    "C20_expansion_is_a_function",
    "C20_replacement_is_a_function",
    "C20_plain_text_untouched",
    "C20_values_rescanned_refuted",
    "C20_rest_of_value_lost_refuted",
    "C20_self_reference_diverges_refuted",
    "C20_undefined_in_value_removed_refuted",
    "C20_value_names_case_sensitive_refuted"
   ],
   "note": "Values: full statement proved (C20_values_substituted), with undefined references removed rather than kept (refuted as stated). Lines: C20_lines_expanded_partial covers every document and attribute state whose values contain no opening brace or line end; other values are rescanned, lose text or diverge (refuted theorems)."
  },
  {
   "property": "C21",
   "status": "proved",
   "theorems": [
    "C21_auto_id_fresh",
    "C21_terminates",
    "C21_never_runs_on",
    "C21_document_ids_distinct",
    "C21_least_number",
    "C21_number_is_decimal",
    "C21_words_of_title",
    "C21_tags_ignored",
    "C21_settings",
    "C21_explicit_id_used",
    "C21_explicit_id_repeats_refuted",
    "C21_explicit_ids_need_sectids_refuted",
    "C21_wide_separator_panics_refuted",
    "C21_empty_id_refuted",
    "C21_letter_as_separator_refuted"
   ],
   "note": "Over all histories of headings, settings and sets of earlier ids; the Unicode tables are parameters. Terminates by pigeonhole. Refuted next to it: an explicit id may repeat an earlier generated one, sectids off drops explicit ids, a multi-byte separator with an empty prefix panics, the empty id, a letter as separator. Ids of block and inline anchors are not in the set of used ids in the code and not modelled."
  },
  {
   "property": "C22",
   "status": "proved",
   "theorems": [
    "C22_reads_in_order",
    "C22_nesting",
    "C22_article_complete",
    "C22_default_never_crashes",
    "C22_default_article",
    "C22_entries",
    "C22_jump_crashes_refuted",
    "C22_below_skipped_crashes_refuted",
    "C22_skipped_missing_refuted",
    "C22_appendix_crashes_refuted"
   ],
   "note": "For every article and every book without special sections: order, completeness and nesting; with the default of two levels no document crashes; exact crash condition for entry sequences. Refuted: skipped levels are missing from the table, a subsection of a skipped level crashes the parser with toclevels >= 4, an appendix written at level 0 with sections of levels 2 and 3 crashes with toclevels >= 3."
  },
  {
   "property": "C23",
   "status": "proved",
   "theorems": [
    "C23_consecutive",
    "C23_distinct",
    "C23_next_sibling",
    "C23_first_child",
    "C23_toc_numbers",
    "C23_toc_numbers_match",
    "C23_appendix_sections_repeat_refuted",
    "C23_after_appendix_repeats_refuted",
    "C23_toc_macro_restarts_refuted",
    "C23_skipped_level_zero_refuted",
    "C23_level_zero_crashes_refuted",
    "C23_level_six_crashes_refuted",
    "C23_appendix_letters_run_out_refuted",
    "C23_preface_counted_as_part_refuted"
   ],
   "note": "For every document of sections with any settings, changing anywhere: the exact numbers, all distinct as text, the table of contents agrees with the body. Appendices, parts and tables in the body: refuted with examples (numbers repeat; crashes for numbered levels 0 and 6)."
  },
  {
   "property": "C24",
   "status": "proved",
   "theorems": [
    "C24_offset_history",
    "C24_level",
    "C24_level_is_sum",
    "C24_never_negative",
    "C24_rendered",
    "C24_written_level",
    "C24_offsets_cut_refuted",
    "C24_nested_includes_refuted",
    "C24_level_seven_crashes_refuted",
    "C24_offset_overflow_refuted",
    "C24_many_signs_refuted"
   ],
   "note": "Offsets: any history of relative, absolute and unsetting assignments; level formula; never negative; rendered iff at most six; written level from the signs. Refuted: the two offsets cut at zero separately, nested includes do not add, level 7 crashes, i8 overflow crashes, 257 signs."
  },
  {
   "property": "C25",
   "status": "proved",
   "theorems": [
    "C25_scopes",
    "C25_last_callouts",
    "C25_consecutive",
    "C25_identities",
    "C25_item",
    "C25_list_first",
    "C25_number_read",
    "C25_automatic_read",
    "C25_zero_identity_refuted",
    "C25_zero_item_refuted",
    "C25_counters_overflow_refuted",
    "C25_large_number_refuted"
   ],
   "note": "Callouts and callout lists as the parser numbers and matches them, for all histories; the identities of callouts; the number read from the text of a callout. How lines are recognised as callouts is not part of this model."
  },
  {
   "property": "C26",
   "status": "proved",
   "theorems": [
    "C26_one_of_three",
    "C26_lists",
    "C26_unambiguous",
    "C26_blank_lines",
    "C26_one_list",
    "C26_text_separates",
    "C26_depth",
    "C26_many_stars_refuted",
    "C26_depth_wraps_refuted"
   ],
   "note": "The nesting of unordered and ordered list items by marker: text of markers and item lines, the stack of open lists, blank lines between items, and depth. Description lists, list continuations, attribute lines and comments between items are not modelled."
  },
  {
   "property": "C27",
   "status": "proved",
   "theorems": [
    "C27_rows_written",
    "C27_rows_counted",
    "C27_conserved",
    "C27_terminates",
    "C27_no_panic",
    "C27_empty_table_refuted",
    "C27_one_letter_cell_refuted",
    "C27_rows_exact_refuted",
    "C27_row_overflow_refuted",
    "C27_row_spans_refuted",
    "C27_header_copy_refuted",
    "C27_256_columns_refuted",
    "C27_zero_copies_refuted",
    "C27_attribute_separator_refuted"
   ],
   "note": "Exact layout for tables whose written rows fill their columns, with a cols attribute or with counted columns; for any source, cells are conserved in order, reading ends exactly when there is a column, and panics need a copied cell under an open header. The unrestricted row width claim is refuted by overflowing spans and copies, and an empty table never ends."
  },
  {
   "property": "C28",
   "status": "proved",
   "theorems": [
    "C28_records",
    "C28_records_counted",
    "C28_quoting",
    "C28_rows",
    "C28_quoted_separator_refuted",
    "C28_quoted_line_end_refuted",
    "C28_quoted_space_refuted",
    "C28_trailing_empty_line_refuted",
    "C28_space_before_tab_refuted",
    "C28_text_after_quote_refuted",
    "C28_empty_field_header_refuted",
    "C28_quoted_comment_refuted"
   ],
   "note": "Records of plain and quoted fields and rows of arbitrary quoted values decode to what was written; any tokens with a usual separator give rows of the table's width. Refuted: unusual separators between quotes (panic), line ends between quotes in a counted first row, white space at the start of a quoted value, trailing empty lines, space before tab, text after a closing quote, comment lines between quotes, implicit header with an empty last field."
  },
  {
   "property": "C29",
   "status": "proved",
   "theorems": [
    "C29_split",
    "C29_split_unique",
    "C29_rows",
    "C29_records",
    "C29_records_counted",
    "C29_backslash_token_refuted",
    "C29_two_colons_refuted",
    "C29_macro_name_refuted",
    "C29_trailing_empty_line_refuted",
    "C29_long_record_refuted"
   ],
   "note": "For any tokens and a usual separator the cells are exactly the fields of the unique split at unescaped delimiters and line ends, and rows have the table's width; refuted at the text level: backslash before a whole word, two colons at a line end, macro names, trailing empty lines, long records."
  },
  {
   "property": "C30",
   "status": "proved",
   "theorems": [
    "C30_total",
    "C30_proportions",
    "C30_automatic",
    "C30_overfull",
    "C30_sum_overflow_refuted",
    "C30_zero_refuted"
   ],
   "note": "Widths are exact quotients: f32 rounding is not modelled. The sum is a u8 whose overflow stops the program (refuted theorem); a list of zero widths divides by zero (refuted theorem)."
  },
  {
   "property": "C31",
   "status": "proved",
   "theorems": [
    "C31_no_markup",
    "C31_attribute_closed",
    "C31_reads_back",
    "C31_reads_back_ascii",
    "C31_injective",
    "C31_short_references_kept",
    "C31_url_clean",
    "C31_url_reads_back",
    "C31_long_reference_escaped_refuted",
    "C31_ampersand_lost_refuted",
    "C31_bare_ampersand_refuted",
    "C31_url_quote_refuted"
   ],
   "note": "No markup characters in any output; attribute values closed; reading back gives the text when no character lies across the sixth byte after an &#; short references kept. Refuted: longer references escaped, ampersand lost, bare ampersand kept, quotes in URL parts."
  },
  {
   "property": "C32",
   "status": "proved",
   "theorems": [
    "C32_reading_unique",
    "C32_tag",
    "C32_one_class_one_style",
    "C32_resolved_class",
    "C32_role_injection_refuted",
    "C32_out_of_order_refuted",
    "C32_two_class_attributes_refuted"
   ],
   "note": "For all call sequences in order: exact attributes, one class and one style; unique reading. Refuted: roles and classes are not escaped, calls out of order."
  },
  {
   "property": "C33",
   "status": "proved",
   "theorems": [
    "C33_link_tag",
    "C33_nofollow_in_target_refuted",
    "C33_target_injection_refuted",
    "C33_window_injection_refuted"
   ],
   "note": "The tag of a link macro for all attribute lists except nofollow with a window and no noopener (refuted), with unquoted target, window and roles (injection refuted)."
  },
  {
   "property": "C34",
   "status": "proved",
   "theorems": [
    "C34_well_bracketed",
    "C34_well_bracketed_without_index",
    "C34_document_order",
    "C34_section_inside",
    "C34_part_inside",
    "C34_block_inside",
    "C34_row_inside",
    "C34_cell_inside",
    "C34_item_inside",
    "C34_no_panic",
    "C34_well_bracketed_refuted",
    "C34_no_panic_refuted"
   ],
   "note": "Every stream of backend calls is well bracketed except for the calls that enter visible index terms, which are never left (C34_well_bracketed, C34_well_bracketed_refuted); without such terms it is well bracketed without exception. What the backend visits is the document in order, including tables of contents, docinfo and documents in table cells. Documents whose blocks have fitting contents never panic; an open block with the style normal does."
  },
  {
   "property": "C35",
   "status": "partial",
   "theorems": [
    "C35_terminates_partial",
    "C35_result_partial",
    "C35_single_references_partial",
    "C35_fuel",
    "C35_terminates_refuted"
   ],
   "note": "As stated the property is false: the title [<<a>> <<a>>] of a section with the id a makes evaluation run forever (C35_terminates_refuted, for every fuel). Proved: evaluation ends, with a result that more fuel does not change, whenever the anchors can be ranked so that all cross references in an anchor's text but the first lead to lower ones; cycles of any length are harmless if no anchor text has two cross references."
  },
  {
   "property": "C36",
   "status": "proved",
   "theorems": [
    "C36_encode_is_rfc4648",
    "C36_decode_encode",
    "C36_length_and_alphabet"
   ],
   "note": "Encoder equals an arithmetic RFC 4648 specification; decoder round trip, length, alphabet."
  },
  {
   "property": "C37",
   "status": "partial",
   "theorems": [
    "C37_presets",
    "C37_history_is_ordered_set",
    "C37_debug_panic_exactly",
    "C37_release_membership",
    "C37_seventh_step_refuted",
    "C37_append_refuted",
    "C37_subs_attribute",
    "C37_subs_attribute_total",
    "C37_verbatim_group_refuted",
    "C37_pass_macro_target",
    "C37_pass_macro_target_total",
    "C37_plus_passthrough"
   ],
   "note": "Ordered-set semantics proved for every history of insert/remove/prepend and for every value of the subs attribute, with the exact panic condition; findings: the seventh step (debug assertion, lost slot), append (duplicates, out of bounds; unused outside tests), subs=verbatim differs from the verbatim preset."
  },
  {
   "property": "C38",
   "status": "partial",
   "theorems": [
    "C38_refines_list",
    "C38_list_semantics",
    "C38_truncate_after_pop_refuted",
    "C38_remove_first_of_empty_refuted"
   ],
   "note": "Refinement proved for every history that avoids three situations, each exhibited as a finding: truncate after a front pop, remove_first on empty, restore_front with nothing consumed (assertion)."
  },
  {
   "property": "C39",
   "status": "proved",
   "theorems": [
    "C39_partition",
    "C39_split",
    "C39_meaning",
    "C39_block_no_panic",
    "C39_macro_no_panic",
    "C39_inline_no_panic",
    "C39_link_text",
    "C39_quoted_link_text",
    "C39_anchor",
    "C39_anchor_text",
    "C39_apostrophes_refuted",
    "C39_bracket_refuted",
    "C39_escaped_refuted",
    "C39_equals_refuted",
    "C39_place_refuted",
    "C39_formatted_refuted",
    "C39_link_refuted",
    "C39_anchor_refuted"
   ],
   "note": "Items and commas make up the list (any tokens); commas split exactly outside quotes when quotes pair up; every well-formed list says what was written; block and macro lists never panic; link texts and anchors. Refuted: apostrophes in two quoted values, brackets in quotes, formatted text lists and anchors that panic, link texts that swallow the line."
  },
  {
   "property": "C40",
   "status": "proved",
   "theorems": [
    "C40_lenient_reports_all_in_order",
    "C40_strict_stops_at_first",
    "C40_underlines_the_piece",
    "C40_token_report",
    "C40_token_start_report",
    "C40_line_reports",
    "C40_pattern_report",
    "C40_carets_aligned",
    "C40_carets_six_digits_refuted",
    "C40_carets_count_bytes_refuted"
   ],
   "note": "Strict/lenient over every sequence of problems (cells included); underline and caret placement. Refuted corners: six-digit line numbers and multi-byte characters misplace carets."
  },
  {
   "property": "C41",
   "status": "proved",
   "theorems": [
    "C41_definition",
    "C41_meaning_unique",
    "C41_accepted",
    "C41_invalid",
    "C41_rest_ignored_refuted",
    "C41_any_rest_refuted",
    "C41_empty_value_refuted",
    "C41_lines_cut_refuted",
    "C41_order_of_marks_refuted"
   ],
   "note": "The regular expression and the table of forms on ASCII text. What stands around the definition is not looked at, an empty value and the order of the marks are findings (refuted theorems)."
  },
  {
   "property": "C42",
   "status": "proved",
   "theorems": [
    "C42_footnotes",
    "C42_numbering_unique",
    "C42_consecutive",
    "C42_references_resolve",
    "C42_same_id",
    "C42_entry",
    "C42_nested_refuted",
    "C42_nested_lost_refuted",
    "C42_title_refuted"
   ],
   "note": "Both HTML backends, for documents whose footnotes are not within footnotes or block titles. Refuted: a footnote within a footnote or in a block title panics in debug builds and moves everything written before it into the footnote in release builds."
  },
  {
   "property": "C43",
   "status": "proved",
   "theorems": [
    "C43_author_attributes",
    "C43_authorcount_refuted",
    "C43_author_line",
    "C43_full_name",
    "C43_author_attribute",
    "C43_hyphen_refuted",
    "C43_apostrophe_refuted",
    "C43_suffix_refuted",
    "C43_one_name_refuted",
    "C43_gap_refuted",
    "C43_blank_refuted"
   ],
   "note": "Attribute numbering proved for every history; authorcount is never set (refuted). The author line is read back for any number of people whose last names are words; hyphens, apostrophes, suffixes and single names are cut (refuted)."
  },
  {
   "property": "C44",
   "status": "proved",
   "theorems": [
    "C44_secure",
    "C44_files_asked",
    "C44_files_unique",
    "C44_directory",
    "C44_content",
    "C44_text_unique",
    "C44_no_resolver",
    "C44_line_ends_lost_refuted",
    "C44_unset_asks_refuted",
    "C44_url_needs_permission_refuted",
    "C44_suffix_leads_away_refuted"
   ],
   "note": "All attribute values and safe modes; the resolver and lossy decoding are arbitrary functions. Refuted: line ends of docinfo files are lost; unsetting docinfo2 asks for files; docinfodir may be a URL whatever allow-uri-read says; outfilesuffix may lead to other files."
  },
  {
   "property": "C45",
   "status": "proved",
   "theorems": [
    "C45_nothing_lost",
    "C45_white_space",
    "C45_merged",
    "C45_no_panic",
    "C45_locations",
    "C45_wide_space_refuted",
    "C45_wide_comment_refuted",
    "C45_triple_dash_refuted",
    "C45_text_before_link_refuted",
    "C45_dashes_location_refuted"
   ],
   "note": "Every sequence of pushes: what is not white space is held once and in order, white space too where nothing is given back, text nodes are merged, no panic, locations are those of the source. Conditions are shown necessary by the refuted theorems: multi-byte white space or line comment before a callout number eats text, three dashes at a line end become two, text before a bare link gets the location of the link's end."
  },
  {
   "property": "C46",
   "status": "partial",
   "theorems": [
    "C46_secure_reads_no_image",
    "C46_image_uri_requests_partial",
    "C46_single_slash_image_bypass_refuted",
    "C46_local_images_are_requested",
    "C46_inline_svg_iff"
   ],
   "note": "Secure-mode part proved; URI part false because of single-slash spelling, characterised."
  },
  {
   "property": "C47",
   "status": "proved",
   "theorems": [
    "C47_stylesheet_stays_in_cwd",
    "C47_secure_mode_reads_stylesheet_refuted",
    "C47_stylesheet_in_cwd_is_read"
   ],
   "note": "Containment proved; finding: secure mode does not stop the read."
  },
  {
   "property": "C48",
   "status": "proved",
   "theorems": [
    "C48_article_nothing_lost",
    "C48_article_structure",
    "C48_article_reports",
    "C48_book_prefix",
    "C48_book_of_chapters",
    "C48_book_of_parts",
    "C48_book_with_preamble",
    "C48_short_last_chapter_refuted",
    "C48_part_after_chapters_refuted",
    "C48_part_after_appendix_refuted"
   ],
   "note": "Articles: nothing lost, order, ownership and reports for every sequence of headings. Books: always parsed without a crash, the result is a prefix of the source, and the whole of it for books of chapters, of parts, and with a preamble. Refuted, with general theorems: a last chapter read together with its text after a preamble is dropped, a part after chapters is dropped with all that follows, a part after a closing special section is dropped."
  },
  {
   "property": "C49",
   "status": "proved",
   "theorems": [
    "C49_columns",
    "C49_bare_number",
    "C49_blank",
    "C49_unreadable",
    "C49_large_width_refuted"
   ],
   "note": "The cols attribute on ASCII text; other digits and white space that the regular expression admits are not modelled."
  },
  {
   "property": "C50",
   "status": "partial",
   "theorems": [
    "C50_shown_as_written_partial",
    "C50_any_text_refuted",
    "C50_what_is_lost_refuted"
   ],
   "note": "The whole inline parser is modelled. Proved for every number of lines under every literal set of substitutions: each byte is shown as written and &, < and > are escaped exactly when asked. Missing, because false of the program (C50_any_text_refuted, C50_what_is_lost_refuted): texts with backslashes, plus signs after a word, <<..>>, [[..]], ' +' at a line end, entities, or, without callouts, lines starting with //."
  },
  {
   "property": "C51",
   "status": "partial",
   "theorems": [
    "C51_plus_partial",
    "C51_pass_macro_partial",
    "C51_any_text_refuted",
    "C51_what_is_lost_refuted",
    "C51_empty_pass_macro_panics"
   ],
   "note": "Plus signs (one to three) and the pass macro, in a line of words, for every text the literal parser leaves alone (C50); exceptions are refuted. Missing: passthroughs over several lines, several in one line (false: C51_what_is_lost_refuted), other constructs around them."
  },
  {
   "property": "C52",
   "status": "proved",
   "theorems": [
    "C52_ends",
    "C52_result"
   ],
   "note": "Termination of the modelled inline parser for arbitrary tokens, with an explicit linear bound on the depth of steps. What decides that a line ends the text is an arbitrary function."
  },
  {
   "property": "C53",
   "status": "partial",
   "theorems": [
    "C53_letters_partial",
    "C53_letters_passthroughs_partial",
    "C53_text_partial",
    "C53_attributes_refuted",
    "C53_anchor_refuted",
    "C53_escaped_passthrough_refuted",
    "C53_release_refuted",
    "C53_slashes_refuted",
    "C53_terms_refuted",
    "C53_line_end_refuted"
   ],
   "note": "Proved for every text of tokens as the lexer gives them, in debug builds, outside of bibliography lists and of blocks that end paragraphs early, without attribute references and double slashes, either without passthroughs (then with no backtick between a bracket and a quote, and no escaped bracket in an anchor) or with plus passthroughs but without macros, links, brackets and backslashes. Outside of these conditions letters are lost: see the refuted theorems. Words of two lines run together behind a footnote or xref macro that ends a line."
  },
  {
   "property": "C54",
   "status": "proved",
   "theorems": [
    "C54_nested",
    "C54_footnote_in_title_refuted",
    "C54_footnote_in_footnote_refuted",
    "C54_footnote_in_reference_refuted",
    "C54_list_in_rows_refuted",
    "C54_rows_in_glossary_refuted",
    "C54_two_terms_refuted",
    "C54_no_description_refuted",
    "C54_cited_verse_refuted",
    "C54_icons_in_callouts_refuted",
    "C54_contents_without_title_refuted",
    "C54_cell_in_cell_refuted",
    "C54_header_cell_refuted",
    "C54_quoted_target_refuted"
   ],
   "note": "Proved for all trees, attributes and settings without the listed shapes, each of which is refuted by a theorem of its own (C54_footnote_in_title_refuted, C54_footnote_in_footnote_refuted, C54_footnote_in_reference_refuted, C54_list_in_rows_refuted, C54_rows_in_glossary_refuted, C54_two_terms_refuted, C54_no_description_refuted, C54_cited_verse_refuted, C54_icons_in_callouts_refuted, C54_contents_without_title_refuted, C54_cell_in_cell_refuted, C54_header_cell_refuted). Strings that go out as they are have to be harmless; C54_quoted_target_refuted shows a link whose target is not."
  },
  {
   "property": "C55",
   "status": "proved",
   "theorems": [
    "C55_article_ends",
    "C55_more_steps",
    "C55_book_refuted"
   ],
   "note": "For articles; C55_book_refuted: a book may be parsed for ever. C55_more_steps: the result does not depend on the fuel."
  },
  {
   "property": "C56",
   "status": "proved",
   "theorems": [
    "C56_read_to_the_end",
    "C56_with_enough_steps",
    "C56_empty_paragraph_refuted",
    "C56_stray_attributes_refuted",
    "C56_invalid_anchor_refuted",
    "C56_book_refuted"
   ],
   "note": "The exceptions are in the statement (irregular); each is shown to lose the rest: C56_empty_paragraph_refuted, C56_stray_attributes_refuted, C56_invalid_anchor_refuted. Books: C56_book_refuted."
  },
  {
   "property": "C57",
   "status": "proved",
   "theorems": [
    "C57_levels_grow",
    "C57_section_in_list_refuted"
   ],
   "note": "For articles and books."
  },
  {
   "property": "C58",
   "status": "proved",
   "theorems": [
    "C58_unclosed_reported",
    "C58_dropped_comment_refuted"
   ],
   "note": "Articles. Exact but for dropped descriptions, which C58_dropped_comment_refuted shows."
  },
  {
   "property": "C59",
   "status": "proved",
   "theorems": [
    "C59_skips_reported"
   ],
   "note": "Articles."
  },
  {
   "property": "C60",
   "status": "proved",
   "theorems": [
    "C60_group",
    "C60_put_back",
    "C60_verbatim",
    "C60_table",
    "C60_white_line_refuted",
    "C60_listing_refuted"
   ],
   "note": "C60_white_line_refuted and C60_listing_refuted show the line that is lost."
  },
  {
   "property": "C61",
   "status": "proved",
   "theorems": [
    "C61_flag",
    "C61_text",
    "C61_header",
    "C61_entity",
    "C61_entries_only",
    "C61_entries_all",
    "C61_short_refuted",
    "C61_panics_only",
    "C61_panics_refuted",
    "C61_crlf_refuted"
   ],
   "note": "attribute entries: flags, values in lines, references in the header, entities in pass macros, recognition both ways, exact consumption, panics; the short entry, the panic at the end of a source and carriage returns are refuted parts"
  },
  {
   "property": "C62",
   "status": "proved",
   "theorems": [
    "C62_revision",
    "C62_version_alone",
    "C62_taken",
    "C62_no_panic",
    "C62_attributes_set",
    "C62_one_digit_refuted",
    "C62_word_refuted",
    "C62_empty_remark_refuted"
   ],
   "note": "For every version, date and remark; exactly which lines are taken; no panic. Refuted: a one digit version, words with a digit, an empty remark."
  },
  {
   "property": "C63",
   "status": "proved",
   "theorems": [
    "C63_header",
    "C63_header_ends",
    "C63_header_panics",
    "C63_ends",
    "C63_read",
    "C63_title_refuted",
    "C63_entry_refuted",
    "C63_comment_refuted",
    "C63_slashes_refuted"
   ],
   "note": "Every line accounted for, with the dropped lines named; reading ends; panics only in a header; articles with their header end and are read to the end. Refuted: no line is lost."
  },
  {
   "property": "C64",
   "status": "proved",
   "theorems": [
    "C64_nested",
    "C64_footnote_in_title_refuted",
    "C64_footnote_in_footnote_refuted",
    "C64_footnote_in_reference_refuted",
    "C64_footnote_in_contents_refuted",
    "C64_title_left_in_preamble_refuted",
    "C64_callouts_refuted",
    "C64_titled_verse_refuted",
    "C64_part_without_id_refuted",
    "C64_changed_image_refuted",
    "C64_late_image_block_refuted",
    "C64_header_cell_refuted",
    "C64_cell_in_cell_refuted"
   ],
   "note": "Proved for all trees, attributes and settings without the listed shapes, each of which is refuted by a theorem of its own (C64_footnote_in_title_refuted, C64_footnote_in_footnote_refuted, C64_footnote_in_reference_refuted, C64_footnote_in_contents_refuted, C64_title_left_in_preamble_refuted, C64_callouts_refuted, C64_titled_verse_refuted, C64_part_without_id_refuted, C64_changed_image_refuted, C64_late_image_block_refuted, C64_header_cell_refuted, C64_cell_in_cell_refuted). Strings that go out as they are have to be harmless."
  },
  {
   "property": "C65",
   "status": "proved",
   "theorems": [
    "C65_reported",
    "C65_reported_once",
    "C65_links_lead_somewhere",
    "C65_file_reported",
    "C65_file_links",
    "C65_two_files_refuted",
    "C65_dot_refuted",
    "C65_file_by_its_end_refuted",
    "C65_itself_refuted",
    "C65_other_documents_refuted",
    "C65_anchors_known",
    "C65_duplicates",
    "C65_section_replaces_anchor_refuted",
    "C65_contents_reported",
    "C65_contents_of_book_refuted",
    "C65_own_text",
    "C65_own_text_refuted"
   ],
   "note": "Reports: C65_reported, C65_reported_once, C65_file_reported, C65_contents_reported (documents without parts; C65_contents_of_book_refuted for those with). Links: C65_links_lead_somewhere, C65_file_links. Anchors: C65_anchors_known, C65_duplicates. Text: C65_own_text. The limits in the statement are needed: C65_two_files_refuted, C65_dot_refuted, C65_file_by_its_end_refuted, C65_itself_refuted, C65_other_documents_refuted, C65_section_replaces_anchor_refuted, C65_own_text_refuted."
  },
  {
   "property": "C66",
   "status": "proved",
   "theorems": [
    "C66_shown",
    "C66_title_of_break_refuted",
    "C66_title_of_heading_refuted",
    "C66_title_of_callouts_refuted",
    "C66_title_of_passthrough_refuted",
    "C66_title_in_description_refuted",
    "C66_title_of_image_refuted",
    "C66_header_cell_refuted",
    "C66_title_moves_refuted",
    "C66_second_footnote_refuted",
    "C66_footer_footnote_refuted"
   ],
   "note": "C66_shown. Texts of cross references (C65) and of footnotes with an id are not among document_texts; C66_second_footnote_refuted shows why. The conditions in the statement are needed: the C66_*_refuted theorems show a text lost or moved for each."
  },
  {
   "property": "C67",
   "status": "proved",
   "theorems": [
    "C67_text",
    "C67_blank_lines"
   ],
   "note": "C67_text: convert of the source of any text is exactly its HTML; C67_blank_lines: only the paragraphs matter. Hypothesis: a paragraph without attributes has the normal substitutions. Words are ASCII letters and digits."
  },
  {
   "property": "C68",
   "status": "proved",
   "theorems": [
    "C68_attributes",
    "C68_one_clock",
    "C68_texts_sort",
    "C68_reproducible",
    "C68_nothing_else",
    "C68_year_of_date",
    "C68_early_year_refuted",
    "C68_late_second_panics",
    "C68_command_line"
   ],
   "note": "C68_attributes, C68_one_clock, C68_texts_sort, C68_reproducible, C68_nothing_else and C68_year_of_date. The call does not return for a second beyond the year 9999 (C68_late_second_panics: the statement holds up to it), the command line panics on files last changed before 1970 (C68_command_line), and a given date before the year 1000 has a docyear without the zeros of docdate (C68_early_year_refuted). jiff is trusted: its strptime is a parameter."
  },
  {
   "property": "C69",
   "status": "partial",
   "theorems": [
    "C69_html_partial",
    "C69_backslash_refuted",
    "C69_one_error",
    "C69_errors_are_one_refuted"
   ],
   "note": "C69_html_partial says exactly for which HTML it holds; with a backslash or a tab the reply is no JSON or another text (C69_backslash_refuted). One diagnostic is read back (C69_one_error); several are read as one string (C69_errors_are_one_refuted)."
  },
  {
   "property": "C70",
   "status": "proved",
   "theorems": [
    "C70_article",
    "C70_ids_distinct",
    "C70_book_refuted"
   ],
   "note": "Articles with titles, intros and sections nested to five levels, from source text to HTML bytes; books without text before the first section. In books with such text the last chapter can be lost: C70_book_refuted."
  },
  {
   "property": "C71",
   "status": "proved",
   "theorems": [
    "C71_lists",
    "C71_blank_lines",
    "C71_lists_apart_refuted"
   ],
   "note": "Texts, bulleted and numbered lists nested up to 255 levels (LIST markers count in a u8), text between any two lists, embedded documents without attributes, titles or checklists. Without text between lists the claim is false (C71_lists_apart_refuted)."
  },
  {
   "property": "C72",
   "status": "proved",
   "theorems": [
    "C72_blocks",
    "C72_same_delimiters_refuted"
   ],
   "note": "end to end: source text to HTML for paragraphs, lists and example, sidebar, quote and open blocks in each other; refuted for a block directly in a block with the same delimiter (lengths are compared modulo 256)"
  },
  {
   "property": "C73",
   "status": "proved",
   "theorems": [
    "C73_listings",
    "C73_recover",
    "C73_any_text_refuted"
   ],
   "note": "Proved for every text of the grammar in BoxSpec. C73_any_text_refuted shows texts outside the grammar for which the code changes or loses text in listings."
  },
  {
   "property": "C74",
   "status": "proved",
   "theorems": [
    "C74_manual",
    "C74_ids_distinct"
   ],
   "note": "Exact HTML for every article of the grammar in ManualSpec; books only with nothing before the first section, because the code loses text otherwise (C70_book_refuted)."
  },
  {
   "property": "C75",
   "status": "proved",
   "theorems": [
    "C75_no_false_alarm"
   ],
   "note": "No diagnostic for any article of the grammar in ManualSpec."
  },
  {
   "property": "C76",
   "status": "partial",
   "theorems": [
    "C76_words_partial",
    "C76_lines_below_anchor_refuted",
    "C76_lines_below_part_refuted",
    "C76_lines_below_macro_refuted",
    "C76_same_html"
   ],
   "note": "Proved for the grammar of C74. False in general: C76_lines_below_anchor_refuted, C76_lines_below_part_refuted (books) and C76_lines_below_macro_refuted (block macros of plugins)."
  },
  {
   "property": "C77",
   "status": "proved",
   "theorems": [
    "C77_semantic",
    "C77_same_words"
   ],
   "note": "For the articles of C74, with the semantic backend; the details of nodes are those of ArticleModel.v."
  },
  {
   "property": "C78",
   "status": "partial",
   "theorems": [
    "C78_articles_partial",
    "C78_fence_refuted",
    "C78_discrete_refuted",
    "C78_quotation_refuted",
    "C78_anchor_refuted",
    "C78_passthrough_refuted",
    "C78_markdown_refuted"
   ],
   "note": "False of the code: C78_fence_refuted, C78_discrete_refuted, C78_quotation_refuted, C78_anchor_refuted, C78_passthrough_refuted and, with debug assertions, C78_markdown_refuted. Proved for the articles of C74, in both backends."
  },
  {
   "property": "C79",
   "status": "partial",
   "theorems": [
    "C79_same",
    "C79_anywhere",
    "C79_above",
    "C79_block_anywhere",
    "C79_block_above",
    "C79_attached_anywhere",
    "C79_attached_read",
    "C79_attached_above",
    "C79_in_paragraph",
    "C79_preamble_refuted",
    "C79_description_refuted",
    "C79_star_in_comment_refuted",
    "C79_comment_shown_refuted",
    "C79_divides_lists"
   ],
   "note": "The full claim is false of the code: C79_preamble_refuted (a comment below the title makes a preamble), C79_description_refuted (a comment makes the description of a term), C79_star_in_comment_refuted and C79_comment_shown_refuted (what is in a comment line of a paragraph ends formatted text and passthroughs begun above it). C79_same_partial holds for every tree and both backends but keeps the first two in the comparison. The other theorems are about the parser, for comment lines and blocks between blocks and directly above them, and (C79_in_paragraph) for comment lines with any contents in paragraphs of the texts of C67; comments between list items divide lists by design (C79_divides_lists). Missing: comment lines in other paragraphs."
  },
  {
   "property": "C80",
   "status": "proved",
   "theorems": [
    "C80_first_line_decides",
    "C80_style",
    "C80_lines_add_up",
    "C80_language_is_source",
    "C80_brackets_first",
    "C80_one_line_or_several",
    "C80_in_the_parser",
    "C80_last_line_decides_refuted",
    "C80_markup_one_line_refuted",
    "C80_places_one_line_refuted",
    "C80_style_is_no_language_refuted",
    "C80_style_is_no_language",
    "C80_roles_agree_refuted"
   ],
   "note": "Every answer of the lists above a block characterised by the first list that says anything (C80_first_line_decides, C80_style), options, roles, is_source and is_empty by all lists (C80_lines_add_up), macro brackets in front (C80_brackets_first), one line or several (C80_one_line_or_several), and the block parser's lookups shown to be these (C80_in_the_parser). Refuted: that later lines replace earlier ones, that a listing's style is never its language, and that markup values and places do not depend on lines. Left out: named_with_loc, special_sect."
  },
  {
   "property": "C81",
   "status": "partial",
   "theorems": [
    "C81_places_told_apart",
    "C81_own_icon_partial",
    "C81_delimited_refuted",
    "C81_icons_image_refuted",
    "C81_icon_with_extension_refuted",
    "C81_missing_file"
   ],
   "note": "Every admonition paragraph finds the data of its own icon, and no other block any, in every sequence of blocks (C81_own_icon_partial); numbers of places are injective (C81_places_told_apart). Refuted, and so missing: admonitions in delimited blocks (C81_delimited_refuted), icons=image (C81_icons_image_refuted), icons named with their extension (C81_icon_with_extension_refuted). That blocks begin at different places is a hypothesis; table cells are left out."
  },
  {
   "property": "C82",
   "status": "partial",
   "theorems": [
    "C82_whitespace",
    "C82_as_it_is_partial",
    "C82_with_size_partial",
    "C82_no_element",
    "C82_nested_refuted",
    "C82_inner_sizes_refuted",
    "C82_both_sizes_refuted"
   ],
   "note": "Files with one svg element: shown whole from it on without a size (C82_as_it_is_partial), with the sizes given and without any size or style attributes otherwise (C82_with_size_partial); blank files (C82_no_element). Refuted, and so missing: nested svg elements (C82_nested_refuted), sizes of inner elements are kept (C82_inner_sizes_refuted), the sizes are separate attributes (C82_both_sizes_refuted)."
  },
  {
   "property": "C83",
   "status": "proved",
   "theorems": [
    "C83_address",
    "C83_total",
    "C83_one_question_mark",
    "C83_each_parameter_once_refuted",
    "C83_quotes_escaped_refuted",
    "C83_frame"
   ],
   "note": "The address and the whole iframe for every service, target and attribute list. Each parameter at most once and escaped values in addresses are refuted."
  },
  {
   "property": "C84",
   "status": "proved",
   "theorems": [
    "C84_player",
    "C84_total",
    "C84_poster_escaped_refuted"
   ],
   "note": "The whole element for every target, attribute list and imagesdir. That the picture's address is always escaped is refuted."
  }
 ]
}