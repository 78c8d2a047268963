{
 "C01": {
  "status": "proved",
  "note": "Assignments to read-only job attributes are silently ignored rather than reported (property text adjusted). Deliberate exception: five title/toc names are dropped inside AsciiDoc table cells (C01_cells_drop_readonly_toc_refuted)."
 },
 "C02": {
  "status": "proved",
  "note": "Lookup equals a history-based relational specification, itself proved total and functional. Finding: a soft (modifiable) job value never beats a built-in default."
 },
 "C03": {
  "status": "proved",
  "note": "Exact acceptance condition and frame for every state."
 },
 "C04": {
  "status": "partial",
  "note": "Per-layer exclusivity and standalone title visibility proved; the cross-layer reading is refuted (later body showtitle does not undo header notitle; document notitle beats a read-only job showtitle)."
 },
 "C05": {
  "status": "partial",
  "note": "Proved when the job does not fix the doctype; refuted when it does: a header doctype entry is accepted and changes the effective type."
 },
 "C06": {
  "status": "partial",
  "note": "Segments, joining, file name, stem/extension and dirname proved for every text; printing is stable for paths that use one separator kind. Refuted: mixed separators are not stable, file_name panics on paths without a final component, dirname of URL text."
 },
 "C07": {
  "status": "proved",
  "note": "Reads stay under the canonical base on a stable file system; exact refusals; findings: check-then-open race, URIs are not restricted by the resolver."
 },
 "C08": {
  "status": "partial",
  "note": "Secure mode and textual URLs proved for all documents; the full claim is false: single-slash URLs bypass allow-uri-read (refuted), so URI requests are characterised instead. Link line findings, stdin panic."
 },
 "C09": {
  "status": "proved",
  "note": "Nesting never exceeds the limit and reading terminates for every (also cyclic) family of files. Refuted corners: the limit counts opened files rather than nesting, depth= leaks to later siblings, u16 overflow panics with checks on."
 },
 "C10": {
  "status": "proved",
  "note": "Line selection modelled on bytes (lines= of an include). Selection is exact for specifications naming no usize::MAX; three corner cases are refuted (extra empty last line, usize::MAX bound, text that starts with the place holder's name)."
 },
 "C11": {
  "status": "partial",
  "note": "Which lines are directives is characterised for every valid UTF-8 line, and for properly nested files of any size and depth the kept lines are exactly those whose enclosing regions satisfy the meaning of the tags= text, for all the documented forms (names, exclusions, *, **, !*, !**, foo;!bar, foo;!*, *;!foo, !*;foo, **;!foo) and for tag=. Missing, unclosed and unexpected names are reported exactly. The stated innermost-tag rule is refuted for mixed specifications; it is proved equal to what is done for lists of names only or exclusions only. \\w outside ASCII (regex crate tables) is a parameter."
 },
 "C12": {
  "status": "proved",
  "note": "Encoding and line cleaning on bytes, exact characterisations both ways; idempotence holds when every carriage return ends a line, refuted otherwise; two encoding defects refuted (invalid UTF-8 behind a BOM accepted; BOM kept with encoding=utf-16)."
 },
 "C13": {
  "status": "proved",
  "note": "Re-indentation characterised for every text with or without place holders; the claim for non-blank lines only is refuted (an empty line counts as unindented), as is hiding of place holders."
 },
 "C14": {
  "status": "proved",
  "note": "For valid UTF-8 text. The refuted theorems record that invalid UTF-8 (possible through include) panics, that a final endif::[] without newline is not recognised, and that the end position is not stable."
 },
 "C15": {
  "status": "proved",
  "note": "Refinement: any history of reads and pushes delivers what a stack of whole-file token streams delivers. Refuted corners: two pushes in a row lose the first; text inserted for an embedded conditional line is located in the primary source; 65536 sources."
 },
 "C16": {
  "status": "partial",
  "note": "Lookahead is sound, the end is always reported, and exact at nesting <= 1 or after blank lines. The full converse is false of the code (C16_early_end_refuted): a file ending in an include hides what follows in the outermost document."
 },
 "C17": {
  "status": "proved",
  "note": "Line numbers, columns, raw lines, cell relining and the TCK adapter, for every text and position; panics exactly outside the text. Refuted corner: a lone CR cuts the reported text."
 },
 "C18": {
  "status": "partial",
  "note": "Proved for every nesting depth and every attribute state, with ordinary lines free to change attributes: the lines kept are those whose enclosing conditions hold and nothing is reported; a failing conditional that is never closed is reported; the one-line form keeps its text exactly when its condition holds. Partial because the full statement is false of the program: one-letter names, ifndef with '+', closing lines that name an outer conditional, stray closing lines, one-line conditionals / mentions / ifeval inside a skipped region, a last line without newline, and a panic are each refuted."
 },
 "C19": {
  "status": "proved",
  "note": "Order and complement laws on comparable values, mixed types never equal; the exceptions (nil on the left, whole against fractional numbers, nan, booleans under <) are refuted separately. Floating point parsing and comparison are parameters (record floats). Operand text to value, directive line to operands and the effect on the document's lines are proved too; the line form is restricted to operands the expression regex cannot misread, misreadings are refuted."
 },
 "C20": {
  "status": "partial",
  "note": "Values: full statement proved (C20_values_substituted), with undefined references removed rather than kept (refuted as stated). Lines: C20_lines_expanded_partial covers every document and attribute state whose values contain no opening brace or line end; other values are rescanned, lose text or diverge (refuted theorems)."
 },
 "C21": {
  "status": "proved",
  "note": "Over all histories of headings, settings and sets of earlier ids; the Unicode tables are parameters. Terminates by pigeonhole. Refuted next to it: an explicit id may repeat an earlier generated one, sectids off drops explicit ids, a multi-byte separator with an empty prefix panics, the empty id, a letter as separator. Ids of block and inline anchors are not in the set of used ids in the code and not modelled."
 },
 "C22": {
  "status": "proved",
  "note": "For every article and every book without special sections: order, completeness and nesting; with the default of two levels no document crashes; exact crash condition for entry sequences. Refuted: skipped levels are missing from the table, a subsection of a skipped level crashes the parser with toclevels >= 4, an appendix written at level 0 with sections of levels 2 and 3 crashes with toclevels >= 3."
 },
 "C23": {
  "status": "proved",
  "note": "For every document of sections with any settings, changing anywhere: the exact numbers, all distinct as text, the table of contents agrees with the body. Appendices, parts and tables in the body: refuted with examples (numbers repeat; crashes for numbered levels 0 and 6)."
 },
 "C24": {
  "status": "proved",
  "note": "Offsets: any history of relative, absolute and unsetting assignments; level formula; never negative; rendered iff at most six; written level from the signs. Refuted: the two offsets cut at zero separately, nested includes do not add, level 7 crashes, i8 overflow crashes, 257 signs."
 },
 "C25": {
  "status": "proved",
  "note": "Callouts and callout lists as the parser numbers and matches them, for all histories; the identities of callouts; the number read from the text of a callout. How lines are recognised as callouts is not part of this model."
 },
 "C26": {
  "status": "proved",
  "note": "The nesting of unordered and ordered list items by marker: text of markers and item lines, the stack of open lists, blank lines between items, and depth. Description lists, list continuations, attribute lines and comments between items are not modelled."
 },
 "C27": {
  "status": "proved",
  "note": "Exact layout for tables whose written rows fill their columns, with a cols attribute or with counted columns; for any source, cells are conserved in order, reading ends exactly when there is a column, and panics need a copied cell under an open header. The unrestricted row width claim is refuted by overflowing spans and copies, and an empty table never ends."
 },
 "C28": {
  "status": "proved",
  "note": "Records of plain and quoted fields and rows of arbitrary quoted values decode to what was written; any tokens with a usual separator give rows of the table's width. Refuted: unusual separators between quotes (panic), line ends between quotes in a counted first row, white space at the start of a quoted value, trailing empty lines, space before tab, text after a closing quote, comment lines between quotes, implicit header with an empty last field."
 },
 "C29": {
  "status": "proved",
  "note": "For any tokens and a usual separator the cells are exactly the fields of the unique split at unescaped delimiters and line ends, and rows have the table's width; refuted at the text level: backslash before a whole word, two colons at a line end, macro names, trailing empty lines, long records."
 },
 "C30": {
  "status": "proved",
  "note": "Widths are exact quotients: f32 rounding is not modelled. The sum is a u8 whose overflow stops the program (refuted theorem); a list of zero widths divides by zero (refuted theorem)."
 },
 "C31": {
  "status": "proved",
  "note": "No markup characters in any output; attribute values closed; reading back gives the text when no character lies across the sixth byte after an &#; short references kept. Refuted: longer references escaped, ampersand lost, bare ampersand kept, quotes in URL parts."
 },
 "C32": {
  "status": "proved",
  "note": "For all call sequences in order: exact attributes, one class and one style; unique reading. Refuted: roles and classes are not escaped, calls out of order."
 },
 "C33": {
  "status": "proved",
  "note": "The tag of a link macro for all attribute lists except nofollow with a window and no noopener (refuted), with unquoted target, window and roles (injection refuted)."
 },
 "C34": {
  "status": "proved",
  "note": "Every stream of backend calls is well bracketed except for the calls that enter visible index terms, which are never left (C34_well_bracketed, C34_well_bracketed_refuted); without such terms it is well bracketed without exception. What the backend visits is the document in order, including tables of contents, docinfo and documents in table cells. Documents whose blocks have fitting contents never panic; an open block with the style normal does."
 },
 "C35": {
  "status": "partial",
  "note": "As stated the property is false: the title [<<a>> <<a>>] of a section with the id a makes evaluation run forever (C35_terminates_refuted, for every fuel). Proved: evaluation ends, with a result that more fuel does not change, whenever the anchors can be ranked so that all cross references in an anchor's text but the first lead to lower ones; cycles of any length are harmless if no anchor text has two cross references."
 },
 "C36": {
  "status": "proved",
  "note": "Encoder equals an arithmetic RFC 4648 specification; decoder round trip, length, alphabet."
 },
 "C37": {
  "status": "partial",
  "note": "Ordered-set semantics proved for every history of insert/remove/prepend and for every value of the subs attribute, with the exact panic condition; findings: the seventh step (debug assertion, lost slot), append (duplicates, out of bounds; unused outside tests), subs=verbatim differs from the verbatim preset."
 },
 "C38": {
  "status": "partial",
  "note": "Refinement proved for every history that avoids three situations, each exhibited as a finding: truncate after a front pop, remove_first on empty, restore_front with nothing consumed (assertion)."
 },
 "C39": {
  "status": "proved",
  "note": "Items and commas make up the list (any tokens); commas split exactly outside quotes when quotes pair up; every well-formed list says what was written; block and macro lists never panic; link texts and anchors. Refuted: apostrophes in two quoted values, brackets in quotes, formatted text lists and anchors that panic, link texts that swallow the line."
 },
 "C40": {
  "status": "proved",
  "note": "Strict/lenient over every sequence of problems (cells included); underline and caret placement. Refuted corners: six-digit line numbers and multi-byte characters misplace carets."
 },
 "C41": {
  "status": "proved",
  "note": "The regular expression and the table of forms on ASCII text. What stands around the definition is not looked at, an empty value and the order of the marks are findings (refuted theorems)."
 },
 "C42": {
  "status": "proved",
  "note": "Both HTML backends, for documents whose footnotes are not within footnotes or block titles. Refuted: a footnote within a footnote or in a block title panics in debug builds and moves everything written before it into the footnote in release builds."
 },
 "C43": {
  "status": "proved",
  "note": "Attribute numbering proved for every history; authorcount is never set (refuted). The author line is read back for any number of people whose last names are words; hyphens, apostrophes, suffixes and single names are cut (refuted)."
 },
 "C44": {
  "status": "proved",
  "note": "All attribute values and safe modes; the resolver and lossy decoding are arbitrary functions. Refuted: line ends of docinfo files are lost; unsetting docinfo2 asks for files; docinfodir may be a URL whatever allow-uri-read says; outfilesuffix may lead to other files."
 },
 "C45": {
  "status": "proved",
  "note": "Every sequence of pushes: what is not white space is held once and in order, white space too where nothing is given back, text nodes are merged, no panic, locations are those of the source. Conditions are shown necessary by the refuted theorems: multi-byte white space or line comment before a callout number eats text, three dashes at a line end become two, text before a bare link gets the location of the link's end."
 },
 "C46": {
  "status": "partial",
  "note": "Secure-mode part proved; URI part false because of single-slash spelling, characterised."
 },
 "C47": {
  "status": "proved",
  "note": "Containment proved; finding: secure mode does not stop the read."
 },
 "C48": {
  "status": "proved",
  "note": "Articles: nothing lost, order, ownership and reports for every sequence of headings. Books: always parsed without a crash, the result is a prefix of the source, and the whole of it for books of chapters, of parts, and with a preamble. Refuted, with general theorems: a last chapter read together with its text after a preamble is dropped, a part after chapters is dropped with all that follows, a part after a closing special section is dropped."
 },
 "C49": {
  "status": "proved",
  "note": "The cols attribute on ASCII text; other digits and white space that the regular expression admits are not modelled."
 },
 "C50": {
  "status": "partial",
  "note": "The whole inline parser is modelled. Proved for every number of lines under every literal set of substitutions: each byte is shown as written and &, < and > are escaped exactly when asked. Missing, because false of the program (C50_any_text_refuted, C50_what_is_lost_refuted): texts with backslashes, plus signs after a word, <<..>>, [[..]], ' +' at a line end, entities, or, without callouts, lines starting with //."
 },
 "C51": {
  "status": "partial",
  "note": "Plus signs (one to three) and the pass macro, in a line of words, for every text the literal parser leaves alone (C50); exceptions are refuted. Missing: passthroughs over several lines, several in one line (false: C51_what_is_lost_refuted), other constructs around them."
 },
 "C52": {
  "status": "proved",
  "note": "Termination of the modelled inline parser for arbitrary tokens, with an explicit linear bound on the depth of steps. What decides that a line ends the text is an arbitrary function."
 },
 "C53": {
  "status": "partial",
  "note": "Proved for every text of tokens as the lexer gives them, in debug builds, outside of bibliography lists and of blocks that end paragraphs early, without attribute references and double slashes, either without passthroughs (then with no backtick between a bracket and a quote, and no escaped bracket in an anchor) or with plus passthroughs but without macros, links, brackets and backslashes. Outside of these conditions letters are lost: see the refuted theorems. Words of two lines run together behind a footnote or xref macro that ends a line."
 },
 "C54": {
  "status": "proved",
  "note": "Proved for all trees, attributes and settings without the listed shapes, each of which is refuted by a theorem of its own (C54_footnote_in_title_refuted, C54_footnote_in_footnote_refuted, C54_footnote_in_reference_refuted, C54_list_in_rows_refuted, C54_rows_in_glossary_refuted, C54_two_terms_refuted, C54_no_description_refuted, C54_cited_verse_refuted, C54_icons_in_callouts_refuted, C54_contents_without_title_refuted, C54_cell_in_cell_refuted, C54_header_cell_refuted). Strings that go out as they are have to be harmless; C54_quoted_target_refuted shows a link whose target is not."
 },
 "C55": {
  "status": "proved",
  "note": "For articles; C55_book_refuted: a book may be parsed for ever. C55_more_steps: the result does not depend on the fuel."
 },
 "C56": {
  "status": "proved",
  "note": "The exceptions are in the statement (irregular); each is shown to lose the rest: C56_empty_paragraph_refuted, C56_stray_attributes_refuted, C56_invalid_anchor_refuted. Books: C56_book_refuted."
 },
 "C57": {
  "status": "proved",
  "note": "For articles and books."
 },
 "C58": {
  "status": "proved",
  "note": "Articles. Exact but for dropped descriptions, which C58_dropped_comment_refuted shows."
 },
 "C59": {
  "status": "proved",
  "note": "Articles."
 },
 "C60": {
  "status": "proved",
  "note": "C60_white_line_refuted and C60_listing_refuted show the line that is lost."
 },
 "C61": {
  "status": "proved",
  "note": "attribute entries: flags, values in lines, references in the header, entities in pass macros, recognition both ways, exact consumption, panics; the short entry, the panic at the end of a source and carriage returns are refuted parts"
 },
 "C62": {
  "status": "proved",
  "note": "For every version, date and remark; exactly which lines are taken; no panic. Refuted: a one digit version, words with a digit, an empty remark."
 },
 "C63": {
  "status": "proved",
  "note": "Every line accounted for, with the dropped lines named; reading ends; panics only in a header; articles with their header end and are read to the end. Refuted: no line is lost."
 },
 "C64": {
  "status": "proved",
  "note": "Proved for all trees, attributes and settings without the listed shapes, each of which is refuted by a theorem of its own (C64_footnote_in_title_refuted, C64_footnote_in_footnote_refuted, C64_footnote_in_reference_refuted, C64_footnote_in_contents_refuted, C64_title_left_in_preamble_refuted, C64_callouts_refuted, C64_titled_verse_refuted, C64_part_without_id_refuted, C64_changed_image_refuted, C64_late_image_block_refuted, C64_header_cell_refuted, C64_cell_in_cell_refuted). Strings that go out as they are have to be harmless."
 },
 "C65": {
  "status": "proved",
  "note": "Reports: C65_reported, C65_reported_once, C65_file_reported, C65_contents_reported (documents without parts; C65_contents_of_book_refuted for those with). Links: C65_links_lead_somewhere, C65_file_links. Anchors: C65_anchors_known, C65_duplicates. Text: C65_own_text. The limits in the statement are needed: C65_two_files_refuted, C65_dot_refuted, C65_file_by_its_end_refuted, C65_itself_refuted, C65_other_documents_refuted, C65_section_replaces_anchor_refuted, C65_own_text_refuted."
 },
 "C66": {
  "status": "proved",
  "note": "C66_shown. Texts of cross references (C65) and of footnotes with an id are not among document_texts; C66_second_footnote_refuted shows why. The conditions in the statement are needed: the C66_*_refuted theorems show a text lost or moved for each."
 },
 "C67": {
  "status": "proved",
  "note": "C67_text: convert of the source of any text is exactly its HTML; C67_blank_lines: only the paragraphs matter. Hypothesis: a paragraph without attributes has the normal substitutions. Words are ASCII letters and digits."
 },
 "C68": {
  "status": "proved",
  "note": "C68_attributes, C68_one_clock, C68_texts_sort, C68_reproducible, C68_nothing_else and C68_year_of_date. The call does not return for a second beyond the year 9999 (C68_late_second_panics: the statement holds up to it), the command line panics on files last changed before 1970 (C68_command_line), and a given date before the year 1000 has a docyear without the zeros of docdate (C68_early_year_refuted). jiff is trusted: its strptime is a parameter."
 },
 "C69": {
  "status": "partial",
  "note": "C69_html_partial says exactly for which HTML it holds; with a backslash or a tab the reply is no JSON or another text (C69_backslash_refuted). One diagnostic is read back (C69_one_error); several are read as one string (C69_errors_are_one_refuted)."
 },
 "C70": {
  "status": "proved",
  "note": "Articles with titles, intros and sections nested to five levels, from source text to HTML bytes; books without text before the first section. In books with such text the last chapter can be lost: C70_book_refuted."
 },
 "C71": {
  "status": "proved",
  "note": "Texts, bulleted and numbered lists nested up to 255 levels (LIST markers count in a u8), text between any two lists, embedded documents without attributes, titles or checklists. Without text between lists the claim is false (C71_lists_apart_refuted)."
 },
 "C72": {
  "status": "proved",
  "note": "end to end: source text to HTML for paragraphs, lists and example, sidebar, quote and open blocks in each other; refuted for a block directly in a block with the same delimiter (lengths are compared modulo 256)"
 },
 "C73": {
  "status": "proved",
  "note": "Proved for every text of the grammar in BoxSpec. C73_any_text_refuted shows texts outside the grammar for which the code changes or loses text in listings."
 },
 "C74": {
  "status": "proved",
  "note": "Exact HTML for every article of the grammar in ManualSpec; books only with nothing before the first section, because the code loses text otherwise (C70_book_refuted)."
 },
 "C75": {
  "status": "proved",
  "note": "No diagnostic for any article of the grammar in ManualSpec."
 },
 "C76": {
  "status": "partial",
  "note": "Proved for the grammar of C74. False in general: C76_lines_below_anchor_refuted, C76_lines_below_part_refuted (books) and C76_lines_below_macro_refuted (block macros of plugins)."
 },
 "C77": {
  "status": "proved",
  "note": "For the articles of C74, with the semantic backend; the details of nodes are those of ArticleModel.v."
 },
 "C78": {
  "status": "partial",
  "note": "False of the code: C78_fence_refuted, C78_discrete_refuted, C78_quotation_refuted, C78_anchor_refuted, C78_passthrough_refuted and, with debug assertions, C78_markdown_refuted. Proved for the articles of C74, in both backends."
 },
 "C79": {
  "status": "partial",
  "note": "The full claim is false of the code: C79_preamble_refuted (a comment below the title makes a preamble), C79_description_refuted (a comment makes the description of a term), C79_star_in_comment_refuted and C79_comment_shown_refuted (what is in a comment line of a paragraph ends formatted text and passthroughs begun above it). C79_same_partial holds for every tree and both backends but keeps the first two in the comparison. The other theorems are about the parser, for comment lines and blocks between blocks and directly above them, and (C79_in_paragraph) for comment lines with any contents in paragraphs of the texts of C67; comments between list items divide lists by design (C79_divides_lists). Missing: comment lines in other paragraphs."
 },
 "C80": {
  "status": "proved",
  "note": "Every answer of the lists above a block characterised by the first list that says anything (C80_first_line_decides, C80_style), options, roles, is_source and is_empty by all lists (C80_lines_add_up), macro brackets in front (C80_brackets_first), one line or several (C80_one_line_or_several), and the block parser's lookups shown to be these (C80_in_the_parser). Refuted: that later lines replace earlier ones, that a listing's style is never its language, and that markup values and places do not depend on lines. Left out: named_with_loc, special_sect."
 },
 "C81": {
  "status": "partial",
  "note": "Every admonition paragraph finds the data of its own icon, and no other block any, in every sequence of blocks (C81_own_icon_partial); numbers of places are injective (C81_places_told_apart). Refuted, and so missing: admonitions in delimited blocks (C81_delimited_refuted), icons=image (C81_icons_image_refuted), icons named with their extension (C81_icon_with_extension_refuted). That blocks begin at different places is a hypothesis; table cells are left out."
 },
 "C82": {
  "status": "partial",
  "note": "Files with one svg element: shown whole from it on without a size (C82_as_it_is_partial), with the sizes given and without any size or style attributes otherwise (C82_with_size_partial); blank files (C82_no_element). Refuted, and so missing: nested svg elements (C82_nested_refuted), sizes of inner elements are kept (C82_inner_sizes_refuted), the sizes are separate attributes (C82_both_sizes_refuted)."
 },
 "C83": {
  "status": "proved",
  "note": "The address and the whole iframe for every service, target and attribute list. Each parameter at most once and escaped values in addresses are refuted."
 },
 "C84": {
  "status": "proved",
  "note": "The whole element for every target, attribute list and imagesdir. That the picture's address is always escaped is refuted."
 }
}