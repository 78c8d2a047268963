{"id": "C01", "title": "Read-only job attributes cannot be overridden by the document", "statement": "If an embedder supplies attribute k as a read-only job attribute, then after any sequence of header assignments, body assignments, author additions and clears performed by the document, looking k up returns exactly the embedder's value; table cells inherit it too, except for the title/toc names that are deliberately disconnected; in secure mode data-uri embedding cannot be switched on.", "quantifier": "every job attribute set, every attribute name and every finite history of header/body insertions, clears and cell clones", "why_tests_cant": "the guarantee is about all interleavings of insertions, removals and clears; a test exercises a handful of histories", "anchors": ["core/src/document_meta.rs: DocumentMeta::{get,insert_header_attr,insert_doc_attr,clear_doc_attrs,clone_for_cell}", "core/src/job_attrs.rs"]}
{"id": "C02", "title": "Attribute lookup precedence", "statement": "Looking up a plain attribute returns the last accepted body assignment since the last clear, otherwise the last accepted header assignment, otherwise the built-in default, otherwise the modifiable job value; an assignment to one name never changes the value of an unrelated name.", "quantifier": "every history of accepted or rejected assignments, every name", "why_tests_cant": "precedence among four layers must hold for every history", "anchors": ["core/src/document_meta.rs: get, resolve_attr, insert_header_attr, insert_doc_attr", "core/src/attrs.rs: Attrs::defaults"]}
{"id": "C03", "title": "Rejected assignments leave no trace; scope-restricted names", "statement": "An assignment that is reported as an error (read-only job attribute, name that may only be set by the job, name that may only be set in the header, illegal value) changes the result of no lookup whatsoever.", "quantifier": "every document state reachable by any history, every name and value", "why_tests_cant": "frame condition over all names and states", "anchors": ["core/src/document_meta.rs", "core/src/validate.rs: validate::attr"]}
{"id": "C04", "title": "showtitle and notitle never contradict each other", "statement": "Within each attribute layer (header, body, job) showtitle and notitle are never both present, whatever the order of assignments; the title visibility answer is determined by the most recent one.", "quantifier": "every assignment history", "why_tests_cant": "mutual exclusion over all histories", "anchors": ["core/src/validate.rs", "core/src/document_meta.rs: show_doc_title"]}
{"id": "C05", "title": "Document type is consistent", "statement": "After any history the document type used for rendering, the value of the doctype attribute and the derived doctype-<x> attributes agree, and exactly one derived doctype attribute is set.", "quantifier": "every job configuration and assignment history", "why_tests_cant": "consistency between several stored facts over all histories", "anchors": ["core/src/document_meta.rs: get, set_doctype, insert_header_attr"]}
{"id": "C06", "title": "Path parse/print/join laws", "statement": "Printing a parsed path and parsing it again is stable; joining an absolute path or URI replaces the left side; joining a relative path keeps the left side's components; the file name is the last component; whether a path is absolute or a URI is preserved by joining relative paths to it.", "quantifier": "every string and separator, every pair of paths", "why_tests_cant": "algebraic laws on all strings", "anchors": ["core/src/path.rs: Path"]}
{"id": "C07", "title": "CLI resolver never leaves the base directory", "statement": "When the safe mode is anything but unsafe, an include/inline resource the command line resolver agrees to read has a canonical path that lies, component by component, under the canonical base directory; everything else is refused without reading.", "quantifier": "every base directory, every requested path, every file-system symlink layout (canonicalisation is an arbitrary function)", "why_tests_cant": "must hold for every symlink layout and every path string, including sibling directories that share a textual prefix", "anchors": ["cli/src/resolver.rs: CliResolver::resolve"]}
{"id": "C08", "title": "Secure mode performs no resource reads", "statement": "In secure mode processing an include directive never calls the resolver; in any mode a URI target is only resolved when the embedder allowed URI reads; a denied include is replaced by a visible link line and the rest of the document is unaffected.", "quantifier": "every directive target, every attribute state, every resolver", "why_tests_cant": "absence of an effect for all inputs", "anchors": ["parser/src/tasks/directives/includes/process_includes.rs", "parser/src/tasks/directives/includes/target.rs"]}
{"id": "C09", "title": "Include nesting is bounded and including terminates", "statement": "For any (possibly cyclic) graph of files, the nesting depth of includes never exceeds the configured maximum, and, for each top-level document, pulling lines eventually reaches the end of input.", "quantifier": "every include graph, every max-include-depth and depth= attribute", "why_tests_cant": "cyclic graphs give unbounded histories; tests try a single self include", "anchors": ["parser/src/lexer/root_lexer.rs: push_source, max_include_depth, set_max_include_depth", "parser/src/tasks/directives/includes/process_includes.rs"]}
{"id": "C10", "title": "Line-range includes select exactly the requested lines", "statement": "include::f[lines=spec] contributes exactly the lines of f whose 1-based number is in the set denoted by spec, in file order, each once, terminated as in f.", "quantifier": "every file contents, every lines= specification", "why_tests_cant": "universally quantified over files and specifications", "anchors": ["parser/src/tasks/directives/includes/process_includes.rs: select_lines"]}
{"id": "C11", "title": "Tag includes select exactly the tagged regions", "statement": "include::f[tags=spec] keeps a line iff it is not a tag directive line and the innermost open tag (wildcards last) is selected by spec; kept lines appear in file order; with no tag directives in the file and no exclusions nothing is altered.", "quantifier": "every file contents, every tag specification", "why_tests_cant": "nesting depth and order of tags is unbounded", "anchors": ["parser/src/tasks/directives/includes/tags.rs", "parser/src/tasks/directives/includes/process_includes.rs"]}
{"id": "C12", "title": "Encoding normalisation of included text", "statement": "Normalising included bytes removes a BOM, converts UTF-16 to UTF-8, strips trailing blanks from every terminated line, never changes anything else, and is idempotent.", "quantifier": "every byte sequence", "why_tests_cant": "all byte sequences", "anchors": ["parser/src/tasks/directives/includes/normalize_includes.rs"]}
{"id": "C13", "title": "Indent option re-indents uniformly", "statement": "include::f[indent=n] shifts every non-blank line of the block by the same amount so that the least indented line has indent n, leaving the text after the indentation untouched.", "quantifier": "every text and every indent value", "why_tests_cant": "all texts", "anchors": ["parser/src/tasks/directives/includes/process_includes.rs: set_indentation"]}
{"id": "C14", "title": "Lexing is lossless", "statement": "The lexemes of the tokens produced for a source, concatenated in order, are exactly the source text; token locations are contiguous, start at 0, end at the source length, and every token except end-of-input is non-empty, so lexing terminates.", "quantifier": "every source text", "why_tests_cant": "all source texts", "anchors": ["parser/src/lexer/source_lexer.rs: next_token"]}
{"id": "C15", "title": "Token stream of included documents is the in-place expansion", "statement": "Reading tokens through a stack of sources yields exactly the tokens of each source with every include expanded in place at the point it was pushed, and every token carries the source it came from.", "quantifier": "every tree of includes", "why_tests_cant": "unbounded nesting and interleaving of push and read", "anchors": ["parser/src/lexer/root_lexer.rs: push_source, next_token"]}
{"id": "C16", "title": "Lookahead agrees with what is read next", "statement": "The peeked byte is the first byte of the next non-exhausted source and is_eof is true only when no source has input left.", "quantifier": "every stack of partially consumed sources", "why_tests_cant": "depth of exhausted sources on the stack is unbounded", "anchors": ["parser/src/lexer/root_lexer.rs: peek, is_eof"]}
{"id": "C17", "title": "Reported line numbers are right", "statement": "For a location in a source, the reported line number is one plus the number of newlines before it, the reported column is the distance from the last newline, and the reported line text is the text between the surrounding newlines.", "quantifier": "every source text and every offset in it", "why_tests_cant": "all texts and offsets", "anchors": ["parser/src/lexer/source_lexer.rs: line_of, line_number, line_number_with_offset", "tck/src/loc.rs"]}
{"id": "C18", "title": "Conditional directives include exactly the enabled lines", "statement": "For properly nested ifdef/ifndef/endif the lines that survive are exactly those all of whose enclosing conditions hold (',' meaning any, '+' meaning all), nesting to any depth, and no diagnostic is produced.", "quantifier": "every properly nested document and attribute state", "why_tests_cant": "unbounded nesting", "anchors": ["parser/src/tasks/directives/ifdef.rs", "parser/src/tasks/directives/mod.rs"]}
{"id": "C19", "title": "ifeval comparisons", "statement": "ifeval comparison of two values of the same type follows the natural order of that type, comparisons of different types are false for equality-like operators, and the six operators satisfy the usual complement laws on comparable values.", "quantifier": "every pair of expressions and attribute state", "why_tests_cant": "all pairs of values", "anchors": ["parser/src/tasks/directives/ifeval.rs"]}
{"id": "C20", "title": "Attribute references in values", "statement": "Substituting attribute references replaces each reference to a defined string attribute with its value and leaves all other text untouched, left to right, without re-scanning replaced text.", "quantifier": "every text and attribute state", "why_tests_cant": "all texts", "anchors": ["parser/src/tasks/parse_doc_attrs.rs: replace_attr_vals", "parser/src/tasks/attr_refs.rs"]}
{"id": "C21", "title": "Auto-generated section ids are fresh", "statement": "An auto-generated section id differs from every id given earlier to any section of the document (and its nested cells), generation always terminates, and all auto-generated ids of a document are pairwise distinct.", "quantifier": "every sequence of headings, every idprefix/idseparator setting", "why_tests_cant": "uniqueness over all histories", "anchors": ["parser/src/tasks/section_id.rs"]}
{"id": "C22", "title": "Table of contents mirrors the sections", "statement": "Reading the table of contents in depth-first order gives exactly the sections within toclevels, in document order, each once, each below the nearest preceding shallower entry; building it never crashes.", "quantifier": "every sequence of section levels", "why_tests_cant": "all sequences of levels", "anchors": ["parser/src/tasks/parse_section.rs: push_toc_node"]}
{"id": "C23", "title": "Section numbers are consecutive", "statement": "Numbered sections of a document receive numbers that count up by one among siblings and restart under each new parent, so a section's number path identifies its position; no two numbered sections get the same number path.", "quantifier": "every sequence of section levels", "why_tests_cant": "all sequences", "anchors": ["backend/src/html/backend.rs: push_section_number_prefix"]}
{"id": "C24", "title": "Heading levels stay in range", "statement": "The effective level of a heading after applying leveloffset is the authored level plus the offset, never negative, and rendering a section of any effective level is defined.", "quantifier": "every authored level and every sequence of leveloffset assignments", "why_tests_cant": "all sequences of relative offsets", "anchors": ["parser/src/tasks/heading_level.rs", "backend/src/html/util.rs: section_class"]}
{"id": "C25", "title": "Callout numbers match their list items", "statement": "Auto-numbered callouts are numbered consecutively from 1 in each callout scope, and each callout list item is associated with exactly the callouts bearing its number in the preceding scope.", "quantifier": "every sequence of callouts and callout lists", "why_tests_cant": "all sequences", "anchors": ["parser/src/parse_context.rs", "parser/src/tasks/parse_list.rs"]}
{"id": "C26", "title": "List nesting decision is unambiguous", "statement": "At every point exactly one of: a marker continues the current list, starts a nested list, or belongs to an enclosing list; a nested list is only started with a marker not already open, so nesting is bounded by the number of distinct markers.", "quantifier": "every stack of open markers and every next marker", "why_tests_cant": "all stacks", "anchors": ["parser/src/list_context.rs: ListStack"]}
{"id": "C27", "title": "PSV table rows conserve cells", "statement": "Cells of a pipe-separated table appear in the rows in source order, duplicated cells (n*|) exactly n times, none lost or invented; every complete row fills exactly the table's columns counting column spans and cells hanging from rows above; parsing terminates.", "quantifier": "every cell sequence with any specs, every column count", "why_tests_cant": "unbounded tables", "anchors": ["parser/src/tasks/table/parse_psv_table.rs", "parser/src/tasks/table/context.rs"]}
{"id": "C28", "title": "CSV cell decoding inverts CSV quoting", "statement": "A field written in CSV quoting (quotes doubled, wrapped in quotes) decodes to the original field, separators and newlines inside quotes do not split, and every row but the last has exactly the table's column count.", "quantifier": "every field text and record list", "why_tests_cant": "all strings", "anchors": ["parser/src/tasks/table/parse_csv_table.rs"]}
{"id": "C29", "title": "DSV tables split exactly at unescaped delimiters", "statement": "The cells of a delimiter-separated table are the maximal runs between unescaped delimiters and line ends, in order; rows but the last have exactly the column count.", "quantifier": "every token sequence", "why_tests_cant": "all sequences", "anchors": ["parser/src/tasks/table/parse_dsv_table.rs"]}
{"id": "C30", "title": "Column widths add up to 100 percent", "statement": "Proportional column widths are converted to percentages that preserve the proportions and add up to 100 when no column is automatic; computing them never fails.", "quantifier": "every list of column width specifications", "why_tests_cant": "all lists", "anchors": ["ast/src/col_widths.rs"]}
{"id": "C31", "title": "HTML escaping leaves no markup characters", "statement": "Escaped text contains no raw '<', '>' (nor '\"' and \"'\" when quotes are escaped), unescaping it gives the original text back, and existing character references are preserved.", "quantifier": "every text", "why_tests_cant": "all texts: injection safety", "anchors": ["backend/src/html/htmlbuf.rs: push_escaped, push_url_encoded"]}
{"id": "C32", "title": "Generated tags are well formed", "statement": "Any sequence of id/class/style/attribute additions to an opening tag yields text with balanced quotes, at most one class and one style attribute, every added class exactly once and in order.", "quantifier": "every sequence of additions", "why_tests_cant": "all call sequences", "anchors": ["backend/src/html/open_tag.rs"]}
{"id": "C33", "title": "Link constraint attributes", "statement": "The attributes appended to a link carry exactly the requested window as target and rel=noopener/nofollow as required, and are well formed HTML.", "quantifier": "every link attribute list", "why_tests_cant": "all combinations", "anchors": ["backend/src/html/htmlbuf.rs: append_link_constraint_attrs"]}
{"id": "C34", "title": "Backends see a well-bracketed event stream", "statement": "While evaluating any document, every enter event delivered to a backend is matched by its exit event, properly nested, and text events occur in document order.", "quantifier": "every document tree", "why_tests_cant": "all documents of any depth", "anchors": ["eval/src/eval.rs"]}
{"id": "C35", "title": "Cross-reference resolution terminates", "statement": "Evaluating a document terminates even if section or anchor titles contain cross references to each other or to themselves.", "quantifier": "every document and anchor table", "why_tests_cant": "cyclic reference graphs of every shape", "anchors": ["eval/src/eval.rs: eval_inline (Xref)"]}
{"id": "C36", "title": "base64 encoding is correct", "statement": "The data-uri encoder emits the RFC 4648 encoding: decoding gives the bytes back, the length is 4*ceil(n/3), only alphabet characters and trailing padding occur.", "quantifier": "every byte sequence", "why_tests_cant": "all byte sequences", "anchors": ["parser/src/base64.rs"]}
{"id": "C37", "title": "Substitution sets behave like ordered sets", "statement": "The substitution set answers membership exactly for the steps in its order, each step at most once; add/prepend/append/remove have their documented effect on every value.", "quantifier": "every sequence of operations", "why_tests_cant": "all operation histories", "anchors": ["parser/src/substitutions.rs", "parser/src/tasks/customize_subs.rs"]}
{"id": "C38", "title": "The token queue refines a list", "statement": "The line token queue behaves as the plain list of remaining tokens under every sequence of operations.", "quantifier": "every operation history", "why_tests_cant": "all histories", "anchors": ["parser/src/deq.rs"]}
{"id": "C39", "title": "Attribute list items split at top-level commas", "statement": "The items of an attribute list are the segments between commas outside quotes; together with the commas they make up the whole list.", "quantifier": "every token sequence", "why_tests_cant": "all sequences", "anchors": ["parser/src/tasks/parse_attr_list.rs"]}
{"id": "C40", "title": "Diagnostics: strict stops at the first, lenient collects all in order", "statement": "In strict mode parsing fails with the first problem; in lenient mode problems never stop parsing and are all reported in the order found.", "quantifier": "every sequence of problems", "why_tests_cant": "all sequences", "anchors": ["parser/src/diagnostic.rs: handle_err"]}
{"id": "C41", "title": "Command line attribute definitions", "statement": "Parsing -a name, name=value, name!, !name and the soft-set suffix @ yields the intended name, value and modifiability for every valid name and value.", "quantifier": "every argument string", "why_tests_cant": "all strings", "anchors": ["cli/src/args.rs: parse_attr"]}
{"id": "C42", "title": "Footnote references", "statement": "Footnotes are numbered consecutively in first-use order and a repeated footnote id refers to the number first given to it.", "quantifier": "every sequence of footnotes", "why_tests_cant": "all sequences", "anchors": ["backend/src/html/backend.rs: prev_footnote_ref_num", "eval/src/eval.rs"]}
{"id": "C43", "title": "Author attributes", "statement": "Adding authors numbers them 1..n; the unsuffixed attributes describe the first author; authorcount equals the number of authors; author names round-trip.", "quantifier": "every list of authors", "why_tests_cant": "all lists", "anchors": ["core/src/document_meta.rs: add_author", "parser/src/tasks/parse_doc_attrs.rs: author_from_attr"]}
{"id": "C44", "title": "Docinfo gating", "statement": "Docinfo files are never read in secure mode, and otherwise exactly the files requested by the docinfo attribute are asked for.", "quantifier": "every docinfo attribute value and safe mode", "why_tests_cant": "all attribute values", "anchors": ["parser/src/docinfo.rs"]}
{"id": "C45", "title": "Text collection loses nothing", "statement": "Collecting inline text merges adjacent text without losing, duplicating or reordering characters.", "quantifier": "every sequence of pushes", "why_tests_cant": "all sequences", "anchors": ["parser/src/tasks/collect_text.rs"]}
{"id": "C46", "title": "Image reads obey the safe mode", "statement": "In secure mode no image or admonition icon is ever read through the resolver to be embedded, whatever attributes the document sets; in other modes a remote image is requested only if the job allowed URI reads.", "quantifier": "every document history of attribute operations, every image target, option, directory attribute and base directory", "why_tests_cant": "all attribute histories and all spellings of targets", "anchors": ["parser/src/tasks/parse_image_block.rs"]}
{"id": "C47", "title": "Custom stylesheets stay in the working directory", "statement": "Outside unsafe mode the stylesheet a document names is only read if it resolves to a file under the working directory.", "quantifier": "every document, file system and working directory", "why_tests_cant": "all link structures of the file system", "anchors": ["cli/src/css.rs"]}
{"id": "C48", "title": "No heading or block of the source is lost", "statement": "Every heading and every block of the source appears in the parsed document exactly once and in source order; in an article each heading belongs to the nearest preceding heading of a smaller level and each block to the nearest preceding heading; parsing never crashes on any sequence of headings.", "quantifier": "every sequence of headings of any level, special sections and blocks, as article or book", "why_tests_cant": "all sequences of levels, of any length, and all ways they share lines", "anchors": ["parser/src/parser.rs: parse_document, parse_sectioned", "parser/src/tasks/parse_section.rs", "parser/src/tasks/parse_book.rs", "parser/src/tasks/parse_book_part.rs"]}
{"id": "C49", "title": "Column specifications are read as written", "statement": "The cols attribute of a table, a list of specifications with optional repeat count, alignments, width and style, yields exactly the columns those specifications mean; a bare number is a number of columns and an unreadable specification is one default column.", "quantifier": "every cols attribute text", "why_tests_cant": "all texts", "anchors": ["parser/src/tasks/table/parse_table_spec.rs: parse_col_specs, parse_col_spec"]}
{"id": "C50", "title": "Verbatim text is shown as it is written", "statement": "Text that is not to be formatted (listings, literal blocks, passthrough blocks) is shown byte for byte as it is written, line ends included, with the characters HTML reserves escaped exactly when the substitutions in force ask for it.", "quantifier": "every text of any number of lines, under every set of substitutions without formatting, macros, replacements and attributes", "why_tests_cant": "all combinations of characters in all texts; every construct the inline parser knows may occur in source code", "anchors": ["parser/src/tasks/parse_inlines/mod.rs: parse_inlines_until", "parser/src/tasks/parse_inlines/inline_preproc.rs: replace_passthrus", "parser/src/tasks/parse_inlines/inline_utils.rs"]}
{"id": "C51", "title": "Inline passthroughs protect their text", "statement": "The text between one, two or three plus signs or in the brackets of the pass macro is shown byte for byte as it is written, unescaped when there are three plus signs and otherwise with the escapes asked for; the words around it are not changed.", "quantifier": "every text in a passthrough, every line around it and every combination of substitutions of the pass macro", "why_tests_cant": "all texts and all places of the delimiters", "anchors": ["parser/src/tasks/parse_inlines/inline_preproc.rs: replace_passthrus, terminates_plus, terminates_pass_macro, parse_passthru", "parser/src/tasks/parse_inlines/mod.rs", "parser/src/line.rs: may_contain_inline_pass"]}
{"id": "C52", "title": "Parsing inline text always ends", "statement": "Parsing the text of a paragraph, title, list item or table cell ends for every text, after a number of nested steps that grows at most linearly with the size of the text, and what it leaves unread is never put back so as to be parsed again and again.", "quantifier": "every sequence of lines of tokens, every set of substitutions, every parser state and every surrounding block", "why_tests_cant": "all texts, however they nest or fail to close formatting, macros, quotes, passthroughs and index terms", "anchors": ["parser/src/tasks/parse_inlines/mod.rs: parse_inlines_until", "parser/src/tasks/parse_inlines/inline_preproc.rs", "parser/src/tasks/parse_inlines/index_term.rs", "parser/src/tasks/parse_attr_list.rs"]}
{"id": "C53", "title": "Parsing inline text loses, adds and moves no letter", "statement": "Every letter and digit of the text of a paragraph, title, list item or table cell is found again in what the parser gives (as text, in a target, an id, a list of attributes or the name of a macro), in the order in which it was written and no more often; what the parser leaves behind a stop sequence holds the rest.", "quantifier": "every text, every combination of formatting, macros, links, quotes, symbols and passthroughs, every set of substitutions and every stop sequence", "why_tests_cant": "all texts, however the constructs nest, overlap, stay open or are escaped", "anchors": ["parser/src/tasks/parse_inlines/mod.rs: parse_inlines_until", "parser/src/tasks/parse_inlines/inline_preproc.rs", "parser/src/tasks/parse_attr_list.rs", "parser/src/line.rs"]}
{"id": "C54", "title": "The HTML written for a document is well nested", "statement": "Every element of the HTML written for a document is closed by an end tag of its own name, in the right order, void elements have none, and every attribute value stands between quotation marks. This holds as long as text and values that are written as they are do not bring tags or quotation marks of their own, and the document has none of these shapes, each of which comes out wrong: footnotes in titles of blocks, in footnotes or in texts of anchors; description lists inside horizontal lists, lists of questions or (if of those two kinds) glossaries; items of such lists without description or with several terms; a verse with a citation and no attribution; a change of the icons within a callout list; a table of contents after the preamble of a document without title; literal or AsciiDoc cells in header rows; AsciiDoc cells within AsciiDoc cells of a document with head and body.", "quantifier": "every document tree, every nesting of blocks, lists, tables and formatting, all attributes, roles, ids, options and document attributes, with and without debug assertions", "why_tests_cant": "the start tag and the end tag are written by different calls that decide on state left by the calls between them; all nestings and all settings have to agree", "anchors": ["dr-html-backend/src/asciidoctor_html.rs: AsciidoctorHtml", "backend/src/html/backend.rs: HtmlBackend", "backend/src/html/open_tag.rs", "backend/src/html/htmlbuf.rs", "eval/src/eval.rs: visit, eval_block, eval_inline, eval_table"]}
{"id": "C55", "title": "Parsing the blocks of a document ends", "statement": "For every source, parsing the body of an article (paragraphs, lists, delimited blocks, tables, quotes, sections, however nested) comes to an end, with a result or with a panic, within a number of steps bounded by a multiple of the size of the source. For a book this is false: there is a five-line book that is parsed for ever.", "quantifier": "all sources (lists of lines of tokens), all substitutions, level offsets and answers of Unicode tests, debug and release builds", "why_tests_cant": "No number of test documents shows that no document makes the mutually recursive block parser spin: paragraphs put lines back, lists and sections read and restore groups of lines, and a loop needs only one combination that puts back all it has read.", "anchors": ["parser/src/tasks/parse_block.rs: parse_block, parse_paragraph, parse_delimited_block, parse_markdown_blockquote", "parser/src/tasks/parse_list.rs", "parser/src/tasks/parse_section.rs", "parser/src/tasks/parse_book.rs: parse_book", "parser/src/parser.rs: read_lines, restore_lines, parse_sectioned"]}
{"id": "C56", "title": "An article is read to its end", "statement": "When the body of an article has been parsed, every line of it has been read: no section, paragraph or list after some point is silently left out. The exceptions are a paragraph that gives no inline nodes, attributes of a heading that were put back and then taken by other lines, and an anchor that was reported as invalid; each of them does cut the document off. Books also lose a heading that is the last group of lines.", "quantifier": "all sources, all substitutions, level offsets, debug and release builds, all runs that return a document", "why_tests_cant": "Tests compare the parse of chosen documents; that no other document is cut off in the middle is a statement about every way in which the loop over blocks can stop.", "anchors": ["parser/src/tasks/parse_block.rs: parse_block", "parser/src/tasks/parse_section.rs: parse_section, peek_section", "parser/src/parser.rs: parse_sectioned, parse_chunk_meta, restore_peeked", "parser/src/tasks/parse_book.rs"]}
{"id": "C57", "title": "A section in a section has a greater level", "statement": "In the document that the parser returns, article or book, every section that is inside another one, directly or within lists and blocks, has a level greater than that of the section it is in.", "quantifier": "all sources, all substitutions, level offsets, document types, debug and release builds, all runs that return a document", "why_tests_cant": "The level of a section is decided from lines that are peeked at, put back and read again, with attributes kept aside; that the level found the second time is the one that was compared is a statement about all such sequences.", "anchors": ["parser/src/tasks/parse_block.rs: parse_block", "parser/src/tasks/parse_section.rs: parse_section, peek_section", "parser/src/parser.rs: section_start_level"]}
{"id": "C58", "title": "A block that is not closed is reported, and only that", "statement": "The number of errors about a delimited block or table that never ends is the number of blocks and tables in the parsed article that have no closing delimiter, except that an unclosed comment which is the description of a description list item is reported but is not in the document.", "quantifier": "all sources, all substitutions, level offsets, debug and release builds, all runs that return an article", "why_tests_cant": "Blocks nest without bound and an inner block may swallow the end of an outer one; that each of them is reported once and no closed block is reported is a count over all documents.", "anchors": ["parser/src/tasks/parse_block.rs: parse_delimited_block", "parser/src/tasks/table/parse_table.rs", "parser/src/tasks/parse_list.rs: parse_description_list_item"]}
{"id": "C59", "title": "A section that skips a level is reported, and only that", "statement": "The number of errors about section titles out of sequence is the number of sections in the parsed article whose level is more than one greater than the level of the section they are in (0 for a section in no section).", "quantifier": "all sources, all substitutions, level offsets, debug and release builds, all runs that return an article", "why_tests_cant": "It depends on the level in the parser's state at every heading being that of the section around it, after any history of sections opened and closed.", "anchors": ["parser/src/tasks/parse_section.rs: parse_peeked_section"]}
{"id": "C60", "title": "Cutting a source into lines loses only blank lines", "statement": "Reading a group of lines takes from the source blank lines, the lines of the group, each with all its tokens, and at most one blank line behind it; a group ends only at a blank line or at the end. Reading the lines of a verbatim block takes all lines up to one that begins with its delimiter, and leaves out the blank lines at both ends and one line of white space behind the first group. Reading a table takes all lines up to its closing line and leaves out comments.", "quantifier": "all sources, all delimiters", "why_tests_cant": "A line lost at some combination of blank lines, white space and delimiters would not show in chosen documents.", "anchors": ["parser/src/parser.rs: read_lines, read_lines_until", "parser/src/tasks/table/parse_table.rs", "parser/src/lexer/source_lexer.rs: consume_empty_lines"]}
{"id": "C61", "title": "Attribute entries are read as written", "statement": "A line that starts with a colon, a name of letters, digits, underscores and hyphens (with a bang on either side or none) and a colon is an attribute entry, and nothing else is. Its value is the text up to the end of the line, and of the lines behind it as long as a line ends in a blank and a backslash, joined by blanks, or by a line break where a line ends in a plus sign, without the white space around it; without text the name is set, or unset if there is a bang. A bang together with a text is reported. In the header references in the text are replaced. The entry takes the source up to the end of its last line, and reading it does not panic unless the source ends in a backslash.", "quantifier": "all sources, names, values and numbers of lines, all attribute tables", "why_tests_cant": "Line ends, backslashes, blanks and the end of the source meet in more ways than a test suite lists.", "anchors": ["parser/src/tasks/parse_doc_attrs.rs: try_parse_attr_def, special_case_pass_macro_wrapped_attrs", "core/src/regx.rs: PASS_SIMPLE_ENTITY_MACRO_ATTR, PASS_DBL_MACRO_ATTR"]}
{"id": "C62", "title": "The revision line gives what is written in it", "statement": "A line under the author line that has a version, optionally a comma and a date, optionally a colon and a remark sets the attributes revnumber, revdate and revremark to just these texts: the number is the version from its first digit on. A version alone counts only if it starts with v and a digit and has at least three characters. Which lines are taken as revision lines is exactly characterised, and reading one does not panic.", "quantifier": "all lines under the author line, all versions, dates and remarks, over all of Unicode", "why_tests_cant": "The shape is given by two regular expressions with lazy and greedy parts; whether the cuts they choose are the intended ones depends on every character of the line.", "anchors": ["parser/src/tasks/parse_revision_line.rs: parse_revision_line"]}
{"id": "C63", "title": "Reading the header accounts for every line", "statement": "When the header of a document is read, every line of the source is blank, a comment, in a comment block, an attribute entry, part of the header (attribute lists, the title, the author line, the revision line), or left for the body, or it is one of a known set of lines that are dropped. Without a title or an entry after comments, attribute lists and anchors there is no header, and all lines from the first text on are left for the body. Reading the header ends, it panics only if there is a header, and an article with its header is parsed to its end in a number of steps bounded by its size.", "quantifier": "all sources, with any number of comments, comment blocks, entries and groups of lines in any order", "why_tests_cant": "Comment blocks, blank lines, entries and the title can be mixed without bound, and a dropped line leaves no trace in the output.", "anchors": ["parser/src/tasks/parse_doc_header.rs: parse_document_header, parse_prefixed_exception_blocks, discard_comment_block, parse_doc_title_author_revision, is_doc_header, skip_header_doc_attrs", "parser/src/parser.rs: parse"]}
{"id": "C64", "title": "The semantic HTML written for a document is well nested", "statement": "Every element of the HTML written by the semantic backend (html5s) is closed by an end tag of its own name, in the right order, void elements have none, and every attribute value stands between quotation marks. This holds as long as text and values that are written as they are do not bring tags or quotation marks of their own, and the document has none of these shapes, each of which comes out wrong: footnotes in titles of blocks, in footnotes, in texts of anchors, or in a table of contents that stands in the place of the preamble; in a preamble, a title of a block that does not write titles (breaks, comments, macros for the table of contents); a list of callouts that does not follow a listing or literal block, or another such list, without a title; a verse with a title; a part whose title has no id; an interactive or inline SVG image that is loaded late or, in a line of text, has a style or roles; literal, emphasised, strong or monospaced cells in header rows; AsciiDoc cells within AsciiDoc cells of a document with head and body.", "quantifier": "every document tree, every nesting of blocks, lists, tables and formatting, all attributes, roles, ids, options and document attributes, with and without debug assertions", "why_tests_cant": "this backend edits what it has written already: it cuts end tags off the output, swaps buffers and takes characters back; whether that meets the right characters depends on everything that was written before", "anchors": ["backend-html5s/src/html5s.rs: Html5s", "backend/src/html/backend.rs: HtmlBackend", "backend/src/html/open_tag.rs", "eval/src/eval.rs: visit, eval_block, eval_inline, eval_table"]}
{"id": "C65", "title": "Cross references without a target are reported, and links lead to what was found", "statement": "A reference to an id is reported exactly if the last reference to this id stands in a file without an anchor of this id; it is reported once, at that reference. A reference that is not reported, when all references to the id are in one file and the id has no dot in a macro, is written as a link to this id, which exists. A reference to an id in a file is reported exactly if the path names no source of the document or the first one it names has no such anchor; if it is not reported and the path is written as in the include directive, the link leads to the id in this document. Every id that is defined can be referred to; of several anchors with the same id the first counts and the others are reported, in order. A place of the table of contents that the document does not have is reported, and only that. The text given in a reference is the text of the link unless the anchor has a text of its own.", "quantifier": "all documents, any number of files, anchors and references in any order, any iteration order of the hash map, all settings of prefix and suffix", "why_tests_cant": "the check and the link are made in different crates from different data, and the references are kept in a hash map whose order and last writer decide what is reported", "anchors": ["parser/src/tasks/diagnose_document.rs: diagnose_invalid_xrefs, target_data, diagnose_toc", "parser/src/tasks/parse_inlines/mod.rs: push_xref", "parser/src/tasks/anchors.rs: insert_anchor", "parser/src/parser.rs: matches_xref_target", "backend/src/utils.rs: xref::href", "core/src/file.rs", "eval/src/eval.rs: eval_inline"]}
{"id": "C66", "title": "Every text of a document is in its HTML, in order", "statement": "All texts of a document stand in the HTML byte for byte as the evaluator hands them over, each after the one before it, in the order of the document: document information, title, headings, block titles, paragraphs, list items, terms and descriptions, cells, quotes with their attribution and citation, then the texts of the footnotes without an id in the order of their marks, then the document information of the footer. This holds when titles of blocks stand on blocks that show titles, cells that are headings are paragraphs, and footnotes are not in titles or footnotes. Each exception loses a text: titles of breaks, headings, sections, callout lists and passthrough blocks, of paragraphs that are descriptions, of images with a title attribute; the second footnote with the same id; a footnote in the footer information. A lost title can come out later as part of the next title.", "quantifier": "every document tree, all attributes, options, ids, roles and document attributes, every kind and depth of nesting, with and without debug assertions", "why_tests_cant": "titles and footnotes are written to a second buffer that is swapped, taken and cleared by calls far apart; whether nothing is dropped or moved depends on every combination of blocks that may follow", "anchors": ["backend/src/html/htmlbuf.rs: start_buffering, stop_buffering, swap_take_buffer, swap_buffers", "dr-html-backend/src/asciidoctor_html.rs: enter_meta_title, exit_meta_title, render_buffered_block_title, enter_footnote, exit_footnote, enter_footer", "eval/src/eval.rs: eval, visit, eval_block, eval_inline"]}
{"id": "C67", "title": "Plain text with formatted words comes through a whole conversion unchanged", "statement": "A source made of lines of words, numbers, the characters & < >, and words between *, _ or ` marks, each phrase with at most one of , . ! ? behind it, one space between phrases, every line starting with a word that starts with a letter or with a mark, converts without a panic to one paragraph element for each run of lines that are not blank. The element holds the phrases in order: words, numbers and punctuation byte for byte, & < > as their escapes, formatted words inside strong, em or code, a space between phrases and for each line end, and nothing else. Blank lines between, before and after paragraphs and a final line feed make no difference.", "quantifier": "every such text of any length, articles and books, with and without debug assertions, any plugin macros, any Unicode tables, any answers about author and revision lines; conversion to embedded HTML with no document attributes set", "why_tests_cant": "the claim crosses the lexer, the inline parser, the block parser, the header, eval and the backend, each of which treats words, marks and line starts specially in context; there are unboundedly many texts and interactions", "anchors": ["parser/src/lexer/source_lexer.rs: next_token", "parser/src/tasks/parse_inlines/mod.rs: parse_inlines_until", "parser/src/tasks/parse_block.rs: parse_block, parse_paragraph", "parser/src/tasks/parse_doc_header.rs", "parser/src/parser.rs: parse, read_lines", "eval/src/eval.rs: eval", "dr-html-backend/src/asciidoctor_html.rs"]}
{"id": "C68", "title": "Date and time attributes show the clock at the right second", "statement": "After the times are given to the API, every document reads docyear, docdate, doctime and docdatetime as the UTC date and time of one second (the fixed one if there is one, or else when the input was last changed, or else now), and localyear, localdate, localtime and localdatetime as those of the fixed second or of now, whatever the document assigns to them. Dates are those of the Gregorian calendar, in ISO form, and the texts of dates with times sort as the times do. A docdate or doctime in the job's settings that can be read comes first for the document's own date and time. With a fixed second the result does not depend on the clock or the file. No other attribute changes, and the call returns.", "quantifier": "every now, modification time and fixed second, every state of the attributes, every reader of dates and times, every later series of assignments", "why_tests_cant": "there are 2.5e11 seconds with calendar rules that only show at ends of months, leap years and centuries, and any settings and documents", "anchors": ["parser/src/tasks/time.rs: set_datetime_attrs, to_zoned, date_from_attr_or, time_from_attr_or", "parser/src/parser.rs: provide_timestamps", "parser/src/tasks/attr_refs.rs: insert_job_attr", "cli/src/main.rs: run"]}
{"id": "C69", "title": "The reply to JavaScript is JSON that holds the HTML or the errors", "statement": "The text the WebAssembly entry point returns is valid JSON; JavaScript reads from it the HTML of the document byte for byte, or the list of the diagnostics, one string for each.", "quantifier": "every HTML text and every list of diagnostic texts", "why_tests_cant": "the reply is put together from strings with two replacements, so whether it is JSON depends on every byte of the HTML and of the source lines that diagnostics quote", "anchors": ["dr-html-wasm/src/lib.rs: convert", "parser/src/diagnostic.rs: plain_text", "web-playground/src/App.tsx"]}
{"id": "C70", "title": "An article with sections comes through a conversion with its headings, ids and nesting", "statement": "Converting the source of an article, with or without a title, gives exactly: the text before the first section, in a preamble if there is a title; then every section in an element for its level, with a heading of that level, its words and an id of its own, then its paragraphs and subsections, in the order and the nesting of the source. Ids are the words in lower case with underscores, numbered where that is taken.", "quantifier": "every article of texts of words, numbers, punctuation, special characters and formatted words, in any number of sections nested up to five levels deep, with any blank lines; every set of plugin macros; builds with and without debug assertions", "why_tests_cant": "section nesting depends on how the levels of all headings before and after compare, ids on all headings before, and each passes through five stages of the program that put lines back for each other", "anchors": ["parser/src/tasks/parse_section.rs", "parser/src/tasks/parse_doc_header.rs", "parser/src/tasks/section_id.rs", "parser/src/parser.rs: parse, parse_document_content", "parser/src/tasks/parse_book.rs", "eval/src/eval.rs: visit_document, eval_section", "dr-html-backend/src/asciidoctor_html.rs: enter_section, enter_section_heading, enter_preamble"]}
{"id": "C71", "title": "Lists in lists come through a conversion with the items, texts and nesting of their source", "statement": "Converting a text with bulleted and numbered lists gives exactly: every paragraph; every list as an element of its kind, in which every item has its text, on however many lines, and then the list in it, in the order and the nesting of the source. Items stay at the level of their markers whatever kinds of lists are in each other; blank lines between items make no difference; text after a list is not in the list; numbered lists are numbered by their depth.", "quantifier": "every text of words, numbers, punctuation, special characters and formatted words in paragraphs and in bulleted and numbered lists, with any number of items nested up to 255 levels deep, any blank lines between items and text between any two lists; articles and books; every set of plugin macros; builds with and without debug assertions", "why_tests_cant": "which list an item belongs to depends on the markers of all lists that are open, groups of lines are read ahead and put back at every level, and the marker of an item looks like formatted text and like a title until its line is read", "anchors": ["parser/src/tasks/parse_list.rs", "parser/src/list_context.rs", "parser/src/line.rs: starts_list_item, list_marker", "parser/src/contiguous_lines.rs", "eval/src/eval.rs: eval_block (lists)", "dr-html-backend/src/asciidoctor_html.rs: enter_unordered_list, enter_ordered_list, enter_list_item_principal", "backend/src/html/list.rs"]}
{"id": "C72", "title": "Delimited blocks in delimited blocks come through a conversion with the contents and nesting of their source", "statement": "Converting a text with example, sidebar, quote and open blocks gives exactly: the paragraphs and lists; every delimited block as an element of its kind, in which there is what is between its delimiters, in order, and nothing else. What is after a block stays out of it; a delimiter ends the paragraph or the list before it whether or not a blank line is between; blocks can be in each other to any depth, as long as no block is directly in a block with the same delimiter.", "quantifier": "every text of paragraphs and lists as in C71 and of delimited blocks around such texts, nested to any depth, with and without blank lines around delimiters, example delimiters from 4 to 255 characters; articles and books; every set of plugin macros; builds with and without debug assertions", "why_tests_cant": "which block a delimiter opens or closes depends on all delimiters before it; paragraphs and lists stop at delimiters only in some states of the parser; groups of lines are read ahead and put back at every delimiter", "anchors": ["parser/src/tasks/parse_block.rs: parse_delimited_block", "parser/src/delimiter.rs", "parser/src/contiguous_lines.rs", "parser/src/tasks/parse_inlines", "parser/src/tasks/parse_list.rs", "eval/src/eval.rs: eval_block (compound)", "dr-html-backend/src/asciidoctor_html.rs: enter_example_block, enter_sidebar_block, enter_quote_block, enter_open_block"]}
{"id": "C73", "title": "The lines of listings and literal blocks come through a conversion unchanged", "statement": "Converting a text with a listing or literal block shows the lines between its delimiters between one pair of tags, from the first line that is not blank to the last, with their line ends, with marks for bold, italic and monospaced text left as they are, and with nothing changed but the characters &, < and >, which are written so that they are shown. The text before and after is converted as without the block, and the text of a listing can be read back from its HTML.", "quantifier": "every list of lines of words, numbers, punctuation, special characters and words between marks, with blank lines anywhere, in a listing or literal block at any place and depth in a text as in C72; articles and books; every set of plugin macros; builds with and without debug assertions", "why_tests_cant": "the lines are read in one of two ways, depending on whether a blank line comes before the closing delimiter; every kind of token must be left alone where the same tokens have a meaning in other text, and the state that keeps line ends and the substitutions must be put back for what follows", "anchors": ["parser/src/parser.rs: read_lines_until, at_delimiter", "parser/src/tasks/parse_block.rs: parse_delimited_block", "parser/src/tasks/parse_inlines", "ast/src/subs.rs: verbatim", "eval/src/eval.rs: eval_block", "dr-html-backend/src/asciidoctor_html.rs: enter_listing_block, enter_literal_block, visit_joining_newline"]}
{"id": "C74", "title": "Articles with nested sections, lists, delimited blocks and listings convert to exactly their HTML", "statement": "Converting an article with or without a title, with something before the first section, and with nested sections that hold paragraphs, nested lists, delimited blocks in each other, listings and literal blocks, yields exactly: what is before the first section (in a preamble if there is a title), then each section in an element for its level with its heading and a unique id, then the elements for its blocks and its subsections, in the order of the source and nested as in the source, with nothing lost, repeated or out of place. A heading ends the list or paragraph before it and exactly the sections it is not in, whatever blocks come before it.", "quantifier": "every title or none, every text as in C72 and C73 before the first section and in each section, every tree of sections up to five levels deep; every set of plugin macros, Unicode table, author and revision line; builds with and without debug assertions; articles, and books with nothing before the first section", "why_tests_cant": "every kind of block can come before and after every heading at every level; whether a heading is left for an outer section depends on what lists and blocks are open and on lines that were read ahead and put back, and ids depend on all headings before", "anchors": ["parser/src/parser.rs: parse", "parser/src/tasks/parse_doc_header.rs: parse_document_header", "parser/src/tasks/parse_section.rs: parse_section, parse_peeked_section", "parser/src/tasks/parse_block.rs: parse_block, parse_delimited_block", "parser/src/tasks/parse_list.rs: parse_list", "parser/src/tasks/section_id.rs: section_id", "eval/src/eval.rs: eval, eval_section, eval_block", "dr-html-backend/src/asciidoctor_html.rs: enter_preamble, enter_section, enter_section_heading"]}
{"id": "C75", "title": "A well formed article is converted without a diagnostic", "statement": "For an article made of a title, nested sections without skipped levels, paragraphs, nested lists, closed delimited blocks, listings and literal blocks, parsing reports no diagnostic at all and does not panic, so strict mode accepts it.", "quantifier": "every article as in C74; every set of plugin macros; builds with and without debug assertions; articles, and books with nothing before the first section", "why_tests_cant": "diagnostics depend on which blocks, lists and sections are open at each line, so a false alarm needs only one combination of nesting that no test has", "anchors": ["parser/src/parser.rs: parse", "parser/src/diagnostic.rs", "parser/src/tasks/parse_block.rs: parse_delimited_block", "parser/src/tasks/parse_section.rs: parse_section, parse_peeked_section", "parser/src/tasks/parse_list.rs: parse_list"]}
{"id": "C76", "title": "Every word of a source is shown, in order, or something is reported", "statement": "If a source is converted without a diagnostic, then what the HTML shows outside of its tags is what the source says: all its words and punctuation, in the order of the source, and no others (the title of an embedded document is not shown).", "quantifier": "every source; every set of plugin macros, Unicode table, author and revision line", "why_tests_cant": "words can be lost or repeated wherever lines are read ahead and put back, which depends on all combinations of blocks; a test sees only the words of its own text", "anchors": ["parser/src/parser.rs: parse, restore_lines", "parser/src/tasks/parse_list.rs: parse_list_item, parse_list_item_blocks", "parser/src/tasks/parse_inlines/mod.rs: should_stop_at", "eval/src/eval.rs: eval", "dr-html-backend/src/asciidoctor_html.rs"]}
{"id": "C77", "title": "The semantic HTML of an article is that of its parts, from source to output, and shows the words the other backend shows", "statement": "A source with a title, nested sections and, in them, paragraphs, nested lists, delimited blocks, listings and literal blocks converts without a panic to exactly the semantic HTML for these parts, in order and nested as in the source. Without tags, blanks and line ends it is what the other HTML backend gives.", "quantifier": "every article of the grammar of C74, of any size; every set of plugin macros, Unicode table, author and revision line; with and without debug assertions", "why_tests_cant": "the result depends on all combinations and nestings of parts, of which there is no end; a test compares the two backends on its own few documents", "anchors": ["cli/src/main.rs: run, Output", "backend-html5s/src/html5s.rs: Html5s, enter_section, enter_unordered_list, enter_ordered_list, enter_list_item_principal, enter_paragraph_block, enter_listing_block, enter_literal_block, enter_preamble", "backend-html5s/src/lib.rs: convert", "eval/src/eval.rs: eval", "parser/src/parser.rs: parse"]}
{"id": "C78", "title": "No source makes the program panic", "statement": "Whatever the text of a document is, parsing and converting it does not panic: it gives HTML, perhaps with diagnostics.", "quantifier": "every source text; builds with and without debug assertions", "why_tests_cant": "there is no end of sources, and the panics found are in rare combinations of lines that no test holds", "anchors": ["parser/src/tasks/parse_block.rs: parse_delimited_block, parse_discrete_heading, parse_quoted_paragraph, parse_block", "parser/src/line.rs: discard_assert, consume_to_string_until_one_of", "parser/src/parser.rs: restore_lines"]}
{"id": "C79", "title": "Comments are not shown and do not change what is shown", "statement": "A document with comments between its blocks, at any depth, gives the HTML that it gives without them. Lines that begin with two slashes up to a blank line become one comment, as do all lines between two lines of four slashes, and what comes after them is parsed as if they were not there.", "quantifier": "every document tree with comments anywhere between blocks, for either backend; every run of comment lines and every comment block, in every state of the parser and whatever comes after it", "why_tests_cant": "comments may stand before and after every block of every document, and what they change would be seen only in some other block", "anchors": ["parser/src/tasks/parse_block.rs: parse_block, comment blocks", "parser/src/contiguous_lines.rs: discard_leading_comment_lines", "eval/src/eval.rs: eval_block"]}
{"id": "C80", "title": "Which of a block's attribute lists decides", "statement": "Of several attribute lines above a block, the id, each named attribute, each positional attribute, the language of a listing, the style of a list and the kind of block are what the first line says that says anything about it; options and roles of all lines add up, the roles in their order. The brackets of a block macro count as a line before all of these. Options, roles and named attributes with text values are the same on one line as on several.", "quantifier": "every number of attribute lists with any attributes, every key, place, option, role and kind of block", "why_tests_cant": "there are unboundedly many ways to spread attributes over lines and brackets, and each of the fifteen questions is answered by code of its own, three times over", "anchors": ["ast/src/attr_list.rs: AttrData for AttrList", "ast/src/multi_attr_list.rs: AttrData for MultiAttrList", "ast/src/priority_attr_list.rs: AttrData for PriorityAttrList"]}
{"id": "C81", "title": "Every admonition shows its own icon when images are embedded", "statement": "With data-uri and icons set, every admonition of a document shows the data of its own icon (the one its icon attribute names, or that of its kind), in base 64 and with the media type of the icon type; no other block is given data, whatever sources the blocks come from and whatever else the document has.", "quantifier": "every sequence of blocks at different places of any sources, every settings of the attributes between them, every include resolver", "why_tests_cant": "icons are kept in a table under numbers made from places in sources; two admonitions whose numbers are the same would show the wrong image in some documents only", "anchors": ["parser/src/tasks/parse_image_block.rs: maybe_set_admonition_icon_uri", "parser/src/tasks/parse_block.rs: parse_paragraph", "ast/src/source_location.rs: uid", "eval/src/eval.rs: eval_block", "core/src/document_meta.rs: data_admonition_icons, icon_mode"]}
{"id": "C82", "title": "An SVG put into the document is shown as its file has it", "statement": "An SVG file that is put into the document is shown from its svg element on, unchanged except for whitespace at the end. If a width or height is given, the svg element begins with these sizes in place of its own, and nothing else changes.", "quantifier": "every file, every width and height", "why_tests_cant": "files are unbounded and are rewritten by regular expressions over all of their text", "anchors": ["parser/src/tasks/parse_image_block.rs: parse_inline_svg", "core/src/regx.rs: SVG_PREAMBLE, SVG_START_TAG, SVG_STRIP_ATTRS"]}
{"id": "C83", "title": "A video of a service has one well-formed address", "statement": "The address of an embedded YouTube, Vimeo or Wistia video is the address of the service, the video, one parameter for each option and attribute that has one for the service, and the fragment. The first parameter follows a question mark and each other one an ampersand.", "quantifier": "every service, target and attribute list", "why_tests_cant": "the separator depends on which of more than a dozen options, attributes and forms of the target came before, and texts are unbounded", "anchors": ["backend/src/html/video.rs: service, more_youtube_params, Provider"]}
{"id": "C84", "title": "A video file is found, cut and set up as its macro says", "statement": "A video that is not of a service is shown as a player for its file. The file and the picture shown before it are looked for in the directory of the images, if one is set, unless their address has a scheme. The player has the sizes, the start and end, and the settings that the macro gives, and no others, with controls unless these are switched off.", "quantifier": "every target, attribute list and directory of images", "why_tests_cant": "targets and values are unbounded texts and the settings combine freely", "anchors": ["backend/src/html/video.rs: element, native_element, push_dims", "core/src/regx.rs: URI_SNIFF"]}
