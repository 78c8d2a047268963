# Design

Formal model of asciidork (source in /repo, read as text) in Coq 8.16.1, under
`rocq/theories` (logical name `Verif`).

## Conventions

* Every model definition cites the file and lines it models and states any simplification.
* `&mut self` methods become functions returning the new state. Panics (index out of
  bounds, `unwrap`, integer overflow in debug builds, slicing off a char boundary) are
  explicit error values wherever a property touches them.
* External effects (resolver, canonicalisation, regular-expression/Unicode tables) are
  explicit theorem parameters, never axioms.
* Layout: `X.v` model (definitions only), `XProofs.v` lemmas, `XProps.v` property theorems, each closed by
  `exact` with `Print Assumptions` beneath and a concrete `Example` beside it.
* If the faithful model violates a property the theorem `..._refuted` exhibits the
  witness, and the strongest true version is proved next to it. See "Findings".

## Plan per property

* **C01 Read-only job attributes cannot be overridden by the document** (`Attrs*.v`): stateful model of `DocumentMeta` (header/doc/job/default layers as association functions), ops = header insert, body insert, clear, cell clone; invariant over `fold_left step`.
* **C02 Attribute lookup precedence** (`Attrs*.v`): lookup of the final state equals a history-based specification function defined on the op list alone; induction over the history.
* **C03 Rejected assignments leave no trace; scope-restricted names** (`Attrs*.v`): one-step frame theorem on every state: `Err` result implies equal lookups for every name.
* **C04 showtitle and notitle never contradict each other** (`Attrs*.v`): invariant over all histories.
* **C05 Document type is consistent** (`Attrs*.v`): invariant over all histories; expected to be false when the job fixes `doctype` read-only, then `_refuted` plus the strongest true version.
* **C06 Path parse/print/join laws** (`Path*.v`): executable model of `Path` over byte strings; algebraic laws by induction.
* **C07 CLI resolver never leaves the base directory** (`Include*.v`): `canonicalize` is an arbitrary function (theorem parameter); decision theorem over all functions.
* **C08 Secure mode performs no resource reads** (`Include*.v`): decision model of `process_includes` with the resolver calls as an explicit output trace.
* **C09 Include nesting is bounded and including terminates** (`Root*.v`): source stack machine; resolver = arbitrary function from names to contents; depth invariant and a termination measure.
* **C10 Line-range includes select exactly the requested lines** (`Lines*.v`): model of the line selection loop; equality with a filter on line numbers.
* **C11 Tag includes select exactly the tagged regions** (`Tags*.v`): model of the tag scanner; equality with an independent per-line specification.
* **C12 Encoding normalisation of included text** (`Norm*.v`): model over bytes; characterisation per line; idempotence expected false on CR+blank lines, `_refuted` plus the true version.
* **C13 Indent option re-indents uniformly** (`Indent*.v`): model over lines; characterisation of each output line.
* **C14 Lexing is lossless** (`Lexer*.v`): full model of `next_token` over bytes; losslessness and progress for every source.
* **C15 Token stream of included documents is the in-place expansion** (`Root*.v`): stack machine refines the recursive in-place expansion.
* **C16 Lookahead agrees with what is read next** (`Root*.v`): expected false when two stacked sources are exhausted: `_refuted` plus version for at most one.
* **C17 Reported line numbers are right** (`Loc*.v`): equality with newline counting.
* **C18 Conditional directives include exactly the enabled lines** (`Ifdef*.v`): line-level model of the directives driver; equality with the recursive block semantics; diagnostics part expected false (`ifdef_stack` never popped).
* **C19 ifeval comparisons** (`Ifeval*.v`): model of expression parse and compare; laws by case analysis.
* **C20 Attribute references in values** (`AttrRefs*.v`): model of the scanner; equality with specification.
* **C21 Auto-generated section ids are fresh** (`SectionId*.v`): model of id generation over code points with the character classes as parameters; freshness and termination by pigeonhole.
* **C22 Table of contents mirrors the sections** (`Toc*.v`): tree insertion model; depth-first flattening theorem; crash freedom expected false after an out-of-sequence section.
* **C23 Section numbers are consecutive** (`SectNum*.v`): counter machine; numbers equal a sibling-counting specification.
* **C24 Heading levels stay in range** (`HeadingLevel*.v`): Z arithmetic with explicit i8 range checks; refutation for large offsets.
* **C25 Callout numbers match their list items** (`Callouts*.v`): state machine over callout/list events.
* **C26 List nesting decision is unambiguous** (`ListStack*.v`): decision functions on marker stacks.
* **C27 PSV table rows conserve cells** (`TableModel.v`, `Psv*.v`): the table reader over tokens; exact layout by a grid invariant, conservation by induction on the rows, termination by a lexicographic measure; non-termination on zero columns as finding.
* **C28 CSV cell decoding inverts CSV quoting** (`TableModel.v`, `Csv*.v`): cell scanner; decode(encode f) = f.
* **C29 DSV tables split exactly at unescaped delimiters** (`TableModel.v`, `Dsv*.v`): cell scanner; splitting specification.
* **C30 Column widths add up to 100 percent** (`Cols*.v`): rational arithmetic with u8 sum check.
* **C31 HTML escaping leaves no markup characters** (`Escape*.v`): byte-level model of `push_escaped`; absence and unescape theorems; findings on char-ref lookahead.
* **C32 Generated tags are well formed** (`OpenTag*.v`): builder state machine; structural theorem over all op sequences.
* **C33 Link constraint attributes** (`OpenTag*.v`): decision table over all link attributes; finding for nofollow with a named window.
* **C34 Backends see a well-bracketed event stream** (`Eval*.v`): model of the visitor over the document tree; Dyck-language theorem; finding for visible index terms.
* **C35 Cross-reference resolution terminates** (`Eval*.v`): fuelled model of xref resolution; divergence witness for every fuel, termination for at most one xref per title.
* **C36 base64 encoding is correct** (`Base64*.v`): encoder model; independent decoder; round trip, length, alphabet.
* **C37 Substitution sets behave like ordered sets** (`Subs*.v`): flags+array model; set/order invariant over histories.
* **C38 The token queue refines a list** (`Deq*.v`): refinement to list over operation histories.
* **C39 Attribute list items split at top-level commas** (`AttrList*.v`): delimiter scanner model; partition theorem.
* **C40 Diagnostics: strict stops at the first, lenient collects all in order** (`Loc*.v`): fold model of error handling.
* **C41 Command line attribute definitions** (`CliArgs*.v`): string model of parse_attr.
* **C42 Footnote references** (`Footnotes*.v`): counter model.
* **C43 Author attributes** (`Attrs*.v`, `AuthorLine*.v`): model of add_author and author_from_attr; finding for single-word authors.
* **C44 Docinfo gating** (`Docinfo*.v`): decision table with request trace.
* **C45 Text collection loses nothing** (`CollectText*.v`): model of the collector; concatenation invariant.
* **C46 Image reads obey the safe mode** (`Include*.v`): model of the image/icon resolution decision as a function returning the resolver request, over the attribute model.
* **C47 Stylesheet reads** (`Include*.v`): model of css reading over an abstract file system.
* **C48 Headings and blocks survive** (`Sections*.v`): the section, book and part loops over chunks of heading lines and blocks, with the lines that are put back; invariants by induction on the amount of input left. The events (table of contents entries, reports) are recorded so that C22 can be stated about documents.
* **C49 Column specifications** (`Cols*.v`): the regular expression as a deterministic reader of its five parts; equivalence with a separate text form, in both directions.
* **C50 Verbatim text** (`InlineModel.v`, `InlineSpec.v`, `Verbatim*.v`): the whole inline parser as a step function over lines of tokens, with nested parses as explicit calls; induction over lines and tokens that what has been collected reads as what has been consumed; conditions stated on the text alone, each shown necessary by a refuted theorem.
* **C51 Inline passthroughs** (`InlineModel.v`, `Passthru*.v`): the same model; the preprocessing pass replaces the passthrough by a token, the nested parse is the one of C50, the token becomes the node.
* **C52 Inline parsing ends** (`InlineTerm*.v`): a measure over the lines left (characters, tokens, lines not yet searched for passthroughs) that every step and every nested parse decreases; every path of the step function is covered, for arbitrary tokens.
* **C53 Inline parsing keeps every letter** (`InlineLetters*.v`, `InlineLexedProofs.v`): the letters of the tokens left plus those of the nodes made so far are the same before and after every step and nested parse; a stand-in for a passthrough has the letters of what it stands for. Two theorems cover texts with everything but passthroughs, and texts with passthroughs but without macros, brackets and backslashes; the lexer's tokens are shown to meet what is asked of tokens. What is lost outside of these conditions is stated in `_refuted` theorems.
* **C54 The HTML is well nested** (`Html*.v`): the whole Asciidoctor backend as functions from calls to pieces of output (literals, numbers, strings of the document as they are or escaped), run on the calls of `EvalModel`; a scanner over pieces that keeps the open elements; for each call a rule that says what it opens or closes and which flags it needs; an invariant of the state through inlines, blocks, cells and documents. `nested` is stated as a grammar of HTML, apart from the scanner. Each excluded shape has a `_refuted` theorem.
* **C55 Parsing the blocks ends** (`BlockModel.v`, `BlockSpec.v`, `BlockTermProofs.v`, `BlockMonoProofs.v`): the whole block parser (parse_block, parse_list, parse_section, parse_book, the lines of tables) as mutually recursive calls with fuel, on top of the inline parser of `InlineModel.v`. Measure: four times the weight of the lines put back and of the source, plus a rank of the call; every call that returns something has made the weight smaller. Then: enough fuel is a multiple of the size, and more fuel changes nothing. Books: a state that comes back, by computation, hence never an end.
* **C56 An article is read to its end** (`BlockReadProofs.v`): every call keeps the delimiter it runs under; a block ends the loop only at the end of the source, before a heading that the next peek finds again, or in one of the exceptions. Two counters that are not in the code (`empties`, `strays`) name two exceptions.
* **C57 Levels grow** (`BlockTreeProofs.v`, `BlockTreeProps.v`): every call keeps the level of the section it runs in, and a peek at lines that were put back finds the level that was compared; the tree is checked by `content_levels_grow`, a function on documents.
* **C58 Unclosed blocks are reported** (same files): the pass for C57 also keeps the number of errors equal to the number of unclosed blocks in what was returned so far. The bounds differ only by list items without description, since the parser drops a description that is a comment.
* **C59 Skipped levels are reported** (`BlockSkipProofs.v`, `BlockSkipProps.v`): the same pass with another count.
* **C60 Reading lines** (`BlockLinesProps.v`): the source is the lines read, the lines left and the blank lines named, by induction over the source.
* **C61 Attribute entries** (`AttrDef*.v`): a reader of the source from the colon on; the lines of a value by induction, with an invariant that what was joined so far ends in a space or a line break, so that each line alone decides whether it is continued.
* **C62 Revision line** (`RevLine*.v`): the two regular expressions on the ordered-results engine of `AuthorLineModel`; the first result is computed for every well formed revision, every result is characterised, so the taken lines are known exactly.
* **C63 Header** (`Header*.v`): parse_document_header on top of `BlockModel`, with a ghost list of the lines that are dropped. `front_matter` says what may stand before the title, `accounted` where each line went. Proved by an invariant that the lines put back and the rest of the source are what is left of the source, by induction on the number of reads.
* **C64 The semantic HTML is well nested** (`Html5s*.v`): the whole html5s backend, as in C54, run on the calls of `EvalModel`. It cuts six characters off the end of the output before a list of callouts and takes back the last character of an image, and it uses the second buffer both for titles and for the table of contents in the preamble; the invariant therefore carries what the last pieces are and what the second buffer holds. `fine_document5` lists the shapes that are left out; each has a `_refuted` theorem.
* **C65 Cross references** (`Xref*.v`): push_xref and insert_anchor as maps filled by a history of references and definitions, diagnose_document over any permutation of the map, href on bytes. `last_reference`, `first_named`, `first_definition` and `anchored` state what is meant without the maps. Proved by induction on the history from its end; the text of a reference on `EvalModel`.
* **C66 Every text is in the HTML, in order** (`Shown*.v`): no new model; the backend of C54 run on the calls of `EvalModel`. `document_texts` reads the texts off the tree, `in_order` is about bytes only. The proof keeps three lists: what has been written, what the footnotes hold, what stands in the other buffer, each as a subsequence of the texts among the pieces. Texts of footnotes with an id and of cross references are left out (C65 has the latter).
* **C67 Text from source to HTML** (`Whole*.v`): `convert` composes the models of the lexer (C14), the header and block parser (C55, C63), the inline parser (C52), eval and the HTML backend (C54); only the translation between their trees is new, for paragraphs with text, line ends, special characters and plain spans. `WholeSpec` gives texts, their source and their HTML without the model. Proved stage by stage: the tokens of a source (`lex_source`), the nodes of a paragraph (`parse_paragraph`), the blocks of a text (`whole_text`), the calls and what they write (`document_written`).
* **C68 Date and time attributes** (`Time*.v`): `provide_timestamps` on the attribute model of C01-C05, with the calendar as a walk over years and months; `TimeSpec` has the calendar in closed form (`day_number`), the ISO texts, and which second counts. The two `strptime` calls of the crate `jiff` are parameters; its Gregorian calendar, its last time stamp and its `strftime` are trusted as modelled. Proved; `C68_late_second_panics`, `C68_command_line` (files from before 1970 panic) and `C68_early_year_refuted` hold what is false.
* **C69 The reply to JavaScript** (`Json*.v`): the two `format!` calls of the WebAssembly entry point; `JsonSpec` reads JSON strings in full. Partial, because the code does not have it: `C69_html_partial` is an equivalence (read back exactly if there is no backslash and no control character but line feeds); `C69_errors_are_one_refuted` shows that several diagnostics are always read as one.
* **C70 Articles with sections from source to HTML** (`Article*.v`): `convert` as in C67, with the header (C63), sections (C53), section ids (C21) and the section calls of eval and the backend (C54). `ArticleSpec` is a grammar of articles, their source, their ids and their HTML, independent of the model. Proof: the tokens of a source are its rows (`lex_rows`); an invariant `holds` says which headings and paragraphs are still to be read, some of them peeked; induction over the steps of the block loop gives the tree (`loop_sections`); the ids follow from C21; calls and HTML compose (`does`, `writes`). False for books: `C70_book_refuted` loses the last chapter behind a text (`parse_book.rs` asks the lexer for its end although lines are peeked); for books without such a text `C70_article` holds.
* **C71 Lists in lists from source to HTML** (`Outline*.v`): `convert` as in C67, with the list parser (C55, `list_item`, `item_blocks`), the stack of open lists (C11) and the list calls of eval and the backend (C54). `OutlineSpec` is a grammar of texts with lists, their source and their HTML, independent of the model. Proof: rows and the invariant `holds` as in C70, with the markers of the open lists; an induction over the number of items (`loops_all`) that covers all ways an item ends (another item, an outer item, text, nothing, each right below or after blank lines); the HTML backend's stack of interactive lists is carried along (`within`). False without text between two lists: `C71_lists_apart_refuted`.
* **C72 Delimited blocks from source to HTML** (`Box*.v`): `convert` as in C71, with `delimited` (parse_block.rs), the delimiter of the open block, which ends paragraphs, lists and the loop over blocks, and the calls of eval and the backend for example, sidebar, quote and open blocks. `BoxSpec` is a grammar of texts with delimited blocks, their source and their HTML, independent of the model. Proof: the rows of C71 get delimiter lines (`Fence`) and the invariant `holds` gets the delimiter of the open block; the relation `runs` says which rows are the contents of which block; induction over it (`loop_rows`), and over the nesting for the rows (`body_reads`) and the HTML (`elem_done`). False for a block directly in one with the same delimiter, and lengths are compared modulo 256: `C72_same_delimiters_refuted`. Listing, literal and passthrough blocks, comments, tables, admonitions and titles and attributes of blocks are left out.
* **C73 Listings from source to HTML** (`Listing*.v`, `Box*.v`): `convert` as in C72, with `read_until` (parser.rs: `read_lines_until`) and the verbatim path of `delimited`, the inline parser with the substitutions for verbatim text, and the calls of eval and the backend for listings and literal blocks, in which line ends are kept. `BoxSpec` gives the grammar, the source and the HTML. Proof: every token of such a line is passed on as it is by induction over the tokens and lines; both ways to read up to the delimiter give the trimmed lines; then the induction of C72. `C73_recover` says that escaping is one to one. `C73_any_text_refuted` shows texts for which it fails: a line of white space that ends the first run of lines is lost, character references are not escaped, cross references are made.
* **C74 Articles with sections, lists and blocks from source to HTML** (`Manual*.v`, on `Article*.v`, `Outline*.v`, `Box*.v`): `convert` joins the sections of C70 with the blocks of C71 to C73; only the translation of the trees is new. `ManualSpec` is a grammar of articles, their source, their ids and their HTML, independent of the model. Proof: the rows of C72 get headings (`Head`), which end lists, paragraphs and the loop over blocks; `runs_to` says which rows are read up to which heading; the block loop of C72 is used for what is between headings, and an induction on the number of rows left (`loop_sections`) gives the tree; ids as in C70; the HTML follows from C70 and C72 piece by piece. For books only with nothing before the first section (see C70). Attributes and titles of blocks and sections, special sections and headings in blocks are left out.
* **C75 No false alarms** (`QuietProps.v`): `diagnostics` (ManualModel.v) is what the parse of C74 leaves in its lists of problems. The invariant `holds` of C72 and C74 says what the whole state is, so the lists are empty at the end (`whole_run`). Diagnostics of directives, attribute lists, tables and callouts are not in it; the grammar has none of these.
* **C76 Every word is shown or reported** (`Said*.v`): `SaidSpec` has a function that deletes the tags and blanks from HTML, and one that gives the words of an article; both are independent of the model. Proof: C74, then piece by piece (`says`) from the HTML in the specification; ids stay inside their tags. Partial, for the grammar of C74, because the code does not have it for all sources: `C76_lines_below_anchor_refuted` (lines below an anchor in a list item are dropped silently, as `parse_list.rs:118-119` drops what `parse_inlines` does not read).
* **C77 Semantic HTML from end to end** (`Semantic*.v`): the articles of C74 through the parser, the evaluator and the backend of `Html5sModel.v`. `SemanticSpec` writes the HTML for each part. Proof: what the parser makes of the source is that of C74 (the inline lemmas say what a text is for whatever stands for the end of a line, since here lines stay lines); the calls of the evaluator are those of C74; what the backend writes for them is proved anew, part by part (`SemanticProofs.writes`). That both backends show the same words: as C76, for the other HTML.
* **C78 No panics** (`PanicProps.v`): false of the code; each `_refuted` theorem is a source for which the parser of `BlockModel.v` panics. What is proved is that articles of the grammar of C74 do not panic, in the parser or in either backend (C74, C77); C61 to C63 say when the header panics.
* **C79 Comments** (`Comment*.v`): `CommentSpec` takes the comments out of a document tree. Evaluation of the two trees is the same, by induction on blocks (the induction of `EvalProofs`), state by state, so that no extensionality is needed. For the parser: a group of comment lines gives one comment and leaves the state of the parser otherwise as it was, in any state; so does a comment block, whatever its lines are, whether or not a blank line follows it; comment lines directly above a block leave no trace at all; in a paragraph of the texts of C67 comment lines with any contents add their nodes and change no other (the run of the inline parser on C67's lines, next to the run without the comments); for whole articles this is lifted through the block loop with the lemmas on steps of C55.
* **C80 Attribute lookup** (`AttrLookup*.v`): the three implementations of the questions that backends and parser ask of attribute lists (`AttrList`, `MultiAttrList`, `PriorityAttrList`), each its own definitions, without source locations and so without `named_with_loc`, and without `NoAttrs` and `special_sect`. `AttrLookupSpec` says which list says what about a question, and `first_to_say` that the first one to say anything decides; each answer is proved to be that, by one induction for `find_map` and one characterisation per question. The brackets of a macro are proved to be one more list in front. A theorem links the lookups of the parser model (`BlockModel`) to these. Values are texts or markup.
* **C81 Embedded icons** (`Icon*.v`): `maybe_set_admonition_icon_uri` with the names and data it makes, the numbers of places (`uid`, with the shift and the bitwise or of 64-bit integers), the table and its lookup in evaluation. `uid` is shown to be injective on places that fit their integers; then by induction on the blocks, with the invariant that numbers of other places keep their entries, every block finds what `right_icon` says. Base 64 is that of C36. The resolver is a parameter. That blocks begin at different places is a hypothesis. Left out: errors when a file is missing, documents in table cells, which have a table of their own that begins as a copy. What is missing for the full property is refuted: delimited admonitions, `icons=image`, and icons named with their extension.
* **C82 Inline SVG** (`Svg*.v`): `parse_inline_svg` after the file is read, its three regular expressions as functions: the text from the last `<svg` (the expression is greedy), the removal of all size and style attributes, the replacement of the first `<svg`. Proved by induction on the text: for files with one `<svg`, the whole element is shown, and with a size given all of its text without size attributes (`loses_sizes`, inductively), after the sizes given. The full property is refuted in three ways. Simplified: files are valid UTF-8, whitespace before attributes is ASCII, sizes hold no dollar sign.
* **C83 Video addresses** (`Video*.v`): `element` for the services, `service`, `more_youtube_params` and `push_dims`, with the flag `param_pushed`. Proved by the invariant that the text so far is the base followed by the query of a list of parameters and that the flag says whether the list is empty. The specification gives the list for each service and has no flag.
* **C84 Video files** (`Video*.v`): `element` and `native_element`, with `URI_SNIFF` as a function on texts. The value of `imagesdir` is a parameter. The specification says with relations which address has a scheme, where a file is, and which picture is shown; the function for the expression is proved to decide the first by induction on the text.

## Trusted base

* Coq 8.16.1's kernel (`vm_compute` is used for refutations and examples; the virtual machine is part of the kernel). No `native_compute`, no plugins, no OCaml.
* `Print Assumptions` stands under every property theorem and answers "Closed under the global context" for each: no axiom of the standard library or of any other library is used. `vcheck` lists seven entries `Coq.ssr.ssrunder.*` among the constants of loaded libraries; they belong to a module type of the standard library that is loaded, not used, and no theorem rests on them.
* The model is a translation by hand of the source in /repo. That it says what the Rust code does is trusted, as are the simplifications stated in the comment of each definition. Beside each definition are the file and the lines it models.
* Statements read the definitions of the `*Spec.v` files (and the model's data types and entry points). Those definitions are trusted to mean what the English property says. The `Example`s beside the theorems show that concrete inputs meet the hypotheses.
* Unicode tables, the resolver, the file system, floating point parsing and lossy decoding are arbitrary functions (theorem parameters): the theorems hold for all of them, subject to the hypotheses written in the statement.
* Outside the model everywhere: memory limits, stack overflow of the process, `u32` positions of sources over 4 GiB, time.

## What is modelled

| part of the code | model | not modelled |
|---|---|---|
| core: attrs, validate, job_attrs, job_settings, document_meta, doctype, types, path | `AttrsModel`, `PathModel` | iteration order of hash maps; Windows paths |
| core: file, regx, special_sect | `XrefModel`; the regular expressions are readers in the models that use them | stem, remove_uri_scheme |
| parser: base64, substitutions, customize_subs, deq, list_context | `Base64Model`, `SubsModel`, `DeqModel`, `ListStackModel` | |
| parser: lexer (source_lexer, root_lexer), token | `LexerModel`, `RootModel` | |
| parser: diagnostic, positions; tck/src/loc.rs | `LocModel` | the rest of tck |
| parser: directives (include resolution, lines, tags, encoding, indent, ifdef, ifeval) | `IncludeModel`, `LinesModel`, `TagsModel`, `NormModel`, `IndentModel`, `IfdefModel`, `IfevalModel` | HTTP transport |
| parser: attr_refs, parse_doc_attrs (references in values) | `AttrRefsModel` | counters are not in the code |
| parser: section_id, parse_section, parse_book, parse_book_part, toc | `SectionIdModel`, `SectionsModel`, `TocModel`, `HeadingLevelModel` | in `SectionsModel` a block is opaque; see `BlockModel` |
| parser: parse_list | `ListStackModel`, `CalloutsModel`, `BlockModel` | callout numbers in `BlockModel` |
| parser: parse_attr_list, line (tests that admit lists and anchors) | `AttrListModel`, `LineModel` | locations |
| parser: table/* | `TableModel`, `ColsModel` | the parse of a cell's content (tokens are handed over) |
| parser: parse_inlines/*, collect_text | `InlineModel`, `CollectTextModel` | locations (other than the ones the parser compares); attribute lists of macros are the ones of `AttrListModel` with their values as nested parses |
| parser: parse_author_line, parse_revision_line, parse_doc_header, docinfo | `AuthorLineModel`, `RevLineModel`, `HeaderModel`, `DocinfoModel` | the table of contents from the header (parse_doc_header.rs:87-107), the document type inline |
| parser: diagnose_document, anchors; core: file; backend: utils | `XrefModel` | which file number the lexer gives to an anchor (arbitrary); reading a reference or an anchor itself is in `InlineModel` and `AttrListModel` |
| parser: parse_doc_attrs | `AttrDefModel`, `AttrRefsModel`, `AttrsModel` | locations, the observer |
| parser: parser.rs (reading and putting back lines), parse_block, parse_image_block, contiguous_lines, delimiter | `BlockModel`, parts in `SectionsModel`, `CalloutsModel` | `[indent=]`, the attribute lists of block macros, the content of table cells, locations, the body of AttrDef lines; footnotes and anchors are not collected in `BlockModel` |
| parser: time | `TimeModel` | what the crate `jiff` accepts as a date or a time |
| dr-html-wasm | `JsonModel` (the text returned) | |
| web-playground | | all |
| ast | the data types of the models; col_widths, table, toc, node as cited | multi_source_location |
| a whole conversion (parser.rs, eval.rs put together) | `WholeModel`: embedded documents of paragraphs with text and plain spans, no document attributes; `ArticleModel`: titles and sections as well; `OutlineModel`: bulleted and numbered lists, example, sidebar, quote and open blocks, listings and literal blocks as well; `ManualModel`: all of these in one document; `SemanticModel`: the same to semantic HTML | all other blocks and inline nodes are models of their own that are not joined |
| eval | `EvalModel` | the strings handed to the backend are labels |
| backend: htmlbuf, open_tag, util, table, video, list, html/backend | `EscapeModel`, `OpenTagModel`, `SectNumModel`, `FootnotesModel`, `HtmlModel` | time; how a link to another document is spelt (see `XrefModel`) and the text of missing references are arbitrary functions in `HtmlModel` |
| dr-html-backend | `HtmlModel` (attributes of nodes are arbitrary functions of their labels) | |
| backend-html5s | `Html5sModel` (attributes of nodes are arbitrary functions of their labels) | css |
| cli: resolver, css, args | `IncludeModel`, `CliArgsModel` | main |

## Findings

Where the code does not have a property, a theorem named `..._refuted` (or `..._panics`, `..._crash...`) holds the witness, and the strongest version found true stands next to it. The note of each claim in MANIFEST.json names them. The ones most likely to matter to a user:

* C08/C46: a URL spelt with one slash is requested although `allow-uri-read` is off.
* C05: a document changes its type although the job fixed it.
* C09: `depth=` of an include leaks to later siblings.
* C16: the end of a file that ends in an include hides what follows in the outermost document.
* C22/C24: some heading sequences crash the parser with deep tables of contents; level 7 and large offsets crash.
* C27: an empty table without columns never ends.
* C35: a section title with two references to itself makes evaluation run forever.
* C42: a footnote within a footnote panics, or takes everything written before it.
* C48: a book's last chapter or a part after chapters is dropped.
* C50: in a listing `i++; j++;` loses plus signs, backslashes are dropped, `<<b>>` and `[[i]]` become references and anchors, entities are shown as the characters they stand for.
* C51: `+++<<a>>+++` is a cross reference; a passthrough directly after another one loses a plus sign; `pass:[]` panics.
* C54: a footnote in the title of a block moves everything written so far into the footnote; a description list inside a horizontal one, a horizontal item with two terms, a cited verse without attribution, a table of contents after the preamble of a document without title, and an AsciiDoc cell within an AsciiDoc cell give HTML whose tags do not match; a quotation mark in the target of a link ends the attribute.
* C55: a book that contains `*bold*[[x]]` at the end of a line of its preface is parsed for ever (unbounded recursion of parse_book).
* C56: a paragraph of `{empty}` ends the document silently; so does a Markdown quote with two headings under attribute lists (release build), or a heading with attributes inside a delimited block; an invalid anchor between a title and an attribute list before a heading ends the document with an error about the anchor only.
* C57: a heading after a term and a blank line becomes the description of the term, with the rest of its section inside the list.
* C60: a line of white space behind the first group of lines of a listing is lost (`----`, `one`, a blank, `two`, `----` gives two lines), while the same line further down is kept.
* C61: `:a:` at the very end of a source is not an entry; an entry whose line ends in a blank and a backslash at the end of the source panics; in a source with carriage returns a value is never continued (the code looks at the byte behind the one it means), the lines behind it become text.
* C62: `v1` alone sets nothing; `Mp3s` is swallowed as a revision line and sets nothing; `v1.0, 2020:` and a version followed by a blank are not revision lines.
* C63: `* item` directly under `= Title` is lost, with all the lines up to the next blank line; so is text under `[role]` and `:a: b`; after a leading comment block that contains a blank line, everything up to the next blank line is lost, even the title; `/////` is text.
* C64: in html5s a list of callouts that does not directly follow an untitled listing cuts six characters off whatever was written before it; a title above a thematic break in the preamble is taken for the table of contents and the preamble is closed before it is opened; a titled verse ends in `</section>` although it began with `<div>`; the heading of a part without id has a stray quotation mark; `loading=lazy` on an interactive SVG image takes the last character off `</object>`; a literal or emphasised cell in a header row has end tags without start tags. The title of a list of callouts is never written, the caption of an admonition with its own caption is written twice, and the table of contents has the role `doc-toc2`: these do not touch nesting and have no theorem.
* C65: the same id referred to in two files is checked for the last reference only; `xref:v1.0[]` is found as an anchor and written as a link to a file; `xref:b.adoc#x[]` and even `xref:n#x[]` are accepted for `sub/b.adoc` and `main.adoc` and lead to files that do not exist; `<<main.adoc>>` and `<<__self__>>` are accepted and lead to ids that do not exist; links to other documents and web pages are reported as invalid; a section takes over the id of an anchor without a report; a table of contents in the place of the preamble of a book of parts without preamble is not reported and not written; the text in `<<x,text>>` is dropped when the anchor has a reftext.
* C66: the title above a thematic or page break, a discrete heading, a section, a callout list or a passthrough block is not shown, nor that of a paragraph that is a description or of an image with a title attribute; in release builds it is written later in front of the next title, in debug builds the next title panics. A second footnote with the same id drops its text; footnotes in the footer information are never listed.
* C69: a reply with a backslash or a control character is not JSON; several diagnostics are read as one.
* C70: a book with text before its first chapter loses its last chapter.
* C71: a blank line does not separate two lists; a list of the other kind after it is nested in the first.
* C72: a block directly in a block with the same delimiter ends the outer one; the lengths of delimiters are compared modulo 256.
* C73: two different listings look the same if one has a character reference (`&amp;`); cross references are made in listings.
* C76: in a list item an anchor on its own line drops itself and all lines below it up to the next blank line, with no diagnostic; in a book the lines directly below the title of a part are dropped in the same way, and so are those below a block macro of a plugin.
* C78: a fence of backticks with a blank behind it, `[discrete]` above `## A`, an empty quotation (`""` above `-- me`), an attribution that begins with a comma, and an invalid anchor between a title and attributes above a heading make the parser panic.
* C79: a comment between the title and the first section gives an empty preamble; a comment that is all there is below a term gives an empty description; formatting characters in a comment line count as the end of formatted text that begins above it, and a plus sign in it ends a passthrough, so that the rest of the comment is shown.
* C80: a later attribute line does not replace what an earlier one says (in Asciidoctor it does); a value with markup is passed over for a later line's; a listing with `[source%linenums]` and no language is given the language `source`, as it is with an id or a role in place of the option; an empty role (`[.#id]`) is there when asked for but not among the roles.
* C81: with `data-uri` set, admonitions in delimited blocks are never embedded (only paragraphs are registered), nor are any with `icons=image`; `icon=my.png` is looked for as `my.png.png`.
* C82: of nested `svg` elements only what begins with the last is shown; with a size given, all elements in the image lose their width, height and style; width and height are written without a space between them.
* C83: a parameter may be given twice (Wistia `loop` with `reset`, YouTube `loop` with `playlist`, YouTube list after a slash with `list`); the values are not escaped, so a quote in one ends the `src` attribute.
* C84: the address of the picture is escaped only without `imagesdir`; the address of the file never is.
