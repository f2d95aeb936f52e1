{"id": "C01", "title": "Span coordinates are exact", "statement": "Every span handed to a user (block, title, attribute or warning source) satisfies: data() is the document text found at byte_offset(), line() is 1 plus the number of newlines before it, col() is 1 plus the number of characters (not bytes) between the last newline and it. This holds after any chain of the slicing, line-reading, discarding and trimming operations that the parser applies.", "quantifier": "all documents (any list of Unicode scalar values), all spans already satisfying it, all finite chains of span operations", "why_tests_cant": "Tests check hand-written coordinates of a few ASCII documents; the coordinate arithmetic is relative (each slice updates the previous coordinates), so an error only shows after particular chains of operations on multi-byte text.", "anchors": ["parser/src/span/slice.rs: slice, slice_from, slice_to, slice_internal", "parser/src/span/mod.rs: Span", "parser/src/span/line.rs", "parser/src/span/discard.rs", "parser/src/span/trim.rs", "parser/src/span/take.rs"]}
{"id": "C02", "title": "Reading a piece of text partitions it", "statement": "When the parser reads a line, a prefix, an identifier or a run of white space, the piece read followed by the removed terminator (nothing, LF, or trailing blanks and CR then LF) followed by the remainder is exactly the original text: nothing is lost, duplicated or reordered.", "quantifier": "all spans, all split predicates", "why_tests_cant": "A unit test fixes one input; losing a character for one particular terminator combination (CR, trailing blanks, end of input) needs the general statement.", "anchors": ["parser/src/span/split.rs: into_parse_result, split_at_match_non_empty", "parser/src/span/line.rs: take_line, take_normalized_line, take_non_empty_line, take_empty_line", "parser/src/span/take.rs", "parser/src/span/primitives.rs"]}
{"id": "C03", "title": "Span operations never cut a character", "statement": "No span operation of the parser asks for a byte index that falls inside a multi-byte character or beyond the end, so none of them can panic, whatever the text.", "quantifier": "all texts of Unicode scalar values and all span operations", "why_tests_cant": "The panic only occurs for specific non-ASCII text; release 0.14.3 fixed one such panic, which the test-suite had not found.", "anchors": ["parser/src/span/slice.rs: slice_internal", "parser/src/span/split.rs", "parser/src/span/line.rs", "parser/src/span/primitives.rs", "parser/src/span/matched_item.rs"]}
{"id": "C04", "title": "Line reading yields exactly the lines of the document", "statement": "Reading lines repeatedly until the input is empty yields the document split at LF: the i-th line read has the i-th piece as data (without the LF, and for the normalised reader without trailing spaces and one CR), and the number of lines is the number of pieces, a final empty piece excepted.", "quantifier": "all documents", "why_tests_cant": "Needs induction over the number of lines.", "anchors": ["parser/src/span/line.rs: take_line, take_normalized_line, take_non_empty_line"]}
{"id": "C05", "title": "Skipping blank lines", "statement": "Skipping blank lines removes exactly the maximal run of leading lines made of spaces and tabs only: what is skipped is blank, what remains is empty or begins with a line containing another character, and skipping twice is the same as skipping once.", "quantifier": "all spans", "why_tests_cant": "Maximality and idempotence are statements about every input.", "anchors": ["parser/src/span/line.rs: take_empty_line, discard_empty_lines"]}
{"id": "C06", "title": "Line continuation", "statement": "A logical line built from physical lines ending in a backslash extends exactly to the first physical line that does not end in a backslash (or the end of input); its text is a contiguous part of the source, and reading it always makes progress and terminates.", "quantifier": "all spans", "why_tests_cant": "Termination and maximality concern every input.", "anchors": ["parser/src/span/line.rs: take_line_with_continuation, one_line_with_continuation", "parser/src/document/attribute.rs: Attribute::parse"]}
{"id": "C07", "title": "Quoted attribute values", "statement": "A quoted attribute value is recognised iff a closing quote of the same kind that is not preceded by a backslash exists; the value is the text strictly between the two quotes, and no unescaped quote of that kind occurs in it.", "quantifier": "all spans", "why_tests_cant": "Tests use a handful of quoted strings.", "anchors": ["parser/src/span/primitives.rs: take_quoted_string"]}
{"id": "C08", "title": "Identifier and attribute-name recognition", "statement": "An identifier or attribute name read by the parser is the longest prefix of allowed characters with an allowed first character; it is never empty; if the first character is not allowed nothing is read.", "quantifier": "all spans", "why_tests_cant": "Longest-match is universally quantified.", "anchors": ["parser/src/span/primitives.rs: take_ident, take_attr_name, take_user_attr_name, is_xml_name"]}
{"id": "C09", "title": "The span of a block ends where its text ends", "statement": "Given a block start and the position where parsing resumed, the reported block text is the text between the two positions (empty when the resume position is not after the start), never extending beyond either.", "quantifier": "all pairs of spans of one document", "why_tests_cant": "Depends on the arithmetic relation between two arbitrary spans.", "anchors": ["parser/src/span/primitives.rs: trim_remainder"]}
{"id": "C10", "title": "String representations are interchangeable", "statement": "Two CowStr values compare equal (and hash equally) iff they have the same characters, whichever of the boxed, borrowed or inlined representations each of them uses; cloning or converting changes only the representation, never the text.", "quantifier": "all texts and all representations", "why_tests_cant": "The inlining threshold creates a combination of representations and lengths that tests sample.", "anchors": ["parser/src/strings.rs: CowStr, Clone, PartialEq, Hash, From"]}
{"id": "C11", "title": "Inline strings", "statement": "Building an inline string from a text succeeds iff its UTF-8 encoding has at most 22 bytes, and reading the inline string back gives exactly the text.", "quantifier": "all texts", "why_tests_cant": "Boundary is on encoded bytes, not characters.", "anchors": ["parser/src/strings.rs: InlineStr, MAX_INLINE_STR_LEN, TryFrom<&str>, Deref"]}
{"id": "C12", "title": "Catalog ids are unique", "statement": "After any sequence of registrations the catalog holds each id at most once; registering an id succeeds iff the id was not registered before, and a failed registration changes nothing.", "quantifier": "all finite sequences of registrations", "why_tests_cant": "A statement about all operation histories.", "anchors": ["parser/src/document/catalog.rs: register_ref, contains_id, len"]}
{"id": "C13", "title": "Catalog lookups return the first registration", "statement": "After any sequence of registrations, looking an id up returns the data given at its first registration, resolving a reference text returns the id of the first successful registration that carried that text, and the size is the number of successful registrations.", "quantifier": "all finite sequences of registrations", "why_tests_cant": "A statement about all operation histories.", "anchors": ["parser/src/document/catalog.rs: register_ref, get_ref, resolve_id, len"]}
{"id": "C14", "title": "Generated ids are fresh and minimal", "statement": "Generating a unique id from a base always terminates, returns an id that was not in the catalog and is in it afterwards; the id is the base itself when free, otherwise base-n for the smallest n >= 2 such that it is free.", "quantifier": "all catalogs and bases", "why_tests_cant": "Termination needs a pigeonhole argument over arbitrary catalogs.", "anchors": ["parser/src/document/catalog.rs: generate_and_register_unique_id"]}
{"id": "C15", "title": "API-locked attributes cannot be changed by attribute entries", "statement": "If the host application sets an attribute so that it may only be changed by the API, then no sequence of attribute entries in the header or body changes its value, and each such attempt adds exactly one warning naming it.", "quantifier": "all finite sequences of header and body attribute entries over all names and values", "why_tests_cant": "A statement about all histories.", "anchors": ["parser/src/parser/parser.rs: with_intrinsic_attribute, with_intrinsic_attribute_bool, set_attribute_from_header, set_attribute_from_body", "parser/src/parser/attribute_value.rs: ModificationContext"]}
{"id": "C16", "title": "API-locked attributes cannot be changed by the header's implicit attributes", "statement": "If the host application locks an attribute, the values that the document header defines implicitly (doctitle from the title, author* from the author line, rev* from the revision line) do not change it either.", "quantifier": "all documents and all locked attributes", "why_tests_cant": "No test combines a locked attribute with implicit header attributes.", "anchors": ["parser/src/parser/parser.rs: set_attribute_by_value_from_header", "parser/src/document/header.rs", "parser/src/document/author_line.rs", "parser/src/document/revision_line.rs"]}
{"id": "C17", "title": "Last permitted write wins", "statement": "After any sequence of attribute entries the value of an attribute is that of the last entry naming it that its modification context permitted at that point (or its initial value when there is none); other attributes are unaffected.", "quantifier": "all finite sequences of header and body attribute entries", "why_tests_cant": "A statement about all histories.", "anchors": ["parser/src/parser/parser.rs: set_attribute_from_header, set_attribute_from_body, attribute_value"]}
{"id": "C18", "title": "Header-only attributes are frozen in the body", "statement": "An attribute whose context allows changes by the API or header only is never changed by an attribute entry in the body.", "quantifier": "all finite sequences of body attribute entries", "why_tests_cant": "A statement about all histories.", "anchors": ["parser/src/parser/parser.rs: set_attribute_from_body"]}
{"id": "C19", "title": "Attribute names are case-insensitive", "statement": "Setting an attribute under one capitalisation and reading it under another gives the value that was set.", "quantifier": "all names, values and capitalisations", "why_tests_cant": "Tests use matching capitalisation.", "anchors": ["parser/src/parser/parser.rs: attribute_value, has_attribute, is_attribute_set, with_intrinsic_attribute, remap_attr_name"]}
{"id": "C20", "title": "Section numbers are consecutive", "statement": "The numbers assigned to the numbered headings of a document form the standard outline sequence: a heading of level n gets a number with n components; it equals the previous number truncated to n components with the last component incremented, or extended with 1s when the heading is deeper; the sequence is strictly increasing in lexicographic order.", "quantifier": "all finite sequences of heading levels >= 1", "why_tests_cant": "A statement about all heading sequences.", "anchors": ["parser/src/blocks/section.rs: SectionNumber::assign_next_number", "parser/src/parser/parser.rs: assign_section_number"]}
{"id": "C21", "title": "Parsing twice gives the same numbers", "statement": "Parsing the same document twice with the same parser assigns the same section numbers (including appendix letters) both times.", "quantifier": "all documents and parser states reachable by earlier parses", "why_tests_cant": "Tests build a fresh parser every time.", "anchors": ["parser/src/parser/parser.rs: Parser::parse, last_appendix_section_number"]}
{"id": "C22", "title": "Shape of generated section ids", "statement": "The id generated for a section title starts with the idprefix, contains no character that the id rules exclude, no doubled separator in the title part, and does not end in a separator.", "quantifier": "all titles and all idprefix / idseparator settings", "why_tests_cant": "Tests cover a few titles.", "anchors": ["parser/src/blocks/section.rs: generate_section_id"]}
{"id": "C23", "title": "Source map lookup", "statement": "For entries added in increasing line order, looking up an output line returns the file of the last entry at or before that line and its source line advanced by the distance; lines before the first entry map to themselves with no file.", "quantifier": "all increasing sequences of entries and all lines", "why_tests_cant": "Binary search correctness for all lengths.", "anchors": ["parser/src/parser/source_map.rs: append, original_file_and_line"]}
{"id": "C24", "title": "Preprocessing is the identity without directives", "statement": "A document with no include directive and no conditional at the start of a line, parsed without a primary file name, is handed to the parser unchanged.", "quantifier": "all documents", "why_tests_cant": "Quantifies over all documents.", "anchors": ["parser/src/parser/preprocessor.rs: preprocess"]}
{"id": "C25", "title": "Include expansion terminates", "statement": "Expanding include directives terminates for every include handler.", "quantifier": "all documents and include handlers", "why_tests_cant": "Tests use finite include trees.", "anchors": ["parser/src/parser/preprocessor.rs: process_adoc_include"]}
{"id": "C26", "title": "The source map tells the truth about every output line", "statement": "For every line of the preprocessed text that was copied from some file, the source map returns that file and its line number in it.", "quantifier": "all documents and include handlers", "why_tests_cant": "Tests check a few lines of one include tree.", "anchors": ["parser/src/parser/preprocessor.rs: process_adoc_include", "parser/src/parser/source_map.rs"]}
{"id": "C27", "title": "Web paths are normalised", "statement": "A resolved web path contains no empty or '.' segment, contains '..' only as leading segments and never when the path is absolute, contains no raw space and no backslash.", "quantifier": "all targets and start directories", "why_tests_cant": "Normalisation over arbitrary segment lists.", "anchors": ["parser/src/parser/path_resolver.rs: web_path, partition_path, join_path, posixify, extract_uri_prefix"]}
{"id": "C28", "title": "Attribute list lookups", "statement": "Looking up the n-th positional attribute returns the n-th attribute without a name (1-based, nothing for 0), looking up by name returns the first attribute carrying it, and the combined lookup prefers the name.", "quantifier": "all attribute lists", "why_tests_cant": "Quantifies over lists.", "anchors": ["parser/src/attributes/attrlist.rs: named_attribute, nth_attribute, named_or_positional_attribute"]}
{"id": "C29", "title": "Attribute list parsing is total", "statement": "Parsing an attribute list terminates and never panics, for every text between the brackets; every attribute value reported is text from the (attribute-substituted) source.", "quantifier": "all texts", "why_tests_cant": "Loop over indices with several exits.", "anchors": ["parser/src/attributes/attrlist.rs: Attrlist::parse", "parser/src/attributes/element_attribute.rs: ElementAttribute::parse"]}
{"id": "C30", "title": "Shorthand round trip", "statement": "Writing a style, an id, roles and options in shorthand notation and parsing it gives back exactly these items, in order, when none of them contains a shorthand delimiter.", "quantifier": "all styles, ids, role lists and option lists free of '#', '.', '%'", "why_tests_cant": "Quantifies over lists of roles and options.", "anchors": ["parser/src/attributes/element_attribute.rs: parse_shorthand_items, block_style, id, roles, options"]}
{"id": "C31", "title": "Which lines are block delimiters", "statement": "A line opens a raw delimited block iff it is four or more repetitions of one of '/', '-', '.', '+'; a compound delimited block iff it is '--' or four or more repetitions of one of '=', '*', '_'. No line is both.", "quantifier": "all lines", "why_tests_cant": "Quantifies over all lines and lengths.", "anchors": ["parser/src/blocks/raw_delimited.rs: is_valid_delimiter", "parser/src/blocks/compound_delimited.rs: is_valid_delimiter"]}
{"id": "C32", "title": "Content of a delimited block", "statement": "The content of a delimited block is exactly the text between the opening line and the first later line equal to it (after dropping trailing blanks); when there is no such line a warning is given and the content runs to the end of the enclosing text.", "quantifier": "all texts", "why_tests_cant": "Quantifies over all texts; nested delimiters of other kinds or lengths.", "anchors": ["parser/src/blocks/raw_delimited.rs: RawDelimitedBlock::parse", "parser/src/blocks/compound_delimited.rs: CompoundDelimitedBlock::parse"]}
{"id": "C33", "title": "Parsing terminates on every document", "statement": "Parser::parse returns for every input string (the documentation says every UTF-8 string is a valid document).", "quantifier": "all documents", "why_tests_cant": "Tests cannot show termination on all inputs.", "anchors": ["parser/src/blocks/parse_utils.rs: parse_blocks_until", "parser/src/blocks/block.rs: Block::parse", "parser/src/parser/parser.rs: Parser::parse"]}
{"id": "C34", "title": "Parsing makes progress", "statement": "Whenever a block is recognised, the text left to parse is a strictly shorter suffix of the text it started from, so the number of blocks is bounded by the length of the document.", "quantifier": "all source texts and parser states", "why_tests_cant": "Progress measure for all inputs.", "anchors": ["parser/src/blocks/block.rs: Block::parse", "parser/src/blocks/parse_utils.rs: parse_blocks_until"]}
{"id": "C35", "title": "Heading-level arithmetic never overflows", "statement": "Classifying a line while looking for the end of a section never performs an unsigned subtraction below zero or an addition above the maximum, whatever the line.", "quantifier": "all lines and section levels", "why_tests_cant": "Only particular lines trigger it (indented text inside a section).", "anchors": ["parser/src/blocks/section.rs: parse_title_line, peer_or_ancestor_section"]}
{"id": "C36", "title": "Block order and nesting", "statement": "The spans of sibling blocks appear in document order and do not overlap, and the spans of nested blocks lie inside the span of their parent.", "quantifier": "all documents", "why_tests_cant": "Induction over the block tree.", "anchors": ["parser/src/blocks/parse_utils.rs: parse_blocks_until", "parser/src/blocks/section.rs", "parser/src/blocks/compound_delimited.rs"]}
{"id": "C37", "title": "All three media block macros are recognised", "statement": "A line of the form image::target[], video::target[] or audio::target[] is parsed as a media block of the corresponding type.", "quantifier": "all non-empty targets", "why_tests_cant": "The audio case is not covered by a Block-level test.", "anchors": ["parser/src/blocks/block.rs: Block::parse", "parser/src/blocks/media.rs: MediaBlock::parse"]}
{"id": "C38", "title": "Special-character escaping is safe and reversible", "statement": "With the HTML renderer, after the special-character step the text has no '<' or '>', every '&' starts one of &lt; &gt; &amp;, and decoding these three entities gives back the original text.", "quantifier": "all texts", "why_tests_cant": "Injectivity and safety over all strings.", "anchors": ["parser/src/content/substitution_step.rs: apply_special_characters", "parser/src/parser/inline_substitution_renderer.rs: render_special_character"]}
{"id": "C39", "title": "Attribute references", "statement": "The attribute-reference step replaces exactly the well-formed, unescaped references {name} to existing attributes; text without such references is unchanged, references to unknown attributes stay verbatim, replaced values are not scanned again.", "quantifier": "all texts and attribute tables", "why_tests_cant": "Quantifies over all texts.", "anchors": ["parser/src/content/substitution_step.rs: apply_attributes, AttributeReplacer"]}
{"id": "C40", "title": "Custom substitution lists", "statement": "A custom substitution list is understood iff each item is a known name; plain names are applied in the order written, '+x' appends, 'x+' prepends, '-x' removes every occurrence of x from the defaults; no list can select a substitution that the library has not implemented.", "quantifier": "all strings", "why_tests_cant": "Quantifies over all lists.", "anchors": ["parser/src/content/substitution_group.rs: from_custom_string, steps", "parser/src/content/substitution_step.rs: SubstitutionStep::apply"]}
{"id": "C41", "title": "Verbatim and pass-through groups", "statement": "Under the verbatim group the rendered text is the escaped text and nothing else is interpreted; under the pass and none groups the rendered text is the source text.", "quantifier": "all texts and attribute tables", "why_tests_cant": "Quantifies over all texts.", "anchors": ["parser/src/content/substitution_group.rs: apply, steps"]}
{"id": "C42", "title": "Formatting replacement with look-ahead keeps the surrounding text", "statement": "Replacing formatting marks leaves all text outside the replaced marks in place, in order, once, and never panics, also when a candidate match is rejected by its look-ahead condition.", "quantifier": "all texts", "why_tests_cant": "The retry path is tested with a single rejected match at the start.", "anchors": ["parser/src/internal/regex.rs: replace_with_lookahead", "parser/src/content/substitution_step.rs: QuoteReplacer"]}
{"id": "C43", "title": "Inline passthroughs are restored", "statement": "Every inline passthrough extracted before the other substitutions is put back in its place exactly once, restoration terminates, and text that merely looks like an internal placeholder is not touched.", "quantifier": "all texts", "why_tests_cant": "The placeholder characters can occur in the input.", "anchors": ["parser/src/content/passthroughs.rs: extract_from, restore_to, PassthroughRestoreReplacer"]}
{"id": "C44", "title": "Links that open a new window are isolated", "statement": "Every rendered link with target=_blank (or the noopener option with a window) has a rel attribute whose value contains the token noopener, and nofollow too when that option is given.", "quantifier": "all attribute lists and windows", "why_tests_cant": "The combination of both options is not tested.", "anchors": ["parser/src/parser/inline_substitution_renderer.rs: link_constraint_attrs"]}
{"id": "C45", "title": "Rendered HTML attributes cannot be broken out of", "statement": "In a rendered image the values written between double quotes (alt, title, width, height, src) contain no raw double quote.", "quantifier": "all attribute lists", "why_tests_cant": "Quantifies over all values.", "anchors": ["parser/src/parser/inline_substitution_renderer.rs: render_image, encode_attribute_value"]}
{"id": "C46", "title": "URI component encoding is reversible", "statement": "Encoding a mail subject or body produces only unreserved ASCII characters and %XX triplets, and percent-decoding gives the UTF-8 bytes of the original.", "quantifier": "all texts", "why_tests_cant": "Round trip over all Unicode texts.", "anchors": ["parser/src/content/macros.rs: encode_uri_component, CGI_ESCAPE_SET"]}
{"id": "C47", "title": "Inline macros never panic", "statement": "Substituting inline image, icon, link, mailto and URL macros never panics, whatever the text.", "quantifier": "all texts", "why_tests_cant": "The panics need particular text shapes.", "anchors": ["parser/src/content/macros.rs: InlineImageMacroReplacer, InlineLinkReplacer, InlineLinkMacroReplacer"]}
{"id": "C48", "title": "Hard line breaks", "statement": "With the hardbreaks option every line of a paragraph except the last ends in a line break and the number of lines is unchanged; without it, in a text of more than one line, exactly the lines ending in ' +' do.", "quantifier": "all texts and options", "why_tests_cant": "Quantifies over all texts.", "anchors": ["parser/src/content/substitution_step.rs: apply_post_replacements, HARD_LINE_BREAK"]}
{"id": "C49", "title": "A block's id is the id in the catalog", "statement": "The id reported by a section is the id under which the section is registered in the document catalog.", "quantifier": "all sections with any combination of anchor and attribute-list id", "why_tests_cant": "Tests give one kind of id at a time.", "anchors": ["parser/src/blocks/section.rs: SectionBlock::parse", "parser/src/blocks/is_block.rs: IsBlock::id"]}
{"id": "C50", "title": "Unterminated raw blocks are rendered like terminated ones", "statement": "A raw delimited block whose closing delimiter is missing has its content substituted by the same group as when the delimiter is present.", "quantifier": "all contents", "why_tests_cant": "The unterminated test uses content on which substitutions have no effect.", "anchors": ["parser/src/blocks/raw_delimited.rs: RawDelimitedBlock::parse"]}
{"id": "C51", "title": "Attribute values", "statement": "The value of an attribute entry is Unset for :!name: and :name!:, Set when nothing follows, otherwise the text after the colon with continuation lines joined by one space (or a line break after ' + \\').", "quantifier": "all attribute entries", "why_tests_cant": "Quantifies over all numbers of continuation lines.", "anchors": ["parser/src/document/attribute.rs: Attribute::parse, InterpretedValue::from_raw_value"]}
{"id": "C52", "title": "Paragraph text", "statement": "The text of a paragraph is its lines up to the first blank line or block boundary, with comment lines and the white space at the end of each line removed, and the indentation of the first line removed where present, joined by LF, nothing else altered.", "quantifier": "all texts", "why_tests_cant": "Quantifies over all numbers of lines.", "anchors": ["parser/src/blocks/simple.rs: parse_lines"]}
{"id": "C53", "title": "Revision line", "statement": "A revision line is decomposed into number, date and remark such that the non-blank parts appear in the source in that order, separated by the comma and colon that delimit them.", "quantifier": "all revision lines", "why_tests_cant": "Quantifies over all lines.", "anchors": ["parser/src/document/revision_line.rs: RevisionLine::parse"]}
{"id": "C54", "title": "A header write does not unlock the body", "statement": "An attribute that may be changed by the API or the header only cannot be changed in the body, even after an attribute entry in the header has changed it.", "quantifier": "all attributes, all sequences of header entries followed by body entries", "why_tests_cant": "Tests write once per attribute; the loss of the restriction shows only on the second write.", "anchors": ["parser/src/parser/parser.rs: set_attribute_from_header, set_attribute_from_body"]}
{"id": "C55", "title": "Section numbers are displayed unambiguously", "statement": "Displaying a section number never fails and two different section numbers of the same kind are displayed differently.", "quantifier": "all numbers assigned to any sequence of heading levels", "why_tests_cant": "Quantifies over pairs of numbers.", "anchors": ["parser/src/blocks/section.rs: SectionNumber, Display for SectionNumber"]}
{"id": "C56", "title": "Appendices are numbered with letters", "statement": "The first component of an appendix number is displayed as an upper-case letter.", "quantifier": "all appendix numbers", "why_tests_cant": "Needs more than 26 appendices.", "anchors": ["parser/src/blocks/section.rs: Display for SectionNumber"]}
{"id": "C57", "title": "Character replacements", "statement": "The character-replacement step never fails and its result is that of thirteen left-to-right rewriting passes made in a fixed order, each with an explicit rule (symbol, escaped symbol, em dash, apostrophe, arrow, entity); a text with none of the trigger sequences is unchanged.", "quantifier": "all texts", "why_tests_cant": "Quantifies over all texts, including texts where the output of a pass feeds the next.", "anchors": ["parser/src/content/substitution_step.rs: apply_character_replacements, CharacterReplacer, REPLACEMENTS, REPLACEABLE_TEXT_SNIFF"]}
{"id": "C58", "title": "Em dash only at the documented places", "statement": "A double hyphen becomes an em dash only if it is between two word characters, between a word character and a line boundary, or flanked by spaces.", "quantifier": "all texts", "why_tests_cant": "The tests only use hyphens at places where they must be replaced.", "anchors": ["parser/src/content/substitution_step.rs: REPLACEMENTS", "docs/modules/subs/partials/subs-symbol-repl.adoc"]}
{"id": "C59", "title": "Attribute lists are read back", "statement": "Writing a list of entries as the documentation describes (unquoted values, quoted values with escaped quotes, names, commas with blanks after them) and parsing the result gives back the names and values in order; a named attribute whose value is None is left out and no warning is given beyond the one for an empty shorthand item.", "quantifier": "all lists of entries, all values (quoted values may contain commas, equals signs, newlines and quotes)", "why_tests_cant": "Quantifies over lists of arbitrary values.", "anchors": ["parser/src/attributes/attrlist.rs: Attrlist::parse", "parser/src/attributes/element_attribute.rs: ElementAttribute::parse", "docs/modules/attributes/pages/positional-and-named-attributes.adoc"]}
{"id": "C60", "title": "Positions of positional attributes", "statement": "The position of a positional attribute is the 1-based index of its entry once all named attributes have been removed.", "quantifier": "all attribute lists", "why_tests_cant": "No test has an empty entry between two others.", "anchors": ["parser/src/attributes/attrlist.rs: Attrlist::parse, Attrlist::nth_attribute", "docs/modules/attributes/pages/positional-and-named-attributes.adoc"]}
{"id": "C61", "title": "Blanks around unquoted values", "statement": "An unquoted value has no space or tab at its boundaries.", "quantifier": "all attribute lists", "why_tests_cant": "The tests use spaces only.", "anchors": ["parser/src/attributes/element_attribute.rs: ElementAttribute::parse", "docs/modules/attributes/pages/positional-and-named-attributes.adoc"]}
{"id": "C62", "title": "Unterminated quotes", "statement": "A value that begins with a quote that is never closed is reported as written: no escape is dropped and no substitution is applied.", "quantifier": "all attribute lists", "why_tests_cant": "The tests for a missing quote have neither an escape nor a special character in the value.", "anchors": ["parser/src/attributes/element_attribute.rs: ElementAttribute::parse", "docs/modules/attributes/pages/positional-and-named-attributes.adoc"]}
{"id": "C63", "title": "Shorthand items are not empty", "statement": "An id, role or option given in shorthand is never empty; shorthand items never end in white space.", "quantifier": "all first positional attributes", "why_tests_cant": "The check for empty items is made before trailing blanks are removed; no test puts a blank after a marker.", "anchors": ["parser/src/attributes/element_attribute.rs: parse_shorthand_items, ElementAttribute::roles"]}
{"id": "C64", "title": "Attribute values are offset from the colon", "statement": "The value of an attribute entry is separated from the closing colon by at least one space (attribute-entries.adoc).", "quantifier": "all attribute entries", "why_tests_cant": "All examples in the tests follow the documentation.", "anchors": ["parser/src/document/attribute.rs: Attribute::parse", "docs/modules/attributes/pages/attribute-entries.adoc"]}
{"id": "C65", "title": "Line continuation", "statement": "An attribute entry continues on the next line only if its line ends in a space and a backslash (wrap-values.adoc).", "quantifier": "all attribute entries", "why_tests_cant": "No test has a value that ends in a backslash with no space before it, such as a Windows path.", "anchors": ["parser/src/document/attribute.rs: Attribute::parse", "parser/src/span/line.rs: take_line_with_continuation", "docs/modules/attributes/pages/wrap-values.adoc"]}
{"id": "C66", "title": "Hard wraps", "statement": "A value wrapped with ' + \\' keeps the hard line break: the newline and its mark (wrap-values.adoc).", "quantifier": "all wrapped values", "why_tests_cant": "The tests fix the value with the mark dropped; no test renders it.", "anchors": ["parser/src/document/attribute.rs: InterpretedValue::from_raw_value", "docs/modules/attributes/pages/wrap-values.adoc"]}
{"id": "C67", "title": "Unresolved directives are mapped", "statement": "The line that replaces an unresolved include directive is mapped to the file and line of the directive.", "quantifier": "all documents and include handlers", "why_tests_cant": "The tests look at the text of the message, not at its entry in the source map.", "anchors": ["parser/src/parser/preprocessor.rs: process_adoc_include"]}
{"id": "C68", "title": "Repeated separators in section ids", "statement": "The id generated for a section contains no doubled separator: the prefix is prepended before repeated separators are condensed (auto-ids.adoc).", "quantifier": "all titles and all idprefix / idseparator settings", "why_tests_cant": "No test has a title that starts with a character that becomes a separator.", "anchors": ["parser/src/blocks/section.rs: generate_section_id", "docs/modules/sections/pages/auto-ids.adoc"]}
{"id": "C69", "title": "Markup does not get into section ids", "statement": "Character references and tags are removed from the title before the id is made: a title with one gives the same id as the title without it.", "quantifier": "all titles", "why_tests_cant": "The tests have a blank or a letter before each tag or reference.", "anchors": ["parser/src/blocks/section.rs: generate_section_id", "docs/modules/sections/pages/auto-ids.adoc"]}
{"id": "C70", "title": "Include directives are carried out", "statement": "A line that is an include directive never reaches the output of the preprocessor: it is replaced by the text of the file or by a message.", "quantifier": "all documents and include handlers", "why_tests_cant": "The tests have attribute lists that are empty or several characters long.", "anchors": ["parser/src/parser/preprocessor.rs: INCLUDE_DIRECTIVE, process_adoc_include"]}
{"id": "C71", "title": "A plain mark becomes its element", "statement": "A formatting mark around plain text, in an otherwise plain text where the constrained or unconstrained form applies, is replaced by exactly its element; everything else stays as it is, and text without mark characters is not changed.", "quantifier": "all twelve marks, all plain texts before, inside and after", "why_tests_cant": "The tests have a handful of words per mark.", "anchors": ["parser/src/content/substitution_step.rs: QUOTE_SUBS, apply_quotes"]}
{"id": "C72", "title": "An author", "statement": "Author text of the documented form (one to three names of word characters, separated by spaces, and an optional address in angle brackets) gives exactly those names and that address, underscores shown as spaces; any other text is used whole as full and first name.", "quantifier": "all author texts without attribute references", "why_tests_cant": "The tests have a list of names; they do not show that no other text is taken apart.", "anchors": ["parser/src/document/author.rs: Author::parse, AUTHOR", "docs/modules/document/pages/author-line.adoc"]}
{"id": "C73", "title": "Author attributes", "statement": "An author line is cut at each semicolon that is followed by a space; the attributes author, firstname, middlename, lastname, authorinitials and email, numbered from the second author on, are set from the author of that number, and no other attribute changes.", "quantifier": "all author lines and all states of the parser", "why_tests_cant": "Quantifies over the number of authors and all other attributes.", "anchors": ["parser/src/document/author_line.rs: AuthorLine::parse", "docs/modules/document/pages/multiple-authors.adoc"]}
{"id": "C74", "title": "Lines of the header", "statement": "The header is the documented run of lines: comments and attribute entries in any place, a title, an author line and a revision line in this order; it ends at the first blank line after the title, or, with a warning, at a line that has no place in it.", "quantifier": "all documents", "why_tests_cant": "Quantifies over all sequences of lines.", "anchors": ["parser/src/document/header.rs: Header::parse", "docs/modules/document/pages/header.adoc"]}
{"id": "C75", "title": "The header is always read", "statement": "Reading the header gives a result for every document.", "quantifier": "all documents", "why_tests_cant": "No test has passthroughs in a title that lead back to themselves.", "anchors": ["parser/src/document/header.rs: Header::parse", "parser/src/content/passthroughs.rs"]}
{"id": "C76", "title": "A version and a remark", "statement": "A revision line with a version and a remark separated by a colon gives both; the v before the version is optional (revision-line.adoc).", "quantifier": "all revision lines", "why_tests_cant": "The test written for this sentence of the documentation fixes the version as the date; one example says nothing about the other lines.", "anchors": ["parser/src/document/revision_line.rs: RevisionLine::parse", "docs/modules/document/pages/revision-line.adoc"]}
{"id": "C77", "title": "The first empty line ends the header", "statement": "The header has no empty line within: the first one after it has begun ends it (header.adoc).", "quantifier": "all documents", "why_tests_cant": "No test has an empty line between attribute entries and the title.", "anchors": ["parser/src/document/header.rs: Header::parse", "docs/modules/document/pages/header.adoc"]}
{"id": "C78", "title": "Underscores in author names are not displayed", "statement": "The underscore that joins the parts of a compound name does not appear in the author attributes, whether the name is given by the author line or by an author entry (compound-author-name.adoc).", "quantifier": "all names", "why_tests_cant": "The test for the author entry fixes a title with the underscore shown; no test states a rule.", "anchors": ["parser/src/document/header.rs: Header::parse", "parser/src/document/author.rs: replace_underscores_with_spaces", "docs/modules/document/pages/compound-author-name.adoc"]}
{"id": "C79", "title": "Header values are substituted", "statement": "The attributes that the header defines hold text to which the header substitutions have been applied, so that a reference to them inserts escaped text.", "quantifier": "all revision lines and attribute entries", "why_tests_cant": "The tests use values without special characters.", "anchors": ["parser/src/document/revision_line.rs: RevisionLine::parse", "parser/src/document/attribute.rs: InterpretedValue::from_raw_value"]}
{"id": "C80", "title": "Blank lines before the title", "statement": "Blank lines before the title do not matter.", "quantifier": "all documents", "why_tests_cant": "The tests use empty lines and lines of spaces.", "anchors": ["parser/src/document/header.rs: Header::parse", "parser/src/span/line.rs: take_normalized_line, take_empty_line"]}
{"id": "C81", "title": "Section numbers in document order", "statement": "On a walk through the document, a section has a number exactly when it is not a discrete heading, is not deeper than sectnumlevels, and sectnums is set by the entries before it; the number is the one after the last number of a section of the same type, so of two numbered sections of a type the later one has the greater number.", "quantifier": "all documents, parser states and inline substitutions", "why_tests_cant": "The tests number a few fixed outlines; none ranges over where entries stand or how sections are nested.", "anchors": ["parser/src/parser/parser.rs: assign_section_number", "parser/src/blocks/section.rs: SectionBlock::parse", "docs/modules/sections/pages/numbers.adoc"]}
{"id": "C82", "title": "Numbers of appendices and special sections", "statement": "The numbers of appendices do not depend on sectnums, and other special sections are not numbered unless sectnums is 'all' (special-section-numbers.adoc).", "quantifier": "all documents", "why_tests_cant": "No test has an appendix without sectnums or a numbered document with a preface.", "anchors": ["parser/src/blocks/section.rs: SectionBlock::parse", "docs/modules/sections/pages/special-section-numbers.adoc"]}
{"id": "C83", "title": "Section types", "statement": "A heading with the style discrete or float is a discrete heading with no blocks and no number; a section of level 1 is an appendix exactly if that is its style; a deeper section has the type of the section around it; and the parser is left outside of any appendix.", "quantifier": "all documents and inline substitutions", "why_tests_cant": "The type around a section is state kept in the parser that each section of level 1 sets and puts back; tests see fixed nestings only.", "anchors": ["parser/src/blocks/section.rs: SectionBlock::parse", "parser/src/parser/parser.rs: topmost_section_type"]}
{"id": "C84", "title": "The catalog holds what the blocks register", "statement": "After parsing, the ids in the catalog are exactly the ids of the blocks, the entry of an id is the one of the block that ends first, and if no warning about a duplicate is given then all ids differ.", "quantifier": "all documents and inline substitutions", "why_tests_cant": "It relates state filled by every kind of block at every depth with the tree that is returned.", "anchors": ["parser/src/blocks/block.rs: Block::register_block_id", "parser/src/blocks/section.rs: SectionBlock::parse", "parser/src/document/catalog.rs: Catalog::register_ref"]}
{"id": "C85", "title": "Texts for references", "statement": "The text for references to a block is the one given in its block anchor or in its reftext attribute, and its title only if there is none of these (custom-ids.adoc, xref-text-and-style.adoc).", "quantifier": "all blocks with ids", "why_tests_cant": "The tests that give such a text look at the block and not at the catalog.", "anchors": ["parser/src/blocks/block.rs: Block::register_block_id", "parser/src/blocks/section.rs: SectionBlock::parse", "docs/modules/sections/pages/custom-ids.adoc"]}
{"id": "C86", "title": "Attribute entries act on what follows", "statement": "An attribute set by an entry in the body changes only what comes after the entry (attribute-entries.adoc).", "quantifier": "all documents", "why_tests_cant": "The tests set attributes before their use.", "anchors": ["parser/src/blocks/section.rs: SectionBlock::parse", "docs/modules/attributes/pages/attribute-entries.adoc"]}
{"id": "C87", "title": "The preamble", "statement": "The blocks before the first section become a preamble exactly if there is a section and one of those blocks is not an attribute entry; all other blocks stay as they are. A discrete heading is not a section and does not end the preamble (preamble-and-lead.adoc, discrete-headings.adoc).", "quantifier": "all documents", "why_tests_cant": "The tests have one preamble each and none with a discrete heading in it.", "anchors": ["parser/src/document/document.rs: Document::parse", "parser/src/blocks/preamble.rs: Preamble::from_blocks", "docs/modules/blocks/pages/preamble-and-lead.adoc"]}
{"id": "C88", "title": "Block metadata", "statement": "The metadata of a block is exactly what the lines above it say: a title line, an anchor line, attribute lines in brackets, in any order; each span lies in the source; every warning about them is kept (blocks/pages/index.adoc, add-title.adoc).", "quantifier": "all source texts, places and parser states", "why_tests_cant": "Which lines count depends on which kinds were seen before; the tests try a few orders.", "anchors": ["parser/src/blocks/metadata.rs: BlockMetadata::parse", "docs/modules/blocks/pages/index.adoc", "docs/modules/blocks/pages/add-title.adoc"]}
{"id": "C89", "title": "The kind of a block", "statement": "The first line after the metadata decides what a block is: a delimited block, an image or video, a section with its level and title, a thematic or page break, else a paragraph; the forms exclude one another, and the style literal makes a paragraph of any of them.", "quantifier": "all source texts, places, parser states and parsers of inner blocks", "why_tests_cant": "Eight parsers are tried in a fixed order behind tests on single characters; tests cover each form alone.", "anchors": ["parser/src/blocks/block.rs: Block::parse", "parser/src/blocks/break.rs: Break::parse", "docs/modules/blocks/partials/thematic-breaks.adoc", "docs/modules/blocks/partials/page-breaks.adoc"]}
{"id": "C90", "title": "The style of a paragraph", "statement": "A paragraph has the declared style if that is normal, literal, listing or source; otherwise it is literal exactly if its first line is indented.", "quantifier": "all texts and attribute lists", "why_tests_cant": "The tests have one paragraph for each style.", "anchors": ["parser/src/blocks/simple.rs: parse_lines"]}
{"id": "C91", "title": "Attribute entries between blocks", "statement": "An attribute entry that stands alone between two blocks of the body sets the attribute (attribute-entries.adoc:59-70).", "quantifier": "all documents", "why_tests_cant": "The tests with entries in the body have paragraphs before them.", "anchors": ["parser/src/blocks/block.rs: Block::parse", "parser/src/blocks/raw_delimited.rs: RawDelimitedBlock::parse", "docs/modules/attributes/pages/attribute-entries.adoc"]}
{"id": "C92", "title": "The outline of a document", "statement": "A section holds what follows its title up to the next title of its level or of a level above: sections in a section are deeper, and a section is followed by one that is not deeper (titles-and-levels.adoc:5, discrete-headings.adoc).", "quantifier": "all documents with no tabs and no attribute references or single quotes within brackets", "why_tests_cant": "The end of a section is found by reading the metadata of each block twice, with two parsers; tests have outlines of two or three sections.", "anchors": ["parser/src/blocks/section.rs: SectionBlock::parse", "parser/src/blocks/section.rs: peer_or_ancestor_section", "docs/modules/sections/pages/titles-and-levels.adoc"]}
{"id": "C93", "title": "Where sections may be", "statement": "A section is a child of the document or of another section and of no other block; a title line inside a delimited block is text (titles-and-levels.adoc:7,16).", "quantifier": "all documents", "why_tests_cant": "The tests have no title lines inside delimited blocks.", "anchors": ["parser/src/blocks/block.rs: Block::parse", "parser/src/blocks/compound_delimited.rs: CompoundDelimitedBlock::parse", "docs/modules/sections/pages/titles-and-levels.adoc"]}
{"id": "C94", "title": "Section levels are not skipped", "statement": "A section that is more than one level deeper than the section it is in gives a warning with both levels, at its title line (titles-and-levels.adoc:6,41).", "quantifier": "all documents with no tabs and no attribute references or single quotes within brackets", "why_tests_cant": "The level compared with is state kept while the blocks of a section are parsed; the tests have one skipped level each.", "anchors": ["parser/src/blocks/section.rs: peer_or_ancestor_section", "parser/src/blocks/parse_utils.rs: parse_blocks_until", "docs/modules/sections/pages/titles-and-levels.adoc"]}
{"id": "C95", "title": "E-mail addresses", "statement": "An e-mail address (a name of letters, digits, underscores and the symbols . - + % &, a domain, and a suffix of two to five letters at the end of a word) becomes a link to it; a backslash in front goes away and prevents the link (autolinks.adoc, Email autolinks).", "quantifier": "all texts; for the whole macros step, all texts without colons and square brackets", "why_tests_cant": "Where an address begins and ends is the choice of a backtracking matcher; tests have one address each, in the middle of plain words.", "anchors": ["parser/src/content/macros.rs: INLINE_EMAIL", "parser/src/content/macros.rs: InlineEmailReplacer", "docs/modules/macros/pages/autolinks.adoc"]}
{"id": "C96", "title": "Macros leave each other's markup alone", "statement": "The macros step gives whole markup: in the output every tag is closed and no tag is inside another one.", "quantifier": "all texts without markup characters and double quotes", "why_tests_cant": "The steps for images, links and addresses each read the HTML written by the ones before; tests have one macro each.", "anchors": ["parser/src/content/macros.rs: apply_macros", "parser/src/content/macros.rs: InlineEmailReplacer"]}
{"id": "C97", "title": "Anchors in text", "statement": "An id between double square brackets, with or without a reference text after a comma, and the anchor macro become an element with that id; a backslash in front goes away and prevents it (attributes/pages/id.adoc).", "quantifier": "all texts; for the whole macros step, all texts without colons and at signs", "why_tests_cant": "Where an anchor begins and ends is the choice of a backtracking matcher with lazy and greedy parts; tests have one anchor each.", "anchors": ["parser/src/content/macros.rs: INLINE_ANCHOR", "parser/src/content/macros.rs: InlineAnchorReplacer", "docs/modules/attributes/pages/id.adoc"]}
{"id": "C98", "title": "Link and mailto macros", "statement": "The macros link and mailto become a link to their target. The text is what is between the brackets, or the first position if an attribute list is recognised; named attributes give id, role, title, window and options; a caret at the end opens a new window; mailto takes a subject and a body; a backslash in front prevents the macro (link-macro.adoc, link-macro-attribute-parsing.adoc, link-macro-ref.adoc, mailto-macro.adoc).", "quantifier": "all texts; for the whole macros step, all texts without the marks of the other macros", "why_tests_cant": "The text, the attributes, the window and the target interact in many ways; tests have each feature alone.", "anchors": ["parser/src/content/macros.rs: INLINE_LINK_MACRO", "parser/src/content/macros.rs: InlineLinkMacroReplacer", "docs/modules/macros/pages/link-macro.adoc", "docs/modules/macros/pages/link-macro-attribute-parsing.adoc", "docs/modules/macros/pages/link-macro-ref.adoc", "docs/modules/macros/pages/mailto-macro.adoc"]}
{"id": "C99", "title": "URLs in text", "statement": "A URL with a known scheme, at the beginning of a line or after a blank, a bracket or a quote mark, becomes a link to itself; trailing punctuation is not part of it; angle brackets around it go away; a text or attributes in square brackets after it are those of the link; a backslash in front of it goes away and prevents the link (autolinks.adoc, url-macro.adoc, link-macro-attribute-parsing.adoc).", "quantifier": "all texts; for the whole macros step, all texts without the marks of the other macros", "why_tests_cant": "Which of three alternatives matches, and how far, is the choice of a backtracking matcher; tests have one URL each.", "anchors": ["parser/src/content/macros.rs: INLINE_LINK", "parser/src/content/macros.rs: InlineLinkReplacer", "docs/modules/macros/pages/autolinks.adoc", "docs/modules/macros/pages/url-macro.adoc", "docs/modules/macros/pages/link-macro-attribute-parsing.adoc"]}
{"id": "C100", "title": "Images in text", "statement": "The image macro in text becomes an image. A relative target is in the directory of images, an absolute path or a URL stays; the alternative text is the one given, else the name in the target without its extension; width, height, title, id, role, float and link are those given; a backslash in front prevents the macro (images.adoc, images-directory.adoc, image-url.adoc, image-ref.adoc).", "quantifier": "all texts; for the whole macros step, all texts without the marks of the other macros", "why_tests_cant": "Where a macro begins and ends is the choice of a backtracking matcher; places depend on path resolution and document attributes; tests have one image each.", "anchors": ["parser/src/content/macros.rs: INLINE_IMAGE_MACRO", "parser/src/content/macros.rs: InlineImageMacroReplacer", "parser/src/parser/inline_substitution_renderer.rs: render_image", "parser/src/parser/inline_substitution_renderer.rs: image_uri", "docs/modules/macros/pages/images.adoc", "docs/modules/macros/pages/images-directory.adoc", "docs/modules/macros/pages/image-ref.adoc"]}
{"id": "C101", "title": "Icons in text", "statement": "The icon macro becomes a text in square brackets if icons are not set, a glyph of an icon font for the value font, else an image in the directory of icons with the type of icons as extension unless the target has one; the first position is the alternative text of an image and the size of a glyph (icons.adoc, icons-font.adoc, icons-image.adoc, icon-macro.adoc).", "quantifier": "all texts and all parsers", "why_tests_cant": "The mode, the directory and the attributes interact; tests have each alone.", "anchors": ["parser/src/content/macros.rs: InlineImageMacroReplacer", "parser/src/parser/inline_substitution_renderer.rs: render_icon", "parser/src/parser/inline_substitution_renderer.rs: icon_uri", "docs/modules/macros/pages/icons.adoc", "docs/modules/macros/pages/icons-image.adoc", "docs/modules/macros/pages/icon-macro.adoc"]}
{"id": "C102", "title": "Substitutions of blocks", "statement": "Paragraphs get the normal substitutions; listing, literal and source blocks, delimited or by style or indentation, the verbatim ones; passthrough blocks and the style pass none; the attribute subs replaces these by the listed ones, or changes them where items have a sign (subs/pages/apply-subs-to-blocks.adoc, subs/pages/index.adoc, pass/pages/pass-block.adoc).", "quantifier": "all documents and all blocks in them", "why_tests_cant": "The default, the style and the list interact, at every depth and for every way a block can end; tests have single blocks.", "anchors": ["parser/src/content/substitution_group.rs: override_via_attrlist", "parser/src/blocks/simple.rs: parse_lines", "parser/src/blocks/raw_delimited.rs: parse", "docs/modules/subs/pages/apply-subs-to-blocks.adoc", "docs/modules/pass/pages/pass-block.adoc"]}
{"id": "C103", "title": "Contexts and content models", "statement": "Every block has a context, implied by its syntax, and the content model that goes with it: blocks are only found in compound blocks and text only in simple, verbatim and raw ones. A declared style that is the name of a context replaces the context, where the content model stays what it is; NOTE and the like make an admonition, source makes a listing; a comment block is not preserved (blocks/pages/index.adoc, delimited.adoc, masquerading.adoc).", "quantifier": "all documents and all blocks in them", "why_tests_cant": "Eight kinds of block answer each question on their own; whether answers agree with each other for every block at every depth is a property of all documents.", "anchors": ["parser/src/blocks/is_block.rs: resolved_context", "parser/src/blocks/context.rs: is_built_in_context", "parser/src/blocks/block.rs: content_model", "parser/src/blocks/block.rs: raw_context", "docs/modules/blocks/pages/masquerading.adoc", "docs/modules/blocks/pages/delimited.adoc", "docs/modules/blocks/pages/index.adoc"]}
{"id": "C104", "title": "Ids that blocks report", "statement": "A block reports the id in its anchor, else the one in its attribute list; a section without either the id generated for it; an image block also the one in its macro's list. Ids reported are known to the document (blocks/pages/assign-id.adoc, image-ref.adoc, doc comments of IsBlock::id and SectionBlock).", "quantifier": "all documents and all blocks in them", "why_tests_cant": "The same question has several answers, by the enum, by the structure in it and by the catalog; tests compare single blocks.", "anchors": ["parser/src/blocks/is_block.rs: id", "parser/src/blocks/block.rs: impl IsBlock for Block", "parser/src/blocks/section.rs: id", "docs/modules/blocks/pages/assign-id.adoc", "docs/modules/macros/pages/image-ref.adoc"]}
{"id": "C105", "title": "Accessors do not panic", "statement": "Asking any block of a parsed document for its style, context, id, roles and options never panics, although shorthand items are found again by byte offsets into the value.", "quantifier": "all documents, all blocks in them, all names of options", "why_tests_cant": "Offsets are computed at parsing and used at asking; that they fit each other must hold for every text.", "anchors": ["parser/src/blocks/is_block.rs: roles", "parser/src/blocks/is_block.rs: options", "parser/src/attributes/element_attribute.rs: shorthand_items", "parser/src/blocks/media.rs: macro_attrlist"]}
{"id": "C106", "title": "Warnings point at what they are about", "statement": "Every warning of a document has a source span in the document, with the right offset, line and column, that holds what the warning is about: the attribute list or anchor between its brackets, the delimiter line of a block that is not terminated, the heading line with as many marks as the reported level, the entry of the locked attribute, the line that ends the header.", "quantifier": "for all documents, environments, parsers, and all warnings of the document", "why_tests_cant": "The sixteen kinds of warnings are made in a dozen places; that each has the right span whatever was parsed before must hold for every text.", "anchors": ["parser/src/warnings.rs: Warning", "parser/src/blocks/block.rs: parse", "parser/src/blocks/section.rs: parse_title_line", "parser/src/blocks/metadata.rs: parse", "parser/src/document/header.rs: parse", "parser/src/attributes/attrlist.rs: parse"]}
{"id": "C107", "title": "Duplicate ids are reported exactly", "statement": "The warnings about duplicate ids are exactly those of the blocks whose id was registered before: an id that n blocks register is reported n - 1 times, each time at the start of the block, and no generated id is reported.", "quantifier": "for all documents, environments, and parsers with an empty catalog", "why_tests_cant": "Whether an id is a duplicate depends on all the blocks before it, also the ones in other blocks and the generated ids.", "anchors": ["parser/src/blocks/block.rs: register_block_id", "parser/src/blocks/section.rs: parse", "parser/src/document/catalog.rs: register_ref", "parser/src/warnings.rs: DuplicateId"]}
{"id": "C108", "title": "The order of the substitutions", "statement": "The substitutions are applied in the documented order, each to what the one before it made: special characters, formatting marks, attribute references, character replacements, inline macros, line breaks; each group applies exactly the ones the documentation lists for it. The inline macros are replaced kind after kind: images and icons, URLs, link and mailto macros, e-mail addresses, anchors; a kind whose marks are not in the original text is not looked for.", "quantifier": "for all texts, parsers, Unicode tables and substitution groups", "why_tests_cant": "Each step has tests of its own; that a step starts from what the one before it made shows only in texts where two steps both change something.", "anchors": ["parser/src/content/macros.rs: apply_macros", "parser/src/content/substitution_group.rs: apply", "parser/src/content/substitution_step.rs: apply", "docs/modules/subs/pages/index.adoc"]}
{"id": "C109", "title": "Documents of harmless texts are parsed", "statement": "Parsing with the real inline layer gives a result, without a panic and without running for ever, for every document whose header and lines are of classes that only forbid certain characters and pairs of neighbouring characters. The four classes cover words with any formatting but no colons, texts with addresses but no brackets, prose with brackets at the start of lines, and lines with both.", "quantifier": "for all documents of the classes, all parser states, Unicode tables, path separators and include handlers", "why_tests_cant": "Each of thirty rewriting passes can bring characters together that were apart before; that no such meeting starts something that panics later must hold for every text.", "anchors": ["parser/src/parser.rs: parse", "parser/src/content/substitution_group.rs: apply", "parser/src/content/macros.rs: apply_macros", "parser/src/content/passthroughs.rs: extract_from", "parser/src/content/substitution_step.rs: apply_quotes", "parser/src/content/substitution_step.rs: apply_character_replacements"]}
{"id": "C110", "title": "Predefined attributes", "statement": "The attributes that exist before a document is read are the documented ones with the documented values: character replacements, defaults, and which ones only the header may change; an attribute that is merely set is read as empty or as its documented default (attributes/pages/character-replacement-ref.adoc, document-attributes-ref.adoc).", "quantifier": "for all documents read by a fresh parser, all attributes of the tables, all texts with references to them", "why_tests_cant": "A wrong value shows only where the attribute is used, and later entries may change it; tests use a few of them.", "anchors": ["parser/src/parser/built_in_attrs.rs: built_in_attrs", "parser/src/parser/built_in_attrs.rs: built_in_default_values", "parser/src/parser/parser.rs: attribute_value", "docs/modules/attributes/pages/character-replacement-ref.adoc", "docs/modules/attributes/pages/document-attributes-ref.adoc"]}
{"id": "C111", "title": "The attributes of a document", "statement": "After a document is read, every attribute is what the parts of its header (title, authors, revision, entries, in order) and then the entries of its body made of it. An attribute that the header does not imply has the value of the last permitted entry; a locked one is unchanged; an author entry sets the parts of the name, the initials and the address.", "quantifier": "for all documents, environments and parser states, all names of attributes", "why_tests_cant": "The final value depends on the whole history of the document, header lines and nested blocks included.", "anchors": ["parser/src/document/header.rs: parse", "parser/src/document/document.rs: parse", "parser/src/parser/parser.rs: set_attribute_from_header", "parser/src/parser/parser.rs: set_attribute_from_body", "docs/modules/attributes/pages/assignment-precedence.adoc", "docs/modules/document/pages/author-attribute-entries.adoc"]}
{"id": "C112", "title": "Documents are read back as they were meant", "statement": "A document that is written down from a tree of blocks (paragraphs, listings and other verbatim blocks, delimited blocks in each other, breaks, media, sections in each other, each with an optional title and id, and a document title) is read as that same tree: the same nesting, contexts, levels, titles, ids and texts, with what comes before the first section in a preamble. When the texts hold no markup the parser gives a result and the texts come back unchanged.", "quantifier": "for all trees of any depth and size whose lines fit, all inline layers, parser states, Unicode tables", "why_tests_cant": "The parser decides line by line what begins or ends a block; that every nesting comes back needs an argument about all trees, tests read a few.", "anchors": ["parser/src/document/document.rs: parse", "parser/src/blocks/parse_utils.rs: parse_blocks_until", "parser/src/blocks/block.rs: parse", "parser/src/blocks/section.rs: parse", "parser/src/blocks/compound_delimited.rs: parse", "parser/src/blocks/raw_delimited.rs: parse", "parser/src/document/header.rs: parse", "docs/modules/blocks/pages/index.adoc"]}
{"id": "C113", "title": "The warnings about a written document", "statement": "The warnings about a document that is written from a tree of blocks are exactly the ones that the tree deserves, in order: levels that are skipped in a section, paragraphs that begin like a title or like an anchor. Duplicate ids are reported only of ids that are written. A document in which nothing is wrong has no warning.", "quantifier": "for all trees of any depth and size whose lines fit, all inline layers, parser states, Unicode tables", "why_tests_cant": "A warning too many or too few shows in a test only when all warnings of the document are compared, for each nesting.", "anchors": ["parser/src/document/document.rs: parse", "parser/src/blocks/parse_utils.rs: parse_blocks_until", "parser/src/blocks/section.rs: peer_or_ancestor_section", "parser/src/blocks/section.rs: parse_title_line", "parser/src/blocks/metadata.rs: parse", "parser/src/warnings.rs: WarningType", "docs/modules/sections/pages/titles-and-levels.adoc"]}
{"id": "C114", "title": "Text brings in no tags of its own", "statement": "In the result of the normal, title and header substitutions every < begins one of the tags that the substitutions write themselves (formatting marks, links, anchors, line breaks), for every text without passthroughs in which brackets or colons are not used, whatever else it contains, when the values of attributes are of this kind too; and they are when they are set in the document to such texts.", "quantifier": "for all such texts of any length, all parser states reached by such entries, all Unicode tables", "why_tests_cant": "Seven passes each rewrite what the others wrote; a test sees one text, an attacker looks for the one that gets a tag through.", "anchors": ["docs/modules/subs/pages/special-characters.adoc", "docs/modules/pass/pages/index.adoc", "parser/src/content/substitution_step.rs: apply", "parser/src/content/substitution_group.rs: apply", "parser/src/content/macros.rs: apply_macros", "parser/src/parser/parser.rs: set_attribute_from_body"]}
{"id": "C115", "title": "Which passthroughs a text has", "statement": "A text has one reading into passthroughs. Three or two pluses, two dollar signs and the pass macro come first, at the earliest place and with the nearest closing mark, then single pluses and the old style with backticks, only between characters that are not word characters and not after a backslash, colon or semicolon. What is taken out has the text, substitutions, formatting and attribute list of its form; a backslash is dropped and keeps the form as text; everything else stays. Substitutions that the pass macro names are applied.", "quantifier": "all texts, all Unicode tables", "why_tests_cant": "Two regular expressions with alternatives and a replacer that calls itself: a test checks one form at a time, not which form wins where several overlap.", "anchors": ["parser/src/content/passthroughs.rs: extract_from, INLINE_PASS_MACRO, INLINE_PASS, InlinePassMacroReplacer, InlinePassReplacer", "docs/modules/pass/pages/pass-macro.adoc", "docs/modules/subs/pages/prevent.adoc"]}
{"id": "C116", "title": "Authors with attribute references", "statement": "A text that is one attribute reference is the whole name of an author. In other author text references are not replaced until the text is taken apart, so that the value of a reference is not taken apart, and special characters in values are treated alike.", "quantifier": "all author texts, parser states and Unicode tables", "why_tests_cant": "The code takes one of five ways, depending on the number of braces and on whether the text matches before or after references are replaced; the tests follow each way once.", "anchors": ["parser/src/document/author.rs: Author::parse, apply_author_subs", "docs/modules/document/pages/author-line.adoc", "docs/modules/document/pages/multiple-authors.adoc"]}
{"id": "C117", "title": "A document brings in no tags of its own", "statement": "If the title, the entries and the texts of the blocks of a document have no passthroughs, macros and links with attribute lists, an author line has no < but those of the addresses, and a revision line has none, then paragraphs and titles have no tags but those of the substitutions. Attribute values, the document title and closed verbatim blocks have no < at all, and so have the attributes the parser is left with.", "quantifier": "all documents, parsers with such attributes, Unicode tables", "why_tests_cant": "Values pass from the header through entries, authors and revision into every later text; a test sees one way through the document.", "anchors": ["docs/modules/subs/pages/special-characters.adoc", "parser/src/document/document.rs: Document::parse", "parser/src/document/header.rs: Header::parse", "parser/src/document/author.rs: Author::parse", "parser/src/document/revision_line.rs: RevisionLine::parse", "parser/src/parser/parser.rs: set_attribute_from_header, set_attribute_from_body"]}
{"id": "C118", "title": "The places of the parts of a document", "statement": "Each part of a document that has a place in the text (title, comments, entries with names and values, author and revision line of the header; content, targets, attribute lists, titles and anchors of blocks) is the text at the line, column and offset that it gives, and lies in the header or block that it is a part of; the lines above a block come before what is in it. The document is the whole text without the white space at its end.", "quantifier": "all documents, inline layers, parser states", "why_tests_cant": "Places are computed by slicing at many depths of the parser; a test compares the places of one document.", "anchors": ["parser/src/blocks/metadata.rs: parse", "parser/src/blocks/block.rs: parse", "parser/src/blocks/simple.rs: parse", "parser/src/blocks/raw_delimited.rs: parse", "parser/src/blocks/media.rs: parse", "parser/src/blocks/section.rs: parse", "parser/src/document/header.rs: parse", "parser/src/document/attribute.rs: parse", "parser/src/document/document.rs: parse"]}
{"id": "C119", "title": "A block is found wherever there is text", "statement": "Where text is left that is not empty lines, Block::parse gives a block (or a comment or an attribute entry that is skipped), so the loop over the blocks goes on. Exactly: no block is found where the lines above the block are an anchor at most, or declare the style literal, and there is no text after them (the end, an empty line, or lines of white space). At such a place the loop never ends.", "quantifier": "all texts, places, inline layers, parser states", "why_tests_cant": "Tests cannot show that a loop does not end, nor that there are no other such places.", "anchors": ["parser/src/blocks/parse_utils.rs: parse_blocks_until", "parser/src/blocks/block.rs: parse", "parser/src/blocks/metadata.rs: parse, is_empty", "parser/src/blocks/simple.rs: parse, parse_fast, parse_lines"]}
{"id": "C120", "title": "What becomes of a document", "statement": "As long as the substitutions give a text, a document has exactly one of three fates: a result, a panic, or a loop that never ends; which one is decided by the places that the loop over the blocks comes to. It panics exactly when it asks, inside a section, whether an indented line begins another section, and it is endless exactly when it comes to text at which there is no block. There is no other panic and no other endless loop in the block layer. As many rounds as the text has characters are enough.", "quantifier": "all documents, inline layers that always answer, parser states, amounts of fuel", "why_tests_cant": "Tests find some panics and loops; that there are no others is a statement about all documents.", "anchors": ["parser/src/document/document.rs: parse", "parser/src/blocks/parse_utils.rs: parse_blocks_until", "parser/src/blocks/block.rs: parse", "parser/src/blocks/section.rs: parse, peer_or_ancestor_section, parse_title_line", "parser/src/blocks/compound_delimited.rs: parse", "parser/src/blocks/raw_delimited.rs: parse", "parser/src/blocks/media.rs: parse", "parser/src/blocks/simple.rs: parse"]}
{"id": "C121", "title": "Blocks begin where lines begin", "statement": "Every block of a document, at any depth, begins at the beginning of a line (column 1, after a line end or at the start of the text), and so do the header, the text after the lines above a block, and the place where parsing goes on after a block.", "quantifier": "all documents, inline layers, parser states", "why_tests_cant": "The place to go on at is computed in a different way by each kind of block; a block that begins in the middle of a line would need a document that no test has.", "anchors": ["parser/src/blocks/block.rs: parse", "parser/src/blocks/metadata.rs: parse", "parser/src/blocks/simple.rs: parse_lines", "parser/src/blocks/raw_delimited.rs: parse", "parser/src/blocks/compound_delimited.rs: parse", "parser/src/blocks/section.rs: parse", "parser/src/blocks/media.rs: parse", "parser/src/blocks/break.rs: parse", "parser/src/document/attribute.rs: parse", "parser/src/document/header.rs: parse"]}
{"id": "C122", "title": "Tidy documents have a result", "statement": "If every line of a document that is not empty begins with a character that is neither white space nor an opening bracket, and no empty line is the last one of the document or of a block between delimiters, then parsing gives a result. What goes wrong otherwise goes wrong over a line of these kinds: a panic over an indented line, an endless loop over a line with an opening bracket, a line of white space other than spaces, or an empty line at the end of the document or of a compound block. Empty lines at the end of a document do not matter.", "quantifier": "all documents, inline layers that always answer, parser states, amounts of fuel above the length", "why_tests_cant": "That parsing ends on a class of documents is a statement about all of them; endless loops cannot be observed by tests, only suspected.", "anchors": ["parser/src/document/document.rs: parse", "parser/src/blocks/parse_utils.rs: parse_blocks_until", "parser/src/blocks/block.rs: parse", "parser/src/blocks/compound_delimited.rs: parse", "parser/src/blocks/raw_delimited.rs: parse", "parser/src/document/attribute.rs: parse", "parser/src/span/line.rs: discard_empty_lines"]}
{"id": "C123", "title": "What stands at a place does not depend on the place", "statement": "Parsing a block, or blocks, from the beginning of a line on gives what parsing the rest of the text as a text of its own gives, with all places that many lines and bytes further down, and nothing else different: same blocks, texts, ids, numbers, warnings, attributes, and the same panic or endless loop. So the blocks of a document are those of the text after its header, a text is read one block after another, and blank lines before a document move it down and change nothing else.", "quantifier": "all documents, inline layers, parser states, amounts of fuel, numbers of blank lines", "why_tests_cant": "Tests compare places in single documents; that no function looks at the place it is called at is a statement about all pairs of places.", "anchors": ["parser/src/document/document.rs: parse", "parser/src/document/header.rs: parse", "parser/src/blocks/parse_utils.rs: parse_blocks_until", "parser/src/blocks/block.rs: parse", "parser/src/blocks/section.rs: parse", "parser/src/blocks/metadata.rs: parse", "parser/src/span/slice.rs", "parser/src/span/line.rs", "docs/modules/document/pages/header.adoc"]}
{"id": "C124", "title": "What comes after an empty line does not change the blocks before it", "statement": "If a text ends with a line feed and its last line neither in white space nor in a backslash, and all its delimited blocks are closed, then with an empty line and any other text after it the blocks are those of the text and then those of the other one, parsed with the attributes, ids and numbers that the first has left. The other text is to begin with a title of the first level, or the first to have no section; it is not to begin with a colon. So the chapters of a document can be parsed one by one.", "quantifier": "all texts, inline layers, parser states, amounts of fuel, numbers of chapters", "why_tests_cant": "A test looks at the blocks of one document; that no function looks ahead past an empty line is a statement about everything that might come there.", "anchors": ["parser/src/blocks/parse_utils.rs: parse_blocks_until", "parser/src/blocks/block.rs: parse", "parser/src/blocks/section.rs: parse", "parser/src/blocks/simple.rs: parse_lines", "parser/src/blocks/raw_delimited.rs: parse", "parser/src/blocks/compound_delimited.rs: parse", "parser/src/blocks/metadata.rs: parse", "parser/src/blocks/media.rs: parse", "parser/src/blocks/break.rs: parse", "parser/src/document/attribute.rs: parse", "parser/src/span/line.rs: take_line_with_continuation"]}
{"id": "C125", "title": "The short cut for paragraphs makes no difference", "statement": "Block::parse first looks whether the line can begin anything but a paragraph, and takes a short cut if not. Leaving the short cut out changes nothing: not the blocks, nor those inside of them, nor the warnings, ids and attributes, nor the way parsing goes wrong, in every text in which spaces and line feeds are the only white space.", "quantifier": "all texts with no white space but spaces and line feeds, inline layers, parser states, places, amounts of fuel", "why_tests_cant": "The two ways are not in the program side by side, so no test compares them; that the short cut lets nothing through which the long way would have taken for another block is a statement about all lines.", "anchors": ["parser/src/blocks/block.rs: parse", "parser/src/blocks/simple.rs: parse_fast", "parser/src/blocks/simple.rs: parse", "parser/src/blocks/metadata.rs: parse", "parser/src/blocks/media.rs: parse", "parser/src/blocks/section.rs: parse"]}
{"id": "C126", "title": "Line endings do not matter", "statement": "A text with CR LF at the end of its lines is parsed like the one with LF: the same blocks with the same titles, ids, numbers, attributes and shown texts, the same header, warnings and catalogue, every span at the same line and column and further down by one byte for every line before it; and parsing goes wrong or does not end for the one if it does for the other. This leaves out the shown text of verbatim blocks, and needs that no :author: entry goes on over several lines (or, for the whole of parse with its preprocessor, that there are no backslashes).", "quantifier": "all texts without CR, inline layers that do not fail on a CR only, parser states, include handlers, amounts of fuel", "why_tests_cant": "The tests have a handful of texts with CR LF, each for one function; that no place in the whole parser looks at the end of a line in a way that takes the CR for part of the line is a statement about all texts.", "anchors": ["parser/src/span/line.rs: take_line", "parser/src/span/line.rs: take_normalized_line", "parser/src/span/line.rs: take_line_with_continuation", "parser/src/span/trim.rs: trim_trailing_line_end", "parser/src/blocks/block.rs: parse", "parser/src/blocks/parse_utils.rs: parse_blocks_until", "parser/src/document/header.rs: parse", "parser/src/document/document.rs: parse", "parser/src/parser/preprocessor.rs: process_adoc_include", "parser/src/content/content.rs: from"]}
{"id": "C127", "title": "What an include directive knows of the attributes", "statement": "When the preprocessor comes to an include directive, the attributes it fills in and hands to the include handler are those set by the entries before it, where a line counts as an entry just if it stands among the first lines (before any empty line) or after an empty line with only entries in between, and ends with a colon or contains a colon and a space. All the lines are copied without change.", "quantifier": "all sequences of lines before the directive without backslashes, include handlers, parser states, texts after the directive", "why_tests_cant": "The preprocessor has its own idea of what an attribute entry is, and the tests look at a few documents in which both have the same; that the rule is just this for every sequence of lines, and so where it parts from that of the document, no test shows.", "anchors": ["parser/src/parser/preprocessor.rs: process_adoc_include", "parser/src/document/attribute.rs: parse", "parser/src/parser/parser.rs: set_attribute_from_body"]}
{"id": "C128", "title": "Using a parser again, and what section numbers have an influence on", "statement": "What a parser keeps of a document is its attributes and the count of its appendices: parsing another text with it gives just what a new parser with these attributes and this count gives, and the same text gives the same document again if it changes no attribute and numbers no appendix. And the counters have no influence on anything but the numbers: two parsers that differ in their counters only give the same document apart from numbers and types of sections, the same warnings, ids and attributes, and go wrong on the same texts.", "quantifier": "all texts and second texts, inline layers and include handlers that look at nothing of the parser but its attributes (shown for the inline layer of the crate), parser states, amounts of fuel", "why_tests_cant": "Tests use a new parser for each text. That nothing else of the state of a parser comes through, in any way, is a statement about all pairs of texts.", "anchors": ["parser/src/parser/parser.rs: parse", "parser/src/parser/parser.rs: assign_section_number", "parser/src/document/document.rs: parse", "parser/src/blocks/section.rs: parse", "parser/src/parser/preprocessor.rs: preprocess", "parser/src/content/substitution_group.rs: apply"]}
{"id": "C129", "title": "What is between the delimiters of a raw block stays there", "statement": "A comment, listing, literal or passthrough block with nothing before it has as its text what stands between its delimiters, gives no warning, and leaves attributes, ids and numbers as they are, whatever titles, ids, entries or other delimiters are in it; what comes after it is parsed as if it stood alone. So two texts that differ only in what is in such a block have the same other blocks, attributes, ids and numbers, but for places. This is so in documents, compound blocks and sections, and after any closed blocks. A comment may come before the title of a document.", "quantifier": "all contents without the delimiter, texts before and after, raw delimiters, inline layers that have a result for the group, parser states, section levels, amounts of fuel", "why_tests_cant": "A test has one content; that no content at all gets out is a statement about all pairs of contents.", "anchors": ["parser/src/blocks/raw_delimited.rs: parse", "parser/src/blocks/block.rs: parse", "parser/src/blocks/parse_utils.rs: parse_blocks_until", "parser/src/blocks/section.rs: peer_or_ancestor_section", "parser/src/document/header.rs: parse", "parser/src/parser/preprocessor.rs: process_adoc_include"]}
{"id": "C130", "title": "An include directive is as good as the text of the file there", "statement": "A text in which each include directive has been replaced by the lines of its file has the same output of the preprocessor as the text with the directives, and so the same document but for the source map, and leaves the same parser. The attributes set in a file are there for the directives after it, and the header may go on in a file.", "quantifier": "all sequences of lines and directives with their files, as long as their lines have no backslash, CR or directive of their own, any text after the last of them, include handlers, parser states, inline layers, amounts of fuel", "why_tests_cant": "A test compares one text with one expected output; that the state the preprocessor carries over a directive (attributes, whether it is in the header, whether an entry may come) is just what it would be without one is a statement about all files and all texts around them.", "anchors": ["parser/src/parser/preprocessor.rs: preprocess", "parser/src/parser/preprocessor.rs: process_adoc_include", "parser/src/document/document.rs: parse", "parser/src/parser/parser.rs: parse"]}
{"id": "C131", "title": "A text between the delimiters of a compound block is read as a document of its own", "statement": "An example, sidebar, quote or open block with nothing before it holds just the blocks that the text between its delimiters has when it is parsed alone, further down by the delimiter line; it gives the warnings and leaves the attributes, ids and numbers that this text alone gives and leaves, and goes wrong or does not end just if it does. What comes after the block is parsed as if it stood alone, with what the text in the block has left. So the lines of any text can be put between delimiters that are not among them, as deep as one likes, and the blocks are the same but for their places.", "quantifier": "all texts, texts after the block, compound delimiters, depths of nesting, inline layers, parser states, section levels, amounts of fuel", "why_tests_cant": "A test has one text in one block; that no text at all is read in another way because it is in a block is a statement about all pairs of a text and a nesting.", "anchors": ["parser/src/blocks/compound_delimited.rs: parse", "parser/src/blocks/block.rs: parse", "parser/src/blocks/parse_utils.rs: parse_blocks_until", "parser/src/blocks/section.rs: peer_or_ancestor_section"]}
{"id": "C132", "title": "The text of a section is read as a document of its own", "statement": "As long as no title in the text of a section is of its level or above, the loop over its blocks gives what the loop of a document gives on this text: the same blocks, warnings and parser, and (if no line begins with a blank) it has a result whenever the document has. So a text of a title line and a body with deeper titles only is one section, whose blocks are those of the body parsed as a document of its own by the same parser, one line and the length of the title line further on, apart from section numbers; its title is rendered with the attributes that the body leaves, and these are what is left after the section.", "quantifier": "all bodies with deeper titles only, title lines, levels, inline layers that look at nothing of the parser but its attributes, parser states, amounts of fuel", "why_tests_cant": "A test has one section; that no body is read in another way because it is in a section is a statement about all bodies, and the exceptions are on texts that no test has.", "anchors": ["parser/src/blocks/section.rs: parse", "parser/src/blocks/section.rs: peer_or_ancestor_section", "parser/src/blocks/section.rs: parse_title_line", "parser/src/blocks/parse_utils.rs: parse_blocks_until", "parser/src/blocks/block.rs: parse"]}
{"id": "C133", "title": "What is written about warnings and catalogs", "statement": "The message of a warning and its debug form tell which warning it is, with the names and numbers in it: no two have the same. The debug form of a map does not depend on the order in which the map gives its entries; it has all of them, in the order of their written keys, and tells what is in the map; so two catalogs are written in the same way just if they have the same entries.", "quantifier": "all warnings, maps and catalogs with one entry for each key, orders of the entries, tables of printable characters; the part of ids for all documents", "why_tests_cant": "A hash map gives its entries in another order in each run, so a test that passes says nothing about the next one; that no two warnings read the same is a statement about all pairs of names.", "anchors": ["parser/src/warnings.rs: WarningType", "parser/src/internal/debug.rs: DebugHashMapFrom", "parser/src/document/catalog.rs: fmt"]}
{"id": "C134", "title": "What is written about places, warnings, strings, values, section numbers and source maps", "statement": "The debug form of a place, of a warning with its place, of a slice of such, of an attribute value, a section number, a kind of block, a source map and a string tells what was written and where it ends, whatever comes after it. For strings it also tells how the text is kept; the form that `dbg!` uses leaves that out, so that two strings are then written in the same way just if they are equal.", "quantifier": "all places, warnings, strings in any representation of a text, values, section numbers and source maps; tables of printable characters; texts after them", "why_tests_cant": "A test compares one written form with one expected text; that no two values are ever written in the same way is a statement about all pairs of them.", "anchors": ["parser/src/strings.rs: fmt", "parser/src/span/mod.rs: Span", "parser/src/warnings.rs: Warning", "parser/src/internal/debug.rs: DebugSliceReference", "parser/src/parser/source_map.rs: fmt", "parser/src/document/attribute.rs: fmt", "parser/src/blocks/section.rs: fmt", "parser/src/blocks/simple.rs: fmt", "parser/src/blocks/break.rs: fmt", "parser/src/blocks/media.rs: fmt", "parser/src/blocks/is_block.rs: fmt"]}
