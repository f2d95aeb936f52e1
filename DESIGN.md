# Design of the verification of asciidoc-parser

Subject: the `parser` crate in `/repo/parser/src` (the `asg` and `sdd` crates are
tooling and are out of scope).  The code is read as text and translated by hand,
function by function, to Gallina (Coq 8.16.1).  It is never built or run.

## 1. Layout

`rocq/theories` (logical name `Verif`), one area per group of files:

* `*_Model.v`  – translation of the Rust code.  Every definition cites file and lines.
* `*_Spec.v`   – small specifications that do not use the helpers of the model
  (sometimes placed at the head of the property file when only a few lines long).
* `*_Proof.v`  – lemmas.
* `*_Prop.v`   – the property theorems (`exact lemma`), an `Example` beside each
  showing that a concrete non-trivial case meets its hypotheses, and
  `Print Assumptions`.

`MANIFEST.json` maps the properties of `properties.jsonl` to theorem names.
`seeded/LOG.jsonl` records the mutations tried on a scratch copy.

## 2. Modelling decisions

* **Text.** A Rust `&str` is a list of code points (`text := list N`).  Its byte length is the
  sum of the UTF-8 lengths of its characters.  Byte-indexed slicing is modelled
  on this representation and *fails* (explicit `Panic` value) when the index is not a
  character boundary or is out of range, so that the absence of panics is a theorem
  and not an assumption.
* **Panic, overflow, divergence.** `res A := Ok a | Panic | OutOfFuel`.  `usize` is an
  unbounded `nat` except where the property is about overflow (C35), where a
  subtraction below zero is an explicit `Panic` (debug build; the release build wraps).
  Loops without an obvious structural argument take fuel; theorems either exclude
  `OutOfFuel` by giving a sufficient bound, or (non-termination) show that it occurs for
  every amount of fuel.
* **`&mut`** becomes state passing.  `HashMap` becomes an association list
  with first-match lookup; iteration order is never observed by the modelled code.
* **Unicode tables.** ASCII is computed.  For non-ASCII characters the classes
  (alphabetic, alphanumeric, numeric, decimal digit, letter, word character, lowercase mapping) are a
  record `unicode` passed as an ordinary argument, so theorems hold for every possible table.
  `char::is_whitespace` is the exact finite table.  A few theorems need a fact about the table and
  state it as a hypothesis: C43 and C75 that U+0097 is no digit (`u_nd U 151 = false`), C72 and C78 that no
  white space is a letter or a number (`spaces_apart U`).  Both are true of Unicode.
  `ascii_only` is the instance used in examples.
* **Regular expressions.** The `regex` crate is not modelled line by line.  Where a
  property depends on a regex, the pattern is transcribed as an abstract syntax tree and
  given leftmost-first (Perl-like) semantics by a backtracking matcher, which is the
  documented semantics of the crate.  This is part of the trusted base.  In the patterns `\d` is `\p{Nd}`,
  POSIX classes such as `[[:alpha:]]` are ASCII only, `\p{alpha}` is Alphabetic, `\p{N}` is
  `char::is_numeric`, `\b{start-half}` is the half boundary of the crate.
* **Renderer.** `InlineSubstitutionRenderer` is a trait; the model uses the HTML
  implementation shipped with the crate.  Other implementations are out of scope.
* **Include handler, path resolver** – the include handler is a function argument (so it gives the same
  answer when asked the same question); the path resolver of the crate is modelled, with the separator of
  the platform as an argument (`fs`).
* **Blocks over the inline layer.** The block layer takes the inline substitutions as a field of a record
  `env` (`e_sub`), and theorems about blocks hold for every such function; `env_of` is the instance that
  uses the modelled substitutions.

## 3. Trusted base

* Coq's kernel (8.16.1), `vm_compute` for the concrete witnesses.
* `Print Assumptions` is printed for every theorem in the `*_Prop.v` files: see section 5.
* The hand translation from Rust (each definition cites its source lines and says where it
  simplifies), the meaning given to the Rust standard library functions
  (`str::find`, `trim_end`, `split`, `char::is_whitespace`, `HashMap`, `Path::file_stem` with the Unix
  separator, `slice::binary_search_by_key` by the loop of its implementation, ...), to the `regex` crate and to the `percent_encoding`
  crate (from its documentation).
* `usize` subtraction is a panic below zero, as in a debug build; a release build wraps around.
* Not modelled: `asg`, `sdd`, benches, `Debug` implementations other than those of warnings, catalogs, places, strings, attribute values, section numbers, source maps and kinds of blocks, `Drop`/memory layout
  (`InlineStr` is modelled by its bytes), `unsafe`-free guarantees of Rust itself.


## 4. The properties

For each one: what is modelled, how it is proved, and what the theorems say when that is not the
property as stated.  Theorem names are in `MANIFEST.json`; they begin with the id of the property.

| id | property | what is modelled | how it is proved | result |
|----|----------|------------------|------------------|--------|
| C01 | Span coordinates are exact | `span/*.rs`: every operation on spans | invariant `located d s` preserved by every operation, then induction over arbitrary chains of operations | as stated. Over all finite chains of the modelled span operations. |
| C02 | Reading a piece of text partitions it | `span/*.rs`: every operation on spans | one partition law `source = item ++ terminator ++ after` per reader | as stated. One partition law per reader. |
| C03 | Span operations never cut a character | byte-indexed slicing with `Panic` | each operation that computes its own index equals a pure function (`*_ok` lemmas) | as stated. Operations that compute their own index never panic; the index-taking primitive panics exactly inside a character; trim_remainder never panics on spans of one document. |
| C04 | Line reading yields exactly the lines of the document | line readers | refinement to splitting at LF, by induction | as stated. For take_line and take_normalized_line. |
| C05 | Skipping blank lines | `discard_empty_lines` | characterisation and idempotence, by induction | as stated. Blank means spaces and tabs with at most one final CR, as in the code. |
| C06 | Line continuation | continuation readers | characterisation by induction on the lines | as stated |
| C07 | Quoted attribute values | `take_quoted_string` | characterisation by induction on the text | as stated |
| C08 | Identifier and attribute-name recognition | identifier readers | longest-match law | as stated. take_ident, take_attr_name, take_user_attr_name. |
| C09 | The span of a block ends where its text ends | `trim_remainder` | characterisation over two located spans | as stated |
| C10 | String representations are interchangeable | `CowStr`, `InlineStr` over UTF-8 bytes | encode/decode round trip; equality by content | as stated. InlineStr modelled as its byte array with a strict UTF-8 decoder; hash for any hash function of the text. |
| C11 | Inline strings | `InlineStr` | round trip through the byte array | as stated. 64-bit target (22 bytes). |
| C12 | Catalog ids are unique | `Catalog` | refinement to a log of registrations, over all sequences of operations | as stated. Refinement to a log of registrations. |
| C13 | Catalog lookups return the first registration | `Catalog` | the same refinement | as stated |
| C14 | Generated ids are fresh and minimal | `generate_unique_id` | pigeonhole for termination, minimality by induction | as stated. Overflow of the i32 counter is not modelled. |
| C15 | API-locked attributes cannot be changed by attribute entries | attribute table of `Parser` | invariant over histories of entries | as stated. Any sequence of header and body entries. |
| C16 | API-locked attributes cannot be changed by the header's implicit attributes | implicit header attributes | case analysis; witness on a whole header | Refuted: set_attribute_by_value_from_header has no permission check; shown on the parser state and on a whole header. The exact behaviour is proved. |
| C17 | Last permitted write wins | attribute table | invariant over histories, against an explicit specification of permitted writes | as stated. The permitted entries are given by an explicit specification per initial context. |
| C18 | Header-only attributes are frozen in the body | attribute table | invariant over histories | as stated. From a state where the context is ApiOrHeader; see C54 for what happens after a header write. |
| C19 | Attribute names are case-insensitive | attribute table | witness; positive part by case analysis | Refuted as stated (lookup is case-sensitive, storage is lower-case); the positive part is proved. |
| C20 | Section numbers are consecutive | section counters | algebraic law and lexicographic order | as stated |
| C21 | Parsing twice gives the same numbers | section counters, `begin_parse`, the document | witness on the state and on two documents; the ordinary counter by computation of the state | Refuted: the counter of the appendices is not reset between documents; shown on the state with which a document is parsed. The ordinary counter is proved to start afresh. |
| C22 | Shape of generated section ids | `generate_section_id` | shape invariants through the string pipeline | as stated |
| C23 | Source map lookup | `SourceMap` | binary search loop against a linear specification | as stated. The binary search of the standard library is modelled by its loop. |
| C24 | Preprocessing is the identity without directives | preprocessor | case analysis over the lines | Refuted: a line that merely starts with "if" makes the preprocessor rewrite the document (final newline added, line ends normalised). Proved for documents without any line that starts with "include::" or "if". |
| C25 | Include expansion terminates | preprocessor with an abstract include handler | out of fuel for every fuel; well-founded rank for the positive part | Refuted: a file that includes itself is expanded for ever. Proved for handlers whose includes do not go in circles (a rank on files decreases). |
| C26 | The source map tells the truth about every output line | preprocessor and its source map | simulation relating output lines to lines of files | Refuted: a blank line after a continued attribute entry is lost and the map is off by one. Proved for all documents without one (and file names without newlines). |
| C27 | Web paths are normalised | `PathResolver` | shape invariant of the segment stack | Refuted for empty segments and for backslashes on platforms with another separator; the exact shape and idempotence are proved. |
| C28 | Attribute list lookups | `Attrlist` | list lemmas | as stated |
| C29 | Attribute list parsing is total | `Attrlist`, `ElementAttribute` | totality by measure; values are infixes of the source | as stated. For every total Normal substitution, passed as an argument. |
| C30 | Shorthand round trip | shorthand parsing | round trip by induction over the items | as stated. Style and items made of characters without a meaning of their own. |
| C31 | Which lines are block delimiters | delimiter tests | characterisation | as stated |
| C32 | Content of a delimited block | raw and compound delimited blocks | search for the closing line against the inductive relation `enclosed` | as stated. For raw and compound blocks, with and without a closing delimiter. |
| C33 | Parsing terminates on every document | document, blocks, loop with fuel | a stuck state for every fuel; totality by induction on the fuel over the class `tame` | Refuted: a raw delimited block that has only empty lines after it makes the loop over the blocks run for ever (C33_parsing_gives_a_result_refuted, and C33_blank_lines_after_a_raw_block for every such text, place and parser state). Shown to hold, with one round for each character, for every document without directive lines whose text after the header is in the class 'tame' of Total_Spec.v, for every inline substitution that gives a result on a closed class of texts that the lines of the document are in (C33_parsing_gives_a_result_on_tame_documents). |
| C34 | Parsing makes progress | block parser | every branch leaves a strictly shorter suffix; induction | as stated. A recognised block leaves a strictly shorter suffix (all envs, states, fuels); all blocks with the blocks in them are bounded by the number of characters (one more for the preamble). |
| C35 | Heading-level arithmetic never overflows | `parse_title_line` with checked subtraction | case analysis; grammar of headings | Refuted: an indented line inside a section makes the subtraction go below zero (a panic in a checked build). Proved that this happens exactly for lines that begin with a space or tab, and that headings are recognised by their grammar otherwise. Additions are on unbounded numbers; the level is at most five. |
| C36 | Block order and nesting | block tree with spans | inductive relation `tree`, preserved by every parser | Refuted as stated: the span of a section is cut at trailing white space, so an unterminated raw block in it ends later than its section (C36_nested_refuted). Proved for all documents: siblings in order without overlap at every depth; nested spans begin inside the parent and go over its end by white space at most. |
| C37 | All three media block macros are recognised | dispatch in `Block::parse`, media blocks | computation of the dispatch for the given first characters | Refuted for audio: the test for "audio::" is missing, so such a line is a paragraph, proved for every target. Proved for image and video. |
| C38 | Special-character escaping is safe and reversible | special characters | homomorphism with a decoder as left inverse | as stated. HTML renderer. |
| C39 | Attribute references | attribute references | regex model plus a small-step specification | as stated. For the default handling of missing attributes. |
| C40 | Custom substitution lists | substitution lists | induction over the list | as stated |
| C41 | Verbatim and pass-through groups | substitution groups | case analysis | as stated |
| C42 | Formatting replacement with look-ahead keeps the surrounding text | quote substitutions with the look-ahead loop over the regex model | in-place replacement relation; loop invariant; measure | Refuted: the candidate of a monospaced mark that is followed by a quote makes the look-ahead loop panic or lose text. Proved for the other eleven marks on all texts, and for that one on texts where no backtick is followed by a quote or backtick; proved that the loop always ends. |
| C43 | Inline passthroughs are restored | passthrough extraction and restoring | loop that comes back to the same state; relation for in-place replacement | Refuted: restoring can run for ever (also for plain ASCII text in the old "[x-]" syntax), placeholder look-alikes are replaced next to a passthrough, passthroughs can be mixed up or repeated. Proved: extraction always ends, restoring ends for texts without the internal character and without "[", placeholders are replaced in place, and one passthrough in plain text keeps its surroundings. The Unicode table is assumed not to call U+0097 a digit. |
| C44 | Links that open a new window are isolated | HTML renderer of links | string lemmas | Refuted: with the nofollow option, "noopener" is written outside the rel value. Proved for links without that option. |
| C45 | Rendered HTML attributes cannot be broken out of | HTML renderer of images | string lemmas | Refuted: width, height and target are written without encoding. Proved that the element is clean when those hold no quote or angle bracket (alt and title are encoded). |
| C46 | URI component encoding is reversible | `encode_uri_component` | round trip over UTF-8 bytes | as stated. Proved reversible and made of safe characters only; that only unreserved characters stay is refuted ("*" is left as it is). |
| C47 | Inline macros never panic | inline macros over the regex model | panic witnesses; totality per replacer | Refuted: four macros panic ("image:[]", "link:a[b]", "https://a.b&gt;", "image:a.svg[opts=inline]"). Proved per kind of macro for all texts outside those cases. |
| C48 | Hard line breaks | post replacements | refinement over the list of lines | as stated. HTML renderer; a carriage return at the end of a line and a final newline are dropped under the option, which is stated. |
| C49 | A block's id is the id in the catalog | ids of sections, catalog | witness; case analysis over the register step | Refuted: with an anchor and an attribute-list id the section reports the first and registers the second. Proved when the two agree or only one is present. |
| C50 | Unterminated raw blocks are rendered like terminated ones | raw delimited block | witness; computation of the open branch | Refuted: no substitutions are applied; proved that such a block always shows its source text. |
| C51 | Attribute values | attribute entries | characterisation against `logical` lines | as stated. The Header substitution group is an argument. |
| C52 | Paragraph text | paragraph reader | refinement to the inductive relation `paragraph` | Refuted in one point: a line of tabs is blank elsewhere but does not end a paragraph. The text is proved for the line reading that the code has (blank means spaces only). For spans that begin a line. |
| C53 | Revision line | revision line | grammar, both directions | as stated |
| C54 | A header write does not unlock the body | attribute table | witness; case analysis | Refuted: any permitted write resets the context to Anywhere. |
| C55 | Section numbers are displayed unambiguously | display of section numbers | injectivity of decimal notation | as stated. Appendix numbers: for the first 26. |
| C56 | Appendices are numbered with letters | display of section numbers | computation; finite part | Refuted for the 27th appendix; the first 26 are proved. |
| C57 | Character replacements | character replacements over the regex model | each pass equals an explicit rewriting relation | as stated. HTML renderer; each pass is an explicit rewriting rule. |
| C58 | Em dash only at the documented places | em dash replacement | witness | Refuted: the regular expression ends in a start-half word boundary, which always holds after a hyphen ("foo-- bar"). |
| C59 | Attribute lists are read back | attribute lists | round trip by induction over the entries | as stated. Sources that contain both braces (attribute references) or are entirely in brackets (anchors) are excluded. |
| C60 | Positions of positional attributes | attribute lists | witness | Refuted: an empty entry is dropped and later entries move up ("a,,b"). |
| C61 | Blanks around unquoted values | attribute lists | witness; shape of trimmed values | Refuted for a trailing tab; leading blanks and trailing spaces are proved absent. |
| C62 | Unterminated quotes | attribute lists | witness | Refuted: escapes are dropped, and Normal substitutions applied to single-quoted values, also when the closing quote is missing. |
| C63 | Shorthand items are not empty | shorthand items | witness; shape invariant | Refuted for roles (". #id"); proved that the items themselves, with their marker, are trimmed and non-empty. |
| C64 | Attribute values are offset from the colon | attribute entries | witness | Refuted (":a:b"). |
| C65 | Line continuation | attribute entries | witness | Refuted: a backslash with no space before it continues the line. |
| C66 | Hard wraps | attribute entries | witness; characterisation of the joined value | Refuted: the mark is dropped; proved that exactly the newline remains. |
| C67 | Unresolved directives are mapped | preprocessor | witness | Refuted when the directive is the first line of a named file. |
| C68 | Repeated separators in section ids | section ids | witness; shape of the pipeline | Refuted: the prefix is put in front last (".NET" gives "__net"); where doubled separators can occur is proved. |
| C69 | Markup does not get into section ids | section ids | witness; equality with the documented process away from it | Refuted: the greedy last alternative takes the mark that opens the markup ("(&amp;)"). Proved equal to the documented process when no removed character stands directly before markup. |
| C70 | Include directives are carried out | preprocessor | witness; invariant over the output | Refuted for an attribute list of one character; proved for all others (files without line continuations, file names without newlines). |
| C71 | A plain mark becomes its element | quote substitutions | computation of the match of a plain mark through the regex model | as stated |
| C72 | An author | author pattern over the regex model | regex language equal to the grammar of names | as stated. The Unicode table is assumed to call no white space a letter or number. |
| C73 | Author attributes | author line | induction over the authors | as stated |
| C74 | Lines of the header | document header | loop invariant against the grammar `header_run` | as stated. For every substitution function. |
| C75 | The header is always read | document header | measure; witness for every fuel | Refuted: a title with nested old-style passthroughs is never finished. Proved for documents without opening brackets and internal characters. |
| C76 | A version and a remark | revision line | witness; grammar | Refuted: "7.5: remark" is taken as a date; proved with the prefix. |
| C77 | The first empty line ends the header | document header | witness; grammar | Refuted when no title precedes the empty line; proved when one does. |
| C78 | Underscores in author names are not displayed | author line and entry | witness; grammar | Refuted for an author entry; proved for author lines. |
| C79 | Header values are substituted | revision line and entries | witness; case analysis | Refuted for the revision line; proved for attribute entries. |
| C80 | Blank lines before the title | document header | witness; induction | Refuted for a line with a tab; proved for lines of spaces. |
| C81 | Section numbers in document order | the walk over the parsed blocks, parser state | generic induction over the block parser (`Shape_Proof`), invariant on the last numbers, then the walk | as stated. For every substitution function and every parser state that the code can leave behind (C81_parsers_are_sane). |
| C82 | Numbers of appendices and special sections | whole documents | witnesses | Refuted: an appendix gets no number without sectnums; a preface is numbered with any value of sectnums. |
| C83 | Section types | parsed blocks, parser state | same induction, invariant on the topmost type; witness | Refuted as stated: a section of level 1 in a delimited block ends the appendix around it, so the sections after it are normal ones. Proved for all documents in which no section of level 1 is inside another section. |
| C84 | The catalog holds what the blocks register | parsed blocks, catalog | same induction, catalog log equal to the post-order registrations; witness | Refuted in one point: a break with an id is not registered (C84_break_ids_refuted). Proved for all blocks of other kinds, for all documents. |
| C85 | Texts for references | parsed blocks, catalog | witnesses; computation | Refuted: the text in the block anchor is used nowhere, and the reftext attribute only for sections. Proved for the reftext attribute of sections. |
| C86 | Attribute entries act on what follows | whole documents | witnesses | Refuted: the title and the id of a section are made after the blocks in it, so entries within the section change them. |
| C87 | The preamble | document assembly | induction over the blocks; witness | Refuted in one point: a discrete heading ends the preamble. Proved for all lists of blocks, where discrete headings count as sections. |
| C88 | Block metadata | metadata lines | loop invariant against an inductive list of lines; uniqueness; witnesses | Refuted in three points against the documentation: a second attribute line is text of the paragraph; a line in brackets that begins with a blank is text; a dot alone is a title with no text. Proved for all texts, with one line of each kind at most (C88_metadata, C88_lines_are_determined). |
| C89 | The kind of a block | choice of the kind of a block | case analysis of the whole dispatch, each parser against its form; forms exclusive; witness | as stated. For every parser of inner blocks. Where the first line has only tabs nothing is claimed (see C52). Refuted in one point: a thematic break with two spaces between the characters is a paragraph. |
| C90 | The style of a paragraph | paragraph style | case analysis; uniqueness | as stated |
| C91 | Attribute entries between blocks | body entries | witness; from C89 | Refuted: after a delimited block and an empty line an entry is shown as a paragraph and sets nothing (C91_entries_between_blocks_refuted); where an empty line comes first no entry is ever found (C91_no_entry_after_an_empty_line). |
| C92 | The outline of a document | whole-document parsing, end of sections | induction over the loop with a stop condition and what follows it; the two readings of the metadata agree; witnesses | Refuted in three points: what ends a section is found with a parser that has no attributes of the document, so a discrete heading whose style is written with an attribute reference ends the section; a paragraph of the style literal that looks like a title ends the section; after a delimited block a line of one tab makes the title below it text. Proved for all documents without tabs and without references or single quotes in brackets, where such literal paragraphs are the one exception (C92_outline). |
| C93 | Where sections may be | whole-document parsing | induction over the loop; witness | Refuted: a title line in a delimited block gives a section in that block, with no warning. Proved: a block that has a section in it is a section or a delimited block. |
| C94 | Section levels are not skipped | whole-document parsing, warnings of the stop condition | induction over the loop with the level kept; witnesses | Refuted in three points: the first section of the document may be of any level; the second section that skips a level is not reported; after a delimited block the warning is at the empty line above the title. Proved: a section that skips a level, compared with the section before it in the same section or else with that section itself, is reported (C94_skipped_levels_reported). |
| C95 | E-mail addresses | e-mail step | language of the regular expression, the matcher takes the longest address; rewriting relation; witness | as stated. Exact: the step's output is the rewriting by the rule of the specification (C95_addresses_are_linked), and that is all the macros do without colons and brackets. After one of > : / an address is left alone, which is not documented. Refuted in one point: of an address with a longer suffix the beginning is linked. |
| C96 | Macros leave each other's markup alone | macros step | reading of markup as a state machine, induction over the rewriting; witnesses | Refuted: an address in the target of a link or image is linked again inside the HTML attribute (C96_whole_markup_refuted, C96_image_refuted). Proved for texts without colons and brackets. |
| C97 | Anchors in text | anchor step | each part of the expression read as its language, the lazy and greedy parts by least and greatest solutions, uniqueness of the reading; replacement relation | as stated. Exact: the output of the step is the replacement of the anchors of the specification (C97_anchors), and that is all the macros do without colons and at signs. |
| C98 | Link and mailto macros | link macro step with attribute lists, window, query and rendering | as C97; the replacer evaluated symbolically, attribute lists abstract; witnesses | as stated. Exact: the output of the step is the replacement of the macros of the specification (C98_link_macros), which says what the code does; attribute lists are read by a parameter whose laws are those of the attribute list properties. Refuted in four documented points: the title is lost, text with an equals sign after a number is lost, an escaped bracket keeps its backslash when there are attributes, and dots and number signs in the text become roles and ids. A target of one character panics (C47). |
| C99 | URLs in text | URL step with attribute lists, window and rendering | as C97 and C98, with the preference among the three forms; the replacer evaluated symbolically for each form; witnesses | as stated. Exact: the output of the step is the replacement of the URLs of the specification (C99_urls); exactly where it panics is C99_no_result. Refuted in four points: the documented scheme mailto is not linked, text with an equals sign after a number is lost, link: before a URL without brackets is kept before a link although the code means to leave both alone, and a URL that ends in a character reference is cut inside it. |
| C100 | Images in text | image and icon step with attribute lists, path resolution and rendering | as C97 and C98; last names of paths by splitting at slashes; plain paths through path resolution; witnesses | as stated. Exact: the output of the step is the replacement of the macros of the specification (C100_pictures), attribute lists being read by a parameter; exactly where it has no result is C100_no_result. Refuted in four points: the id is lost, a target of one character is not found, an empty directory of images (the documented default value) gives absolute paths, and text after a dot in the alternative text becomes a role. |
| C101 | Icons in text | as C100, icon modes and places | as C100; witnesses | as stated. Exact as C100. Refuted in five points: a second extension is added, text in the first position is not the alternative text, rotation is lost with a flip, the directory of images is not used for icons, and unsetting the attribute icons shows images although leaving it unset shows text (the code asks whether the attribute has an entry, not whether it is set). |
| C102 | Substitutions of blocks | choice of the group of a block; paragraphs, delimited blocks and titles in documents | the choice read as a relation; induction over all the blocks of a document with the warnings; witnesses | as stated. For all documents and all blocks in them the text comes from the source by the group that the specification chooses (C102_texts, C102_group); the specification takes over the defaults of the code. Refuted where these differ from the documentation: literal paragraphs and paragraphs with the style listing get the normal substitutions, a list with the documented step callouts is ignored as a whole, a listing that is not closed is not escaped, the default of the style pass is not none when a list changes it, and the style pass has no effect on an open block. Also refuted: substitution_group reports the default for paragraphs but the customized group for verbatim blocks. |
| C103 | Contexts and content models | every accessor of every kind of block, contexts, content models, declared styles | every block of a document was made by one of the parsers of its kind, by induction over documents; table of contexts; witnesses | as stated. For all documents: the implied context has the content model of the table, which it determines; what is in a block fits its model; the resolved context is the declared style if it is built in, else the implied one. Refuted where the documentation asks for more: NOTE and source do not change the context, any context is taken over whatever its content model, a listing made of an open block has blocks in it, a comment block is preserved with a context and its text, and a discrete heading is a section. |
| C104 | Ids that blocks report | id of the enum, of the structure in it, and the catalog | as C103, with C84 for the catalog; witnesses | as stated. For all documents the reported id is the given one, and it is in the catalog (breaks and sections with two ids excepted, see C84 and C49). Refuted: asked of the Block, a section does not report the id generated for it; id, title and role in the list of an image macro are not reported and the id is not registered. |
| C105 | Accessors do not panic | as C103; attribute lists with shorthand offsets | lists are well formed whatever the substitutions do, through metadata to all blocks of a document | as stated. For all documents, all blocks and also the lists in block macros, whatever the substitutions do. |
| C106 | Warnings point at what they are about | all warnings: attribute lists, anchors, delimiters, headings, entries, header | induction over all the blocks of a document with their places; each maker of warnings separately; witnesses | as stated. For all documents and all kinds of warnings. Refuted where more is expected: highlighted text at the start of a paragraph is reported as a heading of level 0; the delimiter of an example block in a section as a heading too deep; the warning about an attribute list without a block spans the rest of the document; warnings are not in document order; what is wrong with a block macro is not reported. |
| C107 | Duplicate ids are reported exactly | registration of ids with their warnings, for all blocks | the same induction, with the catalog and a permutation of the reported ids | as stated. For all documents, as a permutation and as counts. Refuted where more is expected: ids of breaks and of inline anchors are not checked, and a section is reported although it comes before the block in it that has the same id. |
| C108 | The order of the substitutions | apply_macros, apply of the groups and steps | the exact statements of the kinds of macros composed; the chain of the steps by induction on the list of steps; witnesses | as stated. The macro step exactly (iff); the groups for texts without passthroughs (C43 covers those) and documents without the hardbreaks option. Refuted where more is expected: a link in the text of a link is replaced too, inside an attribute of the outer one. |
| C109 | Documents of harmless texts are parsed | parser_parse with env_of, all inline passes | an invariant on neighbouring characters kept by every replaced piece of every pass; patterns that match nowhere; C33 for the blocks | as stated. For the substitution of the texts, the lines of the header and whole documents, with no assumption about the inline layer. That parsing gives a result for all documents is refuted in C33, C42 and C47; C109_conditions_are_needed has texts that fail in one place only, among them an image macro that panics because a dash before it swallowed the end of the line. |
| C110 | Predefined attributes | table of predefined attributes and defaults, references to them | C111 for locked attributes; computation over the tables; witnesses | as stated. The four character replacements that exist, after every document; the seven settings and their defaults. Refuted: the other 27 documented replacements do not exist; the ones that exist cannot be reassigned; sectnumlevels cannot be changed in the body and its implied value can be referenced; a reference to toc or sectnums gives the effective value; iconsdir does not follow imagesdir. |
| C111 | The attributes of a document | header_parse and document_parse, all writes to attributes | invariant of the header loop: the parts read so far; the walk of C81 for the body | as stated. For all documents, as the exact history of every attribute. The implied names are excepted from the statements about entries and locks (C16 refutes locks for them). |
| C112 | Documents are read back as they were meant | document_parse and parser_parse on the texts written from trees of blocks | induction over the trees: the loop over the blocks reads one written block and stops at the right place; C111 for attributes, C33 and C109 for the result; witnesses | as stated. With any inline layer whenever there is a result; with the real one plain documents have a result and come back exactly, and documents with markup as C108 says. Refuted: with one empty line more after the last delimited block the parser does not stop; audio macros come back as paragraphs. |
| C113 | The warnings about a written document | document_parse on the texts written from trees of blocks, all its warnings | the induction of C112 with the warnings of each step; the stop function of a section reports what [looking] says; witnesses | as stated. With any inline layer whenever there is a result, and with the real one for plain documents; media without attribute lists. Refuted: a section that is too deep at the beginning of a document is not noticed; a highlighted word at the beginning of a paragraph is noticed as a title, twice in a section; so is the long delimiter of an example block. |
| C114 | Text brings in no tags of its own | apply_group with all its steps, set_attribute_from_header and _body | an automaton that reads tags: every replaced piece of every pass leads it to the same state; passes by induction on the rewriting; an invariant of the attribute values; witnesses | as stated. For texts without brackets and texts without colons, without + and $, backticks alone. Refuted: the tags are not always one inside the other; a tag can come to be inside the value of an attribute of another one. The conditions are shown to be needed. |
| C115 | Which passthroughs a text has | extract_from with both regular expressions and both replacers | the languages of the regular expressions and which match is preferred; uniqueness of each form; induction over the replacement, with fuel for the nested one; both directions by totality and determinism; witness | as stated. The extraction is exactly the one of the specification. Refuted: a name in pass:c,junk[] that is not understood takes away the substitutions that are named beside it, so that special characters are not replaced. |
| C116 | Authors with attribute references | Author::parse and apply_author_subs on every text | C39 for the references, C72 for the form; each of the ways of the code is one clause of the specification, which is shown to be deterministic; witnesses | as stated. What every author text means is characterised exactly. Refuted: text that has not the form of an author is filled in first, and then the words of a value become first and middle name; so is a name that should be kept whole by {empty}; whether special characters are replaced depends on the number of references, and the replacements can become names. |
| C117 | A document brings in no tags of its own | header_parse, document_parse and the substitutions of the real inline layer | the attributes are inert is an invariant: over the deeds of the header (C111) with authors by C116 and revision parts by C74, and over all blocks by the induction of the shape of blocks; each text by C114 (C102 for verbatim blocks); witnesses | as stated. Proved for whole documents, for both classes of texts of C114. Refuted without the conditions on author and revision lines: the parts of a revision line and an address with a second < are stored without replacing special characters, and get into the text as they are. |
| C118 | The places of the parts of a document | all parsing functions for headers and blocks, with the spans they keep | each span is a slice of the text between two positions of the parser (invariant of the loop over the header lines, one lemma for each kind of block, induction over all blocks); trimming at the end gives the white space; witness | as stated. Proved for every part of headers and blocks but one. Refuted for that one: where there is no block after a title, an anchor and an attribute list, the first line becomes a paragraph that keeps the text of the anchor, which is in a later line and not in the paragraph (C118_inside_refuted). |
| C119 | A block is found wherever there is text | Block::parse with the metadata and the paragraphs, and the loop over the blocks | inversion of each way through Block::parse: a kind of block needs a first character that is not white space, a paragraph a line that is not white space (induction over its lines); the loop by induction over its rounds; witnesses by the theorem, not by running | Refuted: an anchor alone, [literal] alone and a line of white space other than spaces give no block, and the loop over the blocks never ends on them (C119_parsing_gives_a_result_refuted, C119_document); the anchor does not count as metadata in BlockMetadata::is_empty, and the check for metadata without a block is skipped for the style literal. Proved: these are the only such places (C119_no_block). |
| C120 | What becomes of a document | document_parse, the loop over the blocks and every kind of block | each function has a result on every input, or asks for the blocks inside at one place and hands on what goes wrong there; induction over the fuel, which every block shortens; results do not depend on the fuel; both directions by induction over the way to the place | as stated. The three fates are proved to be the only ones, with the places where they are decided; so a document without indented lines does not panic (C120_no_panic_without_indented_lines). The hypothesis is an inline layer that gives a text for every text; the one of the model can fail by itself (C42, C47). Refuted that no document panics: C120_parsing_does_not_panic_refuted (an indented line in a section). |
| C121 | Blocks begin where lines begin | all parsing functions for headers and blocks | what each function takes is whole lines (for paragraphs and entries over several lines by induction over their lines); the place after it begins a line or is the end; induction over all blocks; the column of a located span tells the rest | as stated. Proved for the blocks of every document at any depth, and for the places between them. |
| C122 | Tidy documents have a result | document_parse, the loop over the blocks and every kind of block | by C120 a document that goes wrong comes to a place that begins a line (C121) and goes to the end of the text or to a closing delimiter (induction over the blocks around it); the lines there are lines of the document; witnesses by C120 | as stated. Proved for all tidy documents, with the lines that everything else goes wrong over. Refuted: empty lines at the end matter. After an attribute entry in the body, a compound block or a verbatim block, an empty line at the end of the document or before a closing delimiter makes the loop over the blocks endless (C122_empty_lines_at_the_end_refuted, C122_empty_line_before_a_delimiter_refuted): these three do not discard empty lines after them, as the other blocks do. |
| C123 | What stands at a place does not depend on the place | every function that parses a part of a document | one lemma for each function: on a span moved by k lines and o bytes it gives what it gives on the span, moved; for the loops by induction over the fuel; a located span in column 1 is the moved span of its text; the header skips lines of spaces, and its fuel does not matter | as stated. Proved for all places where lines begin, and for all lines of spaces before a document. Refuted for lines with other white space (C123_a_line_with_a_tab_refuted): with a tab in the line before it, the title of a document is a paragraph. |
| C124 | What comes after an empty line does not change the blocks before it | every function that parses a part of a document's body | one lemma for each function: on a text with an empty line and more after it, it gives what it gives on the text, and the places left are the same or just after the empty line; loops by induction over the fuel; then C123 for the text that comes after; chapters by induction over their number | as stated. Proved for single blocks, for two texts and for any number of chapters. Warnings are the same but for one: that a block is missing after a title is said of all the text that comes after, so that its span grows (C124_same_warnings_refuted). Without the conditions it is refuted: a block that is not closed, a section before a text that is no chapter, an attribute entry after a delimited block (a paragraph there, see C91), and a backslash at the end of an entry (C124_unterminated_refuted, C124_section_refuted, C124_entry_refuted, C124_backslash_refuted). |
| C125 | The short cut for paragraphs makes no difference | block_parse and everything it calls, and the same without the short cut (long_way in the specification) | a line that passes the test for the short cut has no metadata, no delimiter, no macro, no title and no thematic break (each by its first characters); the paragraph from there is the same; the rest by induction over the fuel, as in C123 | as stated. Proved for all places but those where a line of white space comes first that is not all spaces. There the short cut makes a difference: C125_shortcut_everywhere_refuted (a section is a paragraph after a line with a tab). |
| C126 | Line endings do not matter | The whole block layer, header, document and preprocessor: Block_Model, Header_Model, Doc_Model, Pre_Model, Span_Model. | Crlf_Spec has the text with CR LF (crlf), a span in it (cr: the offset moved by line - 1) and the same for blocks, header and document. Crlf_Proof shows for every span function that it commutes with cr, then for entries, attribute lists, metadata and each kind of block, then by induction on the fuel for the loop over blocks as a simulation of all three fates; the preprocessor by induction on its fuel. Refutations by vm_compute. | as stated. Proved for blocks, documents and the whole of parse, with exact spans and all three fates. Refuted where the property leaves something out: C126_verbatim_refuted (CR stays in verbatim text and a hard break there is lost), C126_if_refuted (the CRs go away if any line of the text begins with `if`), C126_author_refuted (an :author: entry over two lines yields another first name). |
| C127 | What an include directive knows of the attributes | pre_loop with try_attribute and try_include (Pre_Model), attribute_parse (Entry_Model) | sees in Seen_Spec is an inductive relation over the lines with two flags; Seen_Proof shows by induction over it that the loop does one step per line with these effects; the directive by one more step. Refutations by vm_compute with a handler that returns the target asked for | as stated. Proved as stated. That the directive sees what the document has there is refuted: C127_unspaced_refuted (:dir:a), C127_after_title_refuted (an entry on the line after a section title), C127_listing_refuted (an entry in a listing after an empty line counts for the directive), C127_author_refuted (attributes from the author line are not known). |
| C128 | Using a parser again, and what section numbers have an influence on | the whole of parse: preprocessor, header, blocks, document, and the whole inline layer | Again_Spec has the parser and the document without numbers. Two runs are compared: for each function, if the parsers are the same without numbers then so are the results (all three fates), by induction over the fuel for the loops; that the inline layer reads the attributes only is mostly by conversion (the parser replaced by one with only the attributes), then by induction over steps and fuel. What is kept: the induction principle over blocks of Shape_Proof with an invariant | as stated. Proved as stated. That the same text gets the same numbers again is refuted for appendices (C128_twice_refuted: A the first time, B the second). |
| C129 | What is between the delimiters of a raw block stays there | raw_parse, block_parse_with, blocks_loop, section_stop (Block_Model), header and preprocessor for the refutations | boxed in Boxed_Spec says by lines what the content and the rest are. The block by the law of raw_parse (C32) and by showing that no metadata, entry or title is on a delimiter line; the rest by the independence of places (C123), blocks before by C124. That the substitutions of the crate have a result there by C41 | as stated. Proved for blocks at any place and for the loops over blocks. Refuted: a comment block before the title of a document, after which there is no header (C129_before_title_refuted; a comment line is all right), and for parse with its preprocessor, which carries out include directives in comments (C129_include_refuted). |
| C130 | An include directive is as good as the text of the file there | preprocess with pre_loop (Pre_Model), document_parse and parser_parse (Doc_Model) | Paste_Spec has the text in parts, as it is written and with the files pasted in. Two runs of the loop at different places and files but on the same text agree in all but source map and line numbers (induction over the fuel); lines without directives do the same in any file; then a directive by the two, and all of them by induction over the parts | as stated. Proved for texts that the preprocessor looks at (a file name is given, or a directive or a line beginning with if is left). Refuted: for a file that ends in an entry with a backslash, which does not go on in the line after the directive (C130_last_entry_refuted), and for texts that are not looked at any more once the file is in them, where a listing keeps the CR at the end of its lines (C130_short_cut_refuted). |
| C131 | A text between the delimiters of a compound block is read as a document of its own | compound_parse, block_parse_with, blocks_loop, section_stop (Block_Model) | wrapped in Wrap_Spec says by lines what is inside and what is left. The block is shown to be the run of the loop on the text inside, all three fates; that this is the run of the text alone, and the same for the rest, by the independence of places (C123); the nesting by induction over the delimiters | as stated. Proved for blocks at any place, and for the loops over the blocks of documents, compound blocks and sections. Refuted: where a line in a listing reads as the delimiter of the block that the listing is in (C131_listing_refuted), and for the warnings in a section if the delimiter has more than six equals signs (C131_section_refuted, from C106). |
| C132 | The text of a section is read as a document of its own | section_parse, section_stop, peer_or_ancestor_section, block_parse_with, blocks_loop (Block_Model) | deeper in Chapter_Spec speaks of the lines of the text only. That the stop function never stops is shown at each place the loop comes to, which is the beginning of a line (C124); so the two loops agree by induction over the fuel. The section by inversion of section_parse, with the independence of places (C123) and of numbers (C128) | as stated. Proved for the loop in both directions (the second for texts without a blank at the beginning of a line), for a section and for a document of one section. Refuted without the conditions: an indented line makes the parser break down in a section only (C132_indented_refuted, from C35), and a title of the same level ends the section (C132_title_refuted). |
| C133 | What is written about warnings and catalogs | message, debug_warning, quoted, sort_keys, show_map, show_catalog (Show_Model); the sort of the standard library is modelled by insertion | each part that is written is shown to be self-ending (what was written and where it ends can be told from it), characters by cases with the hexadecimal digits read back, lists by induction; a list in ascending order is determined by its entries, so the sort forgets the order they came in | as stated. As stated, for the form without line breaks. Which characters are written as they are is an argument, and the theorems hold for all tables. Refuted: that the entries are in the order of the ids themselves (C133_key_order_refuted: the closing quote is compared too). |
| C134 | What is written about places, warnings, strings, values, section numbers and source maps | show_span, show_warning, show_list, show_slice, show_inline, show_cow, pretty_cow, show_value, show_section_type, debug_section_number, show_line, show_source_map, show_style, show_break, show_media, show_model (Tell_Model) | each part is self-ending, or tells its end where no digit follows (numbers); lists of such parts by induction, structures part by part; the form of strings with [#] by C10 | as stated. As stated, for the form without line breaks, and for strings also the form with [#]. Which characters are written as they are is an argument. Refuted: that equal strings are written in the same way without [#] (C134_equal_strings_refuted: not even a string and its clone), and that source maps with the same answers are (C134_equal_maps_refuted). |

## 5. Assumptions listed by Print Assumptions

For every theorem named in `MANIFEST.json`, `Print Assumptions` says `Closed under the global context`:
no axiom is used.  A checker that lists the axioms of everything loaded (`coqchk`) also shows seven parameters of the
module type `Coq.ssr.ssrunder.Under_rel`.  They come with the standard library's `lia`
(through `ZifyBool` and `ssrbool`) and no theorem depends on them.


## 6. Findings

Where the faithful model does not have the property, a theorem `…_refuted` gives a witness (computed
by `vm_compute`), and the part that does hold is proved beside it.

* **C16 API-locked attributes cannot be changed by the header's implicit attributes** (`C16_header_changes_locked_attributes_refuted`, `C16_implicit_header_write_ignores_lock_refuted`): set_attribute_by_value_from_header has no permission check; shown on the parser state and on a whole header. The exact behaviour is proved.
* **C19 Attribute names are case-insensitive** (`C19_lookup_is_case_sensitive_refuted`, `C19_api_lookup_is_case_sensitive_refuted`): as stated (lookup is case-sensitive, storage is lower-case); the positive part is proved.
* **C21 Parsing twice gives the same numbers** (`C21_numbers_start_afresh_refuted`): the counter of the appendices is not reset between documents; shown on the state with which a document is parsed. The ordinary counter is proved to start afresh.
* **C24 Preprocessing is the identity without directives** (`C24_identity_without_directives_refuted`): a line that merely starts with "if" makes the preprocessor rewrite the document (final newline added, line ends normalised). Proved for documents without any line that starts with "include::" or "if".
* **C25 Include expansion terminates** (`C25_expansion_terminates_refuted`): a file that includes itself is expanded for ever. Proved for handlers whose includes do not go in circles (a rank on files decreases).
* **C26 The source map tells the truth about every output line** (`C26_source_map_is_right_refuted`): a blank line after a continued attribute entry is lost and the map is off by one. Proved for all documents without one (and file names without newlines).
* **C27 Web paths are normalised** (`C27_no_empty_segment_refuted`, `C27_relative_stays_relative_refuted`, `C27_no_backslash_refuted`): for empty segments and for backslashes on platforms with another separator; the exact shape and idempotence are proved.
* **C33 Parsing terminates on every document** (`C33_parsing_gives_a_result_refuted`): a raw delimited block that has only empty lines after it makes the loop over the blocks run for ever (C33_parsing_gives_a_result_refuted, and C33_blank_lines_after_a_raw_block for every such text, place and parser state). Shown to hold, with one round for each character, for every document without directive lines whose text after the header is in the class 'tame' of Total_Spec.v, for every inline substitution that gives a result on a closed class of texts that the lines of the document are in (C33_parsing_gives_a_result_on_tame_documents).
* **C35 Heading-level arithmetic never overflows** (`C35_no_underflow_refuted`): an indented line inside a section makes the subtraction go below zero (a panic in a checked build). Proved that this happens exactly for lines that begin with a space or tab, and that headings are recognised by their grammar otherwise. Additions are on unbounded numbers; the level is at most five.
* **C36 Block order and nesting** (`C36_nested_refuted`): as stated: the span of a section is cut at trailing white space, so an unterminated raw block in it ends later than its section (C36_nested_refuted). Proved for all documents: siblings in order without overlap at every depth; nested spans begin inside the parent and go over its end by white space at most.
* **C37 All three media block macros are recognised** (`C37_audio_lines_are_media_refuted`): for audio: the test for "audio::" is missing, so such a line is a paragraph, proved for every target. Proved for image and video.
* **C42 Formatting replacement with look-ahead keeps the surrounding text** (`C42_never_panics_refuted`, `C42_text_is_kept_refuted`): the candidate of a monospaced mark that is followed by a quote makes the look-ahead loop panic or lose text. Proved for the other eleven marks on all texts, and for that one on texts where no backtick is followed by a quote or backtick; proved that the loop always ends.
* **C43 Inline passthroughs are restored** (`C43_restoring_ends_refuted`, `C43_spoofed_placeholder_refuted`, `C43_look_alikes_are_kept_refuted`, `C43_each_in_its_place_refuted`, `C43_exactly_once_refuted`): restoring can run for ever (also for plain ASCII text in the old "[x-]" syntax), placeholder look-alikes are replaced next to a passthrough, passthroughs can be mixed up or repeated. Proved: extraction always ends, restoring ends for texts without the internal character and without "[", placeholders are replaced in place, and one passthrough in plain text keeps its surroundings. The Unicode table is assumed not to call U+0097 a digit.
* **C44 Links that open a new window are isolated** (`C44_links_are_isolated_refuted`): with the nofollow option, "noopener" is written outside the rel value. Proved for links without that option.
* **C45 Rendered HTML attributes cannot be broken out of** (`C45_image_is_clean_refuted`): width, height and target are written without encoding. Proved that the element is clean when those hold no quote or angle bracket (alt and title are encoded).
* **C46 URI component encoding is reversible** (`C46_only_unreserved_refuted`): Proved reversible and made of safe characters only; that only unreserved characters stay is refuted ("*" is left as it is).
* **C47 Inline macros never panic** (`C47_never_panics_refuted`): four macros panic ("image:[]", "link:a[b]", "https://a.b&gt;", "image:a.svg[opts=inline]"). Proved per kind of macro for all texts outside those cases.
* **C49 A block's id is the id in the catalog** (`C49_ids_are_registered_refuted`): with an anchor and an attribute-list id the section reports the first and registers the second. Proved when the two agree or only one is present.
* **C50 Unterminated raw blocks are rendered like terminated ones** (`C50_unterminated_raw_blocks_are_substituted_refuted`): no substitutions are applied; proved that such a block always shows its source text.
* **C52 Paragraph text** (`C52_blank_lines_end_paragraphs_refuted`): in one point: a line of tabs is blank elsewhere but does not end a paragraph. The text is proved for the line reading that the code has (blank means spaces only). For spans that begin a line.
* **C54 A header write does not unlock the body** (`C54_header_write_unlocks_the_body_refuted`): any permitted write resets the context to Anywhere.
* **C56 Appendices are numbered with letters** (`C56_appendix_27_is_not_a_letter_refuted`): for the 27th appendix; the first 26 are proved.
* **C58 Em dash only at the documented places** (`C58_em_dash_only_at_documented_places_refuted`): the regular expression ends in a start-half word boundary, which always holds after a hyphen ("foo-- bar").
* **C60 Positions of positional attributes** (`C60_positions_count_empty_entries_refuted`): an empty entry is dropped and later entries move up ("a,,b").
* **C61 Blanks around unquoted values** (`C61_unquoted_values_are_trimmed_refuted`): for a trailing tab; leading blanks and trailing spaces are proved absent.
* **C62 Unterminated quotes** (`C62_unterminated_quote_is_kept_as_written_refuted`): escapes are dropped, and Normal substitutions applied to single-quoted values, also when the closing quote is missing.
* **C63 Shorthand items are not empty** (`C63_shorthand_items_are_not_empty_refuted`): for roles (". #id"); proved that the items themselves, with their marker, are trimmed and non-empty.
* **C64 Attribute values are offset from the colon** (`C64_values_are_offset_refuted`): (":a:b").
* **C65 Line continuation** (`C65_continuation_needs_a_space_refuted`): a backslash with no space before it continues the line.
* **C66 Hard wraps** (`C66_hard_wraps_keep_their_mark_refuted`): the mark is dropped; proved that exactly the newline remains.
* **C67 Unresolved directives are mapped** (`C67_unresolved_lines_are_mapped_refuted`): when the directive is the first line of a named file.
* **C68 Repeated separators in section ids** (`C68_no_doubled_separator_refuted`): the prefix is put in front last (".NET" gives "__net"); where doubled separators can occur is proved.
* **C69 Markup does not get into section ids** (`C69_markup_removed_refuted`, `C69_tags_removed_refuted`): the greedy last alternative takes the mark that opens the markup ("(&amp;)"). Proved equal to the documented process when no removed character stands directly before markup.
* **C70 Include directives are carried out** (`C70_directives_are_carried_out_refuted`): for an attribute list of one character; proved for all others (files without line continuations, file names without newlines).
* **C75 The header is always read** (`C75_header_is_read_refuted`): a title with nested old-style passthroughs is never finished. Proved for documents without opening brackets and internal characters.
* **C76 A version and a remark** (`C76_version_and_remark_refuted`): "7.5: remark" is taken as a date; proved with the prefix.
* **C77 The first empty line ends the header** (`C77_empty_line_ends_the_header_refuted`): when no title precedes the empty line; proved when one does.
* **C78 Underscores in author names are not displayed** (`C78_compound_name_in_entry_refuted`): for an author entry; proved for author lines.
* **C79 Header values are substituted** (`C79_revision_attributes_refuted`): for the revision line; proved for attribute entries.
* **C80 Blank lines before the title** (`C80_blank_line_before_the_title_refuted`): for a line with a tab; proved for lines of spaces.
* **C81 Section numbers in document order** (`C81_minus_one_refuted`): For every substitution function and every parser state that the code can leave behind (C81_parsers_are_sane).
* **C82 Numbers of appendices and special sections** (`C82_appendix_without_sectnums_refuted`, `C82_special_sections_refuted`): an appendix gets no number without sectnums; a preface is numbered with any value of sectnums.
* **C83 Section types** (`C83_section_types_refuted`): as stated: a section of level 1 in a delimited block ends the appendix around it, so the sections after it are normal ones. Proved for all documents in which no section of level 1 is inside another section.
* **C84 The catalog holds what the blocks register** (`C84_break_ids_refuted`): in one point: a break with an id is not registered (C84_break_ids_refuted). Proved for all blocks of other kinds, for all documents.
* **C85 Texts for references** (`C85_anchor_reftext_refuted`, `C85_block_reftext_refuted`): the text in the block anchor is used nowhere, and the reftext attribute only for sections. Proved for the reftext attribute of sections.
* **C86 Attribute entries act on what follows** (`C86_title_refuted`, `C86_id_refuted`): the title and the id of a section are made after the blocks in it, so entries within the section change them.
* **C87 The preamble** (`C87_discrete_heading_refuted`): in one point: a discrete heading ends the preamble. Proved for all lists of blocks, where discrete headings count as sections.
* **C88 Block metadata** (`C88_several_attribute_lines_refuted`, `C88_any_bracket_line_refuted`, `C88_titles_have_text_refuted`): in three points against the documentation: a second attribute line is text of the paragraph; a line in brackets that begins with a blank is text; a dot alone is a title with no text. Proved for all texts, with one line of each kind at most (C88_metadata, C88_lines_are_determined).
* **C89 The kind of a block** (`C89_spaces_in_breaks_refuted`): For every parser of inner blocks. Where the first line has only tabs nothing is claimed (see C52). Refuted in one point: a thematic break with two spaces between the characters is a paragraph.
* **C91 Attribute entries between blocks** (`C91_entries_between_blocks_refuted`): after a delimited block and an empty line an entry is shown as a paragraph and sets nothing (C91_entries_between_blocks_refuted); where an empty line comes first no entry is ever found (C91_no_entry_after_an_empty_line).
* **C92 The outline of a document** (`C92_discrete_by_reference_refuted`, `C92_literal_paragraph_refuted`, `C92_tab_line_refuted`): in three points: what ends a section is found with a parser that has no attributes of the document, so a discrete heading whose style is written with an attribute reference ends the section; a paragraph of the style literal that looks like a title ends the section; after a delimited block a line of one tab makes the title below it text. Proved for all documents without tabs and without references or single quotes in brackets, where such literal paragraphs are the one exception (C92_outline).
* **C93 Where sections may be** (`C93_sections_in_delimited_blocks_refuted`): a title line in a delimited block gives a section in that block, with no warning. Proved: a block that has a section in it is a section or a delimited block.
* **C94 Section levels are not skipped** (`C94_first_of_document_refuted`, `C94_second_skip_refuted`, `C94_place_refuted`): in three points: the first section of the document may be of any level; the second section that skips a level is not reported; after a delimited block the warning is at the empty line above the title. Proved: a section that skips a level, compared with the section before it in the same section or else with that section itself, is reported (C94_skipped_levels_reported).
* **C95 E-mail addresses** (`C95_long_suffix_refuted`): Exact: the step's output is the rewriting by the rule of the specification (C95_addresses_are_linked), and that is all the macros do without colons and brackets. After one of > : / an address is left alone, which is not documented. Refuted in one point: of an address with a longer suffix the beginning is linked.
* **C96 Macros leave each other's markup alone** (`C96_whole_markup_refuted`, `C96_image_refuted`): an address in the target of a link or image is linked again inside the HTML attribute (C96_whole_markup_refuted, C96_image_refuted). Proved for texts without colons and brackets.
* **C98 Link and mailto macros** (`C98_title_refuted`, `C98_equation_refuted`, `C98_bracket_refuted`, `C98_roles_in_text_refuted`): Exact: the output of the step is the replacement of the macros of the specification (C98_link_macros), which says what the code does; attribute lists are read by a parameter whose laws are those of the attribute list properties. Refuted in four documented points: the title is lost, text with an equals sign after a number is lost, an escaped bracket keeps its backslash when there are attributes, and dots and number signs in the text become roles and ids. A target of one character panics (C47).
* **C99 URLs in text** (`C99_mailto_refuted`, `C99_equation_refuted`, `C99_link_prefix_refuted`, `C99_cut_reference_refuted`): Exact: the output of the step is the replacement of the URLs of the specification (C99_urls); exactly where it panics is C99_no_result. Refuted in four points: the documented scheme mailto is not linked, text with an equals sign after a number is lost, link: before a URL without brackets is kept before a link although the code means to leave both alone, and a URL that ends in a character reference is cut inside it.
* **C100 Images in text** (`C100_id_refuted`, `C100_one_character_refuted`, `C100_empty_directory_refuted`, `C100_empty_directory_in_header_refuted`, `C100_roles_in_text_refuted`): Exact: the output of the step is the replacement of the macros of the specification (C100_pictures), attribute lists being read by a parameter; exactly where it has no result is C100_no_result. Refuted in four points: the id is lost, a target of one character is not found, an empty directory of images (the documented default value) gives absolute paths, and text after a dot in the alternative text becomes a role.
* **C101 Icons in text** (`C101_extension_refuted`, `C101_first_position_refuted`, `C101_rotation_refuted`, `C101_directory_of_images_refuted`, `C101_unset_refuted`): Exact as C100. Refuted in five points: a second extension is added, text in the first position is not the alternative text, rotation is lost with a flip, the directory of images is not used for icons, and unsetting the attribute icons shows images although leaving it unset shows text (the code asks whether the attribute has an entry, not whether it is set).
* **C102 Substitutions of blocks** (`C102_reported_group_refuted`, `C102_literal_paragraph_refuted`, `C102_listing_style_refuted`, `C102_callouts_refuted`, `C102_unclosed_refuted`, `C102_pass_with_list_refuted`, `C102_pass_open_refuted`): For all documents and all blocks in them the text comes from the source by the group that the specification chooses (C102_texts, C102_group); the specification takes over the defaults of the code. Refuted where these differ from the documentation: literal paragraphs and paragraphs with the style listing get the normal substitutions, a list with the documented step callouts is ignored as a whole, a listing that is not closed is not escaped, the default of the style pass is not none when a list changes it, and the style pass has no effect on an open block. Also refuted: substitution_group reports the default for paragraphs but the customized group for verbatim blocks.
* **C103 Contexts and content models** (`C103_admonition_refuted`, `C103_source_style_refuted`, `C103_permitted_contexts_refuted`, `C103_content_model_refuted`, `C103_comment_block_refuted`, `C103_discrete_heading_refuted`): For all documents: the implied context has the content model of the table, which it determines; what is in a block fits its model; the resolved context is the declared style if it is built in, else the implied one. Refuted where the documentation asks for more: NOTE and source do not change the context, any context is taken over whatever its content model, a listing made of an open block has blocks in it, a comment block is preserved with a context and its text, and a discrete heading is a section.
* **C104 Ids that blocks report** (`C104_generated_ids_refuted`, `C104_macro_attributes_refuted`): For all documents the reported id is the given one, and it is in the catalog (breaks and sections with two ids excepted, see C84 and C49). Refuted: asked of the Block, a section does not report the id generated for it; id, title and role in the list of an image macro are not reported and the id is not registered.
* **C106 Warnings point at what they are about** (`C106_highlighted_text_refuted`, `C106_example_delimiter_refuted`, `C106_missing_block_refuted`, `C106_order_refuted`, `C106_block_macro_refuted`): For all documents and all kinds of warnings. Refuted where more is expected: highlighted text at the start of a paragraph is reported as a heading of level 0; the delimiter of an example block in a section as a heading too deep; the warning about an attribute list without a block spans the rest of the document; warnings are not in document order; what is wrong with a block macro is not reported.
* **C107 Duplicate ids are reported exactly** (`C107_breaks_refuted`, `C107_inline_anchors_refuted`, `C107_section_reported_refuted`): For all documents, as a permutation and as counts. Refuted where more is expected: ids of breaks and of inline anchors are not checked, and a section is reported although it comes before the block in it that has the same id.
* **C108 The order of the substitutions** (`C108_a_link_in_a_link_refuted`): The macro step exactly (iff); the groups for texts without passthroughs (C43 covers those) and documents without the hardbreaks option. Refuted where more is expected: a link in the text of a link is replaced too, inside an attribute of the outer one.
* **C110 Predefined attributes** (`C110_character_replacements_refuted`, `C110_reassigning_refuted`, `C110_sectnumlevels_refuted`, `C110_effective_value_refuted`, `C110_iconsdir_refuted`): The four character replacements that exist, after every document; the seven settings and their defaults. Refuted: the other 27 documented replacements do not exist; the ones that exist cannot be reassigned; sectnumlevels cannot be changed in the body and its implied value can be referenced; a reference to toc or sectnums gives the effective value; iconsdir does not follow imagesdir.
* **C112 Documents are read back as they were meant** (`C112_an_empty_line_at_the_end_refuted`, `C112_audio_refuted`): With any inline layer whenever there is a result; with the real one plain documents have a result and come back exactly, and documents with markup as C108 says. Refuted: with one empty line more after the last delimited block the parser does not stop; audio macros come back as paragraphs.
* **C113 The warnings about a written document** (`C113_first_level_refuted`, `C113_not_headings_refuted`): With any inline layer whenever there is a result, and with the real one for plain documents; media without attribute lists. Refuted: a section that is too deep at the beginning of a document is not noticed; a highlighted word at the beginning of a paragraph is noticed as a title, twice in a section; so is the long delimiter of an example block.
* **C114 Text brings in no tags of its own** (`C114_nested_refuted`, `C114_in_values_refuted`): For texts without brackets and texts without colons, without + and $, backticks alone. Refuted: the tags are not always one inside the other; a tag can come to be inside the value of an attribute of another one. The conditions are shown to be needed.
* **C115 Which passthroughs a text has** (`C115_known_names_apply_refuted`): The extraction is exactly the one of the specification. Refuted: a name in pass:c,junk[] that is not understood takes away the substitutions that are named beside it, so that special characters are not replaced.
* **C116 Authors with attribute references** (`C116_values_are_not_taken_apart_refuted`, `C116_kept_whole_refuted`, `C116_special_characters_refuted`): What every author text means is characterised exactly. Refuted: text that has not the form of an author is filled in first, and then the words of a value become first and middle name; so is a name that should be kept whole by {empty}; whether special characters are replaced depends on the number of references, and the replacements can become names.
* **C117 A document brings in no tags of its own** (`C117_revision_refuted`, `C117_address_refuted`): Proved for whole documents, for both classes of texts of C114. Refuted without the conditions on author and revision lines: the parts of a revision line and an address with a second < are stored without replacing special characters, and get into the text as they are.
* **C118 The places of the parts of a document** (`C118_inside_refuted`): Proved for every part of headers and blocks but one. Refuted for that one: where there is no block after a title, an anchor and an attribute list, the first line becomes a paragraph that keeps the text of the anchor, which is in a later line and not in the paragraph (C118_inside_refuted).
* **C119 A block is found wherever there is text** (`C119_parsing_gives_a_result_refuted`): an anchor alone, [literal] alone and a line of white space other than spaces give no block, and the loop over the blocks never ends on them (C119_parsing_gives_a_result_refuted, C119_document); the anchor does not count as metadata in BlockMetadata::is_empty, and the check for metadata without a block is skipped for the style literal. Proved: these are the only such places (C119_no_block).
* **C120 What becomes of a document** (`C120_parsing_does_not_panic_refuted`): The three fates are proved to be the only ones, with the places where they are decided; so a document without indented lines does not panic (C120_no_panic_without_indented_lines). The hypothesis is an inline layer that gives a text for every text; the one of the model can fail by itself (C42, C47). Refuted that no document panics: C120_parsing_does_not_panic_refuted (an indented line in a section).
* **C122 Tidy documents have a result** (`C122_empty_lines_at_the_end_refuted`, `C122_empty_line_before_a_delimiter_refuted`): Proved for all tidy documents, with the lines that everything else goes wrong over. Refuted: empty lines at the end matter. After an attribute entry in the body, a compound block or a verbatim block, an empty line at the end of the document or before a closing delimiter makes the loop over the blocks endless (C122_empty_lines_at_the_end_refuted, C122_empty_line_before_a_delimiter_refuted): these three do not discard empty lines after them, as the other blocks do.
* **C123 What stands at a place does not depend on the place** (`C123_a_line_with_a_tab_refuted`): Proved for all places where lines begin, and for all lines of spaces before a document. Refuted for lines with other white space (C123_a_line_with_a_tab_refuted): with a tab in the line before it, the title of a document is a paragraph.
* **C124 What comes after an empty line does not change the blocks before it** (`C124_unterminated_refuted`, `C124_section_refuted`, `C124_entry_refuted`, `C124_backslash_refuted`, `C124_same_warnings_refuted`): Proved for single blocks, for two texts and for any number of chapters. Warnings are the same but for one: that a block is missing after a title is said of all the text that comes after, so that its span grows (C124_same_warnings_refuted). Without the conditions it is refuted: a block that is not closed, a section before a text that is no chapter, an attribute entry after a delimited block (a paragraph there, see C91), and a backslash at the end of an entry (C124_unterminated_refuted, C124_section_refuted, C124_entry_refuted, C124_backslash_refuted).
* **C125 The short cut for paragraphs makes no difference** (`C125_shortcut_everywhere_refuted`): Proved for all places but those where a line of white space comes first that is not all spaces. There the short cut makes a difference: C125_shortcut_everywhere_refuted (a section is a paragraph after a line with a tab).
* **C126 Line endings do not matter** (`C126_verbatim_refuted`, `C126_if_refuted`, `C126_author_refuted`): Proved for blocks, documents and the whole of parse, with exact spans and all three fates. Refuted where the property leaves something out: C126_verbatim_refuted (CR stays in verbatim text and a hard break there is lost), C126_if_refuted (the CRs go away if any line of the text begins with `if`), C126_author_refuted (an :author: entry over two lines yields another first name).
* **C127 What an include directive knows of the attributes** (`C127_unspaced_refuted`, `C127_after_title_refuted`, `C127_listing_refuted`, `C127_author_refuted`): Proved as stated. That the directive sees what the document has there is refuted: C127_unspaced_refuted (:dir:a), C127_after_title_refuted (an entry on the line after a section title), C127_listing_refuted (an entry in a listing after an empty line counts for the directive), C127_author_refuted (attributes from the author line are not known).
* **C128 Using a parser again, and what section numbers have an influence on** (`C128_twice_refuted`): Proved as stated. That the same text gets the same numbers again is refuted for appendices (C128_twice_refuted: A the first time, B the second).
* **C129 What is between the delimiters of a raw block stays there** (`C129_before_title_refuted`, `C129_include_refuted`): Proved for blocks at any place and for the loops over blocks. Refuted: a comment block before the title of a document, after which there is no header (C129_before_title_refuted; a comment line is all right), and for parse with its preprocessor, which carries out include directives in comments (C129_include_refuted).
* **C130 An include directive is as good as the text of the file there** (`C130_last_entry_refuted`, `C130_short_cut_refuted`): Proved for texts that the preprocessor looks at (a file name is given, or a directive or a line beginning with if is left). Refuted: for a file that ends in an entry with a backslash, which does not go on in the line after the directive (C130_last_entry_refuted), and for texts that are not looked at any more once the file is in them, where a listing keeps the CR at the end of its lines (C130_short_cut_refuted).
* **C131 A text between the delimiters of a compound block is read as a document of its own** (`C131_listing_refuted`, `C131_section_refuted`): Proved for blocks at any place, and for the loops over the blocks of documents, compound blocks and sections. Refuted: where a line in a listing reads as the delimiter of the block that the listing is in (C131_listing_refuted), and for the warnings in a section if the delimiter has more than six equals signs (C131_section_refuted, from C106).
* **C132 The text of a section is read as a document of its own** (`C132_indented_refuted`, `C132_title_refuted`): Proved for the loop in both directions (the second for texts without a blank at the beginning of a line), for a section and for a document of one section. Refuted without the conditions: an indented line makes the parser break down in a section only (C132_indented_refuted, from C35), and a title of the same level ends the section (C132_title_refuted).
* **C133 What is written about warnings and catalogs** (`C133_key_order_refuted`): As stated, for the form without line breaks. Which characters are written as they are is an argument, and the theorems hold for all tables. Refuted: that the entries are in the order of the ids themselves (C133_key_order_refuted: the closing quote is compared too).
* **C134 What is written about places, warnings, strings, values, section numbers and source maps** (`C134_equal_strings_refuted`, `C134_equal_maps_refuted`): As stated, for the form without line breaks, and for strings also the form with [#]. Which characters are written as they are is an argument. Refuted: that equal strings are written in the same way without [#] (C134_equal_strings_refuted: not even a string and its clone), and that source maps with the same answers are (C134_equal_maps_refuted).
