{
 "claims": [
  {
   "property": "C01",
   "status": "proved",
   "theorems": [
    "C01_span_coordinates_exact",
    "C01_span_coordinates_preserved"
   ],
   "note": "Over all finite chains of the modelled span operations."
  },
  {
   "property": "C02",
   "status": "proved",
   "theorems": [
    "C02_take_line_partition",
    "C02_take_normalized_line_partition",
    "C02_take_non_empty_line_partition",
    "C02_take_non_empty_line_none",
    "C02_take_while_partition",
    "C02_take_prefix_partition",
    "C02_split_partition"
   ],
   "note": "One partition law per reader."
  },
  {
   "property": "C03",
   "status": "proved",
   "theorems": [
    "C03_index_free_operations_never_panic",
    "C03_split_panics_iff_inside_character",
    "C03_trim_remainder_never_panics"
   ],
   "note": "Operations that compute their own index never panic; the index-taking primitive panics exactly inside a character; trim_remainder never panics on spans of one document."
  },
  {
   "property": "C04",
   "status": "proved",
   "theorems": [
    "C04_lines_read_are_the_lines",
    "C04_normalized_lines_read_are_the_lines",
    "C04_every_document_has_lines"
   ],
   "note": "For take_line and take_normalized_line."
  },
  {
   "property": "C05",
   "status": "proved",
   "theorems": [
    "C05_skipping_blank_lines",
    "C05_skipping_is_idempotent"
   ],
   "note": "Blank means spaces and tabs with at most one final CR, as in the code."
  },
  {
   "property": "C06",
   "status": "proved",
   "theorems": [
    "C06_line_continuation",
    "C06_line_continuation_progress"
   ],
   "note": ""
  },
  {
   "property": "C07",
   "status": "proved",
   "theorems": [
    "C07_quoted_value_iff"
   ],
   "note": ""
  },
  {
   "property": "C08",
   "status": "proved",
   "theorems": [
    "C08_ident",
    "C08_attr_name",
    "C08_user_attr_name",
    "C08_xml_name"
   ],
   "note": "take_ident, take_attr_name, take_user_attr_name."
  },
  {
   "property": "C09",
   "status": "proved",
   "theorems": [
    "C09_block_text_ends_at_resume_position"
   ],
   "note": ""
  },
  {
   "property": "C10",
   "status": "proved",
   "theorems": [
    "C10_equality_is_equality_of_texts",
    "C10_equal_values_hash_equally",
    "C10_clone_keeps_text",
    "C10_conversions_keep_text"
   ],
   "note": "InlineStr modelled as its byte array with a strict UTF-8 decoder; hash for any hash function of the text."
  },
  {
   "property": "C11",
   "status": "proved",
   "theorems": [
    "C11_inline_iff_fits",
    "C11_inline_round_trip",
    "C11_inline_equality",
    "C11_inline_char_round_trip",
    "C11_padding",
    "C11_one_form"
   ],
   "note": "64-bit target (22 bytes)."
  },
  {
   "property": "C12",
   "status": "proved",
   "theorems": [
    "C12_registrations_follow_the_log",
    "C12_log_is_determined",
    "C12_register_succeeds_iff_new"
   ],
   "note": "Refinement to a log of registrations."
  },
  {
   "property": "C13",
   "status": "proved",
   "theorems": [
    "C13_lookups_return_first_registration",
    "C13_log_unique"
   ],
   "note": ""
  },
  {
   "property": "C14",
   "status": "proved",
   "theorems": [
    "C14_generated_ids_fresh_and_minimal",
    "C14_decimal_notation"
   ],
   "note": "Overflow of the i32 counter is not modelled."
  },
  {
   "property": "C15",
   "status": "proved",
   "theorems": [
    "C15_locked_attribute_is_never_changed",
    "C15_refusal_is_reported_at_the_entry"
   ],
   "note": "Any sequence of header and body entries."
  },
  {
   "property": "C16",
   "status": "proved",
   "theorems": [
    "C16_header_changes_locked_attributes_refuted",
    "C16_implicit_header_write_ignores_lock_refuted",
    "C16_implicit_header_write_always_overwrites"
   ],
   "note": "Refuted: set_attribute_by_value_from_header has no permission check; shown on the parser state and on a whole header. The exact behaviour is proved."
  },
  {
   "property": "C17",
   "status": "proved",
   "theorems": [
    "C17_last_permitted_entry_wins",
    "C17_other_attributes_unaffected",
    "C17_refused_entries_are_counted",
    "C17_stored_name"
   ],
   "note": "The permitted entries are given by an explicit specification per initial context."
  },
  {
   "property": "C18",
   "status": "proved",
   "theorems": [
    "C18_header_only_attribute_frozen_in_body"
   ],
   "note": "From a state where the context is ApiOrHeader; see C54 for what happens after a header write."
  },
  {
   "property": "C19",
   "status": "proved",
   "theorems": [
    "C19_lookup_is_case_sensitive_refuted",
    "C19_api_lookup_is_case_sensitive_refuted",
    "C19_reading_the_lower_case_name",
    "C19_api_reading_the_lower_case_name"
   ],
   "note": "Refuted as stated (lookup is case-sensitive, storage is lower-case); the positive part is proved."
  },
  {
   "property": "C20",
   "status": "proved",
   "theorems": [
    "C20_next_number",
    "C20_numbers_are_consecutive",
    "C20_numbers_strictly_increase",
    "C20_order_is_strict",
    "C20_parser_counters"
   ],
   "note": ""
  },
  {
   "property": "C21",
   "status": "proved",
   "theorems": [
    "C21_numbers_start_afresh_refuted",
    "C21_ordinary_numbers_start_afresh"
   ],
   "note": "Refuted: the counter of the appendices is not reset between documents; shown on the state with which a document is parsed. The ordinary counter is proved to start afresh."
  },
  {
   "property": "C22",
   "status": "proved",
   "theorems": [
    "C22_section_id_shape"
   ],
   "note": ""
  },
  {
   "property": "C23",
   "status": "proved",
   "theorems": [
    "C23_lookup_uses_the_last_entry_before",
    "C23_lines_before_the_first_entry_map_to_themselves",
    "C23_lookup_is_total",
    "C23_append_keeps_the_order"
   ],
   "note": "The binary search of the standard library is modelled by its loop."
  },
  {
   "property": "C24",
   "status": "proved",
   "theorems": [
    "C24_identity_without_directives_refuted",
    "C24_identity_without_directive_lines"
   ],
   "note": "Refuted: a line that merely starts with \"if\" makes the preprocessor rewrite the document (final newline added, line ends normalised). Proved for documents without any line that starts with \"include::\" or \"if\"."
  },
  {
   "property": "C25",
   "status": "proved",
   "theorems": [
    "C25_expansion_terminates_refuted",
    "C25_expansion_terminates_for_ranked_handlers"
   ],
   "note": "Refuted: a file that includes itself is expanded for ever. Proved for handlers whose includes do not go in circles (a rank on files decreases)."
  },
  {
   "property": "C26",
   "status": "proved",
   "theorems": [
    "C26_source_map_is_right",
    "C26_source_map_is_right_refuted"
   ],
   "note": "Refuted: a blank line after a continued attribute entry is lost and the map is off by one. Proved for all documents without one (and file names without newlines)."
  },
  {
   "property": "C27",
   "status": "proved",
   "theorems": [
    "C27_resolved_path_shape",
    "C27_resolving_is_idempotent",
    "C27_no_empty_segment_refuted",
    "C27_relative_stays_relative_refuted",
    "C27_no_backslash_refuted"
   ],
   "note": "Refuted for empty segments and for backslashes on platforms with another separator; the exact shape and idempotence are proved."
  },
  {
   "property": "C28",
   "status": "proved",
   "theorems": [
    "C28_positional_lookup",
    "C28_named_lookup",
    "C28_combined_lookup"
   ],
   "note": ""
  },
  {
   "property": "C29",
   "status": "proved",
   "theorems": [
    "C29_parsing_is_total_and_values_come_from_the_source",
    "C29_accessors_are_total",
    "C29_named_roles_and_options",
    "C29_roles_and_options"
   ],
   "note": "For every total Normal substitution, passed as an argument."
  },
  {
   "property": "C30",
   "status": "proved",
   "theorems": [
    "C30_shorthand_round_trip"
   ],
   "note": "Style and items made of characters without a meaning of their own."
  },
  {
   "property": "C31",
   "status": "proved",
   "theorems": [
    "C31_raw_delimiters",
    "C31_compound_delimiters",
    "C31_never_both"
   ],
   "note": ""
  },
  {
   "property": "C32",
   "status": "proved",
   "theorems": [
    "C32_cut_is_determined",
    "C32_raw_block_closed",
    "C32_raw_block_open",
    "C32_no_delimiter_no_block",
    "C32_compound_block_closed",
    "C32_compound_block_open"
   ],
   "note": "For raw and compound blocks, with and without a closing delimiter."
  },
  {
   "property": "C33",
   "status": "proved",
   "theorems": [
    "C33_blank_lines_after_a_raw_block",
    "C33_parsing_gives_a_result_refuted",
    "C33_blocks_are_parsed",
    "C33_document_is_parsed",
    "C33_parsing_gives_a_result_on_tame_documents"
   ],
   "note": "Refuted: a raw delimited block that has only empty lines after it makes the loop over the blocks run for ever (C33_parsing_gives_a_result_refuted, and C33_blank_lines_after_a_raw_block for every such text, place and parser state). Shown to hold, with one round for each character, for every document without directive lines whose text after the header is in the class 'tame' of Total_Spec.v, for every inline substitution that gives a result on a closed class of texts that the lines of the document are in (C33_parsing_gives_a_result_on_tame_documents)."
  },
  {
   "property": "C34",
   "status": "proved",
   "theorems": [
    "C34_progress",
    "C34_blocks_bounded",
    "C34_document_bounded"
   ],
   "note": "A recognised block leaves a strictly shorter suffix (all envs, states, fuels); all blocks with the blocks in them are bounded by the number of characters (one more for the preamble)."
  },
  {
   "property": "C35",
   "status": "proved",
   "theorems": [
    "C35_underflow_iff_indented",
    "C35_no_underflow_refuted",
    "C35_no_underflow_otherwise",
    "C35_headings"
   ],
   "note": "Refuted: an indented line inside a section makes the subtraction go below zero (a panic in a checked build). Proved that this happens exactly for lines that begin with a space or tab, and that headings are recognised by their grammar otherwise. Additions are on unbounded numbers; the level is at most five."
  },
  {
   "property": "C36",
   "status": "proved",
   "theorems": [
    "C36_order",
    "C36_siblings_in_order",
    "C36_nested",
    "C36_nested_refuted"
   ],
   "note": "Refuted as stated: the span of a section is cut at trailing white space, so an unterminated raw block in it ends later than its section (C36_nested_refuted). Proved for all documents: siblings in order without overlap at every depth; nested spans begin inside the parent and go over its end by white space at most."
  },
  {
   "property": "C37",
   "status": "proved",
   "theorems": [
    "C37_image_and_video_lines",
    "C37_audio_lines_are_paragraphs",
    "C37_audio_lines_are_media_refuted"
   ],
   "note": "Refuted for audio: the test for \"audio::\" is missing, so such a line is a paragraph, proved for every target. Proved for image and video."
  },
  {
   "property": "C38",
   "status": "proved",
   "theorems": [
    "C38_escaping_is_total_safe_and_reversible",
    "C38_escaping_is_injective",
    "C38_escaping_is_compositional"
   ],
   "note": "HTML renderer."
  },
  {
   "property": "C39",
   "status": "proved",
   "theorems": [
    "C39_references_are_expanded_exactly",
    "C39_expansion_never_fails",
    "C39_expansion_is_deterministic",
    "C39_text_without_references_is_unchanged",
    "C39_values_are_not_scanned_again",
    "C39_unknown_references_stay"
   ],
   "note": "For the default handling of missing attributes."
  },
  {
   "property": "C40",
   "status": "proved",
   "theorems": [
    "C40_meaning",
    "C40_never_panics",
    "C40_plain_names_in_order",
    "C40_changes",
    "C40_only_implemented"
   ],
   "note": ""
  },
  {
   "property": "C41",
   "status": "proved",
   "theorems": [
    "C41_verbatim",
    "C41_pass_and_none"
   ],
   "note": ""
  },
  {
   "property": "C42",
   "status": "proved",
   "theorems": [
    "C42_marks_are_replaced_in_place",
    "C42_monospaced_in_place_when_quiet",
    "C42_whole_step",
    "C42_the_step_ends",
    "C42_never_panics_refuted",
    "C42_text_is_kept_refuted"
   ],
   "note": "Refuted: the candidate of a monospaced mark that is followed by a quote makes the look-ahead loop panic or lose text. Proved for the other eleven marks on all texts, and for that one on texts where no backtick is followed by a quote or backtick; proved that the loop always ends."
  },
  {
   "property": "C43",
   "status": "proved",
   "theorems": [
    "C43_extraction_gives_a_result",
    "C43_no_passthrough",
    "C43_restored_in_place",
    "C43_restoring_ends",
    "C43_one_passthrough",
    "C43_restoring_ends_refuted",
    "C43_spoofed_placeholder_refuted",
    "C43_look_alikes_are_kept_refuted",
    "C43_each_in_its_place_refuted",
    "C43_exactly_once_refuted"
   ],
   "note": "Refuted: restoring can run for ever (also for plain ASCII text in the old \"[x-]\" syntax), placeholder look-alikes are replaced next to a passthrough, passthroughs can be mixed up or repeated. Proved: extraction always ends, restoring ends for texts without the internal character and without \"[\", placeholders are replaced in place, and one passthrough in plain text keeps its surroundings. The Unicode table is assumed not to call U+0097 a digit."
  },
  {
   "property": "C44",
   "status": "proved",
   "theorems": [
    "C44_isolated_unless_nofollow",
    "C44_nofollow_without_window",
    "C44_with_nofollow",
    "C44_links_are_isolated_refuted"
   ],
   "note": "Refuted: with the nofollow option, \"noopener\" is written outside the rel value. Proved for links without that option."
  },
  {
   "property": "C45",
   "status": "proved",
   "theorems": [
    "C45_image_is_clean",
    "C45_image_is_clean_refuted"
   ],
   "note": "Refuted: width, height and target are written without encoding. Proved that the element is clean when those hold no quote or angle bracket (alt and title are encoded)."
  },
  {
   "property": "C46",
   "status": "proved",
   "theorems": [
    "C46_reversible",
    "C46_only_safe_characters",
    "C46_only_unreserved_refuted"
   ],
   "note": "Proved reversible and made of safe characters only; that only unreserved characters stay is refuted (\"*\" is left as it is)."
  },
  {
   "property": "C47",
   "status": "proved",
   "theorems": [
    "C47_images",
    "C47_urls",
    "C47_link_macros",
    "C47_emails",
    "C47_anchors",
    "C47_without_brackets",
    "C47_without_colons",
    "C47_never_panics_refuted"
   ],
   "note": "Refuted: four macros panic (\"image:[]\", \"link:a[b]\", \"https://a.b&gt;\", \"image:a.svg[opts=inline]\"). Proved per kind of macro for all texts outside those cases."
  },
  {
   "property": "C48",
   "status": "proved",
   "theorems": [
    "C48_without_option_exactly_the_plus_lines",
    "C48_single_line_is_unchanged",
    "C48_with_option_every_line_but_the_last",
    "C48_with_option_final_newline_is_lost",
    "C48_never_fails"
   ],
   "note": "HTML renderer; a carriage return at the end of a line and a final newline are dropped under the option, which is stated."
  },
  {
   "property": "C49",
   "status": "proved",
   "theorems": [
    "C49_ids_are_registered_refuted",
    "C49_ids_are_registered_unless_two_differ"
   ],
   "note": "Refuted: with an anchor and an attribute-list id the section reports the first and registers the second. Proved when the two agree or only one is present."
  },
  {
   "property": "C50",
   "status": "proved",
   "theorems": [
    "C50_unterminated_raw_blocks_are_substituted_refuted",
    "C50_unterminated_raw_blocks_show_their_source"
   ],
   "note": "Refuted: no substitutions are applied; proved that such a block always shows its source text."
  },
  {
   "property": "C51",
   "status": "proved",
   "theorems": [
    "C51_attribute_entries",
    "C51_single_line_values",
    "C51_wrapped_values"
   ],
   "note": "The Header substitution group is an argument."
  },
  {
   "property": "C52",
   "status": "proved",
   "theorems": [
    "C52_paragraphs_are_determined",
    "C52_paragraph_text",
    "C52_blank_lines_end_paragraphs_refuted",
    "C52_white_space"
   ],
   "note": "Refuted in one point: a line of tabs is blank elsewhere but does not end a paragraph. The text is proved for the line reading that the code has (blank means spaces only). For spans that begin a line."
  },
  {
   "property": "C53",
   "status": "proved",
   "theorems": [
    "C53_revision_line",
    "C53_parts_in_order",
    "C53_fields_and_attributes"
   ],
   "note": ""
  },
  {
   "property": "C54",
   "status": "proved",
   "theorems": [
    "C54_header_write_unlocks_the_body_refuted",
    "C54_any_permitted_write_lifts_the_restriction"
   ],
   "note": "Refuted: any permitted write resets the context to Anywhere."
  },
  {
   "property": "C55",
   "status": "proved",
   "theorems": [
    "C55_display_is_total",
    "C55_display_is_injective",
    "C55_appendix_display_is_injective",
    "C55_appendix_character"
   ],
   "note": "Appendix numbers: for the first 26."
  },
  {
   "property": "C56",
   "status": "proved",
   "theorems": [
    "C56_appendix_27_is_not_a_letter_refuted",
    "C56_first_26_appendices_are_letters"
   ],
   "note": "Refuted for the 27th appendix; the first 26 are proved."
  },
  {
   "property": "C57",
   "status": "proved",
   "theorems": [
    "C57_replacements_are_the_passes_in_order",
    "C57_replacements_never_fail",
    "C57_rules_leave_no_choice",
    "C57_plain_text_is_unchanged"
   ],
   "note": "HTML renderer; each pass is an explicit rewriting rule."
  },
  {
   "property": "C58",
   "status": "proved",
   "theorems": [
    "C58_em_dash_only_at_documented_places_refuted"
   ],
   "note": "Refuted: the regular expression ends in a start-half word boundary, which always holds after a hyphen (\"foo-- bar\")."
  },
  {
   "property": "C59",
   "status": "proved",
   "theorems": [
    "C59_entries_round_trip"
   ],
   "note": "Sources that contain both braces (attribute references) or are entirely in brackets (anchors) are excluded."
  },
  {
   "property": "C60",
   "status": "proved",
   "theorems": [
    "C60_positions_count_empty_entries_refuted"
   ],
   "note": "Refuted: an empty entry is dropped and later entries move up (\"a,,b\")."
  },
  {
   "property": "C61",
   "status": "proved",
   "theorems": [
    "C61_unquoted_values_are_trimmed_refuted",
    "C61_unquoted_values_have_no_leading_blank_or_trailing_space"
   ],
   "note": "Refuted for a trailing tab; leading blanks and trailing spaces are proved absent."
  },
  {
   "property": "C62",
   "status": "proved",
   "theorems": [
    "C62_unterminated_quote_is_kept_as_written_refuted"
   ],
   "note": "Refuted: escapes are dropped, and Normal substitutions applied to single-quoted values, also when the closing quote is missing."
  },
  {
   "property": "C63",
   "status": "proved",
   "theorems": [
    "C63_shorthand_items_are_not_empty_refuted",
    "C63_items_are_trimmed"
   ],
   "note": "Refuted for roles (\". #id\"); proved that the items themselves, with their marker, are trimmed and non-empty."
  },
  {
   "property": "C64",
   "status": "proved",
   "theorems": [
    "C64_values_are_offset_refuted"
   ],
   "note": "Refuted (\":a:b\")."
  },
  {
   "property": "C65",
   "status": "proved",
   "theorems": [
    "C65_continuation_needs_a_space_refuted"
   ],
   "note": "Refuted: a backslash with no space before it continues the line."
  },
  {
   "property": "C66",
   "status": "proved",
   "theorems": [
    "C66_hard_wraps_keep_their_mark_refuted",
    "C66_hard_wraps_become_newlines"
   ],
   "note": "Refuted: the mark is dropped; proved that exactly the newline remains."
  },
  {
   "property": "C67",
   "status": "proved",
   "theorems": [
    "C67_unresolved_lines_are_mapped_refuted"
   ],
   "note": "Refuted when the directive is the first line of a named file."
  },
  {
   "property": "C68",
   "status": "proved",
   "theorems": [
    "C68_no_doubled_separator_refuted",
    "C68_where_separators_double"
   ],
   "note": "Refuted: the prefix is put in front last (\".NET\" gives \"__net\"); where doubled separators can occur is proved."
  },
  {
   "property": "C69",
   "status": "proved",
   "theorems": [
    "C69_markup_removed_refuted",
    "C69_tags_removed_refuted",
    "C69_section_id_of_cleaned_title"
   ],
   "note": "Refuted: the greedy last alternative takes the mark that opens the markup (\"(&amp;)\"). Proved equal to the documented process when no removed character stands directly before markup."
  },
  {
   "property": "C70",
   "status": "proved",
   "theorems": [
    "C70_directives_are_carried_out_refuted",
    "C70_no_directive_is_left"
   ],
   "note": "Refuted for an attribute list of one character; proved for all others (files without line continuations, file names without newlines)."
  },
  {
   "property": "C71",
   "status": "proved",
   "theorems": [
    "C71_plain_mark",
    "C71_no_mark_no_change"
   ],
   "note": ""
  },
  {
   "property": "C72",
   "status": "proved",
   "theorems": [
    "C72_author",
    "C72_always_a_result"
   ],
   "note": "The Unicode table is assumed to call no white space a letter or number."
  },
  {
   "property": "C73",
   "status": "proved",
   "theorems": [
    "C73_author_line"
   ],
   "note": ""
  },
  {
   "property": "C74",
   "status": "proved",
   "theorems": [
    "C74_header"
   ],
   "note": "For every substitution function."
  },
  {
   "property": "C75",
   "status": "proved",
   "theorems": [
    "C75_header_is_read",
    "C75_without_brackets",
    "C75_header_is_read_refuted"
   ],
   "note": "Refuted: a title with nested old-style passthroughs is never finished. Proved for documents without opening brackets and internal characters."
  },
  {
   "property": "C76",
   "status": "proved",
   "theorems": [
    "C76_version_and_remark_refuted",
    "C76_with_prefix"
   ],
   "note": "Refuted: \"7.5: remark\" is taken as a date; proved with the prefix."
  },
  {
   "property": "C77",
   "status": "proved",
   "theorems": [
    "C77_empty_line_ends_the_header_refuted",
    "C77_after_the_title"
   ],
   "note": "Refuted when no title precedes the empty line; proved when one does."
  },
  {
   "property": "C78",
   "status": "proved",
   "theorems": [
    "C78_compound_name_in_entry_refuted",
    "C78_author_line"
   ],
   "note": "Refuted for an author entry; proved for author lines."
  },
  {
   "property": "C79",
   "status": "proved",
   "theorems": [
    "C79_revision_attributes_refuted",
    "C79_entries_are_substituted"
   ],
   "note": "Refuted for the revision line; proved for attribute entries."
  },
  {
   "property": "C80",
   "status": "proved",
   "theorems": [
    "C80_blank_line_before_the_title_refuted",
    "C80_lines_of_spaces"
   ],
   "note": "Refuted for a line with a tab; proved for lines of spaces."
  },
  {
   "property": "C81",
   "status": "proved",
   "theorems": [
    "C81_numbers",
    "C81_parsers_are_sane",
    "C81_numbers_increase",
    "C81_limit",
    "C81_minus_one_refuted"
   ],
   "note": "For every substitution function and every parser state that the code can leave behind (C81_parsers_are_sane)."
  },
  {
   "property": "C82",
   "status": "proved",
   "theorems": [
    "C82_appendix_without_sectnums_refuted",
    "C82_special_sections_refuted"
   ],
   "note": "Refuted: an appendix gets no number without sectnums; a preface is numbered with any value of sectnums."
  },
  {
   "property": "C83",
   "status": "proved",
   "theorems": [
    "C83_section_types",
    "C83_section_types_refuted"
   ],
   "note": "Refuted as stated: a section of level 1 in a delimited block ends the appendix around it, so the sections after it are normal ones. Proved for all documents in which no section of level 1 is inside another section."
  },
  {
   "property": "C84",
   "status": "proved",
   "theorems": [
    "C84_catalog",
    "C84_catalog_ids",
    "C84_break_ids_refuted"
   ],
   "note": "Refuted in one point: a break with an id is not registered (C84_break_ids_refuted). Proved for all blocks of other kinds, for all documents."
  },
  {
   "property": "C85",
   "status": "proved",
   "theorems": [
    "C85_anchor_reftext_refuted",
    "C85_block_reftext_refuted",
    "C85_section_reftext"
   ],
   "note": "Refuted: the text in the block anchor is used nowhere, and the reftext attribute only for sections. Proved for the reftext attribute of sections."
  },
  {
   "property": "C86",
   "status": "proved",
   "theorems": [
    "C86_title_refuted",
    "C86_id_refuted"
   ],
   "note": "Refuted: the title and the id of a section are made after the blocks in it, so entries within the section change them."
  },
  {
   "property": "C87",
   "status": "proved",
   "theorems": [
    "C87_preamble",
    "C87_discrete_heading_refuted"
   ],
   "note": "Refuted in one point: a discrete heading ends the preamble. Proved for all lists of blocks, where discrete headings count as sections."
  },
  {
   "property": "C88",
   "status": "proved",
   "theorems": [
    "C88_metadata",
    "C88_lines_are_determined",
    "C88_one_of_each_kind",
    "C88_several_attribute_lines_refuted",
    "C88_any_bracket_line_refuted",
    "C88_titles_have_text_refuted"
   ],
   "note": "Refuted in three points against the documentation: a second attribute line is text of the paragraph; a line in brackets that begins with a blank is text; a dot alone is a title with no text. Proved for all texts, with one line of each kind at most (C88_metadata, C88_lines_are_determined)."
  },
  {
   "property": "C89",
   "status": "proved",
   "theorems": [
    "C89_kind",
    "C89_one_form",
    "C89_forms_are_recognized",
    "C89_spaces_in_breaks_refuted"
   ],
   "note": "For every parser of inner blocks. Where the first line has only tabs nothing is claimed (see C52). Refuted in one point: a thematic break with two spaces between the characters is a paragraph."
  },
  {
   "property": "C90",
   "status": "proved",
   "theorems": [
    "C90_styles",
    "C90_styles_are_determined"
   ],
   "note": ""
  },
  {
   "property": "C91",
   "status": "proved",
   "theorems": [
    "C91_entries_between_blocks_refuted",
    "C91_no_entry_after_an_empty_line"
   ],
   "note": "Refuted: after a delimited block and an empty line an entry is shown as a paragraph and sets nothing (C91_entries_between_blocks_refuted); where an empty line comes first no entry is ever found (C91_no_entry_after_an_empty_line)."
  },
  {
   "property": "C92",
   "status": "proved",
   "theorems": [
    "C92_outline",
    "C92_nested_sections_are_deeper",
    "C92_sections_in_a_row",
    "C92_discrete_by_reference_refuted",
    "C92_literal_paragraph_refuted",
    "C92_tab_line_refuted"
   ],
   "note": "Refuted in three points: what ends a section is found with a parser that has no attributes of the document, so a discrete heading whose style is written with an attribute reference ends the section; a paragraph of the style literal that looks like a title ends the section; after a delimited block a line of one tab makes the title below it text. Proved for all documents without tabs and without references or single quotes in brackets, where such literal paragraphs are the one exception (C92_outline)."
  },
  {
   "property": "C93",
   "status": "proved",
   "theorems": [
    "C93_sections_in_delimited_blocks_refuted",
    "C93_places"
   ],
   "note": "Refuted: a title line in a delimited block gives a section in that block, with no warning. Proved: a block that has a section in it is a section or a delimited block."
  },
  {
   "property": "C94",
   "status": "proved",
   "theorems": [
    "C94_skipped_levels_reported",
    "C94_first_section",
    "C94_first_of_document_refuted",
    "C94_second_skip_refuted",
    "C94_place_refuted",
    "C94_level_0_reported_twice"
   ],
   "note": "Refuted in three points: the first section of the document may be of any level; the second section that skips a level is not reported; after a delimited block the warning is at the empty line above the title. Proved: a section that skips a level, compared with the section before it in the same section or else with that section itself, is reported (C94_skipped_levels_reported)."
  },
  {
   "property": "C95",
   "status": "proved",
   "theorems": [
    "C95_addresses_are_linked",
    "C95_plain_text",
    "C95_escaped",
    "C95_long_suffix_refuted"
   ],
   "note": "Exact: the step's output is the rewriting by the rule of the specification (C95_addresses_are_linked), and that is all the macros do without colons and brackets. After one of > : / an address is left alone, which is not documented. Refuted in one point: of an address with a longer suffix the beginning is linked."
  },
  {
   "property": "C96",
   "status": "proved",
   "theorems": [
    "C96_addresses",
    "C96_whole_markup_refuted",
    "C96_image_refuted"
   ],
   "note": "Refuted: an address in the target of a link or image is linked again inside the HTML attribute (C96_whole_markup_refuted, C96_image_refuted). Proved for texts without colons and brackets."
  },
  {
   "property": "C97",
   "status": "proved",
   "theorems": [
    "C97_anchors",
    "C97_plain_text",
    "C97_every_id",
    "C97_escaped",
    "C97_same_output"
   ],
   "note": "Exact: the output of the step is the replacement of the anchors of the specification (C97_anchors), and that is all the macros do without colons and at signs."
  },
  {
   "property": "C98",
   "status": "proved",
   "theorems": [
    "C98_link_macros",
    "C98_whole_step",
    "C98_plain_label",
    "C98_escaped",
    "C98_title_refuted",
    "C98_equation_refuted",
    "C98_bracket_refuted",
    "C98_roles_in_text_refuted"
   ],
   "note": "Exact: the output of the step is the replacement of the macros of the specification (C98_link_macros), which says what the code does; attribute lists are read by a parameter whose laws are those of the attribute list properties. Refuted in four documented points: the title is lost, text with an equals sign after a number is lost, an escaped bracket keeps its backslash when there are attributes, and dots and number signs in the text become roles and ids. A target of one character panics (C47)."
  },
  {
   "property": "C99",
   "status": "proved",
   "theorems": [
    "C99_urls",
    "C99_whole_step",
    "C99_autolinks",
    "C99_in_angle_brackets",
    "C99_with_text",
    "C99_escaped",
    "C99_quoted",
    "C99_no_result",
    "C99_mailto_refuted",
    "C99_equation_refuted",
    "C99_link_prefix_refuted",
    "C99_cut_reference_refuted"
   ],
   "note": "Exact: the output of the step is the replacement of the URLs of the specification (C99_urls); exactly where it panics is C99_no_result. Refuted in four points: the documented scheme mailto is not linked, text with an equals sign after a number is lost, link: before a URL without brackets is kept before a link although the code means to leave both alone, and a URL that ends in a character reference is cut inside it."
  },
  {
   "property": "C100",
   "status": "proved",
   "theorems": [
    "C100_pictures",
    "C100_whole_step",
    "C100_escaped",
    "C100_no_result",
    "C100_no_attributes",
    "C100_relative",
    "C100_directory",
    "C100_absolute",
    "C100_url",
    "C100_id_refuted",
    "C100_one_character_refuted",
    "C100_empty_directory_refuted",
    "C100_empty_directory_in_header_refuted",
    "C100_roles_in_text_refuted"
   ],
   "note": "Exact: the output of the step is the replacement of the macros of the specification (C100_pictures), attribute lists being read by a parameter; exactly where it has no result is C100_no_result. Refuted in four points: the id is lost, a target of one character is not found, an empty directory of images (the documented default value) gives absolute paths, and text after a dot in the alternative text becomes a role."
  },
  {
   "property": "C101",
   "status": "proved",
   "theorems": [
    "C101_modes",
    "C101_no_attributes",
    "C101_directory",
    "C101_extension_refuted",
    "C101_first_position_refuted",
    "C101_rotation_refuted",
    "C101_directory_of_images_refuted",
    "C101_unset_refuted"
   ],
   "note": "Exact as C100. Refuted in five points: a second extension is added, text in the first position is not the alternative text, rotation is lost with a flip, the directory of images is not used for icons, and unsetting the attribute icons shows images although leaving it unset shows text (the code asks whether the attribute has an entry, not whether it is set)."
  },
  {
   "property": "C102",
   "status": "proved",
   "theorems": [
    "C102_reported_group_refuted",
    "C102_texts",
    "C102_group",
    "C102_group_is_determined",
    "C102_plain_lists_replace",
    "C102_literal_paragraph_refuted",
    "C102_listing_style_refuted",
    "C102_callouts_refuted",
    "C102_unclosed_refuted",
    "C102_pass_with_list_refuted",
    "C102_pass_open_refuted"
   ],
   "note": "For all documents and all blocks in them the text comes from the source by the group that the specification chooses (C102_texts, C102_group); the specification takes over the defaults of the code. Refuted where these differ from the documentation: literal paragraphs and paragraphs with the style listing get the normal substitutions, a list with the documented step callouts is ignored as a whole, a listing that is not closed is not escaped, the default of the style pass is not none when a list changes it, and the style pass has no effect on an open block. Also refuted: substitution_group reports the default for paragraphs but the customized group for verbatim blocks."
  },
  {
   "property": "C103",
   "status": "proved",
   "theorems": [
    "C103_contexts_and_content_models",
    "C103_document",
    "C103_context_determines_the_model",
    "C103_contents",
    "C103_resolved_context",
    "C103_admonition_refuted",
    "C103_source_style_refuted",
    "C103_permitted_contexts_refuted",
    "C103_content_model_refuted",
    "C103_comment_block_refuted",
    "C103_discrete_heading_refuted"
   ],
   "note": "For all documents: the implied context has the content model of the table, which it determines; what is in a block fits its model; the resolved context is the declared style if it is built in, else the implied one. Refuted where the documentation asks for more: NOTE and source do not change the context, any context is taken over whatever its content model, a listing made of an open block has blocks in it, a comment block is preserved with a context and its text, and a discrete heading is a section."
  },
  {
   "property": "C104",
   "status": "proved",
   "theorems": [
    "C104_reported_id",
    "C104_reported_ids_are_registered",
    "C104_ids_of_sections",
    "C104_generated_ids_refuted",
    "C104_macro_attributes_refuted"
   ],
   "note": "For all documents the reported id is the given one, and it is in the catalog (breaks and sections with two ids excepted, see C84 and C49). Refuted: asked of the Block, a section does not report the id generated for it; id, title and role in the list of an image macro are not reported and the id is not registered."
  },
  {
   "property": "C105",
   "status": "proved",
   "theorems": [
    "C105_accessors_are_total",
    "C105_macro_lists_are_total"
   ],
   "note": "For all documents, all blocks and also the lists in block macros, whatever the substitutions do."
  },
  {
   "property": "C106",
   "status": "proved",
   "theorems": [
    "C106_places",
    "C106_highlighted_text_refuted",
    "C106_example_delimiter_refuted",
    "C106_missing_block_refuted",
    "C106_order_refuted",
    "C106_block_macro_refuted"
   ],
   "note": "For all documents and all kinds of warnings. Refuted where more is expected: highlighted text at the start of a paragraph is reported as a heading of level 0; the delimiter of an example block in a section as a heading too deep; the warning about an attribute list without a block spans the rest of the document; warnings are not in document order; what is wrong with a block macro is not reported."
  },
  {
   "property": "C107",
   "status": "proved",
   "theorems": [
    "C107_duplicates",
    "C107_counts",
    "C107_ids",
    "C107_breaks_refuted",
    "C107_inline_anchors_refuted",
    "C107_section_reported_refuted"
   ],
   "note": "For all documents, as a permutation and as counts. Refuted where more is expected: ids of breaks and of inline anchors are not checked, and a section is reported although it comes before the block in it that has the same id."
  },
  {
   "property": "C108",
   "status": "proved",
   "theorems": [
    "C108_macros",
    "C108_steps",
    "C108_groups",
    "C108_documented",
    "C108_a_link_in_a_link_refuted"
   ],
   "note": "The macro step exactly (iff); the groups for texts without passthroughs (C43 covers those) and documents without the hardbreaks option. Refuted where more is expected: a link in the text of a link is replaced too, inside an attribute of the outer one."
  },
  {
   "property": "C109",
   "status": "proved",
   "theorems": [
    "C109_texts",
    "C109_header_lines",
    "C109_documents_are_parsed",
    "C109_conditions_are_needed"
   ],
   "note": "For the substitution of the texts, the lines of the header and whole documents, with no assumption about the inline layer. That parsing gives a result for all documents is refuted in C33, C42 and C47; C109_conditions_are_needed has texts that fail in one place only, among them an image macro that panics because a dash before it swallowed the end of the line."
  },
  {
   "property": "C110",
   "status": "proved",
   "theorems": [
    "C110_character_replacements",
    "C110_character_replacements_refuted",
    "C110_missing_replacements",
    "C110_reassigning_refuted",
    "C110_settings",
    "C110_sectnumlevels_refuted",
    "C110_effective_value_refuted",
    "C110_defaults",
    "C110_iconsdir_refuted"
   ],
   "note": "The four character replacements that exist, after every document; the seven settings and their defaults. Refuted: the other 27 documented replacements do not exist; the ones that exist cannot be reassigned; sectnumlevels cannot be changed in the body and its implied value can be referenced; a reference to toc or sectnums gives the effective value; iconsdir does not follow imagesdir."
  },
  {
   "property": "C111",
   "status": "proved",
   "theorems": [
    "C111_document",
    "C111_header",
    "C111_last_entry_wins",
    "C111_locked",
    "C111_untouched",
    "C111_author_entry"
   ],
   "note": "For all documents, as the exact history of every attribute. The implied names are excepted from the statements about entries and locks (C16 refutes locks for them)."
  },
  {
   "property": "C112",
   "status": "proved",
   "theorems": [
    "C112_documents_are_read_back",
    "C112_written_documents_are_parsed",
    "C112_plain_documents_are_read_back",
    "C112_plain_sources_are_read_back",
    "C112_formatted_documents_are_read_back",
    "C112_an_empty_line_at_the_end_refuted",
    "C112_audio_refuted"
   ],
   "note": "With any inline layer whenever there is a result; with the real one plain documents have a result and come back exactly, and documents with markup as C108 says. Refuted: with one empty line more after the last delimited block the parser does not stop; audio macros come back as paragraphs."
  },
  {
   "property": "C113",
   "status": "proved",
   "theorems": [
    "C113_warnings",
    "C113_plain_documents",
    "C113_nothing_to_say",
    "C113_first_level_refuted",
    "C113_not_headings_refuted"
   ],
   "note": "With any inline layer whenever there is a result, and with the real one for plain documents; media without attribute lists. Refuted: a section that is too deep at the beginning of a document is not noticed; a highlighted word at the beginning of a paragraph is noticed as a title, twice in a section; so is the long delimiter of an example block."
  },
  {
   "property": "C114",
   "status": "proved",
   "theorems": [
    "C114_every_angle",
    "C114_unbracketed",
    "C114_worded",
    "C114_values",
    "C114_with_entries",
    "C114_nested_refuted",
    "C114_in_values_refuted",
    "C114_conditions_are_needed"
   ],
   "note": "For texts without brackets and texts without colons, without + and $, backticks alone. Refuted: the tags are not always one inside the other; a tag can come to be inside the value of an attribute of another one. The conditions are shown to be needed."
  },
  {
   "property": "C115",
   "status": "proved",
   "theorems": [
    "C115_first_pass",
    "C115_second_pass",
    "C115_extraction",
    "C115_one_reading",
    "C115_forms_are_unambiguous",
    "C115_no_form",
    "C115_known_names_apply_refuted"
   ],
   "note": "The extraction is exactly the one of the specification. Refuted: a name in pass:c,junk[] that is not understood takes away the substitutions that are named beside it, so that special characters are not replaced."
  },
  {
   "property": "C116",
   "status": "proved",
   "theorems": [
    "C116_author",
    "C116_address",
    "C116_one_reference",
    "C116_values_are_not_taken_apart_refuted",
    "C116_kept_whole_refuted",
    "C116_special_characters_refuted"
   ],
   "note": "What every author text means is characterised exactly. Refuted: text that has not the form of an author is filled in first, and then the words of a value become first and middle name; so is a name that should be kept whole by {empty}; whether special characters are replaced depends on the number of references, and the replacements can become names."
  },
  {
   "property": "C117",
   "status": "proved",
   "theorems": [
    "C117_document",
    "C117_parse",
    "C117_default",
    "C117_revision_refuted",
    "C117_address_refuted"
   ],
   "note": "Proved for whole documents, for both classes of texts of C114. Refuted without the conditions on author and revision lines: the parts of a revision line and an address with a second < are stored without replacing special characters, and get into the text as they are."
  },
  {
   "property": "C118",
   "status": "proved",
   "theorems": [
    "C118_blocks",
    "C118_order",
    "C118_header",
    "C118_source",
    "C118_parse",
    "C118_inside_refuted"
   ],
   "note": "Proved for every part of headers and blocks but one. Refuted for that one: where there is no block after a title, an anchor and an attribute list, the first line becomes a paragraph that keeps the text of the anchor, which is in a later line and not in the paragraph (C118_inside_refuted)."
  },
  {
   "property": "C119",
   "status": "proved",
   "theorems": [
    "C119_no_block",
    "C119_no_result",
    "C119_document",
    "C119_anchor_alone",
    "C119_literal_alone",
    "C119_literal_with_items",
    "C119_white_line",
    "C119_parsing_gives_a_result_refuted"
   ],
   "note": "Refuted: an anchor alone, [literal] alone and a line of white space other than spaces give no block, and the loop over the blocks never ends on them (C119_parsing_gives_a_result_refuted, C119_document); the anchor does not count as metadata in BlockMetadata::is_empty, and the check for metadata without a block is skipped for the style literal. Proved: these are the only such places (C119_no_block)."
  },
  {
   "property": "C120",
   "status": "proved",
   "theorems": [
    "C120_fate",
    "C120_panics_over_indented_text",
    "C120_no_panic_without_indented_lines",
    "C120_endless_where_no_block_is",
    "C120_enough_fuel",
    "C120_parsing_does_not_panic_refuted"
   ],
   "note": "The three fates are proved to be the only ones, with the places where they are decided; so a document without indented lines does not panic (C120_no_panic_without_indented_lines). The hypothesis is an inline layer that gives a text for every text; the one of the model can fail by itself (C42, C47). Refuted that no document panics: C120_parsing_does_not_panic_refuted (an indented line in a section)."
  },
  {
   "property": "C121",
   "status": "proved",
   "theorems": [
    "C121_blocks_begin_lines",
    "C121_goes_on_at_a_line",
    "C121_metadata_is_lines",
    "C121_header_is_lines"
   ],
   "note": "Proved for the blocks of every document at any depth, and for the places between them."
  },
  {
   "property": "C122",
   "status": "proved",
   "theorems": [
    "C122_panics_over_an_indented_line",
    "C122_endless_over_an_odd_line",
    "C122_tidy_documents_have_a_result",
    "C122_parsing_gives_a_result",
    "C122_tidy_lines",
    "C122_empty_lines_at_the_end_refuted",
    "C122_empty_line_before_a_delimiter_refuted"
   ],
   "note": "Proved for all tidy documents, with the lines that everything else goes wrong over. Refuted: empty lines at the end matter. After an attribute entry in the body, a compound block or a verbatim block, an empty line at the end of the document or before a closing delimiter makes the loop over the blocks endless (C122_empty_lines_at_the_end_refuted, C122_empty_line_before_a_delimiter_refuted): these three do not discard empty lines after them, as the other blocks do."
  },
  {
   "property": "C123",
   "status": "proved",
   "theorems": [
    "C123_blank_lines_before_a_document",
    "C123_blocks_at_any_place",
    "C123_sections_at_any_place",
    "C123_a_block_at_any_place",
    "C123_the_text_after_the_header",
    "C123_one_block_after_another",
    "C123_a_line_with_a_tab_refuted"
   ],
   "note": "Proved for all places where lines begin, and for all lines of spaces before a document. Refuted for lines with other white space (C123_a_line_with_a_tab_refuted): with a tab in the line before it, the title of a document is a paragraph."
  },
  {
   "property": "C124",
   "status": "proved",
   "theorems": [
    "C124_a_block",
    "C124_texts_in_turn",
    "C124_chapter_line",
    "C124_chapters_one_by_one",
    "C124_unterminated_refuted",
    "C124_section_refuted",
    "C124_entry_refuted",
    "C124_backslash_refuted",
    "C124_same_warnings_refuted"
   ],
   "note": "Proved for single blocks, for two texts and for any number of chapters. Warnings are the same but for one: that a block is missing after a title is said of all the text that comes after, so that its span grows (C124_same_warnings_refuted). Without the conditions it is refuted: a block that is not closed, a section before a text that is no chapter, an attribute entry after a delimited block (a paragraph there, see C91), and a backslash at the end of an entry (C124_unterminated_refuted, C124_section_refuted, C124_entry_refuted, C124_backslash_refuted)."
  },
  {
   "property": "C125",
   "status": "proved",
   "theorems": [
    "C125_shortcut",
    "C125_all_blocks",
    "C125_a_text",
    "C125_shortcut_everywhere_refuted"
   ],
   "note": "Proved for all places but those where a line of white space comes first that is not all spaces. There the short cut makes a difference: C125_shortcut_everywhere_refuted (a section is a paragraph after a line with a tab)."
  },
  {
   "property": "C126",
   "status": "proved",
   "theorems": [
    "C126_blocks",
    "C126_document",
    "C126_fates",
    "C126_preprocessor",
    "C126_parse",
    "C126_verbatim_refuted",
    "C126_if_refuted",
    "C126_author_refuted"
   ],
   "note": "Proved for blocks, documents and the whole of parse, with exact spans and all three fates. Refuted where the property leaves something out: C126_verbatim_refuted (CR stays in verbatim text and a hard break there is lost), C126_if_refuted (the CRs go away if any line of the text begins with `if`), C126_author_refuted (an :author: entry over two lines yields another first name)."
  },
  {
   "property": "C127",
   "status": "proved",
   "theorems": [
    "C127_lines",
    "C127_directive",
    "C127_unspaced_refuted",
    "C127_after_title_refuted",
    "C127_listing_refuted",
    "C127_author_refuted"
   ],
   "note": "Proved as stated. That the directive sees what the document has there is refuted: C127_unspaced_refuted (:dir:a), C127_after_title_refuted (an entry on the line after a section title), C127_listing_refuted (an entry in a listing after an empty line counts for the directive), C127_author_refuted (attributes from the author line are not known)."
  },
  {
   "property": "C128",
   "status": "proved",
   "theorems": [
    "C128_inline",
    "C128_numbers",
    "C128_kept",
    "C128_again",
    "C128_same",
    "C128_twice_refuted"
   ],
   "note": "Proved as stated. That the same text gets the same numbers again is refuted for appendices (C128_twice_refuted: A the first time, B the second)."
  },
  {
   "property": "C129",
   "status": "proved",
   "theorems": [
    "C129_block",
    "C129_rest",
    "C129_same",
    "C129_between",
    "C129_always",
    "C129_before_title_refuted",
    "C129_include_refuted"
   ],
   "note": "Proved for blocks at any place and for the loops over blocks. Refuted: a comment block before the title of a document, after which there is no header (C129_before_title_refuted; a comment line is all right), and for parse with its preprocessor, which carries out include directives in comments (C129_include_refuted)."
  },
  {
   "property": "C130",
   "status": "proved",
   "theorems": [
    "C130_output",
    "C130_document",
    "C130_last_entry_refuted",
    "C130_short_cut_refuted"
   ],
   "note": "Proved for texts that the preprocessor looks at (a file name is given, or a directive or a line beginning with if is left). Refuted: for a file that ends in an entry with a backslash, which does not go on in the line after the directive (C130_last_entry_refuted), and for texts that are not looked at any more once the file is in them, where a listing keeps the CR at the end of its lines (C130_short_cut_refuted)."
  },
  {
   "property": "C131",
   "status": "proved",
   "theorems": [
    "C131_block",
    "C131_rest",
    "C131_text",
    "C131_deep",
    "C131_listing_refuted",
    "C131_section_refuted"
   ],
   "note": "Proved for blocks at any place, and for the loops over the blocks of documents, compound blocks and sections. Refuted: where a line in a listing reads as the delimiter of the block that the listing is in (C131_listing_refuted), and for the warnings in a section if the delimiter has more than six equals signs (C131_section_refuted, from C106)."
  },
  {
   "property": "C132",
   "status": "proved",
   "theorems": [
    "C132_loop",
    "C132_loop_back",
    "C132_section",
    "C132_text",
    "C132_indented_refuted",
    "C132_title_refuted"
   ],
   "note": "Proved for the loop in both directions (the second for texts without a blank at the beginning of a line), for a section and for a document of one section. Refuted without the conditions: an indented line makes the parser break down in a section only (C132_indented_refuted, from C35), and a title of the same level ends the section (C132_title_refuted)."
  },
  {
   "property": "C133",
   "status": "proved",
   "theorems": [
    "C133_texts",
    "C133_plain",
    "C133_messages",
    "C133_warnings",
    "C133_order",
    "C133_sorted",
    "C133_maps",
    "C133_catalogs",
    "C133_register",
    "C133_generate",
    "C133_documents",
    "C133_key_order_refuted"
   ],
   "note": "As stated, for the form without line breaks. Which characters are written as they are is an argument, and the theorems hold for all tables. Refuted: that the entries are in the order of the ids themselves (C133_key_order_refuted: the closing quote is compared too)."
  },
  {
   "property": "C134",
   "status": "proved",
   "theorems": [
    "C134_places",
    "C134_warnings",
    "C134_values",
    "C134_numbers",
    "C134_source_maps",
    "C134_kinds",
    "C134_slices",
    "C134_strings",
    "C134_pretty",
    "C134_equal_strings_refuted",
    "C134_equal_maps_refuted"
   ],
   "note": "As stated, for the form without line breaks, and for strings also the form with [#]. Which characters are written as they are is an argument. Refuted: that equal strings are written in the same way without [#] (C134_equal_strings_refuted: not even a string and its clone), and that source maps with the same answers are (C134_equal_maps_refuted)."
  }
 ]
}