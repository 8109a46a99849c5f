{
 "claims": [
  {
   "property": "C01",
   "status": "proved",
   "theorems": [
    "C01_round_trip",
    "C01_plain_headers_are_stable",
    "C01_canonical_options_are_stable"
   ],
   "note": ""
  },
  {
   "property": "C02",
   "status": "proved",
   "theorems": [
    "C02_boundaries",
    "C02_headers"
   ],
   "note": ""
  },
  {
   "property": "C03",
   "status": "proved",
   "theorems": [
    "C03_round_trip_with_conditions",
    "C03_round_trip",
    "C03_round_trip_with_flags"
   ],
   "note": ""
  },
  {
   "property": "C04",
   "status": "proved",
   "theorems": [
    "C04_position_is_line_number"
   ],
   "note": ""
  },
  {
   "property": "C05",
   "status": "proved",
   "theorems": [
    "C05_delete_removes_own_lines",
    "C05_delete_slice"
   ],
   "note": ""
  },
  {
   "property": "C06",
   "status": "proved",
   "theorems": [
    "C06_body_change_is_local",
    "C06_assignment_by_name",
    "C06_single_line"
   ],
   "note": ""
  },
  {
   "property": "C07",
   "status": "proved",
   "theorems": [
    "C07_commented_out_with_dnl",
    "C07_commented_out_with_hash",
    "C07_active"
   ],
   "note": ""
  },
  {
   "property": "C08",
   "status": "proved",
   "theorems": [
    "C08_lines_preserved"
   ],
   "note": ""
  },
  {
   "property": "C09",
   "status": "proved",
   "theorems": [
    "C09_nested_blocks",
    "C09_truth_of_expressions",
    "C09_truth_of_platform_lists"
   ],
   "note": ""
  },
  {
   "property": "C10",
   "status": "proved",
   "theorems": [
    "C10_fails_iff_unbalanced",
    "C10_failures"
   ],
   "note": ""
  },
  {
   "property": "C11",
   "status": "proved",
   "theorems": [
    "C11_round_trip",
    "C11_round_trip_without_trailing_white_space",
    "C11_regular_lines"
   ],
   "note": ""
  },
  {
   "property": "C12",
   "status": "proved",
   "theorems": [
    "C12_value_change_is_local",
    "C12_single_line",
    "C12_assignment_by_name",
    "C12_value_reads_back"
   ],
   "note": ""
  },
  {
   "property": "C13",
   "status": "proved",
   "theorems": [
    "C13_delete_removes_own_lines",
    "C13_joined_lines",
    "C13_delete_slice"
   ],
   "note": ""
  },
  {
   "property": "C14",
   "status": "proved",
   "theorems": [
    "C14_insert",
    "C14_place",
    "C14_append"
   ],
   "note": ""
  },
  {
   "property": "C15",
   "status": "proved",
   "theorems": [
    "C15_order_of_names"
   ],
   "note": ""
  },
  {
   "property": "C16",
   "status": "proved",
   "theorems": [
    "C16_position_is_line_number"
   ],
   "note": ""
  },
  {
   "property": "C17",
   "status": "proved",
   "theorems": [
    "C17_macro_definition_lookup",
    "C17_macro_definition_lookup_at_position",
    "C17_tag_lookup",
    "C17_tag_lookup_at_position",
    "C17_names_without_case",
    "C17_delete_by_name"
   ],
   "note": ""
  },
  {
   "property": "C18",
   "status": "proved",
   "theorems": [
    "C18_changelog_roundtrip",
    "C18_changelog_parse_wellformed",
    "C18_changelog_text_determines_value"
   ],
   "note": ""
  },
  {
   "property": "C19",
   "status": "proved",
   "theorems": [
    "C19_sections",
    "C19_failure",
    "C19_nothing_to_do",
    "C19_text",
    "C19_lines",
    "C19_changelog_append_is_insertion"
   ],
   "note": ""
  },
  {
   "property": "C20",
   "status": "proved",
   "theorems": [
    "C20_same_entry"
   ],
   "note": ""
  },
  {
   "property": "C21",
   "status": "proved",
   "theorems": [
    "C21_changelog_filter_selects_range"
   ],
   "note": ""
  },
  {
   "property": "C22",
   "status": "proved",
   "theorems": [
    "C22_assemble_evr_reads_back",
    "C22_assemble_padding_reads_back",
    "C22_assemble_extended_reads_back",
    "C22_assemble_date_reads_back"
   ],
   "note": ""
  },
  {
   "property": "C23",
   "status": "proved",
   "theorems": [
    "C23_canonical_text_is_kept",
    "C23_tokens_are_read_back",
    "C23_failures",
    "C23_readable_texts"
   ],
   "note": ""
  },
  {
   "property": "C24",
   "status": "proved",
   "theorems": [
    "C24_options_read",
    "C24_positionals_read",
    "C24_set_then_get",
    "C24_set_changes_one_item",
    "C24_refused",
    "C24_refused_error",
    "C24_missing_argument"
   ],
   "note": ""
  },
  {
   "property": "C25",
   "status": "proved",
   "theorems": [
    "C25_delete_option_with_argument",
    "C25_others_stay"
   ],
   "note": ""
  },
  {
   "property": "C26",
   "status": "proved",
   "theorems": [
    "C26_nodes_describe_text",
    "C26_lossless",
    "C26_lossless_exact",
    "C26_errors"
   ],
   "note": ""
  },
  {
   "property": "C27",
   "status": "proved",
   "theorems": [
    "C27_no_percent_in_literals",
    "C27_reference_found",
    "C27_compositional"
   ],
   "note": ""
  },
  {
   "property": "C28",
   "status": "proved",
   "theorems": [
    "C28_parsed_sections_are_readable",
    "C28_numbers",
    "C28_explicit_numbers_increase",
    "C28_implicit_numbers_increase"
   ],
   "note": ""
  },
  {
   "property": "C29",
   "status": "proved",
   "theorems": [
    "C29_insert",
    "C29_insert_duplicate",
    "C29_insert_numbered"
   ],
   "note": ""
  },
  {
   "property": "C30",
   "status": "proved",
   "theorems": [
    "C30_add_patch",
    "C30_taken_number"
   ],
   "note": ""
  },
  {
   "property": "C31",
   "status": "proved",
   "theorems": [
    "C31_delete",
    "C31_remove_numbered",
    "C31_remove",
    "C31_delete_slice",
    "C31_set_location"
   ],
   "note": ""
  },
  {
   "property": "C32",
   "status": "proved",
   "theorems": [
    "C32_round_trip",
    "C32_entries"
   ],
   "note": ""
  },
  {
   "property": "C33",
   "status": "proved",
   "theorems": [
    "C33_round_trip",
    "C33_other_lines",
    "C33_failures"
   ],
   "note": ""
  },
  {
   "property": "C34",
   "status": "proved",
   "theorems": [
    "C34_remove",
    "C34_remove_absent",
    "C34_delete_by_name",
    "C34_get_by_name",
    "C34_absent_name",
    "C34_contains",
    "C34_delete_slice"
   ],
   "note": ""
  },
  {
   "property": "C35",
   "status": "proved",
   "theorems": [
    "C35_evr_operators_agree",
    "C35_evr_le_total",
    "C35_evr_le_transitive",
    "C35_nevr_compares_by_evr",
    "C35_nevra_compares_by_evr",
    "C35_same_hash_key_equal",
    "C35_nevr_hash_key",
    "C35_nevra_hash_key"
   ],
   "note": ""
  },
  {
   "property": "C36",
   "status": "proved",
   "theorems": [
    "C36_evr_string_roundtrip",
    "C36_evr_parse_lossless",
    "C36_evr_parse_accepts",
    "C36_evr_text_reproduced",
    "C36_nevr_string_roundtrip",
    "C36_nevra_string_roundtrip",
    "C36_nevra_without_release"
   ],
   "note": ""
  },
  {
   "property": "C37",
   "status": "proved",
   "theorems": [
    "C37_bytes_survive",
    "C37_text_survives",
    "C37_decoded_characters",
    "C37_unchanged",
    "C37_loaded_text",
    "C37_loaded_saves",
    "C37_reload"
   ],
   "note": ""
  },
  {
   "property": "C38",
   "status": "proved",
   "theorems": [
    "C38_split",
    "C38_split_no_dist",
    "C38_set_release",
    "C38_set_release_no_dist",
    "C38_release",
    "C38_release_no_dist"
   ],
   "note": ""
  },
  {
   "property": "C39",
   "status": "proved",
   "theorems": [
    "C39_front",
    "C39_end",
    "C39_append",
    "C39_kinds",
    "C39_never_repeats"
   ],
   "note": ""
  },
  {
   "property": "C40",
   "status": "proved",
   "theorems": [
    "C40_nested_views",
    "C40_written_once",
    "C40_shared_value",
    "C40_exception",
    "C40_explicit_parent",
    "C40_views_of_a_spec_file"
   ],
   "note": ""
  },
  {
   "property": "C41",
   "status": "partial",
   "theorems": [
    "C41_inner_change_lost_refuted"
   ],
   "note": "Refuted: the theorem exhibits a state in which the code violates the property. of sections() and macro_definitions() the inner change is lost, for every file and every edit."
  },
  {
   "property": "C42",
   "status": "proved",
   "theorems": [
    "C42_transparent",
    "C42_repeatable"
   ],
   "note": ""
  },
  {
   "property": "C43",
   "status": "proved",
   "theorems": [
    "C43_parse",
    "C43_sources",
    "C43_environment",
    "C43_variables"
   ],
   "note": ""
  },
  {
   "property": "C44",
   "status": "proved",
   "theorems": [
    "C44_update",
    "C44_unique"
   ],
   "note": ""
  },
  {
   "property": "C45",
   "status": "proved",
   "theorems": [
    "C45_filename_from_location"
   ],
   "note": ""
  },
  {
   "property": "C46",
   "status": "proved",
   "theorems": [
    "C46_balanced_has_no_open_brackets",
    "C46_open_construct_is_counted"
   ],
   "note": ""
  },
  {
   "property": "C47",
   "status": "proved",
   "theorems": [
    "C47_split_lossless",
    "C47_split_wrapper",
    "C47_split_total"
   ],
   "note": ""
  },
  {
   "property": "C48",
   "status": "proved",
   "theorems": [
    "C48_dump_parsed",
    "C48_levels"
   ],
   "note": ""
  },
  {
   "property": "C49",
   "status": "proved",
   "theorems": [
    "C49_ends",
    "C49_undefined",
    "C49_succeeds"
   ],
   "note": ""
  },
  {
   "property": "C50",
   "status": "partial",
   "theorems": [
    "C50_else_after_elif_refuted",
    "C50_two_elif_refuted"
   ],
   "note": "Refuted: the theorem exhibits a state in which the code violates the property. With two or more %elif branches or %else after %elif several branches are reported valid."
  },
  {
   "property": "C51",
   "status": "partial",
   "theorems": [
    "C51_block_across_sections_refuted"
   ],
   "note": "Refuted: the theorem exhibits a state in which the code violates the property. A condition opened in one section and closed in another makes the parser fail."
  },
  {
   "property": "C52",
   "status": "partial",
   "theorems": [
    "C52_flag_deletion_refuted"
   ],
   "note": "Refuted: the theorem exhibits a state in which the code violates the property. '-p1 -R' becomes '-p1-R'."
  },
  {
   "property": "C53",
   "status": "partial",
   "theorems": [
    "C53_flag_set_twice_refuted"
   ],
   "note": "Refuted: the theorem exhibits a state in which the code violates the property. '-R' becomes '-RTrue'."
  },
  {
   "property": "C54",
   "status": "partial",
   "theorems": [
    "C54_insert_first_positional_refuted"
   ],
   "note": "Refuted: the theorem exhibits a state in which the code violates the property. Inserting 'x' before 'foo' gives 'xfoo'."
  },
  {
   "property": "C55",
   "status": "partial",
   "theorems": [
    "C55_normalisation_refuted"
   ],
   "note": "Refuted: the theorem exhibits a state in which the code violates the property. A doubled escaped backslash loses one backslash on every pass."
  },
  {
   "property": "C56",
   "status": "proved",
   "theorems": [
    "C56_get",
    "C56_set",
    "C56_delete",
    "C56_insert"
   ],
   "note": ""
  },
  {
   "property": "C57",
   "status": "proved",
   "theorems": [
    "C57_absent",
    "C57_first_with_identifier",
    "C57_edit_is_local",
    "C57_delete_is_local"
   ],
   "note": ""
  },
  {
   "property": "C58",
   "status": "proved",
   "theorems": [
    "C58_lookup_by_own_identifier"
   ],
   "note": ""
  },
  {
   "property": "C59",
   "status": "partial",
   "theorems": [
    "C59_upper_case_options_refuted"
   ],
   "note": "Refuted: the theorem exhibits a state in which the code violates the property. identifiers are lowercased on lookup but only the name is on the other side."
  },
  {
   "property": "C60",
   "status": "partial",
   "theorems": [
    "C60_trailing_blank_refuted"
   ],
   "note": "Refuted: the theorem exhibits a state in which the code violates the property. the blank becomes part of the identifier."
  },
  {
   "property": "C61",
   "status": "partial",
   "theorems": [
    "C61_equal_definitions_refuted"
   ],
   "note": "Refuted: the theorem exhibits a state in which the code violates the property. get_position finds the first equal definition, so the second body is not excluded."
  },
  {
   "property": "C62",
   "status": "partial",
   "theorems": [
    "C62_headers_kept_refuted"
   ],
   "note": "Refuted: the theorem exhibits a state in which the code violates the property. a bare %package is dropped; white space inside a macro reference is escaped."
  },
  {
   "property": "C63",
   "status": "partial",
   "theorems": [
    "C63_accepted_names_refuted"
   ],
   "note": "Refuted: the theorem exhibits a state in which the code violates the property. the header regex accepts U+017F for s, Section() does not."
  },
  {
   "property": "C64",
   "status": "proved",
   "theorems": [
    "C64_tags_found_are_tags_written",
    "C64_one_reading"
   ],
   "note": ""
  },
  {
   "property": "C65",
   "status": "proved",
   "theorems": [
    "C65_comments"
   ],
   "note": ""
  },
  {
   "property": "C66",
   "status": "partial",
   "theorems": [
    "C66_trailing_white_space_refuted"
   ],
   "note": "Refuted: the theorem exhibits a state in which the code violates the property. white space of an inner line is repeated at the end of the value."
  },
  {
   "property": "C67",
   "status": "partial",
   "theorems": [
    "C67_inner_white_space_refuted"
   ],
   "note": "Refuted: the theorem exhibits a state in which the code violates the property. %{?x:%{y  z}} becomes %{?x:%{y z}}."
  },
  {
   "property": "C68",
   "status": "partial",
   "theorems": [
    "C68_empty_reference_refuted"
   ],
   "note": "Refuted: the theorem exhibits a state in which the code violates the property. a comment with an empty macro reference raises ValueError."
  },
  {
   "property": "C69",
   "status": "partial",
   "theorems": [
    "C69_delete_by_name_refuted"
   ],
   "note": "Refuted: the theorem exhibits a state in which the code violates the property. the %if above the tag is lost."
  },
  {
   "property": "C70",
   "status": "partial",
   "theorems": [
    "C70_negative_index_refuted"
   ],
   "note": "Refuted: the theorem exhibits a state in which the code violates the property. lines move in front of the previous tag, or IndexError after deleting."
  },
  {
   "property": "C71",
   "status": "partial",
   "theorems": [
    "C71_insert_refuted"
   ],
   "note": "Refuted: the theorem exhibits a state in which the code violates the property. IndexError for every index before the first tag."
  },
  {
   "property": "C72",
   "status": "partial",
   "theorems": [
    "C72_position_refuted"
   ],
   "note": "Refuted: the theorem exhibits a state in which the code violates the property. every earlier tag is counted as one line; index() finds the first equal tag."
  },
  {
   "property": "C73",
   "status": "partial",
   "theorems": [
    "C73_mixed_numbering_refuted"
   ],
   "note": "Refuted: the theorem exhibits a state in which the code violates the property. Source0, Source, Source1 are numbered 0, 1, 1."
  },
  {
   "property": "C74",
   "status": "partial",
   "theorems": [
    "C74_several_lists_refuted"
   ],
   "note": "Refuted: the theorem exhibits a state in which the code violates the property. each section restarts at the last tag's number."
  },
  {
   "property": "C75",
   "status": "partial",
   "theorems": [
    "C75_negative_index_refuted"
   ],
   "note": "Refuted: the theorem exhibits a state in which the code violates the property. [0, 1] becomes [0, 1, 1]."
  },
  {
   "property": "C76",
   "status": "partial",
   "theorems": [
    "C76_unordered_numbers_refuted"
   ],
   "note": "Refuted: the theorem exhibits a state in which the code violates the property. [5, 4] becomes [5, 4, 5]."
  },
  {
   "property": "C77",
   "status": "partial",
   "theorems": [
    "C77_patchlist_renumbered_refuted"
   ],
   "note": "Refuted: the theorem exhibits a state in which the code violates the property. [0, 1, 2] becomes [0, 3, 4, 5]."
  },
  {
   "property": "C78",
   "status": "partial",
   "theorems": [
    "C78_requested_number_ignored_refuted"
   ],
   "note": "Refuted: the theorem exhibits a state in which the code violates the property. the patch gets the next number."
  },
  {
   "property": "C79",
   "status": "partial",
   "theorems": [
    "C79_colon_lost_refuted"
   ],
   "note": "Refuted: the theorem exhibits a state in which the code violates the property. 'Patch1 : a' leads to 'Patch100 new'."
  },
  {
   "property": "C80",
   "status": "partial",
   "theorems": [
    "C80_reversed_slice_refuted"
   ],
   "note": "Refuted: the theorem exhibits a state in which the code violates the property. the License tag is deleted instead."
  },
  {
   "property": "C81",
   "status": "partial",
   "theorems": [
    "C81_empty_slice_refuted"
   ],
   "note": "Refuted: the theorem exhibits a state in which the code violates the property. IndexError for every container."
  },
  {
   "property": "C82",
   "status": "partial",
   "theorems": [
    "C82_conditions_become_sources_refuted"
   ],
   "note": "Refuted: the theorem exhibits a state in which the code violates the property. they are listed as sources."
  },
  {
   "property": "C83",
   "status": "partial",
   "theorems": [
    "C83_unnumbered_sources_shift_refuted"
   ],
   "note": "Refuted: the theorem exhibits a state in which the code violates the property. the next source takes the number."
  },
  {
   "property": "C84",
   "status": "partial",
   "theorems": [
    "C84_wrapped_command_refuted"
   ],
   "note": "Refuted: the theorem exhibits a state in which the code violates the property. a conditional expansion that wraps another command than a macro of %prep loses its wrapper."
  },
  {
   "property": "C85",
   "status": "partial",
   "theorems": [
    "C85_first_macro_stays_refuted"
   ],
   "note": "Refuted: the theorem exhibits a state in which the code violates the property. remove_patch_macro never removes the first macro of the section (the index 0 is taken for no match)."
  },
  {
   "property": "C86",
   "status": "proved",
   "theorems": [
    "C86_one_line",
    "C86_in_order",
    "C86_new_macro",
    "C86_text"
   ],
   "note": ""
  },
  {
   "property": "C87",
   "status": "proved",
   "theorems": [
    "C87_number",
    "C87_assign"
   ],
   "note": ""
  },
  {
   "property": "C88",
   "status": "proved",
   "theorems": [
    "C88_autorelease",
    "C88_autochangelog"
   ],
   "note": ""
  },
  {
   "property": "C89",
   "status": "proved",
   "theorems": [
    "C89_flatten"
   ],
   "note": ""
  },
  {
   "property": "C90",
   "status": "proved",
   "theorems": [
    "C90_insert_above",
    "C90_append",
    "C90_first",
    "C90_insert_numbered",
    "C90_delete",
    "C90_set_location"
   ],
   "note": ""
  },
  {
   "property": "C91",
   "status": "partial",
   "theorems": [
    "C91_source_license_refuted"
   ],
   "note": "Refuted: the theorem exhibits a state in which the code violates the property. a SourceLicense tag counts as a source, so the patch goes below it."
  },
  {
   "property": "C92",
   "status": "partial",
   "theorems": [
    "C92_empty_file_refuted",
    "C92_loads"
   ],
   "note": "Refuted: the theorem exhibits a state in which the code violates the property. loading an empty file raises IndexError; every other file loads."
  },
  {
   "property": "C93",
   "status": "partial",
   "theorems": [
    "C93_save_fails",
    "C93_failed_save_refuted"
   ],
   "note": "Refuted: the theorem exhibits a state in which the code violates the property. the file is truncated before the text is encoded, so a failed save leaves an empty file."
  },
  {
   "property": "C94",
   "status": "partial",
   "theorems": [
    "C94_only_line_feeds",
    "C94_other_breaks_refuted"
   ],
   "note": "Refuted: the theorem exhibits a state in which the code violates the property. every file with another line break is changed by loading and saving."
  },
  {
   "property": "C95",
   "status": "partial",
   "theorems": [
    "C95_negative_index_refuted",
    "C95_only_macro_refuted"
   ],
   "note": "Refuted: the theorem exhibits a state in which the code violates the property. the lines above the deleted macro move above the previous one; IndexError for a single macro."
  },
  {
   "property": "C96",
   "status": "partial",
   "theorems": [
    "C96_key_error_lost_refuted"
   ],
   "note": "Refuted: the theorem exhibits a state in which the code violates the property. a KeyError raised inside a view that is open already is lost."
  },
  {
   "property": "C97",
   "status": "proved",
   "theorems": [
    "C97_different_sections"
   ],
   "note": ""
  },
  {
   "property": "C98",
   "status": "partial",
   "theorems": [
    "C98_spellings_refuted"
   ],
   "note": "Refuted: the theorem exhibits a state in which the code violates the property. tags() and tags(\"package\") are separate views of the same section, the inner change is lost."
  },
  {
   "property": "C99",
   "status": "proved",
   "theorems": [
    "C99_reading_changes_nothing"
   ],
   "note": ""
  },
  {
   "property": "C100",
   "status": "proved",
   "theorems": [
    "C100_tags",
    "C100_changelog",
    "C100_prep",
    "C100_sections",
    "C100_macro_definitions"
   ],
   "note": ""
  },
  {
   "property": "C101",
   "status": "partial",
   "theorems": [
    "C101_removal_stops_early_refuted"
   ],
   "note": "Refuted: the theorem exhibits a state in which the code violates the property. the removal stops at such a definition without an error, and the macro is still defined."
  },
  {
   "property": "C102",
   "status": "partial",
   "theorems": [
    "C102_removal_hangs_refuted"
   ],
   "note": "Refuted: the theorem exhibits a state in which the code violates the property. for a macro that always expands to something else, no number of rounds is enough."
  },
  {
   "property": "C103",
   "status": "proved",
   "theorems": [
    "C103_definition_replaces",
    "C103_reinitialised",
    "C103_parse_context"
   ],
   "note": ""
  },
  {
   "property": "C104",
   "status": "partial",
   "theorems": [
    "C104_macro_without_body_refuted",
    "C104_lines_joined",
    "C104_last_line_continued_refuted"
   ],
   "note": "Refuted: the theorem exhibits a state in which the code violates the property. a macro without a body becomes part of the body of the macro before it; continued lines are joined, and IndexError (or ValueError) is raised if the last line is continued."
  },
  {
   "property": "C105",
   "status": "partial",
   "theorems": [
    "C105_copy_refuted"
   ],
   "note": "Refuted: the theorem exhibits a state in which the code violates the property. a copy with the identity of a dropped parser is never parsed."
  },
  {
   "property": "C106",
   "status": "partial",
   "theorems": [
    "C106_changes_refuted"
   ],
   "note": "Refuted: the theorem exhibits a state in which the code violates the property. the second parse is skipped and leaves the change as it is."
  },
  {
   "property": "C107",
   "status": "partial",
   "theorems": [
    "C107_recovery_refuted"
   ],
   "note": "Refuted: the theorem exhibits a state in which the code violates the property. every later parse by the same parser raises AttributeError."
  },
  {
   "property": "C108",
   "status": "partial",
   "theorems": [
    "C108_interrupt_refuted"
   ],
   "note": "Refuted: the theorem exhibits a state in which the code violates the property. the contents parsed before the interrupt are not parsed again, although there is no parsed spec."
  },
  {
   "property": "C109",
   "status": "partial",
   "theorems": [
    "C109_lookup_refuted",
    "C109_written_refuted",
    "C109_removed_refuted"
   ],
   "note": "Refuted: the theorem exhibits a state in which the code violates the property. dummy sources created before the failure, files written in part, and those after one that cannot be removed stay."
  },
  {
   "property": "C110",
   "status": "proved",
   "theorems": [
    "C110_seen",
    "C110_contents"
   ],
   "note": ""
  },
  {
   "property": "C111",
   "status": "partial",
   "theorems": [
    "C111_non_empty_refuted"
   ],
   "note": "Refuted: the theorem exhibits a state in which the code violates the property. a source that is given by a URL gets a signature of zeros."
  },
  {
   "property": "C112",
   "status": "proved",
   "theorems": [
    "C112_errors"
   ],
   "note": ""
  },
  {
   "property": "C113",
   "status": "partial",
   "theorems": [
    "C113_undecodable_refuted"
   ],
   "note": "Refuted: the theorem exhibits a state in which the code violates the property. parsing raises UnicodeEncodeError (a ValueError)."
  },
  {
   "property": "C114",
   "status": "partial",
   "theorems": [
    "C114_unfinished_refuted",
    "C114_unterminated_refuted",
    "C114_missing_directory_refuted"
   ],
   "note": "Refuted: the theorem exhibits a state in which the code violates the property. UnterminatedMacroException, FileNotFoundError or IndexError is raised instead."
  },
  {
   "property": "C115",
   "status": "proved",
   "theorems": [
    "C115_tainted",
    "C115_force"
   ],
   "note": ""
  },
  {
   "property": "C116",
   "status": "proved",
   "theorems": [
    "C116_message",
    "C116_no_error"
   ],
   "note": ""
  },
  {
   "property": "C117",
   "status": "partial",
   "theorems": [
    "C117_cut_refuted",
    "C117_empty_refuted"
   ],
   "note": "Refuted: the theorem exhibits a state in which the code violates the property. the message is cut off, or IndexError is raised."
  },
  {
   "property": "C118",
   "status": "proved",
   "theorems": [
    "C118_printed_nodes_parse"
   ],
   "note": ""
  },
  {
   "property": "C119",
   "status": "partial",
   "theorems": [
    "C119_escaped_bracket_refuted"
   ],
   "note": "Refuted: the theorem exhibits a state in which the code violates the property. the search for the closing bracket skips the backslash but not the character after it, so %{echo:a\\}b} ends at the escaped bracket."
  },
  {
   "property": "C120",
   "status": "partial",
   "theorems": [
    "C120_double_star_refuted"
   ],
   "note": "Refuted: the theorem exhibits a state in which the code violates the property. value[i:i+1] is compared to '**' and never equal, so %** is read as %* and the literal *."
  },
  {
   "property": "C121",
   "status": "proved",
   "theorems": [
    "C121_unfinished",
    "C121_included"
   ],
   "note": ""
  },
  {
   "property": "C122",
   "status": "proved",
   "theorems": [
    "C122_loaded"
   ],
   "note": ""
  },
  {
   "property": "C123",
   "status": "proved",
   "theorems": [
    "C123_references",
    "C123_total",
    "C123_tags"
   ],
   "note": ""
  },
  {
   "property": "C124",
   "status": "proved",
   "theorems": [
    "C124_outcome"
   ],
   "note": ""
  },
  {
   "property": "C125",
   "status": "proved",
   "theorems": [
    "C125_result"
   ],
   "note": ""
  },
  {
   "property": "C126",
   "status": "partial",
   "theorems": [
    "C126_email_once_refuted"
   ],
   "note": "Refuted: the theorem exhibits a state in which the code violates the property. the author of the second entry is \"a <e> <e>\"."
  },
  {
   "property": "C127",
   "status": "partial",
   "theorems": [
    "C127_email_used_refuted"
   ],
   "note": "Refuted: the theorem exhibits a state in which the code violates the property. the e-mail is ignored in the first changelog and added to the author found in further ones."
  },
  {
   "property": "C128",
   "status": "partial",
   "theorems": [
    "C128_evr_expanded_once_refuted"
   ],
   "note": "Refuted: the theorem exhibits a state in which the code violates the property. the expanded EVR is expanded again for each further changelog."
  },
  {
   "property": "C129",
   "status": "partial",
   "theorems": [
    "C129_all_or_nothing_refuted"
   ],
   "note": "Refuted: the theorem exhibits a state in which the code violates the property. a macro without a name in a later changelog raises ValueError after earlier ones were changed."
  },
  {
   "property": "C130",
   "status": "proved",
   "theorems": [
    "C130_search_order",
    "C130_no_author"
   ],
   "note": ""
  },
  {
   "property": "C131",
   "status": "proved",
   "theorems": [
    "C131_has_autochangelog"
   ],
   "note": ""
  },
  {
   "property": "C132",
   "status": "proved",
   "theorems": [
    "C132_changelog_delete_removes_entry"
   ],
   "note": ""
  },
  {
   "property": "C133",
   "status": "partial",
   "theorems": [
    "C133_changelog_delete_negative_index_refuted"
   ],
   "note": "Refuted: the theorem exhibits a state in which the code violates the property. IndexError is raised after the entry is gone."
  },
  {
   "property": "C134",
   "status": "partial",
   "theorems": [
    "C134_refuted",
    "C134_case_refuted"
   ],
   "note": "Refuted: the theorem exhibits a state in which the code violates the property. with a=1 and b=%{a}.1, updating %{a}-%{b} to 2-3.1 leaves a value that evaluates to 3-3.1; %{version}-%{VERSION} cannot be updated to 2-3 but is."
  },
  {
   "property": "C135",
   "status": "partial",
   "theorems": [
    "C135_refuted"
   ],
   "note": "Refuted: the theorem exhibits a state in which the code violates the property. conditional expansions on macros that are not defined in the file are taken for empty even if they are not: 1%{?fedora:.fc} updated to 2.fc becomes 2.fc%{?fedora:.fc}."
  },
  {
   "property": "C136",
   "status": "partial",
   "theorems": [
    "C136_refuted"
   ],
   "note": "Refuted: the theorem exhibits a state in which the code violates the property. the delimiter after a macro without braces is kept only after modifiable macros: %foo.1 updated to X1 becomes %foo1."
  },
  {
   "property": "C137",
   "status": "partial",
   "theorems": [
    "C137_refuted"
   ],
   "note": "Refuted: the theorem exhibits a state in which the code violates the property. if references follow each other directly, the pattern matches the empty string and the original value is returned."
  },
  {
   "property": "C138",
   "status": "partial",
   "theorems": [
    "C138_refuted"
   ],
   "note": "Refuted: the theorem exhibits a state in which the code violates the property. groups of macros named sub_... are mistaken for groups of literals and not updated, the old value remains."
  },
  {
   "property": "C139",
   "status": "partial",
   "theorems": [
    "C139_refuted"
   ],
   "note": "Refuted: the theorem exhibits a state in which the code violates the property. with a macro Version and a tag Version, updating %{Version} changes the tag."
  },
  {
   "property": "C140",
   "status": "proved",
   "theorems": [
    "C140_pattern"
   ],
   "note": ""
  },
  {
   "property": "C141",
   "status": "proved",
   "theorems": [
    "C141_frame",
    "C141_terminates"
   ],
   "note": ""
  },
  {
   "property": "C142",
   "status": "proved",
   "theorems": [
    "C142_errors",
    "C142_fields"
   ],
   "note": ""
  },
  {
   "property": "C143",
   "status": "proved",
   "theorems": [
    "C143_kept"
   ],
   "note": ""
  },
  {
   "property": "C144",
   "status": "proved",
   "theorems": [
    "C144_self"
   ],
   "note": ""
  },
  {
   "property": "C145",
   "status": "proved",
   "theorems": [
    "C145_reading"
   ],
   "note": ""
  },
  {
   "property": "C146",
   "status": "proved",
   "theorems": [
    "C146_get",
    "C146_absent",
    "C146_unreadable"
   ],
   "note": ""
  },
  {
   "property": "C147",
   "status": "proved",
   "theorems": [
    "C147_set"
   ],
   "note": ""
  },
  {
   "property": "C148",
   "status": "proved",
   "theorems": [
    "C148_set_read",
    "C148_set_get"
   ],
   "note": ""
  },
  {
   "property": "C149",
   "status": "proved",
   "theorems": [
    "C149_set_both"
   ],
   "note": ""
  },
  {
   "property": "C150",
   "status": "partial",
   "theorems": [
    "C150_both_or_none_refuted",
    "C150_example_refuted"
   ],
   "note": "Refuted: the theorem exhibits a state in which the code violates the property. the version is set before the missing Release tag raises AttributeError."
  },
  {
   "property": "C151",
   "status": "proved",
   "theorems": [
    "C151_set_release",
    "C151_get_release"
   ],
   "note": ""
  },
  {
   "property": "C152",
   "status": "proved",
   "theorems": [
    "C152_auto",
    "C152_macro",
    "C152_tag"
   ],
   "note": ""
  },
  {
   "property": "C153",
   "status": "partial",
   "theorems": [
    "C153_effective_refuted"
   ],
   "note": "Refuted: the theorem exhibits a state in which the code violates the property. the first definition called release or baserelease is bumped even if it is commented out, in a false branch or not used."
  },
  {
   "property": "C154",
   "status": "proved",
   "theorems": [
    "C154_update",
    "C154_protected"
   ],
   "note": ""
  },
  {
   "property": "C155",
   "status": "proved",
   "theorems": [
    "C155_same"
   ],
   "note": ""
  },
  {
   "property": "C156",
   "status": "partial",
   "theorems": [
    "C156_failure_refuted"
   ],
   "note": "Refuted: the theorem exhibits a state in which the code violates the property. macro definitions are written first, then looking up the next definition or a tag fails with ValueError."
  },
  {
   "property": "C157",
   "status": "partial",
   "theorems": [
    "C157_effective_refuted"
   ],
   "note": "Refuted: the theorem exhibits a state in which the code violates the property. equal tags or definitions in two branches have the same position (that of the first), so the wrong one is changed."
  },
  {
   "property": "C158",
   "status": "proved",
   "theorems": [
    "C158_style",
    "C158_style_kept",
    "C158_plain",
    "C158_no_macro",
    "C158_no_group",
    "C158_prerelease",
    "C158_release",
    "C158_absent"
   ],
   "note": ""
  },
  {
   "property": "C159",
   "status": "partial",
   "theorems": [
    "C159_tilde_refuted"
   ],
   "note": "Refuted: the theorem exhibits a state in which the code violates the property. the tilde ends up in front of the last character of the version."
  },
  {
   "property": "C160",
   "status": "partial",
   "theorems": [
    "C160_macro_body_refuted"
   ],
   "note": "Refuted: the theorem exhibits a state in which the code violates the property. the version read and updated is the one in the macro body."
  },
  {
   "property": "C161",
   "status": "partial",
   "theorems": [
    "C161_several_lines_refuted"
   ],
   "note": "Refuted: the theorem exhibits a state in which the code violates the property. the position of a tag counts lines above of each tag as one line, so the macro seems to be defined below the tag."
  },
  {
   "property": "C162",
   "status": "proved",
   "theorems": [
    "C162_update_effect"
   ],
   "note": ""
  },
  {
   "property": "C163",
   "status": "proved",
   "theorems": [
    "C163_set_body"
   ],
   "note": ""
  },
  {
   "property": "C164",
   "status": "proved",
   "theorems": [
    "C164_set_tag_macros"
   ],
   "note": ""
  },
  {
   "property": "C165",
   "status": "partial",
   "theorems": [
    "C165_white_space_before_continuation_refuted",
    "C165_dnl_hash_refuted",
    "C165_unterminated_refuted"
   ],
   "note": "Refuted: the theorem exhibits a state in which the code violates the property. white space before a continuation, %dnl lines with # and %%global, and text that ends inside a definition are changed."
  },
  {
   "property": "C166",
   "status": "partial",
   "theorems": [
    "C166_duplicate_definition_refuted"
   ],
   "note": "Refuted: the theorem exhibits a state in which the code violates the property. the position of the first equal definition is reported."
  },
  {
   "property": "C167",
   "status": "partial",
   "theorems": [
    "C167_negative_index_refuted",
    "C167_negative_index_moves_lines_refuted",
    "C167_delete_by_name_loses_lines_refuted"
   ],
   "note": "Refuted: the theorem exhibits a state in which the code violates the property. IndexError after the definition is gone, or the lines above move to another definition; deletion by name loses the lines above."
  },
  {
   "property": "C168",
   "status": "partial",
   "theorems": [
    "C168_changelog_filter_without_evr_refuted"
   ],
   "note": "Refuted: the theorem exhibits a state in which the code violates the property. TypeError for an entry without EVR."
  },
  {
   "property": "C169",
   "status": "partial",
   "theorems": [
    "C169_assemble_extended_zero_padded_refuted"
   ],
   "note": "Refuted: the theorem exhibits a state in which the code violates the property. a day padded with a zero makes the extended timestamp unrecognised."
  },
  {
   "property": "C170",
   "status": "partial",
   "theorems": [
    "C170_only_unterminated_error_refuted"
   ],
   "note": "Refuted: the theorem exhibits a state in which the code violates the property. %{} raises ValueError."
  },
  {
   "property": "C171",
   "status": "partial",
   "theorems": [
    "C171_after_escaped_percent_refuted"
   ],
   "note": "Refuted: the theorem exhibits a state in which the code violates the property. in %a%%b%c the reference %c is part of a literal."
  },
  {
   "property": "C172",
   "status": "partial",
   "theorems": [
    "C172_equal_values_hash_equal_refuted"
   ],
   "note": "Refuted: the theorem exhibits a state in which the code violates the property. EVR(version='') equals EVR(version='0') but has another hash."
  },
  {
   "property": "C173",
   "status": "partial",
   "theorems": [
    "C173_nevr_without_release_refuted"
   ],
   "note": "Refuted: the theorem exhibits a state in which the code violates the property. a-b-1 is read as name a, version b, release 1."
  },
  {
   "property": "C174",
   "status": "partial",
   "theorems": [
    "C174_entry_without_content_refuted"
   ],
   "note": "Refuted: the theorem exhibits a state in which the code violates the property. the entry below an entry without content becomes its content, in every changelog."
  },
  {
   "property": "C175",
   "status": "proved",
   "theorems": [
    "C175_insert",
    "C175_insert_numbered",
    "C175_add_patch"
   ],
   "note": ""
  },
  {
   "property": "C176",
   "status": "proved",
   "theorems": [
    "C176_set_location"
   ],
   "note": ""
  },
  {
   "property": "C177",
   "status": "partial",
   "theorems": [
    "C177_new_source_keeps_macros_refuted"
   ],
   "note": "Refuted: the theorem exhibits a state in which the code violates the property. a macro definition with a line \"%endif\" in its body is torn apart by a source that is added above it."
  },
  {
   "property": "C178",
   "status": "proved",
   "theorems": [
    "C178_read"
   ],
   "note": ""
  },
  {
   "property": "C179",
   "status": "partial",
   "theorems": [
    "C179_list_sections_in_any_case_refuted"
   ],
   "note": "Refuted: the theorem exhibits a state in which the code violates the property. the entries of \"%Sourcelist\" are not shown."
  },
  {
   "property": "C180",
   "status": "proved",
   "theorems": [
    "C180_delete",
    "C180_remove_numbered"
   ],
   "note": ""
  },
  {
   "property": "C181",
   "status": "proved",
   "theorems": [
    "C181_add_patch"
   ],
   "note": ""
  },
  {
   "property": "C182",
   "status": "partial",
   "theorems": [
    "C182_deletion_keeps_macros_refuted"
   ],
   "note": "Refuted: the theorem exhibits a state in which the code violates the property. the definition \"#%global v 1\" right above a source is deleted with it."
  },
  {
   "property": "C183",
   "status": "partial",
   "theorems": [
    "C183_comment_defines_nothing_refuted"
   ],
   "note": "Refuted: the theorem exhibits a state in which the code violates the property. the comment \"without %global use now\" is read as a definition that is commented out."
  },
  {
   "property": "C184",
   "status": "proved",
   "theorems": [
    "C184_sections_grow",
    "C184_any_expansion"
   ],
   "note": ""
  },
  {
   "property": "C185",
   "status": "proved",
   "theorems": [
    "C185_entry_added"
   ],
   "note": ""
  },
  {
   "property": "C186",
   "status": "partial",
   "theorems": [
    "C186_refuted"
   ],
   "note": "Refuted: the theorem exhibits a state in which the code violates the property. the second line of the entry \"- drop the obsolete\", \"%clean section\" begins a section, which has the older entries of the changelog."
  },
  {
   "property": "C187",
   "status": "proved",
   "theorems": [
    "C187_sections_edited"
   ],
   "note": ""
  },
  {
   "property": "C188",
   "status": "proved",
   "theorems": [
    "C188_sections",
    "C188_changelog",
    "C188_prep"
   ],
   "note": ""
  },
  {
   "property": "C189",
   "status": "proved",
   "theorems": [
    "C189_patch_added",
    "C189_patch_removed"
   ],
   "note": ""
  },
  {
   "property": "C190",
   "status": "partial",
   "theorems": [
    "C190_refuted"
   ],
   "note": "Refuted: the theorem exhibits a state in which the code violates the property. if the last line of the file is \"%global x a\\\\\", the header of the added section becomes a line of the macro definition and the section is not read."
  },
  {
   "property": "C191",
   "status": "partial",
   "theorems": [
    "C191_dashed_values_refuted"
   ],
   "note": "Refuted: the theorem exhibits a state in which the code violates the property. a text that starts with a dash is accepted, and the option then shows True."
  },
  {
   "property": "C192",
   "status": "proved",
   "theorems": [
    "C192_listed",
    "C192_number",
    "C192_item"
   ],
   "note": ""
  },
  {
   "property": "C193",
   "status": "partial",
   "theorems": [
    "C193_membership_refuted"
   ],
   "note": "Refuted: the theorem exhibits a state in which the code violates the property. \"x\" in options is True and options.get(\"x\", default) ignores the default for every known option, also if it does not occur."
  },
  {
   "property": "C194",
   "status": "partial",
   "theorems": [
    "C194_unknown_names_refuted",
    "C194_other_names"
   ],
   "note": "Refuted: the theorem exhibits a state in which the code violates the property. with the option string of %setup, \"ab\" in options raises ValueError, because \"ab\" is part of \"abcDnTq\" but not of \"a:b:cDn:Tq\". C194_other_names proves the claim for all other names."
  },
  {
   "property": "C195",
   "status": "proved",
   "theorems": [
    "C195_assign_positionals"
   ],
   "note": ""
  },
  {
   "property": "C196",
   "status": "partial",
   "theorems": [
    "C196_positional_iadd_refuted"
   ],
   "note": "Refuted: the theorem exhibits a state in which the code violates the property. += assigns the attribute to itself afterwards: the setter clears the positional arguments, then extends them by the view of the same, now empty, list. All positional arguments are lost."
  },
  {
   "property": "C197",
   "status": "proved",
   "theorems": [
    "C197_clear"
   ],
   "note": ""
  },
  {
   "property": "C198",
   "status": "proved",
   "theorems": [
    "C198_read",
    "C198_read_back",
    "C198_append",
    "C198_extend",
    "C198_insert",
    "C198_set",
    "C198_contains",
    "C198_index"
   ],
   "note": ""
  },
  {
   "property": "C199",
   "status": "partial",
   "theorems": [
    "C199_slice_assignment_refuted"
   ],
   "note": "Refuted: the theorem exhibits a state in which the code violates the property. comments[0:2] = [\"a\"] raises IndexError after the first comment was changed; comments[0:1] = [\"a\", \"b\"] drops \"b\"."
  },
  {
   "property": "C200",
   "status": "partial",
   "theorems": [
    "C200_comments_iadd_refuted"
   ],
   "note": "Refuted: the theorem exhibits a state in which the code violates the property. UserList.__iadd__ is inherited and adds the text itself, so that it is written without \"# \". comments += [\"License: MIT\"] writes a tag."
  },
  {
   "property": "C201",
   "status": "partial",
   "theorems": [
    "C201_extend_by_itself_refuted"
   ],
   "note": "Refuted: the theorem exhibits a state in which the code violates the property. comments.extend(comments) reads the list while it grows and never ends."
  },
  {
   "property": "C202",
   "status": "partial",
   "theorems": [
    "C202_with_an_option",
    "C202_positional_arguments_refuted"
   ],
   "note": "Refuted: the theorem exhibits a state in which the code violates the property. if the options have positional arguments only, their length is 0 and no blank is put after the name: Section(\"package\", options \"doc\") is written as \"%packagedoc\". C202_with_an_option proves the claim if there is an option."
  },
  {
   "property": "C203",
   "status": "partial",
   "theorems": [
    "C203_copies_of_prep_macros_refuted",
    "C203_copies_of_prep_macros_last",
    "C203_copies_of_tags_refuted",
    "C203_copies_of_tags_last_refuted",
    "C203_copies_of_macro_definitions_refuted",
    "C203_copies_of_macro_definitions_last"
   ],
   "note": "Refuted: the theorem exhibits a state in which the code violates the property. copies and slices share the items. Deleting an item of the copy puts the lines above it on top of the next item, so that the original writes them twice (a conditional is opened twice). Deleting the last tag of a copy changes the leftover lines of the original too. C203_copies_of_macro_definitions_last: deleting the last macro definition of a copy leaves the original as it is."
  },
  {
   "property": "C204",
   "status": "partial",
   "theorems": [
    "C204_refuted",
    "C204_first",
    "C204_no_equal_section_above"
   ],
   "note": "Refuted: the theorem exhibits a state in which the code violates the property. Section inherits the equality of lists of lines. If %build and %install are both empty, sections.remove(sections.install) removes %build. C204_no_equal_section_above: right if no section above has the same lines."
  },
  {
   "property": "C205",
   "status": "partial",
   "theorems": [
    "C205_tags_pop_refuted",
    "C205_tags_remove_refuted",
    "C205_macro_definitions_refuted",
    "C205_macro_definitions_remove_refuted",
    "C205_tags_clear_refuted",
    "C205_prep_refuted",
    "C205_changelog"
   ],
   "note": "Refuted: the theorem exhibits a state in which the code violates the property. pop() and remove() are inherited and bypass __delitem__: the lines above the item (%if, comments, blank lines) are lost. remove() takes the first tag that says the same. C205_changelog: entries have no lines above them, only the blank lines below are lost."
  },
  {
   "property": "C206",
   "status": "partial",
   "theorems": [
    "C206_macro_definitions_refuted",
    "C206_tags_refuted",
    "C206_changelog_refuted"
   ],
   "note": "Refuted: the theorem exhibits a state in which the code violates the property. the sum is made of the items alone. The sum of macro definitions lacks everything below the last definition."
  },
  {
   "property": "C207",
   "status": "partial",
   "theorems": [
    "C207_spec_files_refuted",
    "C207_lists_of_macro_definitions",
    "C207_macro_definitions",
    "C207_tags",
    "C207_lists_of_tags",
    "C207_changelog_entries"
   ],
   "note": "Refuted: the theorem exhibits a state in which the code violates the property. Specfile.__eq__ ignores whether the file ends in a line feed; lists ignore the lines that belong to no item; tags ignore the lines above. Proved for macro definitions and changelog entries, and for what equal tags and lists have in common."
  },
  {
   "property": "C208",
   "status": "proved",
   "theorems": [
    "C208_unchanged",
    "C208_lines",
    "C208_set_tag",
    "C208_set_release",
    "C208_bump_release_macro",
    "C208_bump_release_tag"
   ],
   "note": ""
  },
  {
   "property": "C209",
   "status": "partial",
   "theorems": [
    "C209_refuted",
    "C209_unencodable_refuted"
   ],
   "note": "Refuted: the theorem exhibits a state in which the code violates the property. __exit__() saves whether or not an exception is being raised: a half-made change is written. A value that cannot be encoded leaves an empty file."
  },
  {
   "property": "C210",
   "status": "partial",
   "theorems": [
    "C210_pop",
    "C210_clear",
    "C210_extend",
    "C210_extend_refuted"
   ],
   "note": "Refuted: the theorem exhibits a state in which the code violates the property. extend() with a duplicate raises after the locations above it were added. pop(), clear() and extend() without duplicates are proved."
  },
  {
   "property": "C211",
   "status": "partial",
   "theorems": [
    "C211_index_of_object",
    "C211_index_refuted",
    "C211_reverse_refuted"
   ],
   "note": "Refuted: the theorem exhibits a state in which the code violates the property. index(location) always raises ValueError (a source never equals a string). After reverse() the locations are source objects that refer to each other, and writing them never ends."
  },
  {
   "property": "C212",
   "status": "proved",
   "theorems": [
    "C212_last_write"
   ],
   "note": ""
  },
  {
   "property": "C213",
   "status": "proved",
   "theorems": [
    "C213_others",
    "C213_edits",
    "C213_settings",
    "C213_reload",
    "C213_open"
   ],
   "note": ""
  },
  {
   "property": "C214",
   "status": "partial",
   "theorems": [
    "C214_refuted",
    "C214_turns"
   ],
   "note": "Refuted: the theorem exhibits a state in which the code violates the property. the object that saves last overwrites the file without noticing. Proved: nothing is lost if the objects work in turns (reload, edit, save)."
  },
  {
   "property": "C215",
   "status": "partial",
   "theorems": [
    "C215_outside",
    "C215_refuted"
   ],
   "note": "Refuted: the theorem exhibits a state in which the code violates the property. a view that is open keeps the list of lines from before the reload, so all changes until it is left are lost. Proved for reloads outside of views."
  },
  {
   "property": "C216",
   "status": "partial",
   "theorems": [
    "C216_expand",
    "C216_independent",
    "C216_active_macros",
    "C216_refuted"
   ],
   "note": "Refuted: the theorem exhibits a state in which the code violates the property. an expression that changes macros (%global) has an effect on later expansions, because the parse between them is skipped. Proved for histories without such changes."
  },
  {
   "property": "C217",
   "status": "proved",
   "theorems": [
    "C217_same",
    "C217_formatted"
   ],
   "note": ""
  },
  {
   "property": "C218",
   "status": "partial",
   "theorems": [
    "C218_named",
    "C218_refuted",
    "C218_end_refuted"
   ],
   "note": "Refuted: the theorem exhibits a state in which the code violates the property. AttributeError for a call of something else than a name, IndexError for a syntax error at the end of a line. Proved for texts in which all calls are of names."
  },
  {
   "property": "C219",
   "status": "partial",
   "theorems": [
    "C219_once",
    "C219_refuted"
   ],
   "note": "Refuted: the theorem exhibits a state in which the code violates the property. the first occurrence of the text of the placeholder is replaced, which may be a string. Proved if it occurs only once."
  },
  {
   "property": "C220",
   "status": "proved",
   "theorems": [
    "C220_captured",
    "C220_writes"
   ],
   "note": ""
  },
  {
   "property": "C221",
   "status": "partial",
   "theorems": [
    "C221_restored",
    "C221_refuted"
   ],
   "note": "Refuted: the theorem exhibits a state in which the code violates the property. an interrupt between the redirection and try, or a failing flush in finally, leaves standard error redirected to a temporary file. Proved for all other failures."
  },
  {
   "property": "C222",
   "status": "proved",
   "theorems": [
    "C222_total",
    "C222_equal",
    "C222_fresh",
    "C222_original",
    "C222_copy",
    "C222_sharing",
    "C222_attributes"
   ],
   "note": ""
  },
  {
   "property": "C223",
   "status": "partial",
   "theorems": [
    "C223_context",
    "C223_refuted"
   ],
   "note": "Refuted: the theorem exhibits a state in which the code violates the property. the copy of a Sources has a copy of the Specfile as its context, while the tags in it keep the original one. Proved for tags and sourcelist entries themselves, wherever they are."
  },
  {
   "property": "C224",
   "status": "proved",
   "theorems": [
    "C224_each_positional",
    "C224_reading",
    "C224_collections",
    "C224_positionals",
    "C224_delete_tags",
    "C224_delete_definitions",
    "C224_delete_macros",
    "C224_delete_entries",
    "C224_delete_sources",
    "C224_delete_positionals",
    "C224_zero"
   ],
   "note": ""
  },
  {
   "property": "C225",
   "status": "partial",
   "theorems": [
    "C225_partial",
    "C225_refuted"
   ],
   "note": "Refuted: the theorem exhibits a state in which the code violates the property. the loops go over the reversed positions, so those of a slice with a negative step come in ascending order and all but the first miss: with two positions or more the deletion always fails or deletes something the slice does not pick. Proved for slices of at most one item; C80 has sources, an example positional arguments."
  },
  {
   "property": "C226",
   "status": "partial",
   "theorems": [
    "C226_sources",
    "C226_positionals",
    "C226_lengths",
    "C226_lengths_positionals",
    "C226_refuted"
   ],
   "note": "Refuted: the theorem exhibits a state in which the code violates the property. values that are too many are ignored without an exception, and with too few an exception comes after changes. Proved when there are as many values as positions, and what happens otherwise is characterised exactly."
  },
  {
   "property": "C227",
   "status": "proved",
   "theorems": [
    "C227_remote",
    "C227_url",
    "C227_looked_at",
    "C227_tidy",
    "C227_local",
    "C227_none"
   ],
   "note": ""
  },
  {
   "property": "C228",
   "status": "partial",
   "theorems": [
    "C228_partial",
    "C228_refuted"
   ],
   "note": "Refuted: the theorem exhibits a state in which the code violates the property. a location with a square bracket in the host that is not closed is a ValueError. Proved for ASCII locations without square brackets."
  },
  {
   "property": "C229",
   "status": "proved",
   "theorems": [
    "C229_dump",
    "C229_silent",
    "C229_raises"
   ],
   "note": ""
  },
  {
   "property": "C230",
   "status": "partial",
   "theorems": [
    "C230_undecodable",
    "C230_refuted"
   ],
   "note": "Refuted: the theorem exhibits a state in which the code violates the property. every line that is not valid UTF-8 is a UnicodeDecodeError; as every parse begins with a dump, no spec file can be parsed then."
  },
  {
   "property": "C231",
   "status": "partial",
   "theorems": [
    "C231_rpm_spec",
    "C231_tainted",
    "C231_set",
    "C231_refuted"
   ],
   "note": "Refuted: the theorem exhibits a state in which the code violates the property. proved when no identity is used again (C231_rpm_spec, C231_tainted, C231_set); a copy that gets the identity of a dropped spec file has no parsed spec file (C231_refuted)."
  },
  {
   "property": "C232",
   "status": "partial",
   "theorems": [
    "C232_options",
    "C232_macros",
    "C232_lists",
    "C232_positionals_refuted",
    "C232_patches_refuted"
   ],
   "note": "Refuted: the theorem exhibits a state in which the code violates the property. options: exact characterization (C232_options); macros: C232_macros, C232_lists; positional arguments are ignored, so %patch 1 -p1 equals %patch 2 -p1 (C232_positionals_refuted, C232_patches_refuted)."
  },
  {
   "property": "C233",
   "status": "partial",
   "theorems": [
    "C233_partial",
    "C233_first",
    "C233_refuted"
   ],
   "note": "Refuted: the theorem exhibits a state in which the code violates the property. right if no earlier macro compares equal (C233_partial); otherwise the first equal one is removed (C233_first), such as another patch (C233_refuted)."
  },
  {
   "property": "C234",
   "status": "partial",
   "theorems": [
    "C234_partial",
    "C234_refuted",
    "C234_all"
   ],
   "note": "Refuted: the theorem exhibits a state in which the code violates the property. proved for two lists of sources, or two lists of patches (C234_partial); the sources of a file equal its patches (C234_refuted, C234_all)."
  },
  {
   "property": "C235",
   "status": "proved",
   "theorems": [
    "C235_bytes",
    "C235_first",
    "C235_none"
   ],
   "note": ""
  },
  {
   "property": "C236",
   "status": "proved",
   "theorems": [
    "C236_delete",
    "C236_insert",
    "C236_add_patch"
   ],
   "note": ""
  },
  {
   "property": "C237",
   "status": "proved",
   "theorems": [
    "C237_section",
    "C237_changelog",
    "C237_text"
   ],
   "note": ""
  },
  {
   "property": "C238",
   "status": "partial",
   "theorems": [
    "C238_text_refuted"
   ],
   "note": "Refuted: the theorem exhibits a state in which the code violates the property. proved for changelogs in which only the oldest entry may be without contents (C237_changelog); otherwise the next header becomes the contents of the entry without (C238_text_refuted)."
  },
  {
   "property": "C239",
   "status": "proved",
   "theorems": [
    "C239_lines"
   ],
   "note": ""
  },
  {
   "property": "C240",
   "status": "proved",
   "theorems": [
    "C240_attributes",
    "C240_attributes_at",
    "C240_tags",
    "C240_tags_at"
   ],
   "note": ""
  },
  {
   "property": "C241",
   "status": "partial",
   "theorems": [
    "C241_negated_refuted",
    "C241_text_refuted"
   ],
   "note": "Refuted: the theorem exhibits a state in which the code violates the property. both keywords hold where the platform is listed (C241_negated_refuted), so that a branch for all but one architecture is hidden (C241_text_refuted); %ifnarch, %ifnos, %elifarch and %elifos are right (C09_truth_of_platform_lists). RPM itself documents only the latter; the pattern of condition lines accepts all."
  },
  {
   "property": "C242",
   "status": "partial",
   "theorems": [
    "C242_by_name",
    "C242_made",
    "C242_prep_refuted",
    "C242_language_refuted"
   ],
   "note": "Refuted: the theorem exhibits a state in which the code violates the property. the property goes by the name of the section alone (C242_by_name, C242_made), from a list without prep: %prep is none (C242_prep_refuted), and a scriptlet in Lua is one (C242_language_refuted)."
  },
  {
   "property": "C243",
   "status": "proved",
   "theorems": [
    "C243_count",
    "C243_contains",
    "C243_insert",
    "C243_remove"
   ],
   "note": ""
  },
  {
   "property": "C244",
   "status": "partial",
   "theorems": [
    "C244_slice_written",
    "C244_equal",
    "C244_names_and_lines",
    "C244_options_refuted",
    "C244_slices",
    "C244_slices_fail"
   ],
   "note": "Refuted: the theorem exhibits a state in which the code violates the property. the copy shares the options object, so any change of the options of one is one of the other (C244_options_refuted). Names and lines are independent (C244_names_and_lines), and slices are independent in everything (C244_slices)."
  },
  {
   "property": "C245",
   "status": "partial",
   "theorems": [
    "C245_lines_refuted",
    "C245_sections"
   ],
   "note": "Refuted: the theorem exhibits a state in which the code violates the property. assigning lines to an attribute of the copy changes the section of the original (C245_lines_refuted); assigning sections and deleting them is independent (C245_sections)."
  },
  {
   "property": "C246",
   "status": "partial",
   "theorems": [
    "C246_refuted"
   ],
   "note": "Refuted: the theorem exhibits a state in which the code violates the property. the inherited methods call the class with the list of lines as its name, which is an AttributeError (C246_refuted)."
  },
  {
   "property": "C247",
   "status": "proved",
   "theorems": [
    "C247_equal",
    "C247_unreadable"
   ],
   "note": ""
  },
  {
   "property": "C248",
   "status": "partial",
   "theorems": [
    "C248_reading",
    "C248_refuted"
   ],
   "note": "Refuted: the theorem exhibits a state in which the code violates the property. reading an identifier is pure as far as can be seen at once (C248_reading), which also justifies the stateless model of identifiers, but it stores a delimiter: an option that is added, seen and deleted leaves a space behind the name, and the section is not found by its name any more (C248_refuted)."
  },
  {
   "property": "C249",
   "status": "proved",
   "theorems": [
    "C249_switched_once"
   ],
   "note": ""
  },
  {
   "property": "C250",
   "status": "proved",
   "theorems": [
    "C250_values_go_on",
    "C250_one_reading"
   ],
   "note": ""
  },
  {
   "property": "C251",
   "status": "proved",
   "theorems": [
    "C251_new_option",
    "C251_appended",
    "C251_one_way"
   ],
   "note": ""
  },
  {
   "property": "C252",
   "status": "proved",
   "theorems": [
    "C252_dummies_there"
   ],
   "note": ""
  },
  {
   "property": "C253",
   "status": "proved",
   "theorems": [
    "C253_collected",
    "C253_closest"
   ],
   "note": ""
  },
  {
   "property": "C254",
   "status": "proved",
   "theorems": [
    "C254_new",
    "C254_parsed"
   ],
   "note": ""
  },
  {
   "property": "C255",
   "status": "partial",
   "theorems": [
    "C255_written",
    "C255_negative_refuted"
   ],
   "note": "Refuted: the theorem exhibits a state in which the code violates the property. a negative number is read as a text."
  },
  {
   "property": "C256",
   "status": "proved",
   "theorems": [
    "C256_missing",
    "C256_unreadable"
   ],
   "note": ""
  }
 ]
}