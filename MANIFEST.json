{
 "claims": [
  {
   "property": "C01",
   "status": "proved",
   "theorems": [
    "C01_exact_layout"
   ],
   "note": ""
  },
  {
   "property": "C02",
   "status": "proved",
   "theorems": [
    "C02_output_determines_tree",
    "C02_builtin_formats"
   ],
   "note": ""
  },
  {
   "property": "C03",
   "status": "proved",
   "theorems": [
    "C03_symbol_width_validated",
    "C03_alignment"
   ],
   "note": ""
  },
  {
   "property": "C04",
   "status": "proved",
   "theorems": [
    "C04_connectors_never_dangle"
   ],
   "note": ""
  },
  {
   "property": "C05",
   "status": "proved",
   "theorems": [
    "C05_exactly_accepted_paths",
    "C05_returns"
   ],
   "note": "On file systems that do not change during the run. That the run returns: for comparators that honour their contract, and for all others where fewer than 32 entries of a directory are accepted (C124, C125)."
  },
  {
   "property": "C06",
   "status": "proved",
   "theorems": [
    "C06_sorted_by_configured_order",
    "C06_sorted_by_name_by_default"
   ],
   "note": "The answers of the comparator do not depend on when it is asked and honour the Comparator contract; it may access the file system."
  },
  {
   "property": "C07",
   "status": "proved",
   "theorems": [
    "C07_listing_order_irrelevant"
   ],
   "note": ""
  },
  {
   "property": "C08",
   "status": "proved",
   "theorems": [
    "C08_child_limit_exact"
   ],
   "note": ""
  },
  {
   "property": "C09",
   "status": "proved",
   "theorems": [
    "C09_skip_marker_exact"
   ],
   "note": ""
  },
  {
   "property": "C10",
   "status": "proved",
   "theorems": [
    "C10_max_depth_exact"
   ],
   "note": "In any world."
  },
  {
   "property": "C11",
   "status": "partial",
   "theorems": [
    "C11_refuted"
   ],
   "note": "The property as documented does not hold of the code; the theorem ending in _refuted gives the witness. Exact behaviour: C59."
  },
  {
   "property": "C12",
   "status": "proved",
   "theorems": [
    "C12_terminates_within_depth"
   ],
   "note": "Callbacks are arbitrary; what they open themselves is told apart."
  },
  {
   "property": "C13",
   "status": "proved",
   "theorems": [
    "C13_reads_what_is_displayed",
    "C13_only_shown_children_are_accessed",
    "C13_filtered_before_accessed"
   ],
   "note": "Callbacks, comparators included, write logs and ask for kinds of paths and lengths of files at most (C96 says which matchers do no more)."
  },
  {
   "property": "C14",
   "status": "partial",
   "theorems": [
    "C14_refuted"
   ],
   "note": "The property as documented does not hold of the code; the theorem ending in _refuted gives the witness. Exact behaviour: C63."
  },
  {
   "property": "C15",
   "status": "proved",
   "theorems": [
    "C15_streams_closed"
   ],
   "note": ""
  },
  {
   "property": "C16",
   "status": "proved",
   "theorems": [
    "C16_opens_only_directories",
    "C16_links_are_leaves"
   ],
   "note": "Callbacks, comparators included, write logs and ask for kinds of paths and lengths of files at most (C96 says which matchers do no more)."
  },
  {
   "property": "C17",
   "status": "partial",
   "theorems": [
    "C17_refuted"
   ],
   "note": "The property as documented does not hold of the code; the theorem ending in _refuted gives the witness. Exact behaviour: C60."
  },
  {
   "property": "C18",
   "status": "partial",
   "theorems": [
    "C18_refuted"
   ],
   "note": "The property as documented does not hold of the code; the theorem ending in _refuted gives the witness. Exact behaviour: C61."
  },
  {
   "property": "C19",
   "status": "partial",
   "theorems": [
    "C19_refuted"
   ],
   "note": "The property as documented does not hold of the code; the theorem ending in _refuted gives the witness. Exact behaviour: C64."
  },
  {
   "property": "C20",
   "status": "partial",
   "theorems": [
    "C20_refuted"
   ],
   "note": "The property as documented does not hold of the code; the theorem ending in _refuted gives the witness. Exact behaviour: C65."
  },
  {
   "property": "C21",
   "status": "partial",
   "theorems": [
    "C21_refuted"
   ],
   "note": "The property as documented does not hold of the code; the theorem ending in _refuted gives the witness. Here the refutation is for all contents and options. Exact behaviour: C62."
  },
  {
   "property": "C22",
   "status": "proved",
   "theorems": [
    "C22_spelling_does_not_matter",
    "C22_string_is_path",
    "C22_no_path",
    "C22_root_line_shows_real_name"
   ],
   "note": "Spellings related by the lexical rules of SpecPath.v (as Path.normalize: links are not resolved)."
  },
  {
   "property": "C23",
   "status": "proved",
   "theorems": [
    "C23_missing_path_reported"
   ],
   "note": ""
  },
  {
   "property": "C24",
   "status": "proved",
   "theorems": [
    "C24_file_prints_one_line"
   ],
   "note": ""
  },
  {
   "property": "C25",
   "status": "proved",
   "theorems": [
    "C25_compaction_loses_nothing"
   ],
   "note": ""
  },
  {
   "property": "C26",
   "status": "proved",
   "theorems": [
    "C26_compaction_exact"
   ],
   "note": ""
  },
  {
   "property": "C27",
   "status": "proved",
   "theorems": [
    "C27_extension_called_once_per_path",
    "C27_extension_ends_its_line"
   ],
   "note": ""
  },
  {
   "property": "C28",
   "status": "proved",
   "theorems": [
    "C28_one_line_per_entry"
   ],
   "note": ""
  },
  {
   "property": "C29",
   "status": "proved",
   "theorems": [
    "C29_first_non_null_rule_wins",
    "C29_outcome_is_unique"
   ],
   "note": ""
  },
  {
   "property": "C30",
   "status": "partial",
   "theorems": [
    "C30_refuted"
   ],
   "note": "The property as documented does not hold of the code; the theorem ending in _refuted gives the witness. Exact behaviour: C66."
  },
  {
   "property": "C31",
   "status": "partial",
   "theorems": [
    "C31_refuted",
    "C31_nonnegative_partial"
   ],
   "note": "The property as documented does not hold of the code; the theorem ending in _refuted gives the witness. Holds for limits >= 0. Exact behaviour: C66."
  },
  {
   "property": "C32",
   "status": "partial",
   "theorems": [
    "C32_refuted"
   ],
   "note": "The property as documented does not hold of the code; the theorem ending in _refuted gives the witness. Exact behaviour: C66, C67."
  },
  {
   "property": "C33",
   "status": "proved",
   "theorems": [
    "C33_order",
    "C33_throws",
    "C33_precedence_exists",
    "C33_contract",
    "C33_add_first",
    "C33_add_last"
   ],
   "note": "Rules are arbitrary: they may access the file system and throw. C33_contract is for rules whose answers do not depend on when they are asked."
  },
  {
   "property": "C34",
   "status": "proved",
   "theorems": [
    "C34_contracts",
    "C34_by_extension_order",
    "C34_every_name_has_parts_or_no_extension",
    "C34_directories"
   ],
   "note": "On a file system that does not change during the comparisons."
  },
  {
   "property": "C35",
   "status": "partial",
   "theorems": [
    "C35_refuted"
   ],
   "note": "The property as documented does not hold of the code; the theorem ending in _refuted gives the witness. Exact behaviour: C68."
  },
  {
   "property": "C36",
   "status": "proved",
   "theorems": [
    "C36_combinations_evaluate_in_order",
    "C36_evaluation_is_unique",
    "C36_boolean_meaning",
    "C36_argument_checks",
    "C36_later_changes_have_no_effect",
    "C36_not_and_conditional"
   ],
   "note": ""
  },
  {
   "property": "C37",
   "status": "proved",
   "theorems": [
    "C37_relative_path"
   ],
   "note": "The documentation's claim that a path outside the reference is rejected with IllegalArgumentException does not hold (see DESIGN.md); the property states what happens."
  },
  {
   "property": "C38",
   "status": "partial",
   "theorems": [
    "C38_refuted"
   ],
   "note": "The property as documented does not hold of the code; the theorem ending in _refuted gives the witness. Exact behaviour: C69."
  },
  {
   "property": "C39",
   "status": "proved",
   "theorems": [
    "C39_direct_parent",
    "C39_any_ancestor",
    "C39_nearest_ancestor_decides"
   ],
   "note": ""
  },
  {
   "property": "C40",
   "status": "proved",
   "theorems": [
    "C40_any_descendant",
    "C40_any_direct_child"
   ],
   "note": ""
  },
  {
   "property": "C41",
   "status": "proved",
   "theorems": [
    "C41_sibling",
    "C41_no_parent"
   ],
   "note": ""
  },
  {
   "property": "C42",
   "status": "proved",
   "theorems": [
    "C42_names",
    "C42_no_name",
    "C42_glob"
   ],
   "note": "Globs and regular expressions are arbitrary predicates."
  },
  {
   "property": "C43",
   "status": "proved",
   "theorems": [
    "C43_precedence",
    "C43_rule_is_unique",
    "C43_own_emoji_is_unique"
   ],
   "note": ""
  },
  {
   "property": "C44",
   "status": "partial",
   "theorems": [
    "C44_refuted"
   ],
   "note": "The property as documented does not hold of the code; the theorem ending in _refuted gives the witness. Exact behaviour: C71."
  },
  {
   "property": "C45",
   "status": "partial",
   "theorems": [
    "C45_refuted"
   ],
   "note": "The property as documented does not hold of the code; the theorem ending in _refuted gives the witness. Exact behaviour: C72."
  },
  {
   "property": "C46",
   "status": "proved",
   "theorems": [
    "C46_extensions"
   ],
   "note": ""
  },
  {
   "property": "C47",
   "status": "proved",
   "theorems": [
    "C47_emojis_only_prefix_labels"
   ],
   "note": ""
  },
  {
   "property": "C48",
   "status": "partial",
   "theorems": [
    "C48_refuted"
   ],
   "note": "The property as documented does not hold of the code; the theorem ending in _refuted gives the witness. Exact behaviour: C73."
  },
  {
   "property": "C49",
   "status": "proved",
   "theorems": [
    "C49_last_call_wins",
    "C49_every_object",
    "C49_options_are_determined",
    "C49_rejected_calls"
   ],
   "note": ""
  },
  {
   "property": "C50",
   "status": "partial",
   "theorems": [
    "C50_refuted"
   ],
   "note": "The property as documented does not hold of the code; the theorem ending in _refuted gives the witness. Exact behaviour: C74."
  },
  {
   "property": "C51",
   "status": "partial",
   "theorems": [
    "C51_refuted"
   ],
   "note": "The property as documented does not hold of the code; the theorem ending in _refuted gives the witness. Exact behaviour: C75."
  },
  {
   "property": "C52",
   "status": "proved",
   "theorems": [
    "C52_one_choice",
    "C52_refused",
    "C52_chosen"
   ],
   "note": "Debug mode off; the answers of the file system do not change during the lookup."
  },
  {
   "property": "C53",
   "status": "partial",
   "theorems": [
    "C53_refuted"
   ],
   "note": "The property as documented does not hold of the code; the theorem ending in _refuted gives the witness. The folder examined is the current directory (C52)."
  },
  {
   "property": "C54",
   "status": "partial",
   "theorems": [
    "C54_refuted"
   ],
   "note": "The property as documented does not hold of the code; the theorem ending in _refuted gives the witness. Exact behaviour: C77."
  },
  {
   "property": "C55",
   "status": "proved",
   "theorems": [
    "C55_mapping_succeeds"
   ],
   "note": "The locale leaves the lower-case default emoji keys unchanged."
  },
  {
   "property": "C56",
   "status": "partial",
   "theorems": [
    "C56_refuted"
   ],
   "note": "The property as documented does not hold of the code; the theorem ending in _refuted gives the witness. Exact behaviour: C76."
  },
  {
   "property": "C57",
   "status": "proved",
   "theorems": [
    "C57_missing_target"
   ],
   "note": ""
  },
  {
   "property": "C58",
   "status": "proved",
   "theorems": [
    "C58_text_block",
    "C58_document",
    "C58_keys_and_numbers",
    "C58_signed_numbers"
   ],
   "note": ""
  },
  {
   "property": "C59",
   "status": "proved",
   "theorems": [
    "C59_nonpositive_depth_cuts_at_root",
    "C59_nothing_is_opened"
   ],
   "note": ""
  },
  {
   "property": "C60",
   "status": "proved",
   "theorems": [
    "C60_mark_is_that_of_the_target"
   ],
   "note": ""
  },
  {
   "property": "C61",
   "status": "proved",
   "theorems": [
    "C61_dangling_link_prevents_printing"
   ],
   "note": ""
  },
  {
   "property": "C62",
   "status": "proved",
   "theorems": [
    "C62_root_is_a_null_pointer"
   ],
   "note": ""
  },
  {
   "property": "C63",
   "status": "proved",
   "theorems": [
    "C63_limit_does_not_avoid_listing"
   ],
   "note": ""
  },
  {
   "property": "C64",
   "status": "proved",
   "theorems": [
    "C64_exceptions_are_io_failures"
   ],
   "note": ""
  },
  {
   "property": "C65",
   "status": "proved",
   "theorems": [
    "C65_no_other_failure_is_swallowed"
   ],
   "note": ""
  },
  {
   "property": "C66",
   "status": "proved",
   "theorems": [
    "C66_value_of_a_built_limit"
   ],
   "note": ""
  },
  {
   "property": "C67",
   "status": "proved",
   "theorems": [
    "C67_built_limit_independent"
   ],
   "note": ""
  },
  {
   "property": "C68",
   "status": "proved",
   "theorems": [
    "C68_size_then_name"
   ],
   "note": ""
  },
  {
   "property": "C69",
   "status": "proved",
   "theorems": [
    "C69_path_given_to_the_absolute_matcher"
   ],
   "note": ""
  },
  {
   "property": "C70",
   "status": "proved",
   "theorems": [
    "C70_matchers_close_streams"
   ],
   "note": ""
  },
  {
   "property": "C71",
   "status": "proved",
   "theorems": [
    "C71_keys_differing_in_case"
   ],
   "note": ""
  },
  {
   "property": "C72",
   "status": "proved",
   "theorems": [
    "C72_rules_are_shared_with_the_builder",
    "C72_other_calls_have_no_effect"
   ],
   "note": ""
  },
  {
   "property": "C73",
   "status": "proved",
   "theorems": [
    "C73_default_emojis"
   ],
   "note": "The locale enters as an arbitrary lower-casing function."
  },
  {
   "property": "C74",
   "status": "proved",
   "theorems": [
    "C74_what_a_printer_reads"
   ],
   "note": "Callbacks do not modify options while prettyPrint runs."
  },
  {
   "property": "C75",
   "status": "proved",
   "theorems": [
    "C75_printed_text"
   ],
   "note": ""
  },
  {
   "property": "C76",
   "status": "proved",
   "theorems": [
    "C76_exit_code",
    "C76_failures"
   ],
   "note": ""
  },
  {
   "property": "C77",
   "status": "proved",
   "theorems": [
    "C77_document_meaning",
    "C77_no_negative_limit"
   ],
   "note": ""
  },
  {
   "property": "C78",
   "status": "proved",
   "theorems": [
    "C78_accepted_documents"
   ],
   "note": ""
  },
  {
   "property": "C79",
   "status": "proved",
   "theorems": [
    "C79_kind_of_path"
   ],
   "note": ""
  },
  {
   "property": "C80",
   "status": "partial",
   "theorems": [
    "C80_refuted"
   ],
   "note": "The property as documented does not hold of the code; the theorem ending in _refuted gives the witness. Exact behaviour: C09 and C10."
  },
  {
   "property": "C81",
   "status": "partial",
   "theorems": [
    "C81_refuted"
   ],
   "note": "The property as documented does not hold of the code; the theorem ending in _refuted gives the witness. Exact behaviour: C82."
  },
  {
   "property": "C82",
   "status": "proved",
   "theorems": [
    "C82_debug_adds_lines"
   ],
   "note": "The answers of the file system do not change during the run."
  },
  {
   "property": "C83",
   "status": "proved",
   "theorems": [
    "C83_debug_text_determines_document"
   ],
   "note": ""
  },
  {
   "property": "C84",
   "status": "partial",
   "theorems": [
    "C84_refuted"
   ],
   "note": "The property as documented does not hold of the code; the theorem ending in _refuted gives the witness. Exact behaviour: C85."
  },
  {
   "property": "C85",
   "status": "proved",
   "theorems": [
    "C85_text_determines_names"
   ],
   "note": ""
  },
  {
   "property": "C86",
   "status": "proved",
   "theorems": [
    "C86_returns_exactly_the_tree"
   ],
   "note": ""
  },
  {
   "property": "C87",
   "status": "proved",
   "theorems": [
    "C87_smaller_depth_cuts"
   ],
   "note": ""
  },
  {
   "property": "C88",
   "status": "proved",
   "theorems": [
    "C88_stricter_limits_prune"
   ],
   "note": ""
  },
  {
   "property": "C89",
   "status": "proved",
   "theorems": [
    "C89_stricter_filters_select"
   ],
   "note": ""
  },
  {
   "property": "C90",
   "status": "proved",
   "theorems": [
    "C90_part_of_a_tree"
   ],
   "note": ""
  },
  {
   "property": "C91",
   "status": "proved",
   "theorems": [
    "C91_copies_print_alike"
   ],
   "note": ""
  },
  {
   "property": "C92",
   "status": "proved",
   "theorems": [
    "C92_directory_first",
    "C92_directory_last",
    "C92_by_extension"
   ],
   "note": "The file system does not change during the run."
  },
  {
   "property": "C93",
   "status": "proved",
   "theorems": [
    "C93_built_order",
    "C93_add_first_shows_first",
    "C93_add_last_shows_last"
   ],
   "note": "For rules whose answers do not depend on when they are asked; they may access the file system."
  },
  {
   "property": "C94",
   "status": "proved",
   "theorems": [
    "C94_shows_what_was_answered"
   ],
   "note": "Filters, limits and the other callbacks may access the file system."
  },
  {
   "property": "C95",
   "status": "partial",
   "theorems": [
    "C95_refuted"
   ],
   "note": "The property as documented does not hold of the code; the theorem ending in _refuted gives the witness. Exact behaviour: C94."
  },
  {
   "property": "C96",
   "status": "proved",
   "theorems": [
    "C96_no_directory_is_read",
    "C96_nothing_is_remembered"
   ],
   "note": ""
  },
  {
   "property": "C97",
   "status": "proved",
   "theorems": [
    "C97_malformed_globs",
    "C97_star",
    "C97_absolute_globs",
    "C97_relative_globs"
   ],
   "note": "The glob language of the platform is an arbitrary function."
  },
  {
   "property": "C98",
   "status": "proved",
   "theorems": [
    "C98_parts_only_ask",
    "C98_parts_close_what_they_open",
    "C98_parts_remember_nothing"
   ],
   "note": ""
  },
  {
   "property": "C99",
   "status": "partial",
   "theorems": [
    "C99_refuted"
   ],
   "note": "The property as documented does not hold of the code; the theorem ending in _refuted gives the witness. Exact behaviour: C100."
  },
  {
   "property": "C100",
   "status": "proved",
   "theorems": [
    "C100_conforming_files",
    "C100_command"
   ],
   "note": "Jackson's defaults as stated in the trusted base; the YAML grammar is not modelled."
  },
  {
   "property": "C101",
   "status": "partial",
   "theorems": [
    "C101_refuted"
   ],
   "note": "The property as documented does not hold of the code; the theorem ending in _refuted gives the witness. Exact behaviour: C102."
  },
  {
   "property": "C102",
   "status": "proved",
   "theorems": [
    "C102_read_what_is_written",
    "C102_command"
   ],
   "note": "Jackson's defaults as stated in the trusted base; the YAML grammar is not modelled."
  },
  {
   "property": "C103",
   "status": "proved",
   "theorems": [
    "C103_other_keys_have_no_effect"
   ],
   "note": "Jackson's defaults as stated in the trusted base; the YAML grammar is not modelled."
  },
  {
   "property": "C104",
   "status": "proved",
   "theorems": [
    "C104_name_globs",
    "C104_same_tests"
   ],
   "note": "On a platform with the globs of the JDK on Unix (Glob.v, trusted). For globs without unpaired surrogates."
  },
  {
   "property": "C105",
   "status": "proved",
   "theorems": [
    "C105_escaped_names",
    "C105_slash_in_name_glob"
   ],
   "note": "On a platform with the globs of the JDK on Unix (Glob.v, trusted)."
  },
  {
   "property": "C106",
   "status": "proved",
   "theorems": [
    "C106_literal_relative_glob"
   ],
   "note": "On a platform with the globs of the JDK on Unix (Glob.v, trusted)."
  },
  {
   "property": "C107",
   "status": "partial",
   "theorems": [
    "C107_refuted"
   ],
   "note": "The property as documented does not hold of the code; the theorem ending in _refuted gives the witness. Exact behaviour: C108. On a platform with the globs of the JDK on Unix (Glob.v, trusted)."
  },
  {
   "property": "C108",
   "status": "proved",
   "theorems": [
    "C108_below"
   ],
   "note": "On a platform with the globs of the JDK on Unix (Glob.v, trusted)."
  },
  {
   "property": "C109",
   "status": "partial",
   "theorems": [
    "C109_refuted"
   ],
   "note": "The property as documented does not hold of the code; the theorem ending in _refuted gives the witness. Exact behaviour: C110. On a platform with the globs of the JDK on Unix (Glob.v, trusted)."
  },
  {
   "property": "C110",
   "status": "proved",
   "theorems": [
    "C110_stars_text_absolute",
    "C110_stars_text_relative",
    "C110_deep_absolute",
    "C110_deep_relative"
   ],
   "note": "On a platform with the globs of the JDK on Unix (Glob.v, trusted). For globs without unpaired surrogates."
  },
  {
   "property": "C111",
   "status": "partial",
   "theorems": [
    "C111_refuted"
   ],
   "note": "The property as documented does not hold of the code; the theorem ending in _refuted gives the witness. Exact behaviour: C112. On a platform with the globs of the JDK on Unix (Glob.v, trusted)."
  },
  {
   "property": "C112",
   "status": "proved",
   "theorems": [
    "C112_flat"
   ],
   "note": "On a platform with the globs of the JDK on Unix (Glob.v, trusted)."
  },
  {
   "property": "C113",
   "status": "partial",
   "theorems": [
    "C113_refuted"
   ],
   "note": "The property as documented does not hold of the code; the theorem ending in _refuted gives the witness. Exact behaviour: C114. On a platform with the globs of the JDK on Unix (Glob.v, trusted)."
  },
  {
   "property": "C114",
   "status": "proved",
   "theorems": [
    "C114_readme"
   ],
   "note": "On a platform with the globs of the JDK on Unix (Glob.v, trusted)."
  },
  {
   "property": "C115",
   "status": "proved",
   "theorems": [
    "C115_document_text",
    "C115_document_shown"
   ],
   "note": "Any glob language. Targets other than the root directory."
  },
  {
   "property": "C116",
   "status": "proved",
   "theorems": [
    "C116_command",
    "C116_from_words"
   ],
   "note": "Any glob language. Targets other than the root directory; line separators LF or CR LF."
  },
  {
   "property": "C117",
   "status": "proved",
   "theorems": [
    "C117_limit_once_per_open_directory",
    "C117_directory_filter_once",
    "C117_file_filter_once",
    "C117_never_twice",
    "C117_emoji_once_per_line"
   ],
   "note": "The calls of the extension function are C27; what is compared is in C94."
  },
  {
   "property": "C118",
   "status": "proved",
   "theorems": [
    "C118_accesses",
    "C118_cost"
   ],
   "note": ""
  },
  {
   "property": "C119",
   "status": "proved",
   "theorems": [
    "C119_basic_usage",
    "C119_tree_format",
    "C119_max_depth",
    "C119_compact_directories",
    "C119_child_limit_static",
    "C119_child_limit_dynamic",
    "C119_emojis",
    "C119_filtering",
    "C119_sorting",
    "C119_line_extension"
   ],
   "note": "On a platform with the globs of the JDK on Unix (Glob.v, trusted)."
  },
  {
   "property": "C120",
   "status": "proved",
   "theorems": [
    "C120_project_structure"
   ],
   "note": "On a platform with the globs of the JDK on Unix (Glob.v, trusted). The project is not the root directory."
  },
  {
   "property": "C121",
   "status": "proved",
   "theorems": [
    "C121_function",
    "C121_printed",
    "C121_reported"
   ],
   "note": "The grammar of the specifiers that need no argument is that of java.util.Formatter in JDK 21 (trusted base)."
  },
  {
   "property": "C122",
   "status": "proved",
   "theorems": [
    "C122_kept_directories"
   ],
   "note": "On a platform with the globs of the JDK on Unix (Glob.v, trusted)."
  },
  {
   "property": "C123",
   "status": "proved",
   "theorems": [
    "C123_debug_fallbacks"
   ],
   "note": "The answers of the file system do not change during the run."
  },
  {
   "property": "C124",
   "status": "proved",
   "theorems": [
    "C124_sort_refusal"
   ],
   "note": "java.util.TimSort of JDK 21, comparison by comparison (trusted base). The directory had that many entries when the world was asked at some moment."
  },
  {
   "property": "C125",
   "status": "partial",
   "theorems": [
    "C125_refuted"
   ],
   "note": "Refuted: 60 files compared by the difference of their sizes as an int make List.sort throw. C05_returns and C124 say when it does return."
  },
  {
   "property": "C126",
   "status": "partial",
   "theorems": [
    "C126_refuted"
   ],
   "note": "Refuted: in ASCII, a file named e with an acute accent and one named e with a grave accent arrive as the same bytes. C127 says what arrives."
  },
  {
   "property": "C127",
   "status": "proved",
   "theorems": [
    "C127_what_arrives",
    "C127_bytes_tell_the_shape",
    "C127_utf8_tells_the_tree",
    "C127_standard_charsets"
   ],
   "note": "Encodings without shift states; java.io.PrintStream and java.nio.charset.CharsetEncoder are modelled from their documentation (trusted base). Labels without percent signs (C51, C116 for those)."
  },
  {
   "property": "C128",
   "status": "proved",
   "theorems": [
    "C128_open_streams",
    "C128_opened_below_its_parents",
    "C128_enough_handles",
    "C128_handle_for_each_level"
   ],
   "note": "Streams are counted from the events of the run. A callback may open streams too, up to a number c of them at the same time, and closes them again."
  },
  {
   "property": "C129",
   "status": "partial",
   "theorems": [
    "C129_refuted"
   ],
   "note": "Refuted for every number of handles: the scanner keeps the stream of a directory open while it scans what is below it, so a chain with one directory more fails. C128 says how many are needed."
  },
  {
   "property": "C130",
   "status": "proved",
   "theorems": [
    "C130_limits_bound_the_output",
    "C130_bound_is_reached"
   ],
   "note": "Lines are counted in the text. The limit may be any function, also one with effects, whose results are between 0 and n."
  },
  {
   "property": "C131",
   "status": "proved",
   "theorems": [
    "C131_deleting_removes_lines"
   ],
   "note": "The filters, limits, order and texts are the same functions of paths before and after (hypotheses uses and sees for both worlds)."
  },
  {
   "property": "C132",
   "status": "proved",
   "theorems": [
    "C132_limits",
    "C132_extensions",
    "C132_sorts",
    "C132_emojis"
   ],
   "note": "Method bodies are modelled statement by statement (Nulls.v), so that a check after a change would show. The options object's setters: C74."
  },
  {
   "property": "C133",
   "status": "proved",
   "theorems": [
    "C133_null_refused_at_once",
    "C133_empty_refused",
    "C133_bad_glob_refused",
    "C133_otherwise_made",
    "C133_arguments_or_list",
    "C133_which_matcher"
   ],
   "note": "hasNameMatching takes an already compiled pattern. C133_which_matcher ties the factories to the matchers the other properties are about."
  },
  {
   "property": "C134",
   "status": "proved",
   "theorems": [
    "C134_one_for_children_and_siblings",
    "C134_one_for_each_level",
    "C134_none_for_others"
   ],
   "note": "Streams are counted from the events of the run. Files.walk is modelled after java.nio.file.FileTreeWalker: the stream of a directory stays open while what is below it is visited."
  },
  {
   "property": "C135",
   "status": "partial",
   "theorems": [
    "C135_refuted"
   ],
   "note": "False: the witness has another archive earlier on the class path. C136 says what is displayed."
  },
  {
   "property": "C136",
   "status": "proved",
   "theorems": [
    "C136_first_manifest",
    "C136_built",
    "C136_no_manifest",
    "C136_malformed"
   ],
   "note": "The class loader's search and java.util.jar.Manifest are modelled; the parsing of manifest files and picocli's printing of the lines are not. The attributes the build writes are those of the pom."
  },
  {
   "property": "C137",
   "status": "proved",
   "theorems": [
    "C137_hidden_has_no_influence"
   ],
   "note": "as_shown (SpecHidden.v) lists what has to be the same: which entries the displayed directories above the maximal depth have, which of them are directories, and the attributes of displayed files."
  },
  {
   "property": "C138",
   "status": "proved",
   "theorems": [
    "C138_no_overflow"
   ],
   "note": "Ints.v is the scanner once more, with addition modulo 2^32; it is proved equal to the scanner of Scanner.v."
  },
  {
   "property": "C139",
   "status": "proved",
   "theorems": [
    "C139_enough_frames",
    "C139_same_or_overflow",
    "C139_frames_for_each_level",
    "C139_streams_closed"
   ],
   "note": "Stack.v is the scanner, the renderer and the printer once more, with a frame for each call of their own methods; frames of the JDK, of the line renderer and of callbacks are not counted."
  },
  {
   "property": "C140",
   "status": "partial",
   "theorems": [
    "C140_refuted"
   ],
   "note": "False: for every number of frames the witness is a chain of more directories than that, with a maximal depth that shows all of them. C139 has the exact numbers."
  },
  {
   "property": "C141",
   "status": "proved",
   "theorems": [
    "C141_each_option_at_its_moment"
   ],
   "note": "Live.v is the scanner, the renderer and the printer once more, reading the options object where the code reads it; the object changes with events, not between two reads without an event in between. The compaction flag and the results of the extension function stay (hypothesis live_sees)."
  },
  {
   "property": "C142",
   "status": "proved",
   "theorems": [
    "C142_later_changes_without_effect",
    "C142_unchanged"
   ],
   "note": "See C141. C142_unchanged ties the model with changing options to the one used elsewhere."
  },
  {
   "property": "C143",
   "status": "proved",
   "theorems": [
    "C143_bounded_and_closed"
   ],
   "note": "See C141."
  },
  {
   "property": "C144",
   "status": "partial",
   "theorems": [
    "C144_refuted"
   ],
   "note": "False: the witness has a limit function that sets the maximal depth and the limit when it is called. C141 says what is displayed."
  },
  {
   "property": "C145",
   "status": "proved",
   "theorems": [
    "C145_as_if_alone",
    "C145_calls_are_programs",
    "C145_library_parts",
    "C145_all_end"
   ],
   "note": "A call is given by its accesses one by one (means: the same accesses and outcome as the model of prettyPrint in every world); threads share the file system and nothing else. That nothing else is shared (final fields, no static state) is read off the code."
  },
  {
   "property": "C146",
   "status": "proved",
   "theorems": [
    "C146_world_of_its_moments",
    "C146_shows_what_was_answered"
   ],
   "note": ""
  },
  {
   "property": "C147",
   "status": "proved",
   "theorems": [
    "C147_closed",
    "C147_chain",
    "C147_total"
   ],
   "note": "The functions in the options close what they open; for the sum they open nothing."
  },
  {
   "property": "C148",
   "status": "proved",
   "theorems": [
    "C148_name_globs",
    "C148_endings"
   ],
   "note": "The glob language is the one of the JDK on Unix as modelled in Glob.v (trusted). Classes do not contain the characters ] / - [ \\ & ! ^ except as signs; such classes are not covered. A character is a code point, of one or two code units; unpaired surrogates in the glob are not covered."
  },
  {
   "property": "C149",
   "status": "proved",
   "theorems": [
    "C149_absolute_globs",
    "C149_relative_globs"
   ],
   "note": "As C148. The absolute glob: for absolute paths and relative ones that do not lead above the current directory."
  },
  {
   "property": "C150",
   "status": "proved",
   "theorems": [
    "C150_message_tells_path",
    "C150_matchers"
   ],
   "note": "The DirectoryIteratorException of a listing that breaks off has a message written by the JDK, which is not modelled. The matchers: for a directory that is found to be one and then cannot be opened."
  },
  {
   "property": "C151",
   "status": "proved",
   "theorems": [
    "C151_command_tells_path"
   ],
   "note": "In a file system that does not change. The message is subject to java.util.Formatter as C121 and C76 tell."
  },
  {
   "property": "C152",
   "status": "proved",
   "theorems": [
    "C152_stops_at_first_failure"
   ],
   "note": ""
  },
  {
   "property": "C153",
   "status": "proved",
   "theorems": [
    "C153_accepted",
    "C153_one_meaning",
    "C153_others",
    "C153_unreadable"
   ],
   "note": "How picocli 4.7.7 reads words is modelled in Arguments.v (trusted): the annotations of PrettyPrintCommand under picocli's default settings. Which words are numbers, what argument files contain and whether the name of an option may be the target after -- are arbitrary."
  },
  {
   "property": "C154",
   "status": "proved",
   "theorems": [
    "C154_any_order"
   ],
   "note": "See C153."
  },
  {
   "property": "C155",
   "status": "proved",
   "theorems": [
    "C155_help",
    "C155_version"
   ],
   "note": "See C153. The text of the help is not modelled."
  },
  {
   "property": "C156",
   "status": "proved",
   "theorems": [
    "C156_options_without_file"
   ],
   "note": "See C153. Fails because of arity 0 with a File field: the value is the empty path."
  },
  {
   "property": "C157",
   "status": "proved",
   "theorems": [
    "C157_no_equals"
   ],
   "note": "See C153. '-' is not the same letter as 't' or 'f' when case is ignored (an assumption about Character.toLowerCase and toUpperCase, which the model leaves arbitrary)."
  },
  {
   "property": "C158",
   "status": "partial",
   "theorems": [
    "C158_refuted"
   ],
   "note": "False: '-x' is taken for an unknown option, '@types' for an argument file, which fails if it is a directory. C159 says what holds."
  },
  {
   "property": "C159",
   "status": "proved",
   "theorems": [
    "C159_protected_paths"
   ],
   "note": "See C153."
  },
  {
   "property": "C160",
   "status": "proved",
   "theorems": [
    "C160_exit_code"
   ],
   "note": "The texts written by picocli (messages about arguments, stack traces) are assumed not to be empty."
  },
  {
   "property": "C161",
   "status": "partial",
   "theorems": [
    "C161_refuted"
   ],
   "note": "False: the path is normalised before the file system is asked, so 'link/..' prints the directory that contains the link, and 'link/.' prints the link as a file. C162 says what holds."
  },
  {
   "property": "C162",
   "status": "proved",
   "theorems": [
    "C162_place_is_printed",
    "C162_place_is_printed_back"
   ],
   "note": "The search for a path by the operating system is modelled in Volume.v (trusted): Unix, at most 40 links in one search, no mount points. The place is not the top of the volume (which has no name)."
  },
  {
   "property": "C163",
   "status": "proved",
   "theorems": [
    "C163_tree_on_the_volume"
   ],
   "note": "See C162. The place is that of the normalised path."
  },
  {
   "property": "C164",
   "status": "proved",
   "theorems": [
    "C164_opened_inside"
   ],
   "note": "See C162 and C163. The functions in the options may throw; they may ask about attributes but open nothing ('modest')."
  },
  {
   "property": "C165",
   "status": "partial",
   "theorems": [
    "C165_refuted"
   ],
   "note": "False: the test does not follow links, the opening does, and nothing keeps a directory from being replaced by a link in between. C166 says what holds."
  },
  {
   "property": "C166",
   "status": "proved",
   "theorems": [
    "C166_opened_inside_while_changing"
   ],
   "note": "See C162. The functions in the options are told what the file system answers at that moment (honest_callbacks), and open nothing themselves."
  },
  {
   "property": "C167",
   "status": "proved",
   "theorems": [
    "C167_shown_was_there"
   ],
   "note": "See C162 and C166."
  },
  {
   "property": "C168",
   "status": "proved",
   "theorems": [
    "C168_descendant_filter",
    "C168_sibling_filter",
    "C168_openings",
    "C168_costs_of_matchers"
   ],
   "note": "The child limit function may look into directories too (C168_openings); the order, the emoji mapping and the line extensions may not."
  },
  {
   "property": "C169",
   "status": "proved",
   "theorems": [
    "C169_filters_stay_inside",
    "C169_matchers_look_around",
    "C169_orders_look_between"
   ],
   "note": "See C166. The matchers hasDirectParentMatching and hasAnyAncestorMatching look upwards; they are covered over functions that open nothing."
  },
  {
   "property": "C170",
   "status": "proved",
   "theorems": [
    "C170_only_what_is_asked"
   ],
   "note": "For options whose depth, format and compact flag are equal."
  },
  {
   "property": "C171",
   "status": "proved",
   "theorems": [
    "C171_one_file_one_line"
   ],
   "note": "See C131."
  },
  {
   "property": "C172",
   "status": "proved",
   "theorems": [
    "C172_one_entry_one_block"
   ],
   "note": "See C131."
  },
  {
   "property": "C173",
   "status": "partial",
   "theorems": [
    "C173_refuted"
   ],
   "note": "False: PrintStream notes failures and is never asked (no checkError), so the exit code is 0 when nothing could be written. C174 says what arrives."
  },
  {
   "property": "C174",
   "status": "proved",
   "theorems": [
    "C174_what_arrives_on_a_device",
    "C174_the_stream_knows"
   ],
   "note": "PrintStream, BufferedOutputStream and FileOutputStream of the JDK are modelled in Stream.v (trusted)."
  },
  {
   "property": "C175",
   "status": "proved",
   "theorems": [
    "C175_filters_are_independent"
   ],
   "note": "Child limits are excluded: displayed files and directories count together there. Trees that can be read under both option sets."
  },
  {
   "property": "C176",
   "status": "proved",
   "theorems": [
    "C176_another_order_moves_lines"
   ],
   "note": "Child limits are excluded: which children are left out depends on the order."
  },
  {
   "property": "C177",
   "status": "proved",
   "theorems": [
    "C177_smaller_depth_keeps_lines"
   ],
   "note": "Merging of directories is excluded, as it puts several levels on one line; C87 covers it for the displayed tree."
  },
  {
   "property": "C178",
   "status": "proved",
   "theorems": [
    "C178_stricter_filters_take_lines_out",
    "C178_stricter_limits_take_lines_out"
   ],
   "note": "Merging of directories is excluded, as a directory that loses children may be merged; C88 and C89 cover it for the displayed tree."
  },
  {
   "property": "C179",
   "status": "proved",
   "theorems": [
    "C179_change_inside_one_directory"
   ],
   "note": "The options may answer differently about what is below the directory, so that orders by size are covered."
  },
  {
   "property": "C180",
   "status": "proved",
   "theorems": [
    "C180_look_does_not_decide_what"
   ],
   "note": "With merging, the nullness of the extensions must agree on directories: an extension on a directory ends the merging (C26)."
  },
  {
   "property": "C181",
   "status": "proved",
   "theorems": [
    "C181_one_directory",
    "C181_in_order",
    "C181_whole_run"
   ],
   "note": "The constants are not claimed to be the best ones. The sort is the model of the JDK TimSort, which is part of the trusted base."
  },
  {
   "property": "C182",
   "status": "proved",
   "theorems": [
    "C182_orders",
    "C182_whole_run"
   ],
   "note": "Accesses are the events of the history. The emoji mapping and the line extension are taken to make none. The bounds of C182_orders are reached (C182_reached); those of the whole run need not be."
  },
  {
   "property": "C183",
   "status": "proved",
   "theorems": [
    "C183_exact_size",
    "C183_merging_shortens"
   ],
   "note": "Characters are Java chars (UTF-16 code units). The widths agree for every TreeFormat that can be created (C03)."
  },
  {
   "property": "C184",
   "status": "proved",
   "theorems": [
    "C184_levels_can_be_read",
    "C184_names_can_be_read"
   ],
   "note": "The reader is a specification (SpecRead.v), not code of the project. C02 and C85 say that the text determines the tree; this says how to compute it."
  },
  {
   "property": "C185",
   "status": "proved",
   "theorems": [
    "C185_paths_can_be_read",
    "C185_accepted_paths_can_be_read"
   ],
   "note": "The reader is a specification (SpecRead.v), not code of the project. The conditions on names are necessary (C84)."
  },
  {
   "property": "C186",
   "status": "proved",
   "theorems": [
    "C186_program_tells_the_paths"
   ],
   "note": "The depth 20 is the default maximal depth. The reader is a specification (SpecRead.v). Without the condition about '%' the text passes printf (C51); encoding of standard output is C127."
  },
  {
   "property": "C187",
   "status": "proved",
   "theorems": [
    "C187_nothing_is_left_out_silently"
   ],
   "note": "The converse of C80, which is refuted: an empty directory at the maximal depth also gets '...'. The reader is a specification (SpecRead.v)."
  },
  {
   "property": "C188",
   "status": "proved",
   "theorems": [
    "C188_program_tells_the_rest"
   ],
   "note": "Hypotheses as in C186."
  },
  {
   "property": "C189",
   "status": "proved",
   "theorems": [
    "C189_kinds_can_be_read"
   ],
   "note": "The reader is a specification (SpecRead.v, SpecKinds.v). A link gets the mark of what it leads to (C17 is refuted, C60); in C189_read, link leads to a directory."
  },
  {
   "property": "C190",
   "status": "proved",
   "theorems": [
    "C190_equal_texts_equal_content"
   ],
   "note": "The converse of C91 and C137."
  },
  {
   "property": "C191",
   "status": "proved",
   "theorems": [
    "C191_equal_outputs_equal_content"
   ],
   "note": "plain_run collects the hypotheses of C186. A link gets the mark of what it leads to (C60)."
  },
  {
   "property": "C192",
   "status": "proved",
   "theorems": [
    "C192_equal_content_equal_outputs"
   ],
   "note": "The converse of C191, from C91. The texts are equal up to the line separator that the program adds at the end."
  }
 ]
}