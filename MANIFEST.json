{
 "claims": [
  {
   "property": "C01",
   "status": "proved",
   "theorems": [
    "c01_returns"
   ],
   "note": ""
  },
  {
   "property": "C02",
   "status": "proved",
   "theorems": [
    "c02_one_call"
   ],
   "note": ""
  },
  {
   "property": "C03",
   "status": "proved",
   "theorems": [
    "c03_meaning",
    "c03_unambiguous",
    "c03_every_token"
   ],
   "note": ""
  },
  {
   "property": "C04",
   "status": "proved",
   "theorems": [
    "c04_untouched"
   ],
   "note": ""
  },
  {
   "property": "C05",
   "status": "proved",
   "theorems": [
    "c05_typed_once",
    "c05_one_value",
    "c05_repeated_rejected"
   ],
   "note": ""
  },
  {
   "property": "C06",
   "status": "proved",
   "theorems": [
    "c06_required_given",
    "c06_missing_rejected"
   ],
   "note": ""
  },
  {
   "property": "C07",
   "status": "proved",
   "theorems": [
    "c07_default"
   ],
   "note": ""
  },
  {
   "property": "C08",
   "status": "proved",
   "theorems": [
    "c08_one_per_child",
    "c08_typing_order"
   ],
   "note": ""
  },
  {
   "property": "C09",
   "status": "proved",
   "theorems": [
    "c09_count"
   ],
   "note": ""
  },
  {
   "property": "C10",
   "status": "proved",
   "theorems": [
    "c10_same_reading",
    "c10_same_call"
   ],
   "note": ""
  },
  {
   "property": "C11",
   "status": "proved",
   "theorems": [
    "c11_count_in_bounds"
   ],
   "note": ""
  },
  {
   "property": "C12",
   "status": "proved",
   "theorems": [
    "c12_in_range",
    "c12_out_of_range_rejected"
   ],
   "note": ""
  },
  {
   "property": "C13",
   "status": "proved",
   "theorems": [
    "c13_split"
   ],
   "note": ""
  },
  {
   "property": "C14",
   "status": "partial",
   "theorems": [
    "c14_split_partial",
    "c14_bytes",
    "c14_wrong_character_refuted",
    "c14_foreign_exception_refuted"
   ],
   "note": "c14_bytes: what happens with every separator (search byte by byte). c14_split_partial: separators of any length work if no byte of them occurs in the label. Refuted otherwise with witnesses: wrong splits and std::out_of_range."
  },
  {
   "property": "C15",
   "status": "partial",
   "theorems": [
    "c15_marker",
    "c15_front_marker",
    "c15_bounded_refuted"
   ],
   "note": "Holds if the maximum count is unbounded or the marker is not the first token; refuted with a witness for a bounded maximum when the marker comes first, and what happens then is stated exactly (c15_front_marker)."
  },
  {
   "property": "C16",
   "status": "proved",
   "theorems": [
    "c16_one_member"
   ],
   "note": ""
  },
  {
   "property": "C17",
   "status": "partial",
   "theorems": [
    "c17_any_state_partial",
    "c17_state_partial",
    "c17_remembers_partial",
    "c17_sequence_partial",
    "c17_no_one_of_partial",
    "c17_unused_partial",
    "c17_one_of_refuted"
   ],
   "note": "False in general: a one_of used by an earlier parse rejects another alternative (c17_one_of_refuted). The partial theorems say exactly how the state matters: for any tree and state the parse does what it does with a new object or throws one_of_selected_type_mismatch (c17_any_state_partial), which of the two depends only on the alternatives typed (c17_state_partial), which alternatives are remembered (c17_remembers_partial), and which sequences of parses make all their calls (c17_sequence_partial)."
  },
  {
   "property": "C18",
   "status": "partial",
   "theorems": [
    "c18_takes_nothing",
    "c18_default",
    "c18_not_suggested",
    "c18_separator_refuted",
    "c18_alias_refuted"
   ],
   "note": "Never takes tokens, is never suggested, and delivers its default unless an alias refers to it; refuted: an alias still sets it, and its bare name is an error if it has a value separator."
  },
  {
   "property": "C19",
   "status": "partial",
   "theorems": [
    "c19_message_partial",
    "c19_orderly_partial",
    "c19_dash_refuted",
    "c19_bad_utf8_refuted",
    "c19_help_refuted"
   ],
   "note": "Holds for decodable command lines without a lone '-' and trees without multi-byte separators or disabled nodes; refuted outside of these with witnesses (length_error, UB)."
  },
  {
   "property": "C20",
   "status": "proved",
   "theorems": [
    "c20_exactly_once",
    "c20_at_most_once"
   ],
   "note": "For all programs that move, invoke, nest and change targets but do not copy them; a moved-from std::function is taken to be empty."
  },
  {
   "property": "C21",
   "status": "proved",
   "theorems": [
    "c21_adapter_is_one_sequence",
    "c21_transfer_boundary",
    "c21_equal",
    "c21_loop"
   ],
   "note": ""
  },
  {
   "property": "C22",
   "status": "proved",
   "theorems": [
    "c22_descending",
    "c22_any_order"
   ],
   "note": ""
  },
  {
   "property": "C23",
   "status": "proved",
   "theorems": [
    "c23_levenshtein_is_edit_distance",
    "c23_algorithm_any_alphabet"
   ],
   "note": ""
  },
  {
   "property": "C24",
   "status": "proved",
   "theorems": [
    "c24_closest_suggestion"
   ],
   "note": ""
  },
  {
   "property": "C25",
   "status": "partial",
   "theorems": [
    "c25_utf8_decode_partial",
    "c25_count",
    "c25_boundary_leads_refuted",
    "c25_utf8_decode_refuted"
   ],
   "note": "Decoding is the inverse of encoding except for scalars whose lead byte is 0xDF or 0xEF, for which code_point::size is one too large (refuted with witness)."
  },
  {
   "property": "C26",
   "status": "proved",
   "theorems": [
    "c26_graphemes_partition",
    "c26_graphemes_defined"
   ],
   "note": ""
  },
  {
   "property": "C27",
   "status": "proved",
   "theorems": [
    "c27_whitespace",
    "c27_contains_whitespace",
    "c27_table_lookup",
    "c27_lookup_any_sorted_table"
   ],
   "note": ""
  },
  {
   "property": "C28",
   "status": "proved",
   "theorems": [
    "c28_pack_round_trip"
   ],
   "note": ""
  },
  {
   "property": "C29",
   "status": "proved",
   "theorems": [
    "c29_columns",
    "c29_width_additive",
    "c29_width_of_scalars"
   ],
   "note": ""
  },
  {
   "property": "C30",
   "status": "proved",
   "theorems": [
    "c30_lines_fit_and_keep_text"
   ],
   "note": ""
  },
  {
   "property": "C31",
   "status": "partial",
   "theorems": [
    "c31_lines_terminate_partial",
    "c31_lines_terminate_refuted"
   ],
   "note": "Terminates unless the column count is 1 and a double-width code point occurs (refuted with witness)."
  },
  {
   "property": "C32",
   "status": "partial",
   "theorems": [
    "c32_message",
    "c32_compiles",
    "c32_bracket_refuted",
    "c32_closing_refuted",
    "c32_total"
   ],
   "note": "Holds for all texts whose brackets come in pairs, and all tokens; refuted with witnesses for a text with a bracket that is never closed (the first token lands in the middle) or never opened (the end of the last token is lost). c32_total: no text that compiles makes the formatter throw."
  },
  {
   "property": "C33",
   "status": "proved",
   "theorems": [
    "c33_user",
    "c33_fallback",
    "c33_untranslated",
    "c33_total",
    "c33_tables",
    "c33_default_complete"
   ],
   "note": ""
  },
  {
   "property": "C34",
   "status": "proved",
   "theorems": [
    "c34_frame",
    "c34_aligned",
    "c34_gap",
    "c34_compiles"
   ],
   "note": ""
  },
  {
   "property": "C35",
   "status": "partial",
   "theorems": [
    "c35_shows",
    "c35_unknown",
    "c35_cases",
    "c35_disabled_partial",
    "c35_disabled",
    "c35_disabled_refuted"
   ],
   "note": "Named node shown, unknown name an error, for all trees and paths. Refuted for disabled nodes: undefined behaviour if the words stop there; otherwise the next word is reported."
  },
  {
   "property": "C36",
   "status": "proved",
   "theorems": [
    "c36_normalised",
    "c36_clean",
    "c36_stable"
   ],
   "note": ""
  },
  {
   "property": "C37",
   "status": "proved",
   "theorems": [
    "c37_supported",
    "c37_default",
    "c37_languages"
   ],
   "note": ""
  },
  {
   "property": "C38",
   "status": "proved",
   "theorems": [
    "c38_alias"
   ],
   "note": ""
  },
  {
   "property": "C39",
   "status": "proved",
   "theorems": [
    "c39_after_dependencies"
   ],
   "note": ""
  },
  {
   "property": "C40",
   "status": "proved",
   "theorems": [
    "c40_first_member",
    "c40_value"
   ],
   "note": ""
  },
  {
   "property": "C41",
   "status": "partial",
   "theorems": [
    "c41_accumulating_partial",
    "c41_bounds_refuted"
   ],
   "note": "Holds if the group or a member accumulates values; refuted otherwise with a witness."
  },
  {
   "property": "C42",
   "status": "proved",
   "theorems": [
    "c42_filled_in_order",
    "c42_declaration_order",
    "c42_full"
   ],
   "note": ""
  },
  {
   "property": "C43",
   "status": "partial",
   "theorems": [
    "c43_label_partial",
    "c43_label_refuted",
    "c43_shown",
    "c43_decimal_partial",
    "c43_numerals",
    "c43_zeros_refuted"
   ],
   "note": "Characterised exactly for every integer: zeros before the last digit are dropped; so decimal for exactly the numbers without such zeros (also on every label of an accepted tree), refuted with witnesses (100 is shown as 10) for the others."
  },
  {
   "property": "C44",
   "status": "proved",
   "theorems": [
    "c44_words"
   ],
   "note": ""
  },
  {
   "property": "C45",
   "status": "proved",
   "theorems": [
    "c45_names",
    "c45_labels"
   ],
   "note": ""
  },
  {
   "property": "C46",
   "status": "proved",
   "theorems": [
    "c46_path",
    "c46_only_its_arguments"
   ],
   "note": ""
  },
  {
   "property": "C47",
   "status": "partial",
   "theorems": [
    "c47_empty",
    "c47_not_empty",
    "c47_empty_string_refuted"
   ],
   "note": "Both directions hold, except that a first argument that is the empty string is reported as an empty command line (refuted with witness)."
  },
  {
   "property": "C48",
   "status": "proved",
   "theorems": [
    "c48_fold"
   ],
   "note": ""
  },
  {
   "property": "C49",
   "status": "proved",
   "theorems": [
    "c49_argument",
    "c49_container"
   ],
   "note": ""
  },
  {
   "property": "C50",
   "status": "proved",
   "theorems": [
    "c50_prefix_classification",
    "c50_prefix_classification_node"
   ],
   "note": ""
  },
  {
   "property": "C51",
   "status": "partial",
   "theorems": [
    "c51_not_all_partial",
    "c51_some_refuted"
   ],
   "note": "The rule only rejects trees all of whose children have the policy; refuted with a witness for some."
  },
  {
   "property": "C52",
   "status": "partial",
   "theorems": [
    "c52_never_satisfied",
    "c52_dependency_refuted"
   ],
   "note": "Refuted: such an argument can never be given (proved for all trees), with a witness."
  },
  {
   "property": "C53",
   "status": "proved",
   "theorems": [
    "c53_labelled",
    "c53_positional",
    "c53_mode",
    "c53_forwarding"
   ],
   "note": ""
  },
  {
   "property": "C54",
   "status": "partial",
   "theorems": [
    "c54_every_token_partial",
    "c54_reordered_refuted",
    "c54_lost_refuted"
   ],
   "note": "For the trees that fresh admits every token is accounted for, also with a value separator and the short-form expander on one argument (the value goes to the first letter of the group); positional arguments with a separator lose text: refuted with witnesses."
  },
  {
   "property": "C55",
   "status": "partial",
   "theorems": [
    "c55_delivered_partial",
    "c55_lost_refuted"
   ],
   "note": "Holds if no C++ type occurs twice in the mode; otherwise refuted with a witness."
  },
  {
   "property": "C56",
   "status": "partial",
   "theorems": [
    "c56_effect_partial",
    "c56_no_target_refuted"
   ],
   "note": "Holds for an alias with a target among the mode's own arguments; otherwise refuted with a witness."
  },
  {
   "property": "C57",
   "status": "partial",
   "theorems": [
    "c57_same_type_refuted",
    "c57_modes_refuted",
    "c57_forwarding_refuted",
    "c57_first_mode_partial",
    "c57_one_mode"
   ],
   "note": "Refuted with witnesses; what holds is C45 for arguments, and that of modes with one name the first switched-on one is selected, at every level."
  },
  {
   "property": "C58",
   "status": "partial",
   "theorems": [
    "c58_leading_partial",
    "c58_other_letter_refuted"
   ],
   "note": "Refuted with a witness; the true parts are C10 and, for a group with further letters, c58_leading_partial."
  },
  {
   "property": "C59",
   "status": "proved",
   "theorems": [
    "c59_page_of_run"
   ],
   "note": ""
  },
  {
   "property": "C60",
   "status": "proved",
   "theorems": [
    "c60_fits"
   ],
   "note": ""
  },
  {
   "property": "C61",
   "status": "proved",
   "theorems": [
    "c61_label"
   ],
   "note": ""
  },
  {
   "property": "C62",
   "status": "proved",
   "theorems": [
    "c62_cases",
    "c62_one_error",
    "c62_reported",
    "c62_bad_line",
    "c62_bad_value",
    "c62_missing"
   ],
   "note": ""
  },
  {
   "property": "C63",
   "status": "partial",
   "theorems": [
    "c63_boundaries",
    "c63_standard_partial",
    "c63_control_refuted",
    "c63_joiner_refuted",
    "c63_flags_refuted"
   ],
   "note": "Characterised exactly for all texts and positions (rules as the library has them). Equal to the annex except next to control characters, for a joiner without a pictograph before it, and for more than 16 regional indicators in a row: refuted there with witnesses."
  },
  {
   "property": "C64",
   "status": "partial",
   "theorems": [
    "c64_layout",
    "c64_layout_unique",
    "c64_prose",
    "c64_words_refuted",
    "c64_mark_refuted",
    "c64_flag_refuted",
    "c64_newline_refuted"
   ],
   "note": "The exact layout for all texts and widths, unique; ordinary prose keeps every word whole. Refuted with witnesses for words that begin with a hyphen or quote, for combining marks, for flags (rules read the text of the line before), and for line feeds."
  },
  {
   "property": "C65",
   "status": "proved",
   "theorems": [
    "c65_seen",
    "c65_seen_total",
    "c65_returns",
    "c65_wrong"
   ],
   "note": ""
  },
  {
   "property": "C66",
   "status": "proved",
   "theorems": [
    "c66_rules",
    "c66_cycles"
   ],
   "note": "Both directions, against a list of rules in SpecRules.v (relations on the policies, the places in the tree, and well-foundedness of references). User-written policies and the validator policy itself are outside the model."
  },
  {
   "property": "C67",
   "status": "proved",
   "theorems": [
    "c67_policies",
    "c67_questions",
    "c67_typed",
    "c67_shown",
    "c67_listing"
   ],
   "note": "Against relations on the list of policies (SpecNode.v). The word-to-name theorem is about one token; splitting at separators and expanding short groups are C03."
  },
  {
   "property": "C68",
   "status": "proved",
   "theorems": [
    "c68_flag",
    "c68_counting_flag",
    "c68_args",
    "c68_groups",
    "c68_mode",
    "c68_help",
    "c68_flag_value",
    "c68_count_absent",
    "c68_taken"
   ],
   "note": "c68_flag, c68_counting_flag, c68_args, c68_groups, c68_mode and c68_help say which policies are added to the given ones; c68_flag_value, c68_count_absent and c68_taken what follows for the router and the command line. How often a counting flag counts is C09. The false value of an absent flag is stated for flags without runtime_enable_required, whose own default is another one."
  },
  {
   "property": "C69",
   "status": "partial",
   "theorems": [
    "c69_colours",
    "c69_screen",
    "c69_same_partial",
    "c69_same_refuted"
   ],
   "note": "c69_colours says for every page which characters a terminal shows in which colour (the relation screen); c69_screen: the relation is a function of the bytes. c69_same_partial: the root's page shows the characters of the plain page. c69_same_refuted: the page for any other node has one space too many in front of its first row (setw(0) << ' ')."
  },
  {
   "property": "C70",
   "status": "proved",
   "theorems": [
    "c70_same_page",
    "c70_rows",
    "c70_nothing"
   ],
   "note": "c70_same_page compares with the run of the program; c70_rows instantiates the theorem about rows; c70_nothing is the case without help argument."
  },
  {
   "property": "C71",
   "status": "proved",
   "theorems": [
    "c71_values",
    "c71_storage",
    "c71_released"
   ],
   "note": "view_run is the object with its storage and memory; value_run (SpecView.v) is what the operations mean for texts. c71_values: no operation reads memory that is gone and each object shows its text. c71_storage: who owns the text. c71_released: no leak."
  },
  {
   "property": "C72",
   "status": "partial",
   "theorems": [
    "c72_values",
    "c72_once",
    "c72_released",
    "c72_constructions",
    "c72_copy_partial",
    "c72_copy_refuted",
    "c72_stays_partial",
    "c72_stays_refuted"
   ],
   "note": "any_run is the object with its storage, functions and held objects; any_means (SpecAny.v) is what the program says. Values, single destruction, release and the number of constructions hold for every program. Refuted with witnesses: copying an empty any throws std::bad_function_call; an object in the buffer is moved as bytes. The true parts are c72_copy_partial and c72_stays_partial."
  },
  {
   "property": "C73",
   "status": "partial",
   "theorems": [
    "c73_outcome_partial",
    "c73_exact_partial",
    "c73_page",
    "c73_languages_partial",
    "c73_types_refuted"
   ],
   "note": "reworded (SpecWording.v) relates trees that differ only in text policies, with types renamed; every function from root.parse down is shown to respect it. c73_page states that help pages keep entries, labels and column. Refuted with a witness (c73_types_refuted): a description that makes two nodes equal makes them one C++ type, and a value is lost; the _partial theorems assume that rewording keeps different types different."
  },
  {
   "property": "C74",
   "status": "proved",
   "theorems": [
    "c74_same",
    "c74_everything",
    "c74_always_on",
    "c74_colours"
   ],
   "note": "c74_same and c74_everything compare HelpCustom.v's static_text (types) with custom_text (instances); always_on (SpecPage.v) removes the runtime_enable policies, c74_always_on says that it does nothing else. c74_colours covers colour_help_formatter's static overload."
  },
  {
   "property": "C75",
   "status": "partial",
   "theorems": [
    "c75_page_partial",
    "c75_default",
    "c75_page_refuted"
   ],
   "note": "row_with (SpecPage.v) describes a row. Refuted with a witness (c75_page_refuted): with DescColumnOffset 1, which is allowed, a terminal with one column for the descriptions and a double-width character in one of them, the page is never finished. c75_page_partial proves the rest: offset 2 or more, or no double-width characters. c75_default: 4 and 8 are the defaults, for which C34 and C59-C61 hold."
  },
  {
   "property": "C76",
   "status": "partial",
   "theorems": [
    "c76_content",
    "c76_lists",
    "c76_outcome_partial",
    "c76_exact_partial",
    "c76_names_refuted"
   ],
   "note": "Lists.v models source text (policies, nodes, lists) and its construction. c76_content and c76_lists say what a node consists of and which lists compile; c76_outcome_partial compares whole parses with those of the text in which the lists are written out (spelled_out, SpecList.v), c76_exact_partial to the letter if no alias_group or one_of holds a list. Refuted otherwise (c76_names_refuted): the error name that these generate ignores lists. Missing: texts in which node types that differ only in their lists become equal (keeps_types)."
  },
  {
   "property": "C77",
   "status": "partial",
   "theorems": [
    "c77_text",
    "c77_operations",
    "c77_types_partial",
    "c77_types_refuted",
    "c77_packs",
    "c77_group_names",
    "c77_tree_partial",
    "c77_duplicate_refuted",
    "c77_reference_refuted"
   ],
   "note": "CtString.v models the C++20 storage and the C++17 character packs. c77_text and c77_operations are complete; c77_types_partial, c77_tree_partial hold if names with the same text are written in the same way. Refuted otherwise with C++20 (c77_types_refuted, c77_duplicate_refuted, c77_reference_refuted): short_name<'f'> and short_name_t{\"f\"_S} are different types, so that two flags -f are accepted in one mode, and an alias for the one does not find the other."
  },
  {
   "property": "C78",
   "status": "partial",
   "theorems": [
    "c78_header_partial",
    "c78_lossless",
    "c78_malformed",
    "c78_script_partial",
    "c78_comment_refuted",
    "c78_bracket_refuted",
    "c78_backslash_refuted"
   ],
   "note": "TransGen.v models the CMake script and the CMake commands it uses. c78_header_partial and c78_script_partial exclude files that end in a comment or a blank line after the error codes (c78_comment_refuted: a comma too many, the header does not compile), and lines with unmatched square brackets or a backslash at the end (c78_bracket_refuted, c78_backslash_refuted: the following entries are lost without an error). c78_lossless, c78_malformed are complete. repository_translations checks the model against the repository's own test."
  },
  {
   "property": "C79",
   "status": "proved",
   "theorems": [
    "c79_translated",
    "c79_nothing_new"
   ],
   "note": "c79_translated and c79_nothing_new are the two directions. Names must be clear of the bytes of value separators and names of modes must not begin with '-' (faithful); a value that is a name of either language is excluded (plain_values), as are translated words that are end markers. Short names are kept, because groups of short flags are taken apart by characters. c79_example: the demo program in German."
  },
  {
   "property": "C80",
   "status": "proved",
   "theorems": [
    "c80_validate",
    "c80_default",
    "c80_insert",
    "c80_remove",
    "c80_update",
    "c80_add",
    "c80_by_type",
    "c80_unknown"
   ],
   "note": "c80_default ties the rule list to the checks of Validator.v, which the other theorems about accepted trees use. passes refers to the conditions by the model's check; c80_default with C66 says what they mean for the default rules."
  },
  {
   "property": "C81",
   "status": "partial",
   "theorems": [
    "c81_conditions_partial",
    "c81_position_refuted",
    "c81_documented_index_refuted"
   ],
   "note": "c81_conditions_partial: nodes of the new class have the same conditions. Missing: conditions of other rules name classes too, so a custom positional argument may precede a flag (c81_position_refuted), and the index in the documentation of add_to_rule_types is that of flag_t (c81_documented_index_refuted)."
  },
  {
   "property": "C82",
   "status": "proved",
   "theorems": [
    "c82_listed",
    "c82_grapheme",
    "c82_line_break",
    "c82_stops"
   ],
   "note": "makes also says what the C++ text of the table is. If code points have two entries, the script prints a table that cannot be searched (c82_overlap_example)."
  },
  {
   "property": "C83",
   "status": "proved",
   "theorems": [
    "c83_column",
    "c83_every_request",
    "c83_compiles",
    "c83_superseded"
   ],
   "note": "The documentation asks for the same number of variants in every SM_; more variants than languages are not noticed (c83_more_variants_example)."
  },
  {
   "property": "C84",
   "status": "partial",
   "theorems": [
    "c84_content",
    "c84_always_partial",
    "c84_equal",
    "c84_equal_value",
    "c84_error_refuted"
   ],
   "note": "Holds unless an assignment throws (c84_error_refuted); the documentation of != with a value says false for exceptions, it is true (c84_unequal_example)."
  },
  {
   "property": "C85",
   "status": "partial",
   "theorems": [
    "c85_default",
    "c85_label",
    "c85_short",
    "c85_apart_partial",
    "c85_same_refuted",
    "c85_line",
    "c85_separator",
    "c85_separator_missing",
    "c85_alias",
    "c85_help",
    "c85_suggestion",
    "c85_compiles",
    "c85_modes"
   ],
   "note": "The words that select an argument and what it then takes: exact, for every pair of prefixes (c85_label; c85_separator, c85_separator_missing, c85_alias, c85_help, c85_suggestion for the other functions that look at prefixes). c85_line: for a tree with one mode of plain arguments, a whole command line has the same outcome as the line written with other prefixes. The last sentence of the statement is false: with equal prefixes short names cannot be typed at all (c85_same_refuted, finding 56); a short name can be typed if and only if the long prefix does not begin it with its prefix (c85_short), so always if neither prefix begins with the other (c85_apart_partial). c85_default: with the default prefixes this model is that of all other claims. c85_compiles says which trees compile with which prefixes; c85_modes is whole command lines of programs with named modes, also inside one another."
  },
  {
   "property": "C86",
   "status": "partial",
   "theorems": [
    "c86_label",
    "c86_page",
    "c86_fits",
    "c86_run",
    "c86_typed_partial",
    "c86_typed_refuted",
    "c86_seen",
    "c86_message",
    "c86_suggestion",
    "c86_first_word"
   ],
   "note": "The name clause is false of a short name that reads as a long one, c86_typed_refuted (with equal prefixes every short name); c86_typed_partial is it for all others. c86_suggestion is for the first word of a program with one mode without a name. The page theorems are for the default formatter settings. c86_first_word is the same for a first word that selects nothing in any program."
  },
  {
   "property": "C87",
   "status": "partial",
   "theorems": [
    "c87_compile",
    "c87_simple",
    "c87_simple_names",
    "c87_launcher",
    "c87_readme_partial",
    "c87_arguments_refuted",
    "c87_cats",
    "c87_runtime",
    "c87_advanced",
    "c87_unlicensed_partial",
    "c87_cat_partial",
    "c87_cat_nofiles",
    "c87_level_cast"
   ],
   "note": "Exact for simple, launcher and just_cats: which command lines call which router with which values. c87_readme_partial is the README's use of \"--\", for arguments whose first word does not begin with a hyphen; c87_arguments_refuted: \"launcher p -- -d\" is a dry run without arguments. c87_runtime is one direction for the two modes of runtime_node_enable; c87_advanced is exact for its licensed mode; c87_unlicensed_partial is exact for the options of its other mode, each at most once; missing there: two letters in one word (\"-fb\") and lists of words that are no such options. c87_level_cast is the conversion of a number of \"v\"s. c87_cat_partial is exact for every list of the options of basic_cat that do not exclude each other, in any order and in their long or short forms, followed by files, and c87_cat_nofiles says that without a file no router is called; missing: several letters in one word (\"-En\") and lists in which options exclude each other (the general theorems of C01-C05 apply to its tree, c87_compile)."
  },
  {
   "property": "C88",
   "status": "partial",
   "theorems": [
    "c88_move_partial",
    "c88_force_loses",
    "c88_force_refuted",
    "c88_unforced_refuted",
    "c88_copy_keeps",
    "c88_copy"
   ],
   "note": "c88_force_refuted: with --force and an existing destination the source is deleted and then the renaming fails, so its contents are lost. c88_unforced_refuted: without the flag the destination is overwritten. c88_move_partial is the cases that work; c88_copy and c88_copy_keeps are in full. Paths are compared as text and files are regular files."
  },
  {
   "property": "C89",
   "status": "partial",
   "theorems": [
    "c89_cat",
    "c89_no_limit",
    "c89_shown_partial",
    "c89_shown_refuted",
    "c89_dry_run",
    "c89_exit_code"
   ],
   "note": "c89_shown_refuted: bytes above 190 and byte 127 are written as a caret and an unprintable byte; c89_shown_partial is the rest."
  },
  {
   "property": "C90",
   "status": "partial",
   "theorems": [
    "c90_compile",
    "c90_calls",
    "c90_names",
    "c90_messages",
    "c90_override",
    "c90_readme_refuted"
   ],
   "note": "The set of accepted command lines and the values are exact in each language (c90_calls). c90_readme_refuted: the message in the guide for -\ud83d\udc31 is not the one the program gives (it adds a suggestion). The texts themselves are copied from the program; that they are good French and Japanese is not a matter of proof."
  },
  {
   "property": "C91",
   "status": "proved",
   "theorems": [
    "c91_compile",
    "c91_calls",
    "c91_version",
    "c91_written",
    "c91_odd",
    "c91_unreadable",
    "c91_count"
   ],
   "note": "The policy's check is modelled as the last part of reading the value, which it follows at once in the code; its exception, which has a text but no code, as a code of its own with that text. Reading an int (boost::lexical_cast) is any function that makes numbers. The custom label on help pages is not modelled."
  }
 ]
}