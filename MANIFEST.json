{
 "claims": [
  {
   "property": "C01",
   "status": "proved",
   "theorems": [
    "C01_hex_round_trip"
   ],
   "note": ""
  },
  {
   "property": "C02",
   "status": "proved",
   "theorems": [
    "C02_lenient_hex",
    "C02_lenient_hex_ignores_others",
    "C02_lenient_hex_case"
   ],
   "note": ""
  },
  {
   "property": "C03",
   "status": "proved",
   "theorems": [
    "C03_strict_hex"
   ],
   "note": ""
  },
  {
   "property": "C04",
   "status": "proved",
   "theorems": [
    "C04_strict_lossless_iff_even",
    "C04_strict_drops_odd_digit",
    "C04_strict_rejects_half_bytes_refuted"
   ],
   "note": "The reading that strict input rejects half bytes is false of the code (C04_strict_rejects_half_bytes_refuted); the exact behaviour is proved."
  },
  {
   "property": "C05",
   "status": "proved",
   "theorems": [
    "C05_byte_slice_to_u32",
    "C05_byte_slice_to_u64"
   ],
   "note": ""
  },
  {
   "property": "C06",
   "status": "proved",
   "theorems": [
    "C06_parse_u16",
    "C06_parse_u16_error"
   ],
   "note": ""
  },
  {
   "property": "C07",
   "status": "proved",
   "theorems": [
    "C07_trim_leading_zeros"
   ],
   "note": ""
  },
  {
   "property": "C08",
   "status": "proved",
   "theorems": [
    "C08_num_dec_digits"
   ],
   "note": ""
  },
  {
   "property": "C09",
   "status": "proved",
   "theorems": [
    "C09_ber_parse_settles"
   ],
   "note": ""
  },
  {
   "property": "C10",
   "status": "proved",
   "theorems": [
    "C10_ber_32bit_panics",
    "C10_ingenico_32bit_panics"
   ],
   "note": ""
  },
  {
   "property": "C11",
   "status": "proved",
   "theorems": [
    "C11_ber_grammar",
    "C11_ber_grammar_unambiguous"
   ],
   "note": ""
  },
  {
   "property": "C12",
   "status": "proved",
   "theorems": [
    "C12_round_trip",
    "C12_standard_encoding"
   ],
   "note": ""
  },
  {
   "property": "C13",
   "status": "proved",
   "theorems": [
    "C13_ber_lossless",
    "C13_no_masks_no_masked"
   ],
   "note": ""
  },
  {
   "property": "C14",
   "status": "proved",
   "theorems": [
    "C14_ber_compositional"
   ],
   "note": ""
  },
  {
   "property": "C15",
   "status": "proved",
   "theorems": [
    "C15_ber_truncation"
   ],
   "note": ""
  },
  {
   "property": "C16",
   "status": "proved",
   "theorems": [
    "C16_ber_unsupported",
    "C16_ber_error_kinds",
    "C16_ber_acceptance_ignores_masks"
   ],
   "note": ""
  },
  {
   "property": "C17",
   "status": "proved",
   "theorems": [
    "C17_long_zero_length_last",
    "C17_long_zero_length_followed",
    "C17_short_zero_length_last",
    "C17_every_encoding_accepted_refuted",
    "C17_long_zero_length_after",
    "C17_short_zero_length_after"
   ],
   "note": "That every definite-length encoding is accepted is false (C17_every_encoding_accepted_refuted); the exact behaviour is proved."
  },
  {
   "property": "C18",
   "status": "proved",
   "theorems": [
    "C18_tag_metadata",
    "C18_ber_nodes",
    "C18_ingenico_nodes",
    "C18_identify",
    "C18_identify_shown"
   ],
   "note": ""
  },
  {
   "property": "C19",
   "status": "proved",
   "theorems": [
    "C19_ber_children",
    "C19_ingenico_children"
   ],
   "note": ""
  },
  {
   "property": "C20",
   "status": "proved",
   "theorems": [
    "C20_ber_linear"
   ],
   "note": ""
  },
  {
   "property": "C21",
   "status": "proved",
   "theorems": [
    "C21_masked_bytes",
    "C21_masked_ascii_text",
    "C21_masked_text",
    "C21_no_masking_characters",
    "C21_two_characters_refuted",
    "C21_ber_values",
    "C21_ber_never_shown",
    "C21_ingenico_text",
    "C21_ingenico_hex",
    "C21_formats_agree_refuted",
    "C21_formats_agree_converse_refuted"
   ],
   "note": "That masked text has at least two characters is false outside ASCII, where one character has several bytes (C21_two_characters_refuted). The two formats do not agree on what is masked: C21_formats_agree_refuted and C21_formats_agree_converse_refuted."
  },
  {
   "property": "C22",
   "status": "proved",
   "theorems": [
    "C22_masked_display",
    "C22_masked_never_interpreted",
    "C22_masked_no_children_ber",
    "C22_masked_no_children_ingenico"
   ],
   "note": ""
  },
  {
   "property": "C23",
   "status": "proved",
   "theorems": [
    "C23_ingenico_settles"
   ],
   "note": ""
  },
  {
   "property": "C24",
   "status": "proved",
   "theorems": [
    "C24_ingenico_grammar",
    "C24_ingenico_grammar_unambiguous",
    "C24_ingenico_error_kinds",
    "C24_ingenico_unsupported",
    "C24_ingenico_otherwise"
   ],
   "note": ""
  },
  {
   "property": "C25",
   "status": "proved",
   "theorems": [
    "C25_ingenico_round_trip"
   ],
   "note": ""
  },
  {
   "property": "C26",
   "status": "proved",
   "theorems": [
    "C26_other_fields_skipped"
   ],
   "note": ""
  },
  {
   "property": "C27",
   "status": "proved",
   "theorems": [
    "C27_separator_irrelevant",
    "C27_trailing_separator"
   ],
   "note": ""
  },
  {
   "property": "C28",
   "status": "proved",
   "theorems": [
    "C28_ingenico_truncation"
   ],
   "note": ""
  },
  {
   "property": "C29",
   "status": "proved",
   "theorems": [
    "C29_odd_length_digit_dropped",
    "C29_odd_tag_digit_dropped",
    "C29_announced_length",
    "C29_length_digit_value_refuted"
   ],
   "note": "That an odd length field is read in full is false (C29_length_digit_value_refuted)."
  },
  {
   "property": "C30",
   "status": "proved",
   "theorems": [
    "C30_formats_agree"
   ],
   "note": ""
  },
  {
   "property": "C31",
   "status": "proved",
   "theorems": [
    "C31_auto_ingenico",
    "C31_auto_ber",
    "C31_auto_settles",
    "C31_no_colon_is_ber",
    "C31_hex_dump"
   ],
   "note": ""
  },
  {
   "property": "C32",
   "status": "proved",
   "theorems": [
    "C32_auto_empty_rejected",
    "C32_auto_accepts_no_data",
    "C32_success_has_data_refuted"
   ],
   "note": "That success implies data is false (C32_success_has_data_refuted)."
  },
  {
   "property": "C33",
   "status": "proved",
   "theorems": [
    "C33_data_preserved",
    "C33_processed_block"
   ],
   "note": ""
  },
  {
   "property": "C34",
   "status": "proved",
   "theorems": [
    "C34_success",
    "C34_first_failure",
    "C34_no_panic",
    "C34_parsed_ber_ok",
    "C34_parsed_ingenico_ok",
    "C34_pipeline_no_panic"
   ],
   "note": ""
  },
  {
   "property": "C35",
   "status": "proved",
   "theorems": [
    "C35_processed_form",
    "C35_names",
    "C35_unknown",
    "C35_shown_name"
   ],
   "note": ""
  },
  {
   "property": "C36",
   "status": "proved",
   "theorems": [
    "C36_failures",
    "C36_no_panic",
    "C36_only_interpreted_unmasked_tags_fail",
    "C36_iad_never_fails",
    "C36_unrecognised_codes_tolerated",
    "C36_unknown_codes_tolerated_refuted"
   ],
   "note": "That unknown codes never abort a block is false (C36_unknown_codes_tolerated_refuted)."
  },
  {
   "property": "C37",
   "status": "proved",
   "theorems": [
    "C37_sort_arranges",
    "C37_idempotent",
    "C37_top_level_permuted"
   ],
   "note": ""
  },
  {
   "property": "C38",
   "status": "proved",
   "theorems": [
    "C38_cmp",
    "C38_strict_order",
    "C38_equal_implies_cmp_equal",
    "C38_cmp_equal_implies_equal_refuted"
   ],
   "note": "That comparing Equal implies equality is false (C38_cmp_equal_implies_equal_refuted)."
  },
  {
   "property": "C39",
   "status": "proved",
   "theorems": [
    "C39_known_tags_are_complete",
    "C39_known_tags_are_parsed",
    "C39_distinct",
    "C39_tag_info",
    "C39_tag_info_empty"
   ],
   "note": ""
  },
  {
   "property": "C40",
   "status": "proved",
   "theorems": [
    "C40_wrong_length",
    "C40_cvm_results_wrong_length",
    "C40_right_length_accepted",
    "C40_cci"
   ],
   "note": ""
  },
  {
   "property": "C41",
   "status": "proved",
   "theorems": [
    "C41_serialise_masks"
   ],
   "note": ""
  },
  {
   "property": "C42",
   "status": "proved",
   "theorems": [
    "C42_equal_iff_used_bits",
    "C42_unused_bits_irrelevant",
    "C42_reparse"
   ],
   "note": ""
  },
  {
   "property": "C43",
   "status": "proved",
   "theorems": [
    "C43_fields_are_the_table_fields",
    "C43_field_values",
    "C43_flags"
   ],
   "note": ""
  },
  {
   "property": "C44",
   "status": "proved",
   "theorems": [
    "C44_ranges",
    "C44_ranges_left_to_right"
   ],
   "note": ""
  },
  {
   "property": "C45",
   "status": "proved",
   "theorems": [
    "C45_severity_declared",
    "C45_cvm_results_severity"
   ],
   "note": ""
  },
  {
   "property": "C46",
   "status": "proved",
   "theorems": [
    "C46_rule_accepts_every_pair",
    "C46_rule_representation",
    "C46_rule_round_trip_iff",
    "C46_rule_round_trip_refuted"
   ],
   "note": "The round trip for unknown codes is false (C46_rule_round_trip_refuted)."
  },
  {
   "property": "C47",
   "status": "proved",
   "theorems": [
    "C47_cvm_results",
    "C47_accepted_iff",
    "C47_ranges",
    "C47_representation"
   ],
   "note": ""
  },
  {
   "property": "C48",
   "status": "proved",
   "theorems": [
    "C48_too_short",
    "C48_odd",
    "C48_cvm_list",
    "C48_accepted_iff"
   ],
   "note": ""
  },
  {
   "property": "C49",
   "status": "proved",
   "theorems": [
    "C49_iad_accepts",
    "C49_iad_accepted_iff",
    "C49_iad_otherwise_non_ccd"
   ],
   "note": ""
  },
  {
   "property": "C50",
   "status": "proved",
   "theorems": [
    "C50_iac_parse",
    "C50_iac_defaults"
   ],
   "note": ""
  },
  {
   "property": "C51",
   "status": "proved",
   "theorems": [
    "C51_service_code",
    "C51_service_code_rejected",
    "C51_service_code_bytes",
    "C51_service_code_bytes_errors"
   ],
   "note": ""
  },
  {
   "property": "C52",
   "status": "proved",
   "theorems": [
    "C52_tag_class",
    "C52_terminal_type",
    "C52_transaction_type",
    "C52_pos_entry_mode",
    "C52_cv_method",
    "C52_cvm_condition",
    "C52_cvm_result",
    "C52_gen_ac1",
    "C52_gen_ac2",
    "C52_format_code",
    "C52_cryptogram_version",
    "C52_round_trip",
    "C52_from_slice"
   ],
   "note": ""
  },
  {
   "property": "C53",
   "status": "proved",
   "theorems": [
    "C53_arc_text",
    "C53_arc_bytes",
    "C53_arc_errors",
    "C53_arc_shows"
   ],
   "note": ""
  },
  {
   "property": "C54",
   "status": "proved",
   "theorems": [
    "C54_diagram",
    "C54_cvm_results",
    "C54_columns",
    "C54_elbow",
    "C54_arms",
    "C54_no_arms_for_single_bits",
    "C54_ranges_fit"
   ],
   "note": ""
  },
  {
   "property": "C55",
   "status": "proved",
   "theorems": [
    "C55_lines",
    "C55_print_bytes",
    "C55_pretty",
    "C55_print_bytes_read_back",
    "C55_pretty_columns",
    "C55_small",
    "C55_panics"
   ],
   "note": ""
  },
  {
   "property": "C56",
   "status": "proved",
   "theorems": [
    "C56_values_closed",
    "C56_blocks_closed",
    "C56_closed_meaning"
   ],
   "note": ""
  },
  {
   "property": "C57",
   "status": "proved",
   "theorems": [
    "C57_severities",
    "C57_cvm_results",
    "C57_iac_plain"
   ],
   "note": ""
  },
  {
   "property": "C58",
   "status": "proved",
   "theorems": [
    "C58_values",
    "C58_blocks",
    "C58_any_indentation_refuted"
   ],
   "note": "Without the bound on the indentation the claim is false (C58_any_indentation_refuted)."
  },
  {
   "property": "C59",
   "status": "proved",
   "theorems": [
    "C59_exact",
    "C59_nesting",
    "C59_shallow_never_panics",
    "C59_deep_panics",
    "C59_wraps",
    "C59_partial_output",
    "C59_never_panics_refuted"
   ],
   "note": "That the display never panics is false (C59_never_panics_refuted); the exact condition is proved."
  },
  {
   "property": "C60",
   "status": "proved",
   "theorems": [
    "C60_all_or_nothing",
    "C60_never_both",
    "C60_one_line",
    "C60_silent",
    "C60_always_prints_refuted"
   ],
   "note": "That something is always printed is false (C60_always_prints_refuted); C60_silent says exactly when nothing is."
  },
  {
   "property": "C61",
   "status": "proved",
   "theorems": [
    "C61_shown",
    "C61_refused",
    "C61_settled",
    "C61_operation",
    "C61_only_one",
    "C61_help"
   ],
   "note": ""
  },
  {
   "property": "C62",
   "status": "proved",
   "theorems": [
    "C62_precedence",
    "C62_precedence_default_profile",
    "C62_decided_once",
    "C62_bad_file",
    "C62_bad_colour",
    "C62_command_line_wins",
    "C62_default_kept",
    "C62_invalid_panics",
    "C62_command_line_wins_refuted"
   ],
   "note": "Proved for both profiles figment might use for (key, value) pairs; with the default profile the documented precedence fails (C62_command_line_wins_refuted)."
  },
  {
   "property": "C63",
   "status": "proved",
   "theorems": [
    "C63_reads",
    "C63_otherwise_unsupported",
    "C63_round_trip",
    "C63_terminal_round_trip",
    "C63_auto"
   ],
   "note": ""
  },
  {
   "property": "C64",
   "status": "proved",
   "theorems": [
    "C64_exact",
    "C64_shallow",
    "C64_short_arguments",
    "C64_never_panics_refuted"
   ],
   "note": "That no input panics is false (C64_never_panics_refuted); C64_exact gives the exact condition."
  },
  {
   "property": "C65",
   "status": "proved",
   "theorems": [
    "C65_distinct",
    "C65_output_tells",
    "C65_wording",
    "C65_printed"
   ],
   "note": ""
  },
  {
   "property": "C66",
   "status": "proved",
   "theorems": [
    "C66_block_equality",
    "C66_processed_equal_iff",
    "C66_equal_blocks_identical_refuted"
   ],
   "note": "That equal blocks are identical is false (C66_equal_blocks_identical_refuted)."
  },
  {
   "property": "C67",
   "status": "proved",
   "theorems": [
    "C67_sorting_keeps_all_tags"
   ],
   "note": ""
  },
  {
   "property": "C68",
   "status": "proved",
   "theorems": [
    "C68_values",
    "C68_blocks",
    "C68_parsed_blocks_good"
   ],
   "note": ""
  },
  {
   "property": "C69",
   "status": "proved",
   "theorems": [
    "C69_spellings",
    "C69_unambiguous",
    "C69_unknown",
    "C69_operation"
   ],
   "note": ""
  },
  {
   "property": "C70",
   "status": "proved",
   "theorems": [
    "C70_order",
    "C70_any_order_refuted"
   ],
   "note": "With help or version in the line the order matters (C70_any_order_refuted)."
  },
  {
   "property": "C71",
   "status": "proved",
   "theorems": [
    "C71_accepted",
    "C71_rejected",
    "C71_information",
    "C71_guarantees",
    "C71_shown",
    "C71_refused",
    "C71_no_operation"
   ],
   "note": ""
  },
  {
   "property": "C72",
   "status": "proved",
   "theorems": [
    "C72_exact",
    "C72_refusal_is_zero",
    "C72_failure_signalled_refuted"
   ],
   "note": "That the exit status signals a refused value is false (C72_failure_signalled_refuted)."
  },
  {
   "property": "C73",
   "status": "proved",
   "theorems": [
    "C73_sheet",
    "C73_shown",
    "C73_program",
    "C73_total",
    "C73_overflow",
    "C73_decimal"
   ],
   "note": ""
  },
  {
   "property": "C74",
   "status": "proved",
   "theorems": [
    "C74_ber",
    "C74_ingenico",
    "C74_processing",
    "C74_program",
    "C74_auto_refuted",
    "C74_alike",
    "C74_alike_nested_refuted",
    "C74_ingenico_why"
   ],
   "note": "For auto-detection more masking characters can turn a display into a refusal (C74_auto_refuted). A masked value nested in a constructed one is still visible in the dump of its parent (C74_alike_nested_refuted)."
  },
  {
   "property": "C75",
   "status": "proved",
   "theorems": [
    "C75_bytes",
    "C75_same_run",
    "C75_prefix_refuted",
    "C75_words_refuted"
   ],
   "note": "A 0x prefix and surrounding words are not ignored: C75_prefix_refuted, C75_words_refuted."
  },
  {
   "property": "C76",
   "status": "proved",
   "theorems": [
    "C76_shown",
    "C76_refused",
    "C76_program"
   ],
   "note": ""
  },
  {
   "property": "C77",
   "status": "proved",
   "theorems": [
    "C77_harmless",
    "C77_when",
    "C77_coloured",
    "C77_uncoloured",
    "C77_panicking",
    "C77_program"
   ],
   "note": ""
  },
  {
   "property": "C78",
   "status": "proved",
   "theorems": [
    "C78_written",
    "C78_unambiguous",
    "C78_same",
    "C78_order",
    "C78_otherwise",
    "C78_value_needed",
    "C78_mark",
    "C78_expressible",
    "C78_any_text"
   ],
   "note": ""
  },
  {
   "property": "C79",
   "status": "proved",
   "theorems": [
    "C79_runs",
    "C79_status",
    "C79_shown",
    "C79_refused",
    "C79_information"
   ],
   "note": ""
  },
  {
   "property": "C80",
   "status": "proved",
   "theorems": [
    "C80_texts",
    "C80_variables",
    "C80_file",
    "C80_profile",
    "C80_only",
    "C80_sort",
    "C80_colour",
    "C80_masking",
    "C80_unusable",
    "C80_order",
    "C80_order_refuted"
   ],
   "note": ""
  },
  {
   "property": "C81",
   "status": "proved",
   "theorems": [
    "C81_settings",
    "C81_shown",
    "C81_refused",
    "C81_screen"
   ],
   "note": ""
  },
  {
   "property": "C82",
   "status": "proved",
   "theorems": [
    "C82_values",
    "C82_service_code",
    "C82_blocks",
    "C82_sorted_same",
    "C82_objects",
    "C82_written",
    "C82_program",
    "C82_program_objects",
    "C82_everything_refuted",
    "C82_reserved_refuted"
   ],
   "note": "Unknown codes and reserved bits look alike: C82_everything_refuted, C82_reserved_refuted."
  },
  {
   "property": "C83",
   "status": "proved",
   "theorems": [
    "C83_program",
    "C83_program_refused",
    "C83_program_nested",
    "C83_value",
    "C83_refused",
    "C83_iad",
    "C83_service_code",
    "C83_nested",
    "C83_name"
   ],
   "note": ""
  },
  {
   "property": "C84",
   "status": "proved",
   "theorems": [
    "C84_same",
    "C84_ber",
    "C84_ingenico",
    "C84_ber_least",
    "C84_ingenico_least",
    "C84_reached",
    "C84_linear_work_refuted",
    "C84_limited_depth_refuted"
   ],
   "note": ""
  },
  {
   "property": "C85",
   "status": "proved",
   "theorems": [
    "C85_file",
    "C85_one",
    "C85_broken",
    "C85_elsewhere",
    "C85_missing",
    "C85_inherits",
    "C85_shown",
    "C85_refused"
   ],
   "note": ""
  },
  {
   "property": "C86",
   "status": "proved",
   "theorems": [
    "C86_ber",
    "C86_ingenico",
    "C86_auto",
    "C86_program",
    "C86_run",
    "C86_ingenico_unchecked_refuted",
    "C86_crash_free_refuted"
   ],
   "note": ""
  },
  {
   "property": "C87",
   "status": "proved",
   "theorems": [
    "C87_joined",
    "C87_refused",
    "C87_swapped",
    "C87_program",
    "C87_grows",
    "C87_common_tag_refuted",
    "C87_reordered"
   ],
   "note": ""
  },
  {
   "property": "C88",
   "status": "proved",
   "theorems": [
    "C88_lines",
    "C88_program",
    "C88_value",
    "C88_flat",
    "C88_least",
    "C88_linear_refuted"
   ],
   "note": ""
  },
  {
   "property": "C89",
   "status": "proved",
   "theorems": [
    "C89_shown",
    "C89_honest",
    "C89_uncoloured",
    "C89_dependable",
    "C89_refused",
    "C89_any",
    "C89_left_bold_refuted",
    "C89_recovered_refuted"
   ],
   "note": "That status 0 means every byte was taken is false with colours (C89_left_bold_refuted), and that status 101 means something is missing is false on a device that recovers (C89_recovered_refuted); the exact behaviour is proved."
  },
  {
   "property": "C90",
   "status": "proved",
   "theorems": [
    "C90_tlv",
    "C90_beginning",
    "C90_fixed",
    "C90_iad",
    "C90_cvm_list",
    "C90_open_ended_refuted",
    "C90_program"
   ],
   "note": "For identify, service codes, the amounts of a CVM list and automatic TLV the claim is false (C90_open_ended_refuted); what holds of CVM lists is C90_cvm_list."
  },
  {
   "property": "C91",
   "status": "proved",
   "theorems": [
    "C91_value",
    "C91_template",
    "C91_tag",
    "C91_lines_refuted",
    "C91_program"
   ],
   "note": "Copying whole lines with the readable column is refuted (C91_lines_refuted)."
  },
  {
   "property": "C92",
   "status": "proved",
   "theorems": [
    "C92_traceless",
    "C92_template_refuted",
    "C92_auto_refuted"
   ],
   "note": "Inside templates and with automatic detection the claim is false (C92_template_refuted, C92_auto_refuted)."
  },
  {
   "property": "C93",
   "status": "proved",
   "theorems": [
    "C93_colour",
    "C93_value",
    "C93_sort",
    "C93_masking",
    "C93_unused_refuted"
   ],
   "note": "That unused settings do not matter is false (C93_unused_refuted)."
  },
  {
   "property": "C94",
   "status": "proved",
   "theorems": [
    "C94_wrapped",
    "C94_refused",
    "C94_opaque",
    "C94_placed",
    "C94_local",
    "C94_program",
    "C94_malformed_refuted"
   ],
   "note": "That malformed data inside a template is refused is false (C94_malformed_refuted)."
  },
  {
   "property": "C95",
   "status": "proved",
   "theorems": [
    "C95_one",
    "C95_found",
    "C95_shown",
    "C95_refused",
    "C95_tells",
    "C95_tells_sorted",
    "C95_program",
    "C95_bytes_refuted"
   ],
   "note": ""
  },
  {
   "property": "C96",
   "status": "proved",
   "theorems": [
    "C96_text",
    "C96_broken",
    "C96_never",
    "C96_rest",
    "C96_status"
   ],
   "note": ""
  },
  {
   "property": "C97",
   "status": "proved",
   "theorems": [
    "C97_ber",
    "C97_ingenico",
    "C97_auto",
    "C97_program",
    "C97_shown",
    "C97_refused",
    "C97_settled",
    "C97_crash",
    "C97_run",
    "C97_needed_refuted"
   ],
   "note": "C97_needed_refuted: with a length of FFFFFFFF a 32-bit build crashes where a 64-bit build reports an error."
  },
  {
   "property": "C98",
   "status": "proved",
   "theorems": [
    "C98_one",
    "C98_complete",
    "C98_stops",
    "C98_ending",
    "C98_only",
    "C98_told"
   ],
   "note": "dotenv's file syntax and what clap_mangen and clap_complete render are not modelled: the entries and the rendered texts are parameters."
  },
  {
   "property": "C99",
   "status": "proved",
   "theorems": [
    "C99_said",
    "C99_few",
    "C99_how_few",
    "C99_blind",
    "C99_blind_stderr",
    "C99_explained_refuted"
   ],
   "note": "About the refusals of pemv itself: clap's usage errors quote the offending word, and what the runtime prints when the program panics is not modelled."
  },
  {
   "property": "C100",
   "status": "proved",
   "theorems": [
    "C100_ber",
    "C100_ingenico",
    "C100_auto",
    "C100_shown",
    "C100_refused",
    "C100_crash",
    "C100_wider",
    "C100_wide",
    "C100_small",
    "C100_large_refuted"
   ],
   "note": "Texts are shorter than 2^31; 32-bit builds without overflow checks are excluded for --auto and --ingenico, see C86."
  },
  {
   "property": "C101",
   "status": "proved",
   "theorems": [
    "C101_ber",
    "C101_ingenico",
    "C101_auto",
    "C101_program",
    "C101_set",
    "C101_added",
    "C101_text_refuted"
   ],
   "note": "At the level of one run after another; which masking characters apply is C62."
  },
  {
   "property": "C102",
   "status": "proved",
   "theorems": [
    "C102_digit",
    "C102_text",
    "C102_read",
    "C102_auto",
    "C102_shown",
    "C102_refused",
    "C102_crash"
   ],
   "note": "Completes C86 and C100, which exclude these builds for Ingenico text (C86_ingenico_unchecked_refuted)."
  },
  {
   "property": "C103",
   "status": "proved",
   "theorems": [
    "C103_shown",
    "C103_screen",
    "C103_refused",
    "C103_ends",
    "C103_text",
    "C103_promise",
    "C103_builds",
    "C103_crash",
    "C103_unset",
    "C103_broken"
   ],
   "note": "The joint statement of C73, C77, C81, C85, C89 and C96 for one run; C103_builds and C103_crash join it with C100 (release builds below 34 bits are covered for --ingenico-tlv and --auto only with overflow checks, see C102)."
  },
  {
   "property": "C104",
   "status": "proved",
   "theorems": [
    "C104_ends",
    "C104_beginning",
    "C104_killed",
    "C104_survives",
    "C104_exact",
    "C104_size",
    "C104_every",
    "C104_always_ends_refuted"
   ],
   "note": "The stack is counted in open calls of each function, not in bytes. That some text kills the process for every limit is C104_always_ends_refuted."
  },
  {
   "property": "C105",
   "status": "proved",
   "theorems": [
    "C105_coloured",
    "C105_width",
    "C105_characters",
    "C105_program",
    "C105_bytes",
    "C105_lines"
   ],
   "note": "The bound of 122 is reached (C105_example)."
  },
  {
   "property": "C106",
   "status": "proved",
   "theorems": [
    "C106_colours",
    "C106_program",
    "C106_silent"
   ],
   "note": "Exact in both directions for runs that end normally; for runs that panic (C59) only that what is coloured is alarming, since the alarming value may not have been reached."
  },
  {
   "property": "C107",
   "status": "proved",
   "theorems": [
    "C107_less",
    "C107_message",
    "C107_program",
    "C107_more",
    "C107_wrong",
    "C107_more_shown_refuted",
    "C107_tlv_refuted",
    "C107_service_refuted"
   ],
   "note": "The refutations use 8003000000 with the 3 left out, and 201 with the 0 left out."
  },
  {
   "property": "C108",
   "status": "proved",
   "theorems": [
    "C108_hex",
    "C108_fields",
    "C108_auto",
    "C108_text_refuted",
    "C108_auto_refuted"
   ],
   "note": ""
  },
  {
   "property": "C109",
   "status": "proved",
   "theorems": [
    "C109_changed",
    "C109_within",
    "C109_program",
    "C109_retagged_refuted"
   ],
   "note": ""
  },
  {
   "property": "C110",
   "status": "proved",
   "theorems": [
    "C110_status",
    "C110_shown",
    "C110_sorted",
    "C110_explained",
    "C110_one",
    "C110_zeros",
    "C110_zeros_odd",
    "C110_ones",
    "C110_program",
    "C110_in_front_refuted"
   ],
   "note": ""
  },
  {
   "property": "C111",
   "status": "proved",
   "theorems": [
    "C111_size",
    "C111_extra",
    "C111_whole",
    "C111_told_apart",
    "C111_list",
    "C111_list_8E",
    "C111_identify",
    "C111_program",
    "C111_bare_refuted",
    "C111_alike_refuted"
   ],
   "note": ""
  },
  {
   "property": "C112",
   "status": "proved",
   "theorems": [
    "C112_exact",
    "C112_never",
    "C112_silent",
    "C112_program",
    "C112_bits_refuted",
    "C112_letters_refuted"
   ],
   "note": ""
  },
  {
   "property": "C113",
   "status": "proved",
   "theorems": [
    "C113_settled",
    "C113_program"
   ],
   "note": ""
  },
  {
   "property": "C114",
   "status": "proved",
   "theorems": [
    "C114_matching",
    "C114_covered",
    "C114_merged",
    "C114_objects",
    "C114_program",
    "C114_reserved_refuted"
   ],
   "note": ""
  },
  {
   "property": "C115",
   "status": "proved",
   "theorems": [
    "C115_exact",
    "C115_array",
    "C115_array_list",
    "C115_front",
    "C115_front_shown",
    "C115_front_iad",
    "C115_first",
    "C115_array_refuted",
    "C115_program",
    "C115_program_tlv",
    "C115_program_array"
   ],
   "note": ""
  },
  {
   "property": "C116",
   "status": "proved",
   "theorems": [
    "C116_fields",
    "C116_anywhere",
    "C116_ingenico",
    "C116_tag",
    "C116_template",
    "C116_values",
    "C116_shifted",
    "C116_unnoticed",
    "C116_auto_refuted",
    "C116_program"
   ],
   "note": "C116_auto_refuted: with the format guessed, what is left can show a new object."
  },
  {
   "property": "C117",
   "status": "proved",
   "theorems": [
    "C117_words",
    "C117_bit",
    "C117_results",
    "C117_objects",
    "C117_program",
    "C117_results_refuted",
    "C117_program_objects"
   ],
   "note": "C117_results_refuted: unknown methods are not told apart."
  },
  {
   "property": "C118",
   "status": "proved",
   "theorems": [
    "C118_front",
    "C118_behind",
    "C118_closing",
    "C118_windows",
    "C118_foreign",
    "C118_digits",
    "C118_same",
    "C118_words_refuted",
    "C118_program"
   ],
   "note": "C118_words_refuted: hex digits among words in front change what --auto shows."
  },
  {
   "property": "C119",
   "status": "proved",
   "theorems": [
    "C119_read",
    "C119_anywhere",
    "C119_back",
    "C119_profile_refuted",
    "C119_program",
    "C119_file",
    "C119_codes",
    "C119_every",
    "C119_variants"
   ],
   "note": "C119_profile_refuted: the profile is skipped when a configuration is written."
  },
  {
   "property": "C120",
   "status": "proved",
   "theorems": [
    "C120_place",
    "C120_top",
    "C120_screen",
    "C120_above",
    "C120_refused",
    "C120_fields",
    "C120_program",
    "C120_swallowed_refuted"
   ],
   "note": "C120_swallowed_refuted: a child is no longer shown if its template's value is no sequence of objects any more."
  },
  {
   "property": "C121",
   "status": "proved",
   "theorems": [
    "C121_separator",
    "C121_glued",
    "C121_glued_refused",
    "C121_twice",
    "C121_twice_sorted",
    "C121_sizes",
    "C121_rules",
    "C121_rules_odd",
    "C121_code",
    "C121_program",
    "C121_program_twice",
    "C121_odd_refuted"
   ],
   "note": "C121_odd_refuted: with an odd number of digits the second copy is shifted by a digit."
  },
  {
   "property": "C122",
   "status": "proved",
   "theorems": [
    "C122_named",
    "C122_known",
    "C122_found",
    "C122_objects",
    "C122_program",
    "C122_unknown_refuted",
    "C122_program_objects"
   ],
   "note": "C122_unknown_refuted: unknown methods are shown alike."
  },
  {
   "property": "C123",
   "status": "proved",
   "theorems": [
    "C123_shape",
    "C123_appended",
    "C123_changed",
    "C123_swapped",
    "C123_amounts",
    "C123_program",
    "C123_apart_refuted"
   ],
   "note": "C123_apart_refuted: changing a condition can make the amounts appear."
  },
  {
   "property": "C124",
   "status": "proved",
   "theorems": [
    "C124_program_objects",
    "C124_words",
    "C124_one_text",
    "C124_same",
    "C124_reserved",
    "C124_program",
    "C124_objects",
    "C124_silent_refuted"
   ],
   "note": "C124_silent_refuted: a reserved first digit is still shown with a technology."
  },
  {
   "property": "C125",
   "status": "proved",
   "theorems": [
    "C125_told",
    "C125_exact",
    "C125_terminal",
    "C125_objects",
    "C125_twins_refuted",
    "C125_program"
   ],
   "note": "C125_twins_refuted: some codes mean the same and are explained alike."
  },
  {
   "property": "C126",
   "status": "proved",
   "theorems": [
    "C126_words",
    "C126_results",
    "C126_shown",
    "C126_objects",
    "C126_program",
    "C126_program_words",
    "C126_program_objects",
    "C126_reserved",
    "C126_colours",
    "C126_issuer_colours",
    "C126_object_colours",
    "C126_program_colours"
   ],
   "note": "C126_shown and C126_objects give the frame and the words, C126_words the exact set of explanations, C126_program* the same for runs."
  },
  {
   "property": "C127",
   "status": "proved",
   "theorems": [
    "C127_tells",
    "C127_complete",
    "C127_more",
    "C127_less",
    "C127_kinds",
    "C127_all",
    "C127_titles",
    "C127_program",
    "C127_program_titles"
   ],
   "note": "C127_program states the claims about identification for every run, C127_program_titles those about objects."
  },
  {
   "property": "C128",
   "status": "proved",
   "theorems": [
    "C128_values",
    "C128_each",
    "C128_options",
    "C128_objects",
    "C128_program",
    "C128_program_objects"
   ],
   "note": "C128_program states the claim for --tvr and --tsi, C128_program_objects for objects, C128_each for single statements."
  },
  {
   "property": "C129",
   "status": "proved",
   "theorems": [
    "C129_lines",
    "C129_count",
    "C129_objects",
    "C129_tag",
    "C129_program",
    "C129_program_objects"
   ],
   "note": "C129_lines is about screens, C129_program and C129_program_objects about the text a run writes."
  },
  {
   "property": "C130",
   "status": "proved",
   "theorems": [
    "C130_results",
    "C130_option",
    "C130_list",
    "C130_list_option",
    "C130_objects",
    "C130_program"
   ],
   "note": "Complements C122 and C123, which compare screens, with what the screens say."
  },
  {
   "property": "C131",
   "status": "proved",
   "theorems": [
    "C131_head",
    "C131_text",
    "C131_message",
    "C131_settings",
    "C131_sheet",
    "C131_found_refuted",
    "C131_head_refuted"
   ],
   "note": "The refuted claims are kept as C131_found_refuted and C131_head_refuted."
  }
 ]
}