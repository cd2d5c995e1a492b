(** Generated by tools/manifest.py: the assumptions of every final theorem. *)

From Verif Require Import PropertiesAlarms PropertiesAround PropertiesBehind PropertiesBer PropertiesBreaks PropertiesBuild PropertiesBuilds PropertiesCli PropertiesCoded PropertiesColoured PropertiesColumns PropertiesCopied PropertiesCost PropertiesCut PropertiesDisplay PropertiesEnv PropertiesExplain PropertiesFiles PropertiesFormats PropertiesFront PropertiesHead PropertiesHidden PropertiesIngenico PropertiesIssuer PropertiesJoin PropertiesListed PropertiesMain PropertiesMasking PropertiesMatch PropertiesMatters PropertiesMore PropertiesNames PropertiesNotation PropertiesOptions PropertiesOs PropertiesOutline PropertiesOverrun PropertiesPictures PropertiesProcess PropertiesQuiet PropertiesReach PropertiesReading PropertiesReserved PropertiesRules PropertiesRuns PropertiesSame PropertiesScope PropertiesService PropertiesSettled PropertiesSize PropertiesSlips PropertiesSorted PropertiesSpent PropertiesStack PropertiesStatements PropertiesStdout PropertiesStrip PropertiesSystem PropertiesTells PropertiesTerminal PropertiesTopbit PropertiesTwice PropertiesUncalled PropertiesUtil PropertiesValues PropertiesVerified PropertiesWarned PropertiesWidth PropertiesWords PropertiesWrap.

Definition all_theorems :=
  (@C01_hex_round_trip,
   @C02_lenient_hex,
   @C02_lenient_hex_ignores_others,
   @C02_lenient_hex_case,
   @C03_strict_hex,
   @C04_strict_lossless_iff_even,
   @C04_strict_drops_odd_digit,
   @C04_strict_rejects_half_bytes_refuted,
   @C05_byte_slice_to_u32,
   @C05_byte_slice_to_u64,
   @C06_parse_u16,
   @C06_parse_u16_error,
   @C07_trim_leading_zeros,
   @C08_num_dec_digits,
   @C09_ber_parse_settles,
   @C10_ber_32bit_panics,
   @C10_ingenico_32bit_panics,
   @C100_ber,
   @C100_ingenico,
   @C100_auto,
   @C100_shown,
   @C100_refused,
   @C100_crash,
   @C100_wider,
   @C100_wide,
   @C100_small,
   @C100_large_refuted,
   @C101_ber,
   @C101_ingenico,
   @C101_auto,
   @C101_program,
   @C101_set,
   @C101_added,
   @C101_text_refuted,
   @C102_digit,
   @C102_text,
   @C102_read,
   @C102_auto,
   @C102_shown,
   @C102_refused,
   @C102_crash,
   @C103_shown,
   @C103_screen,
   @C103_refused,
   @C103_ends,
   @C103_text,
   @C103_promise,
   @C103_builds,
   @C103_crash,
   @C103_unset,
   @C103_broken,
   @C104_ends,
   @C104_beginning,
   @C104_killed,
   @C104_survives,
   @C104_exact,
   @C104_size,
   @C104_every,
   @C104_always_ends_refuted,
   @C105_coloured,
   @C105_width,
   @C105_characters,
   @C105_program,
   @C105_bytes,
   @C105_lines,
   @C106_colours,
   @C106_program,
   @C106_silent,
   @C107_less,
   @C107_message,
   @C107_program,
   @C107_more,
   @C107_wrong,
   @C107_more_shown_refuted,
   @C107_tlv_refuted,
   @C107_service_refuted,
   @C108_hex,
   @C108_fields,
   @C108_auto,
   @C108_text_refuted,
   @C108_auto_refuted,
   @C109_changed,
   @C109_within,
   @C109_program,
   @C109_retagged_refuted,
   @C11_ber_grammar,
   @C11_ber_grammar_unambiguous,
   @C110_status,
   @C110_shown,
   @C110_sorted,
   @C110_explained,
   @C110_one,
   @C110_zeros,
   @C110_zeros_odd,
   @C110_ones,
   @C110_program,
   @C110_in_front_refuted,
   @C111_size,
   @C111_extra,
   @C111_whole,
   @C111_told_apart,
   @C111_list,
   @C111_list_8E,
   @C111_identify,
   @C111_program,
   @C111_bare_refuted,
   @C111_alike_refuted,
   @C112_exact,
   @C112_never,
   @C112_silent,
   @C112_program,
   @C112_bits_refuted,
   @C112_letters_refuted,
   @C113_settled,
   @C113_program,
   @C114_matching,
   @C114_covered,
   @C114_merged,
   @C114_objects,
   @C114_program,
   @C114_reserved_refuted,
   @C115_exact,
   @C115_array,
   @C115_array_list,
   @C115_front,
   @C115_front_shown,
   @C115_front_iad,
   @C115_first,
   @C115_array_refuted,
   @C115_program,
   @C115_program_tlv,
   @C115_program_array,
   @C116_fields,
   @C116_anywhere,
   @C116_ingenico,
   @C116_tag,
   @C116_template,
   @C116_values,
   @C116_shifted,
   @C116_unnoticed,
   @C116_auto_refuted,
   @C116_program,
   @C117_words,
   @C117_bit,
   @C117_results,
   @C117_objects,
   @C117_program,
   @C117_results_refuted,
   @C117_program_objects,
   @C118_front,
   @C118_behind,
   @C118_closing,
   @C118_windows,
   @C118_foreign,
   @C118_digits,
   @C118_same,
   @C118_words_refuted,
   @C118_program,
   @C119_read,
   @C119_anywhere,
   @C119_back,
   @C119_profile_refuted,
   @C119_program,
   @C119_file,
   @C119_codes,
   @C119_every,
   @C119_variants,
   @C12_round_trip,
   @C12_standard_encoding,
   @C120_place,
   @C120_top,
   @C120_screen,
   @C120_above,
   @C120_refused,
   @C120_fields,
   @C120_program,
   @C120_swallowed_refuted,
   @C121_separator,
   @C121_glued,
   @C121_glued_refused,
   @C121_twice,
   @C121_twice_sorted,
   @C121_sizes,
   @C121_rules,
   @C121_rules_odd,
   @C121_code,
   @C121_program,
   @C121_program_twice,
   @C121_odd_refuted,
   @C122_named,
   @C122_known,
   @C122_found,
   @C122_objects,
   @C122_program,
   @C122_unknown_refuted,
   @C122_program_objects,
   @C123_shape,
   @C123_appended,
   @C123_changed,
   @C123_swapped,
   @C123_amounts,
   @C123_program,
   @C123_apart_refuted,
   @C124_program_objects,
   @C124_words,
   @C124_one_text,
   @C124_same,
   @C124_reserved,
   @C124_program,
   @C124_objects,
   @C124_silent_refuted,
   @C125_told,
   @C125_exact,
   @C125_terminal,
   @C125_objects,
   @C125_twins_refuted,
   @C125_program,
   @C126_words,
   @C126_results,
   @C126_shown,
   @C126_objects,
   @C126_program,
   @C126_program_words,
   @C126_program_objects,
   @C126_reserved,
   @C126_colours,
   @C126_issuer_colours,
   @C126_object_colours,
   @C126_program_colours,
   @C127_tells,
   @C127_complete,
   @C127_more,
   @C127_less,
   @C127_kinds,
   @C127_all,
   @C127_titles,
   @C127_program,
   @C127_program_titles,
   @C128_values,
   @C128_each,
   @C128_options,
   @C128_objects,
   @C128_program,
   @C128_program_objects,
   @C129_lines,
   @C129_count,
   @C129_objects,
   @C129_tag,
   @C129_program,
   @C129_program_objects,
   @C13_ber_lossless,
   @C13_no_masks_no_masked,
   @C130_results,
   @C130_option,
   @C130_list,
   @C130_list_option,
   @C130_objects,
   @C130_program,
   @C131_head,
   @C131_text,
   @C131_message,
   @C131_settings,
   @C131_sheet,
   @C131_found_refuted,
   @C131_head_refuted,
   @C14_ber_compositional,
   @C15_ber_truncation,
   @C16_ber_unsupported,
   @C16_ber_error_kinds,
   @C16_ber_acceptance_ignores_masks,
   @C17_long_zero_length_last,
   @C17_long_zero_length_followed,
   @C17_short_zero_length_last,
   @C17_every_encoding_accepted_refuted,
   @C17_long_zero_length_after,
   @C17_short_zero_length_after,
   @C18_tag_metadata,
   @C18_ber_nodes,
   @C18_ingenico_nodes,
   @C18_identify,
   @C18_identify_shown,
   @C19_ber_children,
   @C19_ingenico_children,
   @C20_ber_linear,
   @C21_masked_bytes,
   @C21_masked_ascii_text,
   @C21_masked_text,
   @C21_no_masking_characters,
   @C21_two_characters_refuted,
   @C21_ber_values,
   @C21_ber_never_shown,
   @C21_ingenico_text,
   @C21_ingenico_hex,
   @C21_formats_agree_refuted,
   @C21_formats_agree_converse_refuted,
   @C22_masked_display,
   @C22_masked_never_interpreted,
   @C22_masked_no_children_ber,
   @C22_masked_no_children_ingenico,
   @C23_ingenico_settles,
   @C24_ingenico_grammar,
   @C24_ingenico_grammar_unambiguous,
   @C24_ingenico_error_kinds,
   @C24_ingenico_unsupported,
   @C24_ingenico_otherwise,
   @C25_ingenico_round_trip,
   @C26_other_fields_skipped,
   @C27_separator_irrelevant,
   @C27_trailing_separator,
   @C28_ingenico_truncation,
   @C29_odd_length_digit_dropped,
   @C29_odd_tag_digit_dropped,
   @C29_announced_length,
   @C29_length_digit_value_refuted,
   @C30_formats_agree,
   @C31_auto_ingenico,
   @C31_auto_ber,
   @C31_auto_settles,
   @C31_no_colon_is_ber,
   @C31_hex_dump,
   @C32_auto_empty_rejected,
   @C32_auto_accepts_no_data,
   @C32_success_has_data_refuted,
   @C33_data_preserved,
   @C33_processed_block,
   @C34_success,
   @C34_first_failure,
   @C34_no_panic,
   @C34_parsed_ber_ok,
   @C34_parsed_ingenico_ok,
   @C34_pipeline_no_panic,
   @C35_processed_form,
   @C35_names,
   @C35_unknown,
   @C35_shown_name,
   @C36_failures,
   @C36_no_panic,
   @C36_only_interpreted_unmasked_tags_fail,
   @C36_iad_never_fails,
   @C36_unrecognised_codes_tolerated,
   @C36_unknown_codes_tolerated_refuted,
   @C37_sort_arranges,
   @C37_idempotent,
   @C37_top_level_permuted,
   @C38_cmp,
   @C38_strict_order,
   @C38_equal_implies_cmp_equal,
   @C38_cmp_equal_implies_equal_refuted,
   @C39_known_tags_are_complete,
   @C39_known_tags_are_parsed,
   @C39_distinct,
   @C39_tag_info,
   @C39_tag_info_empty,
   @C40_wrong_length,
   @C40_cvm_results_wrong_length,
   @C40_right_length_accepted,
   @C40_cci,
   @C41_serialise_masks,
   @C42_equal_iff_used_bits,
   @C42_unused_bits_irrelevant,
   @C42_reparse,
   @C43_fields_are_the_table_fields,
   @C43_field_values,
   @C43_flags,
   @C44_ranges,
   @C44_ranges_left_to_right,
   @C45_severity_declared,
   @C45_cvm_results_severity,
   @C46_rule_accepts_every_pair,
   @C46_rule_representation,
   @C46_rule_round_trip_iff,
   @C46_rule_round_trip_refuted,
   @C47_cvm_results,
   @C47_accepted_iff,
   @C47_ranges,
   @C47_representation,
   @C48_too_short,
   @C48_odd,
   @C48_cvm_list,
   @C48_accepted_iff,
   @C49_iad_accepts,
   @C49_iad_accepted_iff,
   @C49_iad_otherwise_non_ccd,
   @C50_iac_parse,
   @C50_iac_defaults,
   @C51_service_code,
   @C51_service_code_rejected,
   @C51_service_code_bytes,
   @C51_service_code_bytes_errors,
   @C52_tag_class,
   @C52_terminal_type,
   @C52_transaction_type,
   @C52_pos_entry_mode,
   @C52_cv_method,
   @C52_cvm_condition,
   @C52_cvm_result,
   @C52_gen_ac1,
   @C52_gen_ac2,
   @C52_format_code,
   @C52_cryptogram_version,
   @C52_round_trip,
   @C52_from_slice,
   @C53_arc_text,
   @C53_arc_bytes,
   @C53_arc_errors,
   @C53_arc_shows,
   @C54_diagram,
   @C54_cvm_results,
   @C54_columns,
   @C54_elbow,
   @C54_arms,
   @C54_no_arms_for_single_bits,
   @C54_ranges_fit,
   @C55_lines,
   @C55_print_bytes,
   @C55_pretty,
   @C55_print_bytes_read_back,
   @C55_pretty_columns,
   @C55_small,
   @C55_panics,
   @C56_values_closed,
   @C56_blocks_closed,
   @C56_closed_meaning,
   @C57_severities,
   @C57_cvm_results,
   @C57_iac_plain,
   @C58_values,
   @C58_blocks,
   @C58_any_indentation_refuted,
   @C59_exact,
   @C59_nesting,
   @C59_shallow_never_panics,
   @C59_deep_panics,
   @C59_wraps,
   @C59_partial_output,
   @C59_never_panics_refuted,
   @C60_all_or_nothing,
   @C60_never_both,
   @C60_one_line,
   @C60_silent,
   @C60_always_prints_refuted,
   @C61_shown,
   @C61_refused,
   @C61_settled,
   @C61_operation,
   @C61_only_one,
   @C61_help,
   @C62_precedence,
   @C62_precedence_default_profile,
   @C62_decided_once,
   @C62_bad_file,
   @C62_bad_colour,
   @C62_command_line_wins,
   @C62_default_kept,
   @C62_invalid_panics,
   @C62_command_line_wins_refuted,
   @C63_reads,
   @C63_otherwise_unsupported,
   @C63_round_trip,
   @C63_terminal_round_trip,
   @C63_auto,
   @C64_exact,
   @C64_shallow,
   @C64_short_arguments,
   @C64_never_panics_refuted,
   @C65_distinct,
   @C65_output_tells,
   @C65_wording,
   @C65_printed,
   @C66_block_equality,
   @C66_processed_equal_iff,
   @C66_equal_blocks_identical_refuted,
   @C67_sorting_keeps_all_tags,
   @C68_values,
   @C68_blocks,
   @C68_parsed_blocks_good,
   @C69_spellings,
   @C69_unambiguous,
   @C69_unknown,
   @C69_operation,
   @C70_order,
   @C70_any_order_refuted,
   @C71_accepted,
   @C71_rejected,
   @C71_information,
   @C71_guarantees,
   @C71_shown,
   @C71_refused,
   @C71_no_operation,
   @C72_exact,
   @C72_refusal_is_zero,
   @C72_failure_signalled_refuted,
   @C73_sheet,
   @C73_shown,
   @C73_program,
   @C73_total,
   @C73_overflow,
   @C73_decimal,
   @C74_ber,
   @C74_ingenico,
   @C74_processing,
   @C74_program,
   @C74_auto_refuted,
   @C74_alike,
   @C74_alike_nested_refuted,
   @C74_ingenico_why,
   @C75_bytes,
   @C75_same_run,
   @C75_prefix_refuted,
   @C75_words_refuted,
   @C76_shown,
   @C76_refused,
   @C76_program,
   @C77_harmless,
   @C77_when,
   @C77_coloured,
   @C77_uncoloured,
   @C77_panicking,
   @C77_program,
   @C78_written,
   @C78_unambiguous,
   @C78_same,
   @C78_order,
   @C78_otherwise,
   @C78_value_needed,
   @C78_mark,
   @C78_expressible,
   @C78_any_text,
   @C79_runs,
   @C79_status,
   @C79_shown,
   @C79_refused,
   @C79_information,
   @C80_texts,
   @C80_variables,
   @C80_file,
   @C80_profile,
   @C80_only,
   @C80_sort,
   @C80_colour,
   @C80_masking,
   @C80_unusable,
   @C80_order,
   @C80_order_refuted,
   @C81_settings,
   @C81_shown,
   @C81_refused,
   @C81_screen,
   @C82_values,
   @C82_service_code,
   @C82_blocks,
   @C82_sorted_same,
   @C82_objects,
   @C82_written,
   @C82_program,
   @C82_program_objects,
   @C82_everything_refuted,
   @C82_reserved_refuted,
   @C83_program,
   @C83_program_refused,
   @C83_program_nested,
   @C83_value,
   @C83_refused,
   @C83_iad,
   @C83_service_code,
   @C83_nested,
   @C83_name,
   @C84_same,
   @C84_ber,
   @C84_ingenico,
   @C84_ber_least,
   @C84_ingenico_least,
   @C84_reached,
   @C84_linear_work_refuted,
   @C84_limited_depth_refuted,
   @C85_file,
   @C85_one,
   @C85_broken,
   @C85_elsewhere,
   @C85_missing,
   @C85_inherits,
   @C85_shown,
   @C85_refused,
   @C86_ber,
   @C86_ingenico,
   @C86_auto,
   @C86_program,
   @C86_run,
   @C86_ingenico_unchecked_refuted,
   @C86_crash_free_refuted,
   @C87_joined,
   @C87_refused,
   @C87_swapped,
   @C87_program,
   @C87_grows,
   @C87_common_tag_refuted,
   @C87_reordered,
   @C88_lines,
   @C88_program,
   @C88_value,
   @C88_flat,
   @C88_least,
   @C88_linear_refuted,
   @C89_shown,
   @C89_honest,
   @C89_uncoloured,
   @C89_dependable,
   @C89_refused,
   @C89_any,
   @C89_left_bold_refuted,
   @C89_recovered_refuted,
   @C90_tlv,
   @C90_beginning,
   @C90_fixed,
   @C90_iad,
   @C90_cvm_list,
   @C90_open_ended_refuted,
   @C90_program,
   @C91_value,
   @C91_template,
   @C91_tag,
   @C91_lines_refuted,
   @C91_program,
   @C92_traceless,
   @C92_template_refuted,
   @C92_auto_refuted,
   @C93_colour,
   @C93_value,
   @C93_sort,
   @C93_masking,
   @C93_unused_refuted,
   @C94_wrapped,
   @C94_refused,
   @C94_opaque,
   @C94_placed,
   @C94_local,
   @C94_program,
   @C94_malformed_refuted,
   @C95_one,
   @C95_found,
   @C95_shown,
   @C95_refused,
   @C95_tells,
   @C95_tells_sorted,
   @C95_program,
   @C95_bytes_refuted,
   @C96_text,
   @C96_broken,
   @C96_never,
   @C96_rest,
   @C96_status,
   @C97_ber,
   @C97_ingenico,
   @C97_auto,
   @C97_program,
   @C97_shown,
   @C97_refused,
   @C97_settled,
   @C97_crash,
   @C97_run,
   @C97_needed_refuted,
   @C98_one,
   @C98_complete,
   @C98_stops,
   @C98_ending,
   @C98_only,
   @C98_told,
   @C99_said,
   @C99_few,
   @C99_how_few,
   @C99_blind,
   @C99_blind_stderr,
   @C99_explained_refuted).

Print Assumptions all_theorems.
