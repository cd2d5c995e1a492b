{
 "C04": {
  "note": "The reading that strict input rejects half bytes is false of the code (C04_strict_rejects_half_bytes_refuted); the exact behaviour is proved."
 },
 "C17": {
  "note": "That every definite-length encoding is accepted is false (C17_every_encoding_accepted_refuted); the exact behaviour is proved."
 },
 "C21": {
  "note": "That masked text has at least two characters is false outside ASCII, where one character has several bytes (C21_two_characters_refuted). The two formats do not agree on what is masked: C21_formats_agree_refuted and C21_formats_agree_converse_refuted."
 },
 "C29": {
  "note": "That an odd length field is read in full is false (C29_length_digit_value_refuted)."
 },
 "C32": {
  "note": "That success implies data is false (C32_success_has_data_refuted)."
 },
 "C36": {
  "note": "That unknown codes never abort a block is false (C36_unknown_codes_tolerated_refuted)."
 },
 "C38": {
  "note": "That comparing Equal implies equality is false (C38_cmp_equal_implies_equal_refuted)."
 },
 "C46": {
  "note": "The round trip for unknown codes is false (C46_rule_round_trip_refuted)."
 },
 "C58": {
  "note": "Without the bound on the indentation the claim is false (C58_any_indentation_refuted)."
 },
 "C59": {
  "note": "That the display never panics is false (C59_never_panics_refuted); the exact condition is proved."
 },
 "C60": {
  "note": "That something is always printed is false (C60_always_prints_refuted); C60_silent says exactly when nothing is."
 },
 "C62": {
  "note": "Proved for both profiles figment might use for (key, value) pairs; with the default profile the documented precedence fails (C62_command_line_wins_refuted)."
 },
 "C64": {
  "note": "That no input panics is false (C64_never_panics_refuted); C64_exact gives the exact condition."
 },
 "C66": {
  "note": "That equal blocks are identical is false (C66_equal_blocks_identical_refuted)."
 },
 "C70": {
  "note": "With help or version in the line the order matters (C70_any_order_refuted)."
 },
 "C72": {
  "note": "That the exit status signals a refused value is false (C72_failure_signalled_refuted)."
 },
 "C74": {
  "note": "For auto-detection more masking characters can turn a display into a refusal (C74_auto_refuted). A masked value nested in a constructed one is still visible in the dump of its parent (C74_alike_nested_refuted)."
 },
 "C75": {
  "note": "A 0x prefix and surrounding words are not ignored: C75_prefix_refuted, C75_words_refuted."
 },
 "C82": {
  "note": "Unknown codes and reserved bits look alike: C82_everything_refuted, C82_reserved_refuted."
 },
 "C89": {
  "note": "That status 0 means every byte was taken is false with colours (C89_left_bold_refuted), and that status 101 means something is missing is false on a device that recovers (C89_recovered_refuted); the exact behaviour is proved."
 },
 "C90": {
  "note": "For identify, service codes, the amounts of a CVM list and automatic TLV the claim is false (C90_open_ended_refuted); what holds of CVM lists is C90_cvm_list."
 },
 "C91": {
  "note": "Copying whole lines with the readable column is refuted (C91_lines_refuted)."
 },
 "C92": {
  "note": "Inside templates and with automatic detection the claim is false (C92_template_refuted, C92_auto_refuted)."
 },
 "C93": {
  "note": "That unused settings do not matter is false (C93_unused_refuted)."
 },
 "C94": {
  "note": "That malformed data inside a template is refused is false (C94_malformed_refuted)."
 },
 "C97": {
  "note": "C97_needed_refuted: with a length of FFFFFFFF a 32-bit build crashes where a 64-bit build reports an error."
 },
 "C98": {
  "note": "dotenv's file syntax and what clap_mangen and clap_complete render are not modelled: the entries and the rendered texts are parameters."
 },
 "C99": {
  "note": "About the refusals of pemv itself: clap's usage errors quote the offending word, and what the runtime prints when the program panics is not modelled."
 },
 "C100": {
  "note": "Texts are shorter than 2^31; 32-bit builds without overflow checks are excluded for --auto and --ingenico, see C86."
 },
 "C101": {
  "note": "At the level of one run after another; which masking characters apply is C62."
 },
 "C102": {
  "note": "Completes C86 and C100, which exclude these builds for Ingenico text (C86_ingenico_unchecked_refuted)."
 },
 "C103": {
  "note": "The joint statement of C73, C77, C81, C85, C89 and C96 for one run; C103_builds and C103_crash join it with C100 (release builds below 34 bits are covered for --ingenico-tlv and --auto only with overflow checks, see C102)."
 },
 "C104": {
  "note": "The stack is counted in open calls of each function, not in bytes. That some text kills the process for every limit is C104_always_ends_refuted."
 },
 "C105": {
  "note": "The bound of 122 is reached (C105_example)."
 },
 "C106": {
  "note": "Exact in both directions for runs that end normally; for runs that panic (C59) only that what is coloured is alarming, since the alarming value may not have been reached."
 },
 "C107": {
  "note": "The refutations use 8003000000 with the 3 left out, and 201 with the 0 left out."
 },
 "C116": {
  "note": "C116_auto_refuted: with the format guessed, what is left can show a new object."
 },
 "C117": {
  "note": "C117_results_refuted: unknown methods are not told apart."
 },
 "C118": {
  "note": "C118_words_refuted: hex digits among words in front change what --auto shows."
 },
 "C119": {
  "note": "C119_profile_refuted: the profile is skipped when a configuration is written."
 },
 "C120": {
  "note": "C120_swallowed_refuted: a child is no longer shown if its template's value is no sequence of objects any more."
 },
 "C121": {
  "note": "C121_odd_refuted: with an odd number of digits the second copy is shifted by a digit."
 },
 "C122": {
  "note": "C122_unknown_refuted: unknown methods are shown alike."
 },
 "C123": {
  "note": "C123_apart_refuted: changing a condition can make the amounts appear."
 },
 "C124": {
  "note": "C124_silent_refuted: a reserved first digit is still shown with a technology."
 },
 "C125": {
  "note": "C125_twins_refuted: some codes mean the same and are explained alike."
 },
 "C126": {
  "note": "C126_shown and C126_objects give the frame and the words, C126_words the exact set of explanations, C126_program* the same for runs."
 },
 "C127": {
  "note": "C127_program states the claims about identification for every run, C127_program_titles those about objects."
 },
 "C128": {
  "note": "C128_program states the claim for --tvr and --tsi, C128_program_objects for objects, C128_each for single statements."
 },
 "C129": {
  "note": "C129_lines is about screens, C129_program and C129_program_objects about the text a run writes."
 },
 "C130": {
  "note": "Complements C122 and C123, which compare screens, with what the screens say."
 },
 "C131": {
  "note": "The refuted claims are kept as C131_found_refuted and C131_head_refuted."
 }
}