{"claims": [
 {"property": "C01", "status": "proved", "theorems": ["C01_reads_back"], "note": ""},
 {"property": "C02", "status": "proved", "theorems": ["C02_no_fault"], "note": ""},
 {"property": "C03", "status": "proved", "theorems": ["C03_frame"], "note": ""},
 {"property": "C04", "status": "proved", "theorems": ["C04_grammar"], "note": ""},
 {"property": "C05", "status": "proved", "theorems": ["C05_special_values"], "note": ""},
 {"property": "C06", "status": "proved", "theorems": ["C06_sign_printed", "C06_odd"], "note": ""},
 {"property": "C07", "status": "proved", "theorems": ["C07_notation"], "note": ""},
 {"property": "C08", "status": "proved", "theorems": ["C08_bounded"], "note": ""},
 {"property": "C09", "status": "proved", "theorems": ["C09_no_redundant_digits"], "note": ""},
 {"property": "C10", "status": "proved", "theorems": ["C10_integers"], "note": ""},
 {"property": "C11", "status": "proved", "theorems": ["C11_near_shortest"], "note": ""},
 {"property": "C12", "status": "proved", "theorems": ["C12_short_decimals_survive", "C12_decimals_survive"], "note": ""},
 {"property": "C13", "status": "partial", "theorems": ["C13_refuted_not_always_shortest", "C11_near_shortest"], "note": "The property is false of the code: machine-checked counterexample (a normal double). C11 is what holds instead."},
 {"property": "C14", "status": "proved", "theorems": ["C14_order_preserving", "C14_injective"], "note": ""},
 {"property": "C15", "status": "proved", "theorems": ["C15_to_string"], "note": ""},
 {"property": "C16", "status": "proved", "theorems": ["C16_cached_powers", "C16_advertised_range"], "note": ""},
 {"property": "C17", "status": "proved", "theorems": ["C17_scaling"], "note": ""},
 {"property": "C18", "status": "proved", "theorems": ["C18_multiplication"], "note": ""},
 {"property": "C19", "status": "proved", "theorems": ["C19_normalize"], "note": ""},
 {"property": "C20", "status": "proved", "theorems": ["C20_increment", "C20_decrement", "C20_decrement_edge", "C20_postfix"], "note": ""},
 {"property": "C21", "status": "proved", "theorems": ["C21_unpack_pack"], "note": ""},
 {"property": "C22", "status": "proved", "theorems": ["C22_round_up", "C22_precondition"], "note": ""},
 {"property": "C23", "status": "proved", "theorems": ["C23_downsample"], "note": ""},
 {"property": "C24", "status": "partial", "theorems": ["C24_refuted_carry", "C24_refuted_overflow", "C24_refuted_underflow", "C24_carry_is_lost", "C23_downsample"], "note": "The property is false of the code: machine-checked counterexamples; C24_carry_is_lost characterises the wrong results exactly, C23 is what holds."},
 {"property": "C25", "status": "proved", "theorems": ["C25_fraction", "C25_monotone", "C25_any_precision", "C25_any_monotone"], "note": "C25_any_precision and C25_any_monotone: the same for every d decimal digits with 10^d < 2^32 and 1 to 31 binary digits."},
 {"property": "C26", "status": "proved", "theorems": ["C26_boundaries"], "note": ""},
 {"property": "C27", "status": "proved", "theorems": ["C27_terminator", "C27_total_without_exponent"], "note": "The outcome is the same for every continuation behind the first NUL, the empty one included (where a further read would be an OutOfBounds fault). Faults other than out-of-bounds reads of the text occur only with an exponent part (see C40)."},
 {"property": "C28", "status": "proved", "theorems": ["C28_consumed"], "note": ""},
 {"property": "C29", "status": "proved", "theorems": ["C29_correct_or_deferred", "C29_fallback_only_near_ties", "C29_correct_with_fallback"], "note": ""},
 {"property": "C30", "status": "proved", "theorems": ["C30_any_length"], "note": ""},
 {"property": "C31", "status": "partial", "theorems": ["C31_refuted_wrong_without_fallback", "C29_correct_or_deferred", "C30_any_length"], "note": "The property as stated is false of the code. Refuted by a 24-digit text; C29 and C30 are what holds."},
 {"property": "C32", "status": "partial", "theorems": ["C32_refuted_carry", "C32_carry_lost"], "note": "The property as stated is false of the code. Refuted by a text; C32_carry_lost says what happens instead for every such text (C57)."},
 {"property": "C33", "status": "partial", "theorems": ["C33_refuted_overflow_missed", "C33_overflow_partial", "C33_overflow_missed"], "note": "The property as stated is false of the code. Overflow is reported from 2^(max_exp+width-1)(1+2^-precision) on (C33_overflow_partial, C59); up to 2^(max_exp+width-1)(1-2^-precision) it never is (C33_overflow_missed, C58); C66 says what comes out instead."},
 {"property": "C34", "status": "proved", "theorems": ["C34_above_tables", "C34_below_tables", "C34_double_magnitude", "C34_refuted_float_underflow"], "note": "For float the magnitude is not claimed; C34_refuted_float_underflow shows it is wrong there."},
 {"property": "C35", "status": "partial", "theorems": ["C35_refuted_sign_lost", "C34_above_tables", "C34_below_tables"], "note": "The property as stated is false of the code. The sign is lost for every text whose power of ten is outside the tables (C34 theorems give the unsigned results)."},
 {"property": "C36", "status": "partial", "theorems": ["C36_refuted_half_denormal", "C36_flushed_to_zero"], "note": "The property as stated is false of the code. C36_flushed_to_zero says what happens instead for every such text (C60)."},
 {"property": "C37", "status": "proved", "theorems": ["C37_nan", "C37_nan_payload", "C37_nan_open", "C37_infinity", "C37_inf", "nan_of_nan"], "note": ""},
 {"property": "C38", "status": "partial", "theorems": ["C38_refuted_not_rejected", "C38_rejected_partial", "C38_lone_sign", "C38_lone_point", "C38_false_word"], "note": "The property as stated is false of the code. C38_rejected_partial: it holds when the first character is no digit, point, sign, n or i; the other theorems say what happens otherwise."},
 {"property": "C39", "status": "partial", "theorems": ["C39_refuted_exponent_left", "C39_zero_mantissa"], "note": "The property as stated is false of the code. C39_zero_mantissa says what is consumed for every such text (C61)."},
 {"property": "C40", "status": "partial", "theorems": ["C40_refuted_exponents", "C40_refuted_unreadable", "C28_consumed", "C34_above_tables", "C34_below_tables"], "note": "The property as stated is false of the code. Undefined behaviour for all exponents that are multiples of 10000 or have more than 12 digits (C40_refuted_unreadable); C28 and C34 cover the readable ones."},
 {"property": "C41", "status": "partial", "theorems": ["C41_refuted_marker_consumed", "C41_marker_swallowed"], "note": "The property as stated is false of the code. C41_marker_swallowed says what happens for every such text."},
 {"property": "C42", "status": "proved", "theorems": ["C42_protocol"], "note": ""},
 {"property": "C43", "status": "partial", "theorems": ["C43_refuted_stale_errno", "C43_partial_no_history"], "note": "The property as stated is false of the code. It holds whenever errno is not ERANGE before the call or the fallback is not called."},
 {"property": "C44", "status": "partial", "theorems": ["C44_status_partial", "C44_refuted_denormal"], "note": "The property as stated is false of the code. The first three cases hold; a denormal result with ERANGE is reported as overflow."},
 {"property": "C45", "status": "partial", "theorems": ["C45_refuted_full_circle", "C46_exactly"], "note": "The property as stated is false of the code. C46_exactly tells exactly which values survive."},
 {"property": "C46", "status": "proved", "theorems": ["C46_full_circle_or_deferred", "C46_full_circle", "C46_power_lost", "C46_exactly"], "note": ""},
 {"property": "C47", "status": "proved", "theorems": ["C47_integers"], "note": ""},
 {"property": "C48", "status": "proved", "theorems": ["C48_minus", "C48_plus", "C48_number", "C48_readable_number"], "note": ""},
 {"property": "C49", "status": "proved", "theorems": ["C49_trichotomy", "C49_locality", "C49_number"], "note": ""},
 {"property": "C50", "status": "partial", "theorems": ["C50_refuted_not_monotone", "C50_monotone_partial"], "note": "The property as stated is false of the code. C50_monotone_partial: it holds for numbers that are short, in range and do not round up to a power of two."},
 {"property": "C51", "status": "proved", "theorems": ["C51_null_end", "C51_end_inside"], "note": ""},
 {"property": "C52", "status": "partial", "theorems": ["C52_refuted_truncated", "C28_consumed"], "note": "The property as stated is false of the code. C28 covers all numbers within the limit of 2049 characters per part; C72 says what happens beyond."},
 {"property": "C53", "status": "proved", "theorems": ["C53_print_binary_double", "C53_print_binary", "C53_print_double_presentation"], "note": ""},
 {"property": "C54", "status": "proved", "theorems": ["C54_static_pow", "C54_seq_pow"], "note": ""},
 {"property": "C55", "status": "proved", "theorems": ["C55_zero"], "note": ""},
 {"property": "C56", "status": "proved", "theorems": ["C56_exact_numbers"], "note": ""},
 {"property": "C57", "status": "proved", "theorems": ["C32_carry_lost"], "note": ""},
 {"property": "C58", "status": "proved", "theorems": ["C33_overflow_missed"], "note": ""},
 {"property": "C59", "status": "proved", "theorems": ["C33_overflow_partial"], "note": "Named _partial because it is what is left of C33; it is the whole of C59."},
 {"property": "C60", "status": "proved", "theorems": ["C36_flushed_to_zero"], "note": ""},
 {"property": "C61", "status": "proved", "theorems": ["C39_zero_mantissa"], "note": ""},
 {"property": "C62", "status": "proved", "theorems": ["C40_refuted_unreadable"], "note": ""},
 {"property": "C63", "status": "proved", "theorems": ["C38_lone_sign", "C38_lone_point", "C38_false_word"], "note": ""},
 {"property": "C64", "status": "proved", "theorems": ["C38_rejected_partial"], "note": "Named _partial because it is what is left of C38; it is the whole of C64."},
 {"property": "C65", "status": "proved", "theorems": ["good_fallback_exists", "errno_fallback_good"], "note": ""},
 {"property": "C66", "status": "proved", "theorems": ["C66_just_beyond", "C66_wrong_sign"], "note": ""},
 {"property": "C67", "status": "proved", "theorems": ["C67_stops_at_nul", "C67_from_string", "C67_from_string_sure", "C67_string_circle"], "note": ""},
 {"property": "C68", "status": "proved", "theorems": ["C68_error_bound"], "note": ""},
 {"property": "C69", "status": "proved", "theorems": ["C69_exponent_wraps", "C69_exponent_wraps_far"], "note": ""},
 {"property": "C70", "status": "proved", "theorems": ["C41_marker_swallowed"], "note": ""},
 {"property": "C71", "status": "proved", "theorems": ["C50_monotone_partial"], "note": "Named _partial because it is what is left of C50; it is the whole of C71."},
 {"property": "C72", "status": "proved", "theorems": ["C52_rest_ignored", "C52_late_digits_lost", "C52_long_integer", "C52_long_fraction"], "note": ""},
 {"property": "C73", "status": "proved", "theorems": ["C73_exponent_applied", "C73_exponent_far", "C73_exponent_unfit"], "note": ""},
 {"property": "C74", "status": "proved", "theorems": ["C74_undefined_exactly", "C74_defined", "C74_tame_texts"], "note": ""},
 {"property": "C75", "status": "proved", "theorems": ["C75_consumed", "C75_words"], "note": ""},
 {"property": "C76", "status": "proved", "theorems": ["C76_what_follows", "C76_no_digits", "C76_correct"], "note": ""},
 {"property": "C77", "status": "proved", "theorems": ["C77_equality", "C77_subtraction", "C77_step_back"], "note": ""},
 {"property": "C78", "status": "proved", "theorems": ["C78_shown"], "note": ""},
 {"property": "C79", "status": "proved", "theorems": ["C79_meaning", "C79_undefined", "C79_correct", "C79_near"], "note": ""},
 {"property": "C80", "status": "proved", "theorems": ["C80_room", "C80_enough", "C80_no_less"], "note": ""},
 {"property": "C81", "status": "proved", "theorems": ["C81_values", "C81_unique", "C81_rounding"], "note": ""},
 {"property": "C82", "status": "proved", "theorems": ["C82_parsed", "C82_any_reader"], "note": ""},
 {"property": "C83", "status": "proved", "theorems": ["C83_status", "C83_any_text"], "note": ""},
 {"property": "C84", "status": "proved", "theorems": ["C84_cut", "C84_last"], "note": ""},
 {"property": "C85", "status": "partial", "theorems": ["C85_refuted_not_nearest", "C85_distance"], "note": "The property as stated is false of the code. 2^-26 is a counterexample; C85_distance: it is always nearer than half an ulp, and C84 says which number is printed instead."},
 {"property": "C86", "status": "proved", "theorems": ["C86_short_decimals"], "note": ""},
 {"property": "C87", "status": "partial", "theorems": ["C86_refuted_digits_lost", "C86_short_decimals"], "note": "The property as stated is false of the code. 28e-161 comes back as 2.8000000000000003e-160 (double) and 1e-22 as 1.00000006e-22 (float), both read correctly and without the fallback; C86_short_decimals: it holds for normal numbers away from the rounding boundaries that do not round up to a power of two."},
 {"property": "C88", "status": "proved", "theorems": ["C88_bounded", "C88_unterminated", "C88_payload_unbounded"], "note": ""},
 {"property": "C89", "status": "proved", "theorems": ["C89_float_as_double", "C89_with_fallback"], "note": ""},
 {"property": "C90", "status": "partial", "theorems": ["C90_exactly", "C90_refuted", "C90_double_text_as_float_partial", "C90_powers"], "note": "The property as stated is false of the code. 2^100 comes back as 2^99 and the smallest float as zero. What holds, exactly (C90_exactly): the text is always read to its end and without the fallback, and gives the float back unless its magnitude is below 10^-42 (then zero with underflow) or one of seven powers of two."},
 {"property": "C91", "status": "proved", "theorems": ["C91_value_status", "C91_no_word", "C91_numbers", "C91_same_letters", "C91_turkish"], "note": ""},
 {"property": "C92", "status": "partial", "theorems": ["C92_same_number_partial", "C92_short_numbers", "C92_zeros", "C92_fraction_ignored", "C92_refuted"], "note": "The property as stated is false of the code. 10680655625563945099.99e-19 and 1.068065562556394509999 are read as different doubles. What holds (C92_same_number_partial): texts of one number are read alike unless one of them has 20 to 22 (float: 10 to 12) significant digits before its point and more behind it; C92_fraction_ignored says what happens then."},
 {"property": "C93", "status": "proved", "theorems": ["C93_order", "C93_apart"], "note": ""},
 {"property": "C94", "status": "proved", "theorems": ["C94_exactly", "C94_parts", "C94_nothing_else"], "note": ""},
 {"property": "C95", "status": "proved", "theorems": ["C95_exactly", "C95_parts", "C95_number"], "note": ""},
 {"property": "C96", "status": "proved", "theorems": ["C96_any_text", "C96_from_string"], "note": ""},
 {"property": "C97", "status": "proved", "theorems": ["C97_any_value", "C97_to_string", "C97_and_back"], "note": ""},
 {"property": "C98", "status": "proved", "theorems": ["C98_grows", "C98_alone", "C98_outcome"], "note": ""},
 {"property": "C99", "status": "proved", "theorems": ["C99_stops", "C99_one"], "note": ""},
 {"property": "C100", "status": "proved", "theorems": ["C100_settles", "C100_needed"], "note": ""},
 {"property": "C101", "status": "proved", "theorems": ["C101_saved", "C101_loaded", "C101_same"], "note": ""},
 {"property": "C102", "status": "proved", "theorems": ["C102_same_text", "C102_same_string", "C102_roundings", "C102_constants"], "note": ""},
 {"property": "C103", "status": "proved", "theorems": ["C103_any_schedule", "C103_ends"], "note": ""},
 {"property": "C104", "status": "proved", "theorems": ["C104_printing", "C104_parsing"], "note": ""},
 {"property": "C105", "status": "proved", "theorems": ["C105_no_reallocation", "C105_used"], "note": ""},
 {"property": "C106", "status": "proved", "theorems": ["C106_printing", "C106_parsing", "C106_parsing_constant", "C106_printing_reached", "C106_parsing_reached"], "note": ""},
 {"property": "C107", "status": "proved", "theorems": ["C107_types", "C107_types_string", "C107_other_characters", "C107_printed", "C107_refuted_extreme_characters"], "note": ""},
 {"property": "C108", "status": "proved", "theorems": ["C108_printed", "C108_special", "C108_documented", "C108_read", "C108_zero"], "note": ""},
 {"property": "C109", "status": "proved", "theorems": ["C109_narrowed", "C109_clear", "C109_refuted"], "note": ""},
 {"property": "C110", "status": "proved", "theorems": ["C110_float_shorter"], "note": ""},
 {"property": "C111", "status": "proved", "theorems": ["C111_same_text", "C111_relayed", "C111_refuted"], "note": ""},
 {"property": "C112", "status": "proved", "theorems": ["C112_denormals", "C112_others", "C112_reading", "C112_lost"], "note": ""},
 {"property": "C113", "status": "proved", "theorems": ["C113_text_narrowed", "C113_read_narrowed", "C113_refuted", "C113_half_way"], "note": ""},
 {"property": "C114", "status": "proved", "theorems": ["C114_read", "C114_digits_enough", "C114_printf", "C114_power_lost", "C114_refuted_power", "C114_refuted_flt_min", "C114_refuted_smallest", "C114_refuted_tiny"], "note": ""},
 {"property": "C115", "status": "proved", "theorems": ["C115_no_point", "C115_no_point_read", "C115_point", "C115_leading_point", "C115_swallowed", "C115_circle", "C115_refuted_circle", "C115_refuted_list", "C115_refuted_leading"], "note": ""},
 {"property": "C116", "status": "proved", "theorems": ["C116_reading", "C116_requests", "C116_to_string", "C116_terminates"], "note": ""},
 {"property": "C117", "status": "proved", "theorems": ["C117_strtod_for_float", "C117_clear", "C117_refuted", "C117_refuted_overflow", "C117_overflow_by_strtof", "as_float_exists"], "note": ""},
 {"property": "C118", "status": "proved", "theorems": ["C118_shown", "C118_not_good", "C118_initial", "C118_read_off"], "note": ""},
 {"property": "C119", "status": "proved", "theorems": ["C119_wider_fallback", "C119_float", "C119_refuted", "reference_wide_good", "narrowing_converts"], "note": ""}
]}
