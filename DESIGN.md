# Formal model of aclex/floaxie in Rocq (Coq 8.16.1)

Source: `/repo/include/floaxie/*.h` (header-only C++14). Nothing of it is built or run; the model is a hand
translation, function by function, and each definition cites the file and lines it models.

## 1. Modelling decisions

* **Platform**: LP64, two's complement, `int` 32 bit, `size_t`/`unsigned long` 64 bit (`size_t` of 32 to 64 bits in Platform.v, see C104), IEEE-754 `float`/`double`,
  round-to-nearest-even in the one `double` computation of `k_comp_exp` (any rounding and precision in Evaluation.v, see C102), "C" locale for `std::tolower` (any locale in Locale.v, see C91).
* **Undefined behaviour is an outcome.** Every function that can fail returns `res A := Ok a | Fault why`
  (`Machine.v`): out-of-bounds read, out-of-bounds write, illegal shift, signed overflow, index outside a constant
  table, failed `assert`, loop fuel exhausted. Theorems say `= Ok ...` (or name the fault); nothing is totalised
  silently. Loops run on explicit fuel; since the theorems exclude the fault `OutOfFuel`, they include termination.
  Code compiled with `NDEBUG` skips asserts; the theorems that give `Ok` prove that no assert fires, so they hold for
  both kinds of build.
* **Integers**: `Z` with explicit `mod 2^w` wherever C++ wraps (unsigned arithmetic, narrowing conversions) and
  explicit range checks where signed overflow is undefined.
* **Floating-point values** are their bit patterns (`Z`); `type_punning_cast` is therefore the identity.
  `float` and `double` are two values `single`, `double` of one record `fmt` (word width, `numeric_limits` constants,
  cached power tables), so each template is modelled once.
* **Output buffer**: `list Z` with bounds-checked writes; pointers are offsets; `memset`/`memmove` are bounds-checked.
* **Input text**: `list Z` of character codes with bounds-checked reads (a C string is a list containing a 0).
  `char` and `wchar_t` instances are the same model: the code only compares with and stores ASCII codes (C107 justifies this).
* **Fallback function** (`strtod` etc.): an argument of the model, a function from text and `errno` to value, end and new
  `errno`; `errno` is threaded as state. Nothing is assumed of it except where a theorem says `good_fallback`
  (it rounds correctly and reports the end), and C65 proves such functions exist.
* **k_comp_exp** uses the standard library's `SpecFloat` (pure `Z` binary64 arithmetic; no primitive floats).

### Files of the model

| file | models |
|------|--------|
| `Machine.v` | the language rules above |
| `BitOps.v` | `bit_ops.h` (`mask`, `nth_bit`, `highest_bit`, `positive_part`, `round_up`) |
| `StaticPow.v`, `Fraction.v` | `static_pow.h`, `fraction.h` |
| `PowersTen.v`, `Format.v` | `powers_ten*.h`, `diy_fp_traits`, `numeric_limits`, `huge_val.h`, `integer_of_size.h`, `type_punning_cast.h` |
| `DiyFp.v` | `diy_fp.h` (constructors, `normalize`, `*`, `++`, `--`, `-`, `==`, `!=`, `boundaries`, `downsample`) |
| `KComp.v` | `k_comp.h`, `cached_power.h` |
| `Grisu.v`, `Prettify.v`, `Ftoa.v` | `grisu.h`, `memwrap.h`, `prettify.h`, `ftoa.h` (with the string wrappers) |
| `Krosh.v`, `Atof.v` | `krosh.h`, `atof.h`, `conversion_status.h`, `default_fallback.h` |
| `Locale.v` | `krosh.h`, `atof.h` again with `std::tolower(c, std::locale())` for any locale |
| `Evaluation.v` | `k_comp.h` with any rounding, and `grisu.h`, `ftoa.h` again using it |
| `Flushed.v` | `ftoa.h`, `atof.h`, `default_fallback.h` again on a processor that treats denormal operands as zeros |
| `Steps.v`, `ReadSteps.v` | `ftoa.h`, `grisu.h`, `prettify.h`, `krosh.h`, `atof.h` again as sequences of single memory accesses, for threads |
| `Platform.v` | everything that computes with `std::size_t` again, for any width of it |
| `CharType.v` | `krosh.h`, `atof.h` again for every character type |
| `Capacity.v` | the sizes of `parse_digits`' vector along its loop |
| `Print.v`, `Show.v` | `print.h`, `operator<<` of `diy_fp` |

## 2. Specifications

`Spec.v`, `ParseSpec.v`, `TextSpec.v`, `ReadSpec.v`, `MeanSpec.v`, `SameSpec.v`, `PrintSpec.v`, `ShowSpec.v`, `ExactSpec.v`, `WholeSpec.v` and `StdSpec.v` (but for the three status names) do not mention the model. They define the real number a bit pattern denotes, IEEE
classification, ulps and midpoints between neighbours, correct rounding as Flocq's
`round radix2 (FLT_exp emin prec) ZnearestE`, the abstract syntax of number texts (`numeral`), how they are written
(`written`) and what they are worth (`value`, a real number); for parsing also which characters can end a number, what
is within the limits of the parser, distance to rounding boundaries. `Api.v` and `ParseApi.v` name the entry points
(`prints`, `answer`, `fallback_answer`, `good_fallback`). `CycleSpec.v` and `ListSpec.v` define small programs that use both directions (C100, C101), and `EvalSpec.v` says what is assumed of floating-point evaluation (C102); `ThreadSpec.v` defines memory, schedules and what the threads do (C103). Every theorem in MANIFEST.json is stated with these and the
model's entry points `ftoa`, `to_basic_string`, `atof`, `from_string`, `print_binary`, or, for the properties of the
building blocks (C16-C26, C54), with the modelled function the property is about.

## 3. Properties

*proved*: the full English statement is a theorem. *partial*: the full statement is false of the code; there is a
machine-checked counterexample (`_refuted_`) and the theorems beside it say what holds instead. There is no
property left whose statement is believed true but unproved.

| id | property | status | theorems | how |
|----|----------|--------|----------|-----|
| C01 | ftoa output reads back as the same number | proved | `C01_reads_back` | Grisu invariant: error of the two table products < 1 unit each, hence the scaled interval [W-+1, W+-1] lies in the rounding interval; digit generation keeps the shown decimal inside it; rounding back with Flocq (`round_N_middle` arguments, one case per kind of lower gap) |
| C02 | ftoa stays inside a max_buffer_size buffer and has no undefined behaviour | proved | `C02_no_fault` | symbolic execution of `ftoa` to a closed form `splice` of the buffer, all writes inside; table index, shifts, asserts discharged by C16/C17 |
| C03 | ftoa returns the string length, terminates it and touches nothing after the terminator | proved | `C03_frame` | same closed form, for every initial buffer content |
| C04 | ftoa output obeys the documented grammar | proved | `C04_grammar` | case analysis of `prettify` against the grammar in `Spec.v` |
| C05 | ftoa of NaN, infinities and zeros | proved | `C05_special_values` | case analysis on the bit fields |
| C06 | the sign is printed faithfully and printing is odd | proved | `C06_sign_printed`, `C06_odd` | the sign bit is only used for the leading character |
| C07 | choice between plain and exponent notation | proved | `C07_notation` | case analysis of `prettify`, the digit string is a normal form (no trailing zero) |
| C08 | bounded digits and bounded length | proved | `C08_bounded` | upper bound on the digit count from the width of the interval, per binary exponent (finite check over all exponents, lifted to all significands) |
| C09 | no redundant digits | proved | `C09_no_redundant_digits` | digit generation stops at the first position that fits; leading digit non-zero |
| C10 | integers print as plain integers | proved | `C10_integers` | an integer below 2^precision has its own decimal digits in the interval and none shorter is cut earlier |
| C11 | near-shortest output | proved | `C11_near_shortest` | the generator stops at the first position where a cut fits into the safe interval |
| C12 | short decimals survive text to number to text | proved | `C12_short_decimals_survive`, `C12_decimals_survive` | uniqueness: two decimals of that length in one rounding interval would be too close; denormals included |
| C13 | ftoa always prints a shortest representation | partial | `C13_refuted_not_always_shortest`, `C11_near_shortest` | refuted by computation on a normal double |
| C14 | ftoa is injective and order preserving | proved | `C14_order_preserving`, `C14_injective` | corollary of C01: rounding intervals of different values are disjoint and ordered |
| C15 | string wrappers return exactly the ftoa text | proved | `C15_to_string` | from C03 and the model of the string wrappers |
| C16 | cached powers of ten are accurate | proved | `C16_cached_powers`, `C16_advertised_range` | exhaustive over both tables (finite domain) by `vm_compute`, lifted with `forallb` |
| C17 | scaling always lands in the digit generator range | proved | `C17_scaling` | exhaustive over all binary exponents of both types (`k_comp_exp` evaluated in SpecFloat), lifted to all significands |
| C18 | diy_fp multiplication is correctly rounded | proved | `C18_multiplication` | integer arithmetic on the four half products |
| C19 | normalization preserves the value | proved | `C19_normalize` | induction on the shift count |
| C20 | diy_fp increment and decrement | proved | `C20_increment`, `C20_decrement`, `C20_decrement_edge`, `C20_postfix` | integer arithmetic |
| C21 | unpack, normalize, pack is the identity | proved | `C21_unpack_pack` | bit fields + C19 + C23 |
| C22 | round_up decides round-half-to-even | proved | `C22_round_up`, `C22_precondition` | integer arithmetic, masks as `mod` |
| C23 | downsample rounds correctly | proved | `C23_downsample` | integer rounding identified with Flocq's `round` at FLT_exp |
| C24 | downsample of any normalized value is the correctly rounded value | partial | `C24_refuted_carry`, `C24_refuted_overflow`, `C24_refuted_underflow`, `C24_carry_is_lost`, `C23_downsample` | refuted by three witnesses; the carry case characterised for all inputs |
| C25 | decimal to binary fraction conversion | proved | `C25_fraction`, `C25_monotone`, `C25_any_precision`, `C25_any_monotone` | exhaustive over 0..9999, lifted; for every precision by induction on the binary digits (`FracProps`) |
| C26 | interval boundaries are the exact midpoints | proved | `C26_boundaries` | integer arithmetic with Flocq `pred`/`succ` |
| C27 | atof looks at nothing behind the terminator | proved | `C27_terminator`, `C27_total_without_exponent` | two-text simulation of the scanner: texts equal up to the NUL give equal runs |
| C28 | the whole number is consumed | proved | `C28_consumed` | scanner invariant `scan_inv`, induction on the text |
| C29 | atof is correctly rounded or defers to the fallback (up to 19 / 9 significant digits) | proved | `C29_correct_or_deferred`, `C29_fallback_only_near_ties`, `C29_correct_with_fallback` | scanner invariant + error of the single table product (< 1/2^(width-precision-...) ulp) + `downsample` accuracy flag |
| C30 | error bound for numbers of any length | proved | `C30_any_length` | as C29 with the error of the 7-bit tail |
| C31 | atof without fallback is always correctly rounded | partial | `C31_refuted_wrong_without_fallback`, `C29_correct_or_deferred`, `C30_any_length` | refuted by a 24-digit text |
| C32 | rounding up to a power of two | partial | `C32_refuted_carry`, `C32_carry_lost` | refuted; exact wrong result for all such texts |
| C33 | overflow is reported as infinity with overflow status | partial | `C33_refuted_overflow_missed`, `C33_overflow_partial`, `C33_overflow_missed` | refuted; thresholds proved on both sides |
| C34 | far out-of-range exponents | proved | `C34_above_tables`, `C34_below_tables`, `C34_double_magnitude`, `C34_refuted_float_underflow` | case analysis of the table range |
| C35 | the sign survives overflow and underflow | partial | `C35_refuted_sign_lost`, `C34_above_tables`, `C34_below_tables` | refuted |
| C36 | smallest denormal threshold | partial | `C36_refuted_half_denormal`, `C36_flushed_to_zero` | refuted; result for all such texts |
| C37 | nan and inf tokens | proved | `C37_nan`, `C37_nan_payload`, `C37_nan_open`, `C37_infinity`, `C37_inf`, `nan_of_nan` | case analysis, induction on the payload and the word |
| C38 | text that is no number is rejected | partial | `C38_refuted_not_rejected`, `C38_rejected_partial`, `C38_lone_sign`, `C38_lone_point`, `C38_false_word` | refuted; the four kinds of behaviour proved for all such texts |
| C39 | zero with an exponent is consumed completely | partial | `C39_refuted_exponent_left`, `C39_zero_mantissa` | refuted; what is consumed proved for all such texts |
| C40 | exponents of any size are handled | partial | `C40_refuted_exponents`, `C40_refuted_unreadable`, `C28_consumed`, `C34_above_tables`, `C34_below_tables` | refuted: fault for all multiples of 10000 and for more than 12 digits |
| C41 | a dangling exponent marker is not consumed | partial | `C41_refuted_marker_consumed`, `C41_marker_swallowed` | refuted; what happens proved for all such texts (C70) |
| C42 | fallback protocol | proved | `C42_protocol` | for every fallback function and errno |
| C43 | status does not depend on history | partial | `C43_refuted_stale_errno`, `C43_partial_no_history` | refuted; holds when errno is not ERANGE before |
| C44 | status classification of fallback results | partial | `C44_status_partial`, `C44_refuted_denormal` | refuted for denormals; other cases proved |
| C45 | full circle | partial | `C45_refuted_full_circle`, `C46_exactly` | refuted by a power of two |
| C46 | exactly which values survive the full circle | proved | `C46_full_circle_or_deferred`, `C46_full_circle`, `C46_power_lost`, `C46_exactly` | C01 + C28 + C29 for the generic case, C32 for powers of two: an if-and-only-if |
| C47 | full circle for integers without fallback | proved | `C47_integers` | C10 + C56 |
| C48 | negation symmetry of atof | proved | `C48_minus`, `C48_plus`, `C48_number`, `C48_readable_number` | simulation of the run on the text with and without sign |
| C49 | locality | proved | `C49_trichotomy`, `C49_locality`, `C49_number` | two-text simulation |
| C50 | atof is monotone | partial | `C50_refuted_not_monotone`, `C50_monotone_partial` | refuted; holds for short in-range numbers (C71) |
| C51 | str_end may be null and is written once | proved | `C51_null_end`, `C51_end_inside` | the end is only copied; bound from the scanner |
| C52 | no silent truncation of long numbers | partial | `C52_refuted_truncated`, `C28_consumed` | refuted; see C72 |
| C53 | print_binary shows the bit pattern | proved | `C53_print_binary_double`, `C53_print_binary`, `C53_print_double_presentation` | computation of the bit string by induction on the fields |
| C54 | compile-time powers | proved | `C54_static_pow`, `C54_seq_pow` | induction |
| C55 | zero text | proved | `C55_zero` | C28's run with no significant digit |
| C56 | exact numbers parse exactly | proved | `C56_exact_numbers` | exact products never are near a tie: `downsample` is exact |
| C57 | what happens when rounding carries to a power of two | proved | `C32_carry_lost` | see C32 |
| C58 | overflow missed just above the range | proved | `C33_overflow_missed` | see C33 |
| C59 | overflow far above the range | proved | `C33_overflow_partial` | see C33 |
| C60 | values below the smallest denormal become zero | proved | `C36_flushed_to_zero` | see C36 |
| C61 | zero mantissa | proved | `C39_zero_mantissa` | see C39 |
| C62 | exponents that cannot be read | proved | `C40_refuted_unreadable` | see C40 |
| C63 | what lone signs, points and false words consume | proved | `C38_lone_sign`, `C38_lone_point`, `C38_false_word` | see C38 |
| C64 | texts rejected at the first character | proved | `C38_rejected_partial` | see C38 |
| C65 | correctly rounding fallbacks exist | proved | `good_fallback_exists`, `errno_fallback_good` | constructed with `Flocq`'s `Znearest` (constructive existence of a fallback that meets the hypothesis) |
| C66 | NaN, infinity and wrong signs just beyond the range | proved | `C66_just_beyond`, `C66_wrong_sign` | what `downsample` packs when the exponent field overflows into all ones and the sign bit, followed for every value |
| C67 | from_string and NUL characters | proved | `C67_stops_at_nul`, `C67_from_string`, `C67_from_string_sure`, `C67_string_circle` | `std::string` contents with embedded NULs reduce to the C string before the first one |
| C68 | error bound for every in-range number | proved | `C68_error_bound` | C30's error analysis without the distance to ties |
| C69 | exponents of ten to twelve digits | proved | `C69_exponent_wraps`, `C69_exponent_wraps_far` | 32-bit wrap-around of the exponent followed through |
| C70 | what a dangling exponent marker does | proved | `C41_marker_swallowed` | exponent scanner on an empty exponent |
| C71 | order of short numbers | proved | `C50_monotone_partial` | C29 with a correctly rounding fallback + monotonicity of rounding |
| C72 | what becomes of mantissas of more than 2049 characters | proved | `C52_rest_ignored`, `C52_late_digits_lost`, `C52_long_integer`, `C52_long_fraction` | the scanning loop ends after index 2049 with end 2049; scanner state frozen once the tail is taken |
| C73 | the exponent that is applied | proved | `C73_exponent_applied`, `C73_exponent_far`, `C73_exponent_unfit` | `scan_any`: the scanner on any sign/digits/point text of any length; moving the point is unique; then the C conversions |
| C74 | exactly which texts lead to undefined behaviour | proved | `C74_undefined_exactly`, `C74_defined`, `C74_tame_texts` | every text decomposes into mantissa, marker and exponent (or a word); each part total but for the exponent |
| C75 | how much is taken of any text | proved | `C75_consumed`, `C75_words` | the specification `text_length` is a small computable function; every text splits into bare number, word, marker and exponent; the scanner's end computed for each |
| C76 | what ends a number | proved | `C76_what_follows`, `C76_no_digits`, `C76_correct` | two-text simulation of the scanner with any two characters that end the number |
| C77 | comparison, subtraction and stepping of diy_fp | proved | `C77_equality`, `C77_subtraction`, `C77_step_back` | case analysis; normalized values are determined by their magnitude (Flocq `mag`) |
| C78 | diy_fp stream output | proved | `C78_shown` | induction on the number of decimal digits, C53 for the mantissa |
| C79 | what any text means | proved | `C79_meaning`, `C79_undefined`, `C79_correct`, `C79_near` | `meaning_of` is computable and proved to agree with the relational specification of C73/C74; then C75, C76 and the two-text simulation of C73; C29 and C68 carry over |
| C80 | how much room ftoa needs | proved | `C80_room`, `C80_enough`, `C80_no_less` | the proof of C01-C04 with the length of the text in place of max_buffer_size; for too small buffers: every function only grows (`grows`), so a success would be a success in a larger buffer with the NUL outside of the smaller one |
| C81 | numbers are IEEE 754 numbers | proved | `C81_values`, `C81_unique`, `C81_rounding` | unfolding of Flocq's `binary_float_of_bits`; `B2R_Bsign_inj`; `binary_normalize_correct` |
| C82 | both directions against IEEE 754 | proved | `C82_parsed`, `C82_any_reader` | C29 / C01 with C81 |
| C83 | what a reported status says about the number | proved | `C83_status`, `C83_any_text` | the scaled integer's relative error (scaled_relative) with the four cases of downsample; C79 for any text |
| C84 | which decimal number is printed | proved | `C84_cut`, `C84_last` | what is left of the upper end when the digit generator stops (cut), as an inequality of reals |
| C85 | the printed number is the nearest of its length | partial | `C85_refuted_not_nearest`, `C85_distance` | C84's interval; counterexample computed |
| C86 | texts of few digits survive text to value to text | proved | `C86_short_decimals` | composition of C29, C12 and C01: a number that rounds to v without carrying and is clear of ties lies inside the interval of v |
| C87 | all decimals of DBL_DIG / FLT_DIG digits survive | partial | `C86_refuted_digits_lost`, `C86_short_decimals` | counterexamples computed with the model of both directions; C86 is what holds |
| C88 | atof looks at a bounded part of the text | proved | `C88_bounded`, `C88_unterminated`, `C88_payload_unbounded` | Bounded: two texts that agree on the first 4103 positions and have no parenthesis there take the same path through every loop of the parser (agreement lemma per function; the scanning loops stop at index 2049); so the unterminated text behaves as the one with a NUL behind it. The payload family uses C37. |
| C89 | the text of a float can be read as a double | proved | `C89_float_as_double`, `C89_with_fallback` | FineFacts, CrossType: the printed digits of a float keep a relative distance of 2^-52 from the ends of the rounding interval (error analysis of grisu for width 32 done with the actual table errors); so rounding to 53 bits stays inside the interval; no decimal of nine digits is just below a power of two (checked for each exponent), so no carry; then C29 for double. |
| C90 | a float passed on as a double survives | partial | `C90_exactly`, `C90_refuted`, `C90_double_text_as_float_partial`, `C90_powers` | CrossType, CrossExamples: the text of the double is relatively within 2^-53 of the float, hence clear of the rounding boundaries of float, and C30 applies unless the float is a power of two or below 10^-42 (CrossExact: there the text is no multiple of 10^-50, so the power of ten is outside the table); these are enumerated (277 exponents, both programs run by the kernel, lifted to all continuations by C49). |
| C91 | the global locale does not change what is read | proved | `C91_value_status`, `C91_no_word`, `C91_numbers`, `C91_same_letters`, `C91_turkish` | Locale, LocaleProps, Locales: the model of krosh and atof with std::tolower as a parameter (for the C locale proved equal to Krosh.v/Atof.v); simulation of two runs that stay equal up to the position behind a word; Reading/Meaning turn positions into statements about the text. |
| C92 | texts of the same number are read alike | partial | `C92_same_number_partial`, `C92_short_numbers`, `C92_zeros`, `C92_fraction_ignored`, `C92_refuted` | SameFacts: the digits kept, the power of ten and the four digits behind them are functions of the value when the point does not stand among these four (frac_exact, equal_moved); the rest of krosh only depends on these. The exception is described (digits behind the point ignored) and refuted with a text for each type. |
| C93 | numbers of any length are read in order | proved | `C93_order`, `C93_apart` | Order: from the error bound C68 (and good_fallback) for both results; two results in the wrong order differ by at least one unit, which puts both numbers next to the midpoint above the smaller result (inverted). |
| C94 | what atof computes, to the last bit | proved | `C94_exactly`, `C94_parts`, `C94_nothing_else` | Exact: ExactSpec is the arithmetic with integers only; ExactFacts proves each step of the model equal to it (tail_bits_eq, power_exactly by an exhaustive check of both tables, mantissa_exactly, scaled_exactly, rounded_exactly), and parsed_looked says which four digits are looked at, also when the point stands among them. |
| C95 | what ftoa prints, to the last character | proved | `C95_exactly`, `C95_parts`, `C95_number` | PrintExact: PrintSpec is the arithmetic and the layout with integers only; PrintFacts proves the scaling power (choice: all binary exponents), the scaled interval and the place of the cut (cut_places, from the invariant of the digit generator) equal to it; uniqueness of each part makes it a function. |
| C96 | what atof does with any text, computed | proved | `C96_any_text`, `C96_from_string` | Whole (with WholeFacts): composition of C79 (which number or word a text is), C94 (what a number gives), and, for mantissas of more than 2049 characters, a computation of the digits seen and of the four digits behind them (bare_exactly). WholeSpec is executable; WholeExamples runs it. |
| C97 | what ftoa does with any value, computed | proved | `C97_any_value`, `C97_to_string`, `C97_and_back` | ShownText: C95 says which integers determine the text; the searches of ShowSpec find them (ten_for_ok: the start of the search is below the answer, its length suffices; places_ok: at log2(one) places nothing is left to cut off; strip_ok). ShowSpec is executable; ShownExamples runs it. |
| C98 | reading on | proved | `C98_grows`, `C98_alone`, `C98_outcome` | Prefix: by C96 it is a statement about the executable specification; the longest bare number of a text and the word behind it only grow when characters are appended (split_longer, word_grows), and are found again in the part that was taken (mantissa_cut, word_cut). |
| C99 | where atof stops compared with strtod | proved | `C99_stops`, `C99_one` | StdSpec states the expected form of the C standard and the longest initial part declaratively; Std proves that the split of the text into mantissa, exponent and word finds it (number_subject, word_subject, nothing_subject) and compares its length with the number of characters C96 gives. |
| C100 | saving and loading over and over | proved | `C100_settles`, `C100_needed` | Cycle: by C46 only normal powers of two printed well below their value change, and they are halved; the classes of all normal powers of two are computed by the kernel in one run (PowerTrip.powers_classes), which also checks that at most 9 (5) in a row are of that kind and the smallest is not; induction on the passes. |
| C101 | lists of values in one buffer | proved | `C101_saved`, `C101_loaded`, `C101_same` | Lists: the two loops as programs over the modelled ftoa and atof (ListSpec); induction on the list with C97 (tight room) for writing and, for reading, C46, C37 and C55 in front of any separator. |
| C102 | the floating-point environment does not change what is printed | proved | `C102_same_text`, `C102_same_string`, `C102_roundings`, `C102_constants` | Evaluation: k_comp_exp over the reals with an arbitrary constant and two arbitrary roundings; over all exponents that occur the exact product is at least 2^-20 away from every integer (computed), and the errors of the evaluation are smaller. |
| C103 | printing and parsing in several threads | proved | `C103_any_schedule`, `C103_ends` | Steps, ReadSteps: the functions as trees of loads and stores; StepsFacts, ReadStepsFacts: executed alone on a bounds-checked buffer they are the model's functions. Threads: 'executed alone from here on, on the own part of the memory as it is now, it ends well' is invariant under own accesses and under those of compatible threads; the number of accesses left is the measure. The tight room of C97 gives the exact part. |
| C104 | 32-bit and 64-bit platforms | proved | `C104_printing`, `C104_parsing` | Platform: the definitions with a parameter for the width; an invariant of the digit loop (zeros and power gain at most the position, 19 digits) makes its counters small, the fraction count is related modulo 2^sz; everything else is congruence modulo 2^32 or a range. |
| C105 | parsing reserves all the memory it ever needs | proved | `C105_no_reallocation`, `C105_used` | Capacity: the trace of the sizes of the vector through the digit loop; the invariant of C104 bounds them. |
| C106 | bounded work for every input | proved | `C106_printing`, `C106_parsing`, `C106_parsing_constant`, `C106_printing_reached`, `C106_parsing_reached` | Work, WorkPrint: costs of the step programs of C103; each position is loaded once by the loop, the tail digits (at most 4 per number) and the marker again, so the cost is the distance covered plus 4; generating digits costs one store per digit, and there are at most 9 / 17 (C08). |
| C107 | character types and characters that are not ASCII | proved | `C107_types`, `C107_types_string`, `C107_other_characters`, `C107_printed`, `C107_refuted_extreme_characters` | CharType: the definitions again with the subtraction done in the promoted type; it takes the same branch as over Z unless it overflows. For other characters: all tests of the parser commute with a function that fixes ASCII and maps the rest outside of it. |
| C108 | JSON numbers | proved | `C108_printed`, `C108_special`, `C108_documented`, `C108_read`, `C108_zero` | JsonSpec (grammar of RFC 8259 on characters, independent of the numerals of Spec), Json: C04/C09 for what is printed, C28/C39 for what is read; a character grammar word is rebuilt into a numeral. |
| C109 | reading as a double and narrowing to float | proved | `C109_narrowed`, `C109_clear`, `C109_refuted` | Narrow: C29 for both types; rounding twice is monotone and differs from rounding once only if the double is the midpoint between two floats (which is a double). Short numbers in range of float are in range of double and are not lost powers there (ShortFacts). Counterexample run in the kernel. |
| C110 | a float is printed with at most as many digits as the same number as a double | proved | `C110_float_shorter` | Widen: the double's text is relatively within 2^-53 of the float (near_itself), inside the interval of C11, so for floats of at least 17 bits C11 applies. For smaller ones a short text would be a fraction with a denominator below 2^16 too near to a power of ten over 2^149: excluded by neighbouring Farey fractions, one pair for each power of ten. |
| C111 | texts of floats relayed through double | proved | `C111_same_text`, `C111_relayed`, `C111_refuted` | Relay: the text of a float has at most nine digits and rounds to a normal double without carry (printed_twice), so C86 applies; equal decimal numbers have equal texts because the digits without trailing zeros are unique (PrintExact) and the layout is a function of digits, exponent and sign. Counterexample run in the kernel. |
| C112 | denormal operands treated as zeros | proved | `C112_denormals`, `C112_others`, `C112_reading`, `C112_lost` | Flushed (the comparisons on operands with denormals replaced by zeros), FlushProps: operands with a non-zero exponent field are unchanged; C102 for the rest. Sign changes and type punning do not go through the flushing, which is an assumption about the instructions, stated in Flushed |
| C113 | texts of doubles read as floats | proved | `C113_text_narrowed`, `C113_read_narrowed`, `C113_refuted`, `C113_half_way` | Narrowed: by C01 the text rounds to the double, so Narrow's theorem on rounding twice gives the first part; near_itself and C30 the second. NarrowedExamples: computed counterexample |
| C114 | numbers written by other programs | proved | `C114_read`, `C114_digits_enough`, `C114_printf`, `C114_power_lost`, `C114_refuted_power`, `C114_refuted_flt_min`, `C114_refuted_smallest`, `C114_refuted_tiny` | Writers: a text inside the rounding interval rounds to the value (RoundFacts), so C29 and real_of_inj give the result, C32_carry_lost the exception; 10^16 > 2^53 and 10^8 > 2^24 put rounded texts inside. WritersExamples: computed |
| C115 | the decimal point of the C locale | proved | `C115_no_point`, `C115_no_point_read`, `C115_point`, `C115_leading_point`, `C115_swallowed`, `C115_circle`, `C115_refuted_circle`, `C115_refuted_list`, `C115_refuted_leading` | Points: strtod is specified, not modelled (standard_fallback, shown to be possible); in a locale with point p it is the same function of the text with p read as '.', and '.' as a foreign character. C42 splits texts into those that ask the fallback and those that do not; C29 and C46 give the rest. PointsExamples: computed |
| C116 | running out of memory | proved | `C116_reading`, `C116_requests`, `C116_to_string`, `C116_terminates` | Memory (the requests of the vector and the string, answered by an arbitrary supply), MemoryProps: C105 shows that the vector never grows; what the scanner returns for a number (LoopFacts) tells when the exponent is read |
| C117 | strtod as the fallback for floats | proved | `C117_strtod_for_float`, `C117_clear`, `C117_refuted`, `C117_refuted_overflow`, `C117_overflow_by_strtof`, `as_float_exists` | Strtod, StrtodExamples: the fallback handed to the model of atof converts (IEEE 754) what a fallback for double returns; C29 and the double rounding lemma of C109 (Narrow) |
| C118 | diy_fp and the state of the stream | proved | `C118_shown`, `C118_not_good`, `C118_initial`, `C118_read_off` | Stream (a char stream with all its flags), StreamProps: induction on the digits and on the groups |
| C119 | a fallback of a wider type | proved | `C119_wider_fallback`, `C119_float`, `C119_refuted`, `reference_wide_good`, `narrowing_converts` | Wider (a binary type is a precision and an exponent; points half way between two numbers of the narrower type belong to it), WiderExamples: C29 and a double rounding lemma for all precisions; the fallback and its conversion are constructed; WiderFloat: a table of neighbouring fractions, checked by computation, shows for each pair of powers of ten and two that no d * 10^j is within 2^-64 of a point half way between two floats without being equal to it |

### Findings (statements a user would expect that are false of the code)

* **C32/C24/C45**: a carry out of the significand is lost in `downsample`: a number that rounds up to a normal power of two 2^k
  is returned as 2^(k-1) (as zero for the smallest normal number), with status success. Hence printing and parsing are not
  inverse: `C46_exactly` gives the exact set of values that do not survive.
* **C33/C58/C66**: just above the largest finite value the parser returns NaN or a finite number of the *opposite sign*,
  status success (`2e308` is NaN, `1e309` is -3.09e-308).
* **C35**: the sign is lost when the power of ten is outside the tables (`-1e400` is +infinity).
* **C34** (float): numbers with power of ten below -50 are flushed to zero although some are representable.
* **C36**: values from half the smallest denormal up to it become zero.
* **C40**: exponents that are multiples of 10000 or have more than 12 digits read outside a table (undefined behaviour); **C69**: ten to twelve digits wrap around.
* **C39, C41, C38**: `0e5` consumes only `0`; `1e`, `1e+` swallow the marker; a lone sign, point or `n` is consumed and reported as a successful zero.
* **C43, C44**: `errno` is not cleared before the fallback is called, a stale ERANGE turns into overflow; a denormal result with ERANGE is reported as overflow.
* **C52/C72**: mantissas are cut after 2049 characters, the exponent is then ignored.
* **C13**: the printed text is not always the shortest (witness: a normal double). **C85**: nor the nearest of its length; **C87**: so decimals of one or two digits do not always survive atof and ftoa (28e-161, float 1e-22); **C84**: small denormals print nine digits of the upper end of their interval (`5e-324` prints `7.41098468e-324`). **C31**: without fallback not always correctly rounded. **C50**: not monotone.
* **C90**: a float printed as a double and read as a float is lost if it is below 10^-42 (713 values of either sign) or one of seven powers of two (2^100 comes back as 2^99).
* **C92**: with 20 to 22 (float: 10 to 12) significant digits before the point, the digits behind the point are ignored although the first of them should still count: `extract_fraction_digits` (krosh.h:146-168) stops at the point. `10680655625563945099.99e-19` and `1.068065562556394509999` give different doubles.
* **C91**: in a Turkish locale `INFINITY` is read as infinity but only three characters are consumed.
* `ftoa(-0.0)` is `0` (C05).
* **C100**: values that are saved and loaded repeatedly can drift: the double 2^856 is halved by each of nine passes, the float 2^-50 by each of five.

## 4. Proof structure

* Machine and arithmetic: `MachineFacts`, `DiyFacts`, `BoundFacts`, `TableFacts`, `ArithProps` (C16-C26, C53, C54), `DownFacts`.
* Printing: `DvalFacts`, `DigitGenFacts` (digit generator invariant), `GrisuFacts` (error analysis), `PrettifyFacts`,
  `ShownFacts`, `FtoaFacts` (`ftoa` in closed form), `RoundFacts`, `WrittenFacts`, `CmpFacts`; theorems in `PrintProps`, `PrintProps2`, `PrintProps3`, `Tight`, `Cut` (with `CutFacts`), `PrintExact` (with `PrintFacts`), `ShownText`.
* Parsing: `ScanFacts` (invariant of the scanner), `LoopFacts`, `ParseFacts`, `GapFacts`, `KroshNum`, `ShortFacts`, `FracFacts` (the 7-bit tail),
  `LongFacts`, `RangeFacts`, `ScaledFacts`, `LocalFacts` (simulation of two texts), `NegFacts`; theorems in `ParseProps`, `RangeProps`, `Refuted`,
  `Protocol`, `LocalProps`, `ExpProps`, `Tokens`, `NegProps`, `Marker`, `Truncate`, `Defined`, `Ends`, `Reading`, `Meaning`, `Status`, `RoundTrip`, `PowerTrip`, `DecimalTrip`, `Bounded`, `LocaleProps`, `Locales`, `SameFacts`, `Same`, `Order`, `ExactFacts`, `Exact`, `WholeFacts`, `Whole`, `Prefix`, `Std`, `Cycle`, `Lists`, `FracProps`, `FineFacts`, `CrossType`, `Beyond`, `ErrorProps`, `StringProps`, `GoodFallback`.
* Hypotheses are met: `PrintExamples`, `ArithExamples`, `ParseExamples`, `BeyondExamples`, `MarkerExamples`, `TruncateExamples`, `DefinedExamples`, `ReadingExamples`, `MeaningExamples`, `CrossExact`, `CrossExamples`, `SameExamples`, `OrderExamples`, `ExactExamples`, `PrintExactExamples`, `WholeExamples`, `ShownExamples`, `PrefixExamples`, `StdExamples`, `CycleExamples`, `ListExamples`, `EvalExamples`, `ThreadExamples`, `PlatformExamples`, `WorkExamples`, `CharTypeExamples`
  give concrete, non-trivial values and texts that satisfy the hypotheses of each theorem, often with the computed outcome beside it.
* Finite domains checked exhaustively and lifted (`forallb` by `vm_compute`): both tables of powers (C16), all binary exponents of both types (C17, C08),
  the 10000 tails (C25). Everything else is by induction, invariants and real arithmetic; no bound on lengths, digits or steps except those the
  statement itself names.

## 5. Trusted base

* Coq 8.16.1's kernel (including its VM, used by `vm_compute`; `coqchk` re-checks everything without it).
* The translation from C++ to the model (section 1), and the specifications (section 2), by reading.
* Flocq and the standard library as libraries of proved theorems. Axioms, as listed by `Print Assumptions` (all from the standard library,
  through the real numbers; none of our own):

* **no axioms** (Closed under the global context) — 70 theorems: C05_special_values, C104_parsing, C105_no_reallocation, C105_used, C106_parsing, C106_parsing_constant, C106_parsing_reached, C106_printing_reached, C107_other_characters, C107_refuted_extreme_characters, C107_types, C107_types_string, C108_documented, C108_special, C108_zero, C112_denormals, C112_lost, C112_reading, C116_reading, C116_terminates, C116_to_string, C117_overflow_by_strtof, C118_initial, C118_not_good, C118_read_off, C118_shown, C16_advertised_range, C20_decrement_edge, C20_postfix, C22_precondition, C25_any_monotone, C25_any_precision, C25_fraction, C25_monotone, C35_refuted_sign_lost, C37_inf, C37_infinity, C37_nan, C37_nan_open, C37_nan_payload, C38_false_word, C38_lone_point, C38_lone_sign, C38_refuted_not_rejected, C38_rejected_partial, C39_refuted_exponent_left, C39_zero_mantissa, C41_refuted_marker_consumed, C42_protocol, C43_partial_no_history, C44_refuted_denormal, C44_status_partial, C51_null_end, C53_print_binary, C53_print_binary_double, C53_print_double_presentation, C54_seq_pow, C54_static_pow, C75_words, C78_shown, C88_bounded, C88_payload_unbounded, C91_no_word, C91_numbers, C91_same_letters, C91_turkish, C91_value_status, C98_outcome, C99_one, nan_of_nan
* `WiderFloat.C119_float` — 1 theorems: C119_float
* `ClassicalDedekindReals.sig_forall_dec`, `FunctionalExtensionality.functional_extensionality_dep` — 115 theorems: C02_no_fault, C03_frame, C04_grammar, C06_odd, C06_sign_printed, C07_notation, C08_bounded, C09_no_redundant_digits, C100_needed, C101_saved, C102_same_string, C102_same_text, C103_any_schedule, C103_ends, C104_printing, C106_printing, C107_printed, C108_printed, C108_read, C10_integers, C110_float_shorter, C111_same_text, C112_others, C114_digits_enough, C114_refuted_flt_min, C114_refuted_power, C114_refuted_smallest, C114_refuted_tiny, C116_requests, C11_near_shortest, C12_decimals_survive, C12_short_decimals_survive, C15_to_string, C16_cached_powers, C17_scaling, C18_multiplication, C19_normalize, C20_decrement, C20_increment, C22_round_up, C26_boundaries, C27_terminator, C27_total_without_exponent, C28_consumed, C33_overflow_missed, C33_overflow_partial, C34_above_tables, C34_below_tables, C36_flushed_to_zero, C40_refuted_exponents, C40_refuted_unreadable, C41_marker_swallowed, C46_power_lost, C48_minus, C48_number, C48_plus, C48_readable_number, C49_locality, C49_number, C49_trichotomy, C50_refuted_not_monotone, C51_end_inside, C52_late_digits_lost, C52_long_integer, C52_refuted_truncated, C52_rest_ignored, C66_wrong_sign, C67_from_string, C67_from_string_sure, C67_stops_at_nul, C69_exponent_wraps, C69_exponent_wraps_far, C73_exponent_applied, C73_exponent_far, C73_exponent_unfit, C74_defined, C74_tame_texts, C74_undefined_exactly, C75_consumed, C76_no_digits, C76_what_follows, C77_step_back, C77_subtraction, C79_meaning, C79_undefined, C80_enough, C80_no_less, C80_room, C83_any_text, C83_status, C84_cut, C84_last, C85_distance, C85_refuted_not_nearest, C88_unterminated, C90_refuted, C92_fraction_ignored, C92_refuted, C92_same_number_partial, C92_short_numbers, C92_zeros, C94_exactly, C94_nothing_else, C94_parts, C95_exactly, C95_number, C95_parts, C96_any_text, C96_from_string, C97_and_back, C97_any_value, C97_to_string, C98_alone, C98_grows, C99_stops
* `ClassicalDedekindReals.sig_forall_dec`, `ClassicalDedekindReals.sig_not_dec`, `Classical_Prop.classic`, `FunctionalExtensionality.functional_extensionality_dep` — 89 theorems: C01_reads_back, C100_settles, C101_loaded, C101_same, C102_constants, C102_roundings, C109_clear, C109_narrowed, C109_refuted, C111_refuted, C111_relayed, C113_half_way, C113_read_narrowed, C113_refuted, C113_text_narrowed, C114_power_lost, C114_printf, C114_read, C115_circle, C115_leading_point, C115_no_point, C115_no_point_read, C115_point, C115_refuted_circle, C115_refuted_leading, C115_refuted_list, C115_swallowed, C117_clear, C117_refuted, C117_refuted_overflow, C117_strtod_for_float, C119_refuted, C119_wider_fallback, C13_refuted_not_always_shortest, C14_injective, C14_order_preserving, C21_unpack_pack, C23_downsample, C24_carry_is_lost, C24_refuted_carry, C24_refuted_overflow, C24_refuted_underflow, C29_correct_or_deferred, C29_correct_with_fallback, C29_fallback_only_near_ties, C30_any_length, C31_refuted_wrong_without_fallback, C32_carry_lost, C32_refuted_carry, C33_refuted_overflow_missed, C34_double_magnitude, C34_refuted_float_underflow, C36_refuted_half_denormal, C43_refuted_stale_errno, C45_refuted_full_circle, C46_exactly, C46_full_circle, C46_full_circle_or_deferred, C47_integers, C50_monotone_partial, C52_long_fraction, C55_zero, C56_exact_numbers, C66_just_beyond, C67_string_circle, C68_error_bound, C76_correct, C77_equality, C79_correct, C79_near, C81_rounding, C81_unique, C81_values, C82_any_reader, C82_parsed, C86_refuted_digits_lost, C86_short_decimals, C89_float_as_double, C89_with_fallback, C90_double_text_as_float_partial, C90_exactly, C90_powers, C93_apart, C93_order, as_float_exists, errno_fallback_good, good_fallback_exists, narrowing_converts, reference_wide_good

### Not modelled

`long double`, `to_u16string`/`to_u32string`
(they instantiate `wrap::memset<char16_t>`, declared but never defined: link failure, not a run-time behaviour), the C library (`strtod` is an argument of the model), template
mechanics and constant evaluation (the values of the constants are modelled), weak memory (C103 interleaves single accesses; it also shows that no two
threads access the same cell with one of them writing, so that the C++ memory model allows nothing else; `errno` is thread-local).

## 6. Testing the theorems against wrong programs

`seeded/LOG.jsonl` has one line per wrong program. Two methods, both in scratch copies:

1. **Build**: the model is edited, the development is rebuilt with `make -k`; the log lists the lemma where it
   breaks and the property theorems that can no longer be proved. A mutant with no failure is either equivalent (same
   behaviour on all inputs; said so in the log) or showed a weak theorem, which was then tightened (field `tightened`).
2. **Statement level**: the edited model is extracted to OCaml and run on some 5000 values and texts; the *statements* of the
   theorems, written once more in Python with exact rationals, are evaluated on its results (`claims_false_on_battery`, `witness`).
   So a mutant is not only rejected because some lemma's proof happens to break: the property itself is false of it.
   The unchanged model violates none of the statements.

### The model against the repository's own tests

`theories/Suite.v` evaluates, in the model, every assertion with a definite outcome of the repository's deterministic test programs
(parse_digits, round_up, diy_fp_conversion, diy_fp_inc_dec, diy_fp_uoflow, ftoa_zero, string_wrappers, nan, inf, overflow, underflow and the 33
literals of atof_test, 13 of which `atof` decides itself; for the 20 it hands to the fallback the expected result is shown to be the nearest double).
These are tests: they are evidence that the model behaves as the code's authors say the code does, and no claim rests on them.
