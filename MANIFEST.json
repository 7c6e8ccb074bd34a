{
 "claims": [
  {
   "property": "C01",
   "status": "proved",
   "theorems": [
    "C01_add"
   ],
   "note": ""
  },
  {
   "property": "C02",
   "status": "proved",
   "theorems": [
    "C02_sub"
   ],
   "note": ""
  },
  {
   "property": "C03",
   "status": "proved",
   "theorems": [
    "C03_inc",
    "C03_dec",
    "C03_neg"
   ],
   "note": ""
  },
  {
   "property": "C04",
   "status": "proved",
   "theorems": [
    "C04_mul"
   ],
   "note": ""
  },
  {
   "property": "C05",
   "status": "proved",
   "theorems": [
    "C05_unsigned_division"
   ],
   "note": ""
  },
  {
   "property": "C06",
   "status": "proved",
   "theorems": [
    "C06_signed_division"
   ],
   "note": ""
  },
  {
   "property": "C07",
   "status": "proved",
   "theorems": [
    "C07_unsigned_by_zero",
    "C07_signed_by_zero"
   ],
   "note": ""
  },
  {
   "property": "C08",
   "status": "proved",
   "theorems": [
    "C08_mutating",
    "C08_comparison",
    "C08_division"
   ],
   "note": "Four comparisons (ule, ugt, sle, sgt) report the two widths in swapped order, as the theorem states."
  },
  {
   "property": "C09",
   "status": "partial",
   "theorems": [
    "C09_signed_mismatch_refuted",
    "C09_signed_mismatch_exact",
    "C09_int_mismatch_exact"
   ],
   "note": "False of the code: the signed operations panic for differing widths unless the divisor is zero (then they report division by zero, C07_signed_by_zero). The _refuted theorem gives a witness, the _exact theorem says what the code does for all such operands."
  },
  {
   "property": "C10",
   "status": "proved",
   "theorems": [
    "C10_unsigned_order"
   ],
   "note": ""
  },
  {
   "property": "C11",
   "status": "proved",
   "theorems": [
    "C11_signed_order"
   ],
   "note": ""
  },
  {
   "property": "C12",
   "status": "proved",
   "theorems": [
    "C12_eq_hash"
   ],
   "note": ""
  },
  {
   "property": "C13",
   "status": "proved",
   "theorems": [
    "C13_canonical",
    "C13_no_hidden_state"
   ],
   "note": ""
  },
  {
   "property": "C14",
   "status": "proved",
   "theorems": [
    "C14_not",
    "C14_and",
    "C14_or",
    "C14_xor"
   ],
   "note": ""
  },
  {
   "property": "C15",
   "status": "proved",
   "theorems": [
    "C15_get",
    "C15_set",
    "C15_unset",
    "C15_flip",
    "C15_out_of_range"
   ],
   "note": ""
  },
  {
   "property": "C16",
   "status": "proved",
   "theorems": [
    "C16_whole",
    "C16_sign_bit",
    "C16_predicates"
   ],
   "note": ""
  },
  {
   "property": "C17",
   "status": "proved",
   "theorems": [
    "C17_counts",
    "C17_leading_zeros",
    "C17_trailing_zeros"
   ],
   "note": ""
  },
  {
   "property": "C18",
   "status": "partial",
   "theorems": [
    "C18_is_one_partial",
    "C18_is_one_refuted",
    "C18_is_one_exact",
    "C18_is_all_set_partial",
    "C18_is_all_set_refuted",
    "C18_is_all_set_exact",
    "C18_uint_partial",
    "C18_int_partial"
   ],
   "note": "False of the code as stated: is_one is wrong above 64 bits, is_all_set at multiples of 64 (the _refuted theorems give witnesses, confirmed by computation in the model). The _partial theorems hold where the claim is true and the _exact theorems say what the code decides at every width."
  },
  {
   "property": "C19",
   "status": "proved",
   "theorems": [
    "C19_shl"
   ],
   "note": ""
  },
  {
   "property": "C20",
   "status": "proved",
   "theorems": [
    "C20_lshr"
   ],
   "note": ""
  },
  {
   "property": "C21",
   "status": "proved",
   "theorems": [
    "C21_ashr"
   ],
   "note": ""
  },
  {
   "property": "C22",
   "status": "proved",
   "theorems": [
    "C22_invalid_amount"
   ],
   "note": ""
  },
  {
   "property": "C23",
   "status": "proved",
   "theorems": [
    "C23_truncate",
    "C23_truncate_error"
   ],
   "note": ""
  },
  {
   "property": "C24",
   "status": "proved",
   "theorems": [
    "C24_zero_extend",
    "C24_zero_extend_error"
   ],
   "note": ""
  },
  {
   "property": "C25",
   "status": "proved",
   "theorems": [
    "C25_sign_extend",
    "C25_sign_extend_error"
   ],
   "note": ""
  },
  {
   "property": "C26",
   "status": "proved",
   "theorems": [
    "C26_resize",
    "C26_round_trip"
   ],
   "note": ""
  },
  {
   "property": "C27",
   "status": "proved",
   "theorems": [
    "C27_assign"
   ],
   "note": ""
  },
  {
   "property": "C28",
   "status": "proved",
   "theorems": [
    "C28_from_unsigned",
    "C28_from_signed",
    "C28_from_array"
   ],
   "note": ""
  },
  {
   "property": "C29",
   "status": "proved",
   "theorems": [
    "C29_constants"
   ],
   "note": ""
  },
  {
   "property": "C30",
   "status": "proved",
   "theorems": [
    "C30_try_unsigned"
   ],
   "note": ""
  },
  {
   "property": "C31",
   "status": "partial",
   "theorems": [
    "C31_int_partial",
    "C31_try_signed_partial",
    "C31_try_signed_refuted",
    "C31_try_signed_exact"
   ],
   "note": "False of the code as stated: for values of more than N bits try_to_iN may return a wrapped number or refuse a value in range (the _refuted theorem). The _partial theorem is the true part, the _exact theorem says what is returned for every value."
  },
  {
   "property": "C32",
   "status": "proved",
   "theorems": [
    "C32_resize_to_primitive"
   ],
   "note": ""
  },
  {
   "property": "C33",
   "status": "proved",
   "theorems": [
    "C33_parse_power_of_two"
   ],
   "note": ""
  },
  {
   "property": "C34",
   "status": "partial",
   "theorems": [
    "C34_parse_any_partial",
    "C34_parse_any_refuted",
    "C34_parse_any_exact"
   ],
   "note": "False of the code for radices that are not powers of two and strings beyond one 64-bit block (the _refuted theorem). The _partial theorem covers shorter strings, C33 the powers of two at every length, the _exact theorem what is returned for all strings."
  },
  {
   "property": "C35",
   "status": "proved",
   "theorems": [
    "C35_parse_decides",
    "C35_radix_validity"
   ],
   "note": ""
  },
  {
   "property": "C36",
   "status": "proved",
   "theorems": [
    "C36_format_round_trip",
    "C36_canonical_unique"
   ],
   "note": ""
  },
  {
   "property": "C37",
   "status": "partial",
   "theorems": [
    "C37_format_total_refuted",
    "C37_format_total_exact"
   ],
   "note": "False of the code: both entry points are unimplemented and panic (the _refuted theorem); the _exact theorem says when."
  },
  {
   "property": "C38",
   "status": "proved",
   "theorems": [
    "C38_serde_round_trip"
   ],
   "note": ""
  },
  {
   "property": "C39",
   "status": "partial",
   "theorems": [
    "C39_human_readable",
    "C39_compact_partial",
    "C39_no_panic_refuted",
    "C39_errors"
   ],
   "note": "Proved for both formats (including which error is reported) except one case: the compact format panics on a sequence without elements (the _refuted theorem), where the claim asks for an error."
  },
  {
   "property": "C40",
   "status": "proved",
   "theorems": [
    "C40_uint",
    "C40_int",
    "C40_random",
    "C40_randomize",
    "C40_every_value"
   ],
   "note": ""
  },
  {
   "property": "C41",
   "status": "proved",
   "theorems": [
    "C41_arithmetic",
    "C41_division",
    "C41_division_by_zero",
    "C41_mismatch",
    "C41_comparison_mismatch",
    "C41_comparison",
    "C41_shift",
    "C41_shift_error",
    "C41_resize",
    "C41_bitwise",
    "C41_bits",
    "C41_queries",
    "C41_primitives",
    "C41_construction",
    "C41_other"
   ],
   "note": ""
  },
  {
   "property": "C42",
   "status": "proved",
   "theorems": [
    "C42_arithmetic",
    "C42_no_overflow",
    "C42_division",
    "C42_division_by_zero",
    "C42_mismatch",
    "C42_comparison_mismatch",
    "C42_comparison",
    "C42_shift",
    "C42_shift_error",
    "C42_resize",
    "C42_bitwise",
    "C42_bits",
    "C42_sign_bit",
    "C42_queries",
    "C42_abs",
    "C42_primitives",
    "C42_construction",
    "C42_other"
   ],
   "note": ""
  },
  {
   "property": "C43",
   "status": "proved",
   "theorems": [
    "C43_uint_same_width",
    "C43_uint_mismatch",
    "C43_uint_laws",
    "C43_int_same_width",
    "C43_int_mismatch",
    "C43_int_laws"
   ],
   "note": ""
  },
  {
   "property": "C44",
   "status": "proved",
   "theorems": [
    "C44_apint",
    "C44_apint_panic",
    "C44_uint",
    "C44_uint_panic",
    "C44_int",
    "C44_int_panic"
   ],
   "note": ""
  },
  {
   "property": "C45",
   "status": "proved",
   "theorems": [
    "C45_simulation",
    "C45_step",
    "C45_no_panic"
   ],
   "note": ""
  },
  {
   "property": "C46",
   "status": "proved",
   "theorems": [
    "C46_never_undefined",
    "C46_ownership",
    "C46_no_leak"
   ],
   "note": ""
  },
  {
   "property": "C47",
   "status": "proved",
   "theorems": [
    "C47_ring",
    "C47_boolean"
   ],
   "note": ""
  },
  {
   "property": "C48",
   "status": "proved",
   "theorems": [
    "C48_unsigned_identity",
    "C48_signed_identity"
   ],
   "note": ""
  },
  {
   "property": "C49",
   "status": "proved",
   "theorems": [
    "C49_shift_identities",
    "C49_shift_as_division"
   ],
   "note": ""
  },
  {
   "property": "C50",
   "status": "proved",
   "theorems": [
    "C50_bitwidth",
    "C50_bitpos"
   ],
   "note": ""
  },
  {
   "property": "C51",
   "status": "proved",
   "theorems": [
    "C51_race_free",
    "C51_isolated",
    "C51_lent",
    "C51_progress",
    "C51_join"
   ],
   "note": ""
  },
  {
   "property": "C52",
   "status": "proved",
   "theorems": [
    "C52_narrow_no_heap"
   ],
   "note": "Vectors used while computing (parsing, long division) are not storage of integers and are not counted; those of multiplication and division are counted in C72."
  },
  {
   "property": "C53",
   "status": "partial",
   "theorems": [
    "C53_in_place_partial",
    "C53_signed_division_exact",
    "C53_signed_division_refuted"
   ],
   "note": "Proved for the operations listed except multiplication and division; false for signed division of more than 64 bits, which clones its divisor (the _refuted and _exact theorems). Temporary vectors of multiplication and long division are the subject of C71 and C72."
  },
  {
   "property": "C54",
   "status": "proved",
   "theorems": [
    "C54_truncation"
   ],
   "note": ""
  },
  {
   "property": "C55",
   "status": "proved",
   "theorems": [
    "C55_unsigned_exact",
    "C55_signed_exact"
   ],
   "note": ""
  },
  {
   "property": "C56",
   "status": "proved",
   "theorems": [
    "C56_zero_extension",
    "C56_sign_extension"
   ],
   "note": ""
  },
  {
   "property": "C57",
   "status": "proved",
   "theorems": [
    "C57_overflow",
    "C57_comparison"
   ],
   "note": ""
  },
  {
   "property": "C58",
   "status": "proved",
   "theorems": [
    "C58_catch",
    "C58_no_leak",
    "C58_no_panic"
   ],
   "note": ""
  },
  {
   "property": "C59",
   "status": "partial",
   "theorems": [
    "C59_panic_effect_partial",
    "C59_unchanged_refuted"
   ],
   "note": "False of the code: signed division of unequal widths panics after negating negative operands behind &mut (the _refuted theorem). The _partial theorem says what every panicking call does to every variable: only operands behind &mut that were negative change, to their absolute value."
  },
  {
   "property": "C60",
   "status": "proved",
   "theorems": [
    "C60_debug_text",
    "C60_debug_identifies"
   ],
   "note": ""
  },
  {
   "property": "C61",
   "status": "proved",
   "theorems": [
    "C61_messages",
    "C61_message_identifies",
    "C61_texts_only",
    "C61_comparison_errors",
    "C61_resize_errors",
    "C61_parse_errors"
   ],
   "note": ""
  },
  {
   "property": "C62",
   "status": "partial",
   "theorems": [
    "C62_short_name_refuted",
    "C62_position_refuted"
   ],
   "note": "False of the code: five of the eight comparisons give a wrong short name and the kind never carries index and character (the _refuted theorems). C61_comparison_errors says for which comparisons the short name is right, C61_parse_errors that index and character are in the message and never in the kind."
  },
  {
   "property": "C63",
   "status": "partial",
   "theorems": [
    "C63_options_refuted",
    "C63_options_exact"
   ],
   "note": "False of the code: formatter options are ignored (the _refuted theorem). The _exact theorem says for which options the output is nevertheless what Rust prints."
  },
  {
   "property": "C64",
   "status": "proved",
   "theorems": [
    "C64_typed_programs",
    "C64_memory",
    "C64_ranges",
    "C64_no_panic"
   ],
   "note": "The abstract machine states the known defects as the code has them (division of Int at different widths, is_one, is_all_set, try_to of wide signed integers, octal output); each of these is a partial property of its own."
  },
  {
   "property": "C65",
   "status": "proved",
   "theorems": [
    "C65_display",
    "C65_identifies",
    "C65_one_line",
    "C65_errors_of_calls"
   ],
   "note": "For strings of the first 256 code points (what escapes need of Unicode beyond is not modelled); C65_errors_of_calls shows that the calls modelled with their texts return only such errors when the parsed input is such."
  },
  {
   "property": "C66",
   "status": "partial",
   "theorems": [
    "C66_verbatim_refuted",
    "C66_verbatim_partial"
   ],
   "note": "False of the code: Display forwards to Debug, so line breaks, tabs, quotes and backslashes are escaped (the _refuted theorem). The _partial theorem says what is printed as it is, which includes the messages of all kinds."
  },
  {
   "property": "C67",
   "status": "proved",
   "theorems": [
    "C67_programs",
    "C67_typed_programs",
    "C67_operators",
    "C67_deserialization",
    "C67_random",
    "C67_octal"
   ],
   "note": "Panics that only debug builds have are a separate outcome of the model (Trap). Sums of lengths bounded by the size of an allocated slice carry no check in the model."
  },
  {
   "property": "C68",
   "status": "proved",
   "theorems": [
    "C68_never_undefined",
    "C68_ownership",
    "C68_no_leak"
   ],
   "note": ""
  },
  {
   "property": "C69",
   "status": "proved",
   "theorems": [
    "C69_catch",
    "C69_in_type",
    "C69_no_leak",
    "C69_no_panic"
   ],
   "note": "A client catches every panic (MUnwindTyped.v)."
  },
  {
   "property": "C70",
   "status": "partial",
   "theorems": [
    "C70_effect_exact",
    "C70_unchanged_partial",
    "C70_unchanged_refuted"
   ],
   "note": "False of the code for division of an Int by an Int of another width: the sign is gone (the _refuted theorem). The _partial theorem has all other cases, and C70_effect_exact says what every call that panics does to every variable."
  },
  {
   "property": "C71",
   "status": "partial",
   "theorems": [
    "C71_same_bin",
    "C71_same_pair",
    "C71_mul",
    "C71_mul_exact",
    "C71_divrem_partial",
    "C71_quotient_one_refuted",
    "C71_in_place_refuted",
    "C71_in_place_always",
    "C71_udivrem_exact",
    "C71_udiv_exact",
    "C71_sdivrem_exact",
    "C71_sdiv_exact"
   ],
   "note": "False of the code in two points: UInt division allocates a copy of its divisor above 64 bits, and a quotient of one does not always avoid allocation (the _refuted theorems). The _exact theorems say for all operands of equal width which buffers are asked for."
  },
  {
   "property": "C72",
   "status": "proved",
   "theorems": [
    "C72_bin",
    "C72_pair"
   ],
   "note": "Counted in MTemp.v, whose results equal those of the other model (C71_same_bin, C71_same_pair)."
  },
  {
   "property": "C73",
   "status": "proved",
   "theorems": [
    "C73_foreign",
    "C73_no_leak",
    "C73_refused",
    "C73_canonical"
   ],
   "note": ""
  },
  {
   "property": "C74",
   "status": "proved",
   "theorems": [
    "C74_interrupted"
   ],
   "note": ""
  },
  {
   "property": "C75",
   "status": "proved",
   "theorems": [
    "C75_widths",
    "C75_width_constants",
    "C75_width_order",
    "C75_positions",
    "C75_radices"
   ],
   "note": ""
  },
  {
   "property": "C76",
   "status": "proved",
   "theorems": [
    "C76_race_free",
    "C76_isolated",
    "C76_lent",
    "C76_progress",
    "C76_join",
    "C76_dead",
    "C76_no_leak"
   ],
   "note": ""
  },
  {
   "property": "C77",
   "status": "proved",
   "theorems": [
    "C77_race_free",
    "C77_isolated",
    "C77_lent",
    "C77_progress",
    "C77_join",
    "C77_dead",
    "C77_no_leak"
   ],
   "note": ""
  },
  {
   "property": "C78",
   "status": "proved",
   "theorems": [
    "C78_unsigned",
    "C78_signed",
    "C78_width",
    "C78_limit"
   ],
   "note": ""
  },
  {
   "property": "C79",
   "status": "proved",
   "theorems": [
    "C79_race_free",
    "C79_isolated",
    "C79_lent",
    "C79_progress",
    "C79_join",
    "C79_typed_race_free",
    "C79_typed_isolated",
    "C79_typed_lent",
    "C79_typed_progress",
    "C79_typed_join"
   ],
   "note": ""
  },
  {
   "property": "C80",
   "status": "proved",
   "theorems": [
    "C80_same",
    "C80_accepted",
    "C80_logarithm",
    "C80_rejected",
    "C80_total",
    "C80_enough"
   ],
   "note": ""
  },
  {
   "property": "C81",
   "status": "partial",
   "theorems": [
    "C81_signed",
    "C81_unsigned_partial",
    "C81_unsigned_refuted",
    "C81_unsigned_exact",
    "C81_mismatch"
   ],
   "note": "False of the code for the unsigned addition unless the width is a multiple of 32: the mask for the highest digit has 64 - e bits instead of e (the _refuted theorem gives operands of every other width). The _partial theorem covers the multiples of 32, the _exact theorem says what is returned at every width. The signed addition is right at every width. Both are private to the crate and unused."
  },
  {
   "property": "C82",
   "status": "proved",
   "theorems": [
    "C82_equality",
    "C82_clone",
    "C82_hash",
    "C82_getters",
    "C82_pretty"
   ],
   "note": ""
  },
  {
   "property": "C83",
   "status": "proved",
   "theorems": [
    "C83_text",
    "C83_prefix",
    "C83_buffer",
    "C83_serialize"
   ],
   "note": ""
  },
  {
   "property": "C84",
   "status": "partial",
   "theorems": [
    "C84_create",
    "C84_random",
    "C84_cast",
    "C84_counts",
    "C84_divide",
    "C84_divide_signed",
    "C84_multiply_exact",
    "C84_multiply_refuted",
    "C84_parse",
    "C84_deserialize",
    "C84_deserialize_as",
    "C84_deserialize_refuted"
   ],
   "note": "False of the code in two places, with _refuted theorems: in debug builds multiplication panics if the numbers of binary digits of two large factors sum to M or more, on every machine (C84_multiply_exact says exactly when; release builds are right), and on machines with a usize below 64 bits deserialization takes the width modulo M, so it accepts documents whose width does not match their digits (C84_deserialize says exactly what it does). The rest is proved; C84_parse says exactly at which number of digits parsing panics. Texts of length M/2 or more are not covered."
  },
  {
   "property": "C85",
   "status": "proved",
   "theorems": [
    "C85_uniform",
    "C85_randomize",
    "C85_independent",
    "C85_uint",
    "C85_int",
    "C85_system"
   ],
   "note": ""
  },
  {
   "property": "C86",
   "status": "proved",
   "theorems": [
    "C86_same",
    "C86_race_free",
    "C86_isolated",
    "C86_lent",
    "C86_progress",
    "C86_join",
    "C86_typed_same",
    "C86_typed_race_free",
    "C86_typed_isolated",
    "C86_typed_lent",
    "C86_typed_progress",
    "C86_typed_join"
   ],
   "note": ""
  },
  {
   "property": "C87",
   "status": "proved",
   "theorems": [
    "C87_ends",
    "C87_delays_ends",
    "C87_typed_ends",
    "C87_typed_delays_ends"
   ],
   "note": ""
  },
  {
   "property": "C88",
   "status": "proved",
   "theorems": [
    "C88_no_conflict",
    "C88_writes",
    "C88_reads",
    "C88_typed_no_conflict"
   ],
   "note": ""
  },
  {
   "property": "C89",
   "status": "proved",
   "theorems": [
    "C89_same",
    "C89_joined",
    "C89_race_free",
    "C89_isolated",
    "C89_lent",
    "C89_progress",
    "C89_join",
    "C89_typed_same",
    "C89_typed_race_free",
    "C89_typed_isolated",
    "C89_typed_lent",
    "C89_typed_progress",
    "C89_typed_join"
   ],
   "note": ""
  },
  {
   "property": "C90",
   "status": "proved",
   "theorems": [
    "C90_race_free",
    "C90_accesses",
    "C90_isolated",
    "C90_lent",
    "C90_progress",
    "C90_join",
    "C90_typed_race_free",
    "C90_typed_accesses",
    "C90_typed_isolated",
    "C90_typed_lent",
    "C90_typed_progress",
    "C90_typed_join"
   ],
   "note": ""
  },
  {
   "property": "C91",
   "status": "proved",
   "theorems": [
    "C91_foreign",
    "C91_no_leak",
    "C91_range",
    "C91_interrupted"
   ],
   "note": ""
  },
  {
   "property": "C92",
   "status": "proved",
   "theorems": [
    "C92_flat",
    "C92_flat_typed",
    "C92_uncaught",
    "C92_uncaught_typed",
    "C92_no_leak",
    "C92_no_leak_typed"
   ],
   "note": ""
  },
  {
   "property": "C93",
   "status": "proved",
   "theorems": [
    "C93_race_free",
    "C93_isolated",
    "C93_lent",
    "C93_progress",
    "C93_join",
    "C93_typed_race_free",
    "C93_typed_isolated",
    "C93_typed_lent",
    "C93_typed_progress",
    "C93_typed_join"
   ],
   "note": ""
  },
  {
   "property": "C94",
   "status": "proved",
   "theorems": [
    "C94_identities",
    "C94_random",
    "C94_random_exact",
    "C94_edge",
    "C94_test",
    "C94_masked_fits"
   ],
   "note": ""
  },
  {
   "property": "C95",
   "status": "proved",
   "theorems": [
    "C95_ends",
    "C95_typed_ends",
    "C95_scratch_ends",
    "C95_typed_scratch_ends"
   ],
   "note": ""
  },
  {
   "property": "C96",
   "status": "proved",
   "theorems": [
    "C96_shift",
    "C96_linear",
    "C96_mul",
    "C96_udiv",
    "C96_sdiv"
   ],
   "note": ""
  },
  {
   "property": "C97",
   "status": "proved",
   "theorems": [
    "C97_compare",
    "C97_bits",
    "C97_bit",
    "C97_resize",
    "C97_parse",
    "C97_print"
   ],
   "note": ""
  },
  {
   "property": "C98",
   "status": "proved",
   "theorems": [
    "C98_integers",
    "C98_wrappers",
    "C98_default",
    "C98_identifies",
    "C98_fill_needed",
    "C98_errors",
    "C98_display"
   ],
   "note": ""
  },
  {
   "property": "C99",
   "status": "proved",
   "theorems": [
    "C99_compare",
    "C99_divide_by_zero",
    "C99_assign",
    "C99_convert",
    "C99_message"
   ],
   "note": ""
  },
  {
   "property": "C100",
   "status": "proved",
   "theorems": [
    "C100_read",
    "C100_fits",
    "C100_write",
    "C100_hash",
    "C100_random"
   ],
   "note": ""
  },
  {
   "property": "C101",
   "status": "proved",
   "theorems": [
    "C101_program",
    "C101_calls",
    "C101_light",
    "C101_space"
   ],
   "note": ""
  },
  {
   "property": "C102",
   "status": "proved",
   "theorems": [
    "C102_results",
    "C102_one",
    "C102_ask",
    "C102_two",
    "C102_inc",
    "C102_dec",
    "C102_neg",
    "C102_zeros",
    "C102_compare",
    "C102_sign",
    "C102_programs"
   ],
   "note": ""
  },
  {
   "property": "C103",
   "status": "proved",
   "theorems": [
    "C103_results",
    "C103_mul",
    "C103_mul_full",
    "C103_slt"
   ],
   "note": ""
  },
  {
   "property": "C104",
   "status": "proved",
   "theorems": [
    "C104_one",
    "C104_bit",
    "C104_two",
    "C104_scan",
    "C104_compare",
    "C104_shift",
    "C104_ashr",
    "C104_mul",
    "C104_mul_small",
    "C104_refused",
    "C104_assign",
    "C104_truncate",
    "C104_extend",
    "C104_resize",
    "C104_convert"
   ],
   "note": ""
  },
  {
   "property": "C105",
   "status": "proved",
   "theorems": [
    "C105_results",
    "C105_short",
    "C105_reveals",
    "C105_long_refuted",
    "C105_signed_reveals",
    "C105_signed_small"
   ],
   "note": ""
  },
  {
   "property": "C106",
   "status": "proved",
   "theorems": [
    "C106_one_operand",
    "C106_two_operands",
    "C106_casts",
    "C106_questions",
    "C106_divisions",
    "C106_both_operands"
   ],
   "note": ""
  },
  {
   "property": "C107",
   "status": "proved",
   "theorems": [
    "C107_unsigned",
    "C107_signed",
    "C107_counted"
   ],
   "note": ""
  }
 ]
}