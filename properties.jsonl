{"id": "C01", "title": "Addition wraps modulo 2^w", "statement": "Adding two integers of the same width w with wrapping_add (assigning or consuming form) never panics and yields a value of width w whose unsigned value is (a + b) mod 2^w, and whose signed value is the two's complement wrap of the signed sum.", "quantifier": "all widths w >= 1 and all pairs of values of width w", "why_tests_cant": "Carries can ripple through any number of 64-bit digits and the excess bits of the top digit must be cleared for every width; the input space is infinite.", "anchors": ["src/apint/arithmetic.rs: wrapping_add_assign, into_wrapping_add", "src/apint/utils.rs: clear_unused_bits"]}
{"id": "C02", "title": "Subtraction wraps modulo 2^w", "statement": "Subtracting with wrapping_sub (assigning or consuming form) never panics and yields a value of width w whose unsigned value is (a - b) mod 2^w.", "quantifier": "all widths w >= 1 and all pairs of values of width w", "why_tests_cant": "Borrow propagation over arbitrarily many digits and all widths cannot be enumerated.", "anchors": ["src/apint/arithmetic.rs: wrapping_sub_assign, into_wrapping_sub"]}
{"id": "C03", "title": "Increment, decrement and negation wrap modulo 2^w", "statement": "wrapping_inc, wrapping_dec and wrapping_neg never panic, keep the width and yield (a+1), (a-1) and (-a) modulo 2^w respectively.", "quantifier": "every bit width (no upper bound) and every bit pattern of that width", "why_tests_cant": "The early-exit carry loops have a different trace for each position of the first non-saturated digit.", "anchors": ["src/apint/arithmetic.rs: wrapping_inc, wrapping_dec, wrapping_neg, into_wrapping_inc, into_wrapping_dec, into_wrapping_neg"]}
{"id": "C04", "title": "Multiplication wraps modulo 2^w", "statement": "wrapping_mul (assigning or consuming form) on equal widths never panics, never indexes out of bounds and yields (a * b) mod 2^w at width w, whichever of its special-case branches the operands select.", "quantifier": "all widths w >= 1 and all pairs of values of width w", "why_tests_cant": "The implementation chooses among several algorithms by the significant digit counts of the operands; tests cover a handful of shapes, the product space of shapes and values is unbounded.", "anchors": ["src/apint/arithmetic.rs: wrapping_mul_assign, into_wrapping_mul"]}
{"id": "C05", "title": "Unsigned division computes the Euclidean quotient and remainder", "statement": "For equal widths and a nonzero divisor, unsigned divrem, remdiv, div and rem terminate, do not panic, and give floor(a/b) and a mod b at width w in the documented operand positions.", "quantifier": "all widths w >= 1, all dividends and all nonzero divisors of width w", "why_tests_cant": "The multi-digit algorithm iterates quotient approximations with correction steps; the failure cases of such algorithms are famously rare, and termination is not testable.", "anchors": ["src/apint/arithmetic.rs: aarons_algorithm_divrem, aarons_algorithm_remdiv, wrapping_udivrem_assign, wrapping_uremdiv_assign, wrapping_udiv_assign, wrapping_urem_assign, into_wrapping_udiv, into_wrapping_urem"]}
{"id": "C06", "title": "Signed division truncates toward zero", "statement": "For equal widths and a nonzero divisor, signed divrem, remdiv, div and rem do not panic and give the quotient truncated toward zero (wrapped to w bits, so min / -1 = min) and the remainder with the sign of the dividend.", "quantifier": "all widths w >= 1, all dividends and all nonzero divisors of width w", "why_tests_cant": "Sign combinations multiply the branches of the unsigned algorithm, and the overflow case exists at every width.", "anchors": ["src/apint/arithmetic.rs: wrapping_sdivrem_assign, wrapping_sremdiv_assign, wrapping_sdiv_assign, wrapping_srem_assign, into_wrapping_sdiv, into_wrapping_srem"]}
{"id": "C07", "title": "Division by zero is reported, never computed", "statement": "Every division or remainder by zero at equal widths returns the division-by-zero error naming the operation and carrying the dividend, and leaves both operands as they were.", "quantifier": "all eight division operations, all widths, all dividends", "why_tests_cant": "Quantifies over all dividends and over what must not change.", "anchors": ["src/apint/arithmetic.rs: wrapping_udivrem_assign .. wrapping_srem_assign", "src/errors.rs: DivisionByZero, DivOp"]}
{"id": "C08", "title": "Width mismatch is an error and changes nothing", "statement": "Every binary operation that requires equal widths (add, sub, mul, unsigned division family, and/or/xor, strict_assign, all eight comparisons) returns the unmatching-bit-width error naming both widths when widths differ and leaves the operands untouched.", "quantifier": "all such operations and all pairs of operands of differing widths", "why_tests_cant": "A frame condition over all values of all differing widths.", "anchors": ["src/apint/utils.rs: zip_access_data, zip_access_data_mut_self, zip_access_data_mut_both", "src/apint/casting.rs: strict_assign"]}
{"id": "C09", "title": "Signed division reports width mismatch as an error", "statement": "As documented, the signed division operations return an error when the operand widths differ.", "quantifier": "all signed division operations, all operand pairs of differing widths", "why_tests_cant": "The claim is about every mismatched pair, including those whose divisor is zero. (The model shows that the code panics, or reports division by zero, instead.)", "anchors": ["src/apint/arithmetic.rs: wrapping_sdivrem_assign, wrapping_sremdiv_assign, wrapping_sdiv_assign, wrapping_srem_assign"]}
{"id": "C10", "title": "Unsigned comparisons are the integer order", "statement": "checked_ult/ule/ugt/uge on equal widths return exactly <, <=, >, >= of the unsigned values.", "quantifier": "all widths and all pairs of values", "why_tests_cant": "Digit-wise lexicographic comparison must be right for every digit count.", "anchors": ["src/apint/relational.rs: checked_ult, checked_ule, checked_ugt, checked_uge"]}
{"id": "C11", "title": "Signed comparisons are the two's complement order", "statement": "checked_slt/sle/sgt/sge on equal widths return exactly <, <=, >, >= of the signed values.", "quantifier": "all widths and all pairs of values", "why_tests_cant": "Different code paths for small and large widths and for each sign combination.", "anchors": ["src/apint/relational.rs: checked_slt, checked_sle, checked_sgt, checked_sge"]}
{"id": "C12", "title": "Equality and hashing see exactly width and value", "statement": "Two integers are == iff they have the same width and the same unsigned value, independently of how they were computed; equal integers feed identical data to any hasher.", "quantifier": "all pairs of integers obtainable by any history of API calls", "why_tests_cant": "Equality is on raw digits, so it is only right if every operation that can ever be applied leaves the unused bits of the top digit zero.", "anchors": ["src/apint/relational.rs: PartialEq::eq", "src/apint/utils.rs: Hash, clear_unused_bits"]}
{"id": "C13", "title": "Every API history preserves the canonical representation", "statement": "After any finite sequence of public constructor and mutator calls on any number of integers, every integer has exactly ceil(w/64) digits and all bits at positions >= w of the top digit are zero, also after calls that returned an error.", "quantifier": "all finite sequences of API calls with all arguments", "why_tests_cant": "An invariant over unbounded histories.", "anchors": ["src/apint/constructors.rs", "src/apint/casting.rs", "src/apint/bitwise.rs", "src/apint/shift.rs", "src/apint/arithmetic.rs", "src/apint/utils.rs: clear_unused_bits"]}
{"id": "C14", "title": "Bitwise operations act bit by bit", "statement": "bitnot, bitand, bitor and bitxor never panic at equal widths, keep the width and their result at each position p < w is the Boolean function of the operand bits at p.", "quantifier": "all widths, all values, all bit positions", "why_tests_cant": "Needs to hold for each of unboundedly many positions.", "anchors": ["src/apint/bitwise.rs: bitnot, bitand_assign, bitor_assign, bitxor_assign and into_ forms"]}
{"id": "C15", "title": "Single-bit access reads and writes exactly one bit", "statement": "get_bit_at(p) returns bit p; set, unset and flip at p change bit p as named and no other bit; for p >= w all of them return the invalid-bit-access error with position and width and change nothing.", "quantifier": "all widths, values and positions, in and out of range", "why_tests_cant": "Frame condition over all other positions.", "anchors": ["src/apint/bitwise.rs: get_bit_at, set_bit_at, unset_bit_at, flip_bit_at", "src/checks.rs: verify_bit_access"]}
{"id": "C16", "title": "Whole-value and sign-bit updates", "statement": "set_all, unset_all, flip_all yield all-ones, zero and the complement; set_msb, unset_msb and flip_msb change exactly bit w-1; msb, lsb, is_even, is_odd, is_zero and is_all_unset answer exactly about the value.", "quantifier": "every bit width (no upper bound) and every bit pattern of that width", "why_tests_cant": "All widths, including those whose top digit is partial.", "anchors": ["src/apint/bitwise.rs: set_all, unset_all, flip_all, set_msb, unset_msb, flip_msb, is_all_unset", "src/apint/utils.rs: msb, lsb, is_zero, is_even, is_odd"]}
{"id": "C17", "title": "Bit counting is exact", "statement": "count_ones + count_zeros = w with count_ones the number of one bits; leading_zeros is w minus the bit length; trailing_zeros is the index of the lowest one bit, or w for zero; no arithmetic underflow happens.", "quantifier": "every bit width (no upper bound) and every bit pattern of that width", "why_tests_cant": "Corrections for unused bits must be right for every width modulo 64 and every value.", "anchors": ["src/apint/bitwise.rs: count_ones, count_zeros, leading_zeros, trailing_zeros"]}
{"id": "C18", "title": "is_one and is_all_set characterise the values 1 and 2^w-1", "statement": "is_one returns true exactly for the value 1 and is_all_set exactly for 2^w - 1.", "quantifier": "every bit width (no upper bound) and every bit pattern of that width", "why_tests_cant": "Must hold for each width; the model shows both are false of the code for infinitely many widths.", "anchors": ["src/apint/utils.rs: is_one", "src/apint/bitwise.rs: is_all_set", "src/uint.rs: is_one", "src/int.rs: is_one"]}
{"id": "C19", "title": "Left shift multiplies by a power of two modulo 2^w", "statement": "For s < w, wrapping_shl yields (a * 2^s) mod 2^w at width w without panicking.", "quantifier": "all widths, values and shift amounts below the width", "why_tests_cant": "Combination of digit moves and bit carries over all digit counts.", "anchors": ["src/apint/shift.rs: wrapping_shl_assign, into_wrapping_shl"]}
{"id": "C20", "title": "Logical right shift divides by a power of two", "statement": "For s < w, wrapping_lshr yields floor(unsigned a / 2^s) at width w without panicking.", "quantifier": "all widths, values and shift amounts below the width", "why_tests_cant": "Combination of digit moves and bit borrows over all digit counts.", "anchors": ["src/apint/shift.rs: wrapping_lshr_assign, into_wrapping_lshr"]}
{"id": "C21", "title": "Arithmetic right shift is floor division of the signed value", "statement": "For s < w, wrapping_ashr yields a value whose signed interpretation is floor(signed a / 2^s), without panicking.", "quantifier": "all widths, values and shift amounts below the width", "why_tests_cant": "Four code paths by sign, digit steps and bit steps, with sign fill across digit boundaries.", "anchors": ["src/apint/shift.rs: wrapping_ashr_assign, into_wrapping_ashr"]}
{"id": "C22", "title": "Invalid shift amounts are rejected without effect", "statement": "For s >= w every shift returns the invalid-shift-amount error with amount and width and leaves the value unchanged.", "quantifier": "all widths, values and out-of-range shift amounts", "why_tests_cant": "Frame condition over all values.", "anchors": ["src/apint/shift.rs", "src/checks.rs: verify_shift_amount"]}
{"id": "C23", "title": "Truncation keeps the low bits", "statement": "truncate to t <= w yields width t and value (unsigned a) mod 2^t; t > w is an error and changes nothing.", "quantifier": "all source and target widths and all values", "why_tests_cant": "In-place and reallocating paths, and a recursive call, for all pairs of widths.", "anchors": ["src/apint/casting.rs: truncate, into_truncate"]}
{"id": "C24", "title": "Zero extension preserves the unsigned value", "statement": "zero_extend to t >= w yields width t and the same unsigned value; t < w is an error and changes nothing.", "quantifier": "all source and target widths and all values", "why_tests_cant": "In-place and reallocating paths for all pairs of widths.", "anchors": ["src/apint/casting.rs: zero_extend, into_zero_extend"]}
{"id": "C25", "title": "Sign extension preserves the signed value", "statement": "sign_extend to t >= w yields width t and the same signed value; t < w is an error and changes nothing.", "quantifier": "all source and target widths and all values", "why_tests_cant": "In-place and reallocating paths for all pairs of widths and both signs.", "anchors": ["src/apint/casting.rs: sign_extend, into_sign_extend", "src/digit.rs: sign_extend_from"]}
{"id": "C26", "title": "Resize never fails and extends after truncation round-trips", "statement": "zero_resize and sign_resize never fail or panic and equal truncation or the matching extension; extending and truncating back gives the original integer.", "quantifier": "all source and target widths and all values", "why_tests_cant": "Composition over all pairs of widths.", "anchors": ["src/apint/casting.rs: zero_resize, sign_resize, into_zero_resize, into_sign_resize"]}
{"id": "C27", "title": "Assignment and cloning copy width and value", "statement": "assign makes self equal to rhs for any widths; strict_assign does so only for equal widths and otherwise errors without effect; clone equals the original.", "quantifier": "all pairs of integers", "why_tests_cant": "All four storage combinations (inline/heap, equal/different digit counts).", "anchors": ["src/apint/casting.rs: Clone, assign, strict_assign"]}
{"id": "C28", "title": "Constructors denote their arguments", "statement": "from_bool, from_uN/from_iN and From produce the width of the primitive type and its value (two's complement for signed types); From arrays of n 64-bit words produce width 64n with the first word most significant.", "quantifier": "all values of each primitive type and all word arrays of the provided lengths", "why_tests_cant": "2^64 and larger input spaces.", "anchors": ["src/apint/constructors.rs: from_bool .. from_u128, From impls"]}
{"id": "C29", "title": "Named constants", "statement": "zero, one, all_set, all_unset, unsigned_min/max_value, signed_min/max_value of width w have values 0, 1, 2^w-1, 0, 0, 2^w-1, -2^(w-1), 2^(w-1)-1 for every width, and signed extremes bound every signed value.", "quantifier": "all widths w >= 1", "why_tests_cant": "Unboundedly many widths with inline and heap storage.", "anchors": ["src/apint/constructors.rs: zero, one, all_unset, all_set, unsigned_min_value, unsigned_max_value, signed_min_value, signed_max_value"]}
{"id": "C30", "title": "Unsigned conversion to primitives is exact or fails", "statement": "try_to_bool/u8/u16/u32/u64/u128 return Ok(v) iff the unsigned value fits the type, with v equal to it; otherwise the unrepresentable-value error carrying the value and the type.", "quantifier": "every bit width (no upper bound) and every bit pattern of that width, for every primitive target", "why_tests_cant": "All widths, in particular above the primitive width.", "anchors": ["src/apint/to_primitive.rs: try_cast_to_primitive_ty, try_to_bool, try_to_u8 .. try_to_u128"]}
{"id": "C31", "title": "Signed conversion to primitives is exact or fails", "statement": "try_to_i8..i128 return Ok(v) only when v is the signed value of the integer. (The model shows exactly when this holds and that it fails for widths above the primitive width.)", "quantifier": "every bit width (no upper bound) and every bit pattern of that width, for every signed primitive target", "why_tests_cant": "All widths and values.", "anchors": ["src/apint/to_primitive.rs: try_to_i8 .. try_to_i128"]}
{"id": "C32", "title": "Lossy conversion to primitives", "statement": "resize_to_uN returns the unsigned value mod 2^N; resize_to_iN returns the signed value wrapped to N bits two's complement; resize_to_bool returns the lowest bit; none panics.", "quantifier": "every bit width (no upper bound) and every bit pattern of that width, for every primitive target", "why_tests_cant": "All widths below, at and above the primitive width.", "anchors": ["src/apint/to_primitive.rs: resize_to_primitive_ty, resize_to_bool .. resize_to_u128"]}
{"id": "C33", "title": "Parsing power-of-two radices", "statement": "For radix 2, 4, 8, 16, 32 a non-empty string over the radix alphabet with inner underscores parses, without panic, to the integer it denotes, at the smallest multiple of 64 bits that holds all its characters.", "quantifier": "all strings of any length over the alphabet", "why_tests_cant": "Unbounded string lengths; radix 8 and 32 straddle digit boundaries.", "anchors": ["src/apint/serialization.rs: from_str_radix, from_bitwise_digits, from_inexact_bitwise_digits"]}
{"id": "C34", "title": "Parsing other radices", "statement": "For every radix from 2 to 36, a valid string parses to the integer it denotes. (Proved for strings fitting one chunk; refuted beyond for non-power-of-two radices.)", "quantifier": "all radices and all valid strings", "why_tests_cant": "Unbounded string lengths, 35 radices.", "anchors": ["src/apint/serialization.rs: from_radix_digits", "src/radix.rs: get_radix_base"]}
{"id": "C35", "title": "Parsing rejects malformed input", "statement": "The parse succeeds iff the string is non-empty, neither starts nor ends with an underscore, and every other character is an underscore or an alphanumeric below the radix; otherwise the invalid-string error is returned.", "quantifier": "all byte strings and all radices", "why_tests_cant": "Decision over all strings.", "anchors": ["src/apint/serialization.rs: from_str_radix", "src/radix.rs: Radix::new, is_valid_byte"]}
{"id": "C36", "title": "Formatting and parsing are inverse", "statement": "Binary, lower-hex and upper-hex formatting of any value is the canonical numeral without leading zeros, and parsing it in the same radix returns the same unsigned value.", "quantifier": "every bit width (no upper bound) and every bit pattern of that width", "why_tests_cant": "Round-trip over all values of all widths.", "anchors": ["src/apint/serialization.rs: fmt::Binary, fmt::LowerHex, fmt::UpperHex, from_str_radix"]}
{"id": "C37", "title": "Every formatting entry point is total", "statement": "Octal formatting and to_string_radix return a numeral for every value. (The model shows they panic.)", "quantifier": "every bit width (no upper bound) and every bit pattern of that width", "why_tests_cant": "Quantifies over all values.", "anchors": ["src/apint/serialization.rs: fmt::Octal, to_string_radix"]}
{"id": "C38", "title": "Serialization round-trips", "statement": "Deserializing the compact or the human-readable serialization of any integer gives back an equal integer.", "quantifier": "every bit width (no upper bound) and every bit pattern of that width, both formats", "why_tests_cant": "All values, both encodings.", "anchors": ["src/apint/serde_impl.rs: Serialize, Deserialize for ApInt, BitWidth, Digit"]}
{"id": "C39", "title": "Deserialization accepts only consistent data and yields canonical integers", "statement": "Any successful deserialization produces a canonical integer of the stated width whose value is the digits truncated to it; zero widths, wrong digit counts, missing, duplicate and unknown fields are errors; it never panics on hostile input. (No-panic is refuted for a compact sequence with no elements.)", "quantifier": "all data trees presented to the deserializer", "why_tests_cant": "Hostile input space.", "anchors": ["src/apint/serde_impl.rs: HumanReadableApIntVisitor::visit_map, CompactApIntVisitor::visit_seq"]}
{"id": "C40", "title": "Random generation is determined by the generator and stays in range", "statement": "random_with_width_using(w) yields a value of width w equal to the drawn words truncated to w bits, consuming exactly ceil(w/64) words; randomize_using gives the same value for the same generator state; every value of width w is attainable.", "quantifier": "all widths and all generator streams", "why_tests_cant": "All streams and all widths.", "anchors": ["src/apint/rand_impl.rs: random_with_width_using, randomize_using"]}
{"id": "C41", "title": "UInt is the unsigned view", "statement": "Every UInt operation returns the mathematical unsigned result at its width, with the errors of the ApInt operations on bad arguments: wrapping arithmetic, Euclidean div/rem, comparisons, shl, shr as floor division, truncate/extend/resize by zeros, bitwise operations, bit access, tests and counts, conversions to and from primitives, constants, equality and hashing, formatting. (The predicates is_one and is_all_set belong to C18.)", "quantifier": "all UInt operations and arguments", "why_tests_cant": "All values.", "anchors": ["src/uint.rs"]}
{"id": "C42", "title": "Int is the signed view", "statement": "Every Int operation returns the mathematical signed result at its width, with the errors of the ApInt operations on bad arguments: wrapping arithmetic, div/rem truncating toward zero, comparisons, shl, shr as floor division, extend/resize by sign, bitwise operations, bit access, tests and counts, abs wrapping only at the minimum, signum, is_positive (zero or greater), is_negative, conversions to and from primitives, min/max values and one (absent at width 1). (is_one and is_all_set belong to C18, try_to_iN to C31, division at differing widths to C09.)", "quantifier": "all Int operations and arguments", "why_tests_cant": "All values.", "anchors": ["src/int.rs"]}
{"id": "C43", "title": "Partial order laws of UInt and Int", "statement": "partial_cmp is None iff widths differ, Equal iff ==, and otherwise the numeric order; <, <=, >, >= agree with partial_cmp and are all false on differing widths; hence antisymmetry and transitivity.", "quantifier": "all triples of values of all widths", "why_tests_cant": "Laws over all triples.", "anchors": ["src/uint.rs: PartialOrd", "src/int.rs: PartialOrd"]}
{"id": "C44", "title": "Operator traits equal the wrapping methods", "statement": "The operators !, -, <<, >>, &, |, ^, +, -, *, /, % and their assigning forms equal the wrapping methods when these succeed, and panic exactly when these return an error.", "quantifier": "all operators and operands", "why_tests_cant": "All operands.", "anchors": ["src/std_ops.rs"]}
{"id": "C45", "title": "The API simulates integers modulo 2^w over every history", "statement": "Any program of public calls over any number of integers gives, step for step, the same results, errors and widths as an abstract machine whose integers are pairs (width, integer in [0,2^width)).", "quantifier": "all finite programs over all registers and arguments", "why_tests_cant": "Refinement over unbounded histories.", "anchors": ["src/apint/*"]}
{"id": "C46", "title": "Storage ownership", "statement": "In every history of construction, clone, assign, resize, in-place arithmetic and drop, every heap buffer is owned by exactly one live integer, has exactly the needed number of digits, is never accessed after being freed and is freed exactly once.", "quantifier": "all finite histories of storage-affecting operations", "why_tests_cant": "Aliasing and double free depend on histories and on the storage class at each step.", "anchors": ["src/apint/constructors.rs: drop_digits, Drop, new_inl, new_ext, from_iter", "src/apint/casting.rs: Clone, assign, truncate, zero_extend, sign_extend"]}
{"id": "C47", "title": "Ring and lattice laws at the API", "statement": "With equal widths: + and * are commutative, associative, distribute, have units and a - b = a + (-b); &,|,^ and ! satisfy the Boolean algebra laws including De Morgan; results compared with ==.", "quantifier": "all triples of values of all widths", "why_tests_cant": "Universally quantified equations.", "anchors": ["src/apint/arithmetic.rs", "src/apint/bitwise.rs"]}
{"id": "C48", "title": "Division identities at the API", "statement": "q * b + r == a for the quotient and remainder returned by the unsigned and by the signed operations, with r below b in magnitude; divrem, remdiv, div and rem agree with each other.", "quantifier": "all widths, dividends, nonzero divisors", "why_tests_cant": "Universally quantified equations.", "anchors": ["src/apint/arithmetic.rs"]}
{"id": "C49", "title": "Shift, multiply and resize identities", "statement": "shl by s equals multiplication by 2^s, shl then lshr clears the top s bits, lshr equals unsigned division by 2^s, and shifts compose additively while the total stays below the width.", "quantifier": "all widths, values, shift amounts", "why_tests_cant": "Universally quantified equations relating different algorithms.", "anchors": ["src/apint/shift.rs", "src/apint/arithmetic.rs"]}
{"id": "C50", "title": "Bit width arithmetic", "statement": "BitWidth::new accepts exactly the positive widths; the number of digits is ceil(w/64), the excess bits are w mod 64 (none when divisible) and inline storage is used iff w <= 64; a bit position p addresses digit p/64, bit p mod 64.", "quantifier": "all widths and positions", "why_tests_cant": "All widths.", "anchors": ["src/bitwidth.rs", "src/storage.rs", "src/bitpos.rs"]}
{"id": "C51", "title": "Integers can be shared between threads", "statement": "Threads that get integers moved to them and may read integers that are lent to all of them never race: at no moment are two of them about to use the same buffer while one of them writes or frees it, and nothing undefined happens. A thread that returns or panics does so as it would alone on the values it was given, what is lent keeps its value, no thread waits for another, and after all have returned every buffer still allocated has exactly one owner.", "quantifier": "all preparing programs, all ways to lend and move variables, all numbers of threads and their programs of public calls, all schedules and prefixes of them", "why_tests_cant": "The claim behind the unsafe impl Send and Sync; it is about every interleaving of every set of programs.", "anchors": ["src/apint/mod.rs (unsafe impl Send for ApInt, unsafe impl Sync for ApInt)", "src/apint/constructors.rs (clone, drop)", "src/apint/utils.rs", "src/apint/casting.rs"]}
{"id": "C52", "title": "Only integers of more than 64 bits use the heap", "statement": "As the README promises, a program that at no time holds an integer of more than 64 bits never causes storage for an integer to be allocated, whichever operations it calls and whether they succeed or fail.", "quantifier": "all programs of public calls whose integers have at most 64 bits at every moment, all over-allocation policies of the small vector", "why_tests_cant": "Absence of allocation over every history of calls, including the failing ones.", "anchors": ["README.md (small-value optimization)", "src/storage.rs (Storage::from)", "src/apint/constructors.rs (new_inl, from_iter)", "src/apint/casting.rs"]}
{"id": "C53", "title": "Operations documented as in place do not allocate or move", "statement": "The operations documented as working in place (negation, increment, decrement, addition, subtraction, bitwise operations, shifts, single-bit and whole-value updates, and Int division) allocate no buffer and leave the digits of every integer where they are. (Refuted for signed division, which copies its divisor.)", "quantifier": "all widths, all values, all programs before the call", "why_tests_cant": "Must hold at every width and after every history; results do not show allocations.", "anchors": ["src/apint/arithmetic.rs (doc comments 22, 596)", "src/apint/shift.rs", "src/apint/bitwise.rs", "src/int.rs (into_wrapping_div, wrapping_div_assign, into_wrapping_rem, wrapping_rem_assign)"]}
{"id": "C54", "title": "Truncation commutes with arithmetic", "statement": "Truncating the result of +, -, *, &, |, ^, unary minus, ! or shl to t bits gives the integer obtained by truncating the operands to t bits first; truncating in steps is truncating at once.", "quantifier": "all widths w >= t >= 1, all operand values, all shift amounts below t", "why_tests_cant": "Relates runs at two unbounded widths that take different storage and digit-count paths.", "anchors": ["src/apint/casting.rs (truncate, into_truncate)", "src/apint/arithmetic.rs", "src/apint/bitwise.rs", "src/apint/shift.rs"]}
{"id": "C55", "title": "Arithmetic is exact after widening", "statement": "After zero or sign extension by one bit, addition and subtraction (and signed negation) give the exact mathematical result; after doubling the width multiplication is exact; after adding s bits shl by s is exact.", "quantifier": "all widths w and target widths n with n > w (n >= 2w for products, n >= w+s for shifts), all values", "why_tests_cant": "Exactness for every pair of values at every pair of widths, across the inline/heap boundary.", "anchors": ["src/apint/casting.rs (zero_extend, sign_extend)", "src/apint/arithmetic.rs", "src/apint/shift.rs"]}
{"id": "C56", "title": "Extension commutes with bitwise operations, shifts and division", "statement": "Zero extension before or after &, |, ^, lshr, unsigned division and remainder gives the same integer and preserves the unsigned order; sign extension before or after &, |, ^, !, ashr gives the same integer and preserves the signed and the unsigned order; extending in steps is extending at once.", "quantifier": "all widths w <= n, all operand values, all shift amounts below w", "why_tests_cant": "Relates runs at two unbounded widths.", "anchors": ["src/apint/casting.rs (zero_extend, sign_extend)", "src/apint/bitwise.rs", "src/apint/relational.rs", "src/apint/arithmetic.rs"]}
{"id": "C57", "title": "Overflow tests and comparison by subtraction", "statement": "The customary idioms are right: a wrapped unsigned sum is below an operand iff it carried; a wrapped difference is above the minuend iff it borrowed; the sign bits reveal signed overflow of + and -; a non-zero integer equals its negation iff it is the signed minimum; signed order is unsigned order after flipping sign bits; the sign of a widened difference is the order; a zero difference or xor is equality.", "quantifier": "all widths, all pairs of values of equal width", "why_tests_cant": "Combines several calls, each of which must be right at every width, including the sign bit in the top partial digit.", "anchors": ["src/apint/arithmetic.rs", "src/apint/relational.rs", "src/apint/utils.rs (msb, is_zero)", "src/apint/bitwise.rs (flip_msb)"]}
{"id": "C58", "title": "Catching a panic is safe", "statement": "A program that catches the panics of any calls and goes on has no undefined behaviour: every surviving variable is a canonical integer with the value the machine says, each heap buffer is owned by exactly one variable, and dropping all variables frees everything. Without panics it behaves as if nothing were caught.", "quantifier": "all programs of public calls with all panics caught, all widths and values, all crash points inside calls that panic, all overallocation policies", "why_tests_cant": "The panic can come at any point of any history, and a leak or a double free after unwinding is not visible in results.", "anchors": ["src/apint/arithmetic.rs (wrapping_sdiv_assign, wrapping_srem_assign, wrapping_sdivrem_assign, wrapping_sremdiv_assign)", "src/utils.rs (try_forward_bin_mut_impl)", "src/apint/constructors.rs (Drop)", "src/radix.rs (From<u8>)"]}
{"id": "C59", "title": "A call that panics leaves its operands unchanged", "statement": "When a call on borrowed operands panics, every variable has the value it had before the call.", "quantifier": "all histories with caught panics, all panicking calls, all variables", "why_tests_cant": "Must hold for every operand and every history before the call.", "anchors": ["src/apint/arithmetic.rs (wrapping_sdiv_assign, wrapping_srem_assign, wrapping_sdivrem_assign, wrapping_sremdiv_assign)"]}
{"id": "C60", "title": "Debug output identifies the integer", "statement": "Debug text (one-line and multi-line form) of ApInt, UInt and Int shows the width and the 64-bit words in decimal, least significant first, and two integers have the same text exactly when width and value agree.", "quantifier": "all widths, all values, all pairs of integers, all three types, both forms", "why_tests_cant": "Injectivity ranges over all pairs of values of all widths.", "anchors": ["src/apint/utils.rs (impl Debug for ApInt)", "src/uint.rs (derive Debug)", "src/int.rs (derive Debug)", "src/bitwidth.rs", "src/digit.rs"]}
{"id": "C61", "title": "Errors tell what went wrong", "statement": "The message of an error determines its kind and payload (for a rejected string: the radix). Failed comparisons, resizings and assignments name the operation, both operands in call order or both widths, and leave the integer unchanged; a rejected string gets the text for its defect, naming the first unacceptable byte and its position. The texts never change results.", "quantifier": "all error kinds and payloads, all operands, widths, radices and strings", "why_tests_cant": "Ranges over all payloads and over all input strings; comparisons are computed by swapping operands.", "anchors": ["src/errors.rs", "src/apint/relational.rs (map_err)", "src/apint/casting.rs (with_annotation)", "src/apint/serialization.rs (from_str_radix)"]}
{"id": "C62", "title": "Errors carry the documented details", "statement": "The annotation of a failed comparison gives the short name of that comparison, and the kind of the error for an invalid character carries its index and the character.", "quantifier": "all comparisons and operands, all rejected strings", "why_tests_cant": "Ranges over all calls that fail and all rejected strings.", "anchors": ["src/apint/relational.rs (map_err)", "src/errors.rs (invalid_char_in_string_repr, ErrorKind::InvalidStringRepr)"]}
{"id": "C63", "title": "Formatting honours the format specification", "statement": "Binary and hexadecimal formatting with '#', '+', '0', width, fill and alignment prints what Rust's own integers print for the same value.", "quantifier": "all values and widths, all combinations of formatter options", "why_tests_cant": "Ranges over all values and all combinations of options and field widths.", "anchors": ["src/apint/serialization.rs (Binary, LowerHex, UpperHex)", "src/uint.rs (fmt)", "src/int.rs (fmt)"]}
{"id": "C64", "title": "Programs on UInt and Int compute with mathematical integers", "statement": "Every program of calls on variables of type UInt and Int (constructors, methods in place and consuming, operators, comparisons, conversions between the types, queries) shows what a machine shows that keeps for each variable a type, a width and one mathematical integer in the range of that type; it panics exactly where that machine panics, and variables that hold equal integers are equal in memory whatever their history.", "quantifier": "all programs of any length over any number of variables, all arguments, widths and values", "why_tests_cant": "Ranges over all sequences of calls; a defect may need one particular history, for instance dirty unused bits left by one call and read by a later one.", "anchors": ["src/uint.rs", "src/int.rs", "src/std_ops.rs"]}
{"id": "C65", "title": "Printed errors are complete and on one line", "statement": "An error printed with {} shows its kind with everything it carries, its message and its annotation, in one line of visible characters; two errors that print the same are the same.", "quantifier": "all errors, of all kinds, with all payloads, messages and annotations, including those quoting arbitrary rejected input", "why_tests_cant": "Ranges over all errors; that no two print the same and that no input breaks the line or closes a quote early must hold for every input string.", "anchors": ["src/errors.rs (Error, ErrorKind, Display)"]}
{"id": "C66", "title": "Printed errors show message and annotation as written", "statement": "An error printed with {} contains the text of its message and of its annotation.", "quantifier": "all errors returned by any call", "why_tests_cant": "Ranges over all failing calls and all rejected strings.", "anchors": ["src/errors.rs (Display, with_annotation)", "src/apint/relational.rs (map_err)"]}
{"id": "C67", "title": "Debug and release builds behave the same", "statement": "No sequence of public calls with well-typed arguments makes an overflow check of primitive arithmetic or a debug assertion fail, so a program that runs in a debug build gives the same results, errors and panics in a release build and the other way round.", "quantifier": "all programs of calls on ApInt, UInt and Int of any length, all arguments; all operators, deserialized data and random generators", "why_tests_cant": "Tests run in one build mode; a release build silently goes on with a wrapped number where a debug build would have panicked, so only the absence of the panic for all inputs settles it.", "anchors": ["src/apint/serialization.rs (debug_assert!)", "src/apint/to_primitive.rs (debug_assert_ne!)", "src/apint/shift.rs", "src/apint/arithmetic.rs", "src/digit.rs"]}
{"id": "C68", "title": "Storage ownership of UInt and Int", "statement": "A program of calls on UInt and Int, methods and operators, never accesses freed memory, never frees twice and never touches memory beyond a buffer. It shows the results of integer arithmetic; every variable's digits are those of its integer, inline up to 64 bits and above in a heap buffer of exactly the needed size; every buffer is owned by exactly one variable; and after dropping all variables nothing stays allocated.", "quantifier": "all finite programs of calls on UInt and Int and all amounts of overallocation", "why_tests_cant": "Aliasing, leaks and double frees depend on histories, on the storage class at each step and on which calls fail.", "anchors": ["src/uint.rs: UInt", "src/int.rs: Int", "src/std_ops.rs", "src/utils.rs: forward_mut_impl, try_forward_bin_mut_impl", "src/apint/constructors.rs: Drop"]}
{"id": "C69", "title": "A caught panic of a call on UInt or Int leaves memory in order", "statement": "A program on UInt and Int that catches every panic (of the operators, of signed divisions, of octal output) and goes on using its variables never accesses freed memory and never frees twice. Every variable keeps its type and holds an integer of that type in a buffer of exactly the needed size that it alone owns, later calls give the results of integer arithmetic, and after dropping all variables nothing stays allocated.", "quantifier": "all finite programs of calls on UInt and Int, each panic caught, and all amounts of overallocation", "why_tests_cant": "Whether unwinding frees every local once, and what it leaves in an operand behind &mut, depends on the call, the widths, the storage class and all that happened before.", "anchors": ["src/std_ops.rs", "src/int.rs: wrapping_div_assign, wrapping_rem_assign", "src/utils.rs: try_forward_bin_mut_impl", "src/apint/arithmetic.rs: wrapping_sdiv_assign", "src/apint/constructors.rs: Drop"]}
{"id": "C70", "title": "An operator on UInt or Int that panics leaves its operand unchanged", "statement": "When an operator in place (such as x += &y or x /= &y) on UInt or Int panics and the panic is caught, x has the value it had before.", "quantifier": "all finite programs, all operators, values and widths", "why_tests_cant": "It depends on how far each implementation got before it panicked; the panic is seldom caught in tests.", "anchors": ["src/std_ops.rs", "src/int.rs: wrapping_div_assign, wrapping_rem_assign", "src/apint/arithmetic.rs: wrapping_sdiv_assign, wrapping_srem_assign"]}
{"id": "C71", "title": "Multiplication and division allocate only where the documentation says so", "statement": "Multiplication where a factor is zero or fits one digit allocates nothing. Division where the dividend is zero or fits one digit, where the divisor fits one digit, or where the quotient is zero or one, allocates nothing. Division and remainder of UInt allocate nothing at all. In the other cases the buffers asked for depend only on the width and the numbers of significant bits, except that a long division of operands 64 or more bits apart may or may not need a second buffer.", "quantifier": "all pairs of integers, all widths, all multiplication and division calls", "why_tests_cant": "Tests see results, not allocations, and which path is taken depends on the significant bits of both operands at every width.", "anchors": ["src/apint/arithmetic.rs: wrapping_mul_assign, aarons_algorithm_divrem, wrapping_udiv_assign, wrapping_sdiv_assign", "src/uint.rs: wrapping_div_assign, wrapping_rem_assign"]}
{"id": "C72", "title": "Memory used by arithmetic is bounded", "statement": "Any arithmetic or bitwise call on two integers asks the allocator for at most three temporary buffers (copies inside errors included), each of at most one 64-bit digit more than the operand has, and for none if the operand has at most 64 bits.", "quantifier": "all pairs of integers of any widths, all calls with two operands", "why_tests_cant": "A vector that grows once for rare operands gives the same results; only a bound for all operands excludes it.", "anchors": ["src/apint/arithmetic.rs: wrapping_mul_assign, aarons_algorithm_divrem, wrapping_sdiv_assign"]}
{"id": "C73", "title": "Code of others cannot corrupt integers or memory", "statement": "A program may hand the library any random number generator, including one that panics at any draw, and any document to deserialize. When each panic is caught and the program goes on, no memory error ever happens, every integer that is left is canonical and has a buffer of its own of the right size, no buffer leaks, and every later call behaves as the values say.", "quantifier": "all programs of calls on any number of integers mixed with random generation, refilling, saving and loading; all generators, their states and the draws at which they panic; all documents; all choices of the allocator", "why_tests_cant": "Tests use well-behaved generators and documents the library wrote itself; a generator may panic after any number of words, and the half-done call must be in order at each of those points and in everything that follows.", "anchors": ["src/apint/rand_impl.rs: random_with_width_using, randomize_using", "src/apint/serde_impl.rs: Deserialize for ApInt", "src/apint/constructors.rs: from_iter, Drop for ApInt"]}
{"id": "C74", "title": "A generator that panics loses no more than the words it replaced", "statement": "If the generator panics within randomize_using, every other integer is unchanged, and the integer itself keeps its width and all the 64-bit words from the one whose draw panicked upwards; the words below are those the generator gave.", "quantifier": "all integers, all generators, all draws at which they may panic, all programs before the call", "why_tests_cant": "The point at which a generator panics is arbitrary; tests do not interrupt it at all.", "anchors": ["src/apint/rand_impl.rs: randomize_using"]}
{"id": "C75", "title": "Widths, positions, shift amounts and radices are the numbers they are made from", "statement": "BitWidth::new(n) succeeds for every n but zero and to_usize gives n back; w1 to w128 are the widths they are named after; BitPos, ShiftAmount and (for 2 to 36) Radix give back the number they were made from; equality and order are those of the numbers.", "quantifier": "all machine numbers", "why_tests_cant": "Ranges over all machine numbers and pairs of them.", "anchors": ["src/bitwidth.rs: BitWidth", "src/bitpos.rs: BitPos", "src/apint/shift.rs: ShiftAmount", "src/radix.rs: Radix"]}
{"id": "C76", "title": "Panics in one thread do not harm the others", "statement": "Threads share and own integers as in C51, and their calls may panic. Some panics are caught and the thread goes on; a panic that is not caught ends the thread, which drops what it owns. Whatever the schedule and whichever calls panic, threads never race and nothing undefined happens; each thread sees the results and the panics it would see alone; what is lent keeps its value, even if a thread panics while it borrows it; no thread waits for another; and when all have ended every buffer still allocated has exactly one owner, a thread that died owning none.", "quantifier": "all preparing programs, all ways to lend and move variables, all numbers of threads, all their programs of public calls with any of the calls inside catch_unwind, all schedules and prefixes of them", "why_tests_cant": "Tests neither run integers on several threads nor panic there; the claim ranges over every interleaving and every point at which a thread may die.", "anchors": ["src/apint/mod.rs (unsafe impl Send for ApInt, unsafe impl Sync for ApInt)", "src/apint/constructors.rs (drop_digits, Drop for ApInt)", "src/apint/arithmetic.rs (into_wrapping_sdiv and other signed division calls that unwrap)"]}
{"id": "C77", "title": "Threads on UInt and Int, with panics", "statement": "Threads share and own UInt and Int values: what is lent is only read, what is moved is used by one thread. Their calls and operators may panic; some panics are caught, one that is not ends the thread, which drops what it owns. Whatever the schedule and whichever calls panic, threads never race and nothing undefined happens; each thread sees the results, the error values and the panics it would see alone, and ends with the types, widths and integers it would have alone; what is lent keeps its integer at every moment; no thread waits for another; and when all have ended every buffer still allocated has exactly one owner, a thread that died owning none.", "quantifier": "all preparing programs, all ways to lend and move variables, all numbers of threads, all their programs of calls and operators of UInt and Int with any of them inside catch_unwind, all schedules and prefixes of them", "why_tests_cant": "No test runs UInt or Int on several threads; the claim ranges over every interleaving, every program and every point at which a thread may die.", "anchors": ["src/uint.rs (UInt)", "src/int.rs (Int)", "src/apint/mod.rs (unsafe impl Send for ApInt, unsafe impl Sync for ApInt)", "src/apint/constructors.rs (Drop for ApInt)", "src/std_ops.rs (operators that unwrap)"]}
{"id": "C78", "title": "How many rounds a division takes", "statement": "A division ends, and soon: the loop of the long division runs at most once for every 62 bits that the dividend has more than the divisor, and once more; so a division at width w takes at most w/62 + 1 rounds. Stopping the loop later changes nothing. For signed division the absolute values count.", "quantifier": "all eight division and remainder calls (udivrem, uremdiv, udiv, urem, sdivrem, sremdiv, sdiv, srem), all widths, all dividends and divisors including zero divisors and operands of differing widths", "why_tests_cant": "The loop has no bound in its text: that it ends at all, and how fast its worst case is, depends on how far each estimate of the quotient can be off, for every pair of operands of every width.", "anchors": ["src/apint/arithmetic.rs (aarons_algorithm_divrem, large_div_by_large)"]}
{"id": "C79", "title": "Threads that meet in the middle of a buffer", "statement": "The guarantees for threads hold even when one thread runs while another is in the middle of reading, overwriting or filling the digits of an integer: whatever the schedule of single digits, whatever new buffers hold before they are filled and whichever calls panic, no two threads ever use the same buffer at the same time with one of them writing to it or freeing it, no thread sees half of a write or a digit that was never written, each thread sees and ends with what it would alone, what is lent keeps its value at every moment, every thread ends if it gets enough turns, and in the end every allocated buffer has exactly one owner.", "quantifier": "all preparing programs, all ways to lend and move variables, all numbers of threads, all their programs on ApInt and on UInt and Int with any calls inside catch_unwind, all contents of fresh memory, all schedules of single-digit reads and writes and all prefixes of them", "why_tests_cant": "A torn read needs one particular interleaving within one access of one multi-digit integer; no test can enumerate them, and no test of the project runs on several threads.", "anchors": ["src/apint/mod.rs (unsafe impl Send for ApInt, unsafe impl Sync for ApInt)", "src/apint/utils.rs (as_digit_slice, as_digit_slice_mut)", "src/apint/constructors.rs (from_iter, Clone, Drop)"]}
{"id": "C80", "title": "Memory that parsing asks for", "statement": "Parsing a string of n bytes asks the allocator for at most two buffers besides the integer it returns, of at most 2n + 9 bytes together, whatever the string is and whether it is accepted or not: a buffer of n bytes for the digits, unless the string is empty or begins or ends with an underscore, and, when the string is accepted and the radix is not 2, 4 or 16, one for the value. The size of the second is what the number of digits and the binary logarithm of the radix (rounded up to a multiple of 1/8192) require, always enough for the value, so that neither buffer ever grows or moves.", "quantifier": "all radixes from 2 to 36 and all strings of fewer than 2^48 bytes", "why_tests_cant": "The size estimate uses a table of rounded logarithms; an entry that is too small by one fails only for some very long strings, and then only by an extra allocation that no test observes.", "anchors": ["src/apint/serialization.rs (LB_2_36_I3F13, ApInt::from_str_radix, from_inexact_bitwise_digits, from_radix_digits)"]}
{"id": "C81", "title": "Additions that report overflow", "statement": "The two additions that report overflow add modulo 2^w and report an overflow exactly if the mathematical sum is not a value of the width, the one for the unsigned and the other for the signed reading; for integers of different widths they return an error and change nothing.", "quantifier": "all widths and all pairs of integers", "why_tests_cant": "Whether the mask of the highest digit is right depends on the width modulo 64; at multiples of 32 a wrong mask happens to be right, and the functions have no tests.", "anchors": ["src/apint/arithmetic.rs (ApInt::overflowing_uadd_assign, ApInt::overflowing_sadd_assign; private to the crate)"]}
{"id": "C82", "title": "Errors are values", "statement": "Two errors are equal exactly if their kinds with everything they carry, their messages and their annotations agree, and exactly if they print the same. A clone of an error equals it and cloning does not fail. Equal errors hand the same data to a hasher and different errors different data, whatever follows. The description of an error is its message, annotating it changes nothing else, and turning it into a result gives that error. Printed over several lines (\"{:#?}\" or \"{:#}\") an error shows exactly what it shows on one line.", "quantifier": "all errors any call can return, with any strings, integers and annotations in them", "why_tests_cant": "Errors carry integers of any width and rejected strings of any content, including quotes, commas, brackets and line ends that could be taken for the layout; a test compares a few.", "anchors": ["src/errors.rs (Error, ErrorKind, DivOp: derives, getters, From<Error> for Result, Display, std::error::Error)", "src/apint/to_primitive.rs (PrimitiveTy)"]}
{"id": "C83", "title": "Sinks that refuse", "statement": "Formatting an integer (binary, lower and upper hexadecimal, of ApInt, UInt and Int) into a sink that may refuse hands it the pieces of the text in order, stops at the first one it refuses, hands over nothing after it, and reports success exactly if all were accepted; so a sink that keeps what it accepts holds a first part of the text, the whole text if success was reported, and a bounded buffer holds as much as fits. Serializing makes the calls of the document in order, stops at the first call the serializer refuses, and reports success exactly if it accepted all.", "quantifier": "all integers of every width, all sinks and serializers (any state, any rule of refusal), all ways in which a number is cut into pieces", "why_tests_cant": "A sink can refuse at any of unboundedly many points and its behaviour may depend on everything it got; the tests use strings, which never refuse, and serializers that expect exactly the right calls.", "anchors": ["src/apint/serialization.rs (impl fmt::Binary, fmt::Octal, fmt::LowerHex, fmt::UpperHex for ApInt)", "src/uint.rs, src/int.rs (the same traits)", "src/apint/serde_impl.rs (impl Serialize for Digit, BitWidth, ApInt)"]}
{"id": "C84", "title": "Machines with a small usize", "statement": "On a machine whose usize has M values (16, 32 or 64 bits), in debug and release builds: integers of up to M - 64 bits can be made, by constructors, casts and random generation, wider ones make every build panic; counting bits, multiplying and dividing integers that can be made gives the result it would give without a limit on sizes; parsing does so as long as the bits its digits can fill fit; deserialization gives the integer that the document states or refuses it.", "quantifier": "all sizes M = 2^p of usize with p >= 8, both kinds of build, all widths, all operands, all radices and texts shorter than M/2, all documents", "why_tests_cant": "Tests run on one machine with a 64-bit usize, where no integer of a width near the limit can be allocated; the overflows appear only on smaller machines or at sizes no test reaches.", "anchors": ["src/bitwidth.rs (BitWidth::new, required_digits)", "src/apint/constructors.rs (ApInt::from_iter, repeat_digit)", "src/apint/casting.rs (ApInt::truncate, zero_extend, sign_extend)", "src/apint/bitwise.rs (count_ones, count_zeros, leading_zeros, trailing_zeros)", "src/apint/arithmetic.rs (wrapping_mul_assign, wrapping_udivrem_assign)", "src/apint/serialization.rs (ApInt::from_str_radix)", "src/apint/serde_impl.rs (Deserialize for BitWidth, ApInt)"]}
{"id": "C85", "title": "Random integers are uniform", "statement": "Each value of the width asked for comes out of random generation for the same number of sequences of generator words, so that an ideal generator gives every integer with the same probability; integers made one after the other from one generator are independent; randomizing in place has the same distribution whatever the integer was before; the same holds for UInt by its unsigned and Int by its signed value. Generation from the entropy of the system gives an integer of the width asked for whatever the entropy.", "quantifier": "all widths, all values, all sequences of widths and values, all previous contents, all seeds and generators", "why_tests_cant": "A distribution over 2^w values cannot be sampled for large w; a bias such as a top digit that is not fully random is invisible to tests that look at widths or at a few seeds.", "anchors": ["src/apint/rand_impl.rs (random_with_width, random_with_width_using, randomize, randomize_using)", "src/uint.rs, src/int.rs (the same methods)"]}
{"id": "C86", "title": "Threads on machines that delay writes", "statement": "The guarantees for threads hold on machines where a write is at first seen only by the thread that makes it and reaches the memory later, writes to different digits in any order: no delay can be observed, each thread being where some schedule without delays brings it, and the memory being what it is there once all writes have reached it; at no time does a thread use a buffer to which another has a write under way, and no write reaches a buffer that has been freed; each thread sees and ends with what it would alone, and its integers are in memory when its own writes are; what is lent keeps its value in memory at every moment; every thread ends if it gets turns and its writes reach the memory; and in the end every allocated buffer has exactly one owner.", "quantifier": "all preparing programs, all ways to lend and move variables, all numbers of threads, all their programs on ApInt and on UInt and Int with any calls inside catch_unwind, all contents of fresh memory, all histories of turns and of writes reaching the memory and all prefixes of them", "why_tests_cant": "Which writes are delayed and for how long is up to the processor; a test runs on one machine and sees a tiny part of the orders it allows, and no test of the project runs on several threads.", "anchors": ["src/apint/mod.rs (unsafe impl Send for ApInt, unsafe impl Sync for ApInt)", "src/apint/utils.rs (as_digit_slice, as_digit_slice_mut)", "src/apint/constructors.rs (from_iter, Clone, Drop)"]}
{"id": "C87", "title": "Under a fair scheduler all threads end, with their own results", "statement": "If the scheduler goes on giving every thread turns, and on a machine that delays writes goes on letting every thread's oldest write arrive, then there is a moment from which on every thread has ended, no matter in which order and how rarely the turns come: no thread starves, waits for another or loops; each has seen the results and the panics that its program has when it runs alone, and its integers are in memory with the values they have then.", "quantifier": "all preparing programs, all ways to lend and move variables, all numbers of threads, all their programs on ApInt and on UInt and Int with any calls inside catch_unwind, all contents of fresh memory, all infinite schedules that neglect no thread, with and without delayed writes", "why_tests_cant": "That something happens eventually under every infinite schedule cannot be observed in any finite run; and no test of the project runs on several threads.", "anchors": ["src/apint/mod.rs (unsafe impl Send for ApInt, unsafe impl Sync for ApInt)", "src/apint/utils.rs (as_digit_slice, as_digit_slice_mut)", "src/apint/constructors.rs (from_iter, Clone, Drop)"]}
{"id": "C88", "title": "No two threads ever use the same memory unless both only read it", "statement": "Take everything that the threads do with memory in the course of a whole execution: every reading and writing of a part of an integer and every giving back of its memory. If two different threads use the same memory, at any two moments however far apart, then both only read it, and it belongs to an integer that was lent to the threads. So there are no conflicting accesses of different threads at all, and no order between threads is needed to keep conflicting accesses apart. The accesses listed are all there are: a turn changes nothing in memory but what it is listed to write or give back, and depends on nothing but what it is listed to read.", "quantifier": "all preparing programs, all ways to lend and move variables, all numbers of threads, all their programs on ApInt and on UInt and Int with any calls inside catch_unwind, all contents of fresh memory, all schedules, all pairs of accesses in them", "why_tests_cant": "A race detector sees only the accesses of the schedules that it happens to run, and no test of the project runs on several threads.", "anchors": ["src/apint/mod.rs (unsafe impl Send for ApInt, unsafe impl Sync for ApInt)", "src/apint/utils.rs (as_digit_slice, as_digit_slice_mut)", "src/apint/constructors.rs (from_iter, Clone, Drop)"]}
{"id": "C89", "title": "Threads never see old values, even on a machine whose reads may return them", "statement": "On a machine that keeps every value ever written, where a read may return any value that is not older than what the thread has seen there before, where writes of different threads to the same place may end up in any order, and where different threads may see writes in different orders, threads with integers behave as on a machine where every read returns what was written last: whatever the machine chooses, each thread is where it is under some interleaving of that machine, sees the results and the panics it sees when it runs alone, never does anything undefined, changes no integer that was lent, waits for no other thread, and leaves its integers in memory for whoever joins it, who then has no choice either but to read the last values.", "quantifier": "all preparing programs, all ways to lend and move variables, all numbers of threads, all their programs on ApInt and on UInt and Int with any calls inside catch_unwind, all contents of fresh memory, all schedules, all choices of the machine of what reads return and of when writes happened", "why_tests_cant": "Old values are seen only on some processors, or after optimizations of the compiler, in rare moments that no test can bring about; and no test of the project runs on several threads.", "anchors": ["src/apint/mod.rs (unsafe impl Send for ApInt, unsafe impl Sync for ApInt)", "src/apint/utils.rs (as_digit_slice, as_digit_slice_mut)", "src/apint/constructors.rs (from_iter, Clone, Drop)"]}
{"id": "C90", "title": "Threads may use integers that they are about to overwrite as scratch space", "statement": "The loops of the library write parts of a result while they still read the other operand, write them several times, and leave anything there in between. Whatever parts of integers a thread writes to in this way, at whatever moments and with whatever values, as long as its call overwrites them before it reads them: no two threads ever use the same memory unless both only read it, no thread does anything undefined, each thread sees the results and the panics it sees when it runs alone, no integer that was lent changes at any time, no thread waits for another, and in the end each allocated buffer has exactly one owner.", "quantifier": "all preparing programs, all ways to lend and move variables, all numbers of threads, all their programs on ApInt and on UInt and Int with any calls inside catch_unwind, all contents of fresh memory, all schedules, all moments, places and values of writes to digits that are not needed any more", "why_tests_cant": "What a loop leaves in memory between its first and its last write is seen by no test, and a thread that looks at it at the wrong moment is met by chance only; no test of the project runs on several threads.", "anchors": ["src/apint/arithmetic.rs (wrapping_add_assign, wrapping_mul_assign)", "src/apint/shift.rs (wrapping_shl_assign, wrapping_ashr_assign)", "src/apint/utils.rs (modify_zipped_digits, as_digit_slice_mut)", "src/apint/mod.rs (unsafe impl Send for ApInt, unsafe impl Sync for ApInt)"]}
{"id": "C91", "title": "Generators of others cannot corrupt UInt or Int", "statement": "A program on UInt and Int that also makes integers with random_with_width_using and changes them with randomize_using, by any random number generator, which may panic at any word it is asked for, and that catches all panics, sees exactly the results and panics of an abstract machine on mathematical integers; memory stays in order, every integer stays in the range of its type, nothing leaks, and a generator that panics in randomize_using replaces no more than the low words it has given: the type, the width, the words above and with them the sign of an Int stay, and all other integers too.", "quantifier": "all generators as functions of their state, all their states, all programs of calls on UInt and Int with all panics caught, all widths, all contents of fresh memory", "why_tests_cant": "A test runs a few generators that never panic; what a half-done randomize leaves behind can only be said by an argument over all words at which the generator may stop.", "anchors": ["src/uint.rs (random_with_width_using, randomize_using)", "src/int.rs (random_with_width_using, randomize_using)", "src/apint/rand_impl.rs (random_with_width_using, randomize_using)"]}
{"id": "C92", "title": "Any honest allocator will do, and running out of memory changes nothing else", "statement": "A program on ApInt, or on UInt and Int, that runs in the memory of a process in which others hold memory too, with an allocator that gives any memory that is not in use, also addresses that were freed before and with any contents, while memory that is not allocated changes at any time, sees exactly the results and panics of an abstract machine on mathematical integers, unless the allocator refuses or the process is killed, which ends the process. It never reads or writes outside its own buffers, never frees a buffer twice or with a wrong size, never asks for a buffer of no bytes; its buffers share no address with each other or with those of others, are exactly those its integers need, and after dropping everything exactly the memory of others is allocated.", "quantifier": "all programs on ApInt, UInt and Int with any calls, generators and deserializers, with panics caught or not, all allocators that never give memory in use, all initial memories and allocations of others, all ways in which unallocated memory changes, all amounts of spare room, all moments at which there is no memory or the process is killed", "why_tests_cant": "A test runs with one allocator, in which a use of freed memory mostly finds the old contents; memory runs out in no test.", "anchors": ["src/apint/constructors.rs (drop_digits, from_iter, new_ext)", "src/apint/casting.rs (Clone for ApInt)", "src/apint/utils.rs (as_digit_slice, as_digit_slice_mut)", "src/apint/mod.rs (ApIntData)"]}
{"id": "C93", "title": "Threads are safe with any honest allocator", "statement": "Threads that are lent and moved integers, whose calls panic or not, on one memory with others, with an allocator that gives any memory that is not in use, places buffers side by side and gives freed addresses again, also to another thread: at no moment are two threads about to use the same word of memory, one of them to write or to free it; none does anything undefined. A thread that has ended saw what it sees when it runs alone, and its integers are in memory where they should be; what is lent is unchanged at every moment; memory of others is unchanged; no two buffers share a word; and when all have ended every buffer has exactly one owner. If there is always memory, any thread ends if it gets enough turns.", "quantifier": "all programs of the main thread and of any number of threads on ApInt, or on UInt and Int, all ways of lending and moving, all schedules, all honest allocators, all initial memories, all moments at which memory runs out or the process is killed", "why_tests_cant": "A race shows only in some schedules, and reuse of an address by another thread only with some allocators.", "anchors": ["src/apint/mod.rs (unsafe impl Send for ApInt, unsafe impl Sync for ApInt)", "src/apint/constructors.rs (drop_digits, from_iter)", "src/apint/utils.rs (as_digit_slice, as_digit_slice_mut)", "src/apint/casting.rs (Clone for ApInt)"]}
{"id": "C94", "title": "The crate's own fuzz test can never fail", "statement": "The fuzz test shipped with the crate draws integers and checks that increment, decrement, addition, subtraction, shifts, multiplication, division, resizing and bit operations agree with each other. Whatever numbers are drawn, in any number of rounds and for any width that can be doubled and is not a multiple of 2^32, none of its assertions fails, no unwrap meets an error and nothing panics; the same holds for its enumeration of edge cases up to 1984 bits. The sums it divides always fit the width, so the overflow test it calls should never report an overflow; it does (see C81), and the fuzz test then skips its check, so it can never find that bug.", "quantifier": "all widths, all integers, all numbers drawn, all numbers of rounds", "why_tests_cant": "This is the test: each run tries a few of the possible draws, and a run that passes says nothing about the others.", "anchors": ["src/apint/arithmetic.rs (mod megafuzz: identities, fuzz_random, fuzz_edge, fuzz_test)", "src/apint/arithmetic.rs (overflowing_uadd_assign)", "src/apint/constructors.rs (from_vec_u64)"]}
{"id": "C95", "title": "Threads end under a fair scheduler, with any honest allocator and with scratch space", "statement": "If the scheduler goes on giving every thread turns, then there is a moment from which on every thread has ended with the results, panics and integers it has when it runs alone. This holds wherever an allocator that does not give memory in use, and always has memory, places the buffers, and whatever the rest of the process does with its own memory; and it holds when calls use buffers as scratch space before they write their results.", "quantifier": "all preparing programs, all ways to lend and move variables, all numbers of threads, all their programs on ApInt and on UInt and Int with any calls inside catch_unwind, all honest allocators that have memory, all behaviours of other parts of the process, all uses of buffers as scratch space, all infinite schedules that neglect no thread", "why_tests_cant": "That something happens eventually under every infinite schedule, with every allocator, cannot be observed in a finite run with the one allocator that tests have.", "anchors": ["src/apint/mod.rs (unsafe impl Send for ApInt, unsafe impl Sync for ApInt)", "src/apint/constructors.rs (from_iter, Clone, Drop)", "src/apint/arithmetic.rs (wrapping_mul_assign, wrapping_udivrem_assign)"]}
{"id": "C96", "title": "Arithmetic takes linear or quadratic time, whatever the values", "statement": "Counting one step for each 64-bit digit that is read, written or passed over, a call on values of n digits takes a number of steps bounded by a polynomial in n alone: shifts at most 5n+7 (left 2n+2, logical right 3n), increment and decrement n+2, negation 2n+4, addition and subtraction 3n+5, multiplication 3n^2+12n+11, the four unsigned divisions 7n^2+58n+80, and the four signed ones 7n^2+66n+8m+100 where m is the number of digits of the divisor. No choice of values, no refused argument, no width mismatch and no panic makes a call slower than this. Writing the text of an error is not counted here but in C99.", "quantifier": "all widths, all values of both operands, all shift amounts", "why_tests_cant": "A benchmark measures some values; the long division estimates quotient digits and may correct its estimate, so that values that make it slow, if there were any, would be rare and are not found by sampling.", "anchors": ["src/apint/shift.rs (wrapping_shl_assign, wrapping_lshr_assign, wrapping_ashr_assign)", "src/apint/arithmetic.rs (wrapping_inc, wrapping_neg, wrapping_add_assign, wrapping_sub_assign, wrapping_mul_assign, aarons_algorithm_divrem, wrapping_sdivrem_assign)"]}
{"id": "C97", "title": "Everything but multiplication and division takes linear time", "statement": "Counting one step for each 64-bit digit that is read, written or passed over and for each byte of text that is read, copied or written: on values of n digits, comparisons take at most n steps (signed ones n+2), bitwise operations and counting bits n+2, reading or changing one bit 2, and a copy n. Resizing to, or making an integer of, n digits takes at most 12n+9. Parsing a text of n bytes takes at most 11n+9, in every radix and also if it is refused. Printing takes at most 66n+1 in binary and 18n+1 in hexadecimal. Writing the text of an error is not counted here but in C99.", "quantifier": "all widths, all values of both operands, all bit positions, all new widths, all texts and radixes", "why_tests_cant": "A benchmark measures some values; a text or a value that makes a call slow would have to be guessed. The bound must hold for every input that a stranger may send to be parsed.", "anchors": ["src/apint/relational.rs (checked_ult, checked_slt)", "src/apint/bitwise.rs (bitand_assign, count_ones, leading_zeros, trailing_zeros)", "src/apint/casting.rs (truncate, zero_extend, sign_extend)", "src/apint/constructors.rs (from_iter, repeat_digit)", "src/apint/serialization.rs (from_str_radix, Binary, LowerHex, UpperHex)"]}
{"id": "C98", "title": "Formatter options of Debug output reach the numbers and nothing else", "statement": "With any options in {:?} (width, fill, alignment, sign, zeros, #, x?, X?) the bit width and each 64-bit word of an integer are shown exactly as Rust's own integers are with the same options, and the rest of the text, on one line or on several, is as without options. The same holds for the numbers in the kind of an error, printed with {:?} or {}; its message and annotation do not change. Unless the fill character is a letter, a digit or a line break, equal texts mean equal width and value.", "quantifier": "all combinations of formatter options, all widths and values of the three integer types, all errors", "why_tests_cant": "The options combine freely with every value; that no option makes two different integers look the same is a statement about all pairs of values.", "anchors": ["src/apint/utils.rs (Debug for ApInt)", "src/uint.rs (derive Debug)", "src/int.rs (derive Debug)", "src/digit.rs (derive Debug)", "src/bitwidth.rs (derive Debug)", "src/errors.rs (derive Debug, Display)"]}
{"id": "C99", "title": "Calls that fail take linear time as well", "statement": "Counting one step for each 64-bit digit that is read, written or passed over and for each character of an error's message and annotation: on operands of n and m digits a comparison takes at most n+2 steps if the widths agree and 64(n+m)+600 if not, a division by zero at most 33n+160, strict_assign n or, if it fails, 31(n+m)+270, and truncating or extending to t digits the bound of C97 or, if it fails, 2(n+t)+330. The conversions to bool and to machine integers that refuse to lose information take at most 32n+132, whether they succeed or not. No message is longer than 160 characters plus the binary length of the numbers it carries plus 30 characters for each digit of the integers it carries.", "quantifier": "all widths, all values of both operands, all target widths, all eleven target types, all errors", "why_tests_cant": "A benchmark measures calls that succeed; that a caller who sends bad arguments cannot make the library write a text much longer than the arguments themselves is a statement about all arguments.", "anchors": ["src/errors.rs (constructors of Error, with_annotation)", "src/apint/relational.rs (checked_ult, checked_ule, checked_slt, checked_sle)", "src/apint/to_primitive.rs (try_cast_to_primitive_ty, try_to_i128, try_to_u128)", "src/apint/casting.rs (strict_assign, truncate, zero_extend, sign_extend)", "src/apint/arithmetic.rs (wrapping_udiv_assign, wrapping_sdiv_assign)", "src/apint/utils.rs (Debug for ApInt)"]}
{"id": "C100", "title": "Reading a document takes time and space linear in the document", "statement": "Counting one step for each 64-bit digit that is read, written or passed over, each value a document presents, each character of a key, each item fed to a hasher and each number drawn from a generator: reading any document of size s (values and characters of strings), human readable or compact, well formed or not, takes at most 16s+5 steps, also if it is refused or the reader panics. An integer that is read has fewer digits than the document has values, so that a small document with a large width is refused and not filled up. Writing an integer of n digits takes at most 2n+3 steps, hashing it 2n+2, making a random one 13n+4 and filling one with random bits 2n+2.", "quantifier": "all documents of any shape, depth and size, both forms, all widths and values, all generators and their states", "why_tests_cant": "Documents come from strangers. A test tries some malformed documents; that none of them makes the reader use more time or memory than the document itself is a statement about all of them.", "anchors": ["src/apint/serde_impl.rs (Serialize and Deserialize for ApInt, BitWidth and Digit)", "src/apint/utils.rs (Hash for ApInt)", "src/apint/rand_impl.rs (random_with_width_using, randomize_using)"]}
{"id": "C101", "title": "A program takes time proportional to the number of its calls", "statement": "Counting one step for each call, each 64-bit digit that is read, written or passed over and each character of an error's message and annotation: a program of public calls of any kind in any order, failing calls included, whose widths are at most 64n bits, whose arrays have at most n elements and whose texts at most n characters (n at least 2) takes at most 7n^2+128n+610 steps for each multiplication, division and remainder and at most 128n+610 for every other call. What the program did before makes no call slower, and no integer it holds ever has more than n digits.", "quantifier": "all programs of any length over the calls of C51, all widths, values, texts, radices and arrays they use", "why_tests_cant": "A benchmark times single calls. That no order of calls makes a later call slow (by leaving behind an integer that is larger than its width, for example) is a statement about all programs.", "anchors": ["src/apint/constructors.rs", "src/apint/casting.rs", "src/apint/arithmetic.rs", "src/apint/bitwise.rs", "src/apint/shift.rs", "src/apint/relational.rs", "src/apint/serialization.rs", "src/apint/to_primitive.rs", "src/apint/utils.rs", "src/errors.rs"]}
{"id": "C102", "title": "What watching the memory and the branches reveals about the values", "statement": "Someone who sees, for a call, which 64-bit digits of which operand are read and written in which order, which way each branch goes and how many digits are allocated, but none of the values: (1) learns nothing beyond the widths, positions and amounts from adding, subtracting, the bitwise operations, setting, unsetting, flipping and reading bits, shifting left and logically right, counting set and unset bits, asking for the sign or parity, hashing, cloning, assigning, truncating, zero-extending and converting to a primitive integer by truncation, failing calls included, nor from any program of these calls; (2) learns exactly how many of the lowest digits are all ones from adding one, exactly how many are zero from subtracting one, negating, testing for zero and counting trailing zeros, and how many of the highest are zero from counting leading zeros; (3) learns exactly how many of the lowest digits agree from testing two integers for equality, and exactly how many of the highest agree and the answer from an unsigned comparison; (4) learns exactly the sign from shifting arithmetically and from sign-extending.", "quantifier": "all pairs of executions on integers of the same widths with any values, all positions, shift amounts and target widths; all programs of the calls of (1), of any length", "why_tests_cant": "It compares the executions on every two values; a timing test measures a few and cannot show that none differs, nor that a call reveals nothing more than what is stated.", "anchors": ["src/apint/arithmetic.rs", "src/apint/bitwise.rs", "src/apint/shift.rs", "src/apint/casting.rs", "src/apint/relational.rs", "src/apint/utils.rs", "src/apint/to_primitive.rs"]}
{"id": "C103", "title": "What watching multiplications and signed comparisons reveals about the values", "statement": "Someone who sees, for a multiplication, which 64-bit digits of which operand are read and written in which order, which way each branch goes and how many digits are allocated, but none of the values, learns nothing if the integers have at most 64 bits or their widths differ; otherwise they learn exactly how many digits the second factor needs, then, unless it is zero, how many the first factor needs, and, if both need more than one, whether the numbers of bits of the factors add up to more than the digits have. Factors whose top bits are set are not told apart at all. From a signed comparison of integers with more than 64 bits they learn exactly the two signs and, if these agree, how many of the highest digits agree and the answer.", "quantifier": "all pairs of executions on integers of the same widths with any values", "why_tests_cant": "It compares the executions on every two pairs of factors; a timing test measures a few and cannot show that none differs, nor that nothing more than what is stated is revealed.", "anchors": ["src/apint/arithmetic.rs wrapping_mul_assign", "src/apint/relational.rs checked_slt"]}
{"id": "C104", "title": "How many digits a call reads, writes and allocates", "statement": "The number of 64-bit digits that a call reads, writes and allocates is known exactly, not only bounded. Bitwise operations, addition and subtraction access each digit of each operand once; reading or changing one bit accesses one digit whatever the width; adding or subtracting one, comparing and counting leading or trailing zeros stop at the first digit that decides; shifts take one pass for whole digits and one for bits, and none for an amount of zero. A product of two integers with n digits first looks for the digits its factors need; if one factor needs one digit it takes one pass in place and allocates nothing; if both need more and the product surely fits, it takes a number of accesses that is a fixed formula in the numbers of digits needed, and allocates their sum; else it allocates n digits and takes 3n(n+1)/2 reads besides the search, whatever the factors are. Assigning, truncating and extending touch at most the top digit if the number of digits stays (apart from what is assigned), else they copy each digit once to new space, which is as large as the result and none for a result of at most 64 bits; extending a negative integer with ones fills its top digit first. Converting to a primitive integer reads one digit, or two for 128 bits. Refused calls access no digit, but an arithmetic shift reads the sign first.", "quantifier": "all integers, widths, target widths, positions and shift amounts", "why_tests_cant": "The numbers are formulas in the width and the values; a benchmark samples a few and measures time, which does not settle how often memory is accessed for all others.", "anchors": ["src/apint/arithmetic.rs", "src/apint/bitwise.rs", "src/apint/shift.rs", "src/apint/relational.rs", "src/apint/utils.rs", "src/apint/casting.rs", "src/apint/to_primitive.rs resize_to_*"]}
{"id": "C105", "title": "What watching divisions reveals about the values", "statement": "Someone who sees which digits a division reads and writes, which branches it takes and how much it allocates, but no values, learns exactly the following, where it does not say at least. Unsigned division of operands of different widths: nothing. Unsigned division of integers of at most 64 bits: whether the divisor is zero. Unsigned division of wider integers, if it is short (the divisor fits one digit, or the dividend two, or the dividend needs fewer digits than the divisor): how many 64-bit digits the divisor needs; if it is not zero, how many the dividend needs; and, if one digit is enough for the divisor but not for the dividend, whether the divisor is below 2^32. A long division reveals at least that much, and more: even the numbers of bits of both operands do not settle what is accessed. A signed division reveals at least whether the divisor is zero, how many of its lowest digits are zero and, unless it is zero, the signs of both operands; at most 64 bits wide it reveals exactly whether the divisor is zero and else the signs. Quotient, remainder and both together agree in this.", "quantifier": "all pairs of dividends and divisors of every width", "why_tests_cant": "That two runs look the same must hold for all pairs of operands; a test compares a few.", "anchors": ["src/apint/arithmetic.rs wrapping_udivrem_assign, wrapping_uremdiv_assign, wrapping_udiv_assign, wrapping_urem_assign, wrapping_sdivrem_assign, wrapping_sremdiv_assign, wrapping_sdiv_assign, wrapping_srem_assign, aarons_algorithm_divrem"]}
{"id": "C106", "title": "The digits a call accesses are all that matter to it", "statement": "Run a call on integers and note which of their 64-bit digits it reads and writes. Run it again on integers of the same widths that agree with the first ones in every digit read, whatever their other digits: it accesses the same digits in the same order, takes the same branches, reports the same error or answer, and leaves the same digits, except those it neither read nor overwrote, which stay what they were. A digit that is not written keeps its value. Only digits that the operands have are accessed, and an operand taken by shared reference is never written. This holds for increments, negation, addition, subtraction, multiplication, signed and unsigned division, bitwise calls, shifts, assignment, truncation, extension, resizing, cloning, comparisons, counting, hashing and conversions to primitive types.", "quantifier": "all calls named, all pairs of operands of all widths that agree in the digits read, all positions, amounts and target widths", "why_tests_cant": "It compares two executions on all pairs of inputs; tests see only a few inputs and cannot see which digits an answer depends on.", "anchors": ["src/apint/arithmetic.rs", "src/apint/bitwise.rs", "src/apint/shift.rs", "src/apint/casting.rs", "src/apint/relational.rs", "src/apint/to_primitive.rs", "src/apint/utils.rs"]}
{"id": "C107", "title": "How many digits a division reads, writes and allocates", "statement": "A division of integers with n 64-bit digits, whatever their values, reads and writes digits a number of times that is bounded by a fixed quadratic polynomial in n (14 n^2 + 116 n + 165 times if it is unsigned, 14 n^2 + 148 n + 208 if it is signed), every access counted, also further ones to the same digit. It allocates room for at most 2n digits over all allocations if it leaves both the quotient and the remainder in its operands, and at most 3n if only one of them is asked for, because the divisor is copied. This includes divisions by zero, which return an error with a copy of the dividend. No access escapes the count of steps by which C96 measures time: each step counted there stands for at most two accesses, and at most eight accesses of a call are not counted.", "quantifier": "the four unsigned and the four signed divisions, all widths, all values of both operands, also a divisor zero; for signed divisions all pairs of operands for which they do not panic", "why_tests_cant": "A test measures single operands; the number of rounds of a long division, and with it the number of accesses, depends on all digits of both operands.", "anchors": ["src/apint/arithmetic.rs wrapping_udivrem_assign, wrapping_uremdiv_assign, wrapping_udiv_assign, wrapping_urem_assign, wrapping_sdivrem_assign, wrapping_sremdiv_assign, wrapping_sdiv_assign, wrapping_srem_assign, aarons_algorithm_divrem"]}
