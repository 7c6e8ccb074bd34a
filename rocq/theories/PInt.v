(** Properties C41, C42, C43 and the [UInt] and [Int] parts of C09, C18, C31 and
    C40.  [is_uint x w v] and [is_int x w v] (SpecInt.v) say that x is the
    canonical integer of width w and value v. *)
From Verif Require Import LExInt LRand LIntRel.

(** C41: addition, subtraction, multiplication and negation modulo 2^w. *)
Theorem C41_arithmetic x y w u v :
  is_uint x w u -> is_uint y w v ->
  (exists c, uint_wrapping_add_assign x y = Val (c, Ok tt) /\ uint_into_wrapping_add x y = Val (Ok c) /\
    is_uint c w ((u + v) mod 2 ^ w)) /\
  (exists c, uint_wrapping_sub_assign x y = Val (c, Ok tt) /\ uint_into_wrapping_sub x y = Val (Ok c) /\
    is_uint c w ((u - v) mod 2 ^ w)) /\
  (exists c, uint_wrapping_mul_assign x y = Val (c, Ok tt) /\ uint_into_wrapping_mul x y = Val (Ok c) /\
    is_uint c w ((u * v) mod 2 ^ w)) /\
  (exists c, uint_wrapping_neg x = Val c /\ uint_into_wrapping_neg x = Val c /\ is_uint c w ((- u) mod 2 ^ w)).
Proof. exact (uint_arith_fact x y w u v). Qed.
Print Assumptions C41_arithmetic.
Example C41_arithmetic_ex : is_uint u100 100 141472887417201429202 /\ is_uint v100 100 633825300114114700748351602690 /\
  uint_into_wrapping_sub u100 v100 = Val (Ok (mk_uint (mk_apint 100 [12345678901234567888; 34359738375]))).
Proof. split; [apply is_u100|split; [apply is_v100|vm_compute; reflexivity]]. Qed.

(** C41: division is Euclidean. *)
Theorem C41_division x y w u v :
  is_uint x w u -> is_uint y w v -> v <> 0 ->
  (exists q, uint_wrapping_div_assign x y = Val (q, Ok tt) /\ uint_into_wrapping_div x y = Val (Ok q) /\
    is_uint q w (u / v)) /\
  (exists r, uint_wrapping_rem_assign x y = Val (r, Ok tt) /\ uint_into_wrapping_rem x y = Val (Ok r) /\
    is_uint r w (u mod v)).
Proof. exact (uint_div_fact x y w u v). Qed.
Print Assumptions C41_division.
Example C41_division_ex : 141472887417201429202 <> 0 /\
  uint_into_wrapping_div v100 u100 = Val (Ok (mk_uint (mk_apint 100 [4480189184; 0]))) /\
  633825300114114700748351602690 / 141472887417201429202 = 4480189184.
Proof. split; [discriminate|]. vm_compute. auto. Qed.

(** C41: dividing by zero is an error, and the dividend is unchanged. *)
Theorem C41_division_by_zero x y w u :
  is_uint x w u -> is_uint y w 0 ->
  uint_wrapping_div_assign x y = Val (x, Err (DivisionByZero UnsignedDiv (uint_into_apint x))) /\
  uint_into_wrapping_div x y = Val (Err (DivisionByZero UnsignedDiv (uint_into_apint x))) /\
  uint_wrapping_rem_assign x y = Val (x, Err (DivisionByZero UnsignedRem (uint_into_apint x))) /\
  uint_into_wrapping_rem x y = Val (Err (DivisionByZero UnsignedRem (uint_into_apint x))).
Proof. exact (uint_div_zero_fact x y w u). Qed.
Print Assumptions C41_division_by_zero.
Example C41_division_by_zero_ex : is_uint (mk_uint z100) 100 0.
Proof. split; [apply wf_z100|split; reflexivity]. Qed.

(** C41: operands of differing widths are an error, and the target is unchanged. *)
Theorem C41_mismatch x y :
  uint_width x <> uint_width y ->
  let err := UnmatchingBitwidth (uint_width x) (uint_width y) in
  uint_wrapping_add_assign x y = Val (x, Err err) /\ uint_into_wrapping_add x y = Val (Err err) /\
  uint_wrapping_sub_assign x y = Val (x, Err err) /\ uint_into_wrapping_sub x y = Val (Err err) /\
  uint_wrapping_mul_assign x y = Val (x, Err err) /\ uint_into_wrapping_mul x y = Val (Err err) /\
  uint_wrapping_div_assign x y = Val (x, Err err) /\ uint_into_wrapping_div x y = Val (Err err) /\
  uint_wrapping_rem_assign x y = Val (x, Err err) /\ uint_into_wrapping_rem x y = Val (Err err) /\
  uint_bitand_assign x y = Val (x, Err err) /\ uint_into_bitand x y = Val (Err err) /\
  uint_bitor_assign x y = Val (x, Err err) /\ uint_into_bitor x y = Val (Err err) /\
  uint_bitxor_assign x y = Val (x, Err err) /\ uint_into_bitxor x y = Val (Err err) /\
  uint_strict_assign x y = Val (x, Err err).
Proof. exact (uint_mismatch_fact x y). Qed.
Print Assumptions C41_mismatch.
Example C41_mismatch_ex : uint_width u100 <> uint_width (mk_uint e8).
Proof. discriminate. Qed.

(** C41: so are comparisons of differing widths; two of them report the widths swapped. *)
Theorem C41_comparison_mismatch x y :
  uint_width x <> uint_width y ->
  let err := UnmatchingBitwidth (uint_width x) (uint_width y) in
  let swapped := UnmatchingBitwidth (uint_width y) (uint_width x) in
  uint_checked_lt x y = Val (Err err) /\ uint_checked_ge x y = Val (Err err) /\
  uint_checked_le x y = Val (Err swapped) /\ uint_checked_gt x y = Val (Err swapped).
Proof. exact (uint_comparison_mismatch x y). Qed.
Print Assumptions C41_comparison_mismatch.
Example C41_comparison_mismatch_ex : uint_checked_gt u100 (mk_uint e8) = Val (Err (UnmatchingBitwidth 8 100)).
Proof. reflexivity. Qed.

(** C41: comparisons decide the order of the unsigned values. *)
Theorem C41_comparison x y w u v :
  is_uint x w u -> is_uint y w v ->
  uint_checked_lt x y = Val (Ok (u <? v)) /\ uint_checked_le x y = Val (Ok (u <=? v)) /\
  uint_checked_gt x y = Val (Ok (v <? u)) /\ uint_checked_ge x y = Val (Ok (v <=? u)) /\
  uint_eqb x y = (u =? v).
Proof. exact (uint_cmp_fact x y w u v). Qed.
Print Assumptions C41_comparison.
Example C41_comparison_ex : uint_checked_lt u100 v100 = Val (Ok true).
Proof. vm_compute. reflexivity. Qed.

(** C41: the left shift multiplies, the right shift divides rounding down. *)
Theorem C41_shift x w u s :
  is_uint x w u -> 0 <= s < w ->
  (exists c, uint_wrapping_shl_assign x s = Val (c, Ok tt) /\ uint_into_wrapping_shl x s = Val (Ok c) /\
    is_uint c w ((u * 2 ^ s) mod 2 ^ w)) /\
  (exists c, uint_wrapping_shr_assign x s = Val (c, Ok tt) /\ uint_into_wrapping_shr x s = Val (Ok c) /\
    is_uint c w (u / 2 ^ s)).
Proof. exact (uint_shift_fact x w u s). Qed.
Print Assumptions C41_shift.
Example C41_shift_ex : uint_into_wrapping_shr v100 99 = Val (Ok (mk_uint (mk_apint 100 [1; 0]))).
Proof. vm_compute. reflexivity. Qed.

(** C41: a shift by the width or more is an error. *)
Theorem C41_shift_error x w u s :
  is_uint x w u -> w <= s ->
  let err := InvalidShiftAmount s w in
  uint_wrapping_shl_assign x s = Val (x, Err err) /\ uint_into_wrapping_shl x s = Val (Err err) /\
  uint_wrapping_shr_assign x s = Val (x, Err err) /\ uint_into_wrapping_shr x s = Val (Err err).
Proof. exact (uint_shift_err_fact x w u s). Qed.
Print Assumptions C41_shift_error.
Example C41_shift_error_ex : uint_into_wrapping_shr v100 100 = Val (Err (InvalidShiftAmount 100 100)).
Proof. vm_compute. reflexivity. Qed.

(** C41: truncation keeps the value modulo 2^t, extension keeps the value,
    resizing does whichever applies. *)
Theorem C41_resize x w u t :
  is_uint x w u -> 0 < t ->
  (t <= w -> exists c, uint_truncate x t = Val (c, Ok tt) /\ uint_into_truncate x t = Val (Ok c) /\
    is_uint c t (u mod 2 ^ t)) /\
  (w < t -> uint_truncate x t = Val (x, Err (TruncationBitWidthTooLarge t w)) /\
    uint_into_truncate x t = Val (Err (TruncationBitWidthTooLarge t w))) /\
  (w <= t -> exists c, uint_extend x t = Val (c, Ok tt) /\ uint_into_extend x t = Val (Ok c) /\ is_uint c t u) /\
  (t < w -> uint_extend x t = Val (x, Err (ExtensionBitWidthTooSmall t w)) /\
    uint_into_extend x t = Val (Err (ExtensionBitWidthTooSmall t w))) /\
  (exists c, uint_resize x t = Val c /\ uint_into_resize x t = Val c /\ is_uint c t (u mod 2 ^ t)).
Proof. exact (uint_resize_fact x w u t). Qed.
Print Assumptions C41_resize.
Example C41_resize_ex : uint_into_resize v100 65 = Val (mk_uint (mk_apint 65 [2; 0])) /\
  uint_into_extend (mk_uint e8) 70 = Val (Ok (mk_uint (mk_apint 70 [200; 0]))).
Proof. vm_compute. auto. Qed.

(** C41: the bitwise operations. *)
Theorem C41_bitwise x y w u v :
  is_uint x w u -> is_uint y w v ->
  (exists c, uint_bitand_assign x y = Val (c, Ok tt) /\ uint_into_bitand x y = Val (Ok c) /\ is_uint c w (Z.land u v)) /\
  (exists c, uint_bitor_assign x y = Val (c, Ok tt) /\ uint_into_bitor x y = Val (Ok c) /\ is_uint c w (Z.lor u v)) /\
  (exists c, uint_bitxor_assign x y = Val (c, Ok tt) /\ uint_into_bitxor x y = Val (Ok c) /\ is_uint c w (Z.lxor u v)) /\
  (exists c, uint_bitnot x = Val c /\ uint_into_bitnot x = Val c /\ is_uint c w (2 ^ w - 1 - u)).
Proof. exact (uint_bitwise_fact x y w u v). Qed.
Print Assumptions C41_bitwise.
Example C41_bitwise_ex : uint_into_bitor u100 v100 = Val (Ok (mk_uint (mk_apint 100 [12345678901234567890; 34359738375]))).
Proof. vm_compute. reflexivity. Qed.

(** C41: access to single bits and to all bits. *)
Theorem C41_bits x w u p :
  is_uint x w u ->
  (0 <= p < w -> uint_get_bit_at x p = Val (Ok (Z.testbit u p)) /\
    (exists c, uint_set_bit_at x p = Val (c, Ok tt) /\ is_uint c w (Z.setbit u p)) /\
    (exists c, uint_unset_bit_at x p = Val (c, Ok tt) /\ is_uint c w (Z.clearbit u p)) /\
    (exists c, uint_flip_bit_at x p = Val (c, Ok tt) /\ is_uint c w (Z.lxor u (2 ^ p)))) /\
  (w <= p -> uint_get_bit_at x p = Val (Err (InvalidBitAccess p w)) /\
    uint_set_bit_at x p = Val (x, Err (InvalidBitAccess p w)) /\
    uint_unset_bit_at x p = Val (x, Err (InvalidBitAccess p w)) /\
    uint_flip_bit_at x p = Val (x, Err (InvalidBitAccess p w))) /\
  (exists c, uint_set_all x = Val c /\ is_uint c w (2 ^ w - 1)) /\
  (exists c, uint_unset_all x = Val c /\ is_uint c w 0) /\
  (exists c, uint_flip_all x = Val c /\ is_uint c w (2 ^ w - 1 - u)).
Proof. exact (uint_bit_fact x w u p). Qed.
Print Assumptions C41_bits.
Example C41_bits_ex : uint_get_bit_at v100 99 = Val (Ok true).
Proof. vm_compute. reflexivity. Qed.

(** C41: width, tests and counts. *)
Theorem C41_queries x w u :
  is_uint x w u ->
  uint_width x = w /\ uint_is_zero x = Val (u =? 0) /\ uint_is_all_unset x = Val (u =? 0) /\
  uint_is_even x = Val (Z.even u) /\ uint_is_odd x = Val (Z.odd u) /\
  (exists o z, uint_count_ones x = Val o /\ uint_count_zeros x = Val z /\ o = ones_below u w /\ o + z = w) /\
  (exists k, uint_leading_zeros x = Val k /\ 0 <= k <= w /\ u < 2 ^ (w - k) /\ (k < w -> 2 ^ (w - k - 1) <= u)) /\
  (exists k, uint_trailing_zeros x = Val k /\ (u = 0 -> k = w) /\
    (u <> 0 -> 0 <= k < w /\ Z.testbit u k = true /\ forall i, 0 <= i < k -> Z.testbit u i = false)).
Proof. exact (uint_query_fact x w u). Qed.
Print Assumptions C41_queries.
Example C41_queries_ex : uint_leading_zeros u100 = Val 33 /\ uint_trailing_zeros v100 = Val 1.
Proof. vm_compute. auto. Qed.

(** C41: conversion to primitive types. *)
Theorem C41_primitives x w u :
  is_uint x w u ->
  uint_resize_to_bool x = Val (Z.odd u) /\ uint_resize_to_u8 x = Val (u mod 2 ^ 8) /\
  uint_resize_to_u16 x = Val (u mod 2 ^ 16) /\ uint_resize_to_u32 x = Val (u mod 2 ^ 32) /\
  uint_resize_to_u64 x = Val (u mod 2 ^ 64) /\ uint_resize_to_u128 x = Val (u mod 2 ^ 128) /\
  uint_try_to_bool x = Val (if u =? 0 then Ok false else if u =? 1 then Ok true
    else Err (ValueUnrepresentable (uint_into_apint x) PBool)) /\
  uint_try_to_u8 x = Val (if u <? 2 ^ 8 then Ok u else Err (ValueUnrepresentable (uint_into_apint x) PU8)) /\
  uint_try_to_u16 x = Val (if u <? 2 ^ 16 then Ok u else Err (ValueUnrepresentable (uint_into_apint x) PU16)) /\
  uint_try_to_u32 x = Val (if u <? 2 ^ 32 then Ok u else Err (ValueUnrepresentable (uint_into_apint x) PU32)) /\
  uint_try_to_u64 x = Val (if u <? 2 ^ 64 then Ok u else Err (ValueUnrepresentable (uint_into_apint x) PU64)) /\
  uint_try_to_u128 x = Val (if u <? 2 ^ 128 then Ok u else Err (ValueUnrepresentable (uint_into_apint x) PU128)).
Proof. exact (uint_prim_fact x w u). Qed.
Print Assumptions C41_primitives.
Example C41_primitives_ex : uint_try_to_u128 u100 = Val (Ok 141472887417201429202).
Proof. vm_compute. reflexivity. Qed.

(** C41: construction from primitive values, and the constants. *)
Theorem C41_construction :
  (forall b, exists x, uint_from_bool b = Val x /\ is_uint x 1 (if b : bool then 1 else 0)) /\
  (forall v, 0 <= v < 2 ^ 8 -> exists x, uint_from_u8 v = Val x /\ is_uint x 8 v) /\
  (forall v, 0 <= v < 2 ^ 16 -> exists x, uint_from_u16 v = Val x /\ is_uint x 16 v) /\
  (forall v, 0 <= v < 2 ^ 32 -> exists x, uint_from_u32 v = Val x /\ is_uint x 32 v) /\
  (forall v, 0 <= v < 2 ^ 64 -> exists x, uint_from_u64 v = Val x /\ is_uint x 64 v) /\
  (forall v, 0 <= v < 2 ^ 128 -> exists x, uint_from_u128 v = Val x /\ is_uint x 128 v) /\
  (forall vals, vals <> [] -> Forall digit_ok vals ->
    exists x, uint_from_array vals = Val x /\ is_uint x (64 * Z.of_nat (length vals)) (be_value vals)) /\
  (forall w, 0 < w ->
    (exists x, uint_zero w = Val x /\ uint_all_unset w = Val x /\ uint_min_value w = Val x /\ is_uint x w 0) /\
    (exists x, uint_one w = Val x /\ is_uint x w 1) /\
    (exists x, uint_all_set w = Val x /\ uint_max_value w = Val x /\ is_uint x w (2 ^ w - 1)) /\
    (forall x u, is_uint x w u -> 0 <= u <= 2 ^ w - 1)).
Proof. exact uint_constructor_fact. Qed.
Print Assumptions C41_construction.
Example C41_construction_ex : uint_max_value 8 = Val (mk_uint (mk_apint 8 [255])) /\
  uint_from_array [1; 2] = Val (mk_uint (mk_apint 128 [2; 1])).
Proof. vm_compute. auto. Qed.

(** C41: copying, the view as [Int], equality and hashing, formatting. *)
Theorem C41_other x y w u w' v :
  is_uint x w u -> is_uint y w' v ->
  uint_clone x = Val x /\ uint_assign x y = Val y /\ (w = w' -> uint_strict_assign x y = Val (y, Ok tt)) /\
  is_uint (uint_from_apint (uint_into_apint x)) w u /\
  is_int (uint_into_signed x) w (wrap_signed w u) /\
  (uint_eqb x y = true <-> uint_hash_feed x = uint_hash_feed y) /\
  (exists s, uint_fmt_binary x = Val s /\ canonical_numeral 2 97 s /\ string_value 2 s = u) /\
  (exists s, uint_fmt_lower_hex x = Val s /\ canonical_numeral 16 97 s /\ string_value 16 s = u) /\
  (exists s, uint_fmt_upper_hex x = Val s /\ canonical_numeral 16 65 s /\ string_value 16 s = u).
Proof. exact (uint_other_fact x y w u w' v). Qed.
Print Assumptions C41_other.
Example C41_other_ex : uint_fmt_lower_hex (mk_uint e8) = Val [99; 56].
Proof. vm_compute. reflexivity. Qed.

(** C42: addition, subtraction, multiplication and negation of the signed values,
    wrapped into the signed range. *)
Theorem C42_arithmetic x y w u v :
  is_int x w u -> is_int y w v ->
  (exists c, int_wrapping_add_assign x y = Val (c, Ok tt) /\ int_into_wrapping_add x y = Val (Ok c) /\
    is_int c w (wrap_signed w (u + v))) /\
  (exists c, int_wrapping_sub_assign x y = Val (c, Ok tt) /\ int_into_wrapping_sub x y = Val (Ok c) /\
    is_int c w (wrap_signed w (u - v))) /\
  (exists c, int_wrapping_mul_assign x y = Val (c, Ok tt) /\ int_into_wrapping_mul x y = Val (Ok c) /\
    is_int c w (wrap_signed w (u * v))) /\
  (exists c, int_wrapping_neg x = Val c /\ int_into_wrapping_neg x = Val c /\ is_int c w (wrap_signed w (- u))).
Proof. exact (int_arith_fact x y w u v). Qed.
Print Assumptions C42_arithmetic.
Example C42_arithmetic_ex : is_int i8 8 (-56) /\ is_int j8 8 100 /\ is_int m8 8 (-128) /\
  int_into_wrapping_add i8 j8 = Val (Ok (mk_int (mk_apint 8 [44]))) /\ int_into_wrapping_sub i8 j8 = Val (Ok j8).
Proof. split; [apply is_i8|split; [apply is_j8|split; [apply is_m8|]]]. vm_compute. auto. Qed.

(** C42: nothing is wrapped when the exact result is in range. *)
Theorem C42_no_overflow w z :
  0 < w -> - 2 ^ (w - 1) <= z < 2 ^ (w - 1) -> wrap_signed w z = z.
Proof. exact (int_no_overflow_fact w z). Qed.
Print Assumptions C42_no_overflow.
Example C42_no_overflow_ex : wrap_signed 8 (-128) = -128 /\ wrap_signed 8 (-129) = 127.
Proof. vm_compute. auto. Qed.

(** C42: division truncates toward zero; only the minimum divided by -1 wraps. *)
Theorem C42_division x y w u v :
  is_int x w u -> is_int y w v -> v <> 0 ->
  (exists q, int_wrapping_div_assign x y = Val (q, Ok tt) /\ int_into_wrapping_div x y = Val (Ok q) /\
    is_int q w (wrap_signed w (Z.quot u v)) /\ (~ (u = - 2 ^ (w - 1) /\ v = -1) -> is_int q w (Z.quot u v))) /\
  (exists r, int_wrapping_rem_assign x y = Val (r, Ok tt) /\ int_into_wrapping_rem x y = Val (Ok r) /\
    is_int r w (Z.rem u v)).
Proof. exact (int_div_fact x y w u v). Qed.
Print Assumptions C42_division.
Example C42_division_ex : int_into_wrapping_div i8 (mk_int (mk_apint 8 [10])) = Val (Ok (mk_int (mk_apint 8 [251]))) /\
  int_into_wrapping_rem i8 (mk_int (mk_apint 8 [10])) = Val (Ok (mk_int (mk_apint 8 [250]))) /\
  int_into_wrapping_div m8 (mk_int (mk_apint 8 [255])) = Val (Ok m8).
Proof. vm_compute. auto. Qed.

(** C42: dividing by zero is an error, and the dividend is unchanged. *)
Theorem C42_division_by_zero x y w w' u :
  is_int x w u -> is_int y w' 0 ->
  int_wrapping_div_assign x y = Val (x, Err (DivisionByZero SignedDiv (int_into_apint x))) /\
  int_into_wrapping_div x y = Val (Err (DivisionByZero SignedDiv (int_into_apint x))) /\
  int_wrapping_rem_assign x y = Val (x, Err (DivisionByZero SignedRem (int_into_apint x))) /\
  int_into_wrapping_rem x y = Val (Err (DivisionByZero SignedRem (int_into_apint x))).
Proof. exact (int_div_zero_fact x y w w' u). Qed.
Print Assumptions C42_division_by_zero.
Example C42_division_by_zero_ex : is_int (mk_int z100) 100 0.
Proof. split; [apply wf_z100|split; reflexivity]. Qed.

(** C42: operands of differing widths are an error, and the target is unchanged. *)
Theorem C42_mismatch x y :
  int_width x <> int_width y ->
  let err := UnmatchingBitwidth (int_width x) (int_width y) in
  int_wrapping_add_assign x y = Val (x, Err err) /\ int_into_wrapping_add x y = Val (Err err) /\
  int_wrapping_sub_assign x y = Val (x, Err err) /\ int_into_wrapping_sub x y = Val (Err err) /\
  int_wrapping_mul_assign x y = Val (x, Err err) /\ int_into_wrapping_mul x y = Val (Err err) /\
  int_bitand_assign x y = Val (x, Err err) /\ int_into_bitand x y = Val (Err err) /\
  int_bitor_assign x y = Val (x, Err err) /\ int_into_bitor x y = Val (Err err) /\
  int_bitxor_assign x y = Val (x, Err err) /\ int_into_bitxor x y = Val (Err err) /\
  int_strict_assign x y = Val (x, Err err).
Proof. exact (int_mismatch_fact x y). Qed.
Print Assumptions C42_mismatch.
Example C42_mismatch_ex : int_width i8 <> int_width (mk_int f100).
Proof. discriminate. Qed.

(** C42: so are comparisons of differing widths; two of them report the widths swapped. *)
Theorem C42_comparison_mismatch x y :
  int_width x <> int_width y ->
  let err := UnmatchingBitwidth (int_width x) (int_width y) in
  let swapped := UnmatchingBitwidth (int_width y) (int_width x) in
  int_checked_lt x y = Val (Err err) /\ int_checked_ge x y = Val (Err err) /\
  int_checked_le x y = Val (Err swapped) /\ int_checked_gt x y = Val (Err swapped).
Proof. exact (int_comparison_mismatch x y). Qed.
Print Assumptions C42_comparison_mismatch.
Example C42_comparison_mismatch_ex : int_checked_ge i8 (mk_int f100) = Val (Err (UnmatchingBitwidth 8 100)).
Proof. reflexivity. Qed.

(** C09: the signed division of [Int] panics for differing widths. *)
Theorem C09_int_mismatch_exact x y w w' u v :
  is_int x w u -> is_int y w' v -> w <> w' -> v <> 0 ->
  int_wrapping_div_assign x y = Panic /\ int_into_wrapping_div x y = Panic /\
  int_wrapping_rem_assign x y = Panic /\ int_into_wrapping_rem x y = Panic.
Proof. exact (int_div_mismatch_panic x y w w' u v). Qed.
Print Assumptions C09_int_mismatch_exact.
Example C09_int_mismatch_ex : int_into_wrapping_div i8 (mk_int f100) = Panic.
Proof. vm_compute. reflexivity. Qed.

(** C42: comparisons decide the order of the signed values. *)
Theorem C42_comparison x y w u v :
  is_int x w u -> is_int y w v ->
  int_checked_lt x y = Val (Ok (u <? v)) /\ int_checked_le x y = Val (Ok (u <=? v)) /\
  int_checked_gt x y = Val (Ok (v <? u)) /\ int_checked_ge x y = Val (Ok (v <=? u)) /\
  int_eqb x y = (u =? v).
Proof. exact (int_cmp_fact x y w u v). Qed.
Print Assumptions C42_comparison.
Example C42_comparison_ex : int_checked_lt i8 j8 = Val (Ok true).
Proof. vm_compute. reflexivity. Qed.

(** C42: the left shift multiplies and wraps, the right shift divides rounding
    down. *)
Theorem C42_shift x w v s :
  is_int x w v -> 0 <= s < w ->
  (exists c, int_wrapping_shl_assign x s = Val (c, Ok tt) /\ int_into_wrapping_shl x s = Val (Ok c) /\
    is_int c w (wrap_signed w (v * 2 ^ s))) /\
  (exists c, int_wrapping_shr_assign x s = Val (c, Ok tt) /\ int_into_wrapping_shr x s = Val (Ok c) /\
    is_int c w (v / 2 ^ s)).
Proof. exact (int_shift_fact x w v s). Qed.
Print Assumptions C42_shift.
Example C42_shift_ex : int_into_wrapping_shr i8 4 = Val (Ok (mk_int (mk_apint 8 [252]))) /\ -56 / 2 ^ 4 = -4.
Proof. vm_compute. auto. Qed.

(** C42: a shift by the width or more is an error. *)
Theorem C42_shift_error x w v s :
  is_int x w v -> w <= s ->
  let err := InvalidShiftAmount s w in
  int_wrapping_shl_assign x s = Val (x, Err err) /\ int_into_wrapping_shl x s = Val (Err err) /\
  int_wrapping_shr_assign x s = Val (x, Err err) /\ int_into_wrapping_shr x s = Val (Err err).
Proof. exact (int_shift_err_fact x w v s). Qed.
Print Assumptions C42_shift_error.
Example C42_shift_error_ex : int_into_wrapping_shr i8 8 = Val (Err (InvalidShiftAmount 8 8)).
Proof. vm_compute. reflexivity. Qed.

(** C42: truncation wraps, extension keeps the value, resizing does whichever
    applies. *)
Theorem C42_resize x w v t :
  is_int x w v -> 0 < t ->
  (t <= w -> exists c, int_truncate x t = Val (c, Ok tt) /\ int_into_truncate x t = Val (Ok c) /\
    is_int c t (wrap_signed t v)) /\
  (w < t -> int_truncate x t = Val (x, Err (TruncationBitWidthTooLarge t w)) /\
    int_into_truncate x t = Val (Err (TruncationBitWidthTooLarge t w))) /\
  (w <= t -> exists c, int_extend x t = Val (c, Ok tt) /\ int_into_extend x t = Val (Ok c) /\ is_int c t v) /\
  (t < w -> int_extend x t = Val (x, Err (ExtensionBitWidthTooSmall t w)) /\
    int_into_extend x t = Val (Err (ExtensionBitWidthTooSmall t w))) /\
  (exists c, int_resize x t = Val c /\ int_into_resize x t = Val c /\ is_int c t (wrap_signed t v)).
Proof. exact (int_resize_fact x w v t). Qed.
Print Assumptions C42_resize.
Example C42_resize_ex : int_into_extend i8 70 = Val (Ok (mk_int (mk_apint 70 [18446744073709551560; 63]))).
Proof. vm_compute. reflexivity. Qed.

(** C42: the bitwise operations on two's complement numbers. *)
Theorem C42_bitwise x y w u v :
  is_int x w u -> is_int y w v ->
  (exists c, int_bitand_assign x y = Val (c, Ok tt) /\ int_into_bitand x y = Val (Ok c) /\ is_int c w (Z.land u v)) /\
  (exists c, int_bitor_assign x y = Val (c, Ok tt) /\ int_into_bitor x y = Val (Ok c) /\ is_int c w (Z.lor u v)) /\
  (exists c, int_bitxor_assign x y = Val (c, Ok tt) /\ int_into_bitxor x y = Val (Ok c) /\ is_int c w (Z.lxor u v)) /\
  (exists c, int_bitnot x = Val c /\ int_into_bitnot x = Val c /\ is_int c w (- u - 1)).
Proof. exact (int_bitwise_fact x y w u v). Qed.
Print Assumptions C42_bitwise.
Example C42_bitwise_ex : int_into_bitand i8 j8 = Val (Ok (mk_int (mk_apint 8 [64]))) /\ Z.land (-56) 100 = 64.
Proof. vm_compute. auto. Qed.

(** C42: access to single bits and to all bits. *)
Theorem C42_bits x w v p :
  is_int x w v ->
  (0 <= p < w -> int_get_bit_at x p = Val (Ok (Z.testbit v p)) /\
    (exists c, int_set_bit_at x p = Val (c, Ok tt) /\ is_int c w (wrap_signed w (Z.setbit v p))) /\
    (exists c, int_unset_bit_at x p = Val (c, Ok tt) /\ is_int c w (wrap_signed w (Z.clearbit v p))) /\
    (exists c, int_flip_bit_at x p = Val (c, Ok tt) /\ is_int c w (wrap_signed w (Z.lxor v (2 ^ p))))) /\
  (w <= p -> int_get_bit_at x p = Val (Err (InvalidBitAccess p w)) /\
    int_set_bit_at x p = Val (x, Err (InvalidBitAccess p w)) /\
    int_unset_bit_at x p = Val (x, Err (InvalidBitAccess p w)) /\
    int_flip_bit_at x p = Val (x, Err (InvalidBitAccess p w))) /\
  (exists c, int_set_all x = Val c /\ is_int c w (-1)) /\
  (exists c, int_unset_all x = Val c /\ is_int c w 0) /\
  (exists c, int_flip_all x = Val c /\ is_int c w (- v - 1)).
Proof. exact (int_bit_fact x w v p). Qed.
Print Assumptions C42_bits.
Example C42_bits_ex : int_set_bit_at j8 7 = Val (mk_int (mk_apint 8 [228]), Ok tt) /\ wrap_signed 8 (Z.setbit 100 7) = -28.
Proof. vm_compute. auto. Qed.

(** C42: access to the sign bit. *)
Theorem C42_sign_bit x w v :
  is_int x w v ->
  int_msb x = Val (v <? 0) /\
  (exists c, int_set_msb x = Val c /\ is_int c w (if v <? 0 then v else v - 2 ^ (w - 1))) /\
  (exists c, int_unset_msb x = Val c /\ is_int c w (if v <? 0 then v + 2 ^ (w - 1) else v)) /\
  (exists c, int_flip_msb x = Val c /\ is_int c w (if v <? 0 then v + 2 ^ (w - 1) else v - 2 ^ (w - 1))).
Proof. exact (int_msb_fact x w v). Qed.
Print Assumptions C42_sign_bit.
Example C42_sign_bit_ex : int_set_msb j8 = Val (mk_int (mk_apint 8 [228])).
Proof. vm_compute. reflexivity. Qed.

(** C42: width, tests, sign and counts.  [is_positive] holds for zero also. *)
Theorem C42_queries x w v :
  is_int x w v ->
  int_width x = w /\ int_is_zero x = Val (v =? 0) /\ int_is_all_unset x = Val (v =? 0) /\
  int_is_even x = Val (Z.even v) /\ int_is_odd x = Val (Z.odd v) /\
  int_is_positive x = Val (0 <=? v) /\ int_is_negative x = Val (v <? 0) /\ int_signum x = Val (Z.sgn v) /\
  (exists o z, int_count_ones x = Val o /\ int_count_zeros x = Val z /\ o = ones_below v w /\ o + z = w) /\
  (exists k, int_leading_zeros x = Val k /\ (v < 0 -> k = 0) /\
    (0 <= v -> 0 < k <= w /\ v < 2 ^ (w - k) /\ (k < w -> 2 ^ (w - k - 1) <= v))) /\
  (exists k, int_trailing_zeros x = Val k /\ (v = 0 -> k = w) /\
    (v <> 0 -> 0 <= k < w /\ Z.testbit v k = true /\ forall i, 0 <= i < k -> Z.testbit v i = false)).
Proof. exact (int_query_fact x w v). Qed.
Print Assumptions C42_queries.
Example C42_queries_ex : int_signum i8 = Val (-1) /\ int_is_positive (mk_int z100) = Val true /\ int_leading_zeros j8 = Val 1.
Proof. vm_compute. auto. Qed.

(** C42: the absolute value, which wraps only at the minimum. *)
Theorem C42_abs x w v :
  is_int x w v ->
  exists c, int_wrapping_abs x = Val c /\ int_into_abs x = Val c /\
    (v <> - 2 ^ (w - 1) -> is_int c w (Z.abs v)) /\ (v = - 2 ^ (w - 1) -> is_int c w v).
Proof. exact (int_abs_fact x w v). Qed.
Print Assumptions C42_abs.
Example C42_abs_ex : int_into_abs i8 = Val (mk_int (mk_apint 8 [56])) /\ int_into_abs m8 = Val m8.
Proof. vm_compute. auto. Qed.

(** C42: resizing to primitive types. *)
Theorem C42_primitives x w v :
  is_int x w v ->
  int_resize_to_bool x = Val (Z.odd v) /\ int_resize_to_i8 x = Val (wrap_signed 8 v) /\
  int_resize_to_i16 x = Val (wrap_signed 16 v) /\ int_resize_to_i32 x = Val (wrap_signed 32 v) /\
  int_resize_to_i64 x = Val (wrap_signed 64 v) /\ int_resize_to_i128 x = Val (wrap_signed 128 v).
Proof. exact (int_prim_fact x w v). Qed.
Print Assumptions C42_primitives.
Example C42_primitives_ex : int_resize_to_i128 i8 = Val (-56) /\ int_resize_to_i8 (mk_int f100) = Val 2.
Proof. vm_compute. auto. Qed.

(** C42: construction from primitive values, and the constants; there is no one
    at width 1. *)
Theorem C42_construction :
  (forall b, exists x, int_from_bool b = Val x /\ is_int x 1 (if b : bool then -1 else 0)) /\
  (forall v, - 2 ^ 7 <= v < 2 ^ 7 -> exists x, int_from_i8 v = Val x /\ is_int x 8 v) /\
  (forall v, - 2 ^ 15 <= v < 2 ^ 15 -> exists x, int_from_i16 v = Val x /\ is_int x 16 v) /\
  (forall v, - 2 ^ 31 <= v < 2 ^ 31 -> exists x, int_from_i32 v = Val x /\ is_int x 32 v) /\
  (forall v, - 2 ^ 63 <= v < 2 ^ 63 -> exists x, int_from_i64 v = Val x /\ is_int x 64 v) /\
  (forall v, - 2 ^ 127 <= v < 2 ^ 127 -> exists x, int_from_i128 v = Val x /\ is_int x 128 v) /\
  (forall w, 0 < w ->
    (exists x, int_zero w = Val x /\ int_all_unset w = Val x /\ is_int x w 0) /\
    (w = 1 -> int_one w = Val None) /\
    (1 < w -> exists x, int_one w = Val (Some x) /\ is_int x w 1) /\
    (exists x, int_all_set w = Val x /\ is_int x w (-1)) /\
    (exists x, int_min_value w = Val x /\ is_int x w (- 2 ^ (w - 1))) /\
    (exists x, int_max_value w = Val x /\ is_int x w (2 ^ (w - 1) - 1)) /\
    (forall x v, is_int x w v -> - 2 ^ (w - 1) <= v <= 2 ^ (w - 1) - 1)) /\
  (forall vals, vals <> [] -> let w := 64 * Z.of_nat (length vals) in
    exists x, int_from_array vals = Val x /\ is_int x w (wrap_signed w (be_value (map (fun v => v mod 2 ^ 64) vals)))).
Proof. exact int_constructor_fact. Qed.
Print Assumptions C42_construction.
Example C42_construction_ex : int_min_value 8 = Val m8 /\ int_one 1 = Val None /\ int_from_i8 (-56) = Val i8.
Proof. vm_compute. auto. Qed.

(** C42: copying, the view as [UInt], equality and hashing, formatting (of the
    bits, without sign). *)
Theorem C42_other x y w v w' v' :
  is_int x w v -> is_int y w' v' ->
  int_clone x = Val x /\ int_assign x y = Val y /\ (w = w' -> int_strict_assign x y = Val (y, Ok tt)) /\
  is_int (int_from_apint (int_into_apint x)) w v /\
  is_uint (int_into_unsigned x) w (v mod 2 ^ w) /\
  (int_eqb x y = true <-> int_hash_feed x = int_hash_feed y) /\
  (exists s, int_fmt_binary x = Val s /\ canonical_numeral 2 97 s /\ string_value 2 s = v mod 2 ^ w) /\
  (exists s, int_fmt_lower_hex x = Val s /\ canonical_numeral 16 97 s /\ string_value 16 s = v mod 2 ^ w) /\
  (exists s, int_fmt_upper_hex x = Val s /\ canonical_numeral 16 65 s /\ string_value 16 s = v mod 2 ^ w).
Proof. exact (int_other_fact x y w v w' v'). Qed.
Print Assumptions C42_other.
Example C42_other_ex : int_fmt_upper_hex i8 = Val [67; 56].
Proof. vm_compute. reflexivity. Qed.

(** C18, part: the two defective predicates, for [UInt]. *)
Theorem C18_uint_partial x w u :
  is_uint x w u ->
  (w <= 64 -> uint_is_one x = Val (u =? 1)) /\ (w mod 64 <> 0 -> uint_is_all_set x = Val (u =? 2 ^ w - 1)).
Proof. exact (uint_predicates_partial x w u). Qed.
Print Assumptions C18_uint_partial.
Example C18_uint_ex : uint_is_one (mk_uint e8) = Val false /\ uint_is_one (mk_uint (mk_apint 100 [1; 0])) = Val false.
Proof. vm_compute. auto. Qed.

(** C18, part: the two defective predicates, for [Int]. *)
Theorem C18_int_partial x w v :
  is_int x w v ->
  (w <= 64 -> int_is_one x = Val (v =? 1)) /\ (w mod 64 <> 0 -> int_is_all_set x = Val (v =? -1)).
Proof. exact (int_predicates_partial x w v). Qed.
Print Assumptions C18_int_partial.
Example C18_int_ex : int_is_all_set (mk_int e100) = Val true /\ int_is_one (mk_int (mk_apint 100 [1; 0])) = Val false.
Proof. vm_compute. auto. Qed.

(** C31, part: checked conversion of an [Int]. *)
Theorem C31_int_partial x w v :
  is_int x w v ->
  (w <= 8 \/ 0 <= v < 2 ^ 7 -> int_try_to_i8 x = Val (Ok v)) /\
  (w <= 16 \/ 0 <= v < 2 ^ 15 -> int_try_to_i16 x = Val (Ok v)) /\
  (w <= 32 \/ 0 <= v < 2 ^ 31 -> int_try_to_i32 x = Val (Ok v)) /\
  (w <= 64 \/ 0 <= v < 2 ^ 63 -> int_try_to_i64 x = Val (Ok v)) /\
  (w <= 128 \/ 0 <= v < 2 ^ 127 -> int_try_to_i128 x = Val (Ok v)) /\
  (0 <= v -> int_try_to_bool x = Val (if v =? 0 then Ok false else if v =? 1 then Ok true
    else Err (ValueUnrepresentable (int_into_apint x) PBool))) /\
  (v < 0 -> 1 < w -> int_try_to_bool x = Val (Err (ValueUnrepresentable (int_into_apint x) PBool))).
Proof. exact (int_try_partial x w v). Qed.
Print Assumptions C31_int_partial.
Example C31_int_ex : int_try_to_i8 i8 = Val (Ok (-56)) /\ int_try_to_i8 (mk_int (mk_apint 16 [200])) = Val (Ok (-56)).
Proof. vm_compute. auto. Qed.

(** C40 for [UInt]. *)
Theorem C40_uint :
  forall (S : Type) (next : S -> Z * S) s, (forall s, digit_ok (fst (next s))) ->
  (forall w, 0 < w -> let n := Z.to_nat ((w + 63) / 64) in
    exists c, uint_random_with_width_using next w s = Val (c, state_after next n s) /\
      is_uint c w (words_value next n s mod 2 ^ w)) /\
  (forall x w u, is_uint x w u -> let n := Z.to_nat ((w + 63) / 64) in
    exists c, uint_randomize_using next x s = Val (c, state_after next n s) /\
      is_uint c w (words_value next n s mod 2 ^ w)).
Proof. exact uint_random_fact. Qed.
Print Assumptions C40_uint.
Example C40_uint_ex : (forall s, digit_ok (fst (play s))) /\
  uint_random_with_width_using play 8 [511; 7] = Val (mk_uint (mk_apint 8 [255]), [7]).
Proof. split; [apply play_ok|vm_compute; reflexivity]. Qed.

(** C40 for [Int]. *)
Theorem C40_int :
  forall (S : Type) (next : S -> Z * S) s, (forall s, digit_ok (fst (next s))) ->
  (forall w, 0 < w -> let n := Z.to_nat ((w + 63) / 64) in
    exists c, int_random_with_width_using next w s = Val (c, state_after next n s) /\
      is_int c w (wrap_signed w (words_value next n s))) /\
  (forall x w v, is_int x w v -> let n := Z.to_nat ((w + 63) / 64) in
    exists c, int_randomize_using next x s = Val (c, state_after next n s) /\
      is_int c w (wrap_signed w (words_value next n s))).
Proof. exact int_random_fact. Qed.
Print Assumptions C40_int.
Example C40_int_ex : int_random_with_width_using play 8 [511; 7] = Val (mk_int (mk_apint 8 [255]), [7]).
Proof. vm_compute. reflexivity. Qed.

(** C43: at equal widths the order is that of the values. *)
Theorem C43_uint_same_width x y w u v :
  is_uint x w u -> is_uint y w v ->
  uint_partial_cmp x y = Val (Some (u ?= v)) /\
  uint_lt x y = Val (u <? v) /\ uint_le x y = Val (u <=? v) /\ uint_gt x y = Val (v <? u) /\ uint_ge x y = Val (v <=? u).
Proof. exact (uint_order_eq_fact x y w u v). Qed.
Print Assumptions C43_uint_same_width.
Example C43_uint_same_width_ex : uint_partial_cmp u100 v100 = Val (Some Lt) /\ uint_ge v100 u100 = Val true.
Proof. vm_compute. auto. Qed.

(** C43: at differing widths nothing is comparable. *)
Theorem C43_uint_mismatch x y :
  uint_width x <> uint_width y ->
  uint_partial_cmp x y = Val None /\ uint_eqb x y = false /\
  uint_lt x y = Val false /\ uint_le x y = Val false /\ uint_gt x y = Val false /\ uint_ge x y = Val false.
Proof. exact (uint_order_mismatch_fact x y). Qed.
Print Assumptions C43_uint_mismatch.
Example C43_uint_mismatch_ex : uint_width u100 <> uint_width (mk_uint e8) /\ uint_le u100 (mk_uint e8) = Val false.
Proof. split; [discriminate|vm_compute; reflexivity]. Qed.

(** C43: the laws of a partial order, total among equal widths. *)
Theorem C43_uint_laws x y z wx wy wz u v t :
  is_uint x wx u -> is_uint y wy v -> is_uint z wz t ->
  (uint_partial_cmp x y = Val None <-> wx <> wy) /\
  (uint_partial_cmp x y = Val (Some Eq) <-> uint_eqb x y = true) /\
  (uint_partial_cmp x y = Val (Some Lt) <-> uint_lt x y = Val true) /\
  (uint_partial_cmp x y = Val (Some Gt) <-> uint_gt x y = Val true) /\
  (uint_le x y = Val true <-> uint_lt x y = Val true \/ uint_eqb x y = true) /\
  (uint_ge x y = Val true <-> uint_gt x y = Val true \/ uint_eqb x y = true) /\
  (uint_gt x y = uint_lt y x) /\ (uint_ge x y = uint_le y x) /\
  uint_le x x = Val true /\ uint_lt x x = Val false /\
  (uint_le x y = Val true -> uint_le y x = Val true -> x = y) /\
  (uint_lt x y = Val true -> uint_lt y z = Val true -> uint_lt x z = Val true) /\
  (uint_le x y = Val true -> uint_le y z = Val true -> uint_le x z = Val true) /\
  (wx = wy -> uint_le x y = Val true \/ uint_le y x = Val true).
Proof. exact (uint_order_laws x y z wx wy wz u v t). Qed.
Print Assumptions C43_uint_laws.
Example C43_uint_laws_ex : is_uint u100 100 141472887417201429202 /\ is_uint v100 100 633825300114114700748351602690 /\
  uint_lt u100 v100 = Val true /\ uint_lt v100 (mk_uint e100) = Val true /\ uint_lt u100 (mk_uint e100) = Val true.
Proof. split; [apply is_u100|split; [apply is_v100|]]. vm_compute. auto. Qed.

(** C43: at equal widths the order is that of the values. *)
Theorem C43_int_same_width x y w u v :
  is_int x w u -> is_int y w v ->
  int_partial_cmp x y = Val (Some (u ?= v)) /\
  int_lt x y = Val (u <? v) /\ int_le x y = Val (u <=? v) /\ int_gt x y = Val (v <? u) /\ int_ge x y = Val (v <=? u).
Proof. exact (int_order_eq_fact x y w u v). Qed.
Print Assumptions C43_int_same_width.
Example C43_int_same_width_ex : int_partial_cmp i8 j8 = Val (Some Lt) /\ int_ge i8 j8 = Val false.
Proof. vm_compute. auto. Qed.

(** C43: at differing widths nothing is comparable. *)
Theorem C43_int_mismatch x y :
  int_width x <> int_width y ->
  int_partial_cmp x y = Val None /\ int_eqb x y = false /\
  int_lt x y = Val false /\ int_le x y = Val false /\ int_gt x y = Val false /\ int_ge x y = Val false.
Proof. exact (int_order_mismatch_fact x y). Qed.
Print Assumptions C43_int_mismatch.
Example C43_int_mismatch_ex : int_width i8 <> int_width (mk_int f100) /\ int_gt i8 (mk_int f100) = Val false.
Proof. split; [discriminate|vm_compute; reflexivity]. Qed.

(** C43: the laws of a partial order, total among equal widths. *)
Theorem C43_int_laws x y z wx wy wz u v t :
  is_int x wx u -> is_int y wy v -> is_int z wz t ->
  (int_partial_cmp x y = Val None <-> wx <> wy) /\
  (int_partial_cmp x y = Val (Some Eq) <-> int_eqb x y = true) /\
  (int_partial_cmp x y = Val (Some Lt) <-> int_lt x y = Val true) /\
  (int_partial_cmp x y = Val (Some Gt) <-> int_gt x y = Val true) /\
  (int_le x y = Val true <-> int_lt x y = Val true \/ int_eqb x y = true) /\
  (int_ge x y = Val true <-> int_gt x y = Val true \/ int_eqb x y = true) /\
  (int_gt x y = int_lt y x) /\ (int_ge x y = int_le y x) /\
  int_le x x = Val true /\ int_lt x x = Val false /\
  (int_le x y = Val true -> int_le y x = Val true -> x = y) /\
  (int_lt x y = Val true -> int_lt y z = Val true -> int_lt x z = Val true) /\
  (int_le x y = Val true -> int_le y z = Val true -> int_le x z = Val true) /\
  (wx = wy -> int_le x y = Val true \/ int_le y x = Val true).
Proof. exact (int_order_laws x y z wx wy wz u v t). Qed.
Print Assumptions C43_int_laws.
Example C43_int_laws_ex : is_int m8 8 (-128) /\ is_int i8 8 (-56) /\ is_int j8 8 100 /\
  int_lt m8 i8 = Val true /\ int_lt i8 j8 = Val true /\ int_lt m8 j8 = Val true.
Proof. split; [apply is_m8|split; [apply is_i8|split; [apply is_j8|]]]. vm_compute. auto. Qed.
