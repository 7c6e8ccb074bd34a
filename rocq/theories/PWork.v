(** Property C104: how many digits a call reads, writes and allocates, exactly.  The digits are counted in the lists of MWatch.v and MWatchMul.v, whose calls return what the plain calls return (C102, C103).
    Besides, C96 and C97 bound the steps of these calls from above.  [digit_count], [partly_used], [digits_needed], [how_many] and [work] are in SpecWork.v. *)
From Verif Require Import LWork8 LEx.

(** C104: calls with one operand that do the same for every value read and write each digit once, those that look at one bit read one digit, and cloning allocates what it needs. *)
Theorem C104_one a p n x :
  wf a -> n = digit_count (len a) -> x = partly_used (len a) ->
  work (fst (w_bitnot a)) (n + x) (n + x) 0 /\ work (fst (w_set_all a)) (n + x) (n + x) 0 /\ work (fst (w_flip_all a)) (n + x) (n + x) 0 /\ work (fst (w_unset_all a)) n n 0 /\
  work (fst (w_count_ones a)) n 0 0 /\ work (fst (w_count_zeros a)) n 0 0 /\ work (fst (w_hash_feed a)) n 0 0 /\
  work (fst (w_msb a)) 1 0 0 /\ work (fst (w_lsb a)) 1 0 0 /\ work (fst (w_is_even a)) 1 0 0 /\ work (fst (w_is_odd a)) 1 0 0 /\
  work (fst (w_clone p a)) n n (if len a <=? 64 then 0 else n).
Proof. exact (work_one_fact a p n x). Qed.
Print Assumptions C104_one.
Definition C104_x := mk_apint 200 [18446744073709551615; 0; 5; 7].
Definition C104_y := mk_apint 200 [7; 18446744073709551615; 5; 7].
Example C104_one_ex : wf C104_x /\ digit_count (len C104_x) = 4 /\ partly_used (len C104_x) = 1 /\ work (fst (w_bitnot C104_x)) 5 5 0 /\ work (fst (w_unset_all C104_x)) 4 4 0 /\ work (fst (w_clone Other C104_x)) 4 4 4.
Proof. split; [wf_now|]. vm_compute. repeat split. Qed.

(** C104: reading or changing one bit touches one digit, however wide the integer is. *)
Theorem C104_bit a s :
  wf a -> 0 <= s < len a ->
  work (fst (w_get_bit_at a s)) 1 0 0 /\ work (fst (w_set_bit_at a s)) 1 1 0 /\ work (fst (w_unset_bit_at a s)) 1 1 0 /\ work (fst (w_flip_bit_at a s)) 1 1 0.
Proof. exact (work_bit_fact a s). Qed.
Print Assumptions C104_bit.
Example C104_bit_ex : 0 <= 130 < len C104_x /\ work (fst (w_flip_bit_at C104_x 130)) 1 1 0.
Proof. vm_compute. repeat split; discriminate. Qed.

(** C104: the bitwise operations, addition and subtraction read each digit of both operands once and write each once. *)
Theorem C104_two a b n x :
  wf a -> wf b -> len a = len b -> n = digit_count (len a) -> x = partly_used (len a) ->
  work (fst (w_bitand_assign a b)) (2 * n) n 0 /\ work (fst (w_bitor_assign a b)) (2 * n) n 0 /\ work (fst (w_bitxor_assign a b)) (2 * n) n 0 /\
  work (fst (w_wrapping_add_assign a b)) (2 * n + x) (n + x) 0 /\ work (fst (w_wrapping_sub_assign a b)) (2 * n + x) (n + x) 0.
Proof. exact (work_two_fact a b n x). Qed.
Print Assumptions C104_two.
Example C104_two_ex : wf C104_y /\ len C104_x = len C104_y /\ work (fst (w_wrapping_sub_assign C104_x C104_y)) 9 5 0 /\ work (fst (w_bitxor_assign C104_x C104_y)) 8 4 0.
Proof. split; [wf_now|]. vm_compute. repeat split. Qed.

(** C104: adding one touches a digit exactly if all digits below are full, subtracting one and the search for trailing zeros if all digits below are zero, and the search for leading zeros if all digits above are zero. *)
Theorem C104_scan a n x z o h :
  wf a -> n = digit_count (len a) -> x = partly_used (len a) ->
  z = how_many n (fun i => unsigned a mod 2 ^ (64 * i) =? 0) -> o = how_many n (fun i => (unsigned a + 1) mod 2 ^ (64 * i) =? 0) -> h = how_many n (fun i => unsigned a / 2 ^ (64 * (n - i)) =? 0) ->
  work (fst (w_wrapping_inc a)) (o + x) (o + x) 0 /\ work (fst (w_wrapping_dec a)) (z + x) (z + x) 0 /\ work (fst (w_wrapping_neg a)) (n + z + 2 * x) (n + z + 2 * x) 0 /\
  work (fst (w_is_zero a)) z 0 0 /\ work (fst (w_trailing_zeros a)) z 0 0 /\ work (fst (w_leading_zeros a)) h 0 0.
Proof. exact (work_scan_fact a n x z o h). Qed.
Print Assumptions C104_scan.
Example C104_scan_ex : how_many 4 (fun i => (unsigned C104_x + 1) mod 2 ^ (64 * i) =? 0) = 2 /\ how_many 4 (fun i => unsigned C104_x mod 2 ^ (64 * i) =? 0) = 1 /\
  work (fst (w_wrapping_inc C104_x)) 3 3 0 /\ work (fst (w_wrapping_neg C104_x)) 7 7 0 /\ work (fst (w_leading_zeros (mk_apint 200 [1; 2; 0; 0]))) 3 0 0.
Proof. vm_compute. repeat split. Qed.

(** C104: asking for equality reads pairs of digits from the lowest on, up to the first that differ; unsigned comparisons, from the highest on; signed comparisons read the two highest digits for the signs, besides. *)
Theorem C104_compare a b n l h :
  wf a -> wf b -> len a = len b -> n = digit_count (len a) ->
  l = how_many n (fun i => unsigned a mod 2 ^ (64 * i) =? unsigned b mod 2 ^ (64 * i)) -> h = how_many n (fun i => unsigned a / 2 ^ (64 * (n - i)) =? unsigned b / 2 ^ (64 * (n - i))) ->
  work (fst (w_apint_eqb a b)) (2 * l) 0 0 /\ work (fst (w_checked_ult a b)) (2 * h) 0 0 /\
  (len a <= 64 -> work (fst (w_checked_slt a b)) 2 0 0) /\
  (64 < len a -> (signed a < 0 <-> signed b < 0) -> work (fst (w_checked_slt a b)) (2 + 2 * h) 0 0) /\
  (64 < len a -> ~ (signed a < 0 <-> signed b < 0) -> work (fst (w_checked_slt a b)) 2 0 0).
Proof. exact (work_compare_fact a b n l h). Qed.
Print Assumptions C104_compare.
Example C104_compare_ex : how_many 4 (fun i => unsigned C104_x / 2 ^ (64 * (4 - i)) =? unsigned C104_y / 2 ^ (64 * (4 - i))) = 3 /\
  work (fst (w_apint_eqb C104_x C104_y)) 2 0 0 /\ work (fst (w_checked_ult C104_x C104_y)) 6 0 0 /\ work (fst (w_checked_slt C104_x C104_y)) 8 0 0.
Proof. vm_compute. repeat split. Qed.

(** C104: shifts move whole digits in one pass and bits in another; a shift by a multiple of 64 needs only the first pass, a shift by less than 64 only the second. *)
Theorem C104_shift a s n x k :
  wf a -> 0 <= s < len a -> n = digit_count (len a) -> x = partly_used (len a) -> k = s / 64 ->
  (len a <= 64 -> work (fst (w_wrapping_shl_assign a s)) (1 + x) (1 + x) 0 /\ work (fst (w_wrapping_lshr_assign a s)) 1 1 0) /\
  (64 < len a ->
   work (fst (w_wrapping_shl_assign a s)) ((if s <? 64 then 0 else n - k) + (if s mod 64 =? 0 then 0 else n - k) + x) ((if s <? 64 then 0 else n) + (if s mod 64 =? 0 then 0 else n - k) + x) 0 /\
   work (fst (w_wrapping_lshr_assign a s)) ((if s <? 64 then 0 else n) + (if s mod 64 =? 0 then 0 else n)) ((if s <? 64 then 0 else n + k) + (if s mod 64 =? 0 then 0 else n)) 0).
Proof. exact (work_shift_fact a s n x k). Qed.
Print Assumptions C104_shift.
Example C104_shift_ex : work (fst (w_wrapping_shl_assign C104_x 70)) 7 8 0 /\ work (fst (w_wrapping_shl_assign C104_x 128)) 3 5 0 /\ work (fst (w_wrapping_lshr_assign C104_x 70)) 8 9 0 /\ work (fst (w_wrapping_lshr_assign C104_x 0)) 0 0 0.
Proof. vm_compute. repeat split. Qed.

(** C104: arithmetic shifts read the sign; then they do what the logical shift does if the integer is not negative, and one pass if it is. *)
Theorem C104_ashr a s n x k :
  wf a -> 0 <= s < len a -> n = digit_count (len a) -> x = partly_used (len a) -> k = s / 64 ->
  (0 <= signed a -> forall r w, work (fst (w_wrapping_lshr_assign a s)) r w 0 -> work (fst (w_wrapping_ashr_assign a s)) (1 + r) w 0) /\
  (signed a < 0 -> s = 0 -> work (fst (w_wrapping_ashr_assign a s)) 1 0 0) /\
  (signed a < 0 -> 0 < s -> len a <= 64 -> work (fst (w_wrapping_ashr_assign a s)) (2 + x) (1 + x) 0) /\
  (signed a < 0 -> 0 < s -> 64 < len a -> s mod 64 = 0 -> work (fst (w_wrapping_ashr_assign a s)) (n + 1 + 2 * x) (n + 2 * x) 0) /\
  (signed a < 0 -> 0 < s -> 64 < len a -> s mod 64 <> 0 -> work (fst (w_wrapping_ashr_assign a s)) (2 * n - k + 2 * x) (n + 2 * x) 0).
Proof. exact (work_ashr_fact a s n x k). Qed.
Print Assumptions C104_ashr.
Definition C104_n := mk_apint 200 [1; 2; 3; 255].
Example C104_ashr_ex : wf C104_n /\ signed C104_n < 0 /\ 0 <= signed C104_x /\ work (fst (w_wrapping_ashr_assign C104_n 70)) 9 6 0 /\ work (fst (w_wrapping_ashr_assign C104_n 64)) 7 6 0 /\
  work (fst (w_wrapping_ashr_assign C104_x 70)) 9 9 0.
Proof. split; [wf_now|]. vm_compute. repeat split; discriminate. Qed.

(** C104: a product of integers of more than 64 bits.  First the digits that are needed for each factor are searched from the top.  Factors that need one digit are multiplied in place, in one pass; products that surely fit take space for as many digits as both factors need and about three accesses for each pair of needed digits; and all others take space for all digits and the square of their number, whatever the factors are. *)
Theorem C104_mul a b n x l r :
  wf a -> wf b -> len a = len b -> 64 < len a ->
  n = digit_count (len a) -> x = partly_used (len a) -> l = digits_needed (unsigned a) -> r = digits_needed (unsigned b) ->
  (r = 0 -> work (fst (w_wrapping_mul_assign a b)) n n 0) /\
  (0 < r -> l = 0 -> work (fst (w_wrapping_mul_assign a b)) (2 * n + 1 - r) n 0) /\
  (l = 1 -> r = 1 -> work (fst (w_wrapping_mul_assign a b)) (2 * n + 2 + x) (2 + x) 0) /\
  (l = 1 -> 1 < r -> work (fst (w_wrapping_mul_assign a b)) (2 * n + 2 + x) (Z.min n (r + 1) + x) 0) /\
  (1 < l -> r = 1 -> work (fst (w_wrapping_mul_assign a b)) (2 * n + 1 + l + x) (Z.min n (l + 1) + x) 0) /\
  (1 < l -> 1 < r -> Z.log2 (unsigned a) + Z.log2 (unsigned b) + 2 <= 64 * n ->
   work (fst (w_wrapping_mul_assign a b)) (2 * n + 4 + 2 * (l - 1) * r + Z.min n (l + r) + x) (l * (r + 1) + Z.min n (l + r) + x) (l + r)) /\
  (1 < l -> 1 < r -> 64 * n < Z.log2 (unsigned a) + Z.log2 (unsigned b) + 2 ->
   work (fst (w_wrapping_mul_assign a b)) (3 * (n * (n + 1) / 2) + 2 * n + 3 - l - r + x) (n * (n + 1) / 2 + n - 1 + x) n).
Proof. exact (work_mul_fact a b n x l r). Qed.
Print Assumptions C104_mul.
Definition C104_l := mk_apint 320 [1; 2; 3; 4; 5].
Definition C104_r := mk_apint 320 [7; 9; 0; 0; 0].
Definition C104_s := mk_apint 320 [7; 9; 11; 0; 0].
Example C104_mul_ex : wf C104_l /\ wf C104_r /\ wf C104_s /\ digits_needed (unsigned C104_l) = 5 /\ digits_needed (unsigned C104_r) = 2 /\
  64 * 5 < Z.log2 (unsigned C104_l) + Z.log2 (unsigned C104_r) + 2 /\ Z.log2 (unsigned C104_s) + Z.log2 (unsigned C104_r) + 2 <= 64 * 5 /\
  work (fst (w_wrapping_mul_assign C104_l C104_r)) 51 19 5 /\ work (fst (w_wrapping_mul_assign C104_s C104_r)) 27 14 5.
Proof. do 3 (split; [wf_now|]). vm_compute. repeat split; discriminate. Qed.

(** C104: a product of integers of at most 64 bits reads each factor once and writes once, and clears the unused bits. *)
Theorem C104_mul_small a b :
  wf a -> wf b -> len a = len b -> len a <= 64 -> work (fst (w_wrapping_mul_assign a b)) (2 + partly_used (len a)) (1 + partly_used (len a)) 0.
Proof. exact (work_mul_small_fact a b). Qed.
Print Assumptions C104_mul_small.
Example C104_mul_small_ex : wf (mk_apint 60 [5]) /\ work (fst (w_wrapping_mul_assign (mk_apint 60 [5]) (mk_apint 60 [7]))) 3 2 0.
Proof. split; [wf_now|]. vm_compute. repeat split. Qed.

(** C104: calls that are refused touch no digit: those with operands of different widths and those with positions or amounts that are too large; arithmetic shifts have read the sign before they are refused. *)
Theorem C104_refused a b s :
  wf a -> wf b -> len a <> len b -> len a <= s ->
  work (fst (w_bitand_assign a b)) 0 0 0 /\ work (fst (w_bitor_assign a b)) 0 0 0 /\ work (fst (w_bitxor_assign a b)) 0 0 0 /\
  work (fst (w_wrapping_add_assign a b)) 0 0 0 /\ work (fst (w_wrapping_sub_assign a b)) 0 0 0 /\ work (fst (w_wrapping_mul_assign a b)) 0 0 0 /\
  work (fst (w_apint_eqb a b)) 0 0 0 /\ work (fst (w_checked_ult a b)) 0 0 0 /\ work (fst (w_checked_slt a b)) 0 0 0 /\ work (fst (w_strict_assign a b)) 0 0 0 /\
  work (fst (w_get_bit_at a s)) 0 0 0 /\ work (fst (w_set_bit_at a s)) 0 0 0 /\ work (fst (w_unset_bit_at a s)) 0 0 0 /\ work (fst (w_flip_bit_at a s)) 0 0 0 /\
  work (fst (w_wrapping_shl_assign a s)) 0 0 0 /\ work (fst (w_wrapping_lshr_assign a s)) 0 0 0 /\ work (fst (w_wrapping_ashr_assign a s)) 1 0 0.
Proof. exact (work_refused_fact a b s). Qed.
Print Assumptions C104_refused.
Example C104_refused_ex : wf C104_x /\ wf C104_l /\ len C104_x <> len C104_l /\ len C104_x <= 300 /\ work (fst (w_wrapping_mul_assign C104_x C104_l)) 0 0 0 /\ work (fst (w_wrapping_ashr_assign C104_x 300)) 1 0 0.
Proof. do 2 (split; [wf_now|]). vm_compute. repeat split; discriminate. Qed.

(** C104: assigning reads and writes as many digits as the source has, and takes new space for them only if the numbers of digits differ and the source has more than 64 bits. *)
Theorem C104_assign a b n :
  wf a -> wf b -> n = digit_count (len b) ->
  work (fst (w_assign a b)) n n (if (digit_count (len a) =? n) || (len b <=? 64) then 0 else n) /\ (len a = len b -> work (fst (w_strict_assign a b)) n n 0).
Proof. exact (work_assign_fact a b n). Qed.
Print Assumptions C104_assign.
Example C104_assign_ex : work (fst (w_assign C104_x C104_l)) 5 5 5 /\ work (fst (w_assign C104_x (mk_apint 250 [1; 2; 3; 4]))) 4 4 0 /\ work (fst (w_assign C104_x (mk_apint 60 [5]))) 1 1 0 /\ work (fst (w_strict_assign C104_x C104_y)) 4 4 0.
Proof. vm_compute. repeat split. Qed.

(** C104: truncating to a width with the same number of digits touches the top digit only; to one with fewer, it copies the digits that stay, into new space if they are more than one. *)
Theorem C104_truncate a p t m x :
  wf a -> 0 < t -> m = digit_count t -> x = partly_used t ->
  (t = len a -> work (fst (w_truncate p a t)) 0 0 0) /\
  (t < len a -> m = digit_count (len a) -> work (fst (w_truncate p a t)) 1 1 0) /\
  (m < digit_count (len a) -> work (fst (w_truncate p a t)) (m + x) (m + x) (if m =? 1 then 0 else m)) /\
  (len a < t -> work (fst (w_truncate p a t)) 0 0 0).
Proof. exact (work_truncate_fact a p t m x). Qed.
Print Assumptions C104_truncate.
Example C104_truncate_ex : digit_count 130 = 3 /\ partly_used 130 = 1 /\ work (fst (w_truncate Self C104_x 130)) 4 4 3 /\ work (fst (w_truncate Self C104_x 195)) 1 1 0 /\ work (fst (w_truncate Self C104_x 64)) 1 1 0 /\ work (fst (w_truncate Self C104_x 201)) 0 0 0.
Proof. vm_compute. repeat split. Qed.

(** C104: extending to a width with the same number of digits touches no digit if the integer is not negative, or if it is extended with zeros, apart from reading the sign; with more digits all are copied to new space.  To extend a negative integer with ones its top digit is filled, first, and cleared again, afterwards. *)
Theorem C104_extend a t n m x y :
  wf a -> n = digit_count (len a) -> m = digit_count t -> x = partly_used t -> y = partly_used (len a) ->
  (t <= len a -> work (fst (w_zero_extend a t)) 0 0 0 /\ work (fst (w_sign_extend a t)) 0 0 0) /\
  (len a < t -> m = n -> work (fst (w_zero_extend a t)) 0 0 0) /\
  (len a < t -> n < m -> work (fst (w_zero_extend a t)) (n + x) (m + x) m) /\
  (len a < t -> 0 <= signed a -> forall r w k, work (fst (w_zero_extend a t)) r w k -> work (fst (w_sign_extend a t)) (1 + r) w k) /\
  (len a < t -> signed a < 0 -> m = n -> work (fst (w_sign_extend a t)) (3 + x) (1 + x) 0) /\
  (len a < t -> signed a < 0 -> n < m -> work (fst (w_sign_extend a t)) (1 + n + x + 3 * y) (m + x + 2 * y) m).
Proof. exact (work_extend_fact a t n m x y). Qed.
Print Assumptions C104_extend.
Example C104_extend_ex : work (fst (w_zero_extend C104_n 250)) 0 0 0 /\ work (fst (w_zero_extend C104_n 400)) 5 8 7 /\ work (fst (w_sign_extend C104_x 400)) 6 8 7 /\
  work (fst (w_sign_extend C104_n 250)) 4 2 0 /\ work (fst (w_sign_extend C104_n 400)) 9 10 7 /\ work (fst (w_sign_extend C104_n 199)) 0 0 0.
Proof. vm_compute. repeat split. Qed.

(** C104: resizing does what truncating or extending does. *)
Theorem C104_resize a t r w k :
  wf a -> 0 < t ->
  (t <= len a -> work (fst (w_truncate Self a t)) r w k -> work (fst (w_zero_resize a t)) r w k /\ work (fst (w_sign_resize a t)) r w k) /\
  (len a < t -> work (fst (w_zero_extend a t)) r w k -> work (fst (w_zero_resize a t)) r w k) /\
  (len a < t -> work (fst (w_sign_extend a t)) r w k -> work (fst (w_sign_resize a t)) r w k).
Proof. exact (work_resize_fact a t r w k). Qed.
Print Assumptions C104_resize.
Example C104_resize_ex : work (fst (w_zero_resize C104_n 400)) 5 8 7 /\ work (fst (w_sign_resize C104_n 400)) 9 10 7 /\ work (fst (w_sign_resize C104_n 130)) 4 4 3.
Proof. vm_compute. repeat split. Qed.

(** C104: converting to a primitive integer of at most 64 bits, dropping what does not fit, reads one digit, and to one of 128 bits, two. *)
Theorem C104_convert a ty :
  wf a -> In ty [PU8; PI8; PU16; PI16; PU32; PI32; PU64; PI64] ->
  work (fst (w_resize_to_primitive_ty a ty)) 1 0 0 /\ work (fst (w_resize_to_bool a)) 1 0 0 /\
  work (fst (w_resize_to_u128 a)) (Z.min 2 (digit_count (len a))) 0 0 /\ work (fst (w_resize_to_i128 a)) (Z.min 2 (digit_count (len a))) 0 0.
Proof. exact (work_convert_fact a ty). Qed.
Print Assumptions C104_convert.
Example C104_convert_ex : work (fst (w_resize_to_primitive_ty C104_x PI16)) 1 0 0 /\ work (fst (w_resize_to_i128 C104_x)) 2 0 0 /\ work (fst (w_resize_to_u128 (mk_apint 60 [5]))) 1 0 0.
Proof. vm_compute. repeat split. Qed.
