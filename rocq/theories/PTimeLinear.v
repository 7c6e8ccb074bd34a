(** Property C97: comparing, bit operations, counting, resizing, making, parsing and printing integers take linear time.  MTimeLinear.v repeats
    the definitions of MRelational.v, MBitwise.v, MCasting.v, MConstructors.v and MSerial.v and counts one step for each digit (of 64 bits) that is read,
    written or passed over and for each byte of text that is read, copied or written.  The words used in the statements are defined in SpecTime.v. *)
From Verif Require Import LTimeLinearFacts LEx.

(** C97: comparisons pass over the digits at most once.  (What the error takes that an operand of another width gives is in C99.) *)
Theorem C97_compare a b :
  wf a ->
  let n := words (len a) in
  takes (c_apint_eqb a b) (Val (apint_eqb a b)) n /\
  takes (c_checked_ult a b) (checked_ult a b) n /\
  takes (c_checked_ule a b) (checked_ule a b) n /\
  takes (c_checked_ugt a b) (checked_ugt a b) n /\
  takes (c_checked_uge a b) (checked_uge a b) n /\
  takes (c_checked_slt a b) (checked_slt a b) (n + 2) /\
  takes (c_checked_sle a b) (checked_sle a b) (n + 2) /\
  takes (c_checked_sgt a b) (checked_sgt a b) (n + 2) /\
  takes (c_checked_sge a b) (checked_sge a b) (n + 2).
Proof. exact (time_compare_fact a b). Qed.
Print Assumptions C97_compare.
Definition C97_a : apint := mk_apint 200 [5; 0; 2^63; 2^7 + 1].
Example C97_compare_ex : wf C97_a /\ words (len C97_a) = 4 /\
  c_apint_eqb C97_a C97_a = (4, Val true) /\ c_checked_ult C97_a (mk_apint 200 [6; 0; 2^63; 2^7 + 1]) = (4, Val (Ok true)) /\
  c_checked_slt C97_a (mk_apint 200 [5; 0; 0; 2]) = (2, Val (Ok true)) /\ fst (c_checked_ult C97_a (mk_apint 64 [1])) = 0.
Proof. split; [wf_now|]. vm_compute. repeat split; reflexivity. Qed.

(** C97: so do the bitwise operations and counting bits. *)
Theorem C97_bits a b :
  wf a ->
  let n := words (len a) in
  takes (c_bitand_assign a b) (bitand_assign a b) n /\
  takes (c_bitor_assign a b) (bitor_assign a b) n /\
  takes (c_bitxor_assign a b) (bitxor_assign a b) n /\
  takes (c_bitnot a) (bitnot a) (n + 2) /\
  takes (c_set_all a) (set_all a) (n + 2) /\
  takes (c_flip_all a) (flip_all a) (n + 2) /\
  takes (c_unset_all a) (unset_all a) n /\
  takes (c_count_ones a) (count_ones a) n /\
  takes (c_count_zeros a) (count_zeros a) n /\
  takes (c_leading_zeros a) (leading_zeros a) n /\
  takes (c_trailing_zeros a) (trailing_zeros a) n /\
  takes (c_is_zero a) (is_zero a) n.
Proof. exact (time_bits_fact a b). Qed.
Print Assumptions C97_bits.
Example C97_bits_ex : fst (c_bitand_assign C97_a C97_a) = 4 /\ fst (c_flip_all C97_a) = 6 /\ c_leading_zeros C97_a = (1, Val 0) /\
  c_trailing_zeros (mk_apint 200 [0; 0; 0; 1]) = (4, Val 192) /\ fst (c_bitor_assign C97_a (mk_apint 64 [1])) = 0.
Proof. vm_compute. repeat split; reflexivity. Qed.

(** C97: reading or changing one bit takes constant time. *)
Theorem C97_bit a p :
  takes (c_get_bit_at a p) (get_bit_at a p) 1 /\
  takes (c_set_bit_at a p) (set_bit_at a p) 2 /\
  takes (c_unset_bit_at a p) (unset_bit_at a p) 2 /\
  takes (c_flip_bit_at a p) (flip_bit_at a p) 2.
Proof. exact (time_bit_fact a p). Qed.
Print Assumptions C97_bit.
Example C97_bit_ex : c_get_bit_at C97_a 199 = (1, Val (Ok true)) /\ c_flip_bit_at C97_a 3 = (2, Val (mk_apint 200 [13; 0; 2^63; 2^7 + 1], Ok tt)) /\
  fst (c_set_bit_at C97_a 200) = 0.
Proof. vm_compute. repeat split; reflexivity. Qed.

(** C97: copying takes time linear in the width, and resizing or making an integer time linear in the new width. *)
Theorem C97_resize a w d :
  wf a -> 0 < w ->
  let n := words w in
  takes (c_clone a) (clone a) (words (len a)) /\
  takes (c_truncate a w) (truncate a w) (8 * n + 4) /\
  takes (c_zero_extend a w) (zero_extend a w) (12 * n + 4) /\
  takes (c_sign_extend a w) (sign_extend a w) (12 * n + 9) /\
  takes (c_zero_resize a w) (zero_resize a w) (12 * n + 9) /\
  takes (c_sign_resize a w) (sign_resize a w) (12 * n + 9) /\
  takes (c_repeat_digit w d) (repeat_digit w d) (12 * n + 4).
Proof. exact (time_resize_fact a w d). Qed.
Print Assumptions C97_resize.
Example C97_resize_ex : c_truncate C97_a 65 = (10, truncate C97_a 65) /\ c_sign_extend C97_a 300 = (27, sign_extend C97_a 300) /\
  sign_extend C97_a 300 = Val (mk_apint 300 [5; 0; 2^63; 2^64 - 127; 2^44 - 1], Ok tt) /\ fst (c_repeat_digit 300 7) = 22 /\ fst (c_zero_extend C97_a 64) = 0.
Proof. vm_compute. repeat split; reflexivity. Qed.

(** C97: parsing takes time linear in the number of bytes of the text, in every radix, also if it fails. *)
Theorem C97_parse radix text :
  takes (c_from_str_radix radix text) (from_str_radix radix text) (11 * Z.of_nat (length text) + 9).
Proof. exact (time_parse_fact radix text). Qed.
Print Assumptions C97_parse.
Example C97_parse_ex : c_from_str_radix 16 [49; 95; 102; 70] = (21, Val (Ok (mk_apint 64 [511]))) /\
  fst (c_from_str_radix 8 (repeat 55 100%nat)) = 621 /\ fst (c_from_str_radix 10 (repeat 57 100%nat)) = 429 /\
  c_from_str_radix 2 [49; 50] = (5, Val (Err (InvalidStringRepr [49; 50] 2 None))).
Proof. vm_compute. repeat split; reflexivity. Qed.

(** C97: printing takes time linear in the width. *)
Theorem C97_print a :
  wf a ->
  takes (c_fmt_binary a) (fmt_binary a) (66 * words (len a) + 1) /\
  takes (c_fmt_lower_hex a) (fmt_lower_hex a) (18 * words (len a) + 1) /\
  takes (c_fmt_upper_hex a) (fmt_upper_hex a) (18 * words (len a) + 1).
Proof. exact (time_print_fact a). Qed.
Print Assumptions C97_print.
Example C97_print_ex : c_fmt_lower_hex (mk_apint 200 [5; 0; 1; 0]) = (41, fmt_lower_hex (mk_apint 200 [5; 0; 1; 0])) /\
  fmt_lower_hex (mk_apint 200 [2; 1; 0; 0]) = Val ([49] ++ repeat 48 15%nat ++ [50]) /\ fst (c_fmt_binary C97_a) = 208.
Proof. vm_compute. repeat split; reflexivity. Qed.
