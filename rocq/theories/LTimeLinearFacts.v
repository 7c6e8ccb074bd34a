(** The time of comparing, bit operations, resizing, parsing and printing, in terms of widths and lengths. *)
From Verif Require Export LTimeLinearCost.
From Coq Require Import Lia ZArith.

Lemma rd_words w : 0 < w -> rd w = words w.
Proof. intros H. unfold rd, words. now apply required_digits_Z. Qed.
Ltac le_nd := eapply costs_le; [eauto|unfold nd; lia].

Lemma time_compare_fact a b : wf a ->
  let n := words (len a) in
  takes (c_apint_eqb a b) (Val (apint_eqb a b)) n /\
  takes (c_checked_ult a b) (checked_ult a b) n /\
  takes (c_checked_ule a b) (checked_ule a b) n /\
  takes (c_checked_ugt a b) (checked_ugt a b) n /\
  takes (c_checked_uge a b) (checked_uge a b) n /\
  takes (c_checked_slt a b) (checked_slt a b) (n + 2) /\
  takes (c_checked_sle a b) (checked_sle a b) (n + 2) /\
  takes (c_checked_sgt a b) (checked_sgt a b) (n + 2) /\
  takes (c_checked_sge a b) (checked_sge a b) (n + 2).
Proof.
  intros W. cbv zeta. rewrite <- (nd_words a W).
  repeat match goal with |- _ /\ _ => split end; apply takes_intro.
  1: apply e_apint_eqb. 2: apply e_checked_ult. 3: apply e_checked_ule. 4: apply e_checked_ult. 5: apply e_checked_uge. 6: apply e_checked_slt.
  7: apply e_checked_sle. 8: apply e_checked_slt. 9: apply e_checked_sge.
  - apply k_apint_eqb.
  - eapply costs_le; [apply k_ult|lia].
  - apply k_map. eapply costs_le; [apply k_ult|lia].
  - eapply costs_le; [apply k_ult|lia].
  - apply k_map. eapply costs_le; [apply k_ult|lia].
  - eapply costs_le; [apply k_slt|lia].
  - apply k_map. eapply costs_le; [apply k_slt|lia].
  - eapply costs_le; [apply k_slt|lia].
  - apply k_map. eapply costs_le; [apply k_slt|lia].
Qed.
Lemma time_bits_fact a b : wf a ->
  let n := words (len a) in
  takes (c_bitand_assign a b) (bitand_assign a b) n /\
  takes (c_bitor_assign a b) (bitor_assign a b) n /\
  takes (c_bitxor_assign a b) (bitxor_assign a b) n /\
  takes (c_bitnot a) (bitnot a) (n + 2) /\
  takes (c_set_all a) (set_all a) (n + 2) /\
  takes (c_flip_all a) (flip_all a) (n + 2) /\
  takes (c_unset_all a) (unset_all a) n /\
  takes (c_count_ones a) (count_ones a) n /\
  takes (c_count_zeros a) (count_zeros a) n /\
  takes (c_leading_zeros a) (leading_zeros a) n /\
  takes (c_trailing_zeros a) (trailing_zeros a) n /\
  takes (c_is_zero a) (is_zero a) n.
Proof.
  intros W. cbv zeta. rewrite <- (nd_words a W). repeat match goal with |- _ /\ _ => split end; apply takes_intro.
  1,3,5: apply e_modify_zipped_digits. 1,2,3: now apply k_modify_zipped_digits.
  - reflexivity.
  - apply costs_bitnot.
  - apply e_set_all.
  - now apply k_set_all.
  - apply e_flip_all.
  - now apply k_flip_all.
  - apply e_modify_digits.
  - now apply k_modify_digits.
  - apply e_count_ones.
  - apply k_count_ones.
  - apply e_count_zeros.
  - apply k_count_zeros.
  - apply e_leading_zeros.
  - apply k_leading_zeros.
  - apply e_trailing_zeros.
  - apply k_trailing_zeros.
  - reflexivity.
  - apply costs_is_zero.
Qed.
Lemma time_bit_fact a p :
  takes (c_get_bit_at a p) (get_bit_at a p) 1 /\
  takes (c_set_bit_at a p) (set_bit_at a p) 2 /\
  takes (c_unset_bit_at a p) (unset_bit_at a p) 2 /\
  takes (c_flip_bit_at a p) (flip_bit_at a p) 2.
Proof.
  repeat match goal with |- _ /\ _ => split end; apply takes_intro; first [apply e_get_bit_at|apply k_get_bit_at|apply e_modify_bit_at|apply k_modify_bit_at].
Qed.
Lemma time_resize_fact a w d : wf a -> 0 < w ->
  let n := words w in
  takes (c_clone a) (clone a) (words (len a)) /\
  takes (c_truncate a w) (truncate a w) (8 * n + 4) /\
  takes (c_zero_extend a w) (zero_extend a w) (12 * n + 4) /\
  takes (c_sign_extend a w) (sign_extend a w) (12 * n + 9) /\
  takes (c_zero_resize a w) (zero_resize a w) (12 * n + 9) /\
  takes (c_sign_resize a w) (sign_resize a w) (12 * n + 9) /\
  takes (c_repeat_digit w d) (repeat_digit w d) (12 * n + 4).
Proof.
  intros W H. cbv zeta. rewrite <- (nd_words a W), <- (rd_words w H). repeat match goal with |- _ /\ _ => split end; apply takes_intro.
  - reflexivity.
  - apply costs_clone.
  - apply e_truncate.
  - apply k_truncate.
  - apply e_zero_extend.
  - now apply k_zero_extend.
  - apply e_sign_extend.
  - now apply k_sign_extend.
  - apply e_zero_resize.
  - now apply k_zero_resize.
  - apply e_sign_resize.
  - now apply k_sign_resize.
  - apply e_repeat_digit.
  - apply k_repeat_digit.
Qed.
Lemma time_parse_fact radix text :
  takes (c_from_str_radix radix text) (from_str_radix radix text) (11 * Z.of_nat (length text) + 9).
Proof. apply takes_intro; [apply e_from_str_radix|apply k_from_str_radix]. Qed.
Lemma time_print_fact a : wf a ->
  takes (c_fmt_binary a) (fmt_binary a) (66 * words (len a) + 1) /\
  takes (c_fmt_lower_hex a) (fmt_lower_hex a) (18 * words (len a) + 1) /\
  takes (c_fmt_upper_hex a) (fmt_upper_hex a) (18 * words (len a) + 1).
Proof.
  intros W. rewrite <- (nd_words a W). repeat match goal with |- _ /\ _ => split end; apply takes_intro; try apply e_fmt_radix.
  - eapply costs_le; [apply k_fmt_radix; [exact W|left; reflexivity|lia|lia|reflexivity]|lia].
  - eapply costs_le; [apply k_fmt_radix; [exact W|left; reflexivity|lia|lia|reflexivity]|lia].
  - eapply costs_le; [apply k_fmt_radix; [exact W|right; reflexivity|lia|lia|reflexivity]|lia].
Qed.
