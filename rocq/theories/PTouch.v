(** Property C106: the accesses listed in MWatch.v and MWatchMul.v are all there are.  SpecTouch.v says when a call depends on nothing but the digits it reads, changes nothing but the digits it writes, and stays within the digits
    its operands have. *)
From Verif Require Import LTouch5 LEx.

(** C106: calls on one integer that keep its width. *)
Theorem C106_one_operand :
  turns (alone w_wrapping_inc) /\ turns (alone w_wrapping_dec) /\ turns (alone w_wrapping_neg) /\ turns (alone w_bitnot) /\
  turns (alone w_set_all) /\ turns (alone w_unset_all) /\ turns (alone w_flip_all) /\
  (forall pos, changes (alone (fun a => w_set_bit_at a pos))) /\ (forall pos, changes (alone (fun a => w_unset_bit_at a pos))) /\ (forall pos, changes (alone (fun a => w_flip_bit_at a pos))) /\
  (forall n, changes (alone (fun a => w_wrapping_shl_assign a n))) /\ (forall n, changes (alone (fun a => w_wrapping_lshr_assign a n))) /\ (forall n, changes (alone (fun a => w_wrapping_ashr_assign a n))).
Proof. exact touch_one. Qed.
Print Assumptions C106_one_operand.
Definition C106_a := mk_apint 192 [18446744073709551615; 4; 5].
Definition C106_a2 := mk_apint 192 [18446744073709551615; 4; 9].
Definition C106_b := mk_apint 192 [7; 0; 0].
Definition C106_b2 := mk_apint 192 [7; 1; 2].
Example C106_one_operand_ex : twins C106_a C106_a2 /\
  w_wrapping_inc C106_a = ([Branch false; Read Self 0; Branch true; Write Self 0; Read Self 1; Branch false; Write Self 1; Branch false], Val (mk_apint 192 [0; 5; 5])) /\
  agree (fst (w_wrapping_inc C106_a)) Self C106_a C106_a2 /\ snd (w_wrapping_inc C106_a2) = Val (mk_apint 192 [0; 5; 9]) /\
  w_set_bit_at C106_a 65 = ([Branch true; Branch false; Read Self 1; Write Self 1], Val (mk_apint 192 [18446744073709551615; 6; 5], Ok tt)) /\
  ~ agree (fst (w_wrapping_shl_assign C106_a 64)) Self C106_a (mk_apint 192 [3; 4; 5]) /\ agree (fst (w_wrapping_shl_assign C106_a 64)) Self C106_a C106_a2.
Proof.
  split; [split; [wf_now|split; [wf_now|reflexivity]]|]. split; [vm_compute; reflexivity|]. split; [intros i H; vm_compute in H; decompose [or] H; try discriminate; try contradiction; match goal with E : _ = Read _ _ |- _ => injection E as <- end; reflexivity|]. split; [vm_compute; reflexivity|]. split; [vm_compute; reflexivity|].
  split; [intros H; specialize (H 0%nat); vm_compute in H; discriminate H; tauto|]. intros i H. vm_compute in H. decompose [or] H; try discriminate; try contradiction; match goal with E : _ = Read _ _ |- _ => injection E as <- end; reflexivity.
Qed.

(** C106: calls on one integer with another one, which is never written. *)
Theorem C106_two_operands :
  changes w_wrapping_add_assign /\ changes w_wrapping_sub_assign /\ changes w_wrapping_mul_assign /\
  changes w_bitand_assign /\ changes w_bitor_assign /\ changes w_bitxor_assign /\ changes w_strict_assign /\ turns w_assign.
Proof. exact touch_two. Qed.
Print Assumptions C106_two_operands.
Example C106_two_operands_ex : twins C106_b C106_b2 /\
  w_wrapping_mul_assign C106_b C106_b = ([Branch true; Branch false; Read Other 2; Branch false; Read Other 1; Branch false; Read Other 0; Branch true; Read Self 2; Branch false; Read Self 1; Branch false; Read Self 0; Branch true;
    Branch true; Branch true; Read Self 0; Read Other 0; Write Self 0; Write Self 1; Branch false], Val (mk_apint 192 [49; 0; 0], Ok tt)) /\
  ~ agree (fst (w_wrapping_mul_assign C106_b C106_b)) Other C106_b C106_b2 /\
  w_strict_assign C106_a C106_b = ([Branch false; Read Other 0; Write Self 0; Read Other 1; Write Self 1; Read Other 2; Write Self 2], Val (C106_b, Ok tt)) /\
  agree (fst (w_strict_assign C106_a C106_b)) Self C106_a C106_b2.
Proof.
  split; [split; [wf_now|split; [wf_now|reflexivity]]|]. split; [vm_compute; reflexivity|]. split; [intros H; specialize (H 1%nat); vm_compute in H; discriminate H; tauto|]. split; [vm_compute; reflexivity|]. intros i H. vm_compute in H. decompose [or] H; try discriminate; contradiction.
Qed.

(** C106: calls that change the width. *)
Theorem C106_casts t :
  changes (alone (fun a => w_truncate Self a t)) /\ changes (alone (fun a => w_zero_extend a t)) /\ changes (alone (fun a => w_sign_extend a t)) /\
  turns (alone (fun a => w_zero_resize a t)) /\ turns (alone (fun a => w_sign_resize a t)).
Proof. exact (touch_cast t). Qed.
Print Assumptions C106_casts.
Example C106_casts_ex : w_truncate Self C106_a 64 = ([Branch false; Branch false; Branch false; Branch true; Read Self 0; Write New 0; Branch false], Val (mk_apint 64 [18446744073709551615], Ok tt)) /\
  agree (fst (w_truncate Self C106_a 64)) Self C106_a C106_a2 /\ snd (w_truncate Self C106_a2 64) = snd (w_truncate Self C106_a 64) /\
  w_truncate Self C106_a 130 = ([Branch false; Branch false; Branch true; Branch false; Read Self 2; Write Self 2], Val (mk_apint 130 [18446744073709551615; 4; 1], Ok tt)).
Proof.
  split; [vm_compute; reflexivity|]. split; [intros i H; vm_compute in H; decompose [or] H; try discriminate; try contradiction; match goal with E : _ = Read _ _ |- _ => injection E as <- end; reflexivity|]. split; vm_compute; reflexivity.
Qed.

(** C106: calls that change no integer: neither operand is written, and the answer depends on the digits read only. *)
Theorem C106_questions :
  reads_only (alone w_is_zero) /\ reads_only (alone w_is_even) /\ reads_only (alone w_is_odd) /\ reads_only (alone w_msb) /\ reads_only (alone w_hash_feed) /\
  (forall pos, reads_only (alone (fun a => w_get_bit_at a pos))) /\
  reads_only (alone w_count_ones) /\ reads_only (alone w_count_zeros) /\ reads_only (alone w_leading_zeros) /\ reads_only (alone w_trailing_zeros) /\
  (forall ty, reads_only (alone (fun a => w_resize_to_primitive_ty a ty))) /\ reads_only (alone w_resize_to_bool) /\ reads_only (alone w_resize_to_i128) /\ reads_only (alone w_resize_to_u128) /\
  reads_only (alone (w_clone Self)) /\
  reads_only w_apint_eqb /\ reads_only w_checked_ult /\ reads_only w_checked_slt.
Proof. exact touch_none. Qed.
Print Assumptions C106_questions.
Example C106_questions_ex : w_is_zero C106_a = ([Branch false; Read Self 0; Branch false], Val false) /\ agree (fst (w_is_zero C106_a)) Self C106_a C106_a2 /\ snd (w_is_zero C106_a2) = Val false /\
  ~ agree (fst (w_is_zero C106_a)) Self C106_a C106_b /\ w_apint_eqb C106_a C106_b = ([Branch false; Read Self 0; Read Other 0; Branch false], Val false) /\ agree (fst (w_apint_eqb C106_a C106_b)) Other C106_b C106_b2.
Proof.
  split; [vm_compute; reflexivity|]. split; [intros i H; vm_compute in H; decompose [or] H; try discriminate; try contradiction; match goal with E : _ = Read _ _ |- _ => injection E as <- end; reflexivity|]. split; [vm_compute; reflexivity|].
  split; [intros H; specialize (H 0%nat); vm_compute in H; discriminate H; tauto|]. split; [vm_compute; reflexivity|]. intros i H. vm_compute in H. decompose [or] H; try discriminate; try contradiction; match goal with E : _ = Read _ _ |- _ => injection E as <- end; reflexivity.
Qed.
