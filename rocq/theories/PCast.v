(** Properties C23-C27 and C50: resizing, assignment, bit widths. *)
From Verif Require Import LFacts LEx.

(** C23: truncation keeps the low bits. *)
Theorem C23_truncate a t :
  wf a -> 0 < t <= len a ->
  exists c, truncate a t = Val (c, Ok tt) /\ into_truncate a t = Val (Ok c) /\
    is_apint c t (unsigned a mod 2 ^ t).
Proof. exact (truncate_fact a t). Qed.
Print Assumptions C23_truncate.
Example C23_ex : wf f192 /\ 0 < 70 <= len f192 /\ truncate f192 70 = Val (mk_apint 70 [18446744073709551615; 63], Ok tt).
Proof. split; [apply wf_f192|split; [cbn; lia|vm_compute; reflexivity]]. Qed.

(** C23: truncating to a larger width is an error and changes nothing. *)
Theorem C23_truncate_error a t :
  len a < t ->
  truncate a t = Val (a, Err (TruncationBitWidthTooLarge t (len a))) /\
  into_truncate a t = Val (Err (TruncationBitWidthTooLarge t (len a))).
Proof. exact (truncate_err_fact a t). Qed.
Print Assumptions C23_truncate_error.
Example C23_error_ex : len e8 < 9. Proof. reflexivity. Qed.

(** C24: zero extension keeps the unsigned value. *)
Theorem C24_zero_extend a t :
  wf a -> len a <= t ->
  exists c, zero_extend a t = Val (c, Ok tt) /\ into_zero_extend a t = Val (Ok c) /\
    is_apint c t (unsigned a).
Proof. exact (zero_extend_fact a t). Qed.
Print Assumptions C24_zero_extend.
Example C24_ex : wf e8 /\ len e8 <= 130 /\ zero_extend e8 130 = Val (mk_apint 130 [200; 0; 0], Ok tt).
Proof. split; [apply wf_e8|split; [cbn; lia|vm_compute; reflexivity]]. Qed.

(** C24: extending to a smaller width is an error and changes nothing. *)
Theorem C24_zero_extend_error a t :
  t < len a ->
  zero_extend a t = Val (a, Err (ExtensionBitWidthTooSmall t (len a))) /\
  into_zero_extend a t = Val (Err (ExtensionBitWidthTooSmall t (len a))).
Proof. exact (zero_extend_err_fact a t). Qed.
Print Assumptions C24_zero_extend_error.
Example C24_error_ex : 7 < len e8. Proof. reflexivity. Qed.

(** C25: sign extension keeps the signed value. *)
Theorem C25_sign_extend a t :
  wf a -> len a <= t ->
  exists c, sign_extend a t = Val (c, Ok tt) /\ into_sign_extend a t = Val (Ok c) /\
    wf c /\ len c = t /\ signed c = signed a.
Proof. exact (sign_extend_fact a t). Qed.
Print Assumptions C25_sign_extend.
Example C25_ex : wf e8 /\ len e8 <= 70 /\ signed e8 = -56 /\
  sign_extend e8 70 = Val (mk_apint 70 [18446744073709551560; 63], Ok tt).
Proof. split; [apply wf_e8|split; [cbn; lia|split; vm_compute; reflexivity]]. Qed.

(** C25: extending to a smaller width is an error and changes nothing. *)
Theorem C25_sign_extend_error a t :
  t < len a ->
  sign_extend a t = Val (a, Err (ExtensionBitWidthTooSmall t (len a))) /\
  into_sign_extend a t = Val (Err (ExtensionBitWidthTooSmall t (len a))).
Proof. exact (sign_extend_err_fact a t). Qed.
Print Assumptions C25_sign_extend_error.
Example C25_error_ex : 7 < len e8. Proof. reflexivity. Qed.

(** C26: resizing is total, and is truncation or extension. *)
Theorem C26_resize a t :
  wf a -> 0 < t ->
  exists c d, zero_resize a t = Val c /\ into_zero_resize a t = Val c /\
    is_apint c t (unsigned a mod 2 ^ t) /\
    sign_resize a t = Val d /\ into_sign_resize a t = Val d /\
    is_apint d t (signed a mod 2 ^ t) /\ signed d = wrap_signed t (signed a).
Proof. exact (resize_fact a t). Qed.
Print Assumptions C26_resize.
Example C26_ex : wf e8 /\ 0 < 4 /\ zero_resize e8 4 = Val (mk_apint 4 [8]) /\ sign_resize e8 9 = Val (mk_apint 9 [456]).
Proof. split; [apply wf_e8|split; [reflexivity|split; vm_compute; reflexivity]]. Qed.

(** C26: extending and truncating back is the identity. *)
Theorem C26_round_trip a t :
  wf a -> len a <= t ->
  (exists c, zero_extend a t = Val (c, Ok tt) /\ truncate c (len a) = Val (a, Ok tt)) /\
  (exists c, sign_extend a t = Val (c, Ok tt) /\ truncate c (len a) = Val (a, Ok tt)).
Proof. exact (extend_truncate_fact a t). Qed.
Print Assumptions C26_round_trip.
Example C26_round_trip_ex : wf f100 /\ len f100 <= 200. Proof. split; [apply wf_f100|cbn; lia]. Qed.

(** C27: cloning and assigning. *)
Theorem C27_assign a b :
  wf a -> wf b ->
  clone a = Val a /\ assign a b = Val b /\
  (len a = len b -> strict_assign a b = Val (b, Ok tt)) /\
  (len a <> len b -> strict_assign a b = Val (a, Err (UnmatchingBitwidth (len a) (len b)))).
Proof. exact (assign_fact a b). Qed.
Print Assumptions C27_assign.
Example C27_ex : wf e8 /\ wf f192 /\ len e8 <> len f192 /\ assign e8 f192 = Val f192.
Proof. split; [apply wf_e8|split; [apply wf_f192|split; [discriminate|vm_compute; reflexivity]]]. Qed.

(** C50: widths. *)
Theorem C50_bitwidth w :
  0 < w ->
  bitwidth_new w = Ok w /\ bitwidth_new 0 = Err (InvalidBitWidth 0) /\
  Z.of_nat (required_digits w) = (w + 63) / 64 /\
  (excess_bits w = None <-> (64 | w)) /\
  (forall e, excess_bits w = Some e <-> e = w mod 64 /\ 0 < e) /\
  excess_width w = excess_bits w /\
  (storage w = SInl <-> w <= 64) /\
  (storage w = SInl <-> required_digits w = 1%nat).
Proof. exact (bitwidth_fact w). Qed.
Print Assumptions C50_bitwidth.
Example C50_ex : 0 < 100 /\ excess_bits 100 = Some 36. Proof. split; reflexivity. Qed.

(** C50: bit positions. *)
Theorem C50_bitpos a p :
  wf a -> 0 <= p < len a ->
  let (d, b) := to_digit_and_bit_pos p in
  (d < length (digits a))%nat /\ 0 <= b < 64 /\ p = 64 * Z.of_nat d + b /\
  bit a p = Z.testbit (nth d (digits a) 0) b.
Proof. exact (bitpos_fact a p). Qed.
Print Assumptions C50_bitpos.
Example C50_bitpos_ex : wf f100 /\ 0 <= 99 < len f100 /\ to_digit_and_bit_pos 99 = (1%nat, 35).
Proof. split; [apply wf_f100|split; [cbn; lia|reflexivity]]. Qed.
