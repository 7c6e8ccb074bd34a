(** Properties C05-C09, C48 and C49: division.  The vocabulary is that of
    Spec.v; [Z.quot] and [Z.rem] are Coq's truncating division. *)
From Verif Require Import LDiv7 LEx.

(** C05: all unsigned division operations, with quotient and remainder in the
    documented operand positions. *)
Theorem C05_unsigned_division a b :
  wf a -> wf b -> len a = len b -> unsigned b <> 0 ->
  exists q r,
    wrapping_udivrem_assign a b = Val (q, r, Ok tt) /\
    wrapping_uremdiv_assign a b = Val (r, q, Ok tt) /\
    wrapping_udiv_assign a b = Val (q, Ok tt) /\ into_wrapping_udiv a b = Val (Ok q) /\
    wrapping_urem_assign a b = Val (r, Ok tt) /\ into_wrapping_urem a b = Val (Ok r) /\
    is_apint q (len a) (unsigned a / unsigned b) /\
    is_apint r (len a) (unsigned a mod unsigned b).
Proof. exact (udiv_all a b). Qed.
Print Assumptions C05_unsigned_division.
Example C05_ex : wf e192 /\ wf f192 /\ len e192 = len f192 /\ unsigned f192 <> 0 /\
  wf f100 /\ wf g100 /\ len f100 = len g100 /\ unsigned g100 <> 0.
Proof.
  split; [apply wf_e192|split; [apply wf_f192|split; [reflexivity|split; [vm_compute; discriminate|]]]].
  split; [apply wf_f100|split; [apply wf_g100|split; [reflexivity|vm_compute; discriminate]]].
Qed.

(** C06: all signed division operations; the quotient truncates toward zero and
    wraps, the remainder takes the sign of the dividend. *)
Theorem C06_signed_division a b :
  wf a -> wf b -> len a = len b -> signed b <> 0 ->
  exists q r,
    wrapping_sdivrem_assign a b = Val (q, r, Ok tt) /\
    wrapping_sremdiv_assign a b = Val (r, q, Ok tt) /\
    wrapping_sdiv_assign a b = Val (q, Ok tt) /\ into_wrapping_sdiv a b = Val (Ok q) /\
    wrapping_srem_assign a b = Val (r, Ok tt) /\ into_wrapping_srem a b = Val (Ok r) /\
    is_apint q (len a) (Z.quot (signed a) (signed b) mod 2 ^ len a) /\
    signed q = wrap_signed (len a) (Z.quot (signed a) (signed b)) /\
    is_apint r (len a) (Z.rem (signed a) (signed b) mod 2 ^ len a) /\
    signed r = Z.rem (signed a) (signed b).
Proof. exact (sdiv_all a b). Qed.
Print Assumptions C06_signed_division.
Example C06_ex : wf e100 /\ wf f100 /\ len e100 = len f100 /\ signed f100 <> 0 /\ signed e100 = -1 /\
  (exists m n, into_wrapping_sdiv m n = Val (Ok m) /\ signed m = -128 /\ signed n = -1).
Proof.
  split; [apply wf_e100|split; [apply wf_f100|split; [reflexivity|split; [vm_compute; discriminate|split]]]].
  - vm_compute; reflexivity.
  - exists (mk_apint 8 [128]), (mk_apint 8 [255]). vm_compute. auto.
Qed.

(** C07: unsigned division by zero: the error names the operation and carries
    the dividend, and both operands are unchanged. *)
Theorem C07_unsigned_by_zero a b :
  wf a -> wf b -> len a = len b -> unsigned b = 0 ->
  wrapping_udivrem_assign a b = Val (a, b, Err (DivisionByZero UnsignedDivRem a)) /\
  wrapping_uremdiv_assign a b = Val (a, b, Err (DivisionByZero UnsignedRemDiv a)) /\
  wrapping_udiv_assign a b = Val (a, Err (DivisionByZero UnsignedDiv a)) /\
  into_wrapping_udiv a b = Val (Err (DivisionByZero UnsignedDiv a)) /\
  wrapping_urem_assign a b = Val (a, Err (DivisionByZero UnsignedRem a)) /\
  into_wrapping_urem a b = Val (Err (DivisionByZero UnsignedRem a)).
Proof. exact (udiv_zero_fact a b). Qed.
Print Assumptions C07_unsigned_by_zero.
Example C07_unsigned_ex : wf f100 /\ wf z100 /\ len f100 = len z100 /\ unsigned z100 = 0.
Proof. split; [apply wf_f100|split; [apply wf_z100|split; reflexivity]]. Qed.

(** C07: signed division by zero; holds at differing widths too. *)
Theorem C07_signed_by_zero a b :
  wf a -> wf b -> unsigned b = 0 ->
  wrapping_sdivrem_assign a b = Val (a, b, Err (DivisionByZero SignedDivRem a)) /\
  wrapping_sremdiv_assign a b = Val (a, b, Err (DivisionByZero SignedRemDiv a)) /\
  wrapping_sdiv_assign a b = Val (a, Err (DivisionByZero SignedDiv a)) /\
  into_wrapping_sdiv a b = Val (Err (DivisionByZero SignedDiv a)) /\
  wrapping_srem_assign a b = Val (a, Err (DivisionByZero SignedRem a)) /\
  into_wrapping_srem a b = Val (Err (DivisionByZero SignedRem a)).
Proof. exact (sdiv_zero_fact a b). Qed.
Print Assumptions C07_signed_by_zero.
Example C07_signed_ex : wf e8 /\ wf z100 /\ unsigned z100 = 0.
Proof. split; [apply wf_e8|split; [apply wf_z100|reflexivity]]. Qed.

(** C08: unsigned division of operands of differing widths. *)
Theorem C08_division a b :
  len a <> len b ->
  wrapping_udivrem_assign a b = Val (a, b, Err (UnmatchingBitwidth (len a) (len b))) /\
  wrapping_uremdiv_assign a b = Val (a, b, Err (UnmatchingBitwidth (len a) (len b))) /\
  wrapping_udiv_assign a b = Val (a, Err (UnmatchingBitwidth (len a) (len b))) /\
  into_wrapping_udiv a b = Val (Err (UnmatchingBitwidth (len a) (len b))) /\
  wrapping_urem_assign a b = Val (a, Err (UnmatchingBitwidth (len a) (len b))) /\
  into_wrapping_urem a b = Val (Err (UnmatchingBitwidth (len a) (len b))).
Proof. exact (udiv_mismatch a b). Qed.
Print Assumptions C08_division.
Example C08_division_ex : len e8 <> len e100.
Proof. discriminate. Qed.

(** C09 is false of the code: there are operands of differing widths for which
    signed division does not return an error. *)
Theorem C09_signed_mismatch_refuted :
  exists a b, wf a /\ wf b /\ len a <> len b /\
  forall e, into_wrapping_sdiv a b <> Val (Err e) /\ into_wrapping_srem a b <> Val (Err e).
Proof. exact sdiv_mismatch_refuted. Qed.
Print Assumptions C09_signed_mismatch_refuted.
Example C09_refuted_ex : into_wrapping_sdiv (mk_apint 8 [7]) (mk_apint 16 [2]) = Panic.
Proof. vm_compute. reflexivity. Qed.

(** C09, what the code does instead: with a nonzero divisor of another width
    every signed division operation panics. *)
Theorem C09_signed_mismatch_exact a b :
  wf a -> wf b -> len a <> len b -> unsigned b <> 0 ->
  wrapping_sdivrem_assign a b = Panic /\ wrapping_sremdiv_assign a b = Panic /\
  wrapping_sdiv_assign a b = Panic /\ into_wrapping_sdiv a b = Panic /\
  wrapping_srem_assign a b = Panic /\ into_wrapping_srem a b = Panic.
Proof. exact (sdiv_mismatch_panic a b). Qed.
Print Assumptions C09_signed_mismatch_exact.
Example C09_exact_ex : wf e8 /\ wf f100 /\ len e8 <> len f100 /\ unsigned f100 <> 0.
Proof. split; [apply wf_e8|split; [apply wf_f100|split; [discriminate|vm_compute; discriminate]]]. Qed.

(** C48: q * b + r = a with r below b, and the four operations agree. *)
Theorem C48_unsigned_identity a b :
  wf a -> wf b -> len a = len b -> unsigned b <> 0 ->
  exists q r,
    into_wrapping_udiv a b = Val (Ok q) /\ into_wrapping_urem a b = Val (Ok r) /\
    wrapping_udivrem_assign a b = Val (q, r, Ok tt) /\ wrapping_uremdiv_assign a b = Val (r, q, Ok tt) /\
    checked_ult r b = Val (Ok true) /\ unsigned a = unsigned q * unsigned b + unsigned r /\
    (let? p := into_wrapping_mul q b in into_wrapping_add p r) = Val (Ok a).
Proof. exact (udiv_identity a b). Qed.
Print Assumptions C48_unsigned_identity.
Example C48_unsigned_ex : wf e192 /\ wf f192 /\ len e192 = len f192 /\ unsigned f192 <> 0.
Proof. split; [apply wf_e192|split; [apply wf_f192|split; [reflexivity|vm_compute; discriminate]]]. Qed.

(** C48: the same for signed division, also when the quotient wraps. *)
Theorem C48_signed_identity a b :
  wf a -> wf b -> len a = len b -> unsigned b <> 0 ->
  exists q r,
    into_wrapping_sdiv a b = Val (Ok q) /\ into_wrapping_srem a b = Val (Ok r) /\
    wrapping_sdivrem_assign a b = Val (q, r, Ok tt) /\ wrapping_sremdiv_assign a b = Val (r, q, Ok tt) /\
    Z.abs (signed r) < Z.abs (signed b) /\ (signed r = 0 \/ Z.sgn (signed r) = Z.sgn (signed a)) /\
    (let? p := into_wrapping_mul q b in into_wrapping_add p r) = Val (Ok a).
Proof. exact (sdiv_identity a b). Qed.
Print Assumptions C48_signed_identity.
Example C48_signed_ex : wf e100 /\ wf g100 /\ len e100 = len g100 /\ unsigned g100 <> 0.
Proof. split; [apply wf_e100|split; [apply wf_g100|split; [reflexivity|vm_compute; discriminate]]]. Qed.

(** C49: shifts compose, shl is multiplication by 2^s, shifting out and back
    clears the bits lost. *)
Theorem C49_shift_identities a s t :
  wf a -> 0 <= s -> 0 <= t -> s + t < len a ->
  (let? x := into_wrapping_shl a s in into_wrapping_shl x t) = into_wrapping_shl a (s + t) /\
  (let? x := into_wrapping_lshr a s in into_wrapping_lshr x t) = into_wrapping_lshr a (s + t) /\
  (let? x := into_wrapping_ashr a s in into_wrapping_ashr x t) = into_wrapping_ashr a (s + t) /\
  (forall p, is_apint p (len a) (2 ^ s) -> into_wrapping_shl a s = into_wrapping_mul a p) /\
  (exists c, (let? x := into_wrapping_shl a s in into_wrapping_lshr x s) = Val (Ok c) /\
    is_apint c (len a) (unsigned a mod 2 ^ (len a - s))) /\
  (exists c, (let? x := into_wrapping_lshr a s in into_wrapping_shl x s) = Val (Ok c) /\
    is_apint c (len a) (unsigned a - unsigned a mod 2 ^ s)).
Proof. exact (shift_fact a s t). Qed.
Print Assumptions C49_shift_identities.
Example C49_shift_ex : wf g100 /\ 0 <= 33 /\ 0 <= 40 /\ 33 + 40 < len g100.
Proof. split; [apply wf_g100|cbn; lia]. Qed.

(** C49: lshr is unsigned division by 2^s, shl multiplication by it. *)
Theorem C49_shift_as_division a s :
  wf a -> 0 <= s < len a ->
  (forall p, is_apint p (len a) (2 ^ s) ->
    into_wrapping_lshr a s = into_wrapping_udiv a p /\ into_wrapping_shl a s = into_wrapping_mul a p).
Proof. exact (shift_div_fact a s). Qed.
Print Assumptions C49_shift_as_division.
Example C49_div_ex : wf g100 /\ 0 <= 70 < len g100 /\ is_apint (mk_apint 100 [0; 64]) (len g100) (2 ^ 70).
Proof. split; [apply wf_g100|split; [cbn; lia|]]. split; [wf_now|split; reflexivity]. Qed.
