(** Properties C30-C32: conversion to primitive integers.  [wrap_signed] is in
    Spec.v. *)
From Verif Require Import LPrim LEx.

(** C30: conversion to bool and to the unsigned primitives succeeds exactly when
    the value fits and returns it; otherwise the error carries the value and
    the target type. *)
Theorem C30_try_unsigned a :
  wf a ->
  try_to_bool a = Val (if unsigned a =? 0 then Ok false else if unsigned a =? 1 then Ok true
    else Err (ValueUnrepresentable a PBool)) /\
  try_to_u8 a = Val (if unsigned a <? 2 ^ 8 then Ok (unsigned a) else Err (ValueUnrepresentable a PU8)) /\
  try_to_u16 a = Val (if unsigned a <? 2 ^ 16 then Ok (unsigned a) else Err (ValueUnrepresentable a PU16)) /\
  try_to_u32 a = Val (if unsigned a <? 2 ^ 32 then Ok (unsigned a) else Err (ValueUnrepresentable a PU32)) /\
  try_to_u64 a = Val (if unsigned a <? 2 ^ 64 then Ok (unsigned a) else Err (ValueUnrepresentable a PU64)) /\
  try_to_u128 a = Val (if unsigned a <? 2 ^ 128 then Ok (unsigned a) else Err (ValueUnrepresentable a PU128)).
Proof. exact (try_unsigned_fact a). Qed.
Print Assumptions C30_try_unsigned.
Example C30_ex : wf e8 /\ unsigned e8 = 200 /\ wf f100 /\ 2 ^ 64 <= unsigned f100.
Proof. split; [apply wf_e8|split; [reflexivity|split; [apply wf_f100|vm_compute; discriminate]]]. Qed.

(** C31: the part of the claim that is true.  Missing: negative values of more
    than N bits (an error even if the value fits) and values from 2^(N-1) up
    of more than N bits (returned wrapped to a negative number). *)
Theorem C31_try_signed_partial a :
  wf a ->
  (len a <= 8 \/ 0 <= signed a < 2 ^ 7 -> try_to_i8 a = Val (Ok (signed a))) /\
  (len a <= 16 \/ 0 <= signed a < 2 ^ 15 -> try_to_i16 a = Val (Ok (signed a))) /\
  (len a <= 32 \/ 0 <= signed a < 2 ^ 31 -> try_to_i32 a = Val (Ok (signed a))) /\
  (len a <= 64 \/ 0 <= signed a < 2 ^ 63 -> try_to_i64 a = Val (Ok (signed a))) /\
  (len a <= 128 \/ 0 <= signed a < 2 ^ 127 -> try_to_i128 a = Val (Ok (signed a))).
Proof. exact (try_signed_partial a). Qed.
Print Assumptions C31_try_signed_partial.
Example C31_partial_ex : wf (mk_apint 100 [7; 1]) /\ 0 <= signed (mk_apint 100 [7; 1]) < 2 ^ 127 /\
  wf e8 /\ len e8 <= 8 /\ signed e8 = -56.
Proof.
  split; [wf_now|]. replace (signed (mk_apint 100 [7; 1])) with (2 ^ 64 + 7) by (vm_compute; reflexivity).
  split; [lia|split; [apply wf_e8|split; [cbn; lia|reflexivity]]].
Qed.

(** C31 is false of the code: try_to_i8 and try_to_i128 can return a number that
    is not the signed value, and can refuse a value in range. *)
Theorem C31_try_signed_refuted :
  (exists a v, wf a /\ try_to_i8 a = Val (Ok v) /\ v <> signed a) /\
  (exists a v, wf a /\ try_to_i128 a = Val (Ok v) /\ v <> signed a) /\
  (exists a e, wf a /\ -128 <= signed a < 128 /\ try_to_i8 a = Val (Err e)).
Proof. exact try_signed_refuted. Qed.
Print Assumptions C31_try_signed_refuted.
Example C31_refuted_ex : try_to_i8 (mk_apint 16 [200]) = Val (Ok (-56)) /\ signed (mk_apint 16 [200]) = 200 /\
  signed (mk_apint 16 [65535]) = -1 /\
  try_to_i8 (mk_apint 16 [65535]) = Val (Err (ValueUnrepresentable (mk_apint 16 [65535]) PI8)).
Proof. vm_compute. auto. Qed.

(** C31, what the code returns for every value. *)
Theorem C31_try_signed_exact a :
  wf a ->
  try_to_i8 a = Val (if len a <=? 8 then Ok (signed a) else
    if unsigned a <? 2 ^ 8 then Ok (wrap_signed 8 (unsigned a)) else Err (ValueUnrepresentable a PI8)) /\
  try_to_i16 a = Val (if len a <=? 16 then Ok (signed a) else
    if unsigned a <? 2 ^ 16 then Ok (wrap_signed 16 (unsigned a)) else Err (ValueUnrepresentable a PI16)) /\
  try_to_i32 a = Val (if len a <=? 32 then Ok (signed a) else
    if unsigned a <? 2 ^ 32 then Ok (wrap_signed 32 (unsigned a)) else Err (ValueUnrepresentable a PI32)) /\
  try_to_i64 a = Val (if len a <=? 64 then Ok (signed a) else
    if unsigned a <? 2 ^ 64 then Ok (wrap_signed 64 (unsigned a)) else Err (ValueUnrepresentable a PI64)) /\
  try_to_i128 a = Val (if len a <=? 128 then Ok (signed a) else
    if unsigned a <? 2 ^ 128 then Ok (wrap_signed 128 (unsigned a)) else Err (ValueUnrepresentable a PI128)).
Proof. exact (try_signed_exact a). Qed.
Print Assumptions C31_try_signed_exact.
Example C31_exact_ex : wf e192 /\ 128 < len e192.
Proof. split; [apply wf_e192|cbn; lia]. Qed.

(** C32: the lossy conversions. *)
Theorem C32_resize_to_primitive a :
  wf a ->
  resize_to_bool a = Val (Z.odd (unsigned a)) /\
  resize_to_u8 a = Val (unsigned a mod 2 ^ 8) /\ resize_to_u16 a = Val (unsigned a mod 2 ^ 16) /\
  resize_to_u32 a = Val (unsigned a mod 2 ^ 32) /\ resize_to_u64 a = Val (unsigned a mod 2 ^ 64) /\
  resize_to_u128 a = Val (unsigned a mod 2 ^ 128) /\
  resize_to_i8 a = Val (wrap_signed 8 (signed a)) /\ resize_to_i16 a = Val (wrap_signed 16 (signed a)) /\
  resize_to_i32 a = Val (wrap_signed 32 (signed a)) /\ resize_to_i64 a = Val (wrap_signed 64 (signed a)) /\
  resize_to_i128 a = Val (wrap_signed 128 (signed a)).
Proof. exact (resize_prim_fact a). Qed.
Print Assumptions C32_resize_to_primitive.
Example C32_ex : wf e100 /\ signed e100 = -1 /\ resize_to_u8 e100 = Val 255 /\ resize_to_i128 e100 = Val (-1).
Proof. split; [apply wf_e100|]. vm_compute. auto. Qed.
