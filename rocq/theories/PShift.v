(** Properties C19-C22 and C49: shifts. *)
From Verif Require Import LFacts LEx LLaws.

(** C19: left shift multiplies by a power of two modulo 2^w. *)
Theorem C19_shl a s :
  wf a -> 0 <= s < len a ->
  exists c, wrapping_shl_assign a s = Val (c, Ok tt) /\ into_wrapping_shl a s = Val (Ok c) /\
    is_apint c (len a) ((unsigned a * 2 ^ s) mod 2 ^ len a).
Proof. exact (shl_fact a s). Qed.
Print Assumptions C19_shl.
Example C19_ex : wf g100 /\ 0 <= 70 < len g100 /\ exists c, wrapping_shl_assign g100 70 = Val (c, Ok tt).
Proof. split; [apply wf_g100|split; [cbn; lia|eexists; vm_compute; reflexivity]]. Qed.

(** C20: logical right shift is floor division by a power of two. *)
Theorem C20_lshr a s :
  wf a -> 0 <= s < len a ->
  exists c, wrapping_lshr_assign a s = Val (c, Ok tt) /\ into_wrapping_lshr a s = Val (Ok c) /\
    is_apint c (len a) (unsigned a / 2 ^ s).
Proof. exact (lshr_fact a s). Qed.
Print Assumptions C20_lshr.
Example C20_ex : wf f100 /\ 0 <= 99 < len f100 /\ wrapping_lshr_assign f100 99 = Val (mk_apint 100 [1; 0], Ok tt).
Proof. split; [apply wf_f100|split; [cbn; lia|vm_compute; reflexivity]]. Qed.

(** C21: arithmetic right shift is floor division of the signed value. *)
Theorem C21_ashr a s :
  wf a -> 0 <= s < len a ->
  exists c, wrapping_ashr_assign a s = Val (c, Ok tt) /\ into_wrapping_ashr a s = Val (Ok c) /\
    wf c /\ len c = len a /\ signed c = signed a / 2 ^ s.
Proof. exact (ashr_fact a s). Qed.
Print Assumptions C21_ashr.
Example C21_ex : wf f100 /\ 0 <= 99 < len f100 /\ wrapping_ashr_assign f100 99 = Val (e100, Ok tt).
Proof. split; [apply wf_f100|split; [cbn; lia|vm_compute; reflexivity]]. Qed.

(** C22: shift amounts at or above the width are rejected and nothing changes. *)
Theorem C22_invalid_amount a s :
  wf a -> len a <= s ->
  let err := InvalidShiftAmount s (len a) in
  wrapping_shl_assign a s = Val (a, Err err) /\ into_wrapping_shl a s = Val (Err err) /\
  wrapping_lshr_assign a s = Val (a, Err err) /\ into_wrapping_lshr a s = Val (Err err) /\
  wrapping_ashr_assign a s = Val (a, Err err) /\ into_wrapping_ashr a s = Val (Err err).
Proof. exact (shift_err_fact a s). Qed.
Print Assumptions C22_invalid_amount.
Example C22_ex : wf f100 /\ len f100 <= 100.
Proof. split; [apply wf_f100|cbn; lia]. Qed.
