(** Properties C01-C04, C08 (part), C47: wrapping arithmetic.  The vocabulary
    ([wf], [unsigned], [signed], [wrap_signed], [is_apint]) is in Spec.v. *)
From Verif Require Import LFacts LEx LLaws.

(** C01: addition wraps modulo 2^w; the assigning and the consuming form agree. *)
Theorem C01_add a b :
  wf a -> wf b -> len a = len b ->
  exists c, wrapping_add_assign a b = Val (c, Ok tt) /\ into_wrapping_add a b = Val (Ok c) /\
    is_apint c (len a) ((unsigned a + unsigned b) mod 2 ^ len a) /\
    signed c = wrap_signed (len a) (signed a + signed b).
Proof. exact (add_fact a b). Qed.
Print Assumptions C01_add.
Example C01_ex : wf e100 /\ wf f100 /\ len e100 = len f100 /\
  wrapping_add_assign e100 f100 = Val (mk_apint 100 [1; 34359738368], Ok tt).
Proof. split; [apply wf_e100|split; [apply wf_f100|split; [reflexivity|vm_compute; reflexivity]]]. Qed.

(** C02: subtraction wraps modulo 2^w. *)
Theorem C02_sub a b :
  wf a -> wf b -> len a = len b ->
  exists c, wrapping_sub_assign a b = Val (c, Ok tt) /\ into_wrapping_sub a b = Val (Ok c) /\
    is_apint c (len a) ((unsigned a - unsigned b) mod 2 ^ len a) /\
    signed c = wrap_signed (len a) (signed a - signed b).
Proof. exact (sub_fact a b). Qed.
Print Assumptions C02_sub.
Example C02_ex : wf f100 /\ wf e100 /\ len f100 = len e100 /\
  wrapping_sub_assign f100 e100 = Val (mk_apint 100 [3; 34359738368], Ok tt).
Proof. split; [apply wf_f100|split; [apply wf_e100|split; [reflexivity|vm_compute; reflexivity]]]. Qed.

(** C03: increment. *)
Theorem C03_inc a :
  wf a ->
  exists c, wrapping_inc a = Val c /\ into_wrapping_inc a = Val c /\
    is_apint c (len a) ((unsigned a + 1) mod 2 ^ len a) /\
    signed c = wrap_signed (len a) (signed a + 1).
Proof. exact (inc_fact a). Qed.
Print Assumptions C03_inc.
Example C03_inc_ex : wf e100 /\ wrapping_inc e100 = Val (mk_apint 100 [0; 0]).
Proof. split; [apply wf_e100|vm_compute; reflexivity]. Qed.

(** C03: decrement. *)
Theorem C03_dec a :
  wf a ->
  exists c, wrapping_dec a = Val c /\ into_wrapping_dec a = Val c /\
    is_apint c (len a) ((unsigned a - 1) mod 2 ^ len a) /\
    signed c = wrap_signed (len a) (signed a - 1).
Proof. exact (dec_fact a). Qed.
Print Assumptions C03_dec.
Example C03_dec_ex : wf z100 /\ wrapping_dec z100 = Val e100.
Proof. split; [apply wf_z100|vm_compute; reflexivity]. Qed.

(** C03: negation. *)
Theorem C03_neg a :
  wf a ->
  exists c, wrapping_neg a = Val c /\ into_wrapping_neg a = Val c /\
    is_apint c (len a) ((- unsigned a) mod 2 ^ len a) /\
    signed c = wrap_signed (len a) (- signed a).
Proof. exact (neg_fact a). Qed.
Print Assumptions C03_neg.
Example C03_neg_ex : wf e192 /\
  wrapping_neg e192 = Val (mk_apint 192 [18446744073709551615; 18446744073709551615; 9223372036854775807]).
Proof. split; [apply wf_e192|vm_compute; reflexivity]. Qed.

(** C04: multiplication wraps modulo 2^w, whichever branch the code selects. *)
Theorem C04_mul a b :
  wf a -> wf b -> len a = len b ->
  exists c, wrapping_mul_assign a b = Val (c, Ok tt) /\ into_wrapping_mul a b = Val (Ok c) /\
    is_apint c (len a) ((unsigned a * unsigned b) mod 2 ^ len a) /\
    signed c = wrap_signed (len a) (signed a * signed b).
Proof. exact (mul_fact a b). Qed.
Print Assumptions C04_mul.
Example C04_ex : wf f192 /\ wf e192 /\ len f192 = len e192 /\
  wrapping_mul_assign f192 e192
  = Val (mk_apint 192 [18446744073709551615; 18446744073709551615; 9223372036854775813], Ok tt).
Proof. split; [apply wf_f192|split; [apply wf_e192|split; [reflexivity|vm_compute; reflexivity]]]. Qed.

(** C08: operands of differing widths: the error names both widths and the first
    operand is returned unchanged (the second is never written). *)
Theorem C08_mutating a b :
  len a <> len b ->
  let err := UnmatchingBitwidth (len a) (len b) in
  wrapping_add_assign a b = Val (a, Err err) /\ into_wrapping_add a b = Val (Err err) /\
  wrapping_sub_assign a b = Val (a, Err err) /\ into_wrapping_sub a b = Val (Err err) /\
  wrapping_mul_assign a b = Val (a, Err err) /\ into_wrapping_mul a b = Val (Err err) /\
  bitand_assign a b = Val (a, Err err) /\ into_bitand a b = Val (Err err) /\
  bitor_assign a b = Val (a, Err err) /\ into_bitor a b = Val (Err err) /\
  bitxor_assign a b = Val (a, Err err) /\ into_bitxor a b = Val (Err err) /\
  strict_assign a b = Val (a, Err err).
Proof. exact (mutating_mismatch a b). Qed.
Print Assumptions C08_mutating.
Example C08_mutating_ex : len e8 <> len e100.
Proof. discriminate. Qed.

(** C08: comparisons of differing widths; four of them report the widths swapped. *)
Theorem C08_comparison a b :
  len a <> len b ->
  let err := UnmatchingBitwidth (len a) (len b) in
  let swapped := UnmatchingBitwidth (len b) (len a) in
  checked_ult a b = Val (Err err) /\ checked_uge a b = Val (Err err) /\
  checked_slt a b = Val (Err err) /\ checked_sge a b = Val (Err err) /\
  checked_ule a b = Val (Err swapped) /\ checked_ugt a b = Val (Err swapped) /\
  checked_sle a b = Val (Err swapped) /\ checked_sgt a b = Val (Err swapped).
Proof. exact (comparison_mismatch a b). Qed.
Print Assumptions C08_comparison.
Example C08_comparison_ex : len e8 <> len e100 /\ checked_ult e8 e100 = Val (Err (UnmatchingBitwidth 8 100)).
Proof. split; [discriminate|reflexivity]. Qed.

(** C47: the commutative ring laws between API calls. *)
Theorem C47_ring a b c :
  wf a -> wf b -> wf c -> len a = len b -> len b = len c ->
  into_wrapping_add a b = into_wrapping_add b a /\
  into_wrapping_mul a b = into_wrapping_mul b a /\
  (let? ab := into_wrapping_add a b in into_wrapping_add ab c) =
  (let? bc := into_wrapping_add b c in into_wrapping_add a bc) /\
  (let? ab := into_wrapping_mul a b in into_wrapping_mul ab c) =
  (let? bc := into_wrapping_mul b c in into_wrapping_mul a bc) /\
  (let? bc := into_wrapping_add b c in into_wrapping_mul a bc) =
  (let? ab := into_wrapping_mul a b in let? ac := into_wrapping_mul a c in into_wrapping_add ab ac) /\
  (let! z := zero (len a) in into_wrapping_add a z) = Val (Ok a) /\
  (let! o := one (len a) in into_wrapping_mul a o) = Val (Ok a) /\
  (let! nb := into_wrapping_neg b in into_wrapping_add a nb) = into_wrapping_sub a b /\
  into_wrapping_sub a a = (let! z := zero (len a) in Val (Ok z)) /\
  (let? ab := into_wrapping_sub a b in into_wrapping_add ab b) = Val (Ok a).
Proof. exact (ring_fact a b c). Qed.
Print Assumptions C47_ring.
Example C47_ring_ex : wf e100 /\ wf f100 /\ wf g100 /\ len e100 = len f100 /\ len f100 = len g100.
Proof. split; [apply wf_e100|split; [apply wf_f100|split; [apply wf_g100|split; reflexivity]]]. Qed.

(** C47: the Boolean algebra laws between API calls. *)
Theorem C47_boolean a b c :
  wf a -> wf b -> wf c -> len a = len b -> len b = len c ->
  into_bitand a b = into_bitand b a /\ into_bitor a b = into_bitor b a /\ into_bitxor a b = into_bitxor b a /\
  (let? ab := into_bitand a b in into_bitand ab c) = (let? bc := into_bitand b c in into_bitand a bc) /\
  (let? ab := into_bitor a b in into_bitor ab c) = (let? bc := into_bitor b c in into_bitor a bc) /\
  (let? ab := into_bitxor a b in into_bitxor ab c) = (let? bc := into_bitxor b c in into_bitxor a bc) /\
  (let? bc := into_bitor b c in into_bitand a bc) =
  (let? ab := into_bitand a b in let? ac := into_bitand a c in into_bitor ab ac) /\
  (let? bc := into_bitand b c in into_bitor a bc) =
  (let? ab := into_bitor a b in let? ac := into_bitor a c in into_bitand ab ac) /\
  (let? ab := into_bitand a b in into_bitor a ab) = Val (Ok a) /\
  (let? ab := into_bitor a b in into_bitand a ab) = Val (Ok a) /\
  (let! na := into_bitnot a in into_bitnot na) = Val a /\
  (let? ab := into_bitand a b in let! n := into_bitnot ab in Val (Ok n)) =
  (let! na := into_bitnot a in let! nb := into_bitnot b in into_bitor na nb) /\
  (let? ab := into_bitor a b in let! n := into_bitnot ab in Val (Ok n)) =
  (let! na := into_bitnot a in let! nb := into_bitnot b in into_bitand na nb) /\
  (let! na := into_bitnot a in into_bitand a na) = (let! z := zero (len a) in Val (Ok z)) /\
  (let! na := into_bitnot a in into_bitor a na) = (let! o := all_set (len a) in Val (Ok o)) /\
  (let? ab := into_bitxor a b in into_bitxor ab b) = Val (Ok a).
Proof. exact (boolean_fact a b c). Qed.
Print Assumptions C47_boolean.
Example C47_boolean_ex : wf e192 /\ wf f192 /\ wf e192 /\ len e192 = len f192 /\ len f192 = len e192 /\
  into_bitand e192 f192 = Val (Ok (mk_apint 192 [1; 0; 0])).
Proof.
  split; [apply wf_e192|split; [apply wf_f192|split; [apply wf_e192|split; [reflexivity|split; [reflexivity|vm_compute; reflexivity]]]]].
Qed.
