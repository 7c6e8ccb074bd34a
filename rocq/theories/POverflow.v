(** Property C81: the two additions that report whether they overflowed.  They are private to the
    crate, unused and untested there.  The vocabulary is in Spec.v. *)
From Verif Require Import LOverflow LEx.

(** C81: the signed addition wraps, and reports an overflow exactly if the sum of the values is
    not a value of the width. *)
Theorem C81_signed a b :
  wf a -> wf b -> len a = len b ->
  exists c f, overflowing_sadd_assign a b = Val (c, Ok f) /\ wf c /\ len c = len a /\
    signed c = wrap_signed (len a) (signed a + signed b) /\
    (f = true <-> ~ - 2 ^ (len a - 1) <= signed a + signed b < 2 ^ (len a - 1)).
Proof. exact (sadd_fact a b). Qed.
Print Assumptions C81_signed.
(** The largest signed value of 100 bits plus itself overflows. *)
Definition C81_max : apint := mk_apint 100 [18446744073709551615; 34359738367].
Example C81_signed_ex : wf C81_max /\ exists c, overflowing_sadd_assign C81_max C81_max = Val (c, Ok true).
Proof. split; [repeat split; repeat constructor; cbv; discriminate|eexists; vm_compute; reflexivity]. Qed.

(** C81: the unsigned addition wraps, and reports an overflow exactly if the sum does not fit, for
    widths that are multiples of 32.  For other widths this is false, as the next theorem says. *)
Theorem C81_unsigned_partial a b :
  wf a -> wf b -> len a = len b -> len a mod 64 = 0 \/ len a mod 64 = 32 ->
  exists c f, overflowing_uadd_assign a b = Val (c, Ok f) /\
    is_apint c (len a) ((unsigned a + unsigned b) mod 2 ^ len a) /\
    (f = true <-> 2 ^ len a <= unsigned a + unsigned b).
Proof. exact (uadd_partial_fact a b). Qed.
Print Assumptions C81_unsigned_partial.
Definition C81_96 : apint := mk_apint 96 [18446744073709551615; 4294967295].
Example C81_unsigned_partial_ex : wf C81_96 /\ len C81_96 mod 64 = 32 /\
  overflowing_uadd_assign C81_96 C81_96 = Val (mk_apint 96 [18446744073709551614; 4294967295], Ok true).
Proof. split; [repeat split; repeat constructor; cbv; discriminate|]. split; vm_compute; reflexivity. Qed.

(** C81: at every width that is not a multiple of 32 there are integers for which the unsigned
    addition reports an overflow that does not happen, or none when there is one. *)
Theorem C81_unsigned_refuted w :
  0 < w -> w mod 64 <> 0 -> w mod 64 <> 32 ->
  exists a b c f, wf a /\ wf b /\ len a = w /\ len b = w /\ overflowing_uadd_assign a b = Val (c, Ok f) /\
    ~ (f = true <-> 2 ^ w <= unsigned a + unsigned b).
Proof. exact (uadd_refuted_fact w). Qed.
Print Assumptions C81_unsigned_refuted.
(** 255 + 1 at 8 bits: no overflow is reported, and the integer returned is 256, which has no 8 bits. *)
Example C81_unsigned_refuted_ex : overflowing_uadd_assign (mk_apint 8 [255]) (mk_apint 8 [1]) = Val (mk_apint 8 [256], Ok false).
Proof. vm_compute. reflexivity. Qed.

(** C81: what the unsigned addition returns at every width: the sum is cut off at, and compared
    with, a power of two that is that of the width only for multiples of 32. *)
Theorem C81_unsigned_exact a b :
  wf a -> wf b -> len a = len b ->
  let kept := 64 * ((len a + 63) / 64) - len a mod 64 in
  exists c, overflowing_uadd_assign a b = Val (c, Ok (2 ^ kept <=? unsigned a + unsigned b)) /\
    len c = len a /\ unsigned c = (unsigned a + unsigned b) mod 2 ^ kept.
Proof. exact (uadd_exact_fact a b). Qed.
Print Assumptions C81_unsigned_exact.
Example C81_unsigned_exact_ex : overflowing_uadd_assign (mk_apint 60 [16]) (mk_apint 60 [1]) = Val (mk_apint 60 [1], Ok true) /\
  64 * ((60 + 63) / 64) - 60 mod 64 = 4.
Proof. vm_compute. split; reflexivity. Qed.

(** C81: for integers of different widths both return an error and change nothing. *)
Theorem C81_mismatch a b :
  wf a -> wf b -> len a <> len b ->
  overflowing_uadd_assign a b = Val (a, Err (UnmatchingBitwidth (len a) (len b))) /\
  overflowing_sadd_assign a b = Val (a, Err (UnmatchingBitwidth (len a) (len b))).
Proof. exact (overflow_mismatch_fact a b). Qed.
Print Assumptions C81_mismatch.
Example C81_mismatch_ex : wf C81_96 /\ wf C81_max /\ len C81_96 <> len C81_max.
Proof. split; [|split]; [repeat split; repeat constructor; cbv; discriminate..|discriminate]. Qed.
