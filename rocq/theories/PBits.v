(** Properties C14-C18: bits. *)
From Verif Require Import LFacts LEx.

(** C14: complement, bit by bit. *)
Theorem C14_not a :
  wf a ->
  exists c, bitnot a = Val c /\ into_bitnot a = Val c /\ wf c /\ len c = len a /\
    (forall p, 0 <= p < len a -> bit c p = negb (bit a p)).
Proof. exact (bitnot_fact a). Qed.
Print Assumptions C14_not.
Example C14_not_ex : wf g100 /\ exists c, bitnot g100 = Val c.
Proof. split; [apply wf_g100|eexists; vm_compute; reflexivity]. Qed.

(** C14: conjunction, bit by bit. *)
Theorem C14_and a b :
  wf a -> wf b -> len a = len b ->
  exists c, bitand_assign a b = Val (c, Ok tt) /\ into_bitand a b = Val (Ok c) /\
    wf c /\ len c = len a /\ (forall p, bit c p = andb (bit a p) (bit b p)).
Proof. exact (bitand_fact a b). Qed.
Print Assumptions C14_and.
Example C14_and_ex : wf e192 /\ wf f192 /\ len e192 = len f192 /\
  bitand_assign e192 f192 = Val (mk_apint 192 [1; 0; 0], Ok tt).
Proof. split; [apply wf_e192|split; [apply wf_f192|split; [reflexivity|vm_compute; reflexivity]]]. Qed.

(** C14: disjunction, bit by bit. *)
Theorem C14_or a b :
  wf a -> wf b -> len a = len b ->
  exists c, bitor_assign a b = Val (c, Ok tt) /\ into_bitor a b = Val (Ok c) /\
    wf c /\ len c = len a /\ (forall p, bit c p = orb (bit a p) (bit b p)).
Proof. exact (bitor_fact a b). Qed.
Print Assumptions C14_or.
Example C14_or_ex : wf f100 /\ wf g100 /\ len f100 = len g100 /\
  bitor_assign f100 g100 = Val (mk_apint 100 [12345678901234567890; 34359738375], Ok tt).
Proof. split; [apply wf_f100|split; [apply wf_g100|split; [reflexivity|vm_compute; reflexivity]]]. Qed.

(** C14: exclusive disjunction, bit by bit. *)
Theorem C14_xor a b :
  wf a -> wf b -> len a = len b ->
  exists c, bitxor_assign a b = Val (c, Ok tt) /\ into_bitxor a b = Val (Ok c) /\
    wf c /\ len c = len a /\ (forall p, bit c p = xorb (bit a p) (bit b p)).
Proof. exact (bitxor_fact a b). Qed.
Print Assumptions C14_xor.
Example C14_xor_ex : wf e100 /\ wf e100 /\ len e100 = len e100 /\ bitxor_assign e100 e100 = Val (z100, Ok tt).
Proof. split; [apply wf_e100|split; [apply wf_e100|split; [reflexivity|vm_compute; reflexivity]]]. Qed.

(** C15: reading one bit. *)
Theorem C15_get a p :
  wf a -> 0 <= p < len a -> get_bit_at a p = Val (Ok (bit a p)).
Proof. exact (get_bit_at_fact a p). Qed.
Print Assumptions C15_get.
Example C15_get_ex : wf f100 /\ 0 <= 99 < len f100 /\ get_bit_at f100 99 = Val (Ok true).
Proof. split; [apply wf_f100|split; [cbn; lia|vm_compute; reflexivity]]. Qed.

(** C15: setting one bit. *)
Theorem C15_set a p :
  wf a -> 0 <= p < len a ->
  exists c, set_bit_at a p = Val (c, Ok tt) /\ wf c /\ len c = len a /\
    forall i, 0 <= i -> bit c i = if i =? p then true else bit a i.
Proof. exact (set_bit_at_spec a p). Qed.
Print Assumptions C15_set.
Example C15_set_ex : wf z100 /\ 0 <= 70 < len z100 /\ set_bit_at z100 70 = Val (mk_apint 100 [0; 64], Ok tt).
Proof. split; [apply wf_z100|split; [cbn; lia|vm_compute; reflexivity]]. Qed.

(** C15: clearing one bit. *)
Theorem C15_unset a p :
  wf a -> 0 <= p < len a ->
  exists c, unset_bit_at a p = Val (c, Ok tt) /\ wf c /\ len c = len a /\
    forall i, 0 <= i -> bit c i = if i =? p then false else bit a i.
Proof. exact (unset_bit_at_spec a p). Qed.
Print Assumptions C15_unset.
Example C15_unset_ex : wf f100 /\ 0 <= 99 < len f100 /\ unset_bit_at f100 99 = Val (mk_apint 100 [2; 0], Ok tt).
Proof. split; [apply wf_f100|split; [cbn; lia|vm_compute; reflexivity]]. Qed.

(** C15: flipping one bit. *)
Theorem C15_flip a p :
  wf a -> 0 <= p < len a ->
  exists c, flip_bit_at a p = Val (c, Ok tt) /\ wf c /\ len c = len a /\
    forall i, 0 <= i -> bit c i = if i =? p then negb (bit a i) else bit a i.
Proof. exact (flip_bit_at_spec a p). Qed.
Print Assumptions C15_flip.
Example C15_flip_ex : wf f100 /\ 0 <= 1 < len f100 /\ flip_bit_at f100 1 = Val (mk_apint 100 [0; 34359738368], Ok tt).
Proof. split; [apply wf_f100|split; [cbn; lia|vm_compute; reflexivity]]. Qed.

(** C15: positions at or above the width are rejected and nothing changes. *)
Theorem C15_out_of_range a p :
  len a <= p ->
  let err := InvalidBitAccess p (len a) in
  get_bit_at a p = Val (Err err) /\ set_bit_at a p = Val (a, Err err) /\
  unset_bit_at a p = Val (a, Err err) /\ flip_bit_at a p = Val (a, Err err).
Proof. exact (bit_oob_fact a p). Qed.
Print Assumptions C15_out_of_range.
Example C15_out_of_range_ex : len f100 <= 100 /\ get_bit_at f100 100 = Val (Err (InvalidBitAccess 100 100)).
Proof. split; [cbn; lia|vm_compute; reflexivity]. Qed.

(** C16: updates of the whole value. *)
Theorem C16_whole a :
  wf a ->
  (exists c, set_all a = Val c /\ is_apint c (len a) (2 ^ len a - 1)) /\
  (exists c, unset_all a = Val c /\ is_apint c (len a) 0) /\
  (exists c, flip_all a = Val c /\ is_apint c (len a) (2 ^ len a - 1 - unsigned a)).
Proof. exact (whole_fact a). Qed.
Print Assumptions C16_whole.
Example C16_whole_ex : wf g100 /\ set_all g100 = Val e100 /\ unset_all g100 = Val z100.
Proof. split; [apply wf_g100|split; vm_compute; reflexivity]. Qed.

(** C16: updates of the sign bit. *)
Theorem C16_sign_bit a :
  wf a ->
  (exists c, set_msb a = Val c /\ wf c /\ len c = len a /\
    forall i, 0 <= i -> bit c i = if i =? len a - 1 then true else bit a i) /\
  (exists c, unset_msb a = Val c /\ wf c /\ len c = len a /\
    forall i, 0 <= i -> bit c i = if i =? len a - 1 then false else bit a i) /\
  (exists c, flip_msb a = Val c /\ wf c /\ len c = len a /\
    forall i, 0 <= i -> bit c i = if i =? len a - 1 then negb (bit a i) else bit a i).
Proof. exact (sign_bit_fact a). Qed.
Print Assumptions C16_sign_bit.
Example C16_sign_bit_ex : wf f100 /\ unset_msb f100 = Val (mk_apint 100 [2; 0]).
Proof. split; [apply wf_f100|vm_compute; reflexivity]. Qed.

(** C16: questions about the value. *)
Theorem C16_predicates a :
  wf a ->
  msb a = Val (bit a (len a - 1)) /\ msb a = Val (signed a <? 0) /\
  lsb a = Val (bit a 0) /\
  is_even a = Val (Z.even (unsigned a)) /\ is_odd a = Val (Z.odd (unsigned a)) /\
  is_zero a = Val (unsigned a =? 0) /\ is_all_unset a = Val (unsigned a =? 0).
Proof. exact (predicates_fact a). Qed.
Print Assumptions C16_predicates.
Example C16_predicates_ex : wf e100 /\ msb e100 = Val true /\ is_even e100 = Val false.
Proof. split; [apply wf_e100|split; vm_compute; reflexivity]. Qed.

(** C17: ones and zeros are counted exactly. *)
Theorem C17_counts a :
  wf a ->
  exists o z, count_ones a = Val o /\ count_zeros a = Val z /\
    o = ones_below (unsigned a) (len a) /\ o + z = len a.
Proof. exact (count_fact a). Qed.
Print Assumptions C17_counts.
Example C17_counts_ex : wf f192 /\ count_ones f192 = Val 130 /\ count_zeros f192 = Val 62.
Proof. split; [apply wf_f192|split; vm_compute; reflexivity]. Qed.

(** C17: the number of leading zeros is the width minus the bit length. *)
Theorem C17_leading_zeros a :
  wf a -> exists k, leading_zeros a = Val k /\ 0 <= k <= len a /\ unsigned a < 2 ^ (len a - k) /\
    (k < len a -> 2 ^ (len a - k - 1) <= unsigned a).
Proof. exact (leading_zeros_spec a). Qed.
Print Assumptions C17_leading_zeros.
Example C17_leading_zeros_ex : wf g100 /\ leading_zeros g100 = Val 33.
Proof. split; [apply wf_g100|vm_compute; reflexivity]. Qed.

(** C17: the number of trailing zeros is the index of the lowest one bit. *)
Theorem C17_trailing_zeros a :
  wf a -> exists k, trailing_zeros a = Val k /\
    (unsigned a = 0 -> k = len a) /\
    (unsigned a <> 0 -> 0 <= k < len a /\ bit a k = true /\ forall i, 0 <= i < k -> bit a i = false).
Proof. exact (trailing_zeros_spec a). Qed.
Print Assumptions C17_trailing_zeros.
Example C17_trailing_zeros_ex : wf f100 /\ trailing_zeros f100 = Val 1 /\ trailing_zeros z100 = Val 100.
Proof. split; [apply wf_f100|split; vm_compute; reflexivity]. Qed.

(** C18, part: [is_one] is right for widths up to 64.  The full claim drops
    [len a <= 64]; it is false, see [C18_is_one_refuted]. *)
Theorem C18_is_one_partial a :
  wf a -> len a <= 64 -> is_one a = Val (unsigned a =? 1).
Proof. exact (is_one_partial a). Qed.
Print Assumptions C18_is_one_partial.
Example C18_is_one_partial_ex : wf f8 /\ len f8 <= 64 /\ is_one (mk_apint 8 [1]) = Val true.
Proof. split; [apply wf_f8|split; [cbn; lia|reflexivity]]. Qed.

(** C18 fails: above 64 bits [is_one] answers no for the value one and yes for
    2^64 at width 65. *)
Theorem C18_is_one_refuted :
  (exists a, wf a /\ unsigned a = 1 /\ is_one a = Val false) /\
  (exists a, wf a /\ unsigned a <> 1 /\ is_one a = Val true).
Proof. exact is_one_refuted. Qed.
Print Assumptions C18_is_one_refuted.

(** C18: what [is_one] decides at every width: the value 2^(64(n-1)) for n digits. *)
Theorem C18_is_one_exact a :
  wf a ->
  is_one a = Val (unsigned a =? 2 ^ (64 * (Z.of_nat (required_digits (len a)) - 1))).
Proof. exact (is_one_char a). Qed.
Print Assumptions C18_is_one_exact.
Example C18_is_one_exact_ex : wf g100 /\ is_one (mk_apint 100 [0; 1]) = Val true.
Proof. split; [apply wf_g100|vm_compute; reflexivity]. Qed.

(** C18, part: [is_all_set] is right for widths not divisible by 64.  The full
    claim drops that hypothesis; it is false, see [C18_is_all_set_refuted]. *)
Theorem C18_is_all_set_partial a :
  wf a -> len a mod 64 <> 0 -> is_all_set a = Val (unsigned a =? 2 ^ len a - 1).
Proof. exact (is_all_set_partial a). Qed.
Print Assumptions C18_is_all_set_partial.
Example C18_is_all_set_partial_ex : wf e100 /\ len e100 mod 64 <> 0 /\ is_all_set e100 = Val true.
Proof. split; [apply wf_e100|split; [discriminate|vm_compute; reflexivity]]. Qed.

(** C18 fails: at width 64 [is_all_set] answers yes for zero, at width 128 for a
    value whose top digit is zero. *)
Theorem C18_is_all_set_refuted :
  (exists a, wf a /\ unsigned a = 0 /\ is_all_set a = Val true) /\
  (exists a, wf a /\ len a = 128 /\ unsigned a <> 2 ^ 128 - 1 /\ is_all_set a = Val true).
Proof. exact is_all_set_refuted. Qed.
Print Assumptions C18_is_all_set_refuted.

(** C18: what [is_all_set] decides at every width. *)
Theorem C18_is_all_set_exact a :
  wf a ->
  is_all_set a =
    Val (if len a mod 64 =? 0
         then unsigned a mod 2 ^ (len a - 64) =? 2 ^ (len a - 64) - 1
         else unsigned a =? 2 ^ len a - 1).
Proof. exact (is_all_set_char a). Qed.
Print Assumptions C18_is_all_set_exact.
Example C18_is_all_set_exact_ex : wf e192 /\ is_all_set e192 = Val false.
Proof. split; [apply wf_e192|vm_compute; reflexivity]. Qed.
