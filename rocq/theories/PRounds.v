(** Property C78: how long the loop of the long division runs.  The calls [..._within r] are those of
    MRounds.v: the division, given up with [OutOfFuel] when the loop would start a round after the
    first [r].  [bits_of u], of SpecTemp.v, is the number of significant bits of [u]. *)
From Verif Require Import LRounds LEx.

(** C78: unsigned division: one round for every 62 bits that the dividend is longer than the
    divisor, and one more, are enough. *)
Theorem C78_unsigned r a b :
  wf a -> wf b ->
  (bits_of (unsigned a) - bits_of (unsigned b)) / 62 + 1 <= Z.of_nat r ->
  wrapping_udivrem_within r a b = wrapping_udivrem_assign a b /\
  wrapping_uremdiv_within r a b = wrapping_uremdiv_assign a b /\
  wrapping_udiv_within r a b = wrapping_udiv_assign a b /\
  wrapping_urem_within r a b = wrapping_urem_assign a b.
Proof. exact (rounds_unsigned_fact r a b). Qed.
Print Assumptions C78_unsigned.
(** The bound is reached: here it is 4, and after 3 rounds the division is not done. *)
Definition C78_duo := mk_apint 320 [4309440002319249634; 18445176907223112797; 18446744073709551615; 18446744073709551615; 18446744073709551615].
Definition C78_div := mk_apint 320 [3134550472856; 134217728; 0; 0; 0].
Example C78_unsigned_ex : wf C78_duo /\ wf C78_div /\
  (bits_of (unsigned C78_duo) - bits_of (unsigned C78_div)) / 62 + 1 = 4 /\
  wrapping_udivrem_within 3 C78_duo C78_div = OutOfFuel /\ wrapping_urem_within 3 C78_duo C78_div = OutOfFuel /\
  (exists q, wrapping_udiv_within 4 C78_duo C78_div = Val (q, Ok tt) /\ unsigned q = unsigned C78_duo / unsigned C78_div).
Proof.
  split; [wf_now|]. split; [wf_now|]. split; [vm_compute; reflexivity|]. split; [vm_compute; reflexivity|].
  split; [vm_compute; reflexivity|]. eexists. split; vm_compute; reflexivity.
Qed.

(** C78: the same for signed division and the absolute values. *)
Theorem C78_signed r a b :
  wf a -> wf b ->
  (bits_of (Z.abs (signed a)) - bits_of (Z.abs (signed b))) / 62 + 1 <= Z.of_nat r ->
  wrapping_sdivrem_within r a b = wrapping_sdivrem_assign a b /\
  wrapping_sremdiv_within r a b = wrapping_sremdiv_assign a b /\
  wrapping_sdiv_within r a b = wrapping_sdiv_assign a b /\
  wrapping_srem_within r a b = wrapping_srem_assign a b.
Proof. exact (rounds_signed_fact r a b). Qed.
Print Assumptions C78_signed.
Definition C78_neg := mk_apint 320 [6306231071558026494; 2469625577275083447; 13374048504844763182; 1059273451303489189; 11252464445804538317].
Definition C78_pos := mk_apint 320 [380398168514; 134217728; 0; 0; 0].
Example C78_signed_ex : wf C78_neg /\ wf C78_pos /\ signed C78_neg < 0 /\
  (bits_of (Z.abs (signed C78_neg)) - bits_of (Z.abs (signed C78_pos))) / 62 + 1 = 4 /\
  wrapping_sdivrem_within 3 C78_neg C78_pos = OutOfFuel /\ wrapping_srem_within 3 C78_neg C78_pos = OutOfFuel /\
  (exists q, wrapping_sdiv_within 4 C78_neg C78_pos = Val (q, Ok tt) /\ signed q = Z.quot (signed C78_neg) (signed C78_pos)).
Proof.
  split; [wf_now|]. split; [wf_now|]. split; [vm_compute; reflexivity|]. split; [vm_compute; reflexivity|].
  split; [vm_compute; reflexivity|]. split; [vm_compute; reflexivity|]. eexists. split; vm_compute; reflexivity.
Qed.

(** C78: whatever the values, a division at width [w] takes at most [w / 62 + 1] rounds. *)
Theorem C78_width r a b :
  wf a -> wf b -> len a / 62 + 1 <= Z.of_nat r ->
  wrapping_udivrem_within r a b = wrapping_udivrem_assign a b /\
  wrapping_uremdiv_within r a b = wrapping_uremdiv_assign a b /\
  wrapping_udiv_within r a b = wrapping_udiv_assign a b /\
  wrapping_urem_within r a b = wrapping_urem_assign a b /\
  wrapping_sdivrem_within r a b = wrapping_sdivrem_assign a b /\
  wrapping_sremdiv_within r a b = wrapping_sremdiv_assign a b /\
  wrapping_sdiv_within r a b = wrapping_sdiv_assign a b /\
  wrapping_srem_within r a b = wrapping_srem_assign a b.
Proof. exact (rounds_width_fact r a b). Qed.
Print Assumptions C78_width.
Example C78_width_ex : wf C78_duo /\ wf C78_div /\ len C78_duo / 62 + 1 <= Z.of_nat 6.
Proof. split; [wf_now|]. split; [wf_now|]. vm_compute. discriminate. Qed.

(** C78: giving up is all the limit does: a division that ends within the limit has the result of
    the division without one. *)
Theorem C78_limit r a b :
  wf a -> wf b ->
  (wrapping_udivrem_within r a b = OutOfFuel \/ wrapping_udivrem_within r a b = wrapping_udivrem_assign a b) /\
  (wrapping_uremdiv_within r a b = OutOfFuel \/ wrapping_uremdiv_within r a b = wrapping_uremdiv_assign a b) /\
  (wrapping_udiv_within r a b = OutOfFuel \/ wrapping_udiv_within r a b = wrapping_udiv_assign a b) /\
  (wrapping_urem_within r a b = OutOfFuel \/ wrapping_urem_within r a b = wrapping_urem_assign a b) /\
  (wrapping_sdivrem_within r a b = OutOfFuel \/ wrapping_sdivrem_within r a b = wrapping_sdivrem_assign a b) /\
  (wrapping_sremdiv_within r a b = OutOfFuel \/ wrapping_sremdiv_within r a b = wrapping_sremdiv_assign a b) /\
  (wrapping_sdiv_within r a b = OutOfFuel \/ wrapping_sdiv_within r a b = wrapping_sdiv_assign a b) /\
  (wrapping_srem_within r a b = OutOfFuel \/ wrapping_srem_within r a b = wrapping_srem_assign a b).
Proof. exact (rounds_limit_fact r a b). Qed.
Print Assumptions C78_limit.
Example C78_limit_ex : wf C78_duo /\ wf C78_div /\ wrapping_udiv_within 3 C78_duo C78_div = OutOfFuel /\
  wrapping_udiv_within 0 C78_div C78_duo = wrapping_udiv_assign C78_div C78_duo.
Proof. split; [wf_now|]. split; [wf_now|]. split; vm_compute; reflexivity. Qed.
