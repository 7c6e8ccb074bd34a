(** Property C94: the crate's own fuzz test.  The test draws numbers, builds integers from them, calls the library and
    asserts that the answers fit together; it fails if a call panics, an [unwrap] meets an error or an assertion
    does not hold.  Here every number it could draw is covered. *)
From Verif Require Import LFuzz LEx.

(** C94: the identities of the fuzz test hold for all integers of one width, whatever is drawn: no assertion fails, no
    [unwrap] meets an error and no call panics. *)
Theorem C94_identities w z lhs rhs third draws :
  wf lhs -> wf rhs -> wf third -> len lhs = w -> len rhs = w -> len third = w -> is_apint z w 0 -> 2 * w < 2 ^ 64 ->
  identities w w z lhs rhs third draws = Val tt.
Proof. exact (identities_fact w z lhs rhs third draws). Qed.
Print Assumptions C94_identities.
Example C94_identities_ex : wf e100 /\ wf f100 /\ wf g100 /\ len e100 = 100 /\ len f100 = 100 /\ len g100 = 100 /\
  is_apint z100 100 0 /\ 2 * 100 < 2 ^ 64 /\
  identities 100 100 z100 f100 g100 e100 (99, 18446744073709551615) = Val tt.
Proof.
  split; [apply wf_e100|split; [apply wf_f100|split; [apply wf_g100|]]].
  split; [reflexivity|split; [reflexivity|split; [reflexivity|split; [split; [apply wf_z100|split; reflexivity]|split; [lia|]]]]].
  vm_compute. reflexivity.
Qed.
(** The assertions are not vacuous: with an operand of another width the test fails. *)
Example C94_identities_can_fail : identities 100 100 z100 f100 e64 e100 (99, 5) = Panic.
Proof. vm_compute. reflexivity. Qed.

(** C94: the random part of the test passes for every width, every number of rounds and all draws, unless the width is a
    multiple of 2^32 or too large to be doubled. *)
Theorem C94_random w ds :
  0 < w -> 2 * w < 2 ^ 64 -> w mod 2 ^ 32 <> 0 -> fuzz_random w ds = Val tt.
Proof. exact (random_ok w ds). Qed.
Print Assumptions C94_random.
Definition C94_draws : fuzz_draws := mk_fuzz_draws 40 33 (false, true, true, false) (fun n => (Z.of_nat n * 17, 99)).
Definition C94_draws' : fuzz_draws := mk_fuzz_draws 64 0 (false, false, true, true) (fun n => (Z.of_nat n * 19 + 1, 12)).
Example C94_random_ex : 0 < 65 /\ 2 * 65 < 2 ^ 64 /\ 65 mod 2 ^ 32 <> 0 /\ fuzz_random 65 [C94_draws; C94_draws'; C94_draws] = Val tt.
Proof. split; [lia|split; [lia|split; [discriminate|vm_compute; reflexivity]]]. Qed.

(** C94: at a width that is a multiple of 2^32 the test itself divides by zero. *)
Theorem C94_random_exact w d ds :
  0 < w -> w mod 2 ^ 32 = 0 -> fuzz_random w (d :: ds) = Panic.
Proof. exact (random_multiple w d ds). Qed.
Print Assumptions C94_random_exact.
Example C94_random_exact_ex : 0 < 2 ^ 32 /\ 2 ^ 32 mod 2 ^ 32 = 0. Proof. split; reflexivity. Qed.

(** C94: the part with edge cases passes for every width for which it can count its cases. *)
Theorem C94_edge w draws :
  0 < w <= 1984 -> fuzz_edge w draws = Val tt.
Proof. exact (edge_ok w draws). Qed.
Print Assumptions C94_edge.
Example C94_edge_ex : 0 < 63 <= 1984 /\ fuzz_edge 63 (fun i j k => (Z.of_nat i, Z.of_nat (j + k))) = Val tt.
Proof. split; [lia|vm_compute; reflexivity]. Qed.
Example C94_edge_digits_ex : edge_digits 3 54 = [2 ^ 64 - 2; 1; 2 ^ 64 - 1]. Proof. reflexivity. Qed.

(** C94: the whole test passes, whatever is drawn and however many rounds it has. *)
Theorem C94_test draws edges :
  fuzz_test draws edges = Val tt.
Proof. exact (test_ok draws edges). Qed.
Print Assumptions C94_test.
Example C94_test_ex : exists d, fuzz_random 129 [d] = Val tt /\ d = C94_draws.
Proof. exists C94_draws. split; [vm_compute; reflexivity|reflexivity]. Qed.

(** C94: the product and the remainder whose sum the test divides always fit the width, so a correct overflow test would never
    skip the division. *)
Theorem C94_masked_fits w lhs rhs third :
  wf lhs -> wf rhs -> wf third -> len lhs = w -> len rhs = w -> len third = w -> unsigned rhs <> 0 ->
  exists mask p, fuzz_mask w w lhs rhs = Val mask /\
    is_apint p w (Z.land (unsigned lhs) (unsigned mask) * unsigned rhs) /\
    Z.land (unsigned lhs) (unsigned mask) * unsigned rhs + unsigned third mod unsigned rhs < 2 ^ w /\
    (let! k := ap_op_bitand lhs mask in op_unwrap (into_wrapping_mul k rhs)) = Val p.
Proof. exact (masked_fits w lhs rhs third). Qed.
Print Assumptions C94_masked_fits.
Example C94_masked_fits_ex : wf f100 /\ wf g100 /\ wf e100 /\ len f100 = 100 /\ len g100 = 100 /\ len e100 = 100 /\ unsigned g100 <> 0.
Proof.
  split; [apply wf_f100|split; [apply wf_g100|split; [apply wf_e100|]]].
  split; [reflexivity|split; [reflexivity|split; [reflexivity|vm_compute; discriminate]]].
Qed.
(** The overflow test the crate uses is wrong (C81): here it reports an overflow of 2^31 + 0 at 33 bits, and the fuzz test
    skips its check.  So the fuzz test cannot find that bug. *)
Example C94_false_alarm : exists c, overflowing_uadd_assign (mk_apint 33 [2147483648]) (mk_apint 33 [0]) = Val (c, Ok true).
Proof. eexists. vm_compute. reflexivity. Qed.
