(** Properties C71 and C72.  [count_bin] and [count_pair] (MTemp.v) are the calls with
    the list of the buffers, in digits of 64 bits, that they ask the allocator for. *)
From Verif Require Import LTemp2.

(** C71: what is counted is what is computed: the results are those of the calls of
    the other properties. *)
Theorem C71_same_bin o a b :
  (let! (r, _) := count_bin o a b in Val r) = cbin o a b.
Proof. exact (count_bin_fact o a b). Qed.
Print Assumptions C71_same_bin.
Example C71_same_bin_ex : count_bin BMul (mk_apint 200 [0; 1; 0; 0]) (mk_apint 200 [5; 7; 0; 0]) = Val (mk_apint 200 [0; 5; 7; 0], Ok tt, [4%nat]) /\
  cbin BMul (mk_apint 200 [0; 1; 0; 0]) (mk_apint 200 [5; 7; 0; 0]) = Val (mk_apint 200 [0; 5; 7; 0], Ok tt).
Proof. split; vm_compute; reflexivity. Qed.

(** C71: the same for the calls with two results. *)
Theorem C71_same_pair o a b :
  (let! (r, _) := count_pair o a b in Val r) = cpair o a b.
Proof. exact (count_pair_fact o a b). Qed.
Print Assumptions C71_same_pair.
Example C71_same_pair_ex : count_pair PUDivRem (mk_apint 200 [9; 0; 0; 1]) (mk_apint 200 [0; 1; 0; 0]) =
  Val (mk_apint 200 [0; 0; 1; 0], mk_apint 200 [9; 0; 0; 0], Ok tt, [4%nat]) /\
  cpair PUDivRem (mk_apint 200 [9; 0; 0; 1]) (mk_apint 200 [0; 1; 0; 0]) = Val (mk_apint 200 [0; 0; 1; 0], mk_apint 200 [9; 0; 0; 0], Ok tt).
Proof. split; vm_compute; reflexivity. Qed.

(** C71: multiplication by zero or by any factor of one digit allocates nothing. *)
Theorem C71_mul a b :
  wf a -> wf b -> len a = len b -> unsigned a < 2 ^ 64 \/ unsigned b < 2 ^ 64 ->
  exists r, count_bin BMul a b = Val (r, []).
Proof. exact (mul_free_fact a b). Qed.
Print Assumptions C71_mul.
Example C71_mul_ex : exists r, count_bin BMul (mk_apint 200 [1; 2; 3; 4]) (mk_apint 200 [18446744073709551615; 0; 0; 0]) = Val (r, []).
Proof. eexists. vm_compute. reflexivity. Qed.

(** C71: what multiplication allocates in all cases. *)
Theorem C71_mul_exact a b :
  wf a -> wf b -> len a = len b ->
  exists r, count_bin BMul a b = Val (r, mul_buffers (len a) (unsigned a) (unsigned b)).
Proof. exact (mul_cost_fact a b). Qed.
Print Assumptions C71_mul_exact.
Example C71_mul_exact_ex :
  mul_buffers 200 (2 ^ 64) (2 ^ 127) = [4%nat] /\ mul_buffers 192 (2 ^ 64) (2 ^ 126) = [4%nat] /\ mul_buffers 192 (2 ^ 64) (2 ^ 127) = [3%nat] /\
  mul_buffers 192 (2 ^ 63) (2 ^ 128) = [] /\
  option_map snd (match count_bin BMul (mk_apint 192 [0; 1; 0]) (mk_apint 192 [0; 0; 1]) with Val r => Some r | _ => None end) = Some [3%nat].
Proof. repeat split; vm_compute; reflexivity. Qed.

(** C71: the calls that give quotient and remainder allocate nothing if the dividend
    or the divisor has one digit (zero included) or the quotient is zero.  (Missing:
    the quotient one, for which it is false.) *)
Theorem C71_divrem_partial o a b :
  o = PUDivRem \/ o = PURemDiv -> wf a -> wf b -> len a = len b -> unsigned b <> 0 ->
  unsigned a < 2 ^ 64 \/ unsigned b < 2 ^ 64 \/ unsigned a < unsigned b ->
  exists r, count_pair o a b = Val (r, []).
Proof. exact (div_free_fact o a b). Qed.
Print Assumptions C71_divrem_partial.
Example C71_divrem_partial_ex : exists r, count_pair PURemDiv (mk_apint 200 [1; 2; 3; 4]) (mk_apint 200 [1; 2; 3; 5]) = Val (r, []).
Proof. eexists. vm_compute. reflexivity. Qed.

(** C71: it is false that a division whose quotient is one allocates nothing:
    2^200 / (2^199 + 1). *)
Theorem C71_quotient_one_refuted :
  ~ (forall a b, wf a -> wf b -> len a = len b -> unsigned a / unsigned b = 1 -> exists r, count_pair PUDivRem a b = Val (r, [])).
Proof. exact quotient_one_refuted_fact. Qed.
Print Assumptions C71_quotient_one_refuted.
Example C71_quotient_one_refuted_ex : unsigned quot_one_duo = 2 ^ 200 /\ unsigned quot_one_div = 2 ^ 199 + 1 /\
  count_pair PUDivRem quot_one_duo quot_one_div =
    Val (mk_apint 256 [1; 0; 0; 0], mk_apint 256 [18446744073709551615; 18446744073709551615; 18446744073709551615; 127], Ok tt, [4%nat]).
Proof. repeat split; vm_compute; reflexivity. Qed.

(** C71: it is false that the division of a [UInt] ([wrapping_udiv_assign], to which
    src/uint.rs 1036-1038 forwards) does not allocate. *)
Theorem C71_in_place_refuted :
  ~ (forall a b, wf a -> wf b -> len a = len b -> unsigned b <> 0 -> exists r, count_bin BUdiv a b = Val (r, [])).
Proof. exact uint_no_alloc_refuted_fact. Qed.
Print Assumptions C71_in_place_refuted.
Example C71_in_place_refuted_ex : count_bin BUdiv (mk_apint 65 [7; 0]) (mk_apint 65 [2; 0]) = Val (mk_apint 65 [3; 0], Ok tt, [2%nat]).
Proof. vm_compute. reflexivity. Qed.

(** C71: above 64 bits it always does. *)
Theorem C71_in_place_always a b :
  wf a -> wf b -> len a = len b -> 64 < len a ->
  exists r l, count_bin BUdiv a b = Val (r, digits_for (len a) :: l).
Proof. exact (uint_div_allocates_fact a b). Qed.
Print Assumptions C71_in_place_always.
Example C71_in_place_always_ex : count_bin BUdiv (mk_apint 65 [0; 0]) (mk_apint 65 [2; 0]) = Val (mk_apint 65 [0; 0], Ok tt, [2%nat]).
Proof. vm_compute. reflexivity. Qed.

(** C71: what the unsigned calls with two results allocate: [div_buffers]
    (SpecTemp.v), and a copy of the dividend for the error of a division by zero. *)
Theorem C71_udivrem_exact o a b :
  o = PUDivRem \/ o = PURemDiv -> wf a -> wf b -> len a = len b ->
  exists r l, count_pair o a b = Val (r, l ++ (if unsigned b =? 0 then copy_of (len a) else [])) /\
    div_buffers (len a) (unsigned a) (unsigned b) l.
Proof. exact (udivrem_cost_fact o a b). Qed.
Print Assumptions C71_udivrem_exact.
Example C71_udivrem_exact_ex :
  div_buffers 256 (2 ^ 200) (2 ^ 199 + 1) [4%nat] /\ div_buffers 256 (2 ^ 250) (2 ^ 100) [4%nat; 4%nat] /\ div_buffers 256 (2 ^ 250) 7 [] /\
  option_map snd (match count_pair PUDivRem (mk_apint 256 [5; 5; 5; 5]) (mk_apint 256 [0; 0; 0; 0]) with Val r => Some r | _ => None end) = Some [4%nat].
Proof. split; [reflexivity|]. split; [right; reflexivity|]. split; [reflexivity|]. vm_compute. reflexivity. Qed.

(** C71: the unsigned calls with one result copy the divisor first. *)
Theorem C71_udiv_exact o a b :
  o = BUdiv \/ o = BUrem -> wf a -> wf b -> len a = len b ->
  exists r l, count_bin o a b = Val (r, copy_of (len a) ++ l ++ (if unsigned b =? 0 then copy_of (len a) else [])) /\
    div_buffers (len a) (unsigned a) (unsigned b) l.
Proof. exact (udiv_cost_fact o a b). Qed.
Print Assumptions C71_udiv_exact.
Example C71_udiv_exact_ex :
  option_map snd (match count_bin BUrem (mk_apint 256 [18446744073709551615; 18446744073709551615; 18446744073709551615; 18446744073709551615]) (mk_apint 256 [18446744073709551615; 18446744073709551615; 9; 0]) with Val r => Some r | _ => None end) = Some [4%nat; 4%nat; 4%nat] /\
  option_map snd (match count_bin BUrem (mk_apint 256 [5; 5; 5; 5]) (mk_apint 256 [0; 0; 0; 0]) with Val r => Some r | _ => None end) = Some [4%nat; 4%nat].
Proof. split; vm_compute; reflexivity. Qed.

(** C71: the signed calls with two results allocate as for the absolute values. *)
Theorem C71_sdivrem_exact o a b :
  o = PSDivRem \/ o = PSRemDiv -> wf a -> wf b -> len a = len b ->
  exists r l, count_pair o a b = Val (r, l ++ (if signed b =? 0 then copy_of (len a) else [])) /\
    div_buffers (len a) (Z.abs (signed a)) (Z.abs (signed b)) l.
Proof. exact (sdivrem_cost_fact o a b). Qed.
Print Assumptions C71_sdivrem_exact.
Example C71_sdivrem_exact_ex :
  option_map snd (match count_pair PSDivRem (mk_apint 130 [5; 5; 3]) (mk_apint 130 [0; 1; 0]) with Val r => Some r | _ => None end) = Some [] /\
  option_map snd (match count_pair PSDivRem (mk_apint 256 [18446744073709551615; 18446744073709551615; 18446744073709551615; 9223372036854775807]) (mk_apint 256 [18446744073709551615; 18446744073709551615; 9; 0]) with Val r => Some r | _ => None end) = Some [4%nat; 4%nat].
Proof. split; vm_compute; reflexivity. Qed.

(** C71: those with one result copy the divisor too, or for a divisor of zero the
    dividend. *)
Theorem C71_sdiv_exact o a b :
  o = BSdiv \/ o = BSrem -> wf a -> wf b -> len a = len b ->
  exists r l, count_bin o a b = Val (r, copy_of (len a) ++ l) /\
    div_buffers (len a) (Z.abs (signed a)) (Z.abs (signed b)) l.
Proof. exact (sdiv_cost_fact o a b). Qed.
Print Assumptions C71_sdiv_exact.
Example C71_sdiv_exact_ex :
  option_map snd (match count_bin BSdiv (mk_apint 128 [5; 5]) (mk_apint 128 [2; 0]) with Val r => Some r | _ => None end) = Some [2%nat] /\
  option_map snd (match count_bin BSdiv (mk_apint 128 [5; 5]) (mk_apint 128 [0; 0]) with Val r => Some r | _ => None end) = Some [2%nat].
Proof. split; vm_compute; reflexivity. Qed.

(** C72: a call with one result asks for at most three buffers, each of at most one
    digit more than its operand has, and for none up to 64 bits. *)
Theorem C72_bin o a b r l :
  wf a -> wf b -> count_bin o a b = Val (r, l) ->
  (length l <= 3)%nat /\ Forall (fun n => (n <= digits_for (len a) + 1)%nat) l /\ (len a <= 64 -> l = []).
Proof. exact (bin_within_fact o a b r l). Qed.
Print Assumptions C72_bin.
Example C72_bin_ex : exists r l, count_bin BUdiv (mk_apint 256 [18446744073709551615; 18446744073709551615; 18446744073709551615; 18446744073709551615]) (mk_apint 256 [18446744073709551615; 18446744073709551615; 9; 0]) = Val (r, l) /\ length l = 3%nat /\
  exists r l, count_bin BMul (mk_apint 192 [0; 1; 0]) (mk_apint 192 [0; 4611686018427387904; 0]) = Val (r, l) /\ l = [(digits_for 192 + 1)%nat].
Proof. do 2 eexists. split; [vm_compute; reflexivity|]. split; [reflexivity|]. do 2 eexists. split; vm_compute; reflexivity. Qed.

(** C72: so does a call with two results. *)
Theorem C72_pair o a b r l :
  wf a -> wf b -> count_pair o a b = Val (r, l) ->
  (length l <= 3)%nat /\ Forall (fun n => (n <= digits_for (len a) + 1)%nat) l /\ (len a <= 64 -> l = []).
Proof. exact (pair_within_fact o a b r l). Qed.
Print Assumptions C72_pair.
Example C72_pair_ex : exists r l, count_pair PSRemDiv (mk_apint 256 [18446744073709551615; 18446744073709551615; 18446744073709551615; 9223372036854775807]) (mk_apint 256 [18446744073709551615; 18446744073709551615; 9; 0]) = Val (r, l) /\ l = [4%nat; 4%nat].
Proof. do 2 eexists. split; vm_compute; reflexivity. Qed.
