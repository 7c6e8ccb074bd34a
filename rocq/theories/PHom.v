(** Properties C54 to C57: how truncation, extension, arithmetic and comparison fit
    together.  [let? x := call in k] is Rust's [let x = call?; k]. *)
From Verif Require Import LHom2 LEx.

(** C54: the low [t] bits of a result depend only on the low [t] bits of the
    operands: truncating after an operation or before it gives the same integer. *)
Theorem C54_truncation a b t :
  wf a -> wf b -> len a = len b -> 0 < t <= len a ->
  (let? c := into_wrapping_add a b in into_truncate c t) =
  (let? x := into_truncate a t in let? y := into_truncate b t in into_wrapping_add x y) /\
  (let? c := into_wrapping_sub a b in into_truncate c t) =
  (let? x := into_truncate a t in let? y := into_truncate b t in into_wrapping_sub x y) /\
  (let? c := into_wrapping_mul a b in into_truncate c t) =
  (let? x := into_truncate a t in let? y := into_truncate b t in into_wrapping_mul x y) /\
  (let? c := into_bitand a b in into_truncate c t) =
  (let? x := into_truncate a t in let? y := into_truncate b t in into_bitand x y) /\
  (let? c := into_bitor a b in into_truncate c t) =
  (let? x := into_truncate a t in let? y := into_truncate b t in into_bitor x y) /\
  (let? c := into_bitxor a b in into_truncate c t) =
  (let? x := into_truncate a t in let? y := into_truncate b t in into_bitxor x y) /\
  (let! c := into_wrapping_neg a in into_truncate c t) =
  (let? x := into_truncate a t in let! c := into_wrapping_neg x in Val (Ok c)) /\
  (let! c := into_bitnot a in into_truncate c t) =
  (let? x := into_truncate a t in let! c := into_bitnot x in Val (Ok c)) /\
  (forall s, 0 <= s < t ->
    (let? c := into_wrapping_shl a s in into_truncate c t) =
    (let? x := into_truncate a t in into_wrapping_shl x s)) /\
  (forall s, 0 < s <= t ->
    (let? x := into_truncate a t in into_truncate x s) = into_truncate a s).
Proof. exact (truncation_fact a b t). Qed.
Print Assumptions C54_truncation.
Example C54_truncation_ex : wf e100 /\ wf g100 /\ len e100 = len g100 /\ 0 < 70 <= len e100 /\
  (let? c := into_wrapping_mul e100 g100 in into_truncate c 70) = Val (Ok (mk_apint 70 [6101065172474983726; 56])).
Proof. split; [apply wf_e100|split; [apply wf_g100|split; [reflexivity|split; [cbn; lia|vm_compute; reflexivity]]]]. Qed.

(** C55: after zero extension by one bit addition is exact and subtraction has the
    exact (signed) difference; with twice the width multiplication is exact; with
    [s] more bits shifting left by [s] is exact. *)
Theorem C55_unsigned_exact a b n :
  wf a -> wf b -> len a = len b -> len a < n ->
  (exists c, (let? x := into_zero_extend a n in let? y := into_zero_extend b n in into_wrapping_add x y) = Val (Ok c) /\
    is_apint c n (unsigned a + unsigned b)) /\
  (exists c, (let? x := into_zero_extend a n in let? y := into_zero_extend b n in into_wrapping_sub x y) = Val (Ok c) /\
    wf c /\ len c = n /\ signed c = unsigned a - unsigned b) /\
  (2 * len a <= n ->
   exists c, (let? x := into_zero_extend a n in let? y := into_zero_extend b n in into_wrapping_mul x y) = Val (Ok c) /\
    is_apint c n (unsigned a * unsigned b)) /\
  (forall s, 0 <= s -> len a + s <= n ->
   exists c, (let? x := into_zero_extend a n in into_wrapping_shl x s) = Val (Ok c) /\
    is_apint c n (unsigned a * 2 ^ s)).
Proof. exact (unsigned_exact_fact a b n). Qed.
Print Assumptions C55_unsigned_exact.
Example C55_unsigned_exact_ex : wf e64 /\ len e64 = len e64 /\ len e64 < 128 /\ 2 * len e64 <= 128 /\
  (let? x := into_zero_extend e64 128 in let? y := into_zero_extend e64 128 in into_wrapping_mul x y) =
    Val (Ok (mk_apint 128 [1; 18446744073709551614])).
Proof. split; [apply wf_e64|split; [reflexivity|split; [reflexivity|split; [cbn; lia|vm_compute; reflexivity]]]]. Qed.

(** C55: the same for signed numbers after sign extension, also for negation. *)
Theorem C55_signed_exact a b n :
  wf a -> wf b -> len a = len b -> len a < n ->
  (exists c, (let? x := into_sign_extend a n in let? y := into_sign_extend b n in into_wrapping_add x y) = Val (Ok c) /\
    wf c /\ len c = n /\ signed c = signed a + signed b) /\
  (exists c, (let? x := into_sign_extend a n in let? y := into_sign_extend b n in into_wrapping_sub x y) = Val (Ok c) /\
    wf c /\ len c = n /\ signed c = signed a - signed b) /\
  (exists c, (let? x := into_sign_extend a n in let! y := into_wrapping_neg x in Val (Ok y)) = Val (Ok c) /\
    wf c /\ len c = n /\ signed c = - signed a) /\
  (2 * len a <= n ->
   exists c, (let? x := into_sign_extend a n in let? y := into_sign_extend b n in into_wrapping_mul x y) = Val (Ok c) /\
    wf c /\ len c = n /\ signed c = signed a * signed b) /\
  (forall s, 0 <= s -> len a + s <= n ->
   exists c, (let? x := into_sign_extend a n in into_wrapping_shl x s) = Val (Ok c) /\
    wf c /\ len c = n /\ signed c = signed a * 2 ^ s).
Proof. exact (signed_exact_fact a b n). Qed.
Print Assumptions C55_signed_exact.
Example C55_signed_exact_ex : wf f100 /\ signed f100 = 2 - 2 ^ 99 /\ len f100 < 101 /\
  (let? x := into_sign_extend f100 101 in let! y := into_wrapping_neg x in Val (Ok y)) =
    Val (Ok (mk_apint 101 [18446744073709551614; 34359738367])).
Proof. split; [apply wf_f100|split; [vm_compute; reflexivity|split; [reflexivity|vm_compute; reflexivity]]]. Qed.

(** C56: zero extension before or after bitwise operations, unsigned division and
    logical shifts to the right gives the same integer; it can be done in steps;
    it preserves the unsigned order, and turns it into the signed order. *)
Theorem C56_zero_extension a b n :
  wf a -> wf b -> len a = len b -> len a <= n ->
  (let? c := into_bitand a b in into_zero_extend c n) =
  (let? x := into_zero_extend a n in let? y := into_zero_extend b n in into_bitand x y) /\
  (let? c := into_bitor a b in into_zero_extend c n) =
  (let? x := into_zero_extend a n in let? y := into_zero_extend b n in into_bitor x y) /\
  (let? c := into_bitxor a b in into_zero_extend c n) =
  (let? x := into_zero_extend a n in let? y := into_zero_extend b n in into_bitxor x y) /\
  (unsigned b <> 0 ->
   (let? c := into_wrapping_udiv a b in into_zero_extend c n) =
   (let? x := into_zero_extend a n in let? y := into_zero_extend b n in into_wrapping_udiv x y) /\
   (let? c := into_wrapping_urem a b in into_zero_extend c n) =
   (let? x := into_zero_extend a n in let? y := into_zero_extend b n in into_wrapping_urem x y)) /\
  (forall s, 0 <= s < len a ->
   (let? c := into_wrapping_lshr a s in into_zero_extend c n) =
   (let? x := into_zero_extend a n in into_wrapping_lshr x s)) /\
  (forall m, len a <= m <= n ->
   (let? x := into_zero_extend a m in into_zero_extend x n) = into_zero_extend a n) /\
  (let? x := into_zero_extend a n in let? y := into_zero_extend b n in checked_ult x y) = checked_ult a b /\
  (len a < n ->
   (let? x := into_zero_extend a n in let? y := into_zero_extend b n in checked_slt x y) = checked_ult a b).
Proof. exact (zero_extension_fact a b n). Qed.
Print Assumptions C56_zero_extension.
Example C56_zero_extension_ex : wf e100 /\ wf g100 /\ len e100 = len g100 /\ len e100 < 200 /\ unsigned g100 <> 0 /\ 0 <= 77 < len e100.
Proof. split; [apply wf_e100|split; [apply wf_g100|split; [reflexivity|split; [reflexivity|split; [vm_compute; discriminate|cbn; lia]]]]]. Qed.

(** C56: the same for sign extension with bitwise operations and arithmetic shifts;
    it preserves both orders. *)
Theorem C56_sign_extension a b n :
  wf a -> wf b -> len a = len b -> len a <= n ->
  (let? c := into_bitand a b in into_sign_extend c n) =
  (let? x := into_sign_extend a n in let? y := into_sign_extend b n in into_bitand x y) /\
  (let? c := into_bitor a b in into_sign_extend c n) =
  (let? x := into_sign_extend a n in let? y := into_sign_extend b n in into_bitor x y) /\
  (let? c := into_bitxor a b in into_sign_extend c n) =
  (let? x := into_sign_extend a n in let? y := into_sign_extend b n in into_bitxor x y) /\
  (let! c := into_bitnot a in into_sign_extend c n) =
  (let? x := into_sign_extend a n in let! c := into_bitnot x in Val (Ok c)) /\
  (forall s, 0 <= s < len a ->
   (let? c := into_wrapping_ashr a s in into_sign_extend c n) =
   (let? x := into_sign_extend a n in into_wrapping_ashr x s)) /\
  (forall m, len a <= m <= n ->
   (let? x := into_sign_extend a m in into_sign_extend x n) = into_sign_extend a n) /\
  (let? x := into_sign_extend a n in let? y := into_sign_extend b n in checked_slt x y) = checked_slt a b /\
  (let? x := into_sign_extend a n in let? y := into_sign_extend b n in checked_ult x y) = checked_ult a b.
Proof. exact (sign_extension_fact a b n). Qed.
Print Assumptions C56_sign_extension.
Example C56_sign_extension_ex : wf e100 /\ wf g100 /\ len e100 = len g100 /\ len e100 <= 200 /\ signed e100 < 0 < signed g100 /\ 0 <= 77 < len e100.
Proof. split; [apply wf_e100|split; [apply wf_g100|split; [reflexivity|split; [cbn; lia|split; [vm_compute; split; reflexivity|cbn; lia]]]]]. Qed.

(** C57: the customary overflow tests are right: a wrapped sum is below an operand
    exactly if it carried, a wrapped difference above the minuend exactly if it
    borrowed, the sign bits tell signed overflow, and only the minimum is its own
    negation besides zero. *)
Theorem C57_overflow a b :
  wf a -> wf b -> len a = len b ->
  (exists c, into_wrapping_add a b = Val (Ok c) /\
    checked_ult c a = Val (Ok (2 ^ len a <=? unsigned a + unsigned b)) /\
    checked_ult c b = Val (Ok (2 ^ len a <=? unsigned a + unsigned b))) /\
  (exists c, into_wrapping_sub a b = Val (Ok c) /\
    checked_ugt c a = Val (Ok (unsigned a - unsigned b <? 0))) /\
  (exists c ma mb mc, into_wrapping_add a b = Val (Ok c) /\
    msb a = Val ma /\ msb b = Val mb /\ msb c = Val mc /\
    (Bool.eqb ma mb && negb (Bool.eqb ma mc) = true <->
     ~ (- 2 ^ (len a - 1) <= signed a + signed b < 2 ^ (len a - 1)))) /\
  (exists c ma mb mc, into_wrapping_sub a b = Val (Ok c) /\
    msb a = Val ma /\ msb b = Val mb /\ msb c = Val mc /\
    (negb (Bool.eqb ma mb) && negb (Bool.eqb ma mc) = true <->
     ~ (- 2 ^ (len a - 1) <= signed a - signed b < 2 ^ (len a - 1)))) /\
  (exists c, into_wrapping_neg a = Val c /\
    (c = a /\ is_zero a = Val false <-> signed a = - 2 ^ (len a - 1))).
Proof. exact (overflow_fact a b). Qed.
Print Assumptions C57_overflow.
Example C57_overflow_ex : wf e100 /\ wf g100 /\ len e100 = len g100 /\ 2 ^ len e100 <= unsigned e100 + unsigned g100 /\
  wf f100 /\ ~ (- 2 ^ (len f100 - 1) <= signed f100 - signed g100).
Proof.
  split; [apply wf_e100|split; [apply wf_g100|split; [reflexivity|]]].
  split; [apply Z.leb_le; vm_compute; reflexivity|]. split; [apply wf_f100|].
  apply Z.leb_nle. vm_compute. reflexivity.
Qed.

(** C57: comparing by other means agrees with the comparison methods: signed order is
    unsigned order after flipping the sign bits, the sign of a widened difference
    is the order, a zero difference or a zero xor is equality. *)
Theorem C57_comparison a b n :
  wf a -> wf b -> len a = len b -> len a < n ->
  (let! x := flip_msb a in let! y := flip_msb b in checked_ult x y) = checked_slt a b /\
  (let? x := into_zero_extend a n in let? y := into_zero_extend b n in
   let? d := into_wrapping_sub x y in let! m := msb d in Val (Ok m)) = checked_ult a b /\
  (let? x := into_sign_extend a n in let? y := into_sign_extend b n in
   let? d := into_wrapping_sub x y in let! m := msb d in Val (Ok m)) = checked_slt a b /\
  (let? d := into_wrapping_sub a b in let! z := is_zero d in Val (Ok z)) = Val (Ok (apint_eqb a b)) /\
  (let? d := into_bitxor a b in let! z := is_zero d in Val (Ok z)) = Val (Ok (apint_eqb a b)).
Proof. exact (compare_fact a b n). Qed.
Print Assumptions C57_comparison.
Example C57_comparison_ex : wf e100 /\ wf g100 /\ len e100 = len g100 /\ len e100 < 101 /\
  checked_slt e100 g100 = Val (Ok true) /\ checked_ult e100 g100 = Val (Ok false).
Proof. split; [apply wf_e100|split; [apply wf_g100|split; [reflexivity|split; [reflexivity|split; vm_compute; reflexivity]]]]. Qed.
