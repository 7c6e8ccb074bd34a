(** Property C44: the operator traits. *)
From Verif Require Import LExInt.

(** C44: the operators of [ApInt] compute the wrapping results. *)
Theorem C44_apint a b :
  wf a -> wf b -> len a = len b ->
  (exists c, ap_op_add a b = Val c /\ ap_op_add_assign a b = Val c /\ is_apint c (len a) ((unsigned a + unsigned b) mod 2 ^ len a)) /\
  (exists c, ap_op_sub a b = Val c /\ ap_op_sub_assign a b = Val c /\ is_apint c (len a) ((unsigned a - unsigned b) mod 2 ^ len a)) /\
  (exists c, ap_op_mul a b = Val c /\ ap_op_mul_assign a b = Val c /\ is_apint c (len a) ((unsigned a * unsigned b) mod 2 ^ len a)) /\
  (exists c, ap_op_bitand a b = Val c /\ ap_op_bitand_assign a b = Val c /\ wf c /\ len c = len a /\ forall i, bit c i = andb (bit a i) (bit b i)) /\
  (exists c, ap_op_bitor a b = Val c /\ ap_op_bitor_assign a b = Val c /\ wf c /\ len c = len a /\ forall i, bit c i = orb (bit a i) (bit b i)) /\
  (exists c, ap_op_bitxor a b = Val c /\ ap_op_bitxor_assign a b = Val c /\ wf c /\ len c = len a /\ forall i, bit c i = xorb (bit a i) (bit b i)) /\
  (exists c, ap_op_not a = Val c /\ is_apint c (len a) (2 ^ len a - 1 - unsigned a)) /\
  (exists c, ap_op_neg a = Val c /\ is_apint c (len a) ((- unsigned a) mod 2 ^ len a)) /\
  (forall s, 0 <= s < len a -> exists c, ap_op_shl a s = Val c /\ ap_op_shl_assign a s = Val c /\
    is_apint c (len a) ((unsigned a * 2 ^ s) mod 2 ^ len a)).
Proof. exact (ap_op_fact a b). Qed.
Print Assumptions C44_apint.
Example C44_apint_ex : wf g100 /\ wf f100 /\ len g100 = len f100 /\
  ap_op_add g100 f100 = Val (mk_apint 100 [12345678901234567892; 34359738375]).
Proof. split; [apply wf_g100|split; [apply wf_f100|]]. vm_compute. auto. Qed.

(** C44: and panic exactly for differing widths and excessive shifts. *)
Theorem C44_apint_panic a b s :
  wf a -> wf b -> 0 <= s ->
  (ap_op_add a b = Panic <-> len a <> len b) /\ (ap_op_add_assign a b = Panic <-> len a <> len b) /\
  (ap_op_sub a b = Panic <-> len a <> len b) /\ (ap_op_sub_assign a b = Panic <-> len a <> len b) /\
  (ap_op_mul a b = Panic <-> len a <> len b) /\ (ap_op_mul_assign a b = Panic <-> len a <> len b) /\
  (ap_op_bitand a b = Panic <-> len a <> len b) /\ (ap_op_bitand_assign a b = Panic <-> len a <> len b) /\
  (ap_op_bitor a b = Panic <-> len a <> len b) /\ (ap_op_bitor_assign a b = Panic <-> len a <> len b) /\
  (ap_op_bitxor a b = Panic <-> len a <> len b) /\ (ap_op_bitxor_assign a b = Panic <-> len a <> len b) /\
  (ap_op_shl a s = Panic <-> len a <= s) /\ (ap_op_shl_assign a s = Panic <-> len a <= s).
Proof. exact (ap_op_panic_fact a b s). Qed.
Print Assumptions C44_apint_panic.
Example C44_apint_panic_ex : ap_op_add g100 e8 = Panic /\ ap_op_shl g100 100 = Panic.
Proof. vm_compute. auto. Qed.

(** C44: the operators of [UInt] compute the wrapping unsigned results. *)
Theorem C44_uint x y w u v :
  is_uint x w u -> is_uint y w v ->
  (exists c, uint_op_add x y = Val c /\ uint_op_add_assign x y = Val c /\ is_uint c w ((u + v) mod 2 ^ w)) /\
  (exists c, uint_op_sub x y = Val c /\ uint_op_sub_assign x y = Val c /\ is_uint c w ((u - v) mod 2 ^ w)) /\
  (exists c, uint_op_mul x y = Val c /\ uint_op_mul_assign x y = Val c /\ is_uint c w ((u * v) mod 2 ^ w)) /\
  (exists c, uint_op_bitand x y = Val c /\ uint_op_bitand_assign x y = Val c /\ is_uint c w (Z.land u v)) /\
  (exists c, uint_op_bitor x y = Val c /\ uint_op_bitor_assign x y = Val c /\ is_uint c w (Z.lor u v)) /\
  (exists c, uint_op_bitxor x y = Val c /\ uint_op_bitxor_assign x y = Val c /\ is_uint c w (Z.lxor u v)) /\
  (exists c, uint_op_not x = Val c /\ is_uint c w (2 ^ w - 1 - u)) /\
  (exists c, uint_op_neg x = Val c /\ is_uint c w ((- u) mod 2 ^ w)) /\
  (forall s, 0 <= s < w ->
    (exists c, uint_op_shl x s = Val c /\ uint_op_shl_assign x s = Val c /\ is_uint c w ((u * 2 ^ s) mod 2 ^ w)) /\
    (exists c, uint_op_shr x s = Val c /\ uint_op_shr_assign x s = Val c /\ is_uint c w (u / 2 ^ s))) /\
  (v <> 0 ->
    (exists c, uint_op_div x y = Val c /\ uint_op_div_assign x y = Val c /\ is_uint c w (u / v)) /\
    (exists c, uint_op_rem x y = Val c /\ uint_op_rem_assign x y = Val c /\ is_uint c w (u mod v))).
Proof. exact (uint_op_fact x y w u v). Qed.
Print Assumptions C44_uint.
Example C44_uint_ex : is_uint u100 100 141472887417201429202 /\ is_uint v100 100 633825300114114700748351602690 /\
  uint_op_rem v100 (mk_uint (mk_apint 100 [1000; 0])) = Val (mk_uint (mk_apint 100 [690; 0])).
Proof. split; [apply is_u100|split; [apply is_v100|vm_compute; reflexivity]]. Qed.

(** C44: and panic exactly for differing widths, a zero divisor and excessive
    shifts. *)
Theorem C44_uint_panic x y w w' u v s :
  is_uint x w u -> is_uint y w' v -> 0 <= s ->
  (uint_op_add x y = Panic <-> w <> w') /\ (uint_op_add_assign x y = Panic <-> w <> w') /\
  (uint_op_sub x y = Panic <-> w <> w') /\ (uint_op_sub_assign x y = Panic <-> w <> w') /\
  (uint_op_mul x y = Panic <-> w <> w') /\ (uint_op_mul_assign x y = Panic <-> w <> w') /\
  (uint_op_bitand x y = Panic <-> w <> w') /\ (uint_op_bitand_assign x y = Panic <-> w <> w') /\
  (uint_op_bitor x y = Panic <-> w <> w') /\ (uint_op_bitor_assign x y = Panic <-> w <> w') /\
  (uint_op_bitxor x y = Panic <-> w <> w') /\ (uint_op_bitxor_assign x y = Panic <-> w <> w') /\
  (uint_op_div x y = Panic <-> w <> w' \/ v = 0) /\ (uint_op_div_assign x y = Panic <-> w <> w' \/ v = 0) /\
  (uint_op_rem x y = Panic <-> w <> w' \/ v = 0) /\ (uint_op_rem_assign x y = Panic <-> w <> w' \/ v = 0) /\
  (uint_op_shl x s = Panic <-> w <= s) /\ (uint_op_shl_assign x s = Panic <-> w <= s) /\
  (uint_op_shr x s = Panic <-> w <= s) /\ (uint_op_shr_assign x s = Panic <-> w <= s).
Proof. exact (uint_op_panic_fact x y w w' u v s). Qed.
Print Assumptions C44_uint_panic.
Example C44_uint_panic_ex : uint_op_div u100 (mk_uint z100) = Panic /\ uint_op_div u100 (mk_uint e8) = Panic.
Proof. vm_compute. auto. Qed.

(** C44: the operators of [Int] compute the wrapping signed results. *)
Theorem C44_int x y w u v :
  is_int x w u -> is_int y w v ->
  (exists c, int_op_add x y = Val c /\ int_op_add_assign x y = Val c /\ is_int c w (wrap_signed w (u + v))) /\
  (exists c, int_op_sub x y = Val c /\ int_op_sub_assign x y = Val c /\ is_int c w (wrap_signed w (u - v))) /\
  (exists c, int_op_mul x y = Val c /\ int_op_mul_assign x y = Val c /\ is_int c w (wrap_signed w (u * v))) /\
  (exists c, int_op_bitand x y = Val c /\ int_op_bitand_assign x y = Val c /\ is_int c w (Z.land u v)) /\
  (exists c, int_op_bitor x y = Val c /\ int_op_bitor_assign x y = Val c /\ is_int c w (Z.lor u v)) /\
  (exists c, int_op_bitxor x y = Val c /\ int_op_bitxor_assign x y = Val c /\ is_int c w (Z.lxor u v)) /\
  (exists c, int_op_not x = Val c /\ is_int c w (- u - 1)) /\
  (exists c, int_op_neg x = Val c /\ is_int c w (wrap_signed w (- u))) /\
  (forall s, 0 <= s < w ->
    (exists c, int_op_shl x s = Val c /\ int_op_shl_assign x s = Val c /\ is_int c w (wrap_signed w (u * 2 ^ s))) /\
    (exists c, int_op_shr x s = Val c /\ int_op_shr_assign x s = Val c /\ is_int c w (u / 2 ^ s))) /\
  (v <> 0 ->
    (exists c, int_op_div x y = Val c /\ int_op_div_assign x y = Val c /\ is_int c w (wrap_signed w (Z.quot u v))) /\
    (exists c, int_op_rem x y = Val c /\ int_op_rem_assign x y = Val c /\ is_int c w (Z.rem u v))).
Proof. exact (int_op_fact x y w u v). Qed.
Print Assumptions C44_int.
Example C44_int_ex : is_int i8 8 (-56) /\ is_int j8 8 100 /\ int_op_shr i8 4 = Val (mk_int (mk_apint 8 [252])).
Proof. split; [apply is_i8|split; [apply is_j8|vm_compute; reflexivity]]. Qed.

(** C44: and panic exactly for differing widths, a zero divisor and excessive
    shifts. *)
Theorem C44_int_panic x y w w' u v s :
  is_int x w u -> is_int y w' v -> 0 <= s ->
  (int_op_add x y = Panic <-> w <> w') /\ (int_op_add_assign x y = Panic <-> w <> w') /\
  (int_op_sub x y = Panic <-> w <> w') /\ (int_op_sub_assign x y = Panic <-> w <> w') /\
  (int_op_mul x y = Panic <-> w <> w') /\ (int_op_mul_assign x y = Panic <-> w <> w') /\
  (int_op_bitand x y = Panic <-> w <> w') /\ (int_op_bitand_assign x y = Panic <-> w <> w') /\
  (int_op_bitor x y = Panic <-> w <> w') /\ (int_op_bitor_assign x y = Panic <-> w <> w') /\
  (int_op_bitxor x y = Panic <-> w <> w') /\ (int_op_bitxor_assign x y = Panic <-> w <> w') /\
  (int_op_div x y = Panic <-> w <> w' \/ v = 0) /\ (int_op_div_assign x y = Panic <-> w <> w' \/ v = 0) /\
  (int_op_rem x y = Panic <-> w <> w' \/ v = 0) /\ (int_op_rem_assign x y = Panic <-> w <> w' \/ v = 0) /\
  (int_op_shl x s = Panic <-> w <= s) /\ (int_op_shl_assign x s = Panic <-> w <= s) /\
  (int_op_shr x s = Panic <-> w <= s) /\ (int_op_shr_assign x s = Panic <-> w <= s).
Proof. exact (int_op_panic_fact x y w w' u v s). Qed.
Print Assumptions C44_int_panic.
Example C44_int_panic_ex : int_op_div i8 (mk_int f100) = Panic /\ int_op_shl i8 8 = Panic.
Proof. vm_compute. auto. Qed.
