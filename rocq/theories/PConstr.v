(** Properties C28, C29: constructors and constants. *)
From Verif Require Import LFacts LEx.

(** C28: constructors from unsigned primitives. *)
Theorem C28_from_unsigned :
  (forall b, exists c, from_bool b = Val c /\ is_apint c 1 (if b then 1 else 0)) /\
  (forall v, 0 <= v < 2 ^ 8 -> exists c, from_u8 v = Val c /\ is_apint c 8 v) /\
  (forall v, 0 <= v < 2 ^ 16 -> exists c, from_u16 v = Val c /\ is_apint c 16 v) /\
  (forall v, 0 <= v < 2 ^ 32 -> exists c, from_u32 v = Val c /\ is_apint c 32 v) /\
  (forall v, 0 <= v < 2 ^ 64 -> exists c, from_u64 v = Val c /\ is_apint c 64 v) /\
  (forall v, 0 <= v < 2 ^ 128 -> exists c, from_u128 v = Val c /\ is_apint c 128 v).
Proof. exact from_unsigned_fact. Qed.
Print Assumptions C28_from_unsigned.
Example C28_unsigned_ex : from_u128 (2 ^ 127 + 5) = Val (mk_apint 128 [5; 9223372036854775808]).
Proof. vm_compute. reflexivity. Qed.

(** C28: constructors from signed primitives. *)
Theorem C28_from_signed :
  (forall v, - 2 ^ 7 <= v < 2 ^ 7 -> exists c, from_i8 v = Val c /\ wf c /\ len c = 8 /\ signed c = v) /\
  (forall v, - 2 ^ 15 <= v < 2 ^ 15 -> exists c, from_i16 v = Val c /\ wf c /\ len c = 16 /\ signed c = v) /\
  (forall v, - 2 ^ 31 <= v < 2 ^ 31 -> exists c, from_i32 v = Val c /\ wf c /\ len c = 32 /\ signed c = v) /\
  (forall v, - 2 ^ 63 <= v < 2 ^ 63 -> exists c, from_i64 v = Val c /\ wf c /\ len c = 64 /\ signed c = v) /\
  (forall v, - 2 ^ 127 <= v < 2 ^ 127 -> exists c, from_i128 v = Val c /\ wf c /\ len c = 128 /\ signed c = v).
Proof. exact from_signed_fact. Qed.
Print Assumptions C28_from_signed.
Example C28_signed_ex : from_i8 (-1) = Val (mk_apint 8 [255]). Proof. vm_compute. reflexivity. Qed.

(** C28: constructors from arrays of words, most significant first. *)
Theorem C28_from_array vals :
  vals <> [] ->
  (Forall digit_ok vals -> exists c, from_u64_array vals = Val c /\
    is_apint c (64 * Z.of_nat (length vals)) (be_value vals)) /\
  (exists c, from_i64_array vals = Val c /\
    is_apint c (64 * Z.of_nat (length vals)) (be_value (map (fun v => v mod 2 ^ 64) vals))).
Proof. exact (from_array_fact vals). Qed.
Print Assumptions C28_from_array.
Example C28_array_ex : [1; 2; 3] <> [] /\ Forall digit_ok [1; 2; 3] /\ from_u64_array [1; 2; 3] = Val (mk_apint 192 [3; 2; 1]).
Proof. split; [discriminate|split; [repeat constructor; discriminate|vm_compute; reflexivity]]. Qed.

(** C29: the named constants of every width, and the signed extremes are bounds. *)
Theorem C29_constants w :
  0 < w ->
  (exists c, zero w = Val c /\ all_unset w = Val c /\ unsigned_min_value w = Val c /\ is_apint c w 0) /\
  (exists c, one w = Val c /\ is_apint c w 1) /\
  (exists c, all_set w = Val c /\ unsigned_max_value w = Val c /\ is_apint c w (2 ^ w - 1)) /\
  (exists c, signed_min_value w = Val c /\ wf c /\ len c = w /\ signed c = - 2 ^ (w - 1)) /\
  (exists c, signed_max_value w = Val c /\ wf c /\ len c = w /\ signed c = 2 ^ (w - 1) - 1) /\
  (forall a, wf a -> len a = w -> - 2 ^ (w - 1) <= signed a <= 2 ^ (w - 1) - 1).
Proof. exact (constants_fact w). Qed.
Print Assumptions C29_constants.
Example C29_ex : 0 < 100 /\ signed_min_value 100 = Val (mk_apint 100 [0; 34359738368]).
Proof. split; [reflexivity|vm_compute; reflexivity]. Qed.
