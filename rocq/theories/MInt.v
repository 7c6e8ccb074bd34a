(** Model of src/uint.rs and src/int.rs: the wrappers around [ApInt] with a fixed
    reading of the sign.  No proofs in this file.  The functions carry the
    prefix [uint_] or [int_].

    [Debug] (derived) is in MText.v.  Not modelled: the attributes
    [cfg_attr(serde_support, ..)], which never apply because [serde_support] is
    a feature and not a configuration flag. *)
From Verif Require Export MRelational MShift MDiv MPrim MSerial MRand MConstructors.


(** * UInt *)

(** src/uint.rs 28-30. *)
Record uint : Type := mk_uint { uapint : apint }.
(** The wrapper put back around a constructor, a mutation in place or a consuming
    operation of [ApInt] ([UInt::from], [self.value.op(..)], [.map(UInt::from)]).
    src/uint.rs 28-36. *)
Definition uint_new (m : outcome apint) : outcome uint := let! a := m in Val (mk_uint a).
(** src/uint.rs 944-1073: an operation in place. *)
Definition uint_upd (m : mut_result) : outcome (uint * result unit) :=
  let! (a, r) := m in Val (mk_uint a, r).
(** src/uint.rs 955-1080: [.map(UInt::from)]. *)
Definition uint_map (m : outcome (result apint)) : outcome (result uint) :=
  let! r := m in Val (map_result mk_uint r).
(** src/uint.rs 33-35. *)
Definition uint_from_apint (a : apint) : uint :=
  mk_uint a.
(** src/uint.rs 39-41. *)
Definition uint_width (x : uint) : Z :=
  width (uapint x).
(** src/uint.rs 46-48. *)
Definition uint_into_apint (x : uint) : apint :=
  uapint x.
(** src/uint.rs 25 (derived): [Clone], [PartialEq], [Hash]. *)
Definition uint_clone (x : uint) : outcome uint := uint_new (clone (uapint x)).
(** src/uint.rs 25 (derived [PartialEq]). *)
Definition uint_eqb (x y : uint) : bool := apint_eqb (uapint x) (uapint y).
(** src/uint.rs 25 (derived [Hash]). *)
Definition uint_hash_feed (x : uint) : list hash_item := hash_feed (uapint x).
(** src/uint.rs 60-62. *)
Definition uint_from_bool (bit : bool) : outcome uint :=
  uint_new (from_bool bit).
(** src/uint.rs 66-68. *)
Definition uint_from_u8 (v : Z) : outcome uint :=
  uint_new (from_u8 v).
(** src/uint.rs 72-74. *)
Definition uint_from_u16 (v : Z) : outcome uint :=
  uint_new (from_u16 v).
(** src/uint.rs 78-80. *)
Definition uint_from_u32 (v : Z) : outcome uint :=
  uint_new (from_u32 v).
(** src/uint.rs 84-86. *)
Definition uint_from_u64 (v : Z) : outcome uint :=
  uint_new (from_u64 v).
(** src/uint.rs 89-91. *)
Definition uint_from_u128 (v : Z) : outcome uint :=
  uint_new (from_u128 v).
(** src/uint.rs 132-167 forward to these.  src/uint.rs 169-187: [From<[u64; n]>]. *)
Definition uint_from_array (vals : list Z) : outcome uint := uint_new (from_u64_array vals).
(** src/uint.rs 94-96. *)
Definition uint_zero (w : Z) : outcome uint :=
  uint_new (zero w).
(** src/uint.rs 99-101. *)
Definition uint_one (w : Z) : outcome uint :=
  uint_new (one w).
(** src/uint.rs 106-108. *)
Definition uint_all_unset (w : Z) : outcome uint :=
  uint_zero w.
(** src/uint.rs 115-117. *)
Definition uint_all_set (w : Z) : outcome uint :=
  uint_new (all_set w).
(** src/uint.rs 121-123. *)
Definition uint_min_value (w : Z) : outcome uint :=
  uint_new (unsigned_min_value w).
(** src/uint.rs 127-129. *)
Definition uint_max_value (w : Z) : outcome uint :=
  uint_new (unsigned_max_value w).
(** src/uint.rs 198-200. *)
Definition uint_is_zero (x : uint) : outcome bool :=
  is_zero (uapint x).
(** src/uint.rs 208-210. *)
Definition uint_is_one (x : uint) : outcome bool :=
  is_one (uapint x).
(** src/uint.rs 213-215. *)
Definition uint_is_even (x : uint) : outcome bool :=
  is_even (uapint x).
(** src/uint.rs 218-220. *)
Definition uint_is_odd (x : uint) : outcome bool :=
  is_odd (uapint x).
(** src/uint.rs 235-237. *)
Definition uint_checked_lt (x y : uint) : outcome (result bool) :=
  checked_ult (uapint x) (uapint y).
(** src/uint.rs 251-253. *)
Definition uint_checked_le (x y : uint) : outcome (result bool) :=
  checked_ule (uapint x) (uapint y).
(** src/uint.rs 267-269. *)
Definition uint_checked_gt (x y : uint) : outcome (result bool) :=
  checked_ugt (uapint x) (uapint y).
(** src/uint.rs 283-285. *)
Definition uint_checked_ge (x y : uint) : outcome (result bool) :=
  checked_uge (uapint x) (uapint y).
(** src/uint.rs 292-303. *)
Definition uint_partial_cmp (x y : uint) : outcome (option comparison) :=
  if negb (uint_width x =? uint_width y) then Val None else
  let! r := uint_checked_lt x y in
  let! b := unwrap r in
  if b : bool then Val (Some Lt) else
  if apint_eqb (uapint x) (uapint y) then Val (Some Eq) else
  Val (Some Gt).
(** src/uint.rs 305-307. *)
Definition uint_lt (x y : uint) : outcome bool :=
  let! r := uint_checked_lt x y in Val (match r with Ok b => b | Err _ => false end).
(** src/uint.rs 309-311. *)
Definition uint_le (x y : uint) : outcome bool :=
  let! r := uint_checked_le x y in Val (match r with Ok b => b | Err _ => false end).
(** src/uint.rs 313-315. *)
Definition uint_gt (x y : uint) : outcome bool :=
  let! r := uint_checked_gt x y in Val (match r with Ok b => b | Err _ => false end).
(** src/uint.rs 317-319. *)
Definition uint_ge (x y : uint) : outcome bool :=
  let! r := uint_checked_ge x y in Val (match r with Ok b => b | Err _ => false end).
(** src/uint.rs 333-335. *)
Definition uint_resize_to_bool (x : uint) : outcome bool :=
  resize_to_bool (uapint x).
(** src/uint.rs 343-345. *)
Definition uint_resize_to_u8 (x : uint) : outcome Z :=
  resize_to_u8 (uapint x).
(** src/uint.rs 353-355. *)
Definition uint_resize_to_u16 (x : uint) : outcome Z :=
  resize_to_u16 (uapint x).
(** src/uint.rs 363-365. *)
Definition uint_resize_to_u32 (x : uint) : outcome Z :=
  resize_to_u32 (uapint x).
(** src/uint.rs 373-375. *)
Definition uint_resize_to_u64 (x : uint) : outcome Z :=
  resize_to_u64 (uapint x).
(** src/uint.rs 383-385. *)
Definition uint_resize_to_u128 (x : uint) : outcome Z :=
  resize_to_u128 (uapint x).
(** src/uint.rs 402-404. *)
Definition uint_try_to_bool (x : uint) : outcome (result bool) :=
  try_to_bool (uapint x).
(** src/uint.rs 417-419. *)
Definition uint_try_to_u8 (x : uint) : outcome (result Z) :=
  try_to_u8 (uapint x).
(** src/uint.rs 432-434. *)
Definition uint_try_to_u16 (x : uint) : outcome (result Z) :=
  try_to_u16 (uapint x).
(** src/uint.rs 447-449. *)
Definition uint_try_to_u32 (x : uint) : outcome (result Z) :=
  try_to_u32 (uapint x).
(** src/uint.rs 462-464. *)
Definition uint_try_to_u64 (x : uint) : outcome (result Z) :=
  try_to_u64 (uapint x).
(** src/uint.rs 481-483. *)
Definition uint_try_to_u128 (x : uint) : outcome (result Z) :=
  try_to_u128 (uapint x).
(** src/uint.rs 496-501. *)
Definition uint_wrapping_shl_assign (x : uint) (s : Z) : outcome (uint * result unit) :=
  uint_upd (wrapping_shl_assign (uapint x) s).
(** src/uint.rs 512-517. *)
Definition uint_into_wrapping_shl (x : uint) (s : Z) : outcome (result uint) :=
  uint_map (into_wrapping_shl (uapint x) s).
(** src/uint.rs 527-532. *)
Definition uint_wrapping_shr_assign (x : uint) (s : Z) : outcome (uint * result unit) :=
  uint_upd (wrapping_lshr_assign (uapint x) s).
(** src/uint.rs 543-548. *)
Definition uint_into_wrapping_shr (x : uint) (s : Z) : outcome (result uint) :=
  uint_map (into_wrapping_lshr (uapint x) s).
(** src/uint.rs 563-568. *)
Definition uint_random_with_width_using {S : Type} (next : S -> Z * S) (w : Z) (s : S) : outcome (uint * S) :=
  let! (a, s) := random_with_width_using next w s in Val (mk_uint a, s).
(** src/uint.rs 581-586. *)
Definition uint_randomize_using {S : Type} (next : S -> Z * S) (x : uint) (s : S) : outcome (uint * S) :=
  let! (a, s) := randomize_using next (uapint x) s in Val (mk_uint a, s).
(** src/uint.rs 596-598. *)
Definition uint_assign (x y : uint) : outcome uint :=
  uint_new (assign (uapint x) (uapint y)).
(** src/uint.rs 611-613. *)
Definition uint_strict_assign (x y : uint) : outcome (uint * result unit) :=
  uint_upd (strict_assign (uapint x) (uapint y)).
(** src/uint.rs 648-653. *)
Definition uint_truncate (x : uint) (w : Z) : outcome (uint * result unit) :=
  uint_upd (truncate (uapint x) w).
(** src/uint.rs 630-635. *)
Definition uint_into_truncate (x : uint) (w : Z) : outcome (result uint) :=
  try_forward_bin_mut_impl uint_truncate x w.
(** src/uint.rs 686-691. *)
Definition uint_extend (x : uint) (w : Z) : outcome (uint * result unit) :=
  uint_upd (zero_extend (uapint x) w).
(** src/uint.rs 668-673. *)
Definition uint_into_extend (x : uint) (w : Z) : outcome (result uint) :=
  try_forward_bin_mut_impl uint_extend x w.
(** src/uint.rs 718-723. *)
Definition uint_resize (x : uint) (w : Z) : outcome uint :=
  uint_new (zero_resize (uapint x) w).
(** src/uint.rs 702-707. *)
Definition uint_into_resize (x : uint) (w : Z) : outcome uint :=
  forward_bin_mut_impl uint_resize x w.
(** src/uint.rs 734-736. *)
Definition uint_bitnot (x : uint) : outcome uint :=
  uint_new (bitnot (uapint x)).
(** src/uint.rs 729-731. *)
Definition uint_into_bitnot (x : uint) : outcome uint :=
  forward_mut_impl uint_bitnot x.
(** src/uint.rs 755-757. *)
Definition uint_bitand_assign (x y : uint) : outcome (uint * result unit) :=
  uint_upd (bitand_assign (uapint x) (uapint y)).
(** src/uint.rs 744-746. *)
Definition uint_into_bitand (x y : uint) : outcome (result uint) :=
  try_forward_bin_mut_impl uint_bitand_assign x y.
(** src/uint.rs 776-778. *)
Definition uint_bitor_assign (x y : uint) : outcome (uint * result unit) :=
  uint_upd (bitor_assign (uapint x) (uapint y)).
(** src/uint.rs 765-767. *)
Definition uint_into_bitor (x y : uint) : outcome (result uint) :=
  try_forward_bin_mut_impl uint_bitor_assign x y.
(** src/uint.rs 797-799. *)
Definition uint_bitxor_assign (x y : uint) : outcome (uint * result unit) :=
  uint_upd (bitxor_assign (uapint x) (uapint y)).
(** src/uint.rs 786-788. *)
Definition uint_into_bitxor (x y : uint) : outcome (result uint) :=
  try_forward_bin_mut_impl uint_bitxor_assign x y.
(** src/uint.rs 809-814. *)
Definition uint_get_bit_at (x : uint) (pos : Z) : outcome (result bool) :=
  get_bit_at (uapint x) pos.
(** src/uint.rs 821-826. *)
Definition uint_set_bit_at (x : uint) (pos : Z) : outcome (uint * result unit) :=
  uint_upd (set_bit_at (uapint x) pos).
(** src/uint.rs 833-838. *)
Definition uint_unset_bit_at (x : uint) (pos : Z) : outcome (uint * result unit) :=
  uint_upd (unset_bit_at (uapint x) pos).
(** src/uint.rs 850-855. *)
Definition uint_flip_bit_at (x : uint) (pos : Z) : outcome (uint * result unit) :=
  uint_upd (flip_bit_at (uapint x) pos).
(** src/uint.rs 858-860. *)
Definition uint_set_all (x : uint) : outcome uint :=
  uint_new (set_all (uapint x)).
(** src/uint.rs 863-865. *)
Definition uint_is_all_set (x : uint) : outcome bool :=
  is_all_set (uapint x).
(** src/uint.rs 868-870. *)
Definition uint_unset_all (x : uint) : outcome uint :=
  uint_new (unset_all (uapint x)).
(** src/uint.rs 873-875. *)
Definition uint_is_all_unset (x : uint) : outcome bool :=
  is_all_unset (uapint x).
(** src/uint.rs 878-880. *)
Definition uint_flip_all (x : uint) : outcome uint :=
  uint_new (flip_all (uapint x)).
(** src/uint.rs 886-888. *)
Definition uint_count_ones (x : uint) : outcome Z :=
  count_ones (uapint x).
(** src/uint.rs 891-893. *)
Definition uint_count_zeros (x : uint) : outcome Z :=
  count_zeros (uapint x).
(** src/uint.rs 897-899. *)
Definition uint_leading_zeros (x : uint) : outcome Z :=
  leading_zeros (uapint x).
(** src/uint.rs 903-905. *)
Definition uint_trailing_zeros (x : uint) : outcome Z :=
  trailing_zeros (uapint x).
(** src/uint.rs 914-916. *)
Definition uint_wrapping_neg (x : uint) : outcome uint :=
  uint_new (wrapping_neg (uapint x)).
(** src/uint.rs 922-924. *)
Definition uint_into_wrapping_neg (x : uint) : outcome uint :=
  forward_mut_impl uint_wrapping_neg x.
(** src/uint.rs 944-946. *)
Definition uint_wrapping_add_assign (x y : uint) : outcome (uint * result unit) :=
  uint_upd (wrapping_add_assign (uapint x) (uapint y)).
(** src/uint.rs 933-935. *)
Definition uint_into_wrapping_add (x y : uint) : outcome (result uint) :=
  try_forward_bin_mut_impl uint_wrapping_add_assign x y.
(** src/uint.rs 974-976. *)
Definition uint_wrapping_sub_assign (x y : uint) : outcome (uint * result unit) :=
  uint_upd (wrapping_sub_assign (uapint x) (uapint y)).
(** src/uint.rs 959-961. *)
Definition uint_into_wrapping_sub (x y : uint) : outcome (result uint) :=
  try_forward_bin_mut_impl uint_wrapping_sub_assign x y.
(** src/uint.rs 1004-1006. *)
Definition uint_wrapping_mul_assign (x y : uint) : outcome (uint * result unit) :=
  uint_upd (wrapping_mul_assign (uapint x) (uapint y)).
(** src/uint.rs 989-991. *)
Definition uint_into_wrapping_mul (x y : uint) : outcome (result uint) :=
  try_forward_bin_mut_impl uint_wrapping_mul_assign x y.
(** src/uint.rs 1036-1038. *)
Definition uint_wrapping_div_assign (x y : uint) : outcome (uint * result unit) :=
  uint_upd (wrapping_udiv_assign (uapint x) (uapint y)).
(** src/uint.rs 1020-1022. *)
Definition uint_into_wrapping_div (x y : uint) : outcome (result uint) :=
  try_forward_bin_mut_impl uint_wrapping_div_assign x y.
(** src/uint.rs 1069-1071. *)
Definition uint_wrapping_rem_assign (x y : uint) : outcome (uint * result unit) :=
  uint_upd (wrapping_urem_assign (uapint x) (uapint y)).
(** src/uint.rs 1053-1055. *)
Definition uint_into_wrapping_rem (x y : uint) : outcome (result uint) :=
  try_forward_bin_mut_impl uint_wrapping_rem_assign x y.
(** src/uint.rs 1081-1083. *)
Definition uint_fmt_binary (x : uint) : outcome (list Z) :=
  fmt_binary (uapint x).
(** src/uint.rs 1087-1089. *)
Definition uint_fmt_octal (x : uint) : outcome (list Z) :=
  fmt_octal (uapint x).
(** src/uint.rs 1093-1095. *)
Definition uint_fmt_lower_hex (x : uint) : outcome (list Z) :=
  fmt_lower_hex (uapint x).
(** src/uint.rs 1099-1101. *)
Definition uint_fmt_upper_hex (x : uint) : outcome (list Z) :=
  fmt_upper_hex (uapint x).

(** * Int *)

(** src/int.rs 28-30. *)
Record int : Type := mk_int { iapint : apint }.
(** The wrapper put back around a constructor, a mutation in place or a consuming
    operation of [ApInt] ([Int::from], [self.value.op(..)], [.map(Int::from)]).
    src/int.rs 28-36. *)
Definition int_new (m : outcome apint) : outcome int := let! a := m in Val (mk_int a).
(** src/int.rs 1020-1150: an operation in place. *)
Definition int_upd (m : mut_result) : outcome (int * result unit) :=
  let! (a, r) := m in Val (mk_int a, r).
(** src/int.rs 1030-1160: [.map(Int::from)]. *)
Definition int_map (m : outcome (result apint)) : outcome (result int) :=
  let! r := m in Val (map_result mk_int r).
(** src/int.rs 33-35. *)
Definition int_from_apint (a : apint) : int :=
  mk_int a.
(** src/int.rs 39-41. *)
Definition int_width (x : int) : Z :=
  width (iapint x).
(** src/int.rs 46-48. *)
Definition int_into_apint (x : int) : apint :=
  iapint x.
(** src/int.rs 51-53. *)
Definition int_into_unsigned (x : int) : uint :=
  mk_uint (iapint x).
(** src/int.rs 25 (derived): [Clone], [PartialEq], [Hash]. *)
Definition int_clone (x : int) : outcome int := int_new (clone (iapint x)).
(** src/int.rs 25 (derived [PartialEq]). *)
Definition int_eqb (x y : int) : bool := apint_eqb (iapint x) (iapint y).
(** src/int.rs 25 (derived [Hash]). *)
Definition int_hash_feed (x : int) : list hash_item := hash_feed (iapint x).
(** src/int.rs 62-64. *)
Definition int_from_bool (bit : bool) : outcome int :=
  int_new (from_bool bit).
(** src/int.rs 68-70. *)
Definition int_from_i8 (v : Z) : outcome int :=
  int_new (from_i8 v).
(** src/int.rs 74-76. *)
Definition int_from_i16 (v : Z) : outcome int :=
  int_new (from_i16 v).
(** src/int.rs 80-82. *)
Definition int_from_i32 (v : Z) : outcome int :=
  int_new (from_i32 v).
(** src/int.rs 86-88. *)
Definition int_from_i64 (v : Z) : outcome int :=
  int_new (from_i64 v).
(** src/int.rs 91-93. *)
Definition int_from_i128 (v : Z) : outcome int :=
  int_new (from_i128 v).
(** src/int.rs 140-175 forward to these.  src/int.rs 177-195: [From<[i64; n]>]. *)
Definition int_from_array (vals : list Z) : outcome int := int_new (from_i64_array vals).
(** src/int.rs 96-98. *)
Definition int_zero (w : Z) : outcome int :=
  int_new (zero w).
(** src/int.rs 103-109. *)
Definition int_one (w : Z) : outcome (option int) :=
  if w =? 1 then Val None else let! x := int_new (one w) in Val (Some x).
(** src/int.rs 114-116. *)
Definition int_all_unset (w : Z) : outcome int :=
  int_zero w.
(** src/int.rs 123-125. *)
Definition int_all_set (w : Z) : outcome int :=
  int_new (all_set w).
(** src/int.rs 129-131. *)
Definition int_min_value (w : Z) : outcome int :=
  int_new (signed_min_value w).
(** src/int.rs 135-137. *)
Definition int_max_value (w : Z) : outcome int :=
  int_new (signed_max_value w).
(** src/int.rs 205-207. *)
Definition int_is_zero (x : int) : outcome bool :=
  is_zero (iapint x).
(** src/int.rs 217-223. *)
Definition int_is_one (x : int) : outcome bool :=
  if int_width x =? 1 then Val false else is_one (iapint x).
(** src/int.rs 226-228. *)
Definition int_is_even (x : int) : outcome bool :=
  is_even (iapint x).
(** src/int.rs 231-233. *)
Definition int_is_odd (x : int) : outcome bool :=
  is_odd (iapint x).
(** src/int.rs 941-943. *)
Definition int_msb (x : int) : outcome bool :=
  msb (iapint x).
(** src/int.rs 998-1000. *)
Definition int_wrapping_neg (x : int) : outcome int :=
  int_new (wrapping_neg (iapint x)).
(** src/int.rs 236-238. *)
Definition int_is_positive (x : int) : outcome bool :=
  let! b := int_msb x in Val (negb b).
(** src/int.rs 241-243. *)
Definition int_is_negative (x : int) : outcome bool :=
  let! b := int_is_positive x in Val (negb b).
(** src/int.rs 250-258. *)
Definition int_signum (x : int) : outcome Z :=
  let! z := int_is_zero x in
  if z : bool then Val 0 else
  let! n := int_is_negative x in
  Val (if n : bool then -1 else 1).
(** src/int.rs 273-277. *)
Definition int_wrapping_abs (x : int) : outcome int :=
  let! m := int_msb x in if m : bool then int_wrapping_neg x else Val x.
(** src/int.rs 266-268. *)
Definition int_into_abs (x : int) : outcome int :=
  forward_mut_impl int_wrapping_abs x.
(** src/int.rs 293-295. *)
Definition int_checked_lt (x y : int) : outcome (result bool) :=
  checked_slt (iapint x) (iapint y).
(** src/int.rs 309-311. *)
Definition int_checked_le (x y : int) : outcome (result bool) :=
  checked_sle (iapint x) (iapint y).
(** src/int.rs 325-327. *)
Definition int_checked_gt (x y : int) : outcome (result bool) :=
  checked_sgt (iapint x) (iapint y).
(** src/int.rs 341-343. *)
Definition int_checked_ge (x y : int) : outcome (result bool) :=
  checked_sge (iapint x) (iapint y).
(** src/int.rs 350-361. *)
Definition int_partial_cmp (x y : int) : outcome (option comparison) :=
  if negb (int_width x =? int_width y) then Val None else
  let! r := int_checked_lt x y in
  let! b := unwrap r in
  if b : bool then Val (Some Lt) else
  if apint_eqb (iapint x) (iapint y) then Val (Some Eq) else
  Val (Some Gt).
(** src/int.rs 363-365. *)
Definition int_lt (x y : int) : outcome bool :=
  let! r := int_checked_lt x y in Val (match r with Ok b => b | Err _ => false end).
(** src/int.rs 367-369. *)
Definition int_le (x y : int) : outcome bool :=
  let! r := int_checked_le x y in Val (match r with Ok b => b | Err _ => false end).
(** src/int.rs 371-373. *)
Definition int_gt (x y : int) : outcome bool :=
  let! r := int_checked_gt x y in Val (match r with Ok b => b | Err _ => false end).
(** src/int.rs 375-377. *)
Definition int_ge (x y : int) : outcome bool :=
  let! r := int_checked_ge x y in Val (match r with Ok b => b | Err _ => false end).
(** src/int.rs 391-393. *)
Definition int_resize_to_bool (x : int) : outcome bool :=
  resize_to_bool (iapint x).
(** src/int.rs 401-403. *)
Definition int_resize_to_i8 (x : int) : outcome Z :=
  resize_to_i8 (iapint x).
(** src/int.rs 411-413. *)
Definition int_resize_to_i16 (x : int) : outcome Z :=
  resize_to_i16 (iapint x).
(** src/int.rs 421-423. *)
Definition int_resize_to_i32 (x : int) : outcome Z :=
  resize_to_i32 (iapint x).
(** src/int.rs 431-433. *)
Definition int_resize_to_i64 (x : int) : outcome Z :=
  resize_to_i64 (iapint x).
(** src/int.rs 441-443. *)
Definition int_resize_to_i128 (x : int) : outcome Z :=
  resize_to_i128 (iapint x).
(** src/int.rs 460-462. *)
Definition int_try_to_bool (x : int) : outcome (result bool) :=
  try_to_bool (iapint x).
(** src/int.rs 475-477. *)
Definition int_try_to_i8 (x : int) : outcome (result Z) :=
  try_to_i8 (iapint x).
(** src/int.rs 490-492. *)
Definition int_try_to_i16 (x : int) : outcome (result Z) :=
  try_to_i16 (iapint x).
(** src/int.rs 505-507. *)
Definition int_try_to_i32 (x : int) : outcome (result Z) :=
  try_to_i32 (iapint x).
(** src/int.rs 520-522. *)
Definition int_try_to_i64 (x : int) : outcome (result Z) :=
  try_to_i64 (iapint x).
(** src/int.rs 539-541. *)
Definition int_try_to_i128 (x : int) : outcome (result Z) :=
  try_to_i128 (iapint x).
(** src/int.rs 554-559. *)
Definition int_wrapping_shl_assign (x : int) (s : Z) : outcome (int * result unit) :=
  int_upd (wrapping_shl_assign (iapint x) s).
(** src/int.rs 570-575. *)
Definition int_into_wrapping_shl (x : int) (s : Z) : outcome (result int) :=
  int_map (into_wrapping_shl (iapint x) s).
(** src/int.rs 585-590. *)
Definition int_wrapping_shr_assign (x : int) (s : Z) : outcome (int * result unit) :=
  int_upd (wrapping_ashr_assign (iapint x) s).
(** src/int.rs 601-606. *)
Definition int_into_wrapping_shr (x : int) (s : Z) : outcome (result int) :=
  int_map (into_wrapping_ashr (iapint x) s).
(** src/int.rs 621-626. *)
Definition int_random_with_width_using {S : Type} (next : S -> Z * S) (w : Z) (s : S) : outcome (int * S) :=
  let! (a, s) := random_with_width_using next w s in Val (mk_int a, s).
(** src/int.rs 639-644. *)
Definition int_randomize_using {S : Type} (next : S -> Z * S) (x : int) (s : S) : outcome (int * S) :=
  let! (a, s) := randomize_using next (iapint x) s in Val (mk_int a, s).
(** src/int.rs 654-656. *)
Definition int_assign (x y : int) : outcome int :=
  int_new (assign (iapint x) (iapint y)).
(** src/int.rs 669-671. *)
Definition int_strict_assign (x y : int) : outcome (int * result unit) :=
  int_upd (strict_assign (iapint x) (iapint y)).
(** src/int.rs 706-711. *)
Definition int_truncate (x : int) (w : Z) : outcome (int * result unit) :=
  int_upd (truncate (iapint x) w).
(** src/int.rs 688-693. *)
Definition int_into_truncate (x : int) (w : Z) : outcome (result int) :=
  try_forward_bin_mut_impl int_truncate x w.
(** src/int.rs 744-749. *)
Definition int_extend (x : int) (w : Z) : outcome (int * result unit) :=
  int_upd (sign_extend (iapint x) w).
(** src/int.rs 726-731. *)
Definition int_into_extend (x : int) (w : Z) : outcome (result int) :=
  try_forward_bin_mut_impl int_extend x w.
(** src/int.rs 776-781. *)
Definition int_resize (x : int) (w : Z) : outcome int :=
  int_new (sign_resize (iapint x) w).
(** src/int.rs 760-765. *)
Definition int_into_resize (x : int) (w : Z) : outcome int :=
  forward_bin_mut_impl int_resize x w.
(** src/int.rs 792-794. *)
Definition int_bitnot (x : int) : outcome int :=
  int_new (bitnot (iapint x)).
(** src/int.rs 787-789. *)
Definition int_into_bitnot (x : int) : outcome int :=
  forward_mut_impl int_bitnot x.
(** src/int.rs 813-815. *)
Definition int_bitand_assign (x y : int) : outcome (int * result unit) :=
  int_upd (bitand_assign (iapint x) (iapint y)).
(** src/int.rs 802-804. *)
Definition int_into_bitand (x y : int) : outcome (result int) :=
  try_forward_bin_mut_impl int_bitand_assign x y.
(** src/int.rs 834-836. *)
Definition int_bitor_assign (x y : int) : outcome (int * result unit) :=
  int_upd (bitor_assign (iapint x) (iapint y)).
(** src/int.rs 823-825. *)
Definition int_into_bitor (x y : int) : outcome (result int) :=
  try_forward_bin_mut_impl int_bitor_assign x y.
(** src/int.rs 855-857. *)
Definition int_bitxor_assign (x y : int) : outcome (int * result unit) :=
  int_upd (bitxor_assign (iapint x) (iapint y)).
(** src/int.rs 844-846. *)
Definition int_into_bitxor (x y : int) : outcome (result int) :=
  try_forward_bin_mut_impl int_bitxor_assign x y.
(** src/int.rs 867-872. *)
Definition int_get_bit_at (x : int) (pos : Z) : outcome (result bool) :=
  get_bit_at (iapint x) pos.
(** src/int.rs 879-884. *)
Definition int_set_bit_at (x : int) (pos : Z) : outcome (int * result unit) :=
  int_upd (set_bit_at (iapint x) pos).
(** src/int.rs 891-896. *)
Definition int_unset_bit_at (x : int) (pos : Z) : outcome (int * result unit) :=
  int_upd (unset_bit_at (iapint x) pos).
(** src/int.rs 908-913. *)
Definition int_flip_bit_at (x : int) (pos : Z) : outcome (int * result unit) :=
  int_upd (flip_bit_at (iapint x) pos).
(** src/int.rs 916-918. *)
Definition int_set_all (x : int) : outcome int :=
  int_new (set_all (iapint x)).
(** src/int.rs 921-923. *)
Definition int_is_all_set (x : int) : outcome bool :=
  is_all_set (iapint x).
(** src/int.rs 926-928. *)
Definition int_unset_all (x : int) : outcome int :=
  int_new (unset_all (iapint x)).
(** src/int.rs 931-933. *)
Definition int_is_all_unset (x : int) : outcome bool :=
  is_all_unset (iapint x).
(** src/int.rs 936-938. *)
Definition int_flip_all (x : int) : outcome int :=
  int_new (flip_all (iapint x)).
(** src/int.rs 946-948. *)
Definition int_set_msb (x : int) : outcome int :=
  int_new (set_msb (iapint x)).
(** src/int.rs 951-953. *)
Definition int_unset_msb (x : int) : outcome int :=
  int_new (unset_msb (iapint x)).
(** src/int.rs 956-958. *)
Definition int_flip_msb (x : int) : outcome int :=
  int_new (flip_msb (iapint x)).
(** src/int.rs 964-966. *)
Definition int_count_ones (x : int) : outcome Z :=
  count_ones (iapint x).
(** src/int.rs 969-971. *)
Definition int_count_zeros (x : int) : outcome Z :=
  count_zeros (iapint x).
(** src/int.rs 975-977. *)
Definition int_leading_zeros (x : int) : outcome Z :=
  leading_zeros (iapint x).
(** src/int.rs 981-983. *)
Definition int_trailing_zeros (x : int) : outcome Z :=
  trailing_zeros (iapint x).
(** src/int.rs 991-993. *)
Definition int_into_wrapping_neg (x : int) : outcome int :=
  forward_mut_impl int_wrapping_neg x.
(** src/int.rs 1020-1022. *)
Definition int_wrapping_add_assign (x y : int) : outcome (int * result unit) :=
  int_upd (wrapping_add_assign (iapint x) (iapint y)).
(** src/int.rs 1009-1011. *)
Definition int_into_wrapping_add (x y : int) : outcome (result int) :=
  try_forward_bin_mut_impl int_wrapping_add_assign x y.
(** src/int.rs 1050-1052. *)
Definition int_wrapping_sub_assign (x y : int) : outcome (int * result unit) :=
  int_upd (wrapping_sub_assign (iapint x) (iapint y)).
(** src/int.rs 1035-1037. *)
Definition int_into_wrapping_sub (x y : int) : outcome (result int) :=
  try_forward_bin_mut_impl int_wrapping_sub_assign x y.
(** src/int.rs 1080-1082. *)
Definition int_wrapping_mul_assign (x y : int) : outcome (int * result unit) :=
  int_upd (wrapping_mul_assign (iapint x) (iapint y)).
(** src/int.rs 1065-1067. *)
Definition int_into_wrapping_mul (x y : int) : outcome (result int) :=
  try_forward_bin_mut_impl int_wrapping_mul_assign x y.
(** src/int.rs 1112-1114. *)
Definition int_wrapping_div_assign (x y : int) : outcome (int * result unit) :=
  int_upd (wrapping_sdiv_assign (iapint x) (iapint y)).
(** src/int.rs 1096-1098. *)
Definition int_into_wrapping_div (x y : int) : outcome (result int) :=
  try_forward_bin_mut_impl int_wrapping_div_assign x y.
(** src/int.rs 1145-1147. *)
Definition int_wrapping_rem_assign (x y : int) : outcome (int * result unit) :=
  int_upd (wrapping_srem_assign (iapint x) (iapint y)).
(** src/int.rs 1129-1131. *)
Definition int_into_wrapping_rem (x y : int) : outcome (result int) :=
  try_forward_bin_mut_impl int_wrapping_rem_assign x y.
(** src/int.rs 1157-1159. *)
Definition int_fmt_binary (x : int) : outcome (list Z) :=
  fmt_binary (iapint x).
(** src/int.rs 1163-1165. *)
Definition int_fmt_octal (x : int) : outcome (list Z) :=
  fmt_octal (iapint x).
(** src/int.rs 1169-1171. *)
Definition int_fmt_lower_hex (x : int) : outcome (list Z) :=
  fmt_lower_hex (iapint x).
(** src/int.rs 1175-1177. *)
Definition int_fmt_upper_hex (x : int) : outcome (list Z) :=
  fmt_upper_hex (iapint x).

(** src/uint.rs 51-53. *)
Definition uint_into_signed (x : uint) : int := mk_int (uapint x).
