(** Model of src/std_ops.rs: the operator traits.  No proofs in this file.

    The macros [common_std_ops] (33-163, instantiated at 165-167 for [ApInt],
    [UInt] and [Int]) and [signed_std_ops] (170-220, instantiated at 222-223
    for [UInt] and [Int]).  Inside the implementations of [BitAndAssign],
    [BitOrAssign] and [BitXorAssign] the call [self.bitand_assign(rhs)] is to
    the inherent method, which takes precedence. *)
From Verif Require Export MInt.

(** [self.op(rhs).unwrap()] for a consuming and for an assigning method.
    src/std_ops.rs 61-113, 178-196. *)
Definition op_unwrap {T : Type} (m : outcome (result T)) : outcome T := let! r := m in unwrap r.
(** src/std_ops.rs 122-160, 203-217. *)
Definition assign_unwrap {T : Type} (m : outcome (T * result unit)) : outcome T :=
  let! (x, r) := m in let! _ := unwrap r in Val x.


(** * apint *)
(** src/std_ops.rs 40-42. *)
Definition ap_op_not (x : apint) : outcome apint := into_bitnot x.
(** src/std_ops.rs 50-52. *)
Definition ap_op_neg (x : apint) : outcome apint := into_wrapping_neg x.
(** src/std_ops.rs 61-63, 122-124. *)
Definition ap_op_shl (x : apint) (s : Z) : outcome apint := op_unwrap (into_wrapping_shl x s).
(** src/std_ops.rs 122-124. *)
Definition ap_op_shl_assign (x : apint) (s : Z) : outcome apint := assign_unwrap (wrapping_shl_assign x s).
(** src/std_ops.rs 71-73, 128-130. *)
Definition ap_op_bitand (x y : apint) : outcome apint := op_unwrap (into_bitand x y).
(** src/std_ops.rs 128-130. *)
Definition ap_op_bitand_assign (x y : apint) : outcome apint := assign_unwrap (bitand_assign x y).
(** src/std_ops.rs 79-81, 134-136. *)
Definition ap_op_bitor (x y : apint) : outcome apint := op_unwrap (into_bitor x y).
(** src/std_ops.rs 134-136. *)
Definition ap_op_bitor_assign (x y : apint) : outcome apint := assign_unwrap (bitor_assign x y).
(** src/std_ops.rs 87-89, 140-142. *)
Definition ap_op_bitxor (x y : apint) : outcome apint := op_unwrap (into_bitxor x y).
(** src/std_ops.rs 140-142. *)
Definition ap_op_bitxor_assign (x y : apint) : outcome apint := assign_unwrap (bitxor_assign x y).
(** src/std_ops.rs 95-97, 146-148. *)
Definition ap_op_add (x y : apint) : outcome apint := op_unwrap (into_wrapping_add x y).
(** src/std_ops.rs 146-148. *)
Definition ap_op_add_assign (x y : apint) : outcome apint := assign_unwrap (wrapping_add_assign x y).
(** src/std_ops.rs 103-105, 152-154. *)
Definition ap_op_sub (x y : apint) : outcome apint := op_unwrap (into_wrapping_sub x y).
(** src/std_ops.rs 152-154. *)
Definition ap_op_sub_assign (x y : apint) : outcome apint := assign_unwrap (wrapping_sub_assign x y).
(** src/std_ops.rs 111-113, 158-160. *)
Definition ap_op_mul (x y : apint) : outcome apint := op_unwrap (into_wrapping_mul x y).
(** src/std_ops.rs 158-160. *)
Definition ap_op_mul_assign (x y : apint) : outcome apint := assign_unwrap (wrapping_mul_assign x y).

(** * uint *)
(** src/std_ops.rs 40-42. *)
Definition uint_op_not (x : uint) : outcome uint := uint_into_bitnot x.
(** src/std_ops.rs 50-52. *)
Definition uint_op_neg (x : uint) : outcome uint := uint_into_wrapping_neg x.
(** src/std_ops.rs 61-63, 122-124. *)
Definition uint_op_shl (x : uint) (s : Z) : outcome uint := op_unwrap (uint_into_wrapping_shl x s).
(** src/std_ops.rs 122-124. *)
Definition uint_op_shl_assign (x : uint) (s : Z) : outcome uint := assign_unwrap (uint_wrapping_shl_assign x s).
(** src/std_ops.rs 178-180, 203-205. *)
Definition uint_op_shr (x : uint) (s : Z) : outcome uint := op_unwrap (uint_into_wrapping_shr x s).
(** src/std_ops.rs 203-205. *)
Definition uint_op_shr_assign (x : uint) (s : Z) : outcome uint := assign_unwrap (uint_wrapping_shr_assign x s).
(** src/std_ops.rs 71-73, 128-130. *)
Definition uint_op_bitand (x y : uint) : outcome uint := op_unwrap (uint_into_bitand x y).
(** src/std_ops.rs 128-130. *)
Definition uint_op_bitand_assign (x y : uint) : outcome uint := assign_unwrap (uint_bitand_assign x y).
(** src/std_ops.rs 79-81, 134-136. *)
Definition uint_op_bitor (x y : uint) : outcome uint := op_unwrap (uint_into_bitor x y).
(** src/std_ops.rs 134-136. *)
Definition uint_op_bitor_assign (x y : uint) : outcome uint := assign_unwrap (uint_bitor_assign x y).
(** src/std_ops.rs 87-89, 140-142. *)
Definition uint_op_bitxor (x y : uint) : outcome uint := op_unwrap (uint_into_bitxor x y).
(** src/std_ops.rs 140-142. *)
Definition uint_op_bitxor_assign (x y : uint) : outcome uint := assign_unwrap (uint_bitxor_assign x y).
(** src/std_ops.rs 95-97, 146-148. *)
Definition uint_op_add (x y : uint) : outcome uint := op_unwrap (uint_into_wrapping_add x y).
(** src/std_ops.rs 146-148. *)
Definition uint_op_add_assign (x y : uint) : outcome uint := assign_unwrap (uint_wrapping_add_assign x y).
(** src/std_ops.rs 103-105, 152-154. *)
Definition uint_op_sub (x y : uint) : outcome uint := op_unwrap (uint_into_wrapping_sub x y).
(** src/std_ops.rs 152-154. *)
Definition uint_op_sub_assign (x y : uint) : outcome uint := assign_unwrap (uint_wrapping_sub_assign x y).
(** src/std_ops.rs 111-113, 158-160. *)
Definition uint_op_mul (x y : uint) : outcome uint := op_unwrap (uint_into_wrapping_mul x y).
(** src/std_ops.rs 158-160. *)
Definition uint_op_mul_assign (x y : uint) : outcome uint := assign_unwrap (uint_wrapping_mul_assign x y).
(** src/std_ops.rs 186-188, 209-211. *)
Definition uint_op_div (x y : uint) : outcome uint := op_unwrap (uint_into_wrapping_div x y).
(** src/std_ops.rs 209-211. *)
Definition uint_op_div_assign (x y : uint) : outcome uint := assign_unwrap (uint_wrapping_div_assign x y).
(** src/std_ops.rs 194-196, 215-217. *)
Definition uint_op_rem (x y : uint) : outcome uint := op_unwrap (uint_into_wrapping_rem x y).
(** src/std_ops.rs 215-217. *)
Definition uint_op_rem_assign (x y : uint) : outcome uint := assign_unwrap (uint_wrapping_rem_assign x y).

(** * int *)
(** src/std_ops.rs 40-42. *)
Definition int_op_not (x : int) : outcome int := int_into_bitnot x.
(** src/std_ops.rs 50-52. *)
Definition int_op_neg (x : int) : outcome int := int_into_wrapping_neg x.
(** src/std_ops.rs 61-63, 122-124. *)
Definition int_op_shl (x : int) (s : Z) : outcome int := op_unwrap (int_into_wrapping_shl x s).
(** src/std_ops.rs 122-124. *)
Definition int_op_shl_assign (x : int) (s : Z) : outcome int := assign_unwrap (int_wrapping_shl_assign x s).
(** src/std_ops.rs 178-180, 203-205. *)
Definition int_op_shr (x : int) (s : Z) : outcome int := op_unwrap (int_into_wrapping_shr x s).
(** src/std_ops.rs 203-205. *)
Definition int_op_shr_assign (x : int) (s : Z) : outcome int := assign_unwrap (int_wrapping_shr_assign x s).
(** src/std_ops.rs 71-73, 128-130. *)
Definition int_op_bitand (x y : int) : outcome int := op_unwrap (int_into_bitand x y).
(** src/std_ops.rs 128-130. *)
Definition int_op_bitand_assign (x y : int) : outcome int := assign_unwrap (int_bitand_assign x y).
(** src/std_ops.rs 79-81, 134-136. *)
Definition int_op_bitor (x y : int) : outcome int := op_unwrap (int_into_bitor x y).
(** src/std_ops.rs 134-136. *)
Definition int_op_bitor_assign (x y : int) : outcome int := assign_unwrap (int_bitor_assign x y).
(** src/std_ops.rs 87-89, 140-142. *)
Definition int_op_bitxor (x y : int) : outcome int := op_unwrap (int_into_bitxor x y).
(** src/std_ops.rs 140-142. *)
Definition int_op_bitxor_assign (x y : int) : outcome int := assign_unwrap (int_bitxor_assign x y).
(** src/std_ops.rs 95-97, 146-148. *)
Definition int_op_add (x y : int) : outcome int := op_unwrap (int_into_wrapping_add x y).
(** src/std_ops.rs 146-148. *)
Definition int_op_add_assign (x y : int) : outcome int := assign_unwrap (int_wrapping_add_assign x y).
(** src/std_ops.rs 103-105, 152-154. *)
Definition int_op_sub (x y : int) : outcome int := op_unwrap (int_into_wrapping_sub x y).
(** src/std_ops.rs 152-154. *)
Definition int_op_sub_assign (x y : int) : outcome int := assign_unwrap (int_wrapping_sub_assign x y).
(** src/std_ops.rs 111-113, 158-160. *)
Definition int_op_mul (x y : int) : outcome int := op_unwrap (int_into_wrapping_mul x y).
(** src/std_ops.rs 158-160. *)
Definition int_op_mul_assign (x y : int) : outcome int := assign_unwrap (int_wrapping_mul_assign x y).
(** src/std_ops.rs 186-188, 209-211. *)
Definition int_op_div (x y : int) : outcome int := op_unwrap (int_into_wrapping_div x y).
(** src/std_ops.rs 209-211. *)
Definition int_op_div_assign (x y : int) : outcome int := assign_unwrap (int_wrapping_div_assign x y).
(** src/std_ops.rs 194-196, 215-217. *)
Definition int_op_rem (x y : int) : outcome int := op_unwrap (int_into_wrapping_rem x y).
(** src/std_ops.rs 215-217. *)
Definition int_op_rem_assign (x y : int) : outcome int := assign_unwrap (int_wrapping_rem_assign x y).
