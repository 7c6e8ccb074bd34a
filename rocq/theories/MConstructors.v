(** Model of the remaining constructors of src/apint/constructors.rs.  No
    proofs in this file. *)
From Verif Require Export MBitwise.

(** src/apint/constructors.rs 220-243. *)
Definition repeat_digit (target_width digit : Z) : outcome apint :=
  let req_digits := required_digits target_width in
  let! r := from_iter (repeat digit req_digits) in
  let! a := unwrap r in
  let! r := into_truncate a target_width in
  unwrap r.

(** src/apint/constructors.rs 90-92 ([bit as u64]). *)
Definition from_bool (bit : bool) : outcome apint := new_inl 1 (if bit then 1 else 0).
(** src/apint/constructors.rs 102-104, 114-116, 126-128, 138-140; the argument
    is the value of the unsigned primitive. *)
Definition from_u8 (v : Z) : outcome apint := new_inl 8 v.
(** src/apint/constructors.rs 114-116. *)
Definition from_u16 (v : Z) : outcome apint := new_inl 16 v.
(** src/apint/constructors.rs 126-128. *)
Definition from_u32 (v : Z) : outcome apint := new_inl 32 v.
(** src/apint/constructors.rs 138-140. *)
Definition from_u64 (v : Z) : outcome apint := new_inl 64 v.
(** src/apint/constructors.rs 96-98, 108-110, 120-122, 132-134 ([as uN] is
    reduction modulo 2^N). *)
Definition from_i8 (v : Z) : outcome apint := from_u8 (v mod 256).
(** src/apint/constructors.rs 108-110. *)
Definition from_i16 (v : Z) : outcome apint := from_u16 (v mod 65536).
(** src/apint/constructors.rs 120-122. *)
Definition from_i32 (v : Z) : outcome apint := from_u32 (v mod 4294967296).
(** src/apint/constructors.rs 132-134. *)
Definition from_i64 (v : Z) : outcome apint := from_u64 (v mod B).

(** src/apint/constructors.rs 385-394: [From<[u64; n]>], reversing the array. *)
Definition from_u64_array (vals : list Z) : outcome apint :=
  let buffer := rev vals in
  if Nat.eqb (length buffer) (length vals)
  then let! r := from_iter buffer in unwrap r
  else Panic.
(** src/apint/constructors.rs 377-383: [From<[i64; n]>] reinterprets the bits. *)
Definition from_i64_array (vals : list Z) : outcome apint :=
  from_u64_array (map i64_as_u64 vals).

(** src/apint/constructors.rs 149-153, 144-146. *)
Definition from_u128 (v : Z) : outcome apint :=
  let hi := Z.shiftr v 64 mod B in
  let lo := Z.land v (Z.shiftl 1 64 - 1) mod B in
  from_u64_array [hi; lo].
(** src/apint/constructors.rs 144-146. *)
Definition from_i128 (v : Z) : outcome apint := from_u128 (v mod BB).

(** src/apint/constructors.rs 246-248, 251-253, 258-260, 263-265, 269-277. *)
Definition zero (w : Z) : outcome apint := repeat_digit w ZERO.
(** src/apint/constructors.rs 251-253. *)
Definition one (w : Z) : outcome apint :=
  let! a := from_u64 1 in into_zero_resize a w.
(** src/apint/constructors.rs 258-260. *)
Definition all_unset (w : Z) : outcome apint := zero w.
(** src/apint/constructors.rs 263-265. *)
Definition all_set (w : Z) : outcome apint := repeat_digit w ONES.
(** src/apint/constructors.rs 269-271. *)
Definition unsigned_min_value (w : Z) : outcome apint := zero w.
(** src/apint/constructors.rs 275-277. *)
Definition unsigned_max_value (w : Z) : outcome apint := all_set w.
(** src/apint/constructors.rs 281-285, 289-293. *)
Definition signed_min_value (w : Z) : outcome apint :=
  let! a := zero w in set_msb a.
(** src/apint/constructors.rs 289-293. *)
Definition signed_max_value (w : Z) : outcome apint :=
  let! a := all_set w in unset_msb a.
