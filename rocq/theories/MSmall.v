(** Model of the small value types: [BitWidth] (src/bitwidth.rs), [BitPos]
    (src/bitpos.rs), [ShiftAmount] (src/apint/shift.rs) and [Radix] (src/radix.rs), each a
    wrapper of one machine number.  The other files of the model use the numbers.
    No proofs in this file. *)
From Coq Require Import ZArith List.
From Verif Require Export MSerial.
Open Scope Z_scope.

(** [core::num::NonZeroUsize], src/mem.rs and src/bitwidth.rs 21. *)
Record nonzero := mk_nonzero { nz_get : Z }.
(** [NonZeroUsize::new], used in src/bitwidth.rs 34-76 and 141. *)
Definition nonzero_new (n : Z) : option nonzero := if n =? 0 then None else Some (mk_nonzero n).

(** src/bitwidth.rs 20-21. *)
Record bit_width := mk_bit_width { bw_field : nonzero }.
(** src/bitwidth.rs 33-35. *)
Definition bw_w1 : outcome bit_width := let! n := unwrap_opt (nonzero_new 1) in Val (mk_bit_width n).
(** src/bitwidth.rs 39-41. *)
Definition bw_w8 : outcome bit_width := let! n := unwrap_opt (nonzero_new 8) in Val (mk_bit_width n).
(** src/bitwidth.rs 45-47. *)
Definition bw_w16 : outcome bit_width := let! n := unwrap_opt (nonzero_new 16) in Val (mk_bit_width n).
(** src/bitwidth.rs 51-53. *)
Definition bw_w32 : outcome bit_width := let! n := unwrap_opt (nonzero_new 32) in Val (mk_bit_width n).
(** src/bitwidth.rs 57-59. *)
Definition bw_w64 : outcome bit_width := let! n := unwrap_opt (nonzero_new 64) in Val (mk_bit_width n).
(** src/bitwidth.rs 63-65. *)
Definition bw_w128 : outcome bit_width := let! n := unwrap_opt (nonzero_new 128) in Val (mk_bit_width n).
(** src/bitwidth.rs 72-77. *)
Definition bw_new (width : Z) : outcome (result bit_width) :=
  if width =? 0 then Val (Err (InvalidBitWidth 0))
  else let! n := unwrap_opt (nonzero_new width) in Val (Ok (mk_bit_width n)).
(** src/bitwidth.rs 105-109. *)
Definition bw_from (width : Z) : outcome bit_width := let! r := bw_new width in unwrap r.
(** src/bitwidth.rs 116-119. *)
Definition bw_to_usize (w : bit_width) : Z := nz_get (bw_field w).
(** Derived [Ord], src/bitwidth.rs 20. *)
Definition bw_cmp (a b : bit_width) : comparison := Z.compare (nz_get (bw_field a)) (nz_get (bw_field b)).
(** Derived [PartialEq], src/bitwidth.rs 20. *)
Definition bw_eq (a b : bit_width) : bool := Z.eqb (nz_get (bw_field a)) (nz_get (bw_field b)).

(** src/bitpos.rs 8-9. *)
Record bit_pos := mk_bit_pos { bp_field : Z }.
(** src/bitpos.rs 29-31. *)
Definition bp_new (pos : Z) : result bit_pos := Ok (mk_bit_pos pos).
(** src/bitpos.rs 52-57. *)
Definition bp_from (pos : Z) : bit_pos := mk_bit_pos pos.
(** src/bitpos.rs 18-20. *)
Definition bp_to_usize (p : bit_pos) : Z := bp_field p.
(** Derived [Ord], src/bitpos.rs 8. *)
Definition bp_cmp (a b : bit_pos) : comparison := Z.compare (bp_field a) (bp_field b).
(** Derived [PartialEq], src/bitpos.rs 8. *)
Definition bp_eq (a b : bit_pos) : bool := Z.eqb (bp_field a) (bp_field b).

(** src/apint/shift.rs 16-17. *)
Record shift_amount := mk_shift_amount { sa_field : Z }.
(** src/apint/shift.rs 58-64. *)
Definition sa_from (val : Z) : shift_amount := mk_shift_amount val.
(** src/apint/shift.rs 22-24. *)
Definition sa_to_usize (s : shift_amount) : Z := sa_field s.
(** Derived [Ord], src/apint/shift.rs 16. *)
Definition sa_cmp (a b : shift_amount) : comparison := Z.compare (sa_field a) (sa_field b).
(** Derived [PartialEq], src/apint/shift.rs 16. *)
Definition sa_eq (a b : shift_amount) : bool := Z.eqb (sa_field a) (sa_field b).

(** src/radix.rs 21-22. *)
Record radix_type := mk_radix { r_field : Z }.
(** src/radix.rs 38-43. *)
Definition r_new (radix : Z) : result radix_type :=
  if negb ((2 <=? radix) && (radix <=? 36)) then Err (InvalidRadix radix) else Ok (mk_radix radix).
(** src/radix.rs 177-179. *)
Definition r_from (radix : Z) : outcome radix_type := unwrap (r_new radix).
(** src/radix.rs 47-49. *)
Definition r_to_u8 (r : radix_type) : Z := r_field r.
(** Derived [PartialEq], src/radix.rs 21. *)
Definition r_eq (a b : radix_type) : bool := Z.eqb (r_field a) (r_field b).
