(** Model of src/digit.rs and src/checks.rs.  No proofs in this file. *)
From Verif Require Export MBase.

(** * src/checks.rs *)

(** src/checks.rs 4-15 with [BitWidth::is_valid_pos] (src/bitwidth.rs 81-86). *)
Definition verify_bit_access (width pos : Z) : result unit :=
  if pos <? width then Ok tt else Err (InvalidBitAccess pos width).

(** src/checks.rs 18-29 with [BitWidth::is_valid_shift_amount]
    (src/bitwidth.rs 90-95). *)
Definition verify_shift_amount (width shift_amount : Z) : result unit :=
  if shift_amount <? width then Ok tt else Err (InvalidShiftAmount shift_amount width).

(** * Constants, src/digit.rs 30-43. *)
(** src/digit.rs 42. *)
Definition ZERO : Z := 0.
(** src/digit.rs 38. *)
Definition ONE : Z := 1.
(** src/digit.rs 40. *)
Definition ONES : Z := 18446744073709551615.

(** * [DoubleDigit] *)

(** src/digit.rs 104-111 ([Shl]); 113-120 ([Shr]): assert then wrap. *)
Definition dd_shl (x : Z) (s : Z) : outcome Z :=
  if s <? 128 then Val (Z.shiftl x s mod BB) else Panic.
(** src/digit.rs 113-120. *)
Definition dd_shr (x : Z) (s : Z) : outcome Z :=
  if s <? 128 then Val (Z.shiftr x s) else Panic.
(** src/digit.rs 88-94 ([BitOr]). *)
Definition dd_or (x y : Z) : Z := Z.lor x y.
(** src/digit.rs 130-136 ([Add]), 199-201 ([wrapping_add]). *)
Definition dd_wadd (x y : Z) : Z := (x + y) mod BB.
(** src/digit.rs 138-144 ([Sub]). *)
Definition dd_wsub (x y : Z) : Z := (x - y) mod BB.
(** src/digit.rs 146-152 ([Mul]), 203-205 ([wrapping_mul]). *)
Definition dd_wmul (x y : Z) : Z := (x * y) mod BB.
(** src/digit.rs 177-179 and 182-184. *)
Definition dd_hi (x : Z) : Z := Z.shiftr x 64 mod B.
(** src/digit.rs 182-184. *)
Definition dd_lo (x : Z) : Z := x mod B.
(** src/digit.rs 192-197. *)
Definition dd_from_lo_hi (lo hi : Z) : Z := Z.lor lo (Z.shiftl hi 64 mod BB).
(** src/digit.rs 207-219: [wrapping_div] / [wrapping_rem] of [u128] panic on a
    zero divisor and are ordinary division otherwise. *)
Definition dd_wdivrem (x y : Z) : outcome (Z * Z) :=
  if y =? 0 then Panic else Val (x / y, x mod y).
(** src/digit.rs 207-209. *)
Definition dd_wdiv (x y : Z) : outcome Z :=
  let! (q, _) := dd_wdivrem x y in Val q.

(** * [Digit] arithmetic *)

(** src/digit.rs 236-238: zero extension to [u128]. *)
Definition dd (x : Z) : Z := x.
(** src/digit.rs 240-242. *)
Definition d_leading_zeros (x : Z) : Z := u64_leading_zeros x.
(** src/digit.rs 244-246. *)
Definition d_wrapping_add (x y : Z) : Z := u64_wadd x y.
(** src/digit.rs 248-254. *)
Definition d_carrying_add (x y : Z) : Z * Z :=
  match u64_oadd x y with
  | (z, false) => (z, ZERO)
  | (z, true) => (z, ONE)
  end.
(** src/digit.rs 256-261 and 263-268. *)
Definition d_overflowing_add (x y : Z) : Z * bool := u64_oadd x y.
(** src/digit.rs 263-268. *)
Definition d_overflowing_sub (x y : Z) : Z * bool := u64_osub x y.
(** src/digit.rs 270-276. *)
Definition d_wrapping_sub (x y : Z) : Z := u64_wsub x y.
(** src/digit.rs 274-276. *)
Definition d_wrapping_mul (x y : Z) : Z := u64_wmul x y.
(** src/digit.rs 280-283: (lo, hi). *)
Definition d_carrying_mul (x y : Z) : Z * Z :=
  let t := dd_wmul (dd x) (dd y) in (dd_lo t, dd_hi t).
(** src/digit.rs 285-291. *)
Definition d_wrapping_mul_add (x mul add : Z) : Z := u64_wadd (u64_wmul x mul) add.
(** src/digit.rs 293-300: (lo, hi). *)
Definition d_carrying_mul_add (x mul add : Z) : Z * Z :=
  let t := dd_wadd (dd_wmul (dd x) (dd mul)) (dd add) in (dd_lo t, dd_hi t).
(** src/digit.rs 302-312. *)
Definition d_wrapping_div (x y : Z) : outcome Z :=
  if y =? 0 then Panic else Val (x / y).
(** src/digit.rs 310-312. *)
Definition d_wrapping_rem (x y : Z) : outcome Z :=
  if y =? 0 then Panic else Val (x mod y).
(** src/digit.rs 302-304. *)
Definition d_wrapping_divrem (x y : Z) : outcome (Z * Z) :=
  let! q := d_wrapping_div x y in
  let! r := d_wrapping_rem x y in
  Val (q, r).

(** * Width-related helpers *)

(** src/digit.rs 318-330. *)
Definition d_verify_valid_bitwidth (width : Z) : result unit :=
  if 64 <? width then Err (InvalidBitWidth width) else Ok tt.

(** src/digit.rs 344-352: the new digit.  The primitive [<<] panics (debug) or
    wraps (release) for [to = 64]. *)
Definition d_truncate_to (x to : Z) : outcome (result Z) :=
  match d_verify_valid_bitwidth to with
  | Err e => Val (Err e)
  | Ok _ =>
      let! m := u64_shl ONES to in
      Val (Ok (Z.land x (u64_not m)))
  end.

(** src/digit.rs 367-383: the new digit. *)
Definition d_sign_extend_from (x0 from : Z) : outcome (result Z) :=
  match d_verify_valid_bitwidth from with
  | Err e => Val (Err e)
  | Ok _ =>
      let b := from in
      let x := u64_as_i64 x0 in
      let! b1 := usize_sub b 1 in
      let! m0 := u64_shl 1 b1 in
      let m := u64_as_i64 m0 in
      let r := i64_wsub (Z.lxor x m) m in
      Val (Ok (i64_as_u64 r))
  end.

(** * Bitwise access *)

(** src/digit.rs 400-402. *)
Definition d_is_zero (x : Z) : bool := x =? ZERO.
(** src/digit.rs 409-411. *)
Definition d_lsb (x : Z) : bool := negb (Z.land x 1 =? 0).
(** src/digit.rs 419-426.  A [Digit] has width 64 (386-390). *)
Definition d_get (x pos : Z) : outcome (result bool) :=
  match verify_bit_access 64 pos with
  | Err e => Val (Err e)
  | Ok _ => let! s := u64_shr x pos in Val (Ok (Z.land s 1 =? 1))
  end.
(** src/digit.rs 434-442: the new digit. *)
Definition d_set (x pos : Z) : outcome (result Z) :=
  match verify_bit_access 64 pos with
  | Err e => Val (Err e)
  | Ok _ => let! m := u64_shl 1 pos in Val (Ok (Z.lor x m))
  end.
(** src/digit.rs 450-458: the new digit. *)
Definition d_unset (x pos : Z) : outcome (result Z) :=
  match verify_bit_access 64 pos with
  | Err e => Val (Err e)
  | Ok _ => let! m := u64_shl 1 pos in Val (Ok (Z.land x (u64_not m)))
  end.
(** src/digit.rs 466-474: the new digit. *)
Definition d_flip (x pos : Z) : outcome (result Z) :=
  match verify_bit_access 64 pos with
  | Err e => Val (Err e)
  | Ok _ => let! m := u64_shl 1 pos in Val (Ok (Z.lxor x m))
  end.
(** src/digit.rs 478-480, 484-486, 490-492: the new digit. *)
Definition d_set_all (x : Z) : Z := Z.lor x ONES.
(** src/digit.rs 484-486. *)
Definition d_unset_all (x : Z) : Z := Z.land x ZERO.
(** src/digit.rs 490-492. *)
Definition d_flip_all (x : Z) : Z := Z.lxor x ONES.
(** src/digit.rs 504-508: the new digit. *)
Definition d_retain_last_n (x n : Z) : outcome (result Z) :=
  match verify_bit_access 64 n with
  | Err e => Val (Err e)
  | Ok _ => let! m := u64_shl ONES n in Val (Ok (Z.land x (u64_not m)))
  end.
(** src/digit.rs 514-516 and 578-584. *)
Definition d_not (x : Z) : Z := u64_not x.
(** src/digit.rs 519-541, 543-560. *)
Definition d_or (x y : Z) : Z := Z.lor x y.
(** src/digit.rs 527-533, 550-554. *)
Definition d_and (x y : Z) : Z := Z.land x y.
(** src/digit.rs 535-541, 556-560. *)
Definition d_xor (x y : Z) : Z := Z.lxor x y.
(** src/digit.rs 562-568 and 570-576: shift amounts wrap modulo 64. *)
Definition d_shl (x s : Z) : Z := u64_wshl x s.
(** src/digit.rs 570-576. *)
Definition d_shr (x s : Z) : Z := u64_wshr x s.
