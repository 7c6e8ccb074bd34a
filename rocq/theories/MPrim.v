(** Model of src/apint/to_primitive.rs.  No proofs in this file. *)
From Verif Require Export MCasting.

(** [x as iN] for an integer [x]: the low [n] bits, read as two's complement
    (Rust reference, numeric casts).  src/apint/to_primitive.rs 161-232. *)
Definition as_int (n x : Z) : Z :=
  let m := x mod 2 ^ n in if m <? 2 ^ (n - 1) then m else m - 2 ^ n.
(** [x as uN].  src/apint/to_primitive.rs 171-242. *)
Definition as_uint (n x : Z) : Z := x mod 2 ^ n.

(** [i128]: [<<] drops the bits shifted out and checks the amount, [+] and [-]
    check overflow in debug builds.  src/apint/to_primitive.rs 253-274. *)
Definition i128_shl (x s : Z) : outcome Z :=
  if s <? 128 then Val (as_int 128 (Z.shiftl x s)) else Trap.
(** src/apint/to_primitive.rs 253-274: the range of [i128]. *)
Definition i128_check (z : Z) : outcome Z :=
  if (- 2 ^ 127 <=? z) && (z <? 2 ^ 127) then Val z else Trap.
(** src/apint/to_primitive.rs 253-274. *)
Definition i128_add (x y : Z) : outcome Z := i128_check (x + y).
(** src/apint/to_primitive.rs 253-274. *)
Definition i128_sub (x y : Z) : outcome Z := i128_check (x - y).
(** [u128]: likewise.  src/apint/to_primitive.rs 282-288. *)
Definition u128_shl (x s : Z) : outcome Z :=
  if s <? 128 then Val (Z.shiftl x s mod BB) else Trap.
(** src/apint/to_primitive.rs 282-288. *)
Definition u128_add (x y : Z) : outcome Z := if x + y <? BB then Val (x + y) else Trap.

(** to_primitive.rs 43-52. *)
Definition is_valid_repr (ty : prim_ty) (value : Z) : bool :=
  match ty with
  | PBool => (value =? 0) || (value =? 1)
  | PI8 | PU8 => value <? Z.shiftl 1 8
  | PI16 | PU16 => value <? Z.shiftl 1 16
  | PI32 | PU32 => value <? Z.shiftl 1 32
  | PI64 | PU64 | PI128 | PU128 => true
  end.

(** to_primitive.rs 82-85. *)
Definition is_signed (ty : prim_ty) : bool :=
  match ty with PI8 | PI16 | PI32 | PI64 | PI128 => true | _ => false end.

(** to_primitive.rs 94-104. *)
Definition associated_width (ty : prim_ty) : Z :=
  match ty with
  | PBool => 1
  | PI8 | PU8 => 8
  | PI16 | PU16 => 16
  | PI32 | PU32 => 32
  | PI64 | PU64 => 64
  | PI128 | PU128 => 128
  end.

(** [debug_assert_ne!(prim_ty, U128)], [debug_assert_ne!(prim_ty, I128)].
    src/apint/to_primitive.rs 117-118. *)
Definition is_128 (ty : prim_ty) : bool := match ty with PI128 | PU128 => true | _ => false end.

(** to_primitive.rs 117-137. *)
Definition resize_to_primitive_ty (a : apint) (ty : prim_ty) : outcome Z :=
  if is_128 ty then Trap else
  let! lsd := least_significant_digit a in
  let actual_width := width a in
  let target_width := associated_width ty in
  let! lsd :=
    if is_signed ty && (actual_width <? target_width)
    then let! r := d_sign_extend_from lsd actual_width in unwrap r
    else Val lsd in
  if target_width <? 64
  then let! r := d_truncate_to lsd target_width in unwrap r
  else Val lsd.

(** to_primitive.rs 148-150. *)
Definition resize_to_bool (a : apint) : outcome bool := lsb a.
(** to_primitive.rs 161-163, 171-173, 184-186, 194-196, 207-209, 217-219,
    230-232, 240-242. *)
Definition resize_to_i8 (a : apint) : outcome Z := let! d := resize_to_primitive_ty a PI8 in Val (as_int 8 d).
(** src/apint/to_primitive.rs 171-173. *)
Definition resize_to_u8 (a : apint) : outcome Z := let! d := resize_to_primitive_ty a PU8 in Val (as_uint 8 d).
(** src/apint/to_primitive.rs 184-186. *)
Definition resize_to_i16 (a : apint) : outcome Z := let! d := resize_to_primitive_ty a PI16 in Val (as_int 16 d).
(** src/apint/to_primitive.rs 194-196. *)
Definition resize_to_u16 (a : apint) : outcome Z := let! d := resize_to_primitive_ty a PU16 in Val (as_uint 16 d).
(** src/apint/to_primitive.rs 207-209. *)
Definition resize_to_i32 (a : apint) : outcome Z := let! d := resize_to_primitive_ty a PI32 in Val (as_int 32 d).
(** src/apint/to_primitive.rs 217-219. *)
Definition resize_to_u32 (a : apint) : outcome Z := let! d := resize_to_primitive_ty a PU32 in Val (as_uint 32 d).
(** src/apint/to_primitive.rs 230-232. *)
Definition resize_to_i64 (a : apint) : outcome Z := let! d := resize_to_primitive_ty a PI64 in Val (as_int 64 d).
(** src/apint/to_primitive.rs 240-242. *)
Definition resize_to_u64 (a : apint) : outcome Z := let! d := resize_to_primitive_ty a PU64 in Val (as_uint 64 d).

(** [rest.split_first().unwrap_or((&Digit(0), &[]))], to_primitive.rs 255. *)
Definition split_first_or_zero (rest : list Z) : Z * list Z :=
  match rest with [] => (0, []) | d :: r => (d, r) end.
(** [rest.iter().any(|d| d.repr() != 0)], to_primitive.rs 313. *)
Definition any_nonzero (rest : list Z) : bool := existsb (fun d => negb (d =? 0)) rest.

(** to_primitive.rs 253-274. *)
Definition resize_to_i128 (a : apint) : outcome Z :=
  let! (lsd_0, rest) := split_least_significant_digit a in
  let '(lsd_1, _) := split_first_or_zero rest in
  let! hi := i128_shl lsd_1 64 in
  let! result := i128_add hi lsd_0 in
  let actual_width := width a in
  let target_width := 128 in
  if actual_width <? target_width then
    let b := actual_width in
    let! b1 := usize_sub b 1 in
    let! m := i128_shl 1 b1 in
    i128_sub (Z.lxor result m) m
  else Val result.

(** to_primitive.rs 282-288. *)
Definition resize_to_u128 (a : apint) : outcome Z :=
  let! (lsd_0, rest) := split_least_significant_digit a in
  let '(lsd_1, _) := split_first_or_zero rest in
  let! hi := u128_shl lsd_1 64 in
  u128_add hi lsd_0.

(** [Error::encountered_unrepresentable_value(self.clone(), ty).into()],
    src/errors.rs 350-367. *)
Definition unrepresentable {A : Type} (a : apint) (ty : prim_ty) : outcome (result A) :=
  let! c := clone a in Val (Err (ValueUnrepresentable c ty)).

(** to_primitive.rs 308-339. *)
Definition try_cast_to_primitive_ty (a : apint) (ty : prim_ty) : outcome (result Z) :=
  if is_128 ty then Trap else
  let! (lsd, rest) := split_least_significant_digit a in
  if negb (is_valid_repr ty lsd) || any_nonzero rest then unrepresentable a ty
  else if is_signed ty then
    let actual_width := width a in
    let target_width := associated_width ty in
    if actual_width <? target_width then
      let! r := d_sign_extend_from lsd actual_width in
      let! lsd := unwrap r in
      if target_width <? 64
      then let! r := d_truncate_to lsd target_width in let! d := unwrap r in Val (Ok d)
      else Val (Ok lsd)
    else Val (Ok lsd)
  else Val (Ok lsd).

(** to_primitive.rs 353-359. *)
Definition try_to_bool (a : apint) : outcome (result bool) :=
  let? d := try_cast_to_primitive_ty a PBool in
  if d =? 0 then Val (Ok false) else if d =? 1 then Val (Ok true) else Panic.

(** [self.try_cast_to_primitive_ty(ty).map(f)].  src/apint/to_primitive.rs 375-499. *)
Definition try_cast_map (a : apint) (ty : prim_ty) (f : Z -> Z) : outcome (result Z) :=
  let! r := try_cast_to_primitive_ty a ty in Val (map_result f r).

(** to_primitive.rs 375-378, 391-394, 410-413, 426-429, 445-448, 461-464,
    480-483 and 496-499. *)
Definition try_to_i8 (a : apint) : outcome (result Z) := try_cast_map a PI8 (as_int 8).
(** src/apint/to_primitive.rs 391-394. *)
Definition try_to_u8 (a : apint) : outcome (result Z) := try_cast_map a PU8 (as_uint 8).
(** src/apint/to_primitive.rs 410-413. *)
Definition try_to_i16 (a : apint) : outcome (result Z) := try_cast_map a PI16 (as_int 16).
(** src/apint/to_primitive.rs 426-429. *)
Definition try_to_u16 (a : apint) : outcome (result Z) := try_cast_map a PU16 (as_uint 16).
(** src/apint/to_primitive.rs 445-448. *)
Definition try_to_i32 (a : apint) : outcome (result Z) := try_cast_map a PI32 (as_int 32).
(** src/apint/to_primitive.rs 461-464. *)
Definition try_to_u32 (a : apint) : outcome (result Z) := try_cast_map a PU32 (as_uint 32).
(** src/apint/to_primitive.rs 480-483. *)
Definition try_to_i64 (a : apint) : outcome (result Z) := try_cast_map a PI64 (as_int 64).
(** src/apint/to_primitive.rs 496-499. *)
Definition try_to_u64 (a : apint) : outcome (result Z) := try_cast_map a PU64 (as_uint 64).

(** to_primitive.rs 515-543; [wrapping_sub] wraps. *)
Definition try_to_i128 (a : apint) : outcome (result Z) :=
  let! (lsd_0, rest) := split_least_significant_digit a in
  let '(lsd_1, rest) := split_first_or_zero rest in
  if any_nonzero rest then unrepresentable a PI128
  else
    let! hi := i128_shl lsd_1 64 in
    let! result := i128_add hi lsd_0 in
    let actual_width := width a in
    let target_width := 128 in
    if actual_width <? target_width then
      let b := actual_width in
      let! b1 := usize_sub b 1 in
      let! m := i128_shl 1 b1 in
      Val (Ok (as_int 128 (Z.lxor result m - m)))
    else Val (Ok result).

(** to_primitive.rs 560-573. *)
Definition try_to_u128 (a : apint) : outcome (result Z) :=
  let! (lsd_0, rest) := split_least_significant_digit a in
  let '(lsd_1, rest) := split_first_or_zero rest in
  if any_nonzero rest then unrepresentable a PU128
  else
    let! hi := u128_shl lsd_1 64 in
    let! result := u128_add hi lsd_0 in
    Val (Ok result).
