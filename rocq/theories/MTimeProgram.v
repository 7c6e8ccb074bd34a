(** How long programs of public calls take.

    MMachine.v with its steps counted: each call costs one step, and what the
    definitions of MTime.v, MTimeLinear.v and MTimeText.v count, which is one
    step for each digit and each character of the text of an error.  The errors
    are those of MMachine.v, without their texts, but the texts are paid for.
    Reading one or two digits costs a step for each.  That the results are those
    of MMachine.v is part of C101.  No proofs in this file. *)
From Verif Require Export MTimeText MMachine.
Open Scope Z_scope.

(** A client of src/lib.rs looks at the kind of an error, src/errors.rs 126-154. *)
Definition c_kind {A : Type} (m : clocked (eresult A)) : clocked (result A) :=
  let~ r := m in cval (match r with EOk a => Ok a | EErr e => Err (e_kind e) end).
(** The same for methods in place.  src/errors.rs 126-154. *)
Definition c_kind_mut {S : Type} (m : clocked (S * eresult unit)) : clocked (S * result unit) :=
  let~ (s, r) := m in cval (s, match r with EOk u => Ok u | EErr e => Err (e_kind e) end).
(** Errors without annotations.  E.g. src/apint/shift.rs 13-24. *)
Definition c_told {A : Type} (m : clocked (result A)) : clocked (result A) := c_kind (c_plain m).
(** The same for methods in place.  E.g. src/apint/shift.rs 13-24. *)
Definition c_told_mut {S : Type} (m : clocked (S * result unit)) : clocked (S * result unit) := c_kind_mut (c_plain_mut m).

(** * Definitions not yet counted *)

(** Reversing the array, then one pass.  src/apint/constructors.rs 385-394. *)
Definition c_from_u64_array (vals : list Z) : clocked apint :=
  let~ _ := cpay (length vals) in
  let buffer := rev vals in
  if Nat.eqb (length buffer) (length vals)
  then let~ r := c_from_iter buffer in clift (unwrap r)
  else clift Panic.
(** One more pass to reinterpret the bits.  src/apint/constructors.rs 377-383. *)
Definition c_from_i64_array (vals : list Z) : clocked apint :=
  let~ _ := cpay (length vals) in c_from_u64_array (map i64_as_u64 vals).
(** src/apint/constructors.rs 149-153. *)
Definition c_from_u128 (v : Z) : clocked apint :=
  let hi := Z.shiftr v 64 mod B in
  let lo := Z.land v (Z.shiftl 1 64 - 1) mod B in
  c_from_u64_array [hi; lo].
(** src/apint/constructors.rs 144-146. *)
Definition c_from_i128 (v : Z) : clocked apint := c_from_u128 (v mod BB).
(** One digit is written.  src/apint/constructors.rs 52-58. *)
Definition c_inl (m : outcome apint) : clocked apint := let~ _ := cpay 1 in clift m.
(** src/apint/constructors.rs 246-248. *)
Definition c_zero (w : Z) : clocked apint := c_repeat_digit w ZERO.
(** src/apint/constructors.rs 251-253. *)
Definition c_one (w : Z) : clocked apint := let~ a := c_inl (from_u64 1) in c_zero_resize a w.
(** src/apint/constructors.rs 263-265. *)
Definition c_all_set (w : Z) : clocked apint := c_repeat_digit w ONES.
(** src/apint/bitwise.rs 211-217. *)
Definition c_set_msb (a : apint) : clocked apint := c_expect_mut (c_set_bit_at a (msb_pos (width a))).
(** src/apint/bitwise.rs 220-226. *)
Definition c_unset_msb (a : apint) : clocked apint := c_expect_mut (c_unset_bit_at a (msb_pos (width a))).
(** src/apint/bitwise.rs 236-242. *)
Definition c_flip_msb (a : apint) : clocked apint := c_expect_mut (c_flip_bit_at a (msb_pos (width a))).
(** src/apint/constructors.rs 281-285. *)
Definition c_signed_min_value (w : Z) : clocked apint := let~ a := c_zero w in c_set_msb a.
(** src/apint/constructors.rs 289-293. *)
Definition c_signed_max_value (w : Z) : clocked apint := let~ a := c_all_set w in c_unset_msb a.
(** The length of the texts of an error.  src/errors.rs 126-154. *)
Definition text_length (e : error) : nat :=
  (length (e_message e) + match e_annotation e with None => 0 | Some t => length t end)%nat.
(** The passes over the text are those of [c_from_str_radix]; if it is refused,
    the texts of the error are written.  src/apint/serialization.rs 143-202. *)
Definition c_explained_from_str_radix (radix : Z) (input : list Z) : clocked (eresult apint) :=
  let~ r := c_from_str_radix radix input in
  match r with
  | Ok a => cval (EOk a)
  | Err _ =>
      let~ r := clift (explained_from_str_radix radix input) in
      match r with
      | EOk a => cval (EOk a)
      | EErr e => let~ _ := cpay (text_length e) in cval (EErr e)
      end
  end.
(** src/radix.rs 175-180, src/apint/serialization.rs 143-202. *)
Definition c_from_str_radix_u8 (radix : Z) (input : list Z) : clocked (result apint) :=
  let~ r := clift (radix_from radix) in c_kind (c_explained_from_str_radix r input).
(** Passes over the digits.  src/apint/casting.rs 39-77. *)
Definition c_assign (a rhs : apint) : clocked apint :=
  let~ _ := cpay (length (digits rhs)) in clift (assign a rhs).
(** Passes over the digits.  src/apint/utils.rs 402-412. *)
Definition c_is_one (a : apint) : clocked bool := let~ _ := cpay (length (digits a)) in clift (is_one a).
(** Passes over the digits.  src/apint/bitwise.rs 183-191. *)
Definition c_is_all_set (a : apint) : clocked bool := let~ _ := cpay (length (digits a)) in clift (is_all_set a).

(** * Calls *)

(** A client of src/lib.rs: [BitWidth::new(w)?] (src/bitwidth.rs 73-78), then the call. *)
Definition c_sized {A : Type} (w : Z) (k : Z -> clocked (result A)) : clocked (result A) :=
  match bitwidth_new w with Ok w => k w | Err e => c_told (cval (Err e)) end.
(** A client of src/lib.rs: [x.op(BitWidth::new(w)?)] (src/bitwidth.rs 73-78). *)
Definition c_sized_mut (a : apint) (w : Z) (k : Z -> clocked (apint * result unit)) : clocked (apint * result unit) :=
  match bitwidth_new w with Ok w => k w | Err e => c_told_mut (cval (a, Err e)) end.
(** A client of src/lib.rs: a constructor that cannot fail (src/apint/constructors.rs). *)
Definition c_total (m : clocked apint) : clocked (result apint) := let~ a := m in cval (Ok a).
(** A client of src/lib.rs: a method in place that cannot fail (src/apint/casting.rs 443-490). *)
Definition c_total_mut (m : clocked apint) : clocked (apint * result unit) := let~ a := m in cval (a, Ok tt).

(** src/apint/constructors.rs, src/apint/serialization.rs [from_str_radix]. *)
Definition t_new (n : newop) : clocked (result apint) :=
  match n with
  | NBool b => c_total (c_inl (from_bool b))
  | NU8 v => c_total (c_inl (from_u8 v)) | NU16 v => c_total (c_inl (from_u16 v)) | NU32 v => c_total (c_inl (from_u32 v))
  | NU64 v => c_total (c_inl (from_u64 v)) | NU128 v => c_total (c_from_u128 v)
  | NI8 v => c_total (c_inl (from_i8 v)) | NI16 v => c_total (c_inl (from_i16 v)) | NI32 v => c_total (c_inl (from_i32 v))
  | NI64 v => c_total (c_inl (from_i64 v)) | NI128 v => c_total (c_from_i128 v)
  | NU64s vs => c_total (c_from_u64_array vs) | NI64s vs => c_total (c_from_i64_array vs)
  | NZero w => c_sized w (fun w => c_total (c_zero w)) | NOne w => c_sized w (fun w => c_total (c_one w))
  | NAllSet w => c_sized w (fun w => c_total (c_all_set w))
  | NUMin w => c_sized w (fun w => c_total (c_zero w))
  | NUMax w => c_sized w (fun w => c_total (c_all_set w))
  | NSMin w => c_sized w (fun w => c_total (c_signed_min_value w))
  | NSMax w => c_sized w (fun w => c_total (c_signed_max_value w))
  | NParse r s => c_from_str_radix_u8 r s
  end.
(** src/apint/{bitwise,arithmetic,shift,casting}.rs, assigning forms. *)
Definition t_mut (m : mutop) (a : apint) : clocked (apint * result unit) :=
  match m with
  | MNot => c_total_mut (c_bitnot a) | MNeg => c_total_mut (c_wrapping_neg a)
  | MInc => c_total_mut (c_wrapping_inc a) | MDec => c_total_mut (c_wrapping_dec a)
  | MShl s => c_told_mut (c_wrapping_shl_assign a s) | MLshr s => c_told_mut (c_wrapping_lshr_assign a s)
  | MAshr s => c_told_mut (c_wrapping_ashr_assign a s)
  | MTruncate t => c_sized_mut a t (fun t => c_kind_mut (c_explained_truncate a t))
  | MZeroExtend t => c_sized_mut a t (fun t => c_kind_mut (c_explained_zero_extend a t))
  | MSignExtend t => c_sized_mut a t (fun t => c_kind_mut (c_explained_sign_extend a t))
  | MZeroResize t => c_sized_mut a t (fun t => c_total_mut (c_zero_resize a t))
  | MSignResize t => c_sized_mut a t (fun t => c_total_mut (c_sign_resize a t))
  end.
(** The consuming form works in place and drops the state on an error.  src/utils.rs 6-37. *)
Definition c_forward (m : clocked (apint * result unit)) : clocked (result apint) :=
  let~ (this, r) := m in match r with Ok _ => cval (Ok this) | Err e => cval (Err e) end.
(** src/apint/bitwise.rs. *)
Definition t_put (m : setop) (a : apint) : clocked (apint * result unit) :=
  match m with
  | SSetAll => c_total_mut (c_set_all a) | SUnsetAll => c_total_mut (c_unset_all a) | SFlipAll => c_total_mut (c_flip_all a)
  | SSetMsb => c_total_mut (c_set_msb a) | SUnsetMsb => c_total_mut (c_unset_msb a) | SFlipMsb => c_total_mut (c_flip_msb a)
  | SSetBit p => c_told_mut (c_set_bit_at a p) | SUnsetBit p => c_told_mut (c_unset_bit_at a p)
  | SFlipBit p => c_told_mut (c_flip_bit_at a p)
  end.
(** src/apint/{arithmetic,bitwise}.rs. *)
Definition t_bin (o : binop) (a b : apint) : clocked (apint * result unit) :=
  c_told_mut
    match o with
    | BAdd => c_wrapping_add_assign a b | BSub => c_wrapping_sub_assign a b | BMul => c_wrapping_mul_assign a b
    | BUdiv => c_wrapping_udiv_assign a b | BUrem => c_wrapping_urem_assign a b
    | BSdiv => c_wrapping_sdiv_assign a b | BSrem => c_wrapping_srem_assign a b
    | BAnd => c_bitand_assign a b | BOr => c_bitor_assign a b | BXor => c_bitxor_assign a b
    end.
(** src/apint/arithmetic.rs 1548-1747. *)
Definition t_pair (o : pairop) (a b : apint) : clocked (apint * apint * result unit) :=
  c_told_mut
    match o with
    | PUDivRem => c_wrapping_udivrem_assign a b | PURemDiv => c_wrapping_uremdiv_assign a b
    | PSDivRem => c_wrapping_sdivrem_assign a b | PSRemDiv => c_wrapping_sremdiv_assign a b
    end.
(** src/apint/relational.rs. *)
Definition t_cmp (o : cmpop) (a b : apint) : clocked (result bool) :=
  c_kind
    match o with
    | CUlt => c_explained_ult a b | CUle => c_explained_ule a b | CUgt => c_explained_ugt a b | CUge => c_explained_uge a b
    | CSlt => c_explained_slt a b | CSle => c_explained_sle a b | CSgt => c_explained_sgt a b | CSge => c_explained_sge a b
    end.

(** How results are shown.  A client of src/lib.rs: a returned [bool]. *)
Definition c_obs_bool (m : clocked bool) : clocked obs := let~ b := m in cval (OBool b).
(** A client of src/lib.rs: a returned number. *)
Definition c_obs_int (m : clocked Z) : clocked obs := let~ z := m in cval (OInt z).
(** A client of src/lib.rs: a written string. *)
Definition c_obs_string (m : clocked (list Z)) : clocked obs := let~ z := m in cval (OString z).
(** A client of src/lib.rs: a returned [Result<bool>]. *)
Definition c_obs_rbool (m : clocked (result bool)) : clocked obs :=
  let~ r := m in cval (match r with Ok b => OBool b | Err e => OFail (observe e) end).
(** A client of src/lib.rs: a returned [Result] of a number. *)
Definition c_obs_rint (m : clocked (result Z)) : clocked obs :=
  let~ r := m in cval (match r with Ok z => OInt z | Err e => OFail (observe e) end).
(** src/apint/to_primitive.rs 353-576. *)
Definition t_try (ty : prim_ty) (a : apint) : clocked obs :=
  match ty with
  | PBool => c_obs_rbool (c_told (c_try_to_bool a))
  | PI8 => c_obs_rint (c_told (c_try_to_i8 a)) | PU8 => c_obs_rint (c_told (c_try_to_u8 a))
  | PI16 => c_obs_rint (c_told (c_try_to_i16 a)) | PU16 => c_obs_rint (c_told (c_try_to_u16 a))
  | PI32 => c_obs_rint (c_told (c_try_to_i32 a)) | PU32 => c_obs_rint (c_told (c_try_to_u32 a))
  | PI64 => c_obs_rint (c_told (c_try_to_i64 a)) | PU64 => c_obs_rint (c_told (c_try_to_u64 a))
  | PI128 => c_obs_rint (c_told (c_try_to_i128 a)) | PU128 => c_obs_rint (c_told (c_try_to_u128 a))
  end.
(** src/apint/{utils,bitwise,to_primitive,serialization}.rs: methods on [&self].
    Parity and the conversions that wrap read the lowest digits only. *)
Definition t_ask (q : query) (a : apint) : clocked obs :=
  match q with
  | QWidth => cval (OInt (width a))
  | QIsZero => c_obs_bool (c_is_zero a) | QIsOne => c_obs_bool (c_is_one a)
  | QIsEven => let~ _ := cpay 1 in clift (obs_bool (is_even a)) | QIsOdd => let~ _ := cpay 1 in clift (obs_bool (is_odd a))
  | QIsAllSet => c_obs_bool (c_is_all_set a) | QIsAllUnset => c_obs_bool (c_is_zero a)
  | QMsb => c_obs_bool (c_msb a) | QLsb => let~ _ := cpay 1 in clift (obs_bool (lsb a))
  | QCountOnes => c_obs_int (c_count_ones a) | QCountZeros => c_obs_int (c_count_zeros a)
  | QLeadingZeros => c_obs_int (c_leading_zeros a) | QTrailingZeros => c_obs_int (c_trailing_zeros a)
  | QBit p => c_obs_rbool (c_told (c_get_bit_at a p))
  | QResizeTo ty => let~ _ := cpay 2 in clift (cresize ty a)
  | QTryTo ty => t_try ty a
  | QBinary => c_obs_string (c_fmt_binary a)
  | QLowerHex => c_obs_string (c_fmt_lower_hex a)
  | QUpperHex => c_obs_string (c_fmt_upper_hex a)
  end.

(** * Programs *)

(** A client of src/lib.rs: [let x = ..], if the call succeeds. *)
Definition t_create (s : vars) (m : clocked (result apint)) : clocked (vars * obs) :=
  let~ r := m in cval (match r with Ok a => (s ++ [Some a], ODone) | Err e => (s, OFail (observe e)) end).
(** A client of src/lib.rs: [x.op(..)]. *)
Definition t_change (s : vars) (x : nat) (m : clocked (apint * result unit)) : clocked (vars * obs) :=
  let~ (a, r) := m in cval (update x (Some a) s, done r).
(** A client of src/lib.rs: the compiler rejects a moved variable. *)
Definition t_get1 (s : vars) (x : nat) (k : apint -> clocked (vars * obs)) : clocked (vars * obs) :=
  match nth_error s x with Some (Some a) => k a | _ => cval (s, ORejected) end.
(** A client of src/lib.rs: the same for two operands. *)
Definition t_get2 (s : vars) (x y : nat) (k : apint -> apint -> clocked (vars * obs)) : clocked (vars * obs) :=
  t_get1 s x (fun a => t_get1 s y (fun b => k a b)).
(** A client of src/lib.rs: one call. *)
Definition t_call (s : vars) (c : cmd) : clocked (vars * obs) :=
  match c with
  | New n => t_create s (t_new n)
  | Clone x => t_get1 s x (fun a => t_create s (c_total (c_clone a)))
  | Mut m x => t_get1 s x (fun a => t_change s x (t_mut m a))
  | Drop x => t_get1 s x (fun a => cval (update x None s, ODone))
  | Into m x => t_get1 s x (fun a => t_create (update x None s) (c_forward (t_mut m a)))
  | Put m x => t_get1 s x (fun a => t_change s x (t_put m a))
  | Bin o x y =>
      if Nat.eqb x y then cval (s, ORejected) else t_get2 s x y (fun a b => t_change s x (t_bin o a b))
  | IntoBin o x y =>
      if Nat.eqb x y then cval (s, ORejected)
      else t_get2 s x y (fun a b => t_create (update x None s) (c_forward (t_bin o a b)))
  | Pair o x y =>
      if Nat.eqb x y then cval (s, ORejected)
      else t_get2 s x y (fun a b =>
        let~ (a', b', r) := t_pair o a b in cval (update y (Some b') (update x (Some a') s), done r))
  | Assign x y =>
      if Nat.eqb x y then cval (s, ORejected)
      else t_get2 s x y (fun a b => let~ c := c_assign a b in cval (update x (Some c) s, ODone))
  | StrictAssign x y =>
      if Nat.eqb x y then cval (s, ORejected)
      else t_get2 s x y (fun a b => t_change s x (c_kind_mut (c_explained_strict_assign a b)))
  | Cmp o x y => t_get2 s x y (fun a b => let~ o := c_obs_rbool (t_cmp o a b) in cval (s, o))
  | Equal x y => t_get2 s x y (fun a b => let~ e := c_apint_eqb a b in cval (s, OBool e))
  | Ask q x => t_get1 s x (fun a => let~ o := t_ask q a in cval (s, o))
  end.
(** A client of src/lib.rs: one call, which costs one step of its own. *)
Definition t_step (s : vars) (c : cmd) : clocked (vars * obs) := let~ _ := cpay 1 in t_call s c.
(** A client of src/lib.rs: one call after the other. *)
Fixpoint t_run (s : vars) (p : list cmd) : clocked (vars * list obs) :=
  match p with
  | [] => cval (s, [])
  | c :: p => let~ (s, o) := t_step s c in let~ (s, os) := t_run s p in cval (s, o :: os)
  end.
