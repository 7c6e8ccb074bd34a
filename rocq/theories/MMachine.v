(** Running programs of public calls on the model of the code.  No proofs in
    this file.  Each branch is a call of the modelled function of that name;
    there is no code in /repo for the sequencing itself, which is what a client
    program does. *)
From Verif Require Export MPrim MSerial MRelational MDiv MShift MConstructors.
From Verif Require Export Spec SpecStr SpecMachine.

(** src/errors.rs 17-97 seen by a client; the strings of parse errors carry no
    position in any error the code creates. *)
Definition view (a : apint) : Z * Z := (len a, unsigned a).
(** A client of src/lib.rs: the whole error, src/errors.rs 17-97. *)
Definition observe (e : error_kind) : aerror :=
  match e with
  | InvalidRadix r => ERadix r
  | InvalidStringRepr s r None => EString s r
  | InvalidBitAccess p w => EBitAccess p w
  | InvalidShiftAmount s w => EShift s w
  | ValueUnrepresentable v ty => EUnrepresentable (view v) ty
  | UnmatchingBitwidth l r => EWidths l r
  | InvalidBitWidth w => EBitWidth w
  | TruncationBitWidthTooLarge t w => ETruncation t w
  | ExtensionBitWidthTooSmall t w => EExtension t w
  | DivisionByZero op x => EDivisionByZero op (view x)
  | InvalidStringRepr _ _ (Some _) | ExpectedNonEmptyDigits => EOther
  end.

(** [BitWidth::new(w)?] (src/bitwidth.rs), then the call. *)
Definition sized {A : Type} (w : Z) (k : Z -> outcome (result A)) : outcome (result A) :=
  match bitwidth_new w with Ok w => k w | Err e => Val (Err e) end.
(** A client of src/lib.rs: [x.op(BitWidth::new(w)?)] (src/bitwidth.rs 73-78). *)
Definition sized_mut (a : apint) (w : Z) (k : Z -> mut_result) : mut_result :=
  match bitwidth_new w with Ok w => k w | Err e => Val (a, Err e) end.
(** A client of src/lib.rs: a constructor that cannot fail (src/apint/constructors.rs). *)
Definition total (m : outcome apint) : outcome (result apint) := let! a := m in Val (Ok a).
(** A client of src/lib.rs: a method in place that cannot fail (src/apint/casting.rs 443-490). *)
Definition total_mut (m : outcome apint) : mut_result := let! a := m in Val (a, Ok tt).

(** src/apint/constructors.rs, src/apint/serialization.rs [from_str_radix]. *)
Definition cnew (n : newop) : outcome (result apint) :=
  match n with
  | NBool b => total (from_bool b)
  | NU8 v => total (from_u8 v) | NU16 v => total (from_u16 v) | NU32 v => total (from_u32 v)
  | NU64 v => total (from_u64 v) | NU128 v => total (from_u128 v)
  | NI8 v => total (from_i8 v) | NI16 v => total (from_i16 v) | NI32 v => total (from_i32 v)
  | NI64 v => total (from_i64 v) | NI128 v => total (from_i128 v)
  | NU64s vs => total (from_u64_array vs) | NI64s vs => total (from_i64_array vs)
  | NZero w => sized w (fun w => total (zero w)) | NOne w => sized w (fun w => total (one w))
  | NAllSet w => sized w (fun w => total (all_set w))
  | NUMin w => sized w (fun w => total (unsigned_min_value w))
  | NUMax w => sized w (fun w => total (unsigned_max_value w))
  | NSMin w => sized w (fun w => total (signed_min_value w))
  | NSMax w => sized w (fun w => total (signed_max_value w))
  | NParse r s => from_str_radix_u8 r s
  end.

(** src/apint/{bitwise,arithmetic,shift,casting}.rs, assigning forms. *)
Definition cmut (m : mutop) (a : apint) : mut_result :=
  match m with
  | MNot => total_mut (bitnot a) | MNeg => total_mut (wrapping_neg a)
  | MInc => total_mut (wrapping_inc a) | MDec => total_mut (wrapping_dec a)
  | MShl s => wrapping_shl_assign a s | MLshr s => wrapping_lshr_assign a s | MAshr s => wrapping_ashr_assign a s
  | MTruncate t => sized_mut a t (truncate a) | MZeroExtend t => sized_mut a t (zero_extend a)
  | MSignExtend t => sized_mut a t (sign_extend a)
  | MZeroResize t => sized_mut a t (fun t => total_mut (zero_resize a t))
  | MSignResize t => sized_mut a t (fun t => total_mut (sign_resize a t))
  end.
(** The same, consuming forms.  src/utils.rs 6-37. *)
Definition cinto (m : mutop) (a : apint) : outcome (result apint) :=
  match m with
  | MNot => total (into_bitnot a) | MNeg => total (into_wrapping_neg a)
  | MInc => total (into_wrapping_inc a) | MDec => total (into_wrapping_dec a)
  | MShl s => into_wrapping_shl a s | MLshr s => into_wrapping_lshr a s | MAshr s => into_wrapping_ashr a s
  | MTruncate t => sized t (into_truncate a) | MZeroExtend t => sized t (into_zero_extend a)
  | MSignExtend t => sized t (into_sign_extend a)
  | MZeroResize t => sized t (fun t => total (into_zero_resize a t))
  | MSignResize t => sized t (fun t => total (into_sign_resize a t))
  end.
(** src/apint/bitwise.rs. *)
Definition cput (m : setop) (a : apint) : mut_result :=
  match m with
  | SSetAll => total_mut (set_all a) | SUnsetAll => total_mut (unset_all a) | SFlipAll => total_mut (flip_all a)
  | SSetMsb => total_mut (set_msb a) | SUnsetMsb => total_mut (unset_msb a) | SFlipMsb => total_mut (flip_msb a)
  | SSetBit p => set_bit_at a p | SUnsetBit p => unset_bit_at a p | SFlipBit p => flip_bit_at a p
  end.
(** src/apint/{arithmetic,bitwise}.rs. *)
Definition cbin (o : binop) (a b : apint) : mut_result :=
  match o with
  | BAdd => wrapping_add_assign a b | BSub => wrapping_sub_assign a b | BMul => wrapping_mul_assign a b
  | BUdiv => wrapping_udiv_assign a b | BUrem => wrapping_urem_assign a b
  | BSdiv => wrapping_sdiv_assign a b | BSrem => wrapping_srem_assign a b
  | BAnd => bitand_assign a b | BOr => bitor_assign a b | BXor => bitxor_assign a b
  end.
(** The consuming forms, src/apint/{arithmetic,bitwise}.rs. *)
Definition cbin_into (o : binop) (a b : apint) : outcome (result apint) :=
  match o with
  | BAdd => into_wrapping_add a b | BSub => into_wrapping_sub a b | BMul => into_wrapping_mul a b
  | BUdiv => into_wrapping_udiv a b | BUrem => into_wrapping_urem a b
  | BSdiv => into_wrapping_sdiv a b | BSrem => into_wrapping_srem a b
  | BAnd => into_bitand a b | BOr => into_bitor a b | BXor => into_bitxor a b
  end.
(** src/apint/arithmetic.rs 1548-1747: the functions on two [&mut ApInt]. *)
Definition cpair (o : pairop) (a b : apint) : mut2_result :=
  match o with
  | PUDivRem => wrapping_udivrem_assign a b | PURemDiv => wrapping_uremdiv_assign a b
  | PSDivRem => wrapping_sdivrem_assign a b | PSRemDiv => wrapping_sremdiv_assign a b
  end.
(** src/apint/relational.rs. *)
Definition ccmp (o : cmpop) (a b : apint) : outcome (result bool) :=
  match o with
  | CUlt => checked_ult a b | CUle => checked_ule a b | CUgt => checked_ugt a b | CUge => checked_uge a b
  | CSlt => checked_slt a b | CSle => checked_sle a b | CSgt => checked_sgt a b | CSge => checked_sge a b
  end.

(** How results are shown.  A client of src/lib.rs: a returned [bool]. *)
Definition obs_bool (m : outcome bool) : outcome obs := let! b := m in Val (OBool b).
(** A client of src/lib.rs: a returned number. *)
Definition obs_int (m : outcome Z) : outcome obs := let! z := m in Val (OInt z).
(** A client of src/lib.rs: a written string. *)
Definition obs_string (m : outcome (list Z)) : outcome obs := let! z := m in Val (OString z).
(** A client of src/lib.rs: a returned [Result<bool>]. *)
Definition obs_rbool (m : outcome (result bool)) : outcome obs :=
  let! r := m in Val (match r with Ok b => OBool b | Err e => OFail (observe e) end).
(** A client of src/lib.rs: a returned [Result] of a number. *)
Definition obs_rint (m : outcome (result Z)) : outcome obs :=
  let! r := m in Val (match r with Ok z => OInt z | Err e => OFail (observe e) end).

(** src/apint/{utils,bitwise,to_primitive,serialization}.rs. *)
Definition cresize (ty : prim_ty) (a : apint) : outcome obs :=
  match ty with
  | PBool => obs_bool (resize_to_bool a)
  | PI8 => obs_int (resize_to_i8 a) | PU8 => obs_int (resize_to_u8 a)
  | PI16 => obs_int (resize_to_i16 a) | PU16 => obs_int (resize_to_u16 a)
  | PI32 => obs_int (resize_to_i32 a) | PU32 => obs_int (resize_to_u32 a)
  | PI64 => obs_int (resize_to_i64 a) | PU64 => obs_int (resize_to_u64 a)
  | PI128 => obs_int (resize_to_i128 a) | PU128 => obs_int (resize_to_u128 a)
  end.
(** src/apint/to_primitive.rs 353-576. *)
Definition ctry (ty : prim_ty) (a : apint) : outcome obs :=
  match ty with
  | PBool => obs_rbool (try_to_bool a)
  | PI8 => obs_rint (try_to_i8 a) | PU8 => obs_rint (try_to_u8 a)
  | PI16 => obs_rint (try_to_i16 a) | PU16 => obs_rint (try_to_u16 a)
  | PI32 => obs_rint (try_to_i32 a) | PU32 => obs_rint (try_to_u32 a)
  | PI64 => obs_rint (try_to_i64 a) | PU64 => obs_rint (try_to_u64 a)
  | PI128 => obs_rint (try_to_i128 a) | PU128 => obs_rint (try_to_u128 a)
  end.
(** src/apint/{utils,bitwise,to_primitive,serialization}.rs: methods on [&self]. *)
Definition cask (q : query) (a : apint) : outcome obs :=
  match q with
  | QWidth => Val (OInt (width a))
  | QIsZero => obs_bool (is_zero a) | QIsOne => obs_bool (is_one a)
  | QIsEven => obs_bool (is_even a) | QIsOdd => obs_bool (is_odd a)
  | QIsAllSet => obs_bool (is_all_set a) | QIsAllUnset => obs_bool (is_all_unset a)
  | QMsb => obs_bool (msb a) | QLsb => obs_bool (lsb a)
  | QCountOnes => obs_int (count_ones a) | QCountZeros => obs_int (count_zeros a)
  | QLeadingZeros => obs_int (leading_zeros a) | QTrailingZeros => obs_int (trailing_zeros a)
  | QBit p => obs_rbool (get_bit_at a p)
  | QResizeTo ty => cresize ty a
  | QTryTo ty => ctry ty a
  | QBinary => obs_string (fmt_binary a)
  | QLowerHex => obs_string (fmt_lower_hex a)
  | QUpperHex => obs_string (fmt_upper_hex a)
  end.

(** A client of src/lib.rs: its variables, [None] for those moved or dropped. *)
Definition vars : Type := list (option apint).
(** A client of src/lib.rs: [let x = ..], if the call succeeds. *)
Definition ccreate (s : vars) (m : outcome (result apint)) : outcome (vars * obs) :=
  let! r := m in Val (match r with Ok a => (s ++ [Some a], ODone) | Err e => (s, OFail (observe e)) end).
(** The variable gets the state the call left behind, also after an error.
    A client of src/lib.rs: a returned [Result<()>]. *)
Definition done (r : result unit) : obs := match r with Ok _ => ODone | Err e => OFail (observe e) end.
(** A client of src/lib.rs: [x.op(..)]. *)
Definition cchange (s : vars) (x : nat) (m : mut_result) : outcome (vars * obs) :=
  let! (a, r) := m in Val (update x (Some a) s, done r).
(** A client of src/lib.rs: the compiler rejects a moved variable. *)
Definition cget1 (s : vars) (x : nat) (k : apint -> outcome (vars * obs)) : outcome (vars * obs) :=
  match nth_error s x with Some (Some a) => k a | _ => Val (s, ORejected) end.
(** A client of src/lib.rs: the same for two operands. *)
Definition cget2 (s : vars) (x y : nat) (k : apint -> apint -> outcome (vars * obs)) : outcome (vars * obs) :=
  cget1 s x (fun a => cget1 s y (fun b => k a b)).

(** A client of src/lib.rs: one call. *)
Definition cstep (s : vars) (c : cmd) : outcome (vars * obs) :=
  match c with
  | New n => ccreate s (cnew n)
  | Clone x => cget1 s x (fun a => ccreate s (total (clone a)))
  | Mut m x => cget1 s x (fun a => cchange s x (cmut m a))
  | Drop x => cget1 s x (fun a => Val (update x None s, ODone))
  | Into m x => cget1 s x (fun a => ccreate (update x None s) (cinto m a))
  | Put m x => cget1 s x (fun a => cchange s x (cput m a))
  | Bin o x y =>
      if Nat.eqb x y then Val (s, ORejected) else cget2 s x y (fun a b => cchange s x (cbin o a b))
  | IntoBin o x y =>
      if Nat.eqb x y then Val (s, ORejected)
      else cget2 s x y (fun a b => ccreate (update x None s) (cbin_into o a b))
  | Pair o x y =>
      if Nat.eqb x y then Val (s, ORejected)
      else cget2 s x y (fun a b =>
        let! (a', b', r) := cpair o a b in Val (update y (Some b') (update x (Some a') s), done r))
  | Assign x y =>
      if Nat.eqb x y then Val (s, ORejected)
      else cget2 s x y (fun a b => let! c := assign a b in Val (update x (Some c) s, ODone))
  | StrictAssign x y =>
      if Nat.eqb x y then Val (s, ORejected) else cget2 s x y (fun a b => cchange s x (strict_assign a b))
  | Cmp o x y => cget2 s x y (fun a b => let! o := obs_rbool (ccmp o a b) in Val (s, o))
  | Equal x y => cget2 s x y (fun a b => Val (s, OBool (apint_eqb a b)))
  | Ask q x => cget1 s x (fun a => let! o := cask q a in Val (s, o))
  end.

(** A client of src/lib.rs: one call after the other. *)
Fixpoint crun (s : vars) (p : list cmd) : outcome (vars * list obs) :=
  match p with
  | [] => Val (s, [])
  | c :: p => let! (s, o) := cstep s c in let! (s, os) := crun s p in Val (s, o :: os)
  end.
