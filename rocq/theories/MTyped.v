(** Running programs of public calls on [UInt] and [Int] on the model of the
    code.  No proofs in this file.  Each branch is a call of the modelled
    function of that name; there is no code in /repo for the sequencing itself,
    which is what a client program does. *)
From Verif Require Export MMachine MInt MOps SpecTyped.

(** A client of src/lib.rs: a variable of one of the two types (src/uint.rs 28-30, src/int.rs 28-30). *)
Inductive tvar := VU (x : uint) | VI (x : int).

(** A client of src/lib.rs: a call in place that returns [()] (src/uint.rs 734-736). *)
Definition unit_mut {T : Type} (m : outcome T) : outcome (T * result unit) := let! x := m in Val (x, Ok tt).
(** A client of src/lib.rs: a call that returns the value itself (src/uint.rs 729-731). *)
Definition plain_val {T : Type} (m : outcome T) : outcome (result T) := let! x := m in Val (Ok x).
(** A client of src/lib.rs: [x.op(BitWidth::new(w)?)] (src/bitwidth.rs 73-78). *)
Definition sized_in {T : Type} (x : T) (w : Z) (k : Z -> outcome (T * result unit)) : outcome (T * result unit) :=
  match bitwidth_new w with Ok w => k w | Err e => Val (x, Err e) end.

(** * UInt *)
(** src/uint.rs 60-187. *)
Definition unew (n : tnew) : outcome (result (option uint)) :=
  let mk (m : outcome uint) := let! x := m in Val (Ok (Some x)) in
  match n with
  | TBool b => mk (uint_from_bool b)
  | TPrim W8 v => mk (uint_from_u8 v) | TPrim W16 v => mk (uint_from_u16 v) | TPrim W32 v => mk (uint_from_u32 v)
  | TPrim W64 v => mk (uint_from_u64 v) | TPrim W128 v => mk (uint_from_u128 v)
  | TWords vs => mk (uint_from_array vs)
  | TZero w => sized w (fun w => mk (uint_zero w)) | TOne w => sized w (fun w => mk (uint_one w))
  | TAllUnset w => sized w (fun w => mk (uint_all_unset w)) | TAllSet w => sized w (fun w => mk (uint_all_set w))
  | TMin w => sized w (fun w => mk (uint_min_value w)) | TMax w => sized w (fun w => mk (uint_max_value w))
  end.
(** src/uint.rs 496-532, 648-736, 914-916; operators: src/std_ops.rs 203-217.
    [None]: there is no such method. *)
Definition umut (f : form) (m : tmut) (x : uint) : option (outcome (uint * result unit)) :=
  match f, m with
  | Method, TNot => Some (unit_mut (uint_bitnot x))
  | Method, TNeg => Some (unit_mut (uint_wrapping_neg x))
  | Method, TAbs => None
  | Method, TShl s => Some (uint_wrapping_shl_assign x s)
  | Method, TShr s => Some (uint_wrapping_shr_assign x s)
  | Method, TTruncate t => Some (sized_in x t (uint_truncate x))
  | Method, TExtend t => Some (sized_in x t (uint_extend x))
  | Method, TResize t => Some (sized_in x t (fun t => unit_mut (uint_resize x t)))
  | Operator, TShl s => Some (unit_mut (uint_op_shl_assign x s))
  | Operator, TShr s => Some (unit_mut (uint_op_shr_assign x s))
  | Operator, _ => None
  end.
(** The same, consuming forms (src/uint.rs 512-548, 630-731, 922-924, src/std_ops.rs 40-56, 178-196). *)
Definition uinto (f : form) (m : tmut) (x : uint) : option (outcome (result uint)) :=
  match f, m with
  | Method, TNot => Some (plain_val (uint_into_bitnot x))
  | Method, TNeg => Some (plain_val (uint_into_wrapping_neg x))
  | Method, TAbs => None
  | Method, TShl s => Some (uint_into_wrapping_shl x s)
  | Method, TShr s => Some (uint_into_wrapping_shr x s)
  | Method, TTruncate t => Some (sized t (uint_into_truncate x))
  | Method, TExtend t => Some (sized t (uint_into_extend x))
  | Method, TResize t => Some (sized t (fun t => plain_val (uint_into_resize x t)))
  | Operator, TNot => Some (plain_val (uint_op_not x))
  | Operator, TNeg => Some (plain_val (uint_op_neg x))
  | Operator, TShl s => Some (plain_val (uint_op_shl x s))
  | Operator, TShr s => Some (plain_val (uint_op_shr x s))
  | Operator, _ => None
  end.
(** src/uint.rs 821-880. *)
Definition uput (m : tset) (x : uint) : option (outcome (uint * result unit)) :=
  match m with
  | TSetAll => Some (unit_mut (uint_set_all x))
  | TUnsetAll => Some (unit_mut (uint_unset_all x))
  | TFlipAll => Some (unit_mut (uint_flip_all x))
  | TSetBit p => Some (uint_set_bit_at x p)
  | TUnsetBit p => Some (uint_unset_bit_at x p)
  | TFlipBit p => Some (uint_flip_bit_at x p)
  | TSetSign | TUnsetSign | TFlipSign => None
  end.
(** src/uint.rs 755-799, 944-1071; operators: src/std_ops.rs 122-160. *)
Definition ubin (f : form) (o : tbin) (x y : uint) : outcome (uint * result unit) :=
  match f, o with
  | Method, TAdd => uint_wrapping_add_assign x y | Method, TSub => uint_wrapping_sub_assign x y
  | Method, TMul => uint_wrapping_mul_assign x y | Method, TDiv => uint_wrapping_div_assign x y
  | Method, TRem => uint_wrapping_rem_assign x y | Method, TAnd => uint_bitand_assign x y
  | Method, TOr => uint_bitor_assign x y | Method, TXor => uint_bitxor_assign x y
  | Operator, TAdd => unit_mut (uint_op_add_assign x y) | Operator, TSub => unit_mut (uint_op_sub_assign x y)
  | Operator, TMul => unit_mut (uint_op_mul_assign x y) | Operator, TDiv => unit_mut (uint_op_div_assign x y)
  | Operator, TRem => unit_mut (uint_op_rem_assign x y) | Operator, TAnd => unit_mut (uint_op_bitand_assign x y)
  | Operator, TOr => unit_mut (uint_op_bitor_assign x y) | Operator, TXor => unit_mut (uint_op_bitxor_assign x y)
  end.
(** The same, consuming forms (src/uint.rs 744-788, 933-1055, src/std_ops.rs 61-113). *)
Definition ubin_into (f : form) (o : tbin) (x y : uint) : outcome (result uint) :=
  match f, o with
  | Method, TAdd => uint_into_wrapping_add x y | Method, TSub => uint_into_wrapping_sub x y
  | Method, TMul => uint_into_wrapping_mul x y | Method, TDiv => uint_into_wrapping_div x y
  | Method, TRem => uint_into_wrapping_rem x y | Method, TAnd => uint_into_bitand x y
  | Method, TOr => uint_into_bitor x y | Method, TXor => uint_into_bitxor x y
  | Operator, TAdd => plain_val (uint_op_add x y) | Operator, TSub => plain_val (uint_op_sub x y)
  | Operator, TMul => plain_val (uint_op_mul x y) | Operator, TDiv => plain_val (uint_op_div x y)
  | Operator, TRem => plain_val (uint_op_rem x y) | Operator, TAnd => plain_val (uint_op_bitand x y)
  | Operator, TOr => plain_val (uint_op_bitor x y) | Operator, TXor => plain_val (uint_op_bitxor x y)
  end.
(** src/uint.rs 235-285. *)
Definition ucheck (o : tcmp) (x y : uint) : outcome (result bool) :=
  match o with
  | TLt => uint_checked_lt x y | TLe => uint_checked_le x y | TGt => uint_checked_gt x y | TGe => uint_checked_ge x y
  end.
(** src/uint.rs 305-319. *)
Definition utest (o : tcmp) (x y : uint) : outcome bool :=
  match o with TLt => uint_lt x y | TLe => uint_le x y | TGt => uint_gt x y | TGe => uint_ge x y end.
(** src/uint.rs 39-41, 198-220, 333-483, 809-814, 863-905, 1080-1103. *)
Definition uask (q : tquery) (x : uint) : option (outcome obs) :=
  match q with
  | TWidth => Some (Val (OInt (uint_width x)))
  | TIsZero => Some (obs_bool (uint_is_zero x)) | TIsOne => Some (obs_bool (uint_is_one x))
  | TIsEven => Some (obs_bool (uint_is_even x)) | TIsOdd => Some (obs_bool (uint_is_odd x))
  | TIsAllSet => Some (obs_bool (uint_is_all_set x)) | TIsAllUnset => Some (obs_bool (uint_is_all_unset x))
  | TIsPositive | TIsNegative | TSignum | TSign => None
  | TCountOnes => Some (obs_int (uint_count_ones x)) | TCountZeros => Some (obs_int (uint_count_zeros x))
  | TLeadingZeros => Some (obs_int (uint_leading_zeros x)) | TTrailingZeros => Some (obs_int (uint_trailing_zeros x))
  | TBit p => Some (obs_rbool (uint_get_bit_at x p))
  | TToBool => Some (obs_bool (uint_resize_to_bool x))
  | TTo W8 => Some (obs_int (uint_resize_to_u8 x)) | TTo W16 => Some (obs_int (uint_resize_to_u16 x))
  | TTo W32 => Some (obs_int (uint_resize_to_u32 x)) | TTo W64 => Some (obs_int (uint_resize_to_u64 x))
  | TTo W128 => Some (obs_int (uint_resize_to_u128 x))
  | TTryBool => Some (obs_rbool (uint_try_to_bool x))
  | TTry W8 => Some (obs_rint (uint_try_to_u8 x)) | TTry W16 => Some (obs_rint (uint_try_to_u16 x))
  | TTry W32 => Some (obs_rint (uint_try_to_u32 x)) | TTry W64 => Some (obs_rint (uint_try_to_u64 x))
  | TTry W128 => Some (obs_rint (uint_try_to_u128 x))
  | TBinary => Some (obs_string (uint_fmt_binary x)) | TOctal => Some (obs_string (uint_fmt_octal x))
  | TLowerHex => Some (obs_string (uint_fmt_lower_hex x)) | TUpperHex => Some (obs_string (uint_fmt_upper_hex x))
  end.

(** * Int *)
(** src/int.rs 62-198. *)
Definition inew (n : tnew) : outcome (result (option int)) :=
  let mk (m : outcome int) := let! x := m in Val (Ok (Some x)) in
  match n with
  | TBool b => mk (int_from_bool b)
  | TPrim W8 v => mk (int_from_i8 v) | TPrim W16 v => mk (int_from_i16 v) | TPrim W32 v => mk (int_from_i32 v)
  | TPrim W64 v => mk (int_from_i64 v) | TPrim W128 v => mk (int_from_i128 v)
  | TWords vs => mk (int_from_array vs)
  | TZero w => sized w (fun w => mk (int_zero w))
  | TOne w => sized w (fun w => let! r := int_one w in Val (Ok r))
  | TAllUnset w => sized w (fun w => mk (int_all_unset w)) | TAllSet w => sized w (fun w => mk (int_all_set w))
  | TMin w => sized w (fun w => mk (int_min_value w)) | TMax w => sized w (fun w => mk (int_max_value w))
  end.
(** src/int.rs 273-277, 554-590, 706-794, 998-1000; operators: src/std_ops.rs
    203-217.  [None]: there is no such operator. *)
Definition imut (f : form) (m : tmut) (x : int) : option (outcome (int * result unit)) :=
  match f, m with
  | Method, TNot => Some (unit_mut (int_bitnot x))
  | Method, TNeg => Some (unit_mut (int_wrapping_neg x))
  | Method, TAbs => Some (unit_mut (int_wrapping_abs x))
  | Method, TShl s => Some (int_wrapping_shl_assign x s)
  | Method, TShr s => Some (int_wrapping_shr_assign x s)
  | Method, TTruncate t => Some (sized_in x t (int_truncate x))
  | Method, TExtend t => Some (sized_in x t (int_extend x))
  | Method, TResize t => Some (sized_in x t (fun t => unit_mut (int_resize x t)))
  | Operator, TShl s => Some (unit_mut (int_op_shl_assign x s))
  | Operator, TShr s => Some (unit_mut (int_op_shr_assign x s))
  | Operator, _ => None
  end.
(** The same, consuming forms (src/int.rs 266-268, 570-606, 688-789, 991-993, src/std_ops.rs 40-56, 178-196). *)
Definition iinto (f : form) (m : tmut) (x : int) : option (outcome (result int)) :=
  match f, m with
  | Method, TNot => Some (plain_val (int_into_bitnot x))
  | Method, TNeg => Some (plain_val (int_into_wrapping_neg x))
  | Method, TAbs => Some (plain_val (int_into_abs x))
  | Method, TShl s => Some (int_into_wrapping_shl x s)
  | Method, TShr s => Some (int_into_wrapping_shr x s)
  | Method, TTruncate t => Some (sized t (int_into_truncate x))
  | Method, TExtend t => Some (sized t (int_into_extend x))
  | Method, TResize t => Some (sized t (fun t => plain_val (int_into_resize x t)))
  | Operator, TNot => Some (plain_val (int_op_not x))
  | Operator, TNeg => Some (plain_val (int_op_neg x))
  | Operator, TShl s => Some (plain_val (int_op_shl x s))
  | Operator, TShr s => Some (plain_val (int_op_shr x s))
  | Operator, _ => None
  end.
(** src/int.rs 879-958. *)
Definition iput (m : tset) (x : int) : outcome (int * result unit) :=
  match m with
  | TSetAll => unit_mut (int_set_all x)
  | TUnsetAll => unit_mut (int_unset_all x)
  | TFlipAll => unit_mut (int_flip_all x)
  | TSetBit p => int_set_bit_at x p
  | TUnsetBit p => int_unset_bit_at x p
  | TFlipBit p => int_flip_bit_at x p
  | TSetSign => unit_mut (int_set_msb x)
  | TUnsetSign => unit_mut (int_unset_msb x)
  | TFlipSign => unit_mut (int_flip_msb x)
  end.
(** src/int.rs 813-857, 1020-1147; operators: src/std_ops.rs 122-160. *)
Definition ibin (f : form) (o : tbin) (x y : int) : outcome (int * result unit) :=
  match f, o with
  | Method, TAdd => int_wrapping_add_assign x y | Method, TSub => int_wrapping_sub_assign x y
  | Method, TMul => int_wrapping_mul_assign x y | Method, TDiv => int_wrapping_div_assign x y
  | Method, TRem => int_wrapping_rem_assign x y | Method, TAnd => int_bitand_assign x y
  | Method, TOr => int_bitor_assign x y | Method, TXor => int_bitxor_assign x y
  | Operator, TAdd => unit_mut (int_op_add_assign x y) | Operator, TSub => unit_mut (int_op_sub_assign x y)
  | Operator, TMul => unit_mut (int_op_mul_assign x y) | Operator, TDiv => unit_mut (int_op_div_assign x y)
  | Operator, TRem => unit_mut (int_op_rem_assign x y) | Operator, TAnd => unit_mut (int_op_bitand_assign x y)
  | Operator, TOr => unit_mut (int_op_bitor_assign x y) | Operator, TXor => unit_mut (int_op_bitxor_assign x y)
  end.
(** The same, consuming forms (src/int.rs 802-846, 1009-1131, src/std_ops.rs 61-113). *)
Definition ibin_into (f : form) (o : tbin) (x y : int) : outcome (result int) :=
  match f, o with
  | Method, TAdd => int_into_wrapping_add x y | Method, TSub => int_into_wrapping_sub x y
  | Method, TMul => int_into_wrapping_mul x y | Method, TDiv => int_into_wrapping_div x y
  | Method, TRem => int_into_wrapping_rem x y | Method, TAnd => int_into_bitand x y
  | Method, TOr => int_into_bitor x y | Method, TXor => int_into_bitxor x y
  | Operator, TAdd => plain_val (int_op_add x y) | Operator, TSub => plain_val (int_op_sub x y)
  | Operator, TMul => plain_val (int_op_mul x y) | Operator, TDiv => plain_val (int_op_div x y)
  | Operator, TRem => plain_val (int_op_rem x y) | Operator, TAnd => plain_val (int_op_bitand x y)
  | Operator, TOr => plain_val (int_op_bitor x y) | Operator, TXor => plain_val (int_op_bitxor x y)
  end.
(** src/int.rs 293-343. *)
Definition icheck (o : tcmp) (x y : int) : outcome (result bool) :=
  match o with
  | TLt => int_checked_lt x y | TLe => int_checked_le x y | TGt => int_checked_gt x y | TGe => int_checked_ge x y
  end.
(** src/int.rs 363-377. *)
Definition itest (o : tcmp) (x y : int) : outcome bool :=
  match o with TLt => int_lt x y | TLe => int_le x y | TGt => int_gt x y | TGe => int_ge x y end.
(** src/int.rs 39-41, 205-258, 391-541, 867-872, 921-983, 1156-1179. *)
Definition iask (q : tquery) (x : int) : outcome obs :=
  match q with
  | TWidth => Val (OInt (int_width x))
  | TIsZero => obs_bool (int_is_zero x) | TIsOne => obs_bool (int_is_one x)
  | TIsEven => obs_bool (int_is_even x) | TIsOdd => obs_bool (int_is_odd x)
  | TIsAllSet => obs_bool (int_is_all_set x) | TIsAllUnset => obs_bool (int_is_all_unset x)
  | TIsPositive => obs_bool (int_is_positive x) | TIsNegative => obs_bool (int_is_negative x)
  | TSignum => obs_int (int_signum x) | TSign => obs_bool (int_msb x)
  | TCountOnes => obs_int (int_count_ones x) | TCountZeros => obs_int (int_count_zeros x)
  | TLeadingZeros => obs_int (int_leading_zeros x) | TTrailingZeros => obs_int (int_trailing_zeros x)
  | TBit p => obs_rbool (int_get_bit_at x p)
  | TToBool => obs_bool (int_resize_to_bool x)
  | TTo W8 => obs_int (int_resize_to_i8 x) | TTo W16 => obs_int (int_resize_to_i16 x)
  | TTo W32 => obs_int (int_resize_to_i32 x) | TTo W64 => obs_int (int_resize_to_i64 x)
  | TTo W128 => obs_int (int_resize_to_i128 x)
  | TTryBool => obs_rbool (int_try_to_bool x)
  | TTry W8 => obs_rint (int_try_to_i8 x) | TTry W16 => obs_rint (int_try_to_i16 x)
  | TTry W32 => obs_rint (int_try_to_i32 x) | TTry W64 => obs_rint (int_try_to_i64 x)
  | TTry W128 => obs_rint (int_try_to_i128 x)
  | TBinary => obs_string (int_fmt_binary x) | TOctal => obs_string (int_fmt_octal x)
  | TLowerHex => obs_string (int_fmt_lower_hex x) | TUpperHex => obs_string (int_fmt_upper_hex x)
  end.

(** * Programs *)
(** A client of src/lib.rs: its variables, [None] for those moved or dropped. *)
Definition tvars : Type := list (option tvar).
(** A client of src/lib.rs: what one call makes of its variables and shows. *)
Definition tstep_result : Type := outcome (tvars * tobs).
(** A client of src/lib.rs: the compiler rejects the program. *)
Definition reject (s : tvars) : tstep_result := Val (s, rejected).
(** A client of src/lib.rs: [let x = ..], if the call succeeds. *)
Definition mcreate {T : Type} (V : T -> tvar) (s : tvars) (m : outcome (result T)) : tstep_result :=
  let! r := m in Val (match r with Ok x => (s ++ [Some (V x)], Shows ODone) | Err e => (s, Shows (OFail (observe e))) end).
(** A client of src/lib.rs: the same for a constructor that may return [None] (src/int.rs 103-109). *)
Definition mcreate_opt {T : Type} (V : T -> tvar) (s : tvars) (m : outcome (result (option T))) : tstep_result :=
  let! r := m in Val (match r with
    | Ok (Some x) => (s ++ [Some (V x)], Shows ODone) | Ok None => (s, Nothing) | Err e => (s, Shows (OFail (observe e)))
    end).
(** A client of src/lib.rs: [x.op(..)]; the variable keeps the state the call left behind. *)
Definition mchange {T : Type} (V : T -> tvar) (s : tvars) (x : nat) (m : outcome (T * result unit)) : tstep_result :=
  let! (a, r) := m in Val (update x (Some (V a)) s, Shows (done r)).
(** A client of src/lib.rs: a call on [&self]. *)
Definition mshow (s : tvars) (m : outcome obs) : tstep_result := let! o := m in Val (s, Shows o).
(** A client of src/lib.rs: the compiler rejects a method that does not exist. *)
Definition if_any {T : Type} (s : tvars) (o : option T) (f : T -> tstep_result) : tstep_result :=
  match o with Some m => f m | None => reject s end.
(** A client of src/lib.rs: the compiler rejects a moved variable. *)
Definition mget1 (s : tvars) (x : nat) (f : tvar -> tstep_result) : tstep_result :=
  match nth_error s x with Some (Some a) => f a | _ => reject s end.
(** A client of src/lib.rs: the same for two operands, which have one type. *)
Definition mget2 (s : tvars) (x y : nat) (fu : uint -> uint -> tstep_result) (fi : int -> int -> tstep_result) : tstep_result :=
  mget1 s x (fun a => mget1 s y (fun b =>
    match a, b with VU a, VU b => fu a b | VI a, VI b => fi a b | _, _ => reject s end)).
(** A client of src/lib.rs: the compiler rejects a second borrow of a variable borrowed mutably or moved. *)
Definition mget2' (s : tvars) (x y : nat) (fu : uint -> uint -> tstep_result) (fi : int -> int -> tstep_result) : tstep_result :=
  if Nat.eqb x y then reject s else mget2 s x y fu fi.

(** A client of src/lib.rs: one call. *)
Definition tstep (s : tvars) (c : tcmd) : tstep_result :=
  match c with
  | TNew KU n => mcreate_opt VU s (unew n)
  | TNew KI n => mcreate_opt VI s (inew n)
  | TClone x => mget1 s x (fun a =>
      match a with
      | VU a => mcreate VU s (plain_val (uint_clone a))
      | VI a => mcreate VI s (plain_val (int_clone a))
      end)
  | TDrop x => mget1 s x (fun _ => Val (update x None s, Shows ODone))
  | TMut f m x => mget1 s x (fun a =>
      match a with
      | VU a => if_any s (umut f m a) (mchange VU s x)
      | VI a => if_any s (imut f m a) (mchange VI s x)
      end)
  | TInto f m x => mget1 s x (fun a =>
      match a with
      | VU a => if_any s (uinto f m a) (mcreate VU (update x None s))
      | VI a => if_any s (iinto f m a) (mcreate VI (update x None s))
      end)
  | TPut m x => mget1 s x (fun a =>
      match a with
      | VU a => if_any s (uput m a) (mchange VU s x)
      | VI a => mchange VI s x (iput m a)
      end)
  | TBin f o x y => mget2' s x y (fun a b => mchange VU s x (ubin f o a b)) (fun a b => mchange VI s x (ibin f o a b))
  | TIntoBin f o x y =>
      mget2' s x y (fun a b => mcreate VU (update x None s) (ubin_into f o a b))
        (fun a b => mcreate VI (update x None s) (ibin_into f o a b))
  | TAssign x y =>
      mget2' s x y (fun a b => mchange VU s x (unit_mut (uint_assign a b))) (fun a b => mchange VI s x (unit_mut (int_assign a b)))
  | TStrictAssign x y =>
      mget2' s x y (fun a b => mchange VU s x (uint_strict_assign a b)) (fun a b => mchange VI s x (int_strict_assign a b))
  | TCheck o x y => mget2 s x y (fun a b => mshow s (obs_rbool (ucheck o a b))) (fun a b => mshow s (obs_rbool (icheck o a b)))
  | TTest o x y => mget2 s x y (fun a b => mshow s (obs_bool (utest o a b))) (fun a b => mshow s (obs_bool (itest o a b)))
  | TCompare x y =>
      mget2 s x y (fun a b => let! c := uint_partial_cmp a b in Val (s, Ordering c))
        (fun a b => let! c := int_partial_cmp a b in Val (s, Ordering c))
  | TEqual x y =>
      mget2 s x y (fun a b => mshow s (Val (OBool (uint_eqb a b)))) (fun a b => mshow s (Val (OBool (int_eqb a b))))
  | TSwitch x => mget1 s x (fun a =>
      match a with
      | VU a => mcreate VI (update x None s) (Val (Ok (uint_into_signed a)))
      | VI a => mcreate VU (update x None s) (Val (Ok (int_into_unsigned a)))
      end)
  | TThrough k x => mget1 s x (fun a =>
      let v := match a with VU a => uint_into_apint a | VI a => int_into_apint a end in
      match k with
      | KU => mcreate VU (update x None s) (Val (Ok (uint_from_apint v)))
      | KI => mcreate VI (update x None s) (Val (Ok (int_from_apint v)))
      end)
  | TAsk q x => mget1 s x (fun a =>
      match a with VU a => if_any s (uask q a) (mshow s) | VI a => mshow s (iask q a) end)
  end.

(** A client of src/lib.rs: one call after the other. *)
Fixpoint trun (s : tvars) (p : list tcmd) : outcome (tvars * list tobs) :=
  match p with
  | [] => Val (s, [])
  | c :: p => let! (s, o) := tstep s c in let! (s, os) := trun s p in Val (s, o :: os)
  end.
