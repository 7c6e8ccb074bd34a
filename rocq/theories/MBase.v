(** Common vocabulary of the model: outcomes, errors, machine integers,
    slices and the [ApInt] record.  No proofs in this file. *)
From Coq Require Export ZArith List Bool.
Export ListNotations.
Open Scope Z_scope.

(** * Outcomes *)

(** The builds in which a panic happens: an overflow check of [+], [-], [*],
    [<<] or [>>] and a [debug_assert!] are compiled into debug builds only, e.g.
    src/apint/serialization.rs 213-214; everything else is in every build. *)
Inductive builds := EveryBuild | DebugBuild.

(** How a call ends.  [Stop] is a Rust panic: [Panic] for one that every build
    has (an out-of-bounds index, a failed [assert!], [unwrap] on [Err] or
    [None]), [Trap] for one that only debug builds have.  [OutOfFuel] marks an
    unbounded [loop {}] that used up the fuel given to its model; every theorem
    about such a loop excludes it.
    Every call in src/lib.rs and below ends in one of these ways. *)
Inductive outcome (A : Type) : Type :=
| Val (a : A)
| Stop (b : builds)
| OutOfFuel.
Arguments Val {A} a.
Arguments Stop {A} b.
Arguments OutOfFuel {A}.
Notation Panic := (Stop EveryBuild).
Notation Trap := (Stop DebugBuild).

(** Sequencing: the rest of a call runs only if what comes before it returns (src/lib.rs and below). *)
Definition bind {A B : Type} (m : outcome A) (k : A -> outcome B) : outcome B :=
  match m with
  | Val a => k a
  | Stop b => Stop b
  | OutOfFuel => OutOfFuel
  end.

Notation "'let!' x ':=' m 'in' k" :=
  (bind m (fun x => k))
  (at level 200, x pattern, m at level 100, k at level 200, right associativity).

(** * Errors *)

(** [PrimitiveTy], src/apint/to_primitive.rs 8-31. *)
Inductive prim_ty := PBool | PI8 | PU8 | PI16 | PU16 | PI32 | PU32 | PI64 | PU64 | PI128 | PU128.

(** [DivOp], src/errors.rs 101-118. *)
Inductive div_op :=
| UnsignedDivRem | UnsignedRemDiv | SignedDivRem | SignedRemDiv
| UnsignedDiv | UnsignedRem | SignedDiv | SignedRem.

(** [ApInt], src/apint/mod.rs (fields [len: BitWidth], [data: ApIntData]).
    Simplification: the union of one inline digit and a pointer to a digit
    buffer is represented by the little-endian list of the digits it stores;
    which variant the code uses is recomputed from [len], as in the code
    ([Storage::from], src/storage.rs 10-23).  The union and the buffers
    themselves are the subject of the separate model in [MHeap.v]. *)
Record apint := mk_apint { len : Z; digits : list Z }.

(** [ErrorKind], src/errors.rs 17-97.  Simplification: the [message] and
    [annotation] strings of [Error] (src/errors.rs 126-130) are dropped;
    strings are lists of bytes. *)
Inductive error_kind :=
| InvalidRadix (r : Z)
| InvalidStringRepr (input : list Z) (radix : Z) (pos_char : option (Z * Z))
| InvalidBitAccess (pos width : Z)
| InvalidShiftAmount (shift_amount width : Z)
| ValueUnrepresentable (value : apint) (destination_ty : prim_ty)
| UnmatchingBitwidth (lhs rhs : Z)
| InvalidBitWidth (w : Z)
| TruncationBitWidthTooLarge (target current : Z)
| ExtensionBitWidthTooSmall (target current : Z)
| DivisionByZero (op : div_op) (lhs : apint)
| ExpectedNonEmptyDigits.

(** [Result], src/errors.rs. *)
Inductive result (A : Type) : Type :=
| Ok (a : A)
| Err (e : error_kind).
Arguments Ok {A} a.
Arguments Err {A} e.

(** [.unwrap()] / [.expect(..)] on a [Result].
    E.g. src/apint/constructors.rs 178, src/std_ops.rs 41-217. *)
Definition unwrap {A : Type} (r : result A) : outcome A :=
  match r with Ok a => Val a | Err _ => Panic end.

(** [.unwrap()] on an [Option].
    E.g. src/apint/arithmetic.rs 29-93 ([last_mut().unwrap()]). *)
Definition unwrap_opt {A : Type} (o : option A) : outcome A :=
  match o with Some a => Val a | None => Panic end.

(** The [?] operator in a function that returns [Result] and has changed
    nothing so far.  E.g. src/apint/casting.rs 137-206. *)
Definition bindr {A B : Type} (m : outcome (result A))
    (k : A -> outcome (result B)) : outcome (result B) :=
  let! r := m in
  match r with Ok a => k a | Err e => Val (Err e) end.

Notation "'let?' x ':=' m 'in' k" :=
  (bindr m (fun x => k))
  (at level 200, x pattern, m at level 100, k at level 200, right associativity).

(** [Result::map].  E.g. src/uint.rs 944-1073. *)
Definition map_result {A B : Type} (f : A -> B) (r : result A) : result B :=
  match r with Ok a => Ok (f a) | Err e => Err e end.

(** The result of a method taking [&mut self] and returning [Result<()>]: the
    state of [self] afterwards, also when an error is returned.
    E.g. src/apint/shift.rs 76-127. *)
Definition mut_result : Type := outcome (apint * result unit).

(** * Machine integers *)

(** Rust's [u64] and [u128] are integers in [0, 2^64) and [0, 2^128).
    src/digit.rs 23-28 ([DigitRepr], [DoubleDigitRepr]). *)
Definition B : Z := 18446744073709551616.
(** src/digit.rs 28 ([DoubleDigitRepr]). *)
Definition BB : Z := 340282366920938463463374607431768211456.

(** [wrapping_add], [wrapping_sub], [wrapping_mul] of [u64] (Rust std).
    src/digit.rs 244-246. *)
Definition u64_wadd (x y : Z) : Z := (x + y) mod B.
(** src/digit.rs 270-272. *)
Definition u64_wsub (x y : Z) : Z := (x - y) mod B.
(** src/digit.rs 274-276. *)
Definition u64_wmul (x y : Z) : Z := (x * y) mod B.
(** [overflowing_add], [overflowing_sub] of [u64] (Rust std).  src/digit.rs 248-261. *)
Definition u64_oadd (x y : Z) : Z * bool := ((x + y) mod B, B <=? x + y).
(** src/digit.rs 263-268. *)
Definition u64_osub (x y : Z) : Z * bool := ((x - y) mod B, x <? y).
(** [!x] of [u64]: all 64 bits inverted.  src/digit.rs 578-584. *)
Definition u64_not (x : Z) : Z := Z.lnot x mod B.
(** [x << s], [x >> s] of [u64]: overflow check on [s] in debug builds.
    src/apint/shift.rs 76-127. *)
Definition u64_shl (x s : Z) : outcome Z :=
  if s <? 64 then Val (Z.shiftl x s mod B) else Trap.
(** src/apint/shift.rs 154-268. *)
Definition u64_shr (x s : Z) : outcome Z :=
  if s <? 64 then Val (Z.shiftr x s) else Trap.
(** [wrapping_shl], [wrapping_shr] of [u64]: the amount is taken modulo 64.
    src/digit.rs 562-568. *)
Definition u64_wshl (x s : Z) : Z := Z.shiftl x (s mod 64) mod B.
(** src/digit.rs 570-576. *)
Definition u64_wshr (x s : Z) : Z := Z.shiftr x (s mod 64).
(** [as i64] on a [u64], [as u64] on an [i64].  src/digit.rs 375. *)
Definition u64_as_i64 (x : Z) : Z := if x <? 9223372036854775808 then x else x - B.
(** src/digit.rs 381. *)
Definition i64_as_u64 (x : Z) : Z := x mod B.
(** [wrapping_sub] of [i64].  src/digit.rs 380. *)
Definition i64_wsub (x y : Z) : Z := u64_as_i64 ((x - y) mod B).
(** [leading_zeros] of [u64].  src/digit.rs 240-242, src/apint/bitwise.rs 275. *)
Definition u64_leading_zeros (x : Z) : Z := if x =? 0 then 64 else 63 - Z.log2 x.
(** [trailing_zeros], [count_ones], [count_zeros] of [u64].
    src/apint/bitwise.rs 251, 261, 290. *)
Fixpoint ctz_pos (p : positive) : Z :=
  match p with xO q => 1 + ctz_pos q | _ => 0 end.
(** src/apint/bitwise.rs 251: the ones of a positive number. *)
Fixpoint popcount_pos (p : positive) : Z :=
  match p with xH => 1 | xO q => popcount_pos q | xI q => 1 + popcount_pos q end.
(** src/apint/bitwise.rs 290. *)
Definition u64_trailing_zeros (x : Z) : Z :=
  match x with Zpos p => ctz_pos p | _ => 64 end.
(** src/apint/bitwise.rs 251. *)
Definition u64_count_ones (x : Z) : Z :=
  match x with Zpos p => popcount_pos p | _ => 0 end.
(** src/apint/bitwise.rs 261. *)
Definition u64_count_zeros (x : Z) : Z := 64 - u64_count_ones x.

(** [a - b] of [usize]: underflow check of a debug build.
    src/apint/bitwise.rs 266-267, 281-282. *)
Definition usize_sub (a b : Z) : outcome Z := if b <=? a then Val (a - b) else Trap.

(** * Slices *)

(** [ds[i]]: bounds-checked read.  E.g. src/apint/arithmetic.rs 235-250. *)
Definition idx {A : Type} (ds : list A) (i : nat) : outcome A :=
  unwrap_opt (nth_error ds i).

(** [ds[i] = v]: bounds-checked write.  E.g. src/apint/arithmetic.rs 235-250. *)
Definition upd {A : Type} (ds : list A) (i : nat) (v : A) : outcome (list A) :=
  if Nat.ltb i (length ds)
  then Val (firstn i ds ++ v :: skipn (S i) ds)
  else Panic.

(** [ds.last().unwrap()].  src/apint/utils.rs 319-327. *)
Fixpoint last_digit (ds : list Z) : outcome Z :=
  match ds with
  | [] => Panic
  | [d] => Val d
  | _ :: r => last_digit r
  end.

(** [*ds.last_mut().unwrap() = f(old)].  src/apint/utils.rs 330-338. *)
Fixpoint modify_last (f : Z -> outcome Z) (ds : list Z) : outcome (list Z) :=
  match ds with
  | [] => Panic
  | [d] => let! d' := f d in Val [d']
  | d :: r => let! r' := modify_last f r in Val (d :: r')
  end.

(** [for (l, &r) in lhs.iter_mut().zip(rhs) { f(l, r) }]: digits of [lhs]
    beyond the length of [rhs] stay as they are.  E.g. src/apint/bitwise.rs 42-44. *)
Fixpoint zip_update (f : Z -> Z -> Z) (lhs rhs : list Z) : list Z :=
  match lhs, rhs with
  | l :: ls, r :: rs => f l r :: zip_update f ls rs
  | ls, _ => ls
  end.

(** * Loops *)

(** [for i in lo..lo+n { body }].  E.g. src/apint/arithmetic.rs 242. *)
Fixpoint for_range {S : Type} (n lo : nat) (body : nat -> S -> outcome S) (s : S) : outcome S :=
  match n with
  | O => Val s
  | Datatypes.S n' => let! s' := body lo s in for_range n' (Datatypes.S lo) body s'
  end.

(** [for i in (lo..lo+n).rev() { body }].  E.g. src/apint/arithmetic.rs 727. *)
Fixpoint for_range_rev {S : Type} (n lo : nat) (body : nat -> S -> outcome S) (s : S) : outcome S :=
  match n with
  | O => Val s
  | Datatypes.S n' => let! s' := body (lo + n')%nat s in for_range_rev n' lo body s'
  end.
