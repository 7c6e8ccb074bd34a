(** Model of src/apint/arithmetic.rs lines 591-1842: division and remainder.
    No proofs in this file.  [duo] is the dividend, [div] the divisor; the
    code writes the results into the same two slices, so each function returns
    the new contents of both. *)
From Verif Require Export MArith.

(** * Short divisions *)

(** One step of the loop of src/apint/arithmetic.rs 677-685. *)
Definition small_step (div_small : Z) (i : nat) (st : list Z * Z) : outcome (list Z * Z) :=
  let '(duo, rem) := st in
  let! d := idx duo i in
  let duo_double := dd_from_lo_hi d rem in
  let! (tq, tr) := dd_wdivrem duo_double (dd div_small) in
  let quo := dd_lo tq in
  let rem := dd_lo tr in
  let! duo := upd duo i quo in
  Val (duo, rem).

(** [large_div_by_small], src/apint/arithmetic.rs 669-687. *)
Definition large_div_by_small (duo : list Z) (ini_duo_sd : nat) (div : list Z)
    : outcome (list Z * list Z) :=
  let! div_small := idx div 0 in
  let! d := idx duo ini_duo_sd in
  let! (quo, rem) := d_wrapping_divrem d div_small in
  let! duo := upd duo ini_duo_sd quo in
  let! (duo, rem) := for_range_rev ini_duo_sd 0 (small_step div_small) (duo, rem) in
  let! div := upd div 0 rem in
  Val (duo, div).

(** The [u32] helpers of src/apint/arithmetic.rs 700-719. *)
Definition B32 : Z := 4294967296.
(** src/apint/arithmetic.rs 705-707. *)
Definition lo32 (x : Z) : Z := x mod B32.
(** src/apint/arithmetic.rs 709-711. *)
Definition hi32 (x : Z) : Z := Z.shiftr x 32 mod B32.
(** src/apint/arithmetic.rs 713-715. *)
Definition from_lo_hi32 (lo hi : Z) : Z := Z.lor lo (Z.shiftl hi 32 mod B).
(** src/apint/arithmetic.rs 717-719. *)
Definition wrapping_divrem32 (x y : Z) : outcome (Z * Z) :=
  if y =? 0 then Panic else Val (x / y, x mod y).

(** One step of the loop of src/apint/arithmetic.rs 727-737. *)
Definition u32_step (div_u32 : Z) (i : nat) (st : list Z * Z) : outcome (list Z * Z) :=
  let '(duo, rem_lo) := st in
  let! d := idx duo i in
  let duo_double_hi := from_lo_hi32 (hi32 d) rem_lo in
  let! (qh, rh) := d_wrapping_divrem duo_double_hi div_u32 in
  let quo_hi := lo32 qh in
  let rem_hi := lo32 rh in
  let! d := idx duo i in
  let duo_double_lo := from_lo_hi32 (lo32 d) rem_hi in
  let! (ql, rl) := d_wrapping_divrem duo_double_lo div_u32 in
  let quo_lo := lo32 ql in
  let rem_lo := lo32 rl in
  let! duo := upd duo i (from_lo_hi32 quo_lo quo_hi) in
  Val (duo, rem_lo).

(** [large_div_by_u32], src/apint/arithmetic.rs 694-739. *)
Definition large_div_by_u32 (duo : list Z) (ini_duo_sd : nat) (div : list Z)
    : outcome (list Z * list Z) :=
  let! div0 := idx div 0 in
  let div_u32 := lo32 div0 in
  let! d := idx duo ini_duo_sd in
  let! (quo_hi, rem_hi) := wrapping_divrem32 (hi32 d) div_u32 in
  let duo_double := from_lo_hi32 (lo32 d) rem_hi in
  let! (tq, tr) := d_wrapping_divrem duo_double div_u32 in
  let quo_lo := lo32 tq in
  let rem_lo := lo32 tr in
  let! duo := upd duo ini_duo_sd (from_lo_hi32 quo_lo quo_hi) in
  let! (duo, rem_lo) := for_range_rev ini_duo_sd 0 (u32_step div_u32) (duo, rem_lo) in
  let! div := upd div 0 rem_lo in
  Val (duo, div).

(** * The helper macros *)

(** [twos_complement!], src/apint/arithmetic.rs 743-761: the loop over
    [i0 .. i0 + n] where [i0 + n] is [$len]. *)
Fixpoint twos_complement_from (n i0 : nat) (array : list Z) : outcome (list Z) :=
  match n with
  | O => Val array
  | S n' =>
      let! x := idx array i0 in
      let bitnot := d_not x in
      match d_overflowing_add bitnot ONE with
      | (v, false) =>
          let! array := upd array i0 v in
          for_range n' (S i0) (fun i1 array =>
            let! y := idx array i1 in upd array i1 (d_not y)) array
      | (v, true) =>
          let! array := upd array i0 v in
          twos_complement_from n' (S i0) array
      end
  end.
(** src/apint/arithmetic.rs 743-761. *)
Definition twos_complement (len : nat) (array : list Z) : outcome (list Z) :=
  twos_complement_from len 0 array.

(** src/apint/arithmetic.rs 778-783 and 820-825: is some digit of [rhs] at an
    index in [lo .. lo + n] nonzero? *)
Fixpoint any_nonzero_rev (n lo : nat) (rhs : list Z) : outcome bool :=
  match n with
  | O => Val false
  | S n' =>
      let! r := idx rhs (lo + n') in
      if negb (d_is_zero r) then Val true else any_nonzero_rev n' lo rhs
  end.

(** src/apint/arithmetic.rs 786-794 ([b1] of [uge!]). *)
Fixpoint uge_b1 (n : nat) (lhs rhs : list Z) : outcome bool :=
  match n with
  | O => Val false
  | S i =>
      let! l := idx lhs i in
      let! r := idx rhs i in
      if l <? r then Val true
      else if negb (l =? r) then Val false
      else uge_b1 i lhs rhs
  end.
(** [uge!], src/apint/arithmetic.rs 767-803: [true] selects [$ge_branch]. *)
Definition uge (lhs_len : nat) (lhs : list Z) (rhs_len : nat) (rhs : list Z) : outcome bool :=
  let! b0 := any_nonzero_rev (rhs_len - lhs_len) lhs_len rhs in
  if b0 then Val false
  else let! b1 := uge_b1 lhs_len lhs rhs in Val (negb b1).

(** src/apint/arithmetic.rs 828-837 ([b1] of [ugt!]). *)
Fixpoint ugt_b1 (n : nat) (lhs rhs : list Z) : outcome bool :=
  match n with
  | O => Val true
  | S i =>
      let! l := idx lhs i in
      let! r := idx rhs i in
      if r <? l then Val false
      else if negb (l =? r) then Val true
      else ugt_b1 i lhs rhs
  end.
(** [ugt!], src/apint/arithmetic.rs 809-845: [true] selects [$gt_branch]. *)
Definition ugt (lhs_len : nat) (lhs : list Z) (rhs_len : nat) (rhs : list Z) : outcome bool :=
  let! b0 := any_nonzero_rev (rhs_len - lhs_len) lhs_len rhs in
  if b0 then Val false
  else let! b1 := ugt_b1 lhs_len lhs rhs in Val (negb b1).

(** One step of the loop of [special0!], src/apint/arithmetic.rs 855-864. *)
Definition special0_step (sub : list Z) (i : nat) (st : list Z * list Z * Z)
    : outcome (list Z * list Z * Z) :=
  let '(sum, target, carry) := st in
  let! s := idx sum i in
  let! b := idx sub i in
  let temp := dd_wadd (dd_wadd (dd s) (dd b)) (dd carry) in
  let! target := upd target i (dd_lo temp) in
  let! sum := upd sum i (d_unset_all s) in
  Val (sum, target, dd_hi temp).

(** [special0!], src/apint/arithmetic.rs 849-870, for three different slices:
    the new [sum] and [target]. *)
Definition special0 (len : nat) (sum sub target : list Z) (val : Z)
    : outcome (list Z * list Z) :=
  let! s := idx sum 0 in
  let! b := idx sub 0 in
  let '(t, carry) := d_carrying_add s b in
  let! target := upd target 0 t in
  let! sum := upd sum 0 val in
  let! last := nsub len 1 in
  let! (st, carry) := for_range (last - 1) 1 (special0_step sub) (sum, target, carry) in
  let '(sum, target) := st in
  let! s := idx sum last in
  let! b := idx sub last in
  let! target := upd target last (d_wrapping_add (d_wrapping_add s b) carry) in
  let! sum := upd sum last (d_unset_all s) in
  Val (sum, target).

(** One step of the loop of [special0!] when [$sub] and [$target] are the same
    slice (the call at src/apint/arithmetic.rs 965). *)
Definition special0_same_step (i : nat) (st : list Z * list Z * Z)
    : outcome (list Z * list Z * Z) :=
  let '(sum, target, carry) := st in
  let! s := idx sum i in
  let! b := idx target i in
  let temp := dd_wadd (dd_wadd (dd s) (dd b)) (dd carry) in
  let! target := upd target i (dd_lo temp) in
  let! sum := upd sum i (d_unset_all s) in
  Val (sum, target, dd_hi temp).
(** [special0!] with [$sub] and [$target] the same slice.  src/apint/arithmetic.rs 964. *)
Definition special0_same (len : nat) (sum target : list Z) (val : Z)
    : outcome (list Z * list Z) :=
  let! s := idx sum 0 in
  let! b := idx target 0 in
  let '(t, carry) := d_carrying_add s b in
  let! target := upd target 0 t in
  let! sum := upd sum 0 val in
  let! last := nsub len 1 in
  let! (st, carry) := for_range (last - 1) 1 special0_same_step (sum, target, carry) in
  let '(sum, target) := st in
  let! s := idx sum last in
  let! b := idx target last in
  let! target := upd target last (d_wrapping_add (d_wrapping_add s b) carry) in
  let! sum := upd sum last (d_unset_all s) in
  Val (sum, target).

(** First loop of [special1!], src/apint/arithmetic.rs 879-886. *)
Definition special1_step1 (sum sub : list Z) (i : nat) (st : list Z * Z) : outcome (list Z * Z) :=
  let '(targ, carry) := st in
  let! s := idx sum i in
  let! b := idx sub i in
  let temp := dd_wadd (dd_wadd (dd s) (dd b)) (dd carry) in
  let! targ := upd targ i (dd_lo temp) in
  Val (targ, dd_hi temp).
(** Second loop of [special1!], src/apint/arithmetic.rs 892-902.  The [break]
    at 896 leaves only the inner [for i1 in i0..$len] after one round. *)
Definition special1_step2 (add : list Z) (i0 : nat) (st : list Z * Z) : outcome (list Z * Z) :=
  let '(sum, carry) := st in
  let! sum :=
    if d_is_zero carry
    then let! a := idx add i0 in upd sum i0 a
    else Val sum in
  let! a := idx add i0 in
  let '(t, c) := d_carrying_add a carry in
  let! sum := upd sum i0 t in
  Val (sum, c).
(** [special1!], src/apint/arithmetic.rs 873-902: the new [sum] and [targ]. *)
Definition special1 (len : nat) (sum sub targ : list Z) (val : Z) (add : list Z)
    : outcome (list Z * list Z) :=
  let! s := idx sum 0 in
  let! b := idx sub 0 in
  let '(t, carry) := d_carrying_add s b in
  let! targ := upd targ 0 t in
  let! last := nsub len 1 in
  let! (targ, carry) := for_range (last - 1) 1 (special1_step1 sum sub) (targ, carry) in
  let! s := idx sum last in
  let! b := idx sub last in
  let! targ := upd targ last (d_wrapping_add (d_wrapping_add s b) carry) in
  let! a := idx add 0 in
  let '(t, carry) := d_carrying_add a val in
  let! sum := upd sum 0 t in
  let! (sum, _) := for_range (len - 1) 1 (special1_step2 add) (sum, carry) in
  Val (sum, targ).

(** [add!], src/apint/arithmetic.rs 906-922: the new [sum]; [add_step] is the
    identical loop body of addition (916-920 against 113-120). *)
Definition add_macro (len : nat) (sum add : list Z) : outcome (list Z) :=
  let! s := idx sum 0 in
  let! a := idx add 0 in
  let '(t, carry) := d_carrying_add s a in
  let! sum := upd sum 0 t in
  let! last := nsub len 1 in
  let! (sum, carry) := for_range (last - 1) 1 (add_step add) (sum, carry) in
  let! s := idx sum last in
  let! a := idx add last in
  upd sum last (d_wrapping_add (d_wrapping_add s a) carry).

(** * Slices *)

(** [dst[lo..hi].copy_from_slice(&src[lo..hi])].
    src/apint/arithmetic.rs 1367, 1381-1382, 1390-1391, 1415. *)
Definition copy_range (lo hi : nat) (dst src : list Z) : outcome (list Z) :=
  if Nat.leb lo hi && Nat.leb hi (length dst) && Nat.leb hi (length src)
  then Val (firstn lo dst ++ firstn (hi - lo) (skipn lo src) ++ skipn hi dst)
  else Panic.

(** [for d in ds.iter_mut().take(hi).skip(lo) { d.unset_all() }].
    src/apint/arithmetic.rs 944-952, 968-974. *)
Definition unset_take_skip (hi lo : nat) (ds : list Z) : list Z :=
  firstn lo ds ++ map d_unset_all (skipn lo (firstn hi ds)) ++ skipn (Nat.max lo hi) ds.

(** [div[i] = duo[i]; duo[i].unset_all();], src/apint/arithmetic.rs 944-947
    and 969-972. *)
Definition move_step (i : nat) (st : list Z * list Z) : outcome (list Z * list Z) :=
  let '(duo, div) := st in
  let! d := idx duo i in
  let! div := upd div i d in
  let! duo := upd duo i (d_unset_all d) in
  Val (duo, div).

(** * Long division *)

(** The 128 bits of [xs] below and including bit [64*(sd+1) - lz - 1]:
    src/apint/arithmetic.rs 984-1005, 1128-1134 and 1270-1277. *)
Definition sig_dd (xs : list Z) (sd : nat) (lz : Z) : outcome Z :=
  if lz =? 0 then
    let! i1 := nsub sd 1 in
    let! lo := idx xs i1 in
    let! hi := idx xs sd in
    Val (dd_from_lo_hi lo hi)
  else
    let! i1 := nsub sd 1 in
    let! i2 := nsub sd 2 in
    let! x := idx xs sd in
    let! y := idx xs i1 in
    let! z := idx xs i2 in
    let! k := usize_sub 64 lz in
    let! a := dd_shl (dd x) (lz + 64) in
    let! b := dd_shl (dd y) lz in
    let! c := dd_shr (dd z) k in
    Val (dd_or (dd_or a b) c).

(** The rows [mul * div] of src/apint/arithmetic.rs 1018-1022 and 1290-1294:
    pushes one digit per digit of [xs]. *)
Fixpoint sub_row (mul : Z) (xs : list Z) (carry : Z) : list Z * Z :=
  match xs with
  | [] => ([], carry)
  | x :: r =>
      let '(t, c) := d_carrying_mul_add mul x carry in
      let '(s, c') := sub_row mul r c in
      (t :: s, c')
  end.

(** The end of the `mul` or `mul - 1` algorithm: [mul - 1] is right,
    src/apint/arithmetic.rs 1033-1042, 1052-1061 and 1083-1092. *)
Definition finish_mul_sub1 (len : nat) (duo div sub : list Z) (mul : Z)
    : outcome (list Z * list Z) :=
  let! sub := twos_complement len sub in
  let! sub := add_macro len sub div in
  special0 len duo sub div (d_wrapping_sub mul ONE).
(** [mul] is right, src/apint/arithmetic.rs 1063-1069 and 1094-1100. *)
Definition finish_mul (len : nat) (duo div sub : list Z) (mul : Z)
    : outcome (list Z * list Z) :=
  let! sub := twos_complement len sub in
  special0 len duo sub div mul.

(** `mul` or `mul - 1`, src/apint/arithmetic.rs 981-1103. *)
Definition mul_or_mul_sub1 (len : nat) (duo : list Z) (ini_duo_sd : nat) (ini_duo_lz : Z)
    (div : list Z) (div_sd : nat) : outcome (list Z * list Z) :=
  let! duo_sig_dd := sig_dd duo ini_duo_sd ini_duo_lz in
  let! div_sig_dd := sig_dd div ini_duo_sd ini_duo_lz in
  let! m := dd_wdiv duo_sig_dd div_sig_dd in
  let mul := dd_lo m in
  let! div0 := idx div 0 in
  let '(t0, carry) := d_carrying_mul mul div0 in
  let '(row, carry) := sub_row mul (skipn 1 (firstn div_sd div)) carry in
  let sub := t0 :: row in
  let! dtop := idx div div_sd in
  let! last := nsub len 1 in
  if Nat.eqb div_sd last then
    let '(t, c) := d_carrying_mul_add mul dtop carry in
    let sub := sub ++ [t] in
    if negb (d_is_zero c) then finish_mul_sub1 len duo div sub mul
    else
      let! gt := ugt len sub len duo in
      if gt then finish_mul_sub1 len duo div sub mul
      else finish_mul len duo div sub mul
  else
    let '(t, c) := d_carrying_mul_add mul dtop carry in
    let sub := sub ++ [t; c] in
    let sub := sub ++ repeat ZERO (len - length sub) in
    let! gt := ugt len sub len duo in
    if gt then finish_mul_sub1 len duo div sub mul
    else finish_mul len duo div sub mul.

(** [for quo in ... { if carry.is_zero() { break } ... }],
    src/apint/arithmetic.rs 1165-1172. *)
Fixpoint carry_into (ds : list Z) (carry : Z) : list Z :=
  match ds with
  | [] => []
  | q :: r =>
      if d_is_zero carry then q :: r
      else let '(t, c) := d_carrying_add q carry in t :: carry_into r c
  end.

(** Adding [mul << bits] to [quo], src/apint/arithmetic.rs 1152-1172. *)
Definition add_to_quo (quo : list Z) (digits : nat) (bits_ll mul : Z) : outcome (list Z) :=
  let! split_mul := dd_shl mul bits_ll in
  let! q0 := idx quo digits in
  let '(t, carry) := d_carrying_add (dd_lo split_mul) q0 in
  let! quo := upd quo digits t in
  let! q1 := idx quo (digits + 1) in
  let temp := dd_wadd (dd_wadd (dd (dd_hi split_mul)) (dd q1)) (dd carry) in
  let! quo := upd quo (digits + 1) (dd_lo temp) in
  let carry := dd_hi temp in
  Val (firstn (digits + 2) quo ++ carry_into (skipn (digits + 2) quo) carry).

(** One step of the loop of src/apint/arithmetic.rs 1194-1213:
    [st] is ([duo], [wrap_carry], [mul_carry], [add_carry]). *)
Definition sub_lo_step (div : list Z) (digits : nat) (bits_ll mul : Z) (i : nat)
    (st : list Z * Z * Z * Z) : outcome (list Z * Z * Z * Z) :=
  let '(duo, wrap_carry, mul_carry, add_carry) := st in
  let! j := nsub i digits in
  let! x := idx div j in
  let! sh := dd_shl (dd x) bits_ll in
  let temp0 := dd_or sh (dd wrap_carry) in
  let temp1 := dd_wadd (dd_wmul (dd mul) (dd (dd_lo temp0))) (dd mul_carry) in
  let! d := idx duo i in
  let temp2 := dd_wadd (dd_wadd (dd (d_not (dd_lo temp1))) (dd d)) (dd add_carry) in
  let! duo := upd duo i (dd_lo temp2) in
  Val (duo, dd_hi temp0, dd_hi temp1, dd_hi temp2).

(** Subtracting [(mul * div) << bits] when [mul] fits a digit,
    src/apint/arithmetic.rs 1179-1213. *)
Definition sub_lo (duo div : list Z) (duo_sd digits : nat) (bits_ll mul : Z) : outcome (list Z) :=
  let mul := dd_lo mul in
  let! x := idx div 0 in
  let! sh := dd_shl (dd x) bits_ll in
  let temp0 := dd_lo sh in
  let wrap_carry := dd_hi sh in
  let t1 := dd_wmul (dd mul) (dd temp0) in
  let temp1 := dd_lo t1 in
  let mul_carry := dd_hi t1 in
  let! d := idx duo digits in
  let t2 := dd_wadd (dd_wadd (dd (d_not temp1)) (dd d)) (dd ONE) in
  let! duo := upd duo digits (dd_lo t2) in
  let! st := for_range (duo_sd - digits) (digits + 1) (sub_lo_step div digits bits_ll mul)
               (duo, wrap_carry, mul_carry, dd_hi t2) in
  let '(duo, _, _, _) := st in
  Val duo.

(** One step of the loop of src/apint/arithmetic.rs 1243-1266: [st] is
    ([duo], [mul_carry], [add0_carry], [wrap_carry], [add1_carry]). *)
Definition sub_hi_step (div : list Z) (digits : nat) (bits_ll mul : Z) (i : nat)
    (st : list Z * Z * Z * Z * Z) : outcome (list Z * Z * Z * Z * Z) :=
  let '(duo, mul_carry, add0_carry, wrap_carry, add1_carry) := st in
  let! j := nsub i digits in
  let! x := idx div j in
  let temp0 := dd_wadd (dd_wmul (dd mul) (dd x)) (dd mul_carry) in
  let! j1 := nsub j 1 in
  let! y := idx div j1 in
  let temp1 := dd_wadd (dd_wadd (dd (dd_lo temp0)) (dd y)) (dd add0_carry) in
  let! sh := dd_shl (dd (d_not (dd_lo temp1))) bits_ll in
  let temp2 := dd_wadd sh (dd wrap_carry) in
  let! d := idx duo i in
  let temp3 := dd_wadd (dd_wadd (dd (dd_lo temp2)) (dd d)) (dd add1_carry) in
  let! duo := upd duo i (dd_lo temp3) in
  Val (duo, dd_hi temp0, dd_hi temp1, dd_hi temp2, dd_hi temp3).

(** Subtracting [(mul * div) << bits] when [mul] has a 65th bit,
    src/apint/arithmetic.rs 1214-1267. *)
Definition sub_hi (duo div : list Z) (duo_sd digits : nat) (bits_ll mul : Z) : outcome (list Z) :=
  let mul := dd_lo mul in
  let! x := idx div 0 in
  let '(temp0, mul_carry) := d_carrying_mul mul x in
  let temp1 := temp0 in
  let add0_carry := ZERO in
  let! t2 := dd_shl (dd_wadd (dd (d_not temp1)) (dd ONE)) bits_ll in
  let temp2 := dd_lo t2 in
  let wrap_carry := dd_hi t2 in
  let! d := idx duo digits in
  let '(temp3, add1_carry) := d_carrying_add temp2 d in
  let! duo := upd duo digits temp3 in
  let! st := for_range (duo_sd - digits) (digits + 1) (sub_hi_step div digits bits_ll mul)
               (duo, mul_carry, add0_carry, wrap_carry, add1_carry) in
  let '(duo, _, _, _, _) := st in
  Val duo.

(** The `mul` or `mul - 1` algorithm with addition from [quo],
    src/apint/arithmetic.rs 1268-1332. *)
Definition mul_or_mul_sub1_quo (len : nat) (duo : list Z) (duo_sd : nat) (duo_lz duo_sig_dd : Z)
    (div : list Z) (div_sd : nat) (quo : list Z) : outcome (list Z * list Z) :=
  let! div_sig_dd := sig_dd div duo_sd duo_lz in
  let! m := dd_wdiv duo_sig_dd div_sig_dd in
  let mul := dd_lo m in
  let! div0 := idx div 0 in
  let t0 := dd_wmul (dd mul) (dd div0) in
  let '(row, mul_carry) := sub_row mul (skipn 1 (firstn div_sd div)) (dd_hi t0) in
  let! dtop := idx div div_sd in
  let '(t, c) := d_carrying_mul_add mul dtop mul_carry in
  let sub := (dd_lo t0 :: row) ++ [t; c] in
  let sub := sub ++ repeat ZERO (len - (div_sd + 2)) in
  let sub_len := length sub in
  let! gt := ugt sub_len sub len duo in
  if gt then
    let! sub := twos_complement sub_len sub in
    let! sub := add_macro sub_len sub div in
    special1 sub_len duo sub div (d_wrapping_sub mul ONE) quo
  else
    let! sub := twos_complement sub_len sub in
    special1 sub_len duo sub div mul quo.

(** src/apint/arithmetic.rs 1335-1348: the index of the most significant
    nonzero digit among the first [n]; [None] if there is none. *)
Fixpoint find_sd (n : nat) (duo : list Z) : outcome (option nat) :=
  match n with
  | O => Val None
  | S i =>
      let! d := idx duo i in
      if negb (d_is_zero d) then Val (Some i) else find_sd i duo
  end.

(** [duo] becomes [quo + 1], src/apint/arithmetic.rs 1364-1378: the loop over
    [i0 .. i0 + n] where [i0 + n] is [len]. *)
Fixpoint quo_add1_from (n i0 len : nat) (duo quo : list Z) : outcome (list Z) :=
  match n with
  | O => Val duo
  | S n' =>
      let! q := idx quo i0 in
      match d_overflowing_add q ONE with
      | (v, false) =>
          let! duo := upd duo i0 v in
          copy_range (S i0) len duo quo
      | (v, true) =>
          let! duo := upd duo i0 v in
          quo_add1_from n' (S i0) len duo quo
      end
  end.

(** [duo] becomes [quo] plus [carry] at digit [i0], src/apint/arithmetic.rs
    1415-1423: the loop over [i0 .. i0 + n] where [i0 + n] is [len]. *)
Fixpoint quo_add_carry_from (n i0 len : nat) (duo quo : list Z) (carry : Z) : outcome (list Z) :=
  match n with
  | O => Val duo
  | S n' =>
      if d_is_zero carry then copy_range i0 len duo quo
      else
        let! q := idx quo i0 in
        let '(t, c) := d_carrying_add q carry in
        let! duo := upd duo i0 t in
        quo_add_carry_from n' (S i0) len duo quo c
  end.

(** src/apint/arithmetic.rs 1399-1424: two-digit division and addition. *)
Definition small_tail (len : nat) (duo div quo : list Z) : outcome (list Z * list Z) :=
  let! u0 := idx duo 0 in
  let! u1 := idx duo 1 in
  let! v0 := idx div 0 in
  let! v1 := idx div 1 in
  let! (mul, rem) := dd_wdivrem (dd_from_lo_hi u0 u1) (dd_from_lo_hi v0 v1) in
  let! div := upd div 0 (dd_lo rem) in
  let! div := upd div 1 (dd_hi rem) in
  let! q0 := idx quo 0 in
  let '(t, carry) := d_carrying_add q0 (dd_lo mul) in
  let! duo := upd duo 0 t in
  let! q1 := idx quo 1 in
  let temp := dd_wadd (dd_wadd (dd q1) (dd (dd_hi mul))) (dd carry) in
  let! duo := upd duo 1 (dd_lo temp) in
  let! duo := quo_add_carry_from (len - 2) 2 len duo quo (dd_hi temp) in
  Val (duo, div).

(** The [loop] of src/apint/arithmetic.rs 1125-1424. *)
Fixpoint div_loop (fuel len : nat) (duo div quo : list Z) (duo_sd : nat) (duo_lz : Z)
    (div_sd : nat) (div_sb div_lesser_bits div_sig_d_add1 : Z) : outcome (list Z * list Z) :=
  match fuel with
  | O => OutOfFuel
  | S fuel' =>
      let! d2 := nsub duo_sd 2 in
      let! dl := usize_sub 64 duo_lz in
      let duo_lesser_bits := dl + 64 * Z.of_nat d2 in
      let! duo_sig_dd := sig_dd duo duo_sd duo_lz in
      if div_lesser_bits <=? duo_lesser_bits then
        let bits := duo_lesser_bits - div_lesser_bits in
        let digits := Z.to_nat (bits / 64) in
        let bits_ll := bits mod 64 in
        let! mul := dd_wdiv duo_sig_dd div_sig_d_add1 in
        let! quo := add_to_quo quo digits bits_ll mul in
        let! duo :=
          if d_is_zero (dd_hi mul)
          then sub_lo duo div duo_sd digits bits_ll mul
          else sub_hi duo div duo_sd digits bits_ll mul in
        let! o := find_sd (duo_sd + 1) duo in
        match o with
        | None =>
            let! div := for_range len 0 (fun i div => upd div i ZERO) div in
            let! duo := for_range len 0 (fun i duo => let! q := idx quo i in upd duo i q) duo in
            Val (duo, div)
        | Some duo_sd =>
            let! d := idx duo duo_sd in
            let duo_lz := d_leading_zeros d in
            let! k := usize_sub 64 duo_lz in
            let duo_sb := Z.of_nat duo_sd * 64 + k in
            if duo_sb =? div_sb then
              let! ge := uge len duo len div in
              if ge then
                let! div := twos_complement len div in
                let! div := add_macro len div duo in
                let! duo := quo_add1_from len 0 len duo quo in
                Val (duo, div)
              else
                let! div := copy_range 0 len div duo in
                let! duo := copy_range 0 len duo quo in
                Val (duo, div)
            else if duo_sb <? div_sb then
              let! div := copy_range 0 len div duo in
              let! duo := copy_range 0 len duo quo in
              Val (duo, div)
            else if Nat.ltb duo_sd 2 then small_tail len duo div quo
            else div_loop fuel' len duo div quo duo_sd duo_lz div_sd div_sb
                   div_lesser_bits div_sig_d_add1
        end
      else mul_or_mul_sub1_quo len duo duo_sd duo_lz duo_sig_dd div div_sd quo
  end.

(** [large_div_by_large], src/apint/arithmetic.rs 928-1425.  The loop halves
    [duo] at least, so one round per bit (and one more) is enough fuel. *)
Definition large_div_by_large (len : nat) (duo : list Z) (ini_duo_sd : nat)
    (div : list Z) (div_sd : nat) : outcome (list Z * list Z) :=
  let! dtop := idx duo ini_duo_sd in
  let ini_duo_lz := d_leading_zeros dtop in
  let! vtop := idx div div_sd in
  let div_lz := d_leading_zeros vtop in
  let! a := usize_sub 64 ini_duo_lz in
  let ini_duo_sb := Z.of_nat ini_duo_sd * 64 + a in
  let! b := usize_sub 64 div_lz in
  let div_sb := Z.of_nat div_sd * 64 + b in
  if ini_duo_sb <? div_sb then
    let! (duo, div) := for_range (ini_duo_sd + 1) 0 move_step (duo, div) in
    Val (duo, unset_take_skip (div_sd + 1) (ini_duo_sd + 1) div)
  else if ini_duo_sb =? div_sb then
    let place := (ini_duo_sd + 1)%nat in
    let! ge := uge place duo place div in
    if ge then
      let! div := twos_complement place div in
      special0_same place duo div ONE
    else
      let! (duo, div) := for_range (ini_duo_sd + 1) 0 move_step (duo, div) in
      Val (duo, unset_take_skip (div_sd + 1) place div)
  else
    let ini_bits := ini_duo_sb - div_sb in
    if ini_bits <? 64 then mul_or_mul_sub1 len duo ini_duo_sd ini_duo_lz div div_sd
    else
      let! dm := nsub div_sd 1 in
      let div_lesser_bits := b + 64 * Z.of_nat dm in
      let! div_sig_d :=
        if div_lz =? 0 then Val vtop
        else
          let! y := idx div dm in
          let! k := usize_sub 64 div_lz in
          Val (d_or (d_shl vtop div_lz) (d_shr y k)) in
      let div_sig_d_add1 := dd_wadd (dd div_sig_d) (dd ONE) in
      let quo := repeat ZERO len in
      div_loop (64 * len + 1) len duo div quo ini_duo_sd ini_duo_lz div_sd div_sb
        div_lesser_bits div_sig_d_add1.

(** [aarons_algorithm_divrem], src/apint/arithmetic.rs 651-1498: the new [duo]
    (quotient), [div] (remainder) and the returned flag. *)
Definition aarons_algorithm_divrem (duo div : list Z) : outcome (list Z * list Z * bool) :=
  match rposition_nonzero div with
  | Some div_sd =>
      match rposition_nonzero duo with
      | None => Val (duo, map d_unset_all div, true)
      | Some ini_duo_sd =>
          if Nat.ltb ini_duo_sd div_sd then
            Val (zip_update (fun duo_d _ => d_unset_all duo_d) duo div,
                 zip_update (fun _ duo_d => duo_d) div duo, true)
          else
            match Nat.eqb ini_duo_sd 0, Nat.eqb div_sd 0 with
            | false, false =>
                if Nat.eqb ini_duo_sd 1 then
                  let! u0 := idx duo 0 in
                  let! u1 := idx duo 1 in
                  let! v0 := idx div 0 in
                  let! v1 := idx div 1 in
                  let! (q, r) := dd_wdivrem (dd_from_lo_hi u0 u1) (dd_from_lo_hi v0 v1) in
                  let! duo := upd duo 0 (dd_lo q) in
                  let! duo := upd duo 1 (dd_hi q) in
                  let! div := upd div 0 (dd_lo r) in
                  let! div := upd div 1 (dd_hi r) in
                  Val (duo, div, true)
                else
                  let! (duo, div) := large_div_by_large (length duo) duo ini_duo_sd div div_sd in
                  Val (duo, div, true)
            | true, false => Panic
            | false, true =>
                let! v := idx div 0 in
                if 32 <=? d_leading_zeros v then
                  let! (duo, div) := large_div_by_u32 duo ini_duo_sd div in
                  Val (duo, div, true)
                else
                  let! (duo, div) := large_div_by_small duo ini_duo_sd div in
                  Val (duo, div, true)
            | true, true =>
                let! u := idx duo 0 in
                let! v := idx div 0 in
                let! (q, r) := d_wrapping_divrem u v in
                let! duo := upd duo 0 q in
                let! div := upd div 0 r in
                Val (duo, div, true)
            end
      end
  | None => Val (duo, div, false)
  end.

(** One step of the swap loop of src/apint/arithmetic.rs 1513-1517. *)
Definition swap_step (i : nat) (st : list Z * list Z) : outcome (list Z * list Z) :=
  let '(duo, div) := st in
  let! temp := idx duo i in
  let! v := idx div i in
  let! duo := upd duo i v in
  let! div := upd div i temp in
  Val (duo, div).
(** [aarons_algorithm_remdiv], src/apint/arithmetic.rs 1507-1522. *)
Definition aarons_algorithm_remdiv (duo div : list Z) : outcome (list Z * list Z * bool) :=
  let! (st, ok) := aarons_algorithm_divrem duo div in
  let '(duo, div) := st in
  if ok then
    let! (duo, div) := for_range (length duo) 0 swap_step (duo, div) in
    Val (duo, div, true)
  else Val (duo, div, false).

(** * Unsigned division *)

(** [Err(Error::division_by_zero(op, x.clone()))].
    src/apint/arithmetic.rs 1556, 1586, 1610, 1645, 1674, 1719, 1758, 1805. *)
Definition division_by_zero (op : div_op) (x : apint) : outcome error_kind :=
  let! c := clone x in Val (DivisionByZero op c).

(** The result of a function taking two [&mut ApInt] and returning
    [Result<()>]: both values afterwards.  src/apint/arithmetic.rs 1541-1747. *)
Definition mut2_result : Type := outcome (apint * apint * result unit).

(** src/apint/arithmetic.rs 1532-1557. *)
Definition wrapping_udivrem_assign (lhs rhs : apint) : mut2_result :=
  let! z := zip_access_data lhs rhs in
  match z with
  | Err e => Val (lhs, rhs, Err e)
  | Ok (ZInl duo div) =>
      if negb (d_is_zero div) then
        let! (q, r) := d_wrapping_divrem duo div in
        Val (write_inl lhs q, write_inl rhs r, Ok tt)
      else let! e := division_by_zero UnsignedDivRem lhs in Val (lhs, rhs, Err e)
  | Ok (ZExt duo div) =>
      let! (st, ok) := aarons_algorithm_divrem duo div in
      let '(duo, div) := st in
      let lhs := write_ext lhs duo in
      let rhs := write_ext rhs div in
      if ok : bool then Val (lhs, rhs, Ok tt)
      else let! e := division_by_zero UnsignedDivRem lhs in Val (lhs, rhs, Err e)
  end.

(** src/apint/arithmetic.rs 1567-1587. *)
Definition wrapping_uremdiv_assign (lhs rhs : apint) : mut2_result :=
  let! z := zip_access_data lhs rhs in
  match z with
  | Err e => Val (lhs, rhs, Err e)
  | Ok (ZInl duo div) =>
      if negb (d_is_zero div) then
        let! (q, r) := d_wrapping_divrem duo div in
        Val (write_inl lhs r, write_inl rhs q, Ok tt)
      else let! e := division_by_zero UnsignedRemDiv lhs in Val (lhs, rhs, Err e)
  | Ok (ZExt duo div) =>
      let! (st, ok) := aarons_algorithm_remdiv duo div in
      let '(duo, div) := st in
      let lhs := write_ext lhs duo in
      let rhs := write_ext rhs div in
      if ok : bool then Val (lhs, rhs, Ok tt)
      else let! e := division_by_zero UnsignedRemDiv lhs in Val (lhs, rhs, Err e)
  end.

(** src/apint/arithmetic.rs 1596-1611; [div.to_vec()] is a copy. *)
Definition wrapping_udiv_assign (a rhs : apint) : mut_result :=
  let! z := zip_access_data a rhs in
  match z with
  | Err e => Val (a, Err e)
  | Ok (ZInl duo div) =>
      if negb (d_is_zero div) then
        let! q := d_wrapping_div duo div in
        Val (write_inl a q, Ok tt)
      else let! e := division_by_zero UnsignedDiv a in Val (a, Err e)
  | Ok (ZExt duo div) =>
      let! (st, ok) := aarons_algorithm_divrem duo div in
      let '(duo, _) := st in
      let a := write_ext a duo in
      if ok : bool then Val (a, Ok tt)
      else let! e := division_by_zero UnsignedDiv a in Val (a, Err e)
  end.
(** src/apint/arithmetic.rs 1620-1622. *)
Definition into_wrapping_udiv (a rhs : apint) : outcome (result apint) :=
  try_forward_bin_mut_impl wrapping_udiv_assign a rhs.

(** src/apint/arithmetic.rs 1631-1646. *)
Definition wrapping_urem_assign (a rhs : apint) : mut_result :=
  let! z := zip_access_data a rhs in
  match z with
  | Err e => Val (a, Err e)
  | Ok (ZInl duo div) =>
      if negb (d_is_zero div) then
        let! r := d_wrapping_rem duo div in
        Val (write_inl a r, Ok tt)
      else let! e := division_by_zero UnsignedRem a in Val (a, Err e)
  | Ok (ZExt duo div) =>
      let! (st, ok) := aarons_algorithm_remdiv duo div in
      let '(duo, _) := st in
      let a := write_ext a duo in
      if ok : bool then Val (a, Ok tt)
      else let! e := division_by_zero UnsignedRem a in Val (a, Err e)
  end.
(** src/apint/arithmetic.rs 1655-1657. *)
Definition into_wrapping_urem (a rhs : apint) : outcome (result apint) :=
  try_forward_bin_mut_impl wrapping_urem_assign a rhs.

(** * Signed division *)

(** [.unwrap()] on the [Result<()>] of such a function.
    src/apint/arithmetic.rs 1693, 1738. *)
Definition unwrap_mut2 (m : mut2_result) : outcome (apint * apint) :=
  let! (st, r) := m in
  let! _ := unwrap r in
  Val st.

(** [if flag { x.wrapping_neg() }].  src/apint/arithmetic.rs 1694-1699, 1739-1744. *)
Definition neg_if (flag : bool) (x : apint) : outcome apint :=
  if flag then wrapping_neg x else Val x.

(** src/apint/arithmetic.rs 1667-1702. *)
Definition wrapping_sdivrem_assign (lhs rhs : apint) : mut2_result :=
  let! z := is_zero rhs in
  if z : bool then let! e := division_by_zero SignedDivRem lhs in Val (lhs, rhs, Err e)
  else
    let! ml := msb lhs in
    let! mr := msb rhs in
    let '(negate_lhs, negate_rhs) :=
      match ml, mr with
      | false, false => (false, false)
      | true, false => (true, true)
      | false, true => (true, false)
      | true, true => (false, true)
      end in
    let! lhs := neg_if ml lhs in
    let! rhs := neg_if mr rhs in
    let! (lhs, rhs) := unwrap_mut2 (wrapping_udivrem_assign lhs rhs) in
    let! lhs := neg_if negate_lhs lhs in
    let! rhs := neg_if negate_rhs rhs in
    Val (lhs, rhs, Ok tt).

(** src/apint/arithmetic.rs 1712-1747. *)
Definition wrapping_sremdiv_assign (lhs rhs : apint) : mut2_result :=
  let! z := is_zero rhs in
  if z : bool then let! e := division_by_zero SignedRemDiv lhs in Val (lhs, rhs, Err e)
  else
    let! ml := msb lhs in
    let! mr := msb rhs in
    let '(negate_lhs, negate_rhs) :=
      match ml, mr with
      | false, false => (false, false)
      | true, false => (true, true)
      | false, true => (false, true)
      | true, true => (true, false)
      end in
    let! lhs := neg_if ml lhs in
    let! rhs := neg_if mr rhs in
    let! (lhs, rhs) := unwrap_mut2 (wrapping_uremdiv_assign lhs rhs) in
    let! lhs := neg_if negate_lhs lhs in
    let! rhs := neg_if negate_rhs rhs in
    Val (lhs, rhs, Ok tt).

(** src/apint/arithmetic.rs 1756-1783. *)
Definition wrapping_sdiv_assign (a rhs : apint) : mut_result :=
  let! z := is_zero rhs in
  if z : bool then let! e := division_by_zero SignedDiv a in Val (a, Err e)
  else
    let! rhs_clone := clone rhs in
    let! ml := msb a in
    let! mr := msb rhs_clone in
    let negate_lhs :=
      match ml, mr with
      | false, false => false
      | true, false => true
      | false, true => true
      | true, true => false
      end in
    let! a := neg_if ml a in
    let! rhs_clone := neg_if mr rhs_clone in
    let! (a, _) := unwrap_mut2 (wrapping_udivrem_assign a rhs_clone) in
    let! a := neg_if negate_lhs a in
    Val (a, Ok tt).
(** src/apint/arithmetic.rs 1792-1794. *)
Definition into_wrapping_sdiv (a rhs : apint) : outcome (result apint) :=
  try_forward_bin_mut_impl wrapping_sdiv_assign a rhs.

(** src/apint/arithmetic.rs 1803-1830. *)
Definition wrapping_srem_assign (a rhs : apint) : mut_result :=
  let! z := is_zero rhs in
  if z : bool then let! e := division_by_zero SignedRem a in Val (a, Err e)
  else
    let! rhs_clone := clone rhs in
    let! ml := msb a in
    let! mr := msb rhs_clone in
    let negate_lhs :=
      match ml, mr with
      | false, false => false
      | true, false => true
      | false, true => false
      | true, true => true
      end in
    let! a := neg_if ml a in
    let! rhs_clone := neg_if mr rhs_clone in
    let! (a, _) := unwrap_mut2 (wrapping_uremdiv_assign a rhs_clone) in
    let! a := neg_if negate_lhs a in
    Val (a, Ok tt).
(** src/apint/arithmetic.rs 1839-1841. *)
Definition into_wrapping_srem (a rhs : apint) : outcome (result apint) :=
  try_forward_bin_mut_impl wrapping_srem_assign a rhs.
