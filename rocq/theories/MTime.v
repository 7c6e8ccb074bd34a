(** How long arithmetic takes.

    Each definition below repeats the one of MShift.v, MArith.v or MDiv.v of the
    same name and counts, besides, its steps: one for each digit that is read or
    written by its index, and one for each digit that an iterator or a slice
    function passes over or a vector is extended by.  Loops over all digits that may stop early
    are counted in full.  What is done with one digit, and the setting up of a
    call, is not counted: it takes a constant time.  That the results are those
    of the definitions repeated is part of C96.  No proofs in this file. *)
From Verif Require Export MDiv.

(** A computation and its steps.  src/apint/arithmetic.rs 29-1841. *)
Definition clocked (A : Type) : Type := Z * outcome A.
(** What takes no steps.  src/apint/arithmetic.rs 29-1841. *)
Definition clift {A : Type} (o : outcome A) : clocked A := (0, o).
(** src/apint/arithmetic.rs 29-1841. *)
Definition cval {A : Type} (a : A) : clocked A := (0, Val a).
(** [n] digits are passed over.  E.g. src/apint/arithmetic.rs 303. *)
Definition cpay (n : nat) : clocked unit := (Z.of_nat n, Val tt).
(** One thing after the other; after a panic nothing.  src/apint/arithmetic.rs 29-1841. *)
Definition cbind {A C : Type} (m : clocked A) (k : A -> clocked C) : clocked C :=
  match snd m with
  | Val a => let r := k a in (fst m + fst r, snd r)
  | Stop b => (fst m, Stop b)
  | OutOfFuel => (fst m, OutOfFuel)
  end.
Notation "'let~' x ':=' m 'in' k" :=
  (cbind m (fun x => k))
  (at level 200, x pattern, m at level 100, k at level 200, right associativity).
(** [ds[i]].  E.g. src/apint/arithmetic.rs 235-250. *)
Definition c_idx {A : Type} (ds : list A) (i : nat) : clocked A := (1, idx ds i).
(** [ds[i] = v].  E.g. src/apint/arithmetic.rs 235-250. *)
Definition c_upd {A : Type} (ds : list A) (i : nat) (v : A) : clocked (list A) := (1, upd ds i v).
(** A [for] loop.  E.g. src/apint/arithmetic.rs 242. *)
Fixpoint c_for_range {S : Type} (n lo : nat) (body : nat -> S -> clocked S) (s : S) : clocked S :=
  match n with
  | O => cval s
  | Datatypes.S n' => let~ s' := body lo s in c_for_range n' (Datatypes.S lo) body s'
  end.
(** A [for] loop downwards.  E.g. src/apint/arithmetic.rs 727. *)
Fixpoint c_for_range_rev {S : Type} (n lo : nat) (body : nat -> S -> clocked S) (s : S) : clocked S :=
  match n with
  | O => cval s
  | Datatypes.S n' => let~ s' := body (lo + n')%nat s in c_for_range_rev n' lo body s'
  end.
(** [dst[lo..hi].copy_from_slice(&src[lo..hi])].  src/apint/arithmetic.rs 1367, 1381-1382, 1390-1391, 1415. *)
Definition c_copy_range (lo hi : nat) (dst src : list Z) : clocked (list Z) :=
  (Z.of_nat (hi - lo), copy_range lo hi dst src).
(** Reads and writes the most significant digit.  src/apint/utils.rs 366-375. *)
Definition c_clear_unused_bits (a : apint) : clocked apint := (2, clear_unused_bits a).
(** Reads the most significant digit.  src/apint/utils.rs 339-347. *)
Definition c_msb (a : apint) : clocked bool := (1, msb a).
(** src/apint/utils.rs 385-392. *)
Definition c_is_zero (a : apint) : clocked bool := (Z.of_nat (length (digits a)), is_zero a).
(** src/apint/bitwise.rs 20-23. *)
Definition c_bitnot (a : apint) : clocked apint := (Z.of_nat (length (digits a)) + 2, bitnot a).
(** src/apint/casting.rs 13-29. *)
Definition c_clone (a : apint) : clocked apint := (Z.of_nat (length (digits a)), clone a).
(** The copy inside the error.  src/apint/arithmetic.rs 1556, 1586, 1610, 1645, 1674, 1719, 1758, 1805. *)
Definition c_division_by_zero (op : div_op) (x : apint) : clocked error_kind :=
  let~ c := c_clone x in cval (DivisionByZero op c).
(** [.unwrap()].  src/apint/arithmetic.rs 1693, 1738. *)
Definition c_unwrap_mut2 (m : clocked (apint * apint * result unit)) : clocked (apint * apint) :=
  let~ (st, r) := m in
  let~ _ := clift (unwrap r) in
  cval st.

(** src/apint/shift.rs 76-121. *)
Definition c_wrapping_shl_assign (a : apint) (s : Z) : clocked (apint * result unit) :=
  match verify_shift_amount (width a) s with
  | Err e => cval (a, Err e)
  | Ok _ =>
      let~ acc := clift (access_data a) in
      let~ a1 :=
        match acc with
        | DInl d => let~ d' := clift (u64_shl d s) in cval (write_inl a d')
        | DExt ds =>
            let steps := digit_steps s in
            let~ _ := cpay (length ds) in
            let~ ds1 := clift (shl_digits steps ds) in
            let bits := bit_steps s in
            let~ ds2 := if negb (bits =? 0)
                        then let~ _ := cpay (length ds1) in clift (modify_from steps (shl_loop bits 0) ds1)
                        else cval ds1 in
            cval (write_ext a ds2)
        end in
      let~ a2 := c_clear_unused_bits a1 in
      cval (a2, Ok tt)
  end.

(** src/apint/shift.rs 147-180. *)
Definition c_wrapping_lshr_assign (a : apint) (s : Z) : clocked (apint * result unit) :=
  match verify_shift_amount (width a) s with
  | Err e => cval (a, Err e)
  | Ok _ =>
      let~ acc := clift (access_data a) in
      match acc with
      | DInl d => let~ d' := clift (u64_shr d s) in cval (write_inl a d', Ok tt)
      | DExt ds =>
          let steps := digit_steps s in
          let~ _ := cpay (length ds + steps) in
          let~ ds1 := clift (lshr_digits steps ds) in
          let bits := bit_steps s in
          let~ ds2 := if 0 <? bits
                      then let~ _ := cpay (length ds1) in let~ r := clift (lshr_loop bits 0 (rev ds1)) in cval (rev r)
                      else cval ds1 in
          cval (write_ext a ds2, Ok tt)
      end
  end.

(** src/apint/shift.rs 246-250: subdigit shift. *)
Definition c_ashr_subdigit (bits uns : Z) (x : list Z) : clocked (list Z) :=
  let~ last := clift (nsub (length x) 1) in
  let~ x := c_for_range last 0 (fun i x =>
      let~ xi := c_idx x i in
      let~ xi1 := c_idx x (i + 1) in
      c_upd x i (d_or (d_shr xi bits) (d_shl xi1 uns))) x in
  let~ xl := c_idx x last in
  c_upd x last (d_or (d_shr xl bits) (d_shl ONES uns)).

(** src/apint/shift.rs 256-258 and 266-268. *)
Definition c_ashr_fill (digits diff : nat) (x : list Z) : clocked (list Z) :=
  c_for_range digits 0 (fun i x =>
      let~ v := c_idx x (i + diff) in
      c_upd x (i + diff) (d_set_all v)) x.

(** src/apint/shift.rs 253-258: digit shift. *)
Definition c_ashr_digit (digits diff : nat) (x : list Z) : clocked (list Z) :=
  let~ x := c_for_range (length x - digits) digits (fun i x =>
      let~ v := c_idx x i in
      let~ j := clift (nsub i digits) in
      c_upd x j v) x in
  c_ashr_fill digits diff x.

(** src/apint/shift.rs 261-268: digit and subdigit shift. *)
Definition c_ashr_both (digits diff : nat) (bits uns : Z) (x : list Z) : clocked (list Z) :=
  let~ last := clift (nsub (length x) 1) in
  let~ x := c_for_range (last - digits) digits (fun i x =>
      let~ xi := c_idx x i in
      let~ xi1 := c_idx x (i + 1) in
      let~ j := clift (nsub i digits) in
      c_upd x j (d_or (d_shr xi bits) (d_shl xi1 uns))) x in
  let~ j := clift (nsub diff 1) in
  let~ xl := c_idx x last in
  let~ x := c_upd x j (d_or (d_shr xl bits) (d_shl ONES uns)) in
  c_ashr_fill digits diff x.

(** src/apint/shift.rs 216-274. *)
Definition c_wrapping_ashr_assign (a : apint) (s : Z) : clocked (apint * result unit) :=
  let~ m := c_msb a in
  if negb m then c_wrapping_lshr_assign a s
  else
    match verify_shift_amount (width a) s with
    | Err e => cval (a, Err e)
    | Ok _ =>
        if s =? 0 then cval (a, Ok tt)
        else
          let width := width a in
          let width_bits := width mod 64 in
          let digits := Z.to_nat (s / 64) in
          let bits := s mod 64 in
          let~ uns := clift (usize_sub 64 bits) in
          let~ acc := clift (access_data a) in
          let~ a1 :=
            match acc with
            | DInl x =>
                let~ k := clift (usize_sub width bits) in
                cval (write_inl a (d_or (d_shr x bits) (d_shl ONES k)))
            | DExt x =>
                let~ x :=
                  if negb (width_bits =? 0) then
                    let~ last := clift (nsub (length x) 1) in
                    let~ v := c_idx x last in
                    let~ r := clift (d_sign_extend_from v width_bits) in
                    let~ v' := clift (unwrap r) in
                    c_upd x last v'
                  else cval x in
                let~ diff := clift (nsub (length x) digits) in
                let~ x :=
                  if Nat.eqb digits 0 then c_ashr_subdigit bits uns x
                  else if bits =? 0 then c_ashr_digit digits diff x
                  else c_ashr_both digits diff bits uns x in
                cval (write_ext a x)
            end in
          let~ a2 := c_clear_unused_bits a1 in
          cval (a2, Ok tt)
    end.

(** src/apint/arithmetic.rs 29-51, 54-56. *)
Definition c_wrapping_inc (a : apint) : clocked apint :=
  let~ acc := clift (access_data a) in
  let~ a1 :=
    match acc with
    | DInl x => cval (write_inl a (d_wrapping_add x ONE))
    | DExt xs => let~ _ := cpay (length xs) in cval (write_ext a (inc_loop xs))
    end in
  c_clear_unused_bits a1.

(** src/apint/arithmetic.rs 59-81, 84-86. *)
Definition c_wrapping_dec (a : apint) : clocked apint :=
  let~ acc := clift (access_data a) in
  let~ a1 :=
    match acc with
    | DInl x => cval (write_inl a (d_wrapping_sub x ONE))
    | DExt xs => let~ _ := cpay (length xs) in cval (write_ext a (dec_loop xs))
    end in
  c_clear_unused_bits a1.

(** src/apint/arithmetic.rs 89-93, 96-98. *)
Definition c_wrapping_neg (a : apint) : clocked apint :=
  let~ a := c_bitnot a in c_wrapping_inc a.

(** src/apint/arithmetic.rs 113-120: one step of the carry loop at index [i]. *)
Definition c_add_step (rhs : list Z) (i : nat) (st : list Z * Z) : clocked (list Z * Z) :=
  let '(lhs, carry) := st in
  let~ l := c_idx lhs i in
  let~ r := c_idx rhs i in
  let temp := dd_wadd (dd_wadd (dd l) (dd r)) (dd carry) in
  let~ lhs := c_upd lhs i (dd_lo temp) in
  cval (lhs, dd_hi temp).

(** src/apint/arithmetic.rs 110-121: the digits and the last carry. *)
Definition c_add_digits (lhs rhs : list Z) : clocked (list Z * Z) :=
  let~ l := c_idx lhs 0 in
  let~ r := c_idx rhs 0 in
  let '(temp, carry) := d_carrying_add l r in
  let~ lhs := c_upd lhs 0 temp in
  c_for_range (length lhs - 1) 1 (c_add_step rhs) (lhs, carry).

(** src/apint/arithmetic.rs 105-125. *)
Definition c_wrapping_add_assign (a rhs : apint) : clocked (apint * result unit) :=
  let~ z := clift (zip_access_data a rhs) in
  match z with
  | Err e => cval (a, Err e)
  | Ok z =>
      let~ a1 :=
        match z with
        | ZInl l r => cval (write_inl a (d_wrapping_add l r))
        | ZExt ls rs => let~ (ds, _) := c_add_digits ls rs in cval (write_ext a ds)
        end in
      let~ a2 := c_clear_unused_bits a1 in
      cval (a2, Ok tt)
  end.

(** src/apint/arithmetic.rs 242-249: one step of the loop at index [i]. *)
Definition c_sub_step (rhs : list Z) (i : nat) (st : list Z * Z) : clocked (list Z * Z) :=
  let '(lhs, carry) := st in
  let~ l := c_idx lhs i in
  let~ r := c_idx rhs i in
  let temp := dd_wadd (dd_wadd (dd l) (dd (d_not r))) (dd carry) in
  let~ lhs := c_upd lhs i (dd_lo temp) in
  cval (lhs, dd_hi temp).

(** src/apint/arithmetic.rs 235-250. *)
Definition c_sub_digits (lhs rhs : list Z) : clocked (list Z * Z) :=
  let~ l := c_idx lhs 0 in
  let~ r := c_idx rhs 0 in
  let t := dd_wadd (dd_wadd (dd l) (dd (d_not r))) (dd ONE) in
  let~ lhs := c_upd lhs 0 (dd_lo t) in
  c_for_range (length lhs - 1) 1 (c_sub_step rhs) (lhs, dd_hi t).

(** src/apint/arithmetic.rs 230-254. *)
Definition c_wrapping_sub_assign (a rhs : apint) : clocked (apint * result unit) :=
  let~ z := clift (zip_access_data a rhs) in
  match z with
  | Err e => cval (a, Err e)
  | Ok z =>
      let~ a1 :=
        match z with
        | ZInl l r => cval (write_inl a (d_wrapping_sub l r))
        | ZExt ls rs => let~ (ds, _) := c_sub_digits ls rs in cval (write_ext a ds)
        end in
      let~ a2 := c_clear_unused_bits a1 in
      cval (a2, Ok tt)
  end.

(** [(sig * BITS) + (BITS - ds[sig].leading_zeros())], src/apint/arithmetic.rs 332-339. *)
Definition c_sig_bits (ds : list Z) (sig : nat) : clocked Z :=
  let~ d := c_idx ds sig in
  cval (Z.of_nat sig * 64 + (64 - d_leading_zeros d)).

(** src/apint/arithmetic.rs 384-395, 418-429 and 487-498: one step at [rhs_i] of adding a row to [sum]
    at offset [lhs_i]. *)
Definition c_mul_row_step (mult : Z) (rhs : list Z) (lhs_i : nat) (rhs_i : nat)
    (st : list Z * Z * Z) : clocked (list Z * Z * Z) :=
  let '(sum, mul_carry, add_carry) := st in
  let~ r := c_idx rhs rhs_i in
  let '(lo0, hi0) := d_carrying_mul_add mult r mul_carry in
  let~ s := c_idx sum (lhs_i + rhs_i) in
  let temp1 := dd_wadd (dd_wadd (dd s) (dd lo0)) (dd add_carry) in
  let~ sum := c_upd sum (lhs_i + rhs_i) (dd_lo temp1) in
  cval (sum, hi0, dd_hi temp1).

(** src/apint/arithmetic.rs 376-383, 409-416 and 475-480: first digit of a row added to [sum]. *)
Definition c_mul_row_first (mult : Z) (rhs : list Z) (lhs_i : nat) (sum : list Z)
    : clocked (list Z * Z * Z) :=
  let~ r0 := c_idx rhs 0 in
  let '(lo0, hi0) := d_carrying_mul mult r0 in
  let~ s := c_idx sum lhs_i in
  let '(v, c) := d_carrying_add s lo0 in
  let~ sum := c_upd sum lhs_i v in
  cval (sum, hi0, c).

(** src/apint/arithmetic.rs 376-407 (middle row) and 409-440 (final row) of the branch without
    overflow; both have the same text. *)
Definition c_mul_full_row (lhs rhs : list Z) (rhs_sig : nat) (lhs_i : nat) (sum : list Z)
    : clocked (list Z) :=
  let~ mult := c_idx lhs lhs_i in
  let~ st := c_mul_row_first mult rhs lhs_i sum in
  let~ st := c_for_range (rhs_sig - 1) 1 (c_mul_row_step mult rhs lhs_i) st in
  let '(sum, mul_carry, add_carry) := st in
  let~ r := c_idx rhs rhs_sig in
  let '(lo0, hi0) := d_carrying_mul_add mult r mul_carry in
  let~ s := c_idx sum (lhs_i + rhs_sig) in
  let temp1 := dd_wadd (dd_wadd (dd s) (dd lo0)) (dd add_carry) in
  let~ sum := c_upd sum (lhs_i + rhs_sig) (dd_lo temp1) in
  cval (sum ++ [d_wrapping_add (dd_hi temp1) hi0]).

(** src/apint/arithmetic.rs 341-445: no digit-wise overflow possible. *)
Definition c_mul_no_overflow (lhs rhs : list Z) (lhs_sig rhs_sig : nat) : clocked (list Z) :=
  let~ mult := c_idx lhs 0 in
  let~ r0 := c_idx rhs 0 in
  let '(lo, hi) := d_carrying_mul mult r0 in
  let~ _ := cpay (length (skipn 1 (firstn rhs_sig rhs))) in
  let '(sum, mul_carry) :=
    mul_push_loop mult (skipn 1 (firstn rhs_sig rhs)) [lo] hi in
  let~ r := c_idx rhs rhs_sig in
  let '(lo, hi) := d_carrying_mul_add mult r mul_carry in
  let sum := (sum ++ [lo]) ++ [hi] in
  let~ sum := c_for_range (lhs_sig - 1) 1 (c_mul_full_row lhs rhs rhs_sig) sum in
  let~ sum := c_mul_full_row lhs rhs rhs_sig lhs_sig sum in
  let~ _ := cpay (length lhs) in
  if Nat.ltb (length lhs) (length sum)
  then cval (firstn (length lhs) sum)
  else cval (sum ++ skipn (length sum) lhs).

(** src/apint/arithmetic.rs 473-505: one middle row of the wrapping branch. *)
Definition c_mul_wrap_row (lhs rhs : list Z) (sig : nat) (lhs_i : nat) (sum : list Z)
    : clocked (list Z) :=
  let~ mult := c_idx lhs lhs_i in
  let~ st := c_mul_row_first mult rhs lhs_i sum in
  let rhs_i_upper := (sig - lhs_i)%nat in
  let~ st := c_for_range (rhs_i_upper - 1) 1 (c_mul_row_step mult rhs lhs_i) st in
  let '(sum, mul_carry, add_carry) := st in
  let~ r := c_idx rhs rhs_i_upper in
  let~ s := c_idx sum sig in
  c_upd sum sig
    (d_wrapping_add (d_wrapping_add (d_wrapping_add (d_wrapping_mul mult r) mul_carry) s)
       add_carry).

(** src/apint/arithmetic.rs 446-511: wrapping multiplication. *)
Definition c_mul_wrapping (lhs rhs : list Z) : clocked (list Z) :=
  let~ sig := clift (nsub (length lhs) 1) in
  let~ l0 := c_idx lhs 0 in
  let~ r0 := c_idx rhs 0 in
  let '(lo, hi) := d_carrying_mul l0 r0 in
  let~ _ := cpay (length (skipn 1 (firstn sig rhs))) in
  let '(sum, mul_carry) :=
    mul_push_loop l0 (skipn 1 (firstn sig rhs)) [lo] hi in
  let~ r := c_idx rhs sig in
  let sum := sum ++ [d_wrapping_mul_add l0 r mul_carry] in
  let~ sum := c_for_range (sig - 1) 1 (c_mul_wrap_row lhs rhs sig) sum in
  let~ l := c_idx lhs sig in
  let~ s := c_idx sum sig in
  (* 506-507: copy the low digits of [sum]; 509-510: final digit *)
  let~ _ := cpay sig in
  cval (firstn sig sum ++ [d_wrapping_mul_add l r0 s]).

(** src/apint/arithmetic.rs 520-525: one step of the small-by-large row. *)
Definition c_mul_small_step (mult : Z) (src : list Z) (i : nat) (st : list Z * Z)
    : clocked (list Z * Z) :=
  let '(lhs, mul_carry) := st in
  let~ r := c_idx src i in
  let '(lo, hi) := d_carrying_mul_add mult r mul_carry in
  let~ lhs := c_upd lhs i lo in
  cval (lhs, hi).

(** src/apint/arithmetic.rs 513-540: [lhs] has one significant digit. *)
Definition c_mul_small_lhs (lhs rhs : list Z) (rhs_sig : nat) : clocked (list Z) :=
  let~ mult := c_idx lhs 0 in
  let~ r0 := c_idx rhs 0 in
  let '(lo, hi) := d_carrying_mul mult r0 in
  let~ lhs := c_upd lhs 0 lo in
  let~ (lhs, mul_carry) := c_for_range (rhs_sig - 1) 1 (c_mul_small_step mult rhs) (lhs, hi) in
  let~ last := clift (nsub (length lhs) 1) in
  let~ r := c_idx rhs rhs_sig in
  if Nat.eqb rhs_sig last then c_upd lhs rhs_sig (d_wrapping_mul_add mult r mul_carry)
  else
    let '(lo, hi) := d_carrying_mul_add mult r mul_carry in
    let~ lhs := c_upd lhs rhs_sig lo in
    c_upd lhs (rhs_sig + 1) hi.

(** src/apint/arithmetic.rs 547-552: one step of the large-by-small row, in place.  The code iterates
    with [iter_mut().take(lhs_sig_nonzero).skip(1)]; the model uses the index. *)
Definition c_mul_small_step_inplace (mult : Z) (i : nat) (st : list Z * Z)
    : clocked (list Z * Z) :=
  let '(lhs, mul_carry) := st in
  let~ l := c_idx lhs i in
  let '(lo, hi) := d_carrying_mul_add mult l mul_carry in
  let~ lhs := c_upd lhs i lo in
  cval (lhs, hi).

(** src/apint/arithmetic.rs 541-567: [rhs] has one significant digit. *)
Definition c_mul_small_rhs (lhs rhs : list Z) (lhs_sig : nat) : clocked (list Z) :=
  let~ r0 := c_idx rhs 0 in
  let~ l0 := c_idx lhs 0 in
  let '(lo, hi) := d_carrying_mul r0 l0 in
  let~ lhs := c_upd lhs 0 lo in
  let~ (lhs, mul_carry) := c_for_range (lhs_sig - 1) 1 (c_mul_small_step_inplace r0) (lhs, hi) in
  let~ last := clift (nsub (length lhs) 1) in
  let~ l := c_idx lhs lhs_sig in
  if Nat.eqb lhs_sig last then c_upd lhs lhs_sig (d_wrapping_mul_add r0 l mul_carry)
  else
    let '(lo, hi) := d_carrying_mul_add r0 l mul_carry in
    let~ lhs := c_upd lhs lhs_sig lo in
    c_upd lhs (lhs_sig + 1) hi.

(** src/apint/arithmetic.rs 568-572: both have one significant digit. *)
Definition c_mul_small_both (lhs rhs : list Z) : clocked (list Z) :=
  let~ l0 := c_idx lhs 0 in
  let~ r0 := c_idx rhs 0 in
  let '(lo, hi) := d_carrying_mul l0 r0 in
  let~ lhs := c_upd lhs 0 lo in
  c_upd lhs 1 hi.

(** src/apint/arithmetic.rs 302-573; [None] stands for the early [return Ok(())] after zeroing. *)
Definition c_mul_digits (lhs rhs : list Z) : clocked (option (list Z)) :=
  let~ _ := cpay (length rhs) in
  match rposition_nonzero rhs with
  | None => cval None
  | Some rhs_sig =>
      let~ _ := cpay (length lhs) in
      match rposition_nonzero lhs with
      | None => cval None
      | Some lhs_sig =>
          let~ ds :=
            match Nat.eqb lhs_sig 0, Nat.eqb rhs_sig 0 with
            | false, false =>
                let~ lb := c_sig_bits lhs lhs_sig in
                let~ rb := c_sig_bits rhs rhs_sig in
                if lb + rb <=? Z.of_nat (length lhs) * 64
                then c_mul_no_overflow lhs rhs lhs_sig rhs_sig
                else c_mul_wrapping lhs rhs
            | true, false => c_mul_small_lhs lhs rhs rhs_sig
            | false, true => c_mul_small_rhs lhs rhs lhs_sig
            | true, true => c_mul_small_both lhs rhs
            end in
          cval (Some ds)
      end
  end.

(** src/apint/arithmetic.rs 294-578. *)
Definition c_wrapping_mul_assign (a rhs : apint) : clocked (apint * result unit) :=
  let~ z := clift (zip_access_data a rhs) in
  match z with
  | Err e => cval (a, Err e)
  | Ok (ZInl l r) =>
      let~ a2 := c_clear_unused_bits (write_inl a (d_wrapping_mul l r)) in
      cval (a2, Ok tt)
  | Ok (ZExt ls rs) =>
      let~ o := c_mul_digits ls rs in
      match o with
      | None => let~ _ := cpay (length ls) in cval (write_ext a (map d_unset_all ls), Ok tt)
      | Some ds =>
          let~ a2 := c_clear_unused_bits (write_ext a ds) in
          cval (a2, Ok tt)
      end
  end.

(** Division and remainder.  src/apint/arithmetic.rs 591-1842. *)
(** * Short divisions *)

(** One step of the loop of src/apint/arithmetic.rs 677-685. *)
Definition c_small_step (div_small : Z) (i : nat) (st : list Z * Z) : clocked (list Z * Z) :=
  let '(duo, rem) := st in
  let~ d := c_idx duo i in
  let duo_double := dd_from_lo_hi d rem in
  let~ (tq, tr) := clift (dd_wdivrem duo_double (dd div_small)) in
  let quo := dd_lo tq in
  let rem := dd_lo tr in
  let~ duo := c_upd duo i quo in
  cval (duo, rem).

(** [large_div_by_small], src/apint/arithmetic.rs 669-687. *)
Definition c_large_div_by_small (duo : list Z) (ini_duo_sd : nat) (div : list Z)
    : clocked (list Z * list Z) :=
  let~ div_small := c_idx div 0 in
  let~ d := c_idx duo ini_duo_sd in
  let~ (quo, rem) := clift (d_wrapping_divrem d div_small) in
  let~ duo := c_upd duo ini_duo_sd quo in
  let~ (duo, rem) := c_for_range_rev ini_duo_sd 0 (c_small_step div_small) (duo, rem) in
  let~ div := c_upd div 0 rem in
  cval (duo, div).

(** One step of the loop of src/apint/arithmetic.rs 727-737. *)
Definition c_u32_step (div_u32 : Z) (i : nat) (st : list Z * Z) : clocked (list Z * Z) :=
  let '(duo, rem_lo) := st in
  let~ d := c_idx duo i in
  let duo_double_hi := from_lo_hi32 (hi32 d) rem_lo in
  let~ (qh, rh) := clift (d_wrapping_divrem duo_double_hi div_u32) in
  let quo_hi := lo32 qh in
  let rem_hi := lo32 rh in
  let~ d := c_idx duo i in
  let duo_double_lo := from_lo_hi32 (lo32 d) rem_hi in
  let~ (ql, rl) := clift (d_wrapping_divrem duo_double_lo div_u32) in
  let quo_lo := lo32 ql in
  let rem_lo := lo32 rl in
  let~ duo := c_upd duo i (from_lo_hi32 quo_lo quo_hi) in
  cval (duo, rem_lo).

(** [large_div_by_u32], src/apint/arithmetic.rs 694-739. *)
Definition c_large_div_by_u32 (duo : list Z) (ini_duo_sd : nat) (div : list Z)
    : clocked (list Z * list Z) :=
  let~ div0 := c_idx div 0 in
  let div_u32 := lo32 div0 in
  let~ d := c_idx duo ini_duo_sd in
  let~ (quo_hi, rem_hi) := clift (wrapping_divrem32 (hi32 d) div_u32) in
  let duo_double := from_lo_hi32 (lo32 d) rem_hi in
  let~ (tq, tr) := clift (d_wrapping_divrem duo_double div_u32) in
  let quo_lo := lo32 tq in
  let rem_lo := lo32 tr in
  let~ duo := c_upd duo ini_duo_sd (from_lo_hi32 quo_lo quo_hi) in
  let~ (duo, rem_lo) := c_for_range_rev ini_duo_sd 0 (c_u32_step div_u32) (duo, rem_lo) in
  let~ div := c_upd div 0 rem_lo in
  cval (duo, div).

(** * The helper macros *)

(** [twos_complement!], src/apint/arithmetic.rs 743-761: the loop over
    [i0 .. i0 + n] where [i0 + n] is [$len]. *)
Fixpoint c_twos_complement_from (n i0 : nat) (array : list Z) : clocked (list Z) :=
  match n with
  | O => cval array
  | S n' =>
      let~ x := c_idx array i0 in
      let bitnot := d_not x in
      match d_overflowing_add bitnot ONE with
      | (v, false) =>
          let~ array := c_upd array i0 v in
          c_for_range n' (S i0) (fun i1 array =>
            let~ y := c_idx array i1 in c_upd array i1 (d_not y)) array
      | (v, true) =>
          let~ array := c_upd array i0 v in
          c_twos_complement_from n' (S i0) array
      end
  end.

(** src/apint/arithmetic.rs 743-761. *)
Definition c_twos_complement (len : nat) (array : list Z) : clocked (list Z) :=
  c_twos_complement_from len 0 array.

(** src/apint/arithmetic.rs 778-783 and 820-825: is some digit of [rhs] at an
    index in [lo .. lo + n] nonzero? *)
Fixpoint c_any_nonzero_rev (n lo : nat) (rhs : list Z) : clocked bool :=
  match n with
  | O => cval false
  | S n' =>
      let~ r := c_idx rhs (lo + n') in
      if negb (d_is_zero r) then cval true else c_any_nonzero_rev n' lo rhs
  end.

(** src/apint/arithmetic.rs 786-794 ([b1] of [uge!]). *)
Fixpoint c_uge_b1 (n : nat) (lhs rhs : list Z) : clocked bool :=
  match n with
  | O => cval false
  | S i =>
      let~ l := c_idx lhs i in
      let~ r := c_idx rhs i in
      if l <? r then cval true
      else if negb (l =? r) then cval false
      else c_uge_b1 i lhs rhs
  end.

(** [uge!], src/apint/arithmetic.rs 767-803: [true] selects [$ge_branch]. *)
Definition c_uge (lhs_len : nat) (lhs : list Z) (rhs_len : nat) (rhs : list Z) : clocked bool :=
  let~ b0 := c_any_nonzero_rev (rhs_len - lhs_len) lhs_len rhs in
  if b0 then cval false
  else let~ b1 := c_uge_b1 lhs_len lhs rhs in cval (negb b1).

(** src/apint/arithmetic.rs 828-837 ([b1] of [ugt!]). *)
Fixpoint c_ugt_b1 (n : nat) (lhs rhs : list Z) : clocked bool :=
  match n with
  | O => cval true
  | S i =>
      let~ l := c_idx lhs i in
      let~ r := c_idx rhs i in
      if r <? l then cval false
      else if negb (l =? r) then cval true
      else c_ugt_b1 i lhs rhs
  end.

(** [ugt!], src/apint/arithmetic.rs 809-845: [true] selects [$gt_branch]. *)
Definition c_ugt (lhs_len : nat) (lhs : list Z) (rhs_len : nat) (rhs : list Z) : clocked bool :=
  let~ b0 := c_any_nonzero_rev (rhs_len - lhs_len) lhs_len rhs in
  if b0 then cval false
  else let~ b1 := c_ugt_b1 lhs_len lhs rhs in cval (negb b1).

(** One step of the loop of [special0!], src/apint/arithmetic.rs 855-864. *)
Definition c_special0_step (sub : list Z) (i : nat) (st : list Z * list Z * Z)
    : clocked (list Z * list Z * Z) :=
  let '(sum, target, carry) := st in
  let~ s := c_idx sum i in
  let~ b := c_idx sub i in
  let temp := dd_wadd (dd_wadd (dd s) (dd b)) (dd carry) in
  let~ target := c_upd target i (dd_lo temp) in
  let~ sum := c_upd sum i (d_unset_all s) in
  cval (sum, target, dd_hi temp).

(** [special0!], src/apint/arithmetic.rs 849-870, for three different slices:
    the new [sum] and [target]. *)
Definition c_special0 (len : nat) (sum sub target : list Z) (val : Z)
    : clocked (list Z * list Z) :=
  let~ s := c_idx sum 0 in
  let~ b := c_idx sub 0 in
  let '(t, carry) := d_carrying_add s b in
  let~ target := c_upd target 0 t in
  let~ sum := c_upd sum 0 val in
  let~ last := clift (nsub len 1) in
  let~ (st, carry) := c_for_range (last - 1) 1 (c_special0_step sub) (sum, target, carry) in
  let '(sum, target) := st in
  let~ s := c_idx sum last in
  let~ b := c_idx sub last in
  let~ target := c_upd target last (d_wrapping_add (d_wrapping_add s b) carry) in
  let~ sum := c_upd sum last (d_unset_all s) in
  cval (sum, target).

(** One step of the loop of [special0!] when [$sub] and [$target] are the same
    slice (the call at src/apint/arithmetic.rs 965). *)
Definition c_special0_same_step (i : nat) (st : list Z * list Z * Z)
    : clocked (list Z * list Z * Z) :=
  let '(sum, target, carry) := st in
  let~ s := c_idx sum i in
  let~ b := c_idx target i in
  let temp := dd_wadd (dd_wadd (dd s) (dd b)) (dd carry) in
  let~ target := c_upd target i (dd_lo temp) in
  let~ sum := c_upd sum i (d_unset_all s) in
  cval (sum, target, dd_hi temp).

(** [special0!] with [$sub] and [$target] the same slice.  src/apint/arithmetic.rs 964. *)
Definition c_special0_same (len : nat) (sum target : list Z) (val : Z)
    : clocked (list Z * list Z) :=
  let~ s := c_idx sum 0 in
  let~ b := c_idx target 0 in
  let '(t, carry) := d_carrying_add s b in
  let~ target := c_upd target 0 t in
  let~ sum := c_upd sum 0 val in
  let~ last := clift (nsub len 1) in
  let~ (st, carry) := c_for_range (last - 1) 1 c_special0_same_step (sum, target, carry) in
  let '(sum, target) := st in
  let~ s := c_idx sum last in
  let~ b := c_idx target last in
  let~ target := c_upd target last (d_wrapping_add (d_wrapping_add s b) carry) in
  let~ sum := c_upd sum last (d_unset_all s) in
  cval (sum, target).

(** First loop of [special1!], src/apint/arithmetic.rs 879-886. *)
Definition c_special1_step1 (sum sub : list Z) (i : nat) (st : list Z * Z) : clocked (list Z * Z) :=
  let '(targ, carry) := st in
  let~ s := c_idx sum i in
  let~ b := c_idx sub i in
  let temp := dd_wadd (dd_wadd (dd s) (dd b)) (dd carry) in
  let~ targ := c_upd targ i (dd_lo temp) in
  cval (targ, dd_hi temp).

(** Second loop of [special1!], src/apint/arithmetic.rs 892-902.  The [break]
    at 896 leaves only the inner [for i1 in i0..$len] after one round. *)
Definition c_special1_step2 (add : list Z) (i0 : nat) (st : list Z * Z) : clocked (list Z * Z) :=
  let '(sum, carry) := st in
  let~ sum :=
    if d_is_zero carry
    then let~ a := c_idx add i0 in c_upd sum i0 a
    else cval sum in
  let~ a := c_idx add i0 in
  let '(t, c) := d_carrying_add a carry in
  let~ sum := c_upd sum i0 t in
  cval (sum, c).

(** [special1!], src/apint/arithmetic.rs 873-902: the new [sum] and [targ]. *)
Definition c_special1 (len : nat) (sum sub targ : list Z) (val : Z) (add : list Z)
    : clocked (list Z * list Z) :=
  let~ s := c_idx sum 0 in
  let~ b := c_idx sub 0 in
  let '(t, carry) := d_carrying_add s b in
  let~ targ := c_upd targ 0 t in
  let~ last := clift (nsub len 1) in
  let~ (targ, carry) := c_for_range (last - 1) 1 (c_special1_step1 sum sub) (targ, carry) in
  let~ s := c_idx sum last in
  let~ b := c_idx sub last in
  let~ targ := c_upd targ last (d_wrapping_add (d_wrapping_add s b) carry) in
  let~ a := c_idx add 0 in
  let '(t, carry) := d_carrying_add a val in
  let~ sum := c_upd sum 0 t in
  let~ (sum, _) := c_for_range (len - 1) 1 (c_special1_step2 add) (sum, carry) in
  cval (sum, targ).

(** [add!], src/apint/arithmetic.rs 906-922: the new [sum]; [add_step] is the
    identical loop body of addition (916-920 against 113-120). *)
Definition c_add_macro (len : nat) (sum add : list Z) : clocked (list Z) :=
  let~ s := c_idx sum 0 in
  let~ a := c_idx add 0 in
  let '(t, carry) := d_carrying_add s a in
  let~ sum := c_upd sum 0 t in
  let~ last := clift (nsub len 1) in
  let~ (sum, carry) := c_for_range (last - 1) 1 (c_add_step add) (sum, carry) in
  let~ s := c_idx sum last in
  let~ a := c_idx add last in
  c_upd sum last (d_wrapping_add (d_wrapping_add s a) carry).

(** [div[i] = duo[i]; duo[i].unset_all();], src/apint/arithmetic.rs 944-947
    and 969-972. *)
Definition c_move_step (i : nat) (st : list Z * list Z) : clocked (list Z * list Z) :=
  let '(duo, div) := st in
  let~ d := c_idx duo i in
  let~ div := c_upd div i d in
  let~ duo := c_upd duo i (d_unset_all d) in
  cval (duo, div).

(** * Long division *)

(** The 128 bits of [xs] below and including bit [64*(sd+1) - lz - 1]:
    src/apint/arithmetic.rs 984-1005, 1128-1134 and 1270-1277. *)
Definition c_sig_dd (xs : list Z) (sd : nat) (lz : Z) : clocked Z :=
  if lz =? 0 then
    let~ i1 := clift (nsub sd 1) in
    let~ lo := c_idx xs i1 in
    let~ hi := c_idx xs sd in
    cval (dd_from_lo_hi lo hi)
  else
    let~ i1 := clift (nsub sd 1) in
    let~ i2 := clift (nsub sd 2) in
    let~ x := c_idx xs sd in
    let~ y := c_idx xs i1 in
    let~ z := c_idx xs i2 in
    let~ k := clift (usize_sub 64 lz) in
    let~ a := clift (dd_shl (dd x) (lz + 64)) in
    let~ b := clift (dd_shl (dd y) lz) in
    let~ c := clift (dd_shr (dd z) k) in
    cval (dd_or (dd_or a b) c).

(** The end of the `mul` or `mul - 1` algorithm: [mul - 1] is right,
    src/apint/arithmetic.rs 1033-1042, 1052-1061 and 1083-1092. *)
Definition c_finish_mul_sub1 (len : nat) (duo div sub : list Z) (mul : Z)
    : clocked (list Z * list Z) :=
  let~ sub := c_twos_complement len sub in
  let~ sub := c_add_macro len sub div in
  c_special0 len duo sub div (d_wrapping_sub mul ONE).

(** [mul] is right, src/apint/arithmetic.rs 1063-1069 and 1094-1100. *)
Definition c_finish_mul (len : nat) (duo div sub : list Z) (mul : Z)
    : clocked (list Z * list Z) :=
  let~ sub := c_twos_complement len sub in
  c_special0 len duo sub div mul.

(** `mul` or `mul - 1`, src/apint/arithmetic.rs 981-1103. *)
Definition c_mul_or_mul_sub1 (len : nat) (duo : list Z) (ini_duo_sd : nat) (ini_duo_lz : Z)
    (div : list Z) (div_sd : nat) : clocked (list Z * list Z) :=
  let~ duo_sig_dd := c_sig_dd duo ini_duo_sd ini_duo_lz in
  let~ div_sig_dd := c_sig_dd div ini_duo_sd ini_duo_lz in
  let~ m := clift (dd_wdiv duo_sig_dd div_sig_dd) in
  let mul := dd_lo m in
  let~ div0 := c_idx div 0 in
  let '(t0, carry) := d_carrying_mul mul div0 in
  let~ _ := cpay (length (skipn 1 (firstn div_sd div))) in
  let '(row, carry) := sub_row mul (skipn 1 (firstn div_sd div)) carry in
  let sub := t0 :: row in
  let~ dtop := c_idx div div_sd in
  let~ last := clift (nsub len 1) in
  if Nat.eqb div_sd last then
    let '(t, c) := d_carrying_mul_add mul dtop carry in
    let sub := sub ++ [t] in
    if negb (d_is_zero c) then c_finish_mul_sub1 len duo div sub mul
    else
      let~ gt := c_ugt len sub len duo in
      if gt then c_finish_mul_sub1 len duo div sub mul
      else c_finish_mul len duo div sub mul
  else
    let '(t, c) := d_carrying_mul_add mul dtop carry in
    let sub := sub ++ [t; c] in
    let~ _ := cpay (len - length sub) in
    let sub := sub ++ repeat ZERO (len - length sub) in
    let~ gt := c_ugt len sub len duo in
    if gt then c_finish_mul_sub1 len duo div sub mul
    else c_finish_mul len duo div sub mul.

(** Adding [mul << bits] to [quo], src/apint/arithmetic.rs 1152-1172. *)
Definition c_add_to_quo (quo : list Z) (digits : nat) (bits_ll mul : Z) : clocked (list Z) :=
  let~ split_mul := clift (dd_shl mul bits_ll) in
  let~ q0 := c_idx quo digits in
  let '(t, carry) := d_carrying_add (dd_lo split_mul) q0 in
  let~ quo := c_upd quo digits t in
  let~ q1 := c_idx quo (digits + 1) in
  let temp := dd_wadd (dd_wadd (dd (dd_hi split_mul)) (dd q1)) (dd carry) in
  let~ quo := c_upd quo (digits + 1) (dd_lo temp) in
  let carry := dd_hi temp in
  let~ _ := cpay (length (skipn (digits + 2) quo)) in
  cval (firstn (digits + 2) quo ++ carry_into (skipn (digits + 2) quo) carry).

(** One step of the loop of src/apint/arithmetic.rs 1194-1213:
    [st] is ([duo], [wrap_carry], [mul_carry], [add_carry]). *)
Definition c_sub_lo_step (div : list Z) (digits : nat) (bits_ll mul : Z) (i : nat)
    (st : list Z * Z * Z * Z) : clocked (list Z * Z * Z * Z) :=
  let '(duo, wrap_carry, mul_carry, add_carry) := st in
  let~ j := clift (nsub i digits) in
  let~ x := c_idx div j in
  let~ sh := clift (dd_shl (dd x) bits_ll) in
  let temp0 := dd_or sh (dd wrap_carry) in
  let temp1 := dd_wadd (dd_wmul (dd mul) (dd (dd_lo temp0))) (dd mul_carry) in
  let~ d := c_idx duo i in
  let temp2 := dd_wadd (dd_wadd (dd (d_not (dd_lo temp1))) (dd d)) (dd add_carry) in
  let~ duo := c_upd duo i (dd_lo temp2) in
  cval (duo, dd_hi temp0, dd_hi temp1, dd_hi temp2).

(** Subtracting [(mul * div) << bits] when [mul] fits a digit,
    src/apint/arithmetic.rs 1179-1213. *)
Definition c_sub_lo (duo div : list Z) (duo_sd digits : nat) (bits_ll mul : Z) : clocked (list Z) :=
  let mul := dd_lo mul in
  let~ x := c_idx div 0 in
  let~ sh := clift (dd_shl (dd x) bits_ll) in
  let temp0 := dd_lo sh in
  let wrap_carry := dd_hi sh in
  let t1 := dd_wmul (dd mul) (dd temp0) in
  let temp1 := dd_lo t1 in
  let mul_carry := dd_hi t1 in
  let~ d := c_idx duo digits in
  let t2 := dd_wadd (dd_wadd (dd (d_not temp1)) (dd d)) (dd ONE) in
  let~ duo := c_upd duo digits (dd_lo t2) in
  let~ st := c_for_range (duo_sd - digits) (digits + 1) (c_sub_lo_step div digits bits_ll mul)
               (duo, wrap_carry, mul_carry, dd_hi t2) in
  let '(duo, _, _, _) := st in
  cval duo.

(** One step of the loop of src/apint/arithmetic.rs 1243-1266: [st] is
    ([duo], [mul_carry], [add0_carry], [wrap_carry], [add1_carry]). *)
Definition c_sub_hi_step (div : list Z) (digits : nat) (bits_ll mul : Z) (i : nat)
    (st : list Z * Z * Z * Z * Z) : clocked (list Z * Z * Z * Z * Z) :=
  let '(duo, mul_carry, add0_carry, wrap_carry, add1_carry) := st in
  let~ j := clift (nsub i digits) in
  let~ x := c_idx div j in
  let temp0 := dd_wadd (dd_wmul (dd mul) (dd x)) (dd mul_carry) in
  let~ j1 := clift (nsub j 1) in
  let~ y := c_idx div j1 in
  let temp1 := dd_wadd (dd_wadd (dd (dd_lo temp0)) (dd y)) (dd add0_carry) in
  let~ sh := clift (dd_shl (dd (d_not (dd_lo temp1))) bits_ll) in
  let temp2 := dd_wadd sh (dd wrap_carry) in
  let~ d := c_idx duo i in
  let temp3 := dd_wadd (dd_wadd (dd (dd_lo temp2)) (dd d)) (dd add1_carry) in
  let~ duo := c_upd duo i (dd_lo temp3) in
  cval (duo, dd_hi temp0, dd_hi temp1, dd_hi temp2, dd_hi temp3).

(** Subtracting [(mul * div) << bits] when [mul] has a 65th bit,
    src/apint/arithmetic.rs 1214-1267. *)
Definition c_sub_hi (duo div : list Z) (duo_sd digits : nat) (bits_ll mul : Z) : clocked (list Z) :=
  let mul := dd_lo mul in
  let~ x := c_idx div 0 in
  let '(temp0, mul_carry) := d_carrying_mul mul x in
  let temp1 := temp0 in
  let add0_carry := ZERO in
  let~ t2 := clift (dd_shl (dd_wadd (dd (d_not temp1)) (dd ONE)) bits_ll) in
  let temp2 := dd_lo t2 in
  let wrap_carry := dd_hi t2 in
  let~ d := c_idx duo digits in
  let '(temp3, add1_carry) := d_carrying_add temp2 d in
  let~ duo := c_upd duo digits temp3 in
  let~ st := c_for_range (duo_sd - digits) (digits + 1) (c_sub_hi_step div digits bits_ll mul)
               (duo, mul_carry, add0_carry, wrap_carry, add1_carry) in
  let '(duo, _, _, _, _) := st in
  cval duo.

(** The `mul` or `mul - 1` algorithm with addition from [quo],
    src/apint/arithmetic.rs 1268-1332. *)
Definition c_mul_or_mul_sub1_quo (len : nat) (duo : list Z) (duo_sd : nat) (duo_lz duo_sig_dd : Z)
    (div : list Z) (div_sd : nat) (quo : list Z) : clocked (list Z * list Z) :=
  let~ div_sig_dd := c_sig_dd div duo_sd duo_lz in
  let~ m := clift (dd_wdiv duo_sig_dd div_sig_dd) in
  let mul := dd_lo m in
  let~ div0 := c_idx div 0 in
  let t0 := dd_wmul (dd mul) (dd div0) in
  let~ _ := cpay (length (skipn 1 (firstn div_sd div))) in
  let '(row, mul_carry) := sub_row mul (skipn 1 (firstn div_sd div)) (dd_hi t0) in
  let~ dtop := c_idx div div_sd in
  let '(t, c) := d_carrying_mul_add mul dtop mul_carry in
  let sub := (dd_lo t0 :: row) ++ [t; c] in
  let~ _ := cpay (len - (div_sd + 2)) in
  let sub := sub ++ repeat ZERO (len - (div_sd + 2)) in
  let sub_len := length sub in
  let~ gt := c_ugt sub_len sub len duo in
  if gt then
    let~ sub := c_twos_complement sub_len sub in
    let~ sub := c_add_macro sub_len sub div in
    c_special1 sub_len duo sub div (d_wrapping_sub mul ONE) quo
  else
    let~ sub := c_twos_complement sub_len sub in
    c_special1 sub_len duo sub div mul quo.

(** src/apint/arithmetic.rs 1335-1348: the index of the most significant
    nonzero digit among the first [n]; [None] if there is none. *)
Fixpoint c_find_sd (n : nat) (duo : list Z) : clocked (option nat) :=
  match n with
  | O => cval None
  | S i =>
      let~ d := c_idx duo i in
      if negb (d_is_zero d) then cval (Some i) else c_find_sd i duo
  end.

(** [duo] becomes [quo + 1], src/apint/arithmetic.rs 1364-1378: the loop over
    [i0 .. i0 + n] where [i0 + n] is [len]. *)
Fixpoint c_quo_add1_from (n i0 len : nat) (duo quo : list Z) : clocked (list Z) :=
  match n with
  | O => cval duo
  | S n' =>
      let~ q := c_idx quo i0 in
      match d_overflowing_add q ONE with
      | (v, false) =>
          let~ duo := c_upd duo i0 v in
          c_copy_range (S i0) len duo quo
      | (v, true) =>
          let~ duo := c_upd duo i0 v in
          c_quo_add1_from n' (S i0) len duo quo
      end
  end.

(** [duo] becomes [quo] plus [carry] at digit [i0], src/apint/arithmetic.rs
    1415-1423: the loop over [i0 .. i0 + n] where [i0 + n] is [len]. *)
Fixpoint c_quo_add_carry_from (n i0 len : nat) (duo quo : list Z) (carry : Z) : clocked (list Z) :=
  match n with
  | O => cval duo
  | S n' =>
      if d_is_zero carry then c_copy_range i0 len duo quo
      else
        let~ q := c_idx quo i0 in
        let '(t, c) := d_carrying_add q carry in
        let~ duo := c_upd duo i0 t in
        c_quo_add_carry_from n' (S i0) len duo quo c
  end.

(** src/apint/arithmetic.rs 1399-1424: two-digit division and addition. *)
Definition c_small_tail (len : nat) (duo div quo : list Z) : clocked (list Z * list Z) :=
  let~ u0 := c_idx duo 0 in
  let~ u1 := c_idx duo 1 in
  let~ v0 := c_idx div 0 in
  let~ v1 := c_idx div 1 in
  let~ (mul, rem) := clift (dd_wdivrem (dd_from_lo_hi u0 u1) (dd_from_lo_hi v0 v1)) in
  let~ div := c_upd div 0 (dd_lo rem) in
  let~ div := c_upd div 1 (dd_hi rem) in
  let~ q0 := c_idx quo 0 in
  let '(t, carry) := d_carrying_add q0 (dd_lo mul) in
  let~ duo := c_upd duo 0 t in
  let~ q1 := c_idx quo 1 in
  let temp := dd_wadd (dd_wadd (dd q1) (dd (dd_hi mul))) (dd carry) in
  let~ duo := c_upd duo 1 (dd_lo temp) in
  let~ duo := c_quo_add_carry_from (len - 2) 2 len duo quo (dd_hi temp) in
  cval (duo, div).

(** The [loop] of src/apint/arithmetic.rs 1125-1424. *)
Fixpoint c_div_loop (fuel len : nat) (duo div quo : list Z) (duo_sd : nat) (duo_lz : Z)
    (div_sd : nat) (div_sb div_lesser_bits div_sig_d_add1 : Z) : clocked (list Z * list Z) :=
  match fuel with
  | O => (clift OutOfFuel)
  | S fuel' =>
      let~ d2 := clift (nsub duo_sd 2) in
      let~ dl := clift (usize_sub 64 duo_lz) in
      let duo_lesser_bits := dl + 64 * Z.of_nat d2 in
      let~ duo_sig_dd := c_sig_dd duo duo_sd duo_lz in
      if div_lesser_bits <=? duo_lesser_bits then
        let bits := duo_lesser_bits - div_lesser_bits in
        let digits := Z.to_nat (bits / 64) in
        let bits_ll := bits mod 64 in
        let~ mul := clift (dd_wdiv duo_sig_dd div_sig_d_add1) in
        let~ quo := c_add_to_quo quo digits bits_ll mul in
        let~ duo :=
          if d_is_zero (dd_hi mul)
          then c_sub_lo duo div duo_sd digits bits_ll mul
          else c_sub_hi duo div duo_sd digits bits_ll mul in
        let~ o := c_find_sd (duo_sd + 1) duo in
        match o with
        | None =>
            let~ div := c_for_range len 0 (fun i div => c_upd div i ZERO) div in
            let~ duo := c_for_range len 0 (fun i duo => let~ q := c_idx quo i in c_upd duo i q) duo in
            cval (duo, div)
        | Some duo_sd =>
            let~ d := c_idx duo duo_sd in
            let duo_lz := d_leading_zeros d in
            let~ k := clift (usize_sub 64 duo_lz) in
            let duo_sb := Z.of_nat duo_sd * 64 + k in
            if duo_sb =? div_sb then
              let~ ge := c_uge len duo len div in
              if ge then
                let~ div := c_twos_complement len div in
                let~ div := c_add_macro len div duo in
                let~ duo := c_quo_add1_from len 0 len duo quo in
                cval (duo, div)
              else
                let~ div := c_copy_range 0 len div duo in
                let~ duo := c_copy_range 0 len duo quo in
                cval (duo, div)
            else if duo_sb <? div_sb then
              let~ div := c_copy_range 0 len div duo in
              let~ duo := c_copy_range 0 len duo quo in
              cval (duo, div)
            else if Nat.ltb duo_sd 2 then c_small_tail len duo div quo
            else c_div_loop fuel' len duo div quo duo_sd duo_lz div_sd div_sb
                   div_lesser_bits div_sig_d_add1
        end
      else c_mul_or_mul_sub1_quo len duo duo_sd duo_lz duo_sig_dd div div_sd quo
  end.

(** [large_div_by_large], src/apint/arithmetic.rs 928-1425.  The loop halves
    [duo] at least, so one round per bit (and one more) is enough fuel. *)
Definition c_large_div_by_large (len : nat) (duo : list Z) (ini_duo_sd : nat)
    (div : list Z) (div_sd : nat) : clocked (list Z * list Z) :=
  let~ dtop := c_idx duo ini_duo_sd in
  let ini_duo_lz := d_leading_zeros dtop in
  let~ vtop := c_idx div div_sd in
  let div_lz := d_leading_zeros vtop in
  let~ a := clift (usize_sub 64 ini_duo_lz) in
  let ini_duo_sb := Z.of_nat ini_duo_sd * 64 + a in
  let~ b := clift (usize_sub 64 div_lz) in
  let div_sb := Z.of_nat div_sd * 64 + b in
  if ini_duo_sb <? div_sb then
    let~ (duo, div) := c_for_range (ini_duo_sd + 1) 0 c_move_step (duo, div) in
    let~ _ := cpay (div_sd + 1) in
    cval (duo, unset_take_skip (div_sd + 1) (ini_duo_sd + 1) div)
  else if ini_duo_sb =? div_sb then
    let place := (ini_duo_sd + 1)%nat in
    let~ ge := c_uge place duo place div in
    if ge then
      let~ div := c_twos_complement place div in
      c_special0_same place duo div ONE
    else
      let~ (duo, div) := c_for_range (ini_duo_sd + 1) 0 c_move_step (duo, div) in
      let~ _ := cpay (div_sd + 1) in
      cval (duo, unset_take_skip (div_sd + 1) place div)
  else
    let ini_bits := ini_duo_sb - div_sb in
    if ini_bits <? 64 then c_mul_or_mul_sub1 len duo ini_duo_sd ini_duo_lz div div_sd
    else
      let~ dm := clift (nsub div_sd 1) in
      let div_lesser_bits := b + 64 * Z.of_nat dm in
      let~ div_sig_d :=
        if div_lz =? 0 then cval vtop
        else
          let~ y := c_idx div dm in
          let~ k := clift (usize_sub 64 div_lz) in
          cval (d_or (d_shl vtop div_lz) (d_shr y k)) in
      let div_sig_d_add1 := dd_wadd (dd div_sig_d) (dd ONE) in
      let~ _ := cpay len in
      let quo := repeat ZERO len in
      c_div_loop (64 * len + 1) len duo div quo ini_duo_sd ini_duo_lz div_sd div_sb
        div_lesser_bits div_sig_d_add1.

(** [aarons_algorithm_divrem], src/apint/arithmetic.rs 651-1498: the new [duo]
    (quotient), [div] (remainder) and the returned flag. *)
Definition c_aarons_algorithm_divrem (duo div : list Z) : clocked (list Z * list Z * bool) :=
  let~ _ := cpay (length div) in
  match rposition_nonzero div with
  | Some div_sd =>
      let~ _ := cpay (length duo) in
      match rposition_nonzero duo with
      | None => let~ _ := cpay (length div) in cval (duo, map d_unset_all div, true)
      | Some ini_duo_sd =>
          if Nat.ltb ini_duo_sd div_sd then
            let~ _ := cpay (length duo) in
            cval (zip_update (fun duo_d _ => d_unset_all duo_d) duo div,
                 zip_update (fun _ duo_d => duo_d) div duo, true)
          else
            match Nat.eqb ini_duo_sd 0, Nat.eqb div_sd 0 with
            | false, false =>
                if Nat.eqb ini_duo_sd 1 then
                  let~ u0 := c_idx duo 0 in
                  let~ u1 := c_idx duo 1 in
                  let~ v0 := c_idx div 0 in
                  let~ v1 := c_idx div 1 in
                  let~ (q, r) := clift (dd_wdivrem (dd_from_lo_hi u0 u1) (dd_from_lo_hi v0 v1)) in
                  let~ duo := c_upd duo 0 (dd_lo q) in
                  let~ duo := c_upd duo 1 (dd_hi q) in
                  let~ div := c_upd div 0 (dd_lo r) in
                  let~ div := c_upd div 1 (dd_hi r) in
                  cval (duo, div, true)
                else
                  let~ (duo, div) := c_large_div_by_large (length duo) duo ini_duo_sd div div_sd in
                  cval (duo, div, true)
            | true, false => (clift Panic)
            | false, true =>
                let~ v := c_idx div 0 in
                if 32 <=? d_leading_zeros v then
                  let~ (duo, div) := c_large_div_by_u32 duo ini_duo_sd div in
                  cval (duo, div, true)
                else
                  let~ (duo, div) := c_large_div_by_small duo ini_duo_sd div in
                  cval (duo, div, true)
            | true, true =>
                let~ u := c_idx duo 0 in
                let~ v := c_idx div 0 in
                let~ (q, r) := clift (d_wrapping_divrem u v) in
                let~ duo := c_upd duo 0 q in
                let~ div := c_upd div 0 r in
                cval (duo, div, true)
            end
      end
  | None => cval (duo, div, false)
  end.

(** One step of the swap loop of src/apint/arithmetic.rs 1513-1517. *)
Definition c_swap_step (i : nat) (st : list Z * list Z) : clocked (list Z * list Z) :=
  let '(duo, div) := st in
  let~ temp := c_idx duo i in
  let~ v := c_idx div i in
  let~ duo := c_upd duo i v in
  let~ div := c_upd div i temp in
  cval (duo, div).

(** [aarons_algorithm_remdiv], src/apint/arithmetic.rs 1507-1522. *)
Definition c_aarons_algorithm_remdiv (duo div : list Z) : clocked (list Z * list Z * bool) :=
  let~ (st, ok) := c_aarons_algorithm_divrem duo div in
  let '(duo, div) := st in
  if ok then
    let~ (duo, div) := c_for_range (length duo) 0 c_swap_step (duo, div) in
    cval (duo, div, true)
  else cval (duo, div, false).

(** src/apint/arithmetic.rs 1532-1557. *)
Definition c_wrapping_udivrem_assign (lhs rhs : apint) : clocked (apint * apint * result unit) :=
  let~ z := clift (zip_access_data lhs rhs) in
  match z with
  | Err e => cval (lhs, rhs, Err e)
  | Ok (ZInl duo div) =>
      if negb (d_is_zero div) then
        let~ (q, r) := clift (d_wrapping_divrem duo div) in
        cval (write_inl lhs q, write_inl rhs r, Ok tt)
      else let~ e := c_division_by_zero UnsignedDivRem lhs in cval (lhs, rhs, Err e)
  | Ok (ZExt duo div) =>
      let~ (st, ok) := c_aarons_algorithm_divrem duo div in
      let '(duo, div) := st in
      let lhs := write_ext lhs duo in
      let rhs := write_ext rhs div in
      if ok : bool then cval (lhs, rhs, Ok tt)
      else let~ e := c_division_by_zero UnsignedDivRem lhs in cval (lhs, rhs, Err e)
  end.

(** src/apint/arithmetic.rs 1567-1587. *)
Definition c_wrapping_uremdiv_assign (lhs rhs : apint) : clocked (apint * apint * result unit) :=
  let~ z := clift (zip_access_data lhs rhs) in
  match z with
  | Err e => cval (lhs, rhs, Err e)
  | Ok (ZInl duo div) =>
      if negb (d_is_zero div) then
        let~ (q, r) := clift (d_wrapping_divrem duo div) in
        cval (write_inl lhs r, write_inl rhs q, Ok tt)
      else let~ e := c_division_by_zero UnsignedRemDiv lhs in cval (lhs, rhs, Err e)
  | Ok (ZExt duo div) =>
      let~ (st, ok) := c_aarons_algorithm_remdiv duo div in
      let '(duo, div) := st in
      let lhs := write_ext lhs duo in
      let rhs := write_ext rhs div in
      if ok : bool then cval (lhs, rhs, Ok tt)
      else let~ e := c_division_by_zero UnsignedRemDiv lhs in cval (lhs, rhs, Err e)
  end.

(** src/apint/arithmetic.rs 1596-1611; [div.to_vec()] is a copy. *)
Definition c_wrapping_udiv_assign (a rhs : apint) : clocked (apint * result unit) :=
  let~ z := clift (zip_access_data a rhs) in
  match z with
  | Err e => cval (a, Err e)
  | Ok (ZInl duo div) =>
      if negb (d_is_zero div) then
        let~ q := clift (d_wrapping_div duo div) in
        cval (write_inl a q, Ok tt)
      else let~ e := c_division_by_zero UnsignedDiv a in cval (a, Err e)
  | Ok (ZExt duo div) =>
      let~ _ := cpay (length div) in
      let~ (st, ok) := c_aarons_algorithm_divrem duo div in
      let '(duo, _) := st in
      let a := write_ext a duo in
      if ok : bool then cval (a, Ok tt)
      else let~ e := c_division_by_zero UnsignedDiv a in cval (a, Err e)
  end.

(** src/apint/arithmetic.rs 1631-1646. *)
Definition c_wrapping_urem_assign (a rhs : apint) : clocked (apint * result unit) :=
  let~ z := clift (zip_access_data a rhs) in
  match z with
  | Err e => cval (a, Err e)
  | Ok (ZInl duo div) =>
      if negb (d_is_zero div) then
        let~ r := clift (d_wrapping_rem duo div) in
        cval (write_inl a r, Ok tt)
      else let~ e := c_division_by_zero UnsignedRem a in cval (a, Err e)
  | Ok (ZExt duo div) =>
      let~ _ := cpay (length div) in
      let~ (st, ok) := c_aarons_algorithm_remdiv duo div in
      let '(duo, _) := st in
      let a := write_ext a duo in
      if ok : bool then cval (a, Ok tt)
      else let~ e := c_division_by_zero UnsignedRem a in cval (a, Err e)
  end.

(** [if flag { x.wrapping_neg() }].  src/apint/arithmetic.rs 1694-1699, 1739-1744. *)
Definition c_neg_if (flag : bool) (x : apint) : clocked apint :=
  if flag then c_wrapping_neg x else cval x.

(** src/apint/arithmetic.rs 1667-1702. *)
Definition c_wrapping_sdivrem_assign (lhs rhs : apint) : clocked (apint * apint * result unit) :=
  let~ z := c_is_zero rhs in
  if z : bool then let~ e := c_division_by_zero SignedDivRem lhs in cval (lhs, rhs, Err e)
  else
    let~ ml := c_msb lhs in
    let~ mr := c_msb rhs in
    let '(negate_lhs, negate_rhs) :=
      match ml, mr with
      | false, false => (false, false)
      | true, false => (true, true)
      | false, true => (true, false)
      | true, true => (false, true)
      end in
    let~ lhs := c_neg_if ml lhs in
    let~ rhs := c_neg_if mr rhs in
    let~ (lhs, rhs) := c_unwrap_mut2 (c_wrapping_udivrem_assign lhs rhs) in
    let~ lhs := c_neg_if negate_lhs lhs in
    let~ rhs := c_neg_if negate_rhs rhs in
    cval (lhs, rhs, Ok tt).

(** src/apint/arithmetic.rs 1712-1747. *)
Definition c_wrapping_sremdiv_assign (lhs rhs : apint) : clocked (apint * apint * result unit) :=
  let~ z := c_is_zero rhs in
  if z : bool then let~ e := c_division_by_zero SignedRemDiv lhs in cval (lhs, rhs, Err e)
  else
    let~ ml := c_msb lhs in
    let~ mr := c_msb rhs in
    let '(negate_lhs, negate_rhs) :=
      match ml, mr with
      | false, false => (false, false)
      | true, false => (true, true)
      | false, true => (false, true)
      | true, true => (true, false)
      end in
    let~ lhs := c_neg_if ml lhs in
    let~ rhs := c_neg_if mr rhs in
    let~ (lhs, rhs) := c_unwrap_mut2 (c_wrapping_uremdiv_assign lhs rhs) in
    let~ lhs := c_neg_if negate_lhs lhs in
    let~ rhs := c_neg_if negate_rhs rhs in
    cval (lhs, rhs, Ok tt).

(** src/apint/arithmetic.rs 1756-1783. *)
Definition c_wrapping_sdiv_assign (a rhs : apint) : clocked (apint * result unit) :=
  let~ z := c_is_zero rhs in
  if z : bool then let~ e := c_division_by_zero SignedDiv a in cval (a, Err e)
  else
    let~ rhs_clone := c_clone rhs in
    let~ ml := c_msb a in
    let~ mr := c_msb rhs_clone in
    let negate_lhs :=
      match ml, mr with
      | false, false => false
      | true, false => true
      | false, true => true
      | true, true => false
      end in
    let~ a := c_neg_if ml a in
    let~ rhs_clone := c_neg_if mr rhs_clone in
    let~ (a, _) := c_unwrap_mut2 (c_wrapping_udivrem_assign a rhs_clone) in
    let~ a := c_neg_if negate_lhs a in
    cval (a, Ok tt).

(** src/apint/arithmetic.rs 1803-1830. *)
Definition c_wrapping_srem_assign (a rhs : apint) : clocked (apint * result unit) :=
  let~ z := c_is_zero rhs in
  if z : bool then let~ e := c_division_by_zero SignedRem a in cval (a, Err e)
  else
    let~ rhs_clone := c_clone rhs in
    let~ ml := c_msb a in
    let~ mr := c_msb rhs_clone in
    let negate_lhs :=
      match ml, mr with
      | false, false => false
      | true, false => true
      | false, true => false
      | true, true => true
      end in
    let~ a := c_neg_if ml a in
    let~ rhs_clone := c_neg_if mr rhs_clone in
    let~ (a, _) := c_unwrap_mut2 (c_wrapping_uremdiv_assign a rhs_clone) in
    let~ a := c_neg_if negate_lhs a in
    cval (a, Ok tt).
