(** Model of src/apint/arithmetic.rs lines 1-590: increment, decrement,
    negation, addition, subtraction and multiplication.  No proofs in this
    file. *)
From Verif Require Export MBitwise MShift.

(** The loop of src/apint/arithmetic.rs 35-47. *)
Fixpoint inc_loop (xs : list Z) : list Z :=
  match xs with
  | [] => []
  | x :: r =>
      match d_overflowing_add x ONE with
      | (v, false) => v :: r
      | (v, true) => v :: inc_loop r
      end
  end.

(** src/apint/arithmetic.rs 29-51, 54-56. *)
Definition wrapping_inc (a : apint) : outcome apint :=
  let! acc := access_data a in
  let a1 :=
    match acc with
    | DInl x => write_inl a (d_wrapping_add x ONE)
    | DExt xs => write_ext a (inc_loop xs)
    end in
  clear_unused_bits a1.
(** src/apint/arithmetic.rs 54-56. *)
Definition into_wrapping_inc (a : apint) : outcome apint := forward_mut_impl wrapping_inc a.

(** The loop of src/apint/arithmetic.rs 65-77. *)
Fixpoint dec_loop (xs : list Z) : list Z :=
  match xs with
  | [] => []
  | x :: r =>
      match d_overflowing_sub x ONE with
      | (v, false) => v :: r
      | (v, true) => v :: dec_loop r
      end
  end.

(** src/apint/arithmetic.rs 59-81, 84-86. *)
Definition wrapping_dec (a : apint) : outcome apint :=
  let! acc := access_data a in
  let a1 :=
    match acc with
    | DInl x => write_inl a (d_wrapping_sub x ONE)
    | DExt xs => write_ext a (dec_loop xs)
    end in
  clear_unused_bits a1.
(** src/apint/arithmetic.rs 84-86. *)
Definition into_wrapping_dec (a : apint) : outcome apint := forward_mut_impl wrapping_dec a.

(** src/apint/arithmetic.rs 89-93, 96-98. *)
Definition wrapping_neg (a : apint) : outcome apint :=
  let! a := bitnot a in wrapping_inc a.
(** src/apint/arithmetic.rs 96-98. *)
Definition into_wrapping_neg (a : apint) : outcome apint := forward_mut_impl wrapping_neg a.

(** src/apint/arithmetic.rs 113-120: one step of the carry loop at index [i]. *)
Definition add_step (rhs : list Z) (i : nat) (st : list Z * Z) : outcome (list Z * Z) :=
  let '(lhs, carry) := st in
  let! l := idx lhs i in
  let! r := idx rhs i in
  let temp := dd_wadd (dd_wadd (dd l) (dd r)) (dd carry) in
  let! lhs := upd lhs i (dd_lo temp) in
  Val (lhs, dd_hi temp).

(** src/apint/arithmetic.rs 110-121: the digits and the last carry. *)
Definition add_digits (lhs rhs : list Z) : outcome (list Z * Z) :=
  let! l := idx lhs 0 in
  let! r := idx rhs 0 in
  let '(temp, carry) := d_carrying_add l r in
  let! lhs := upd lhs 0 temp in
  for_range (length lhs - 1) 1 (add_step rhs) (lhs, carry).

(** src/apint/arithmetic.rs 105-125. *)
Definition wrapping_add_assign (a rhs : apint) : mut_result :=
  let! z := zip_access_data a rhs in
  match z with
  | Err e => Val (a, Err e)
  | Ok z =>
      let! a1 :=
        match z with
        | ZInl l r => Val (write_inl a (d_wrapping_add l r))
        | ZExt ls rs => let! (ds, _) := add_digits ls rs in Val (write_ext a ds)
        end in
      let! a2 := clear_unused_bits a1 in
      Val (a2, Ok tt)
  end.
(** src/apint/arithmetic.rs 132-134. *)
Definition into_wrapping_add (a rhs : apint) : outcome (result apint) :=
  try_forward_bin_mut_impl wrapping_add_assign a rhs.

(** src/apint/arithmetic.rs 145-204, crate-private and used by the fuzz test only: the new value
    and the overflow flag. *)
Definition overflowing_uadd_assign (a rhs : apint) : outcome (apint * result bool) :=
  let! z := zip_access_data a rhs in
  match z with
  | Err e => Val (a, Err e)
  | Ok z =>
      match excess_bits (width a) with
      | Some excess =>
          let mask := d_shr ONES excess in
          match z with
          | ZInl l r =>
              let temp := d_wrapping_add l r in
              Val (write_inl a (d_and temp mask), Ok (negb (d_and temp mask =? temp)))
          | ZExt ls rs =>
              let! l := idx ls 0 in
              let! r := idx rs 0 in
              let '(temp, carry) := d_carrying_add l r in
              let! ls := upd ls 0 temp in
              let! last := nsub (length ls) 1 in
              let! (ls, carry) := for_range (last - 1) 1 (add_step rs) (ls, carry) in
              let! l := idx ls last in
              let! r := idx rs last in
              let temp := d_wrapping_add (d_wrapping_add l r) carry in
              let! ls := upd ls last (d_and temp mask) in
              Val (write_ext a ls, Ok (negb (d_and temp mask =? temp)))
          end
      | None =>
          match z with
          | ZInl l r =>
              let '(v, o) := d_overflowing_add l r in
              Val (write_inl a v, Ok o)
          | ZExt ls rs =>
              let! (ls, carry) := add_digits ls rs in
              Val (write_ext a ls, Ok (negb (d_is_zero carry)))
          end
      end
  end.

(** src/apint/arithmetic.rs 215-223, crate-private and unused. *)
Definition overflowing_sadd_assign (a rhs : apint) : outcome (apint * result bool) :=
  let! self_sign := msb a in
  let! rhs_sign := msb rhs in
  let! (a', r) := wrapping_add_assign a rhs in
  match r with
  | Err e => Val (a', Err e)
  | Ok _ =>
      let! m := msb a' in
      Val (a', Ok (Bool.eqb self_sign rhs_sign && negb (Bool.eqb self_sign m)))
  end.

(** src/apint/arithmetic.rs 242-249: one step of the loop at index [i]. *)
Definition sub_step (rhs : list Z) (i : nat) (st : list Z * Z) : outcome (list Z * Z) :=
  let '(lhs, carry) := st in
  let! l := idx lhs i in
  let! r := idx rhs i in
  let temp := dd_wadd (dd_wadd (dd l) (dd (d_not r))) (dd carry) in
  let! lhs := upd lhs i (dd_lo temp) in
  Val (lhs, dd_hi temp).

(** src/apint/arithmetic.rs 235-250. *)
Definition sub_digits (lhs rhs : list Z) : outcome (list Z * Z) :=
  let! l := idx lhs 0 in
  let! r := idx rhs 0 in
  let t := dd_wadd (dd_wadd (dd l) (dd (d_not r))) (dd ONE) in
  let! lhs := upd lhs 0 (dd_lo t) in
  for_range (length lhs - 1) 1 (sub_step rhs) (lhs, dd_hi t).

(** src/apint/arithmetic.rs 230-254. *)
Definition wrapping_sub_assign (a rhs : apint) : mut_result :=
  let! z := zip_access_data a rhs in
  match z with
  | Err e => Val (a, Err e)
  | Ok z =>
      let! a1 :=
        match z with
        | ZInl l r => Val (write_inl a (d_wrapping_sub l r))
        | ZExt ls rs => let! (ds, _) := sub_digits ls rs in Val (write_ext a ds)
        end in
      let! a2 := clear_unused_bits a1 in
      Val (a2, Ok tt)
  end.
(** src/apint/arithmetic.rs 261-263. *)
Definition into_wrapping_sub (a rhs : apint) : outcome (result apint) :=
  try_forward_bin_mut_impl wrapping_sub_assign a rhs.

(** * Multiplication, src/apint/arithmetic.rs 294-578 *)

(** [.iter().rposition(|x| !x.is_zero())]: index of the last nonzero digit.
    src/apint/arithmetic.rs 303, 313. *)
Fixpoint rposition_nonzero (ds : list Z) : option nat :=
  match ds with
  | [] => None
  | d :: r =>
      match rposition_nonzero r with
      | Some i => Some (S i)
      | None => if d_is_zero d then None else Some O
      end
  end.

(** [(sig * BITS) + (BITS - ds[sig].leading_zeros())], src/apint/arithmetic.rs 332-339. *)
Definition sig_bits (ds : list Z) (sig : nat) : outcome Z :=
  let! d := idx ds sig in
  Val (Z.of_nat sig * 64 + (64 - d_leading_zeros d)).

(** src/apint/arithmetic.rs 357-367 and 457-464: extend [sum] by the row of [mult] times [rs]; the
    pushed digits are appended at the end of [sum]. *)
Fixpoint mul_push_loop (mult : Z) (rs : list Z) (sum : list Z) (mul_carry : Z)
    : list Z * Z :=
  match rs with
  | [] => (sum, mul_carry)
  | r :: rs =>
      let '(lo, hi) := d_carrying_mul_add mult r mul_carry in
      mul_push_loop mult rs (sum ++ [lo]) hi
  end.

(** src/apint/arithmetic.rs 384-395, 418-429 and 487-498: one step at [rhs_i] of adding a row to [sum]
    at offset [lhs_i]. *)
Definition mul_row_step (mult : Z) (rhs : list Z) (lhs_i : nat) (rhs_i : nat)
    (st : list Z * Z * Z) : outcome (list Z * Z * Z) :=
  let '(sum, mul_carry, add_carry) := st in
  let! r := idx rhs rhs_i in
  let '(lo0, hi0) := d_carrying_mul_add mult r mul_carry in
  let! s := idx sum (lhs_i + rhs_i) in
  let temp1 := dd_wadd (dd_wadd (dd s) (dd lo0)) (dd add_carry) in
  let! sum := upd sum (lhs_i + rhs_i) (dd_lo temp1) in
  Val (sum, hi0, dd_hi temp1).

(** src/apint/arithmetic.rs 376-383, 409-416 and 475-480: first digit of a row added to [sum]. *)
Definition mul_row_first (mult : Z) (rhs : list Z) (lhs_i : nat) (sum : list Z)
    : outcome (list Z * Z * Z) :=
  let! r0 := idx rhs 0 in
  let '(lo0, hi0) := d_carrying_mul mult r0 in
  let! s := idx sum lhs_i in
  let '(v, c) := d_carrying_add s lo0 in
  let! sum := upd sum lhs_i v in
  Val (sum, hi0, c).

(** src/apint/arithmetic.rs 376-407 (middle row) and 409-440 (final row) of the branch without
    overflow; both have the same text. *)
Definition mul_full_row (lhs rhs : list Z) (rhs_sig : nat) (lhs_i : nat) (sum : list Z)
    : outcome (list Z) :=
  let! mult := idx lhs lhs_i in
  let! st := mul_row_first mult rhs lhs_i sum in
  let! st := for_range (rhs_sig - 1) 1 (mul_row_step mult rhs lhs_i) st in
  let '(sum, mul_carry, add_carry) := st in
  let! r := idx rhs rhs_sig in
  let '(lo0, hi0) := d_carrying_mul_add mult r mul_carry in
  let! s := idx sum (lhs_i + rhs_sig) in
  let temp1 := dd_wadd (dd_wadd (dd s) (dd lo0)) (dd add_carry) in
  let! sum := upd sum (lhs_i + rhs_sig) (dd_lo temp1) in
  Val (sum ++ [d_wrapping_add (dd_hi temp1) hi0]).

(** src/apint/arithmetic.rs 341-445: no digit-wise overflow possible. *)
Definition mul_no_overflow (lhs rhs : list Z) (lhs_sig rhs_sig : nat) : outcome (list Z) :=
  let! mult := idx lhs 0 in
  let! r0 := idx rhs 0 in
  let '(lo, hi) := d_carrying_mul mult r0 in
  let '(sum, mul_carry) :=
    mul_push_loop mult (skipn 1 (firstn rhs_sig rhs)) [lo] hi in
  let! r := idx rhs rhs_sig in
  let '(lo, hi) := d_carrying_mul_add mult r mul_carry in
  let sum := (sum ++ [lo]) ++ [hi] in
  let! sum := for_range (lhs_sig - 1) 1 (mul_full_row lhs rhs rhs_sig) sum in
  let! sum := mul_full_row lhs rhs rhs_sig lhs_sig sum in
  if Nat.ltb (length lhs) (length sum)
  then Val (firstn (length lhs) sum)
  else Val (sum ++ skipn (length sum) lhs).

(** src/apint/arithmetic.rs 473-505: one middle row of the wrapping branch. *)
Definition mul_wrap_row (lhs rhs : list Z) (sig : nat) (lhs_i : nat) (sum : list Z)
    : outcome (list Z) :=
  let! mult := idx lhs lhs_i in
  let! st := mul_row_first mult rhs lhs_i sum in
  let rhs_i_upper := (sig - lhs_i)%nat in
  let! st := for_range (rhs_i_upper - 1) 1 (mul_row_step mult rhs lhs_i) st in
  let '(sum, mul_carry, add_carry) := st in
  let! r := idx rhs rhs_i_upper in
  let! s := idx sum sig in
  upd sum sig
    (d_wrapping_add (d_wrapping_add (d_wrapping_add (d_wrapping_mul mult r) mul_carry) s)
       add_carry).

(** src/apint/arithmetic.rs 446-511: wrapping multiplication. *)
Definition mul_wrapping (lhs rhs : list Z) : outcome (list Z) :=
  let! sig := nsub (length lhs) 1 in
  let! l0 := idx lhs 0 in
  let! r0 := idx rhs 0 in
  let '(lo, hi) := d_carrying_mul l0 r0 in
  let '(sum, mul_carry) :=
    mul_push_loop l0 (skipn 1 (firstn sig rhs)) [lo] hi in
  let! r := idx rhs sig in
  let sum := sum ++ [d_wrapping_mul_add l0 r mul_carry] in
  let! sum := for_range (sig - 1) 1 (mul_wrap_row lhs rhs sig) sum in
  let! l := idx lhs sig in
  let! s := idx sum sig in
  (* 506-507: copy the low digits of [sum]; 509-510: final digit *)
  Val (firstn sig sum ++ [d_wrapping_mul_add l r0 s]).

(** src/apint/arithmetic.rs 520-525: one step of the small-by-large row. *)
Definition mul_small_step (mult : Z) (src : list Z) (i : nat) (st : list Z * Z)
    : outcome (list Z * Z) :=
  let '(lhs, mul_carry) := st in
  let! r := idx src i in
  let '(lo, hi) := d_carrying_mul_add mult r mul_carry in
  let! lhs := upd lhs i lo in
  Val (lhs, hi).

(** src/apint/arithmetic.rs 513-540: [lhs] has one significant digit. *)
Definition mul_small_lhs (lhs rhs : list Z) (rhs_sig : nat) : outcome (list Z) :=
  let! mult := idx lhs 0 in
  let! r0 := idx rhs 0 in
  let '(lo, hi) := d_carrying_mul mult r0 in
  let! lhs := upd lhs 0 lo in
  let! (lhs, mul_carry) := for_range (rhs_sig - 1) 1 (mul_small_step mult rhs) (lhs, hi) in
  let! last := nsub (length lhs) 1 in
  let! r := idx rhs rhs_sig in
  if Nat.eqb rhs_sig last then upd lhs rhs_sig (d_wrapping_mul_add mult r mul_carry)
  else
    let '(lo, hi) := d_carrying_mul_add mult r mul_carry in
    let! lhs := upd lhs rhs_sig lo in
    upd lhs (rhs_sig + 1) hi.

(** src/apint/arithmetic.rs 547-552: one step of the large-by-small row, in place.  The code iterates
    with [iter_mut().take(lhs_sig_nonzero).skip(1)]; the model uses the index. *)
Definition mul_small_step_inplace (mult : Z) (i : nat) (st : list Z * Z)
    : outcome (list Z * Z) :=
  let '(lhs, mul_carry) := st in
  let! l := idx lhs i in
  let '(lo, hi) := d_carrying_mul_add mult l mul_carry in
  let! lhs := upd lhs i lo in
  Val (lhs, hi).

(** src/apint/arithmetic.rs 541-567: [rhs] has one significant digit. *)
Definition mul_small_rhs (lhs rhs : list Z) (lhs_sig : nat) : outcome (list Z) :=
  let! r0 := idx rhs 0 in
  let! l0 := idx lhs 0 in
  let '(lo, hi) := d_carrying_mul r0 l0 in
  let! lhs := upd lhs 0 lo in
  let! (lhs, mul_carry) := for_range (lhs_sig - 1) 1 (mul_small_step_inplace r0) (lhs, hi) in
  let! last := nsub (length lhs) 1 in
  let! l := idx lhs lhs_sig in
  if Nat.eqb lhs_sig last then upd lhs lhs_sig (d_wrapping_mul_add r0 l mul_carry)
  else
    let '(lo, hi) := d_carrying_mul_add r0 l mul_carry in
    let! lhs := upd lhs lhs_sig lo in
    upd lhs (lhs_sig + 1) hi.

(** src/apint/arithmetic.rs 568-572: both have one significant digit. *)
Definition mul_small_both (lhs rhs : list Z) : outcome (list Z) :=
  let! l0 := idx lhs 0 in
  let! r0 := idx rhs 0 in
  let '(lo, hi) := d_carrying_mul l0 r0 in
  let! lhs := upd lhs 0 lo in
  upd lhs 1 hi.

(** src/apint/arithmetic.rs 302-573; [None] stands for the early [return Ok(())] after zeroing. *)
Definition mul_digits (lhs rhs : list Z) : outcome (option (list Z)) :=
  match rposition_nonzero rhs with
  | None => Val None
  | Some rhs_sig =>
      match rposition_nonzero lhs with
      | None => Val None
      | Some lhs_sig =>
          let! ds :=
            match Nat.eqb lhs_sig 0, Nat.eqb rhs_sig 0 with
            | false, false =>
                let! lb := sig_bits lhs lhs_sig in
                let! rb := sig_bits rhs rhs_sig in
                if lb + rb <=? Z.of_nat (length lhs) * 64
                then mul_no_overflow lhs rhs lhs_sig rhs_sig
                else mul_wrapping lhs rhs
            | true, false => mul_small_lhs lhs rhs rhs_sig
            | false, true => mul_small_rhs lhs rhs lhs_sig
            | true, true => mul_small_both lhs rhs
            end in
          Val (Some ds)
      end
  end.

(** src/apint/arithmetic.rs 294-578. *)
Definition wrapping_mul_assign (a rhs : apint) : mut_result :=
  let! z := zip_access_data a rhs in
  match z with
  | Err e => Val (a, Err e)
  | Ok (ZInl l r) =>
      let! a2 := clear_unused_bits (write_inl a (d_wrapping_mul l r)) in
      Val (a2, Ok tt)
  | Ok (ZExt ls rs) =>
      let! o := mul_digits ls rs in
      match o with
      | None => Val (write_ext a (map d_unset_all ls), Ok tt)
      | Some ds =>
          let! a2 := clear_unused_bits (write_ext a ds) in
          Val (a2, Ok tt)
      end
  end.
(** src/apint/arithmetic.rs 587-589. *)
Definition into_wrapping_mul (a rhs : apint) : outcome (result apint) :=
  try_forward_bin_mut_impl wrapping_mul_assign a rhs.
