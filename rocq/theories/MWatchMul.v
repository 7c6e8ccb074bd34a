(** What multiplications and signed comparisons let an observer see.

    MWatch.v says what is listed.  The vector that collects the product is the
    place [New]; a push is a write behind its last digit.  No proofs in this file. *)
From Verif Require Export MWatch.

(** [.iter().rposition(|x| !x.is_zero())] goes down from the top digit and stops at the first that is not
    zero; [n] digits are left.  src/apint/arithmetic.rs 303, 313. *)
Fixpoint w_rposition (p : place) (ds : list Z) (n : nat) : watched (option nat) :=
  match n with
  | O => wval None
  | S n' =>
      let& d := w_idx p ds n' in
      let& found := branch (negb (d_is_zero d)) in
      if found : bool then wval (Some n') else w_rposition p ds n'
  end.
(** src/apint/arithmetic.rs 332-339. *)
Definition w_sig_bits (p : place) (ds : list Z) (sig : nat) : watched Z :=
  let& d := w_idx p ds sig in
  wval (Z.of_nat sig * 64 + (64 - d_leading_zeros d)).
(** [again] is what is read again in each round: [lhs[0]] in the second of the two loops.
    src/apint/arithmetic.rs 357-367 and 457-464. *)
Fixpoint w_mul_push_loop (again : list event) (mult : Z) (i : nat) (rs sum : list Z) (mul_carry : Z)
    : watched (list Z * Z) :=
  match rs with
  | [] => wval (sum, mul_carry)
  | r :: rs =>
      let& _ := see (again ++ [Read Other i; Write New (length sum)]) in
      let '(lo, hi) := d_carrying_mul_add mult r mul_carry in
      w_mul_push_loop again mult (S i) rs (sum ++ [lo]) hi
  end.
(** src/apint/arithmetic.rs 384-395, 418-429 and 487-498. *)
Definition w_mul_row_step (again : list event) (mult : Z) (rhs : list Z) (lhs_i : nat) (rhs_i : nat)
    (st : list Z * Z * Z) : watched (list Z * Z * Z) :=
  let '(sum, mul_carry, add_carry) := st in
  let& _ := see again in
  let& r := w_idx Other rhs rhs_i in
  let '(lo0, hi0) := d_carrying_mul_add mult r mul_carry in
  let& s := w_idx New sum (lhs_i + rhs_i) in
  let temp1 := dd_wadd (dd_wadd (dd s) (dd lo0)) (dd add_carry) in
  let& sum := w_upd New sum (lhs_i + rhs_i) (dd_lo temp1) in
  wval (sum, hi0, dd_hi temp1).
(** src/apint/arithmetic.rs 376-383, 409-416 and 475-480. *)
Definition w_mul_row_first (mult : Z) (rhs : list Z) (lhs_i : nat) (sum : list Z) : watched (list Z * Z * Z) :=
  let& r0 := w_idx Other rhs 0 in
  let '(lo0, hi0) := d_carrying_mul mult r0 in
  let& s := w_idx New sum lhs_i in
  let '(v, c) := d_carrying_add s lo0 in
  let& sum := w_upd New sum lhs_i v in
  wval (sum, hi0, c).
(** src/apint/arithmetic.rs 376-440. *)
Definition w_mul_full_row (lhs rhs : list Z) (rhs_sig : nat) (lhs_i : nat) (sum : list Z) : watched (list Z) :=
  let& mult := w_idx Self lhs lhs_i in
  let& st := w_mul_row_first mult rhs lhs_i sum in
  let& st := w_for_range (rhs_sig - 1) 1 (w_mul_row_step [] mult rhs lhs_i) st in
  let '(sum, mul_carry, add_carry) := st in
  let& r := w_idx Other rhs rhs_sig in
  let '(lo0, hi0) := d_carrying_mul_add mult r mul_carry in
  let& s := w_idx New sum (lhs_i + rhs_sig) in
  let temp1 := dd_wadd (dd_wadd (dd s) (dd lo0)) (dd add_carry) in
  let& sum := w_upd New sum (lhs_i + rhs_sig) (dd_lo temp1) in
  let& _ := see [Write New (length sum)] in
  wval (sum ++ [d_wrapping_add (dd_hi temp1) hi0]).
(** src/apint/arithmetic.rs 341-445. *)
Definition w_mul_no_overflow (lhs rhs : list Z) (lhs_sig rhs_sig : nat) : watched (list Z) :=
  let& mult := w_idx Self lhs 0 in
  let& r0 := w_idx Other rhs 0 in
  let '(lo, hi) := d_carrying_mul mult r0 in
  let& _ := see [Allocate (lhs_sig + rhs_sig + 2); Write New 0] in
  let& (sum, mul_carry) := w_mul_push_loop [] mult 1 (skipn 1 (firstn rhs_sig rhs)) [lo] hi in
  let& r := w_idx Other rhs rhs_sig in
  let '(lo, hi) := d_carrying_mul_add mult r mul_carry in
  let& _ := see [Write New (length sum); Write New (S (length sum))] in
  let sum := (sum ++ [lo]) ++ [hi] in
  let& sum := w_for_range (lhs_sig - 1) 1 (w_mul_full_row lhs rhs rhs_sig) sum in
  let& sum := w_mul_full_row lhs rhs rhs_sig lhs_sig sum in
  let& longer := branch (Nat.ltb (length lhs) (length sum)) in
  if longer : bool
  then let& _ := see (copies New Self (length lhs)) in wval (firstn (length lhs) sum)
  else let& _ := see (copies New Self (length sum)) in wval (sum ++ skipn (length sum) lhs).
(** src/apint/arithmetic.rs 473-505. *)
Definition w_mul_wrap_row (lhs rhs : list Z) (sig : nat) (lhs_i : nat) (sum : list Z) : watched (list Z) :=
  let& mult := w_idx Self lhs lhs_i in
  let& st := w_mul_row_first mult rhs lhs_i sum in
  let rhs_i_upper := (sig - lhs_i)%nat in
  let& st := w_for_range (rhs_i_upper - 1) 1 (w_mul_row_step [Read Self lhs_i] mult rhs lhs_i) st in
  let '(sum, mul_carry, add_carry) := st in
  let& _ := see [Read Self lhs_i] in
  let& r := w_idx Other rhs rhs_i_upper in
  let& s := w_idx New sum sig in
  w_upd New sum sig
    (d_wrapping_add (d_wrapping_add (d_wrapping_add (d_wrapping_mul mult r) mul_carry) s) add_carry).
(** src/apint/arithmetic.rs 446-511. *)
Definition w_mul_wrapping (lhs rhs : list Z) : watched (list Z) :=
  let& sig := wlift (nsub (length lhs) 1) in
  let& l0 := w_idx Self lhs 0 in
  let& r0 := w_idx Other rhs 0 in
  let '(lo, hi) := d_carrying_mul l0 r0 in
  let& _ := see [Allocate (length lhs); Write New 0] in
  let& (sum, mul_carry) := w_mul_push_loop [Read Self 0] l0 1 (skipn 1 (firstn sig rhs)) [lo] hi in
  let& _ := see [Read Self 0] in
  let& r := w_idx Other rhs sig in
  let& _ := see [Write New (length sum)] in
  let sum := sum ++ [d_wrapping_mul_add l0 r mul_carry] in
  let& sum := w_for_range (sig - 1) 1 (w_mul_wrap_row lhs rhs sig) sum in
  let& _ := see (copies New Self sig) in
  let& l := w_idx Self lhs sig in
  let& _ := see [Read Other 0] in
  let& s := w_idx New sum sig in
  let& _ := see [Write Self sig] in
  wval (firstn sig sum ++ [d_wrapping_mul_add l r0 s]).
(** src/apint/arithmetic.rs 520-525. *)
Definition w_mul_small_step (mult : Z) (src : list Z) (i : nat) (st : list Z * Z) : watched (list Z * Z) :=
  let '(lhs, mul_carry) := st in
  let& r := w_idx Other src i in
  let '(lo, hi) := d_carrying_mul_add mult r mul_carry in
  let& lhs := w_upd Self lhs i lo in
  wval (lhs, hi).
(** src/apint/arithmetic.rs 513-540. *)
Definition w_mul_small_lhs (lhs rhs : list Z) (rhs_sig : nat) : watched (list Z) :=
  let& mult := w_idx Self lhs 0 in
  let& r0 := w_idx Other rhs 0 in
  let '(lo, hi) := d_carrying_mul mult r0 in
  let& lhs := w_upd Self lhs 0 lo in
  let& (lhs, mul_carry) := w_for_range (rhs_sig - 1) 1 (w_mul_small_step mult rhs) (lhs, hi) in
  let& last := wlift (nsub (length lhs) 1) in
  let& at_end := branch (Nat.eqb rhs_sig last) in
  let& r := w_idx Other rhs rhs_sig in
  if at_end : bool then w_upd Self lhs rhs_sig (d_wrapping_mul_add mult r mul_carry)
  else
    let '(lo, hi) := d_carrying_mul_add mult r mul_carry in
    let& lhs := w_upd Self lhs rhs_sig lo in
    w_upd Self lhs (rhs_sig + 1) hi.
(** src/apint/arithmetic.rs 547-552. *)
Definition w_mul_small_step_inplace (mult : Z) (i : nat) (st : list Z * Z) : watched (list Z * Z) :=
  let '(lhs, mul_carry) := st in
  let& _ := see [Read Other 0] in
  let& l := w_idx Self lhs i in
  let '(lo, hi) := d_carrying_mul_add mult l mul_carry in
  let& lhs := w_upd Self lhs i lo in
  wval (lhs, hi).
(** src/apint/arithmetic.rs 541-567. *)
Definition w_mul_small_rhs (lhs rhs : list Z) (lhs_sig : nat) : watched (list Z) :=
  let& r0 := w_idx Other rhs 0 in
  let& l0 := w_idx Self lhs 0 in
  let '(lo, hi) := d_carrying_mul r0 l0 in
  let& lhs := w_upd Self lhs 0 lo in
  let& (lhs, mul_carry) := w_for_range (lhs_sig - 1) 1 (w_mul_small_step_inplace r0) (lhs, hi) in
  let& last := wlift (nsub (length lhs) 1) in
  let& at_end := branch (Nat.eqb lhs_sig last) in
  let& _ := see [Read Other 0] in
  let& l := w_idx Self lhs lhs_sig in
  if at_end : bool then w_upd Self lhs lhs_sig (d_wrapping_mul_add r0 l mul_carry)
  else
    let '(lo, hi) := d_carrying_mul_add r0 l mul_carry in
    let& lhs := w_upd Self lhs lhs_sig lo in
    w_upd Self lhs (lhs_sig + 1) hi.
(** src/apint/arithmetic.rs 568-572. *)
Definition w_mul_small_both (lhs rhs : list Z) : watched (list Z) :=
  let& l0 := w_idx Self lhs 0 in
  let& r0 := w_idx Other rhs 0 in
  let '(lo, hi) := d_carrying_mul l0 r0 in
  let& lhs := w_upd Self lhs 0 lo in
  w_upd Self lhs 1 hi.
(** The four cases.  src/apint/arithmetic.rs 330-573. *)
Definition w_mul_cases (lhs rhs : list Z) (lhs_sig rhs_sig : nat) : watched (list Z) :=
  let& small_lhs := branch (Nat.eqb lhs_sig 0) in
  let& small_rhs := branch (Nat.eqb rhs_sig 0) in
  match small_lhs, small_rhs with
  | false, false =>
      let& lb := w_sig_bits Self lhs lhs_sig in
      let& rb := w_sig_bits Other rhs rhs_sig in
      let& fits := branch (lb + rb <=? Z.of_nat (length lhs) * 64) in
      if fits : bool then w_mul_no_overflow lhs rhs lhs_sig rhs_sig else w_mul_wrapping lhs rhs
  | true, false => w_mul_small_lhs lhs rhs rhs_sig
  | false, true => w_mul_small_rhs lhs rhs lhs_sig
  | true, true => w_mul_small_both lhs rhs
  end.
(** src/apint/arithmetic.rs 302-573. *)
Definition w_mul_digits (lhs rhs : list Z) : watched (option (list Z)) :=
  let& r := w_rposition Other rhs (length rhs) in
  match r with
  | None => let& _ := see (writes Self 0 (length lhs)) in wval None
  | Some rhs_sig =>
      let& l := w_rposition Self lhs (length lhs) in
      match l with
      | None => let& _ := see (writes Self 0 (length lhs)) in wval None
      | Some lhs_sig => let& ds := w_mul_cases lhs rhs lhs_sig rhs_sig in wval (Some ds)
      end
  end.
(** src/apint/arithmetic.rs 294-578. *)
Definition w_wrapping_mul_assign (a rhs : apint) : watched (apint * result unit) :=
  let& z := w_zip_access_data a rhs in
  match z with
  | Err e => wval (a, Err e)
  | Ok (ZInl l r) =>
      let& _ := see [Write Self 0] in
      let& a2 := w_clear_unused_bits Self (write_inl a (d_wrapping_mul l r)) in
      wval (a2, Ok tt)
  | Ok (ZExt ls rs) =>
      let& o := w_mul_digits ls rs in
      match o with
      | None => wval (write_ext a (map d_unset_all ls), Ok tt)
      | Some ds =>
          let& a2 := w_clear_unused_bits Self (write_ext a ds) in
          wval (a2, Ok tt)
      end
  end.

(** The sign of the operand [p], which has more than one digit.  src/apint/utils.rs 339-347. *)
Definition w_msb_of (p : place) (a : apint) : watched bool :=
  let& _ := see [Branch false; Read p (length (as_digit_slice a) - 1)] in wlift (msb a).
(** The match on two signs branches on the first and then on the second.  src/apint/relational.rs 130-165. *)
Definition w_checked_slt (lhs rhs : apint) : watched (result bool) :=
  let& z := w_zip_access_data lhs rhs in
  match z with
  | Err e => wval (Err e)
  | Ok (ZInl l r) =>
      let& infate_abs := wlift (usize_sub 64 (width lhs)) in
      let& l := wlift (u64_shl l infate_abs) in
      let& r := wlift (u64_shl r infate_abs) in
      wval (Ok (u64_as_i64 l <? u64_as_i64 r))
  | Ok (ZExt _ _) =>
      let& lm := w_msb_of Self lhs in
      let& rm := w_msb_of Other rhs in
      let& lm := branch lm in
      let& rm := branch rm in
      match lm, rm with
      | false, false => w_checked_ult lhs rhs
      | false, true => wval (Ok false)
      | true, false => wval (Ok true)
      | true, true => w_checked_ult lhs rhs
      end
  end.
