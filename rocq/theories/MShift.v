(** Model of src/apint/shift.rs.  No proofs in this file. *)
From Verif Require Export MCasting.

(** src/apint/shift.rs 35-37, 53-55. *)
Definition digit_steps (s : Z) : nat := Z.to_nat (s / 64).
(** src/apint/shift.rs 53-55. *)
Definition bit_steps (s : Z) : Z := s mod 64.

(** The memmove and zero fill of src/apint/shift.rs 88-106.  The subtraction
    [digits_len - digit_steps] is checked; the raw copy of that many digits
    from the start to [digit_steps] leaves the low [digit_steps] digits, which
    are then zeroed. *)
Definition shl_digits (steps : nat) (ds : list Z) : outcome (list Z) :=
  if Nat.eqb steps 0 then Val ds
  else if Nat.leb steps (length ds)
  then Val (repeat ZERO steps ++ firstn (length ds - steps) ds)
  else Panic.

(** The carry loop of src/apint/shift.rs 109-115. *)
Fixpoint shl_loop (bits : Z) (carry : Z) (ds : list Z) : outcome (list Z) :=
  match ds with
  | [] => Val []
  | repr :: r =>
      let! n := usize_sub 64 bits in
      let! new_carry := u64_shr repr n in
      let! lo := u64_shl repr bits in
      let! r' := shl_loop bits new_carry r in
      Val (Z.lor lo carry :: r')
  end.

(** [digits[steps..]] updated by [f]; slicing is bounds-checked.
    src/apint/shift.rs 108-118. *)
Definition modify_from (steps : nat) (f : list Z -> outcome (list Z)) (ds : list Z)
    : outcome (list Z) :=
  if Nat.leb steps (length ds)
  then let! t := f (skipn steps ds) in Val (firstn steps ds ++ t)
  else Panic.

(** src/apint/shift.rs 76-121. *)
Definition wrapping_shl_assign (a : apint) (s : Z) : mut_result :=
  match verify_shift_amount (width a) s with
  | Err e => Val (a, Err e)
  | Ok _ =>
      let! acc := access_data a in
      let! a1 :=
        match acc with
        | DInl d => let! d' := u64_shl d s in Val (write_inl a d')
        | DExt ds =>
            let steps := digit_steps s in
            let! ds1 := shl_digits steps ds in
            let bits := bit_steps s in
            let! ds2 := if negb (bits =? 0)
                        then modify_from steps (shl_loop bits 0) ds1
                        else Val ds1 in
            Val (write_ext a ds2)
        end in
      let! a2 := clear_unused_bits a1 in
      Val (a2, Ok tt)
  end.

(** src/apint/shift.rs 132-137. *)
Definition into_wrapping_shl (a : apint) (s : Z) : outcome (result apint) :=
  try_forward_bin_mut_impl wrapping_shl_assign a s.

(** src/apint/shift.rs 159-166: [rotate_left] panics if [steps > len]; then the
    [steps] most significant digits are zeroed. *)
Definition lshr_digits (steps : nat) (ds : list Z) : outcome (list Z) :=
  if Nat.eqb steps 0 then Val ds
  else if Nat.leb steps (length ds) then
    let rotated := skipn steps ds ++ firstn steps ds in
    Val (firstn (length rotated - steps) rotated ++ repeat ZERO steps)
  else Panic.

(** The borrow loop of src/apint/shift.rs 169-175 over the reversed digits. *)
Fixpoint lshr_loop (bits : Z) (borrow : Z) (rds : list Z) : outcome (list Z) :=
  match rds with
  | [] => Val []
  | repr :: r =>
      let! n := usize_sub 64 bits in
      let! new_borrow := u64_shl repr n in
      let! hi := u64_shr repr bits in
      let! r' := lshr_loop bits new_borrow r in
      Val (Z.lor hi borrow :: r')
  end.

(** src/apint/shift.rs 147-180. *)
Definition wrapping_lshr_assign (a : apint) (s : Z) : mut_result :=
  match verify_shift_amount (width a) s with
  | Err e => Val (a, Err e)
  | Ok _ =>
      let! acc := access_data a in
      match acc with
      | DInl d => let! d' := u64_shr d s in Val (write_inl a d', Ok tt)
      | DExt ds =>
          let steps := digit_steps s in
          let! ds1 := lshr_digits steps ds in
          let bits := bit_steps s in
          let! ds2 := if 0 <? bits
                      then let! r := lshr_loop bits 0 (rev ds1) in Val (rev r)
                      else Val ds1 in
          Val (write_ext a ds2, Ok tt)
      end
  end.

(** src/apint/shift.rs 191-200. *)
Definition into_wrapping_lshr (a : apint) (s : Z) : outcome (result apint) :=
  try_forward_bin_mut_impl wrapping_lshr_assign a s.

(** [usize] subtraction on indices.  src/apint/shift.rs 98. *)
Definition nsub (a b : nat) : outcome nat := if Nat.leb b a then Val (a - b)%nat else Trap.

(** src/apint/shift.rs 246-250: subdigit shift. *)
Definition ashr_subdigit (bits uns : Z) (x : list Z) : outcome (list Z) :=
  let! last := nsub (length x) 1 in
  let! x := for_range last 0 (fun i x =>
      let! xi := idx x i in
      let! xi1 := idx x (i + 1) in
      upd x i (d_or (d_shr xi bits) (d_shl xi1 uns))) x in
  let! xl := idx x last in
  upd x last (d_or (d_shr xl bits) (d_shl ONES uns)).

(** src/apint/shift.rs 256-258 and 266-268. *)
Definition ashr_fill (digits diff : nat) (x : list Z) : outcome (list Z) :=
  for_range digits 0 (fun i x =>
      let! v := idx x (i + diff) in
      upd x (i + diff) (d_set_all v)) x.

(** src/apint/shift.rs 253-258: digit shift. *)
Definition ashr_digit (digits diff : nat) (x : list Z) : outcome (list Z) :=
  let! x := for_range (length x - digits) digits (fun i x =>
      let! v := idx x i in
      let! j := nsub i digits in
      upd x j v) x in
  ashr_fill digits diff x.

(** src/apint/shift.rs 261-268: digit and subdigit shift. *)
Definition ashr_both (digits diff : nat) (bits uns : Z) (x : list Z) : outcome (list Z) :=
  let! last := nsub (length x) 1 in
  let! x := for_range (last - digits) digits (fun i x =>
      let! xi := idx x i in
      let! xi1 := idx x (i + 1) in
      let! j := nsub i digits in
      upd x j (d_or (d_shr xi bits) (d_shl xi1 uns))) x in
  let! j := nsub diff 1 in
  let! xl := idx x last in
  let! x := upd x j (d_or (d_shr xl bits) (d_shl ONES uns)) in
  ashr_fill digits diff x.

(** src/apint/shift.rs 216-274. *)
Definition wrapping_ashr_assign (a : apint) (s : Z) : mut_result :=
  let! m := msb a in
  if negb m then wrapping_lshr_assign a s
  else
    match verify_shift_amount (width a) s with
    | Err e => Val (a, Err e)
    | Ok _ =>
        if s =? 0 then Val (a, Ok tt)
        else
          let width := width a in
          let width_bits := width mod 64 in
          let digits := Z.to_nat (s / 64) in
          let bits := s mod 64 in
          let! uns := usize_sub 64 bits in
          let! acc := access_data a in
          let! a1 :=
            match acc with
            | DInl x =>
                let! k := usize_sub width bits in
                Val (write_inl a (d_or (d_shr x bits) (d_shl ONES k)))
            | DExt x =>
                let! x :=
                  if negb (width_bits =? 0) then
                    let! last := nsub (length x) 1 in
                    let! v := idx x last in
                    let! r := d_sign_extend_from v width_bits in
                    let! v' := unwrap r in
                    upd x last v'
                  else Val x in
                let! diff := nsub (length x) digits in
                let! x :=
                  if Nat.eqb digits 0 then ashr_subdigit bits uns x
                  else if bits =? 0 then ashr_digit digits diff x
                  else ashr_both digits diff bits uns x in
                Val (write_ext a x)
            end in
          let! a2 := clear_unused_bits a1 in
          Val (a2, Ok tt)
    end.

(** src/apint/shift.rs 290-299. *)
Definition into_wrapping_ashr (a : apint) (s : Z) : outcome (result apint) :=
  try_forward_bin_mut_impl wrapping_ashr_assign a s.
