(** Model of the vectors that multiplication and division allocate while they
    compute.  The other model files give these functions the digits only; here
    the vectors have a capacity and every buffer of digits that is asked from the
    allocator is written down.  No proofs in this file. *)
From Verif Require Export MMachine.

(** * Counting *)
(** A computation together with the sizes, in digits, of the buffers that it asks
    the allocator for, in order.  All of them are freed when the call ends, except
    the one inside an error.  src/apint/arithmetic.rs 294-1841. *)
Definition counted (A : Type) : Type := outcome (A * list nat).
(** The functions of src/apint/arithmetic.rs 294-1841: nothing is allocated. *)
Definition tlift {A : Type} (o : outcome A) : counted A := let! a := o in Val (a, []).
(** The functions of src/apint/arithmetic.rs 294-1841: one thing after the other. *)
Definition tbind {A B : Type} (m : counted A) (k : A -> counted B) : counted B :=
  let! (a, s) := m in let! (b, t) := k a in Val (b, s ++ t).
Notation "'let^' x ':=' m 'in' k" :=
  (tbind m (fun x => k))
  (at level 200, x pattern, m at level 100, k at level 200, right associativity).
(** A [for] loop, as [for_range] in MBase.v.  E.g. src/apint/arithmetic.rs 375-407. *)
Fixpoint t_for_range {S : Type} (n lo : nat) (body : nat -> S -> counted S) (s : S) : counted S :=
  match n with
  | O => tlift (Val s)
  | Datatypes.S n' => let^ s' := body lo s in t_for_range n' (Datatypes.S lo) body s'
  end.

(** * [Vec<Digit>] (Rust std)
    As used in src/apint/arithmetic.rs 352, 454, 1012, 1124, 1287, 1605, 1640. *)
Record vec := mk_vec { capacity : nat; items : list Z }.
(** A buffer of no digits is not allocated.  src/apint/arithmetic.rs 352. *)
Definition request (n : nat) : list nat := match n with O => [] | _ => [n] end.
(** [Vec::with_capacity(n)], src/apint/arithmetic.rs 352-354, 454, 1012, 1287. *)
Definition vec_with_capacity (n : nat) : counted vec := Val (mk_vec n [], request n).
(** [Vec::push] moves to a buffer of at least twice the size when there is no room
    left.  src/apint/arithmetic.rs 355-462, 1015-1077, 1291-1302. *)
Definition vec_push (v : vec) (d : Z) : counted vec :=
  if Nat.ltb (length (items v)) (capacity v)
  then Val (mk_vec (capacity v) (items v ++ [d]), [])
  else
    let cap := Nat.max 4 (2 * capacity v) in
    Val (mk_vec cap (items v ++ [d]), request cap).
(** [vec![Digit::ZERO; n]], src/apint/arithmetic.rs 1124. *)
Definition vec_zeros (n : nat) : counted (list Z) := Val (repeat ZERO n, request n).
(** [slice.to_vec()], src/apint/arithmetic.rs 1605, 1640. *)
Definition slice_to_vec (ds : list Z) : counted (list Z) := Val (ds, request (length ds)).
(** [ApInt::clone], which allocates the digits of a large integer:
    src/apint/casting.rs 13-29. *)
Definition t_clone (a : apint) : counted apint :=
  let! c := clone a in
  Val (c, match storage (len a) with SInl => [] | SExt => request (length (digits a)) end).

(** * Multiplication *)
(** src/apint/arithmetic.rs 357-367 and 457-464. *)
Fixpoint t_mul_push_loop (mult : Z) (rs : list Z) (sum : vec) (mul_carry : Z) : counted (vec * Z) :=
  match rs with
  | [] => tlift (Val (sum, mul_carry))
  | r :: rs =>
      let '(lo, hi) := d_carrying_mul_add mult r mul_carry in
      let^ sum := vec_push sum lo in
      t_mul_push_loop mult rs sum hi
  end.
(** src/apint/arithmetic.rs 376-407 (middle row) and 409-440 (final row). *)
Definition t_mul_full_row (lhs rhs : list Z) (rhs_sig : nat) (lhs_i : nat) (sum : vec) : counted vec :=
  let^ mult := tlift (idx lhs lhs_i) in
  let^ st := tlift (mul_row_first mult rhs lhs_i (items sum)) in
  let^ st := tlift (for_range (rhs_sig - 1) 1 (mul_row_step mult rhs lhs_i) st) in
  let '(ds, mul_carry, add_carry) := st in
  let^ r := tlift (idx rhs rhs_sig) in
  let '(lo0, hi0) := d_carrying_mul_add mult r mul_carry in
  let^ s := tlift (idx ds (lhs_i + rhs_sig)) in
  let temp1 := dd_wadd (dd_wadd (dd s) (dd lo0)) (dd add_carry) in
  let^ ds := tlift (upd ds (lhs_i + rhs_sig) (dd_lo temp1)) in
  vec_push (mk_vec (capacity sum) ds) (d_wrapping_add (dd_hi temp1) hi0).
(** src/apint/arithmetic.rs 341-445. *)
Definition t_mul_no_overflow (lhs rhs : list Z) (lhs_sig rhs_sig : nat) : counted (list Z) :=
  let^ mult := tlift (idx lhs 0) in
  let^ r0 := tlift (idx rhs 0) in
  let '(lo, hi) := d_carrying_mul mult r0 in
  let^ sum := vec_with_capacity (lhs_sig + rhs_sig + 2) in
  let^ sum := vec_push sum lo in
  let^ (sum, mul_carry) := t_mul_push_loop mult (skipn 1 (firstn rhs_sig rhs)) sum hi in
  let^ r := tlift (idx rhs rhs_sig) in
  let '(lo, hi) := d_carrying_mul_add mult r mul_carry in
  let^ sum := vec_push sum lo in
  let^ sum := vec_push sum hi in
  let^ sum := t_for_range (lhs_sig - 1) 1 (t_mul_full_row lhs rhs rhs_sig) sum in
  let^ sum := t_mul_full_row lhs rhs rhs_sig lhs_sig sum in
  let sum := items sum in
  tlift (Val (if Nat.ltb (length lhs) (length sum)
              then firstn (length lhs) sum
              else sum ++ skipn (length sum) lhs)).
(** src/apint/arithmetic.rs 446-511; the rows of 465-505 write digits of [sum]
    in place, which is [mul_wrap_row] of MArith.v. *)
Definition t_mul_wrapping (lhs rhs : list Z) : counted (list Z) :=
  let^ sig := tlift (nsub (length lhs) 1) in
  let^ l0 := tlift (idx lhs 0) in
  let^ r0 := tlift (idx rhs 0) in
  let '(lo, hi) := d_carrying_mul l0 r0 in
  let^ sum := vec_with_capacity (length lhs) in
  let^ sum := vec_push sum lo in
  let^ (sum, mul_carry) := t_mul_push_loop l0 (skipn 1 (firstn sig rhs)) sum hi in
  let^ r := tlift (idx rhs sig) in
  let^ sum := vec_push sum (d_wrapping_mul_add l0 r mul_carry) in
  let^ sum := tlift (for_range (sig - 1) 1 (mul_wrap_row lhs rhs sig) (items sum)) in
  let^ l := tlift (idx lhs sig) in
  let^ s := tlift (idx sum sig) in
  tlift (Val (firstn sig sum ++ [d_wrapping_mul_add l r0 s])).
(** src/apint/arithmetic.rs 302-573. *)
Definition t_mul_digits (lhs rhs : list Z) : counted (option (list Z)) :=
  match rposition_nonzero rhs with
  | None => tlift (Val None)
  | Some rhs_sig =>
      match rposition_nonzero lhs with
      | None => tlift (Val None)
      | Some lhs_sig =>
          let^ ds :=
            match Nat.eqb lhs_sig 0, Nat.eqb rhs_sig 0 with
            | false, false =>
                let^ lb := tlift (sig_bits lhs lhs_sig) in
                let^ rb := tlift (sig_bits rhs rhs_sig) in
                if lb + rb <=? Z.of_nat (length lhs) * 64
                then t_mul_no_overflow lhs rhs lhs_sig rhs_sig
                else t_mul_wrapping lhs rhs
            | true, false => tlift (mul_small_lhs lhs rhs rhs_sig)
            | false, true => tlift (mul_small_rhs lhs rhs lhs_sig)
            | true, true => tlift (mul_small_both lhs rhs)
            end in
          tlift (Val (Some ds))
      end
  end.
(** src/apint/arithmetic.rs 294-578. *)
Definition t_mul (a rhs : apint) : counted (apint * result unit) :=
  let^ z := tlift (zip_access_data a rhs) in
  match z with
  | Err e => tlift (Val (a, Err e))
  | Ok (ZInl l r) =>
      let^ a2 := tlift (clear_unused_bits (write_inl a (d_wrapping_mul l r))) in
      tlift (Val (a2, Ok tt))
  | Ok (ZExt ls rs) =>
      let^ o := t_mul_digits ls rs in
      match o with
      | None => tlift (Val (write_ext a (map d_unset_all ls), Ok tt))
      | Some ds =>
          let^ a2 := tlift (clear_unused_bits (write_ext a ds)) in
          tlift (Val (a2, Ok tt))
      end
  end.

(** * Division *)
(** src/apint/arithmetic.rs 1018-1022 and 1292-1297. *)
Fixpoint t_sub_row (mul : Z) (xs : list Z) (sub : vec) (carry : Z) : counted (vec * Z) :=
  match xs with
  | [] => tlift (Val (sub, carry))
  | x :: r =>
      let '(t, c) := d_carrying_mul_add mul x carry in
      let^ sub := vec_push sub t in
      t_sub_row mul r sub c
  end.
(** [for _ in .. { sub.push(Digit::ZERO) }], src/apint/arithmetic.rs 1075-1077
    and 1300-1302. *)
Fixpoint t_push_zeros (n : nat) (sub : vec) : counted vec :=
  match n with
  | O => tlift (Val sub)
  | S n => let^ sub := vec_push sub ZERO in t_push_zeros n sub
  end.
(** src/apint/arithmetic.rs 981-1103. *)
Definition t_mul_or_mul_sub1 (len : nat) (duo : list Z) (ini_duo_sd : nat) (ini_duo_lz : Z)
    (div : list Z) (div_sd : nat) : counted (list Z * list Z) :=
  let^ duo_sig_dd := tlift (sig_dd duo ini_duo_sd ini_duo_lz) in
  let^ div_sig_dd := tlift (sig_dd div ini_duo_sd ini_duo_lz) in
  let^ m := tlift (dd_wdiv duo_sig_dd div_sig_dd) in
  let mul := dd_lo m in
  let^ sub := vec_with_capacity len in
  let^ div0 := tlift (idx div 0) in
  let '(t0, carry) := d_carrying_mul mul div0 in
  let^ sub := vec_push sub t0 in
  let^ (sub, carry) := t_sub_row mul (skipn 1 (firstn div_sd div)) sub carry in
  let^ dtop := tlift (idx div div_sd) in
  let^ last := tlift (nsub len 1) in
  if Nat.eqb div_sd last then
    let '(t, c) := d_carrying_mul_add mul dtop carry in
    let^ sub := vec_push sub t in
    let sub := items sub in
    if negb (d_is_zero c) then tlift (finish_mul_sub1 len duo div sub mul)
    else
      let^ gt := tlift (ugt len sub len duo) in
      if gt then tlift (finish_mul_sub1 len duo div sub mul)
      else tlift (finish_mul len duo div sub mul)
  else
    let '(t, c) := d_carrying_mul_add mul dtop carry in
    let^ sub := vec_push sub t in
    let^ sub := vec_push sub c in
    let^ sub := t_push_zeros (len - length (items sub)) sub in
    let sub := items sub in
    let^ gt := tlift (ugt len sub len duo) in
    if gt then tlift (finish_mul_sub1 len duo div sub mul)
    else tlift (finish_mul len duo div sub mul).
(** src/apint/arithmetic.rs 1268-1332. *)
Definition t_mul_or_mul_sub1_quo (len : nat) (duo : list Z) (duo_sd : nat) (duo_lz duo_sig_dd : Z)
    (div : list Z) (div_sd : nat) (quo : list Z) : counted (list Z * list Z) :=
  let^ div_sig_dd := tlift (sig_dd div duo_sd duo_lz) in
  let^ m := tlift (dd_wdiv duo_sig_dd div_sig_dd) in
  let mul := dd_lo m in
  let^ sub := vec_with_capacity len in
  let^ div0 := tlift (idx div 0) in
  let t0 := dd_wmul (dd mul) (dd div0) in
  let^ sub := vec_push sub (dd_lo t0) in
  let^ (sub, mul_carry) := t_sub_row mul (skipn 1 (firstn div_sd div)) sub (dd_hi t0) in
  let^ dtop := tlift (idx div div_sd) in
  let '(t, c) := d_carrying_mul_add mul dtop mul_carry in
  let^ sub := vec_push sub t in
  let^ sub := vec_push sub c in
  let^ sub := t_push_zeros (len - (div_sd + 2)) sub in
  let sub := items sub in
  let sub_len := length sub in
  let^ gt := tlift (ugt sub_len sub len duo) in
  if gt then
    let^ sub := tlift (twos_complement sub_len sub) in
    let^ sub := tlift (add_macro sub_len sub div) in
    tlift (special1 sub_len duo sub div (d_wrapping_sub mul ONE) quo)
  else
    let^ sub := tlift (twos_complement sub_len sub) in
    tlift (special1 sub_len duo sub div mul quo).
(** The [loop] of src/apint/arithmetic.rs 1125-1424. *)
Fixpoint t_div_loop (fuel len : nat) (duo div quo : list Z) (duo_sd : nat) (duo_lz : Z)
    (div_sd : nat) (div_sb div_lesser_bits div_sig_d_add1 : Z) : counted (list Z * list Z) :=
  match fuel with
  | O => OutOfFuel
  | S fuel' =>
      let^ d2 := tlift (nsub duo_sd 2) in
      let^ dl := tlift (usize_sub 64 duo_lz) in
      let duo_lesser_bits := dl + 64 * Z.of_nat d2 in
      let^ duo_sig_dd := tlift (sig_dd duo duo_sd duo_lz) in
      if div_lesser_bits <=? duo_lesser_bits then
        let bits := duo_lesser_bits - div_lesser_bits in
        let digits := Z.to_nat (bits / 64) in
        let bits_ll := bits mod 64 in
        let^ mul := tlift (dd_wdiv duo_sig_dd div_sig_d_add1) in
        let^ quo := tlift (add_to_quo quo digits bits_ll mul) in
        let^ duo := tlift (
          if d_is_zero (dd_hi mul)
          then sub_lo duo div duo_sd digits bits_ll mul
          else sub_hi duo div duo_sd digits bits_ll mul) in
        let^ o := tlift (find_sd (duo_sd + 1) duo) in
        match o with
        | None =>
            let^ div := tlift (for_range len 0 (fun i div => upd div i ZERO) div) in
            let^ duo := tlift (for_range len 0 (fun i duo => let! q := idx quo i in upd duo i q) duo) in
            tlift (Val (duo, div))
        | Some duo_sd =>
            let^ d := tlift (idx duo duo_sd) in
            let duo_lz := d_leading_zeros d in
            let^ k := tlift (usize_sub 64 duo_lz) in
            let duo_sb := Z.of_nat duo_sd * 64 + k in
            if duo_sb =? div_sb then
              let^ ge := tlift (uge len duo len div) in
              if ge then
                let^ div := tlift (twos_complement len div) in
                let^ div := tlift (add_macro len div duo) in
                let^ duo := tlift (quo_add1_from len 0 len duo quo) in
                tlift (Val (duo, div))
              else
                let^ div := tlift (copy_range 0 len div duo) in
                let^ duo := tlift (copy_range 0 len duo quo) in
                tlift (Val (duo, div))
            else if duo_sb <? div_sb then
              let^ div := tlift (copy_range 0 len div duo) in
              let^ duo := tlift (copy_range 0 len duo quo) in
              tlift (Val (duo, div))
            else if Nat.ltb duo_sd 2 then tlift (small_tail len duo div quo)
            else t_div_loop fuel' len duo div quo duo_sd duo_lz div_sd div_sb
                   div_lesser_bits div_sig_d_add1
        end
      else t_mul_or_mul_sub1_quo len duo duo_sd duo_lz duo_sig_dd div div_sd quo
  end.
(** src/apint/arithmetic.rs 928-1425. *)
Definition t_large_div_by_large (len : nat) (duo : list Z) (ini_duo_sd : nat)
    (div : list Z) (div_sd : nat) : counted (list Z * list Z) :=
  let^ dtop := tlift (idx duo ini_duo_sd) in
  let ini_duo_lz := d_leading_zeros dtop in
  let^ vtop := tlift (idx div div_sd) in
  let div_lz := d_leading_zeros vtop in
  let^ a := tlift (usize_sub 64 ini_duo_lz) in
  let ini_duo_sb := Z.of_nat ini_duo_sd * 64 + a in
  let^ b := tlift (usize_sub 64 div_lz) in
  let div_sb := Z.of_nat div_sd * 64 + b in
  if ini_duo_sb <? div_sb then
    let^ (duo, div) := tlift (for_range (ini_duo_sd + 1) 0 move_step (duo, div)) in
    tlift (Val (duo, unset_take_skip (div_sd + 1) (ini_duo_sd + 1) div))
  else if ini_duo_sb =? div_sb then
    let place := (ini_duo_sd + 1)%nat in
    let^ ge := tlift (uge place duo place div) in
    if ge then
      let^ div := tlift (twos_complement place div) in
      tlift (special0_same place duo div ONE)
    else
      let^ (duo, div) := tlift (for_range (ini_duo_sd + 1) 0 move_step (duo, div)) in
      tlift (Val (duo, unset_take_skip (div_sd + 1) place div))
  else
    let ini_bits := ini_duo_sb - div_sb in
    if ini_bits <? 64 then t_mul_or_mul_sub1 len duo ini_duo_sd ini_duo_lz div div_sd
    else
      let^ dm := tlift (nsub div_sd 1) in
      let div_lesser_bits := b + 64 * Z.of_nat dm in
      let^ div_sig_d := tlift (
        if div_lz =? 0 then Val vtop
        else
          let! y := idx div dm in
          let! k := usize_sub 64 div_lz in
          Val (d_or (d_shl vtop div_lz) (d_shr y k))) in
      let div_sig_d_add1 := dd_wadd (dd div_sig_d) (dd ONE) in
      let^ quo := vec_zeros len in
      t_div_loop (64 * len + 1) len duo div quo ini_duo_sd ini_duo_lz div_sd div_sb
        div_lesser_bits div_sig_d_add1.
(** src/apint/arithmetic.rs 651-1498: only the case of two large integers
    allocates, the others are those of MDiv.v. *)
Definition t_divrem_digits (duo div : list Z) : counted (list Z * list Z * bool) :=
  match rposition_nonzero div, rposition_nonzero duo with
  | Some div_sd, Some ini_duo_sd =>
      if negb (Nat.ltb ini_duo_sd div_sd) && negb (Nat.eqb ini_duo_sd 0) && negb (Nat.eqb div_sd 0)
         && negb (Nat.eqb ini_duo_sd 1)
      then
        let^ (duo, div) := t_large_div_by_large (length duo) duo ini_duo_sd div div_sd in
        tlift (Val (duo, div, true))
      else tlift (aarons_algorithm_divrem duo div)
  | _, _ => tlift (aarons_algorithm_divrem duo div)
  end.
(** src/apint/arithmetic.rs 1507-1522. *)
Definition t_remdiv_digits (duo div : list Z) : counted (list Z * list Z * bool) :=
  let^ (duo, div, ok) := t_divrem_digits duo div in
  if ok : bool then
    let^ (duo, div) := tlift (for_range (length duo) 0 swap_step (duo, div)) in
    tlift (Val (duo, div, true))
  else tlift (Val (duo, div, false)).

(** [Err(Error::division_by_zero(op, x.clone()))], as in MDiv.v.
    src/apint/arithmetic.rs 1556, 1586, 1610, 1645, 1674, 1719, 1758, 1805. *)
Definition t_division_by_zero (op : div_op) (x : apint) : counted error_kind :=
  let^ c := t_clone x in tlift (Val (DivisionByZero op c)).
(** src/apint/arithmetic.rs 1532-1557 and 1567-1587. *)
Definition t_udivrem (swap : bool) (lhs rhs : apint) : counted (apint * apint * result unit) :=
  let op := if swap then UnsignedRemDiv else UnsignedDivRem in
  let^ z := tlift (zip_access_data lhs rhs) in
  match z with
  | Err e => tlift (Val (lhs, rhs, Err e))
  | Ok (ZInl duo div) =>
      if negb (d_is_zero div) then
        let^ (q, r) := tlift (d_wrapping_divrem duo div) in
        let (x, y) := if swap then (r, q) else (q, r) in
        tlift (Val (write_inl lhs x, write_inl rhs y, Ok tt))
      else let^ e := t_division_by_zero op lhs in tlift (Val (lhs, rhs, Err e))
  | Ok (ZExt duo div) =>
      let^ (duo, div, ok) := (if swap then t_remdiv_digits else t_divrem_digits) duo div in
      let lhs := write_ext lhs duo in
      let rhs := write_ext rhs div in
      if ok : bool then tlift (Val (lhs, rhs, Ok tt))
      else let^ e := t_division_by_zero op lhs in tlift (Val (lhs, rhs, Err e))
  end.
(** src/apint/arithmetic.rs 1596-1611 and 1631-1646. *)
Definition t_udiv (rem : bool) (a rhs : apint) : counted (apint * result unit) :=
  let op := if rem then UnsignedRem else UnsignedDiv in
  let^ z := tlift (zip_access_data a rhs) in
  match z with
  | Err e => tlift (Val (a, Err e))
  | Ok (ZInl duo div) =>
      if negb (d_is_zero div) then
        let^ q := tlift ((if rem then d_wrapping_rem else d_wrapping_div) duo div) in
        tlift (Val (write_inl a q, Ok tt))
      else let^ e := t_division_by_zero op a in tlift (Val (a, Err e))
  | Ok (ZExt duo div) =>
      let^ div := slice_to_vec div in
      let^ (duo, _, ok) := (if rem then t_remdiv_digits else t_divrem_digits) duo div in
      let a := write_ext a duo in
      if ok : bool then tlift (Val (a, Ok tt))
      else let^ e := t_division_by_zero op a in tlift (Val (a, Err e))
  end.

(** [.unwrap()], src/apint/arithmetic.rs 1693, 1738, 1777, 1824. *)
Definition t_unwrap_mut2 (m : counted (apint * apint * result unit)) : counted (apint * apint) :=
  let^ (x, y, r) := m in let^ _ := tlift (unwrap r) in tlift (Val (x, y)).
(** src/apint/arithmetic.rs 1667-1702 and 1712-1747: which results are negated is
    what differs. *)
Definition t_sdivrem (swap : bool) (lhs rhs : apint) : counted (apint * apint * result unit) :=
  let op := if swap then SignedRemDiv else SignedDivRem in
  let^ z := tlift (is_zero rhs) in
  if z : bool then let^ e := t_division_by_zero op lhs in tlift (Val (lhs, rhs, Err e))
  else
    let^ ml := tlift (msb lhs) in
    let^ mr := tlift (msb rhs) in
    let '(negate_quo, negate_rem) :=
      match ml, mr with
      | false, false => (false, false)
      | true, false => (true, true)
      | false, true => (true, false)
      | true, true => (false, true)
      end in
    let '(negate_lhs, negate_rhs) := if swap then (negate_rem, negate_quo) else (negate_quo, negate_rem) in
    let^ lhs := tlift (neg_if ml lhs) in
    let^ rhs := tlift (neg_if mr rhs) in
    let^ (lhs, rhs) := t_unwrap_mut2 (t_udivrem swap lhs rhs) in
    let^ lhs := tlift (neg_if negate_lhs lhs) in
    let^ rhs := tlift (neg_if negate_rhs rhs) in
    tlift (Val (lhs, rhs, Ok tt)).
(** src/apint/arithmetic.rs 1756-1783 and 1803-1830. *)
Definition t_sdiv (rem : bool) (a rhs : apint) : counted (apint * result unit) :=
  let op := if rem then SignedRem else SignedDiv in
  let^ z := tlift (is_zero rhs) in
  if z : bool then let^ e := t_division_by_zero op a in tlift (Val (a, Err e))
  else
    let^ rhs_clone := t_clone rhs in
    let^ ml := tlift (msb a) in
    let^ mr := tlift (msb rhs_clone) in
    let negate_lhs := if rem then ml else xorb ml mr in
    let^ a := tlift (neg_if ml a) in
    let^ rhs_clone := tlift (neg_if mr rhs_clone) in
    let^ (a, _) := t_unwrap_mut2 (t_udivrem rem a rhs_clone) in
    let^ a := tlift (neg_if negate_lhs a) in
    tlift (Val (a, Ok tt)).

(** * The calls, as in MMachine.v
    src/apint/{arithmetic,bitwise}.rs: addition, subtraction and the bitwise
    operations use no vectors. *)
Definition count_bin (o : binop) (a b : apint) : counted (apint * result unit) :=
  match o with
  | BMul => t_mul a b
  | BUdiv => t_udiv false a b | BUrem => t_udiv true a b
  | BSdiv => t_sdiv false a b | BSrem => t_sdiv true a b
  | BAdd | BSub | BAnd | BOr | BXor => tlift (cbin o a b)
  end.
(** src/apint/arithmetic.rs 1532-1747. *)
Definition count_pair (o : pairop) (a b : apint) : counted (apint * apint * result unit) :=
  match o with
  | PUDivRem => t_udivrem false a b | PURemDiv => t_udivrem true a b
  | PSDivRem => t_sdivrem false a b | PSRemDiv => t_sdivrem true a b
  end.
