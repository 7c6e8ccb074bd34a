(** Model of the sums and products of [usize] that the other model files leave
    unchecked, on a machine whose [usize] has the values below [M].  In debug builds
    ([checks] is true) one that does not fit panics ([Trap]), in release builds it wraps.
    Every function here has the text of the one whose name it extends by [z_] or [_z].
    No proofs in this file. *)
From Verif Require Export MDiv MParse MSerde MRand MConstructors.

(** [+] and [*] of [usize], given the mathematical result (Rust reference, overflow).
    E.g. src/apint/arithmetic.rs 332-341. *)
Definition usz (M : Z) (checks : bool) (z : Z) : outcome Z :=
  if z <? M then Val z else if checks then Trap else Val (z mod M).

(** * Counting *)
(** [.sum::<usize>()].  src/apint/bitwise.rs 252, 262. *)
Definition z_sum_digits (M : Z) (checks : bool) (f : Z -> Z) (ds : list Z) : outcome Z :=
  fold_o (fun acc d => usz M checks (acc + f d)) ds 0.
(** src/apint/bitwise.rs 248-253. *)
Definition z_count_ones (M : Z) (checks : bool) (a : apint) : outcome Z :=
  z_sum_digits M checks u64_count_ones (as_digit_slice a).
(** src/apint/bitwise.rs 257-268. *)
Definition z_count_zeros (M : Z) (checks : bool) (a : apint) : outcome Z :=
  let! zeros := z_sum_digits M checks u64_count_zeros (as_digit_slice a) in
  let! u := unused_bits (width a) in usize_sub zeros u.
(** src/apint/bitwise.rs 273-280, 288-295. *)
Fixpoint z_count_run (M : Z) (checks : bool) (f : Z -> Z) (ds : list Z) (zeros : Z) : outcome Z :=
  match ds with
  | [] => Val zeros
  | d :: r =>
      let n := f d in
      let! zeros := usz M checks (zeros + n) in
      if negb (n =? 64) then Val zeros else z_count_run M checks f r zeros
  end.
(** src/apint/bitwise.rs 272-283. *)
Definition z_leading_zeros (M : Z) (checks : bool) (a : apint) : outcome Z :=
  let! zeros := z_count_run M checks u64_leading_zeros (rev (as_digit_slice a)) 0 in
  let! u := unused_bits (width a) in usize_sub zeros u.
(** src/apint/bitwise.rs 287-301. *)
Definition z_trailing_zeros (M : Z) (checks : bool) (a : apint) : outcome Z :=
  let! zeros := z_count_run M checks u64_trailing_zeros (as_digit_slice a) 0 in
  if width a <=? zeros
  then let! u := unused_bits (width a) in usize_sub zeros u
  else Val zeros.

(** * Multiplication *)
(** src/apint/arithmetic.rs 332-339. *)
Definition z_sig_bits (M : Z) (checks : bool) (ds : list Z) (sig : nat) : outcome Z :=
  let! d := idx ds sig in
  let! p := usz M checks (Z.of_nat sig * 64) in
  usz M checks (p + (64 - d_leading_zeros d)).
(** src/apint/arithmetic.rs 302-573. *)
Definition z_mul_digits (M : Z) (checks : bool) (lhs rhs : list Z) : outcome (option (list Z)) :=
  match rposition_nonzero rhs with
  | None => Val None
  | Some rhs_sig =>
      match rposition_nonzero lhs with
      | None => Val None
      | Some lhs_sig =>
          let! ds :=
            match Nat.eqb lhs_sig 0, Nat.eqb rhs_sig 0 with
            | false, false =>
                let! lb := z_sig_bits M checks lhs lhs_sig in
                let! rb := z_sig_bits M checks rhs rhs_sig in
                let! tot_sig_bits := usz M checks (lb + rb) in
                let! all_bits := usz M checks (Z.of_nat (length lhs) * 64) in
                if tot_sig_bits <=? all_bits
                then mul_no_overflow lhs rhs lhs_sig rhs_sig
                else mul_wrapping lhs rhs
            | true, false => mul_small_lhs lhs rhs rhs_sig
            | false, true => mul_small_rhs lhs rhs lhs_sig
            | true, true => mul_small_both lhs rhs
            end in
          Val (Some ds)
      end
  end.
(** src/apint/arithmetic.rs 294-578. *)
Definition z_wrapping_mul_assign (M : Z) (checks : bool) (a rhs : apint) : mut_result :=
  let! z := zip_access_data a rhs in
  match z with
  | Err e => Val (a, Err e)
  | Ok (ZInl l r) =>
      let! a2 := clear_unused_bits (write_inl a (d_wrapping_mul l r)) in
      Val (a2, Ok tt)
  | Ok (ZExt ls rs) =>
      let! o := z_mul_digits M checks ls rs in
      match o with
      | None => Val (write_ext a (map d_unset_all ls), Ok tt)
      | Some ds =>
          let! a2 := clear_unused_bits (write_ext a ds) in
          Val (a2, Ok tt)
      end
  end.

(** * Division *)
(** src/apint/arithmetic.rs 1125-1424. *)
Fixpoint z_div_loop (M : Z) (checks : bool) (fuel len : nat) (duo div quo : list Z) (duo_sd : nat) (duo_lz : Z)
    (div_sd : nat) (div_sb div_lesser_bits div_sig_d_add1 : Z) : outcome (list Z * list Z) :=
  match fuel with
  | O => OutOfFuel
  | S fuel' =>
      let! d2 := nsub duo_sd 2 in
      let! dl := usize_sub 64 duo_lz in
      let! p := usz M checks (64 * Z.of_nat d2) in
      let! duo_lesser_bits := usz M checks (dl + p) in
      let! duo_sig_dd := sig_dd duo duo_sd duo_lz in
      if div_lesser_bits <=? duo_lesser_bits then
        let bits := duo_lesser_bits - div_lesser_bits in
        let digits := Z.to_nat (bits / 64) in
        let bits_ll := bits mod 64 in
        let! mul := dd_wdiv duo_sig_dd div_sig_d_add1 in
        let! quo := add_to_quo quo digits bits_ll mul in
        let! duo :=
          if d_is_zero (dd_hi mul)
          then sub_lo duo div duo_sd digits bits_ll mul
          else sub_hi duo div duo_sd digits bits_ll mul in
        let! o := find_sd (duo_sd + 1) duo in
        match o with
        | None =>
            let! div := for_range len 0 (fun i div => upd div i ZERO) div in
            let! duo := for_range len 0 (fun i duo => let! q := idx quo i in upd duo i q) duo in
            Val (duo, div)
        | Some duo_sd =>
            let! d := idx duo duo_sd in
            let duo_lz := d_leading_zeros d in
            let! k := usize_sub 64 duo_lz in
            let! p := usz M checks (Z.of_nat duo_sd * 64) in
            let! duo_sb := usz M checks (p + k) in
            if duo_sb =? div_sb then
              let! ge := uge len duo len div in
              if ge then
                let! div := twos_complement len div in
                let! div := add_macro len div duo in
                let! duo := quo_add1_from len 0 len duo quo in
                Val (duo, div)
              else
                let! div := copy_range 0 len div duo in
                let! duo := copy_range 0 len duo quo in
                Val (duo, div)
            else if duo_sb <? div_sb then
              let! div := copy_range 0 len div duo in
              let! duo := copy_range 0 len duo quo in
              Val (duo, div)
            else if Nat.ltb duo_sd 2 then small_tail len duo div quo
            else z_div_loop M checks fuel' len duo div quo duo_sd duo_lz div_sd div_sb
                   div_lesser_bits div_sig_d_add1
        end
      else mul_or_mul_sub1_quo len duo duo_sd duo_lz duo_sig_dd div div_sd quo
  end.
(** src/apint/arithmetic.rs 928-1425. *)
Definition z_large_div_by_large (M : Z) (checks : bool) (len : nat) (duo : list Z) (ini_duo_sd : nat)
    (div : list Z) (div_sd : nat) : outcome (list Z * list Z) :=
  let! dtop := idx duo ini_duo_sd in
  let ini_duo_lz := d_leading_zeros dtop in
  let! vtop := idx div div_sd in
  let div_lz := d_leading_zeros vtop in
  let! a := usize_sub 64 ini_duo_lz in
  let! p := usz M checks (Z.of_nat ini_duo_sd * 64) in
  let! ini_duo_sb := usz M checks (p + a) in
  let! b := usize_sub 64 div_lz in
  let! p := usz M checks (Z.of_nat div_sd * 64) in
  let! div_sb := usz M checks (p + b) in
  if ini_duo_sb <? div_sb then
    let! (duo, div) := for_range (ini_duo_sd + 1) 0 move_step (duo, div) in
    Val (duo, unset_take_skip (div_sd + 1) (ini_duo_sd + 1) div)
  else if ini_duo_sb =? div_sb then
    let place := (ini_duo_sd + 1)%nat in
    let! ge := uge place duo place div in
    if ge then
      let! div := twos_complement place div in
      special0_same place duo div ONE
    else
      let! (duo, div) := for_range (ini_duo_sd + 1) 0 move_step (duo, div) in
      Val (duo, unset_take_skip (div_sd + 1) place div)
  else
    let ini_bits := ini_duo_sb - div_sb in
    if ini_bits <? 64 then mul_or_mul_sub1 len duo ini_duo_sd ini_duo_lz div div_sd
    else
      let! dm := nsub div_sd 1 in
      let! p := usz M checks (64 * Z.of_nat dm) in
      let! div_lesser_bits := usz M checks (b + p) in
      let! div_sig_d :=
        if div_lz =? 0 then Val vtop
        else
          let! y := idx div dm in
          let! k := usize_sub 64 div_lz in
          Val (d_or (d_shl vtop div_lz) (d_shr y k)) in
      let div_sig_d_add1 := dd_wadd (dd div_sig_d) (dd ONE) in
      let quo := repeat ZERO len in
      z_div_loop M checks (64 * len + 1) len duo div quo ini_duo_sd ini_duo_lz div_sd div_sb
        div_lesser_bits div_sig_d_add1.
(** src/apint/arithmetic.rs 651-1498. *)
Definition z_aarons_algorithm_divrem (M : Z) (checks : bool) (duo div : list Z) : outcome (list Z * list Z * bool) :=
  match rposition_nonzero div with
  | Some div_sd =>
      match rposition_nonzero duo with
      | None => Val (duo, map d_unset_all div, true)
      | Some ini_duo_sd =>
          if Nat.ltb ini_duo_sd div_sd then
            Val (zip_update (fun duo_d _ => d_unset_all duo_d) duo div,
                 zip_update (fun _ duo_d => duo_d) div duo, true)
          else
            match Nat.eqb ini_duo_sd 0, Nat.eqb div_sd 0 with
            | false, false =>
                if Nat.eqb ini_duo_sd 1 then
                  let! u0 := idx duo 0 in
                  let! u1 := idx duo 1 in
                  let! v0 := idx div 0 in
                  let! v1 := idx div 1 in
                  let! (q, r) := dd_wdivrem (dd_from_lo_hi u0 u1) (dd_from_lo_hi v0 v1) in
                  let! duo := upd duo 0 (dd_lo q) in
                  let! duo := upd duo 1 (dd_hi q) in
                  let! div := upd div 0 (dd_lo r) in
                  let! div := upd div 1 (dd_hi r) in
                  Val (duo, div, true)
                else
                  let! (duo, div) := z_large_div_by_large M checks (length duo) duo ini_duo_sd div div_sd in
                  Val (duo, div, true)
            | true, false => Panic
            | false, true =>
                let! v := idx div 0 in
                if 32 <=? d_leading_zeros v then
                  let! (duo, div) := large_div_by_u32 duo ini_duo_sd div in
                  Val (duo, div, true)
                else
                  let! (duo, div) := large_div_by_small duo ini_duo_sd div in
                  Val (duo, div, true)
            | true, true =>
                let! u := idx duo 0 in
                let! v := idx div 0 in
                let! (q, r) := d_wrapping_divrem u v in
                let! duo := upd duo 0 q in
                let! div := upd div 0 r in
                Val (duo, div, true)
            end
      end
  | None => Val (duo, div, false)
  end.
(** src/apint/arithmetic.rs 1507-1522. *)
Definition z_aarons_algorithm_remdiv (M : Z) (checks : bool) (duo div : list Z) : outcome (list Z * list Z * bool) :=
  let! (st, ok) := z_aarons_algorithm_divrem M checks duo div in
  let '(duo, div) := st in
  if ok then
    let! (duo, div) := for_range (length duo) 0 swap_step (duo, div) in
    Val (duo, div, true)
  else Val (duo, div, false).
(** src/apint/arithmetic.rs 1532-1557. *)
Definition z_wrapping_udivrem_assign (M : Z) (checks : bool) (lhs rhs : apint) : mut2_result :=
  let! z := zip_access_data lhs rhs in
  match z with
  | Err e => Val (lhs, rhs, Err e)
  | Ok (ZInl duo div) =>
      if negb (d_is_zero div) then
        let! (q, r) := d_wrapping_divrem duo div in
        Val (write_inl lhs q, write_inl rhs r, Ok tt)
      else let! e := division_by_zero UnsignedDivRem lhs in Val (lhs, rhs, Err e)
  | Ok (ZExt duo div) =>
      let! (st, ok) := z_aarons_algorithm_divrem M checks duo div in
      let '(duo, div) := st in
      let lhs := write_ext lhs duo in
      let rhs := write_ext rhs div in
      if ok : bool then Val (lhs, rhs, Ok tt)
      else let! e := division_by_zero UnsignedDivRem lhs in Val (lhs, rhs, Err e)
  end.
(** src/apint/arithmetic.rs 1567-1587. *)
Definition z_wrapping_uremdiv_assign (M : Z) (checks : bool) (lhs rhs : apint) : mut2_result :=
  let! z := zip_access_data lhs rhs in
  match z with
  | Err e => Val (lhs, rhs, Err e)
  | Ok (ZInl duo div) =>
      if negb (d_is_zero div) then
        let! (q, r) := d_wrapping_divrem duo div in
        Val (write_inl lhs r, write_inl rhs q, Ok tt)
      else let! e := division_by_zero UnsignedRemDiv lhs in Val (lhs, rhs, Err e)
  | Ok (ZExt duo div) =>
      let! (st, ok) := z_aarons_algorithm_remdiv M checks duo div in
      let '(duo, div) := st in
      let lhs := write_ext lhs duo in
      let rhs := write_ext rhs div in
      if ok : bool then Val (lhs, rhs, Ok tt)
      else let! e := division_by_zero UnsignedRemDiv lhs in Val (lhs, rhs, Err e)
  end.
(** src/apint/arithmetic.rs 1596-1611. *)
Definition z_wrapping_udiv_assign (M : Z) (checks : bool) (a rhs : apint) : mut_result :=
  let! z := zip_access_data a rhs in
  match z with
  | Err e => Val (a, Err e)
  | Ok (ZInl duo div) =>
      if negb (d_is_zero div) then
        let! q := d_wrapping_div duo div in
        Val (write_inl a q, Ok tt)
      else let! e := division_by_zero UnsignedDiv a in Val (a, Err e)
  | Ok (ZExt duo div) =>
      let! (st, ok) := z_aarons_algorithm_divrem M checks duo div in
      let '(duo, _) := st in
      let a := write_ext a duo in
      if ok : bool then Val (a, Ok tt)
      else let! e := division_by_zero UnsignedDiv a in Val (a, Err e)
  end.
(** src/apint/arithmetic.rs 1631-1646. *)
Definition z_wrapping_urem_assign (M : Z) (checks : bool) (a rhs : apint) : mut_result :=
  let! z := zip_access_data a rhs in
  match z with
  | Err e => Val (a, Err e)
  | Ok (ZInl duo div) =>
      if negb (d_is_zero div) then
        let! r := d_wrapping_rem duo div in
        Val (write_inl a r, Ok tt)
      else let! e := division_by_zero UnsignedRem a in Val (a, Err e)
  | Ok (ZExt duo div) =>
      let! (st, ok) := z_aarons_algorithm_remdiv M checks duo div in
      let '(duo, _) := st in
      let a := write_ext a duo in
      if ok : bool then Val (a, Ok tt)
      else let! e := division_by_zero UnsignedRem a in Val (a, Err e)
  end.

(** * Making integers *)
(** src/apint/constructors.rs 170-200. *)
Definition z_from_iter (M : Z) (checks : bool) (ds : list Z) : outcome (result apint) :=
  match length ds with
  | O => Val (Err ExpectedNonEmptyDigits)
  | S O =>
      let! first_and_only := idx ds 0 in
      let! a := new_inl 64 first_and_only in Val (Ok a)
  | n =>
      let! bits := usz M checks (Z.of_nat n * 64) in
      let! bitwidth := unwrap (bitwidth_new bits) in
      let req_digits := required_digits bitwidth in
      if Nat.eqb n req_digits
      then let! a := new_ext bitwidth ds in Val (Ok a)
      else Panic
  end.
(** src/apint/casting.rs 137-206. *)
Fixpoint z_truncate_fuel (M : Z) (checks : bool) (fuel : nat) (a : apint) (target_width : Z) : mut_result :=
  match fuel with
  | O => OutOfFuel
  | S fuel' =>
      let actual_width := width a in
      if target_width =? actual_width then Val (a, Ok tt)
      else if width a <? target_width then
        Val (a, Err (TruncationBitWidthTooLarge target_width actual_width))
      else
        let actual_req_digits := required_digits actual_width in
        let target_req_digits := required_digits target_width in
        if Nat.eqb actual_req_digits target_req_digits then
          let! excess_width := unwrap_opt (excess_bits target_width) in
          let! a' := modify_most_significant_digit
                       (fun d => let! r := d_truncate_to d excess_width in unwrap r) a in
          Val (mk_apint target_width (digits a'), Ok tt)
        else
          let req_digits := firstn target_req_digits (as_digit_slice a) in
          let! r := z_from_iter M checks req_digits in
          let! truncated_copy := unwrap r in
          if negb (width truncated_copy =? target_width) then
            let! (truncated_copy', r) := z_truncate_fuel M checks fuel' truncated_copy target_width in
            match r with
            | Err e => Val (a, Err e)
            | Ok _ => Val (truncated_copy', Ok tt)
            end
          else Val (truncated_copy, Ok tt)
  end.
(** src/apint/casting.rs 137-206. *)
Definition z_truncate (M : Z) (checks : bool) (a : apint) (target_width : Z) : mut_result :=
  z_truncate_fuel M checks 2 a target_width.
(** src/apint/casting.rs 119-124. *)
Definition z_into_truncate (M : Z) (checks : bool) (a : apint) (target_width : Z) : outcome (result apint) :=
  try_forward_bin_mut_impl (z_truncate M checks) a target_width.
(** src/apint/casting.rs 240-291. *)
Definition z_zero_extend (M : Z) (checks : bool) (a : apint) (target_width : Z) : mut_result :=
  let actual_width := width a in
  if target_width =? actual_width then Val (a, Ok tt)
  else if target_width <? actual_width then
    Val (a, Err (ExtensionBitWidthTooSmall target_width actual_width))
  else
    let actual_req_digits := required_digits actual_width in
    let target_req_digits := required_digits target_width in
    if Nat.eqb actual_req_digits target_req_digits then
      Val (mk_apint target_width (digits a), Ok tt)
    else if negb (Nat.ltb actual_req_digits target_req_digits) then Panic
    else
      let additional_digits := (target_req_digits - actual_req_digits)%nat in
      let! r := (let? apint := z_from_iter M checks (as_digit_slice a ++ repeat ZERO additional_digits) in
                 z_into_truncate M checks apint target_width) in
      match r with
      | Err e => Val (a, Err e)
      | Ok extended_clone => Val (extended_clone, Ok tt)
      end.
(** src/apint/casting.rs 222-227. *)
Definition z_into_zero_extend (M : Z) (checks : bool) (a : apint) (target_width : Z) : outcome (result apint) :=
  try_forward_bin_mut_impl (z_zero_extend M checks) a target_width.
(** src/apint/casting.rs 325-400. *)
Definition z_sign_extend (M : Z) (checks : bool) (a : apint) (target_width : Z) : mut_result :=
  let actual_width := width a in
  if target_width =? actual_width then Val (a, Ok tt)
  else if target_width <? actual_width then
    Val (a, Err (ExtensionBitWidthTooSmall target_width actual_width))
  else
    let! m := msb a in
    if negb m then z_zero_extend M checks a target_width
    else
      let actual_req_digits := required_digits actual_width in
      let target_req_digits := required_digits target_width in
      if Nat.eqb actual_req_digits target_req_digits then
        let a1 := mk_apint target_width (digits a) in
        let! (a2, r) := fill_most_significant_digit a1 actual_width in
        match r with
        | Err e => Val (a2, Err e)
        | Ok _ => let! a3 := clear_unused_bits a2 in Val (a3, Ok tt)
        end
      else if negb (Nat.ltb actual_req_digits target_req_digits) then Panic
      else
        let additional_digits := (target_req_digits - actual_req_digits)%nat in
        let! (a1, r) := fill_most_significant_digit a actual_width in
        match r with
        | Err e => Val (a1, Err e)
        | Ok _ =>
            let! r := (let? apint := z_from_iter M checks (as_digit_slice a1 ++ repeat ONES additional_digits) in
                       z_into_truncate M checks apint target_width) in
            match r with
            | Err e => Val (a1, Err e)
            | Ok extended_copy =>
                let! _ := clear_unused_bits a1 in
                Val (extended_copy, Ok tt)
            end
        end.
(** src/apint/casting.rs 307-312. *)
Definition z_into_sign_extend (M : Z) (checks : bool) (a : apint) (target_width : Z) : outcome (result apint) :=
  try_forward_bin_mut_impl (z_sign_extend M checks) a target_width.
(** src/apint/casting.rs 443-461. *)
Definition z_zero_resize (M : Z) (checks : bool) (a : apint) (target_width : Z) : outcome apint :=
  if target_width <=? width a
  then expect_mut (z_truncate M checks a target_width)
  else expect_mut (z_zero_extend M checks a target_width).
(** src/apint/casting.rs 472-490. *)
Definition z_sign_resize (M : Z) (checks : bool) (a : apint) (target_width : Z) : outcome apint :=
  if target_width <=? width a
  then expect_mut (z_truncate M checks a target_width)
  else expect_mut (z_sign_extend M checks a target_width).
(** src/apint/constructors.rs 220-243. *)
Definition z_repeat_digit (M : Z) (checks : bool) (target_width digit : Z) : outcome apint :=
  let req_digits := required_digits target_width in
  let! r := z_from_iter M checks (repeat digit req_digits) in
  let! a := unwrap r in
  let! r := z_into_truncate M checks a target_width in
  unwrap r.
(** src/apint/constructors.rs 246-248. *)
Definition z_zero (M : Z) (checks : bool) (w : Z) : outcome apint := z_repeat_digit M checks w ZERO.
(** src/apint/constructors.rs 251-253. *)
Definition z_one (M : Z) (checks : bool) (w : Z) : outcome apint :=
  let! a := from_u64 1 in z_zero_resize M checks a w.
(** src/apint/constructors.rs 263-265. *)
Definition z_all_set (M : Z) (checks : bool) (w : Z) : outcome apint := z_repeat_digit M checks w ONES.
(** src/apint/constructors.rs 281-285. *)
Definition z_signed_min_value (M : Z) (checks : bool) (w : Z) : outcome apint :=
  let! a := z_zero M checks w in set_msb a.
(** src/apint/constructors.rs 289-293. *)
Definition z_signed_max_value (M : Z) (checks : bool) (w : Z) : outcome apint :=
  let! a := z_all_set M checks w in unset_msb a.
(** src/apint/rand_impl.rs 29-49. *)
Definition z_random_with_width_using {S : Type} (M : Z) (checks : bool) (next : S -> Z * S) (width : Z) (s : S) : outcome (apint * S) :=
  let n := required_digits width in
  if Nat.leb 1 n then
    let '(random_digits, s) := draw next n s in
    let! r := z_from_iter M checks random_digits in
    let! a := unwrap r in
    let! r := z_into_truncate M checks a width in
    let! c := unwrap r in
    Val (c, s)
  else Panic.

(** * Parsing *)
(** src/apint/serialization.rs 210-230. *)
Definition z_from_bitwise_digits (M : Z) (checks : bool) (v : list Z) (bits : Z) : outcome apint :=
  if negb (negb (Nat.eqb (length v) 0) && (bits <=? 8) && (64 mod bits =? 0)) then Trap
  else if negb (forallb (fun c => c <? Z.shiftl 1 bits) v) then Trap
  else
    let radix_digits_per_digit := 64 / bits in
    let! cs := chunks (Z.to_nat radix_digits_per_digit) v in
    let! data := map_o (fun chunk =>
      fold_o (fun acc c => let! s := u64_shl acc bits in Val (Z.lor s c)) (rev chunk) 0) cs in
    let! r := z_from_iter M checks data in unwrap r.
(** src/apint/serialization.rs 237-271.  [len_digits] (243) only feeds [Vec::with_capacity]. *)
Definition z_from_inexact_bitwise_digits (M : Z) (checks : bool) (v : list Z) (bits : Z) : outcome apint :=
  if negb (negb (Nat.eqb (length v) 0) && (bits <=? 8) && negb (64 mod bits =? 0)) then Trap
  else if negb (forallb (fun c => c <? Z.shiftl 1 bits) v) then Trap
  else
    let! p := usz M checks (Z.of_nat (length v) * bits) in
    let! _ := usz M checks (p + 64) in
    let! (st, dbits) := fold_o (inexact_step bits) v ([], 0, 0) in
    let '(data, d) := st in
    let! data :=
      if 0 <? dbits then (if dbits <? 64 then Val (data ++ [d]) else Trap) else Val data in
    let! r := z_from_iter M checks data in unwrap r.
(** src/apint/serialization.rs 279-333, with the [checked_mul] and [unwrap] of 288-289. *)
Definition z_from_radix_digits (M : Z) (checks : bool) (v : list Z) (radix : Z) : outcome apint :=
  if negb (negb (Nat.eqb (length v) 0) && negb (radix_is_power_of_two radix)) then Trap
  else if negb (forallb (is_valid_byte radix) v) then Trap
  else
    let! i := usize_sub radix 2 in
    let! lb := idx lb_2_36_i3f13 (Z.to_nat i) in
    let! n := usz M checks (Z.of_nat (length v) + 1) in
    if negb (lb * n <? M) then Panic else
    let! (_, power) := get_radix_base radix in
    if power =? 0 then Panic else
    let r := Z.of_nat (length v) mod power in
    let i := if r =? 0 then power else r in
    if Z.of_nat (length v) <? i then Panic else
    let head := firstn (Z.to_nat i) v in
    let tail := skipn (Z.to_nat i) v in
    let! first := fold_radix radix head in
    if negb (Z.of_nat (length tail) mod power =? 0) then Trap else
    let! cs := chunks (Z.to_nat power) tail in
    let! data := fold_o (radix_chunk_step radix) cs [first] in
    let! r := z_from_iter M checks data in unwrap r.
(** src/apint/serialization.rs 143-202. *)
Definition z_from_str_radix (M : Z) (checks : bool) (radix : Z) (input : list Z) : outcome (result apint) :=
  match input with
  | [] => Val (Err (InvalidStringRepr input radix None))
  | first :: _ =>
      if first =? 95 then Val (Err (InvalidStringRepr input radix None))
      else if last input 0 =? 95 then Val (Err (InvalidStringRepr input radix None))
      else
        match normalize radix input input with
        | Err e => Val (Err e)
        | Ok v =>
            let! b := exact_bits_per_digit radix in
            let! result :=
              match b with
              | Some bits =>
                  let v := rev v in
                  if 64 mod bits =? 0 then z_from_bitwise_digits M checks v bits
                  else z_from_inexact_bitwise_digits M checks v bits
              | None => z_from_radix_digits M checks v radix
              end in
            Val (Ok result)
        end
  end.

(** * Deserialization *)
(** src/apint/serde_impl.rs 65-75, with the [as usize] of 91 and 108. *)
Definition z_try_new_bitwidth (M : Z) (width : Z) : de_result Z :=
  match bitwidth_new (width mod M) with
  | Ok w => DOk w
  | Err _ => DErr EInvalidValue
  end.
(** src/apint/serde_impl.rs 58-122. *)
Definition z_de_bitwidth (M : Z) (human_readable : bool) (d : data) : de_result Z :=
  if human_readable
  then match d with
       | DSeq [] => DErr (EInvalidLength 0)
       | DSeq (e :: _) =>
           match de_u64 e with
           | DOk width_repr => z_try_new_bitwidth M width_repr
           | DErr er => DErr er
           end
       | DBad => DErr EFormat
       | _ => DErr EInvalidType
       end
  else match d with
       | DU64 v => z_try_new_bitwidth M v
       | DBad => DErr EFormat
       | _ => DErr EInvalidType
       end.
(** src/apint/serde_impl.rs 209-227. *)
Fixpoint z_visit_entries (M : Z) (entries : list (data * data)) (width : option Z) (digits : option (list Z))
  : de_result (option Z * option (list Z)) :=
  match entries with
  | [] => DOk (width, digits)
  | (key, value) :: rest =>
      match de_field key with
      | DErr e => DErr e
      | DOk FWidth =>
          match width with
          | Some _ => DErr (EDuplicateField "width")
          | None =>
              match z_de_bitwidth M true value with
              | DErr e => DErr e
              | DOk w => z_visit_entries M rest (Some w) digits
              end
          end
      | DOk FDigits =>
          match digits with
          | Some _ => DErr (EDuplicateField "digits")
          | None =>
              match de_vec value with
              | DErr e => DErr e
              | DOk ds => z_visit_entries M rest width (Some ds)
              end
          end
      end
  end.
(** src/apint/serde_impl.rs 239-249, 279-289. *)
Definition z_build (M : Z) (checks : bool) (width : Z) (digits : list Z) : outcome (de_result apint) :=
  let! r := z_from_iter M checks digits in
  let! a := unwrap r in
  let! r := z_into_truncate M checks a width in
  let! c := unwrap r in
  Val (DOk c).
(** src/apint/serde_impl.rs 195-250. *)
Definition z_visit_human (M : Z) (checks : bool) (d : data) : outcome (de_result apint) :=
  match d with
  | DMap entries =>
      de_bind (z_visit_entries M entries None None) (fun '(width, digits) =>
      match width with
      | None => Val (DErr (EMissingField "width"))
      | Some width =>
          match digits with
          | None => Val (DErr (EMissingField "digits"))
          | Some digits =>
              if Nat.eqb (required_digits width) (List.length digits)
              then z_build M checks width digits
              else Val (DErr EInvalidValue)
          end
      end)
  | DBad => Val (DErr EFormat)
  | _ => Val (DErr EInvalidType)
  end.
(** src/apint/serde_impl.rs 252-290. *)
Definition z_visit_compact (M : Z) (checks : bool) (d : data) : outcome (de_result apint) :=
  match d with
  | DSeq [] => Panic
  | DSeq (e :: rest) =>
      de_bind (z_de_bitwidth M false e) (fun width =>
      match rest with
      | [] => Val (DErr (EInvalidLength 1))
      | e2 :: _ =>
          de_bind (de_vec e2) (fun digits =>
          if Nat.eqb (required_digits width) (List.length digits)
          then z_build M checks width digits
          else Val (DErr EInvalidValue))
      end)
  | DBad => Val (DErr EFormat)
  | _ => Val (DErr EInvalidType)
  end.
(** src/apint/serde_impl.rs 150-302. *)
Definition z_de_apint (M : Z) (checks : bool) (human_readable : bool) (d : data) : outcome (de_result apint) :=
  if human_readable then z_visit_human M checks d else z_visit_compact M checks d.
