(** Division with a limit on the rounds of its one open-ended loop.

    The loop of src/apint/arithmetic.rs 1125-1423 runs until the remainder is
    small enough; how often is not visible in its text.  Each definition below
    repeats the one of MDiv.v of the same name and takes one more argument, the
    number of rounds after which the loop is cut off with [OutOfFuel].  Nothing
    else is changed: the theorems of C78 say that for enough rounds the results
    are those of the definitions of MDiv.v, and that for fewer they are those
    or [OutOfFuel].  No proofs in this file. *)
From Verif Require Export MDiv.

(** [large_div_by_large] cut off after [rounds] rounds.  src/apint/arithmetic.rs 928-1425. *)
Definition large_div_by_large_within (rounds : nat) (len : nat) (duo : list Z) (ini_duo_sd : nat)
    (div : list Z) (div_sd : nat) : outcome (list Z * list Z) :=
  let! dtop := idx duo ini_duo_sd in
  let ini_duo_lz := d_leading_zeros dtop in
  let! vtop := idx div div_sd in
  let div_lz := d_leading_zeros vtop in
  let! a := usize_sub 64 ini_duo_lz in
  let ini_duo_sb := Z.of_nat ini_duo_sd * 64 + a in
  let! b := usize_sub 64 div_lz in
  let div_sb := Z.of_nat div_sd * 64 + b in
  if ini_duo_sb <? div_sb then
    let! (duo, div) := for_range (ini_duo_sd + 1) 0 move_step (duo, div) in
    Val (duo, unset_take_skip (div_sd + 1) (ini_duo_sd + 1) div)
  else if ini_duo_sb =? div_sb then
    let place := (ini_duo_sd + 1)%nat in
    let! ge := uge place duo place div in
    if ge then
      let! div := twos_complement place div in
      special0_same place duo div ONE
    else
      let! (duo, div) := for_range (ini_duo_sd + 1) 0 move_step (duo, div) in
      Val (duo, unset_take_skip (div_sd + 1) place div)
  else
    let ini_bits := ini_duo_sb - div_sb in
    if ini_bits <? 64 then mul_or_mul_sub1 len duo ini_duo_sd ini_duo_lz div div_sd
    else
      let! dm := nsub div_sd 1 in
      let div_lesser_bits := b + 64 * Z.of_nat dm in
      let! div_sig_d :=
        if div_lz =? 0 then Val vtop
        else
          let! y := idx div dm in
          let! k := usize_sub 64 div_lz in
          Val (d_or (d_shl vtop div_lz) (d_shr y k)) in
      let div_sig_d_add1 := dd_wadd (dd div_sig_d) (dd ONE) in
      let quo := repeat ZERO len in
      div_loop rounds len duo div quo ini_duo_sd ini_duo_lz div_sd div_sb
        div_lesser_bits div_sig_d_add1.

(** [aarons_algorithm_divrem] cut off after [rounds] rounds.  src/apint/arithmetic.rs 651-1498. *)
Definition aarons_divrem_within (rounds : nat) (duo div : list Z) : outcome (list Z * list Z * bool) :=
  match rposition_nonzero div with
  | Some div_sd =>
      match rposition_nonzero duo with
      | None => Val (duo, map d_unset_all div, true)
      | Some ini_duo_sd =>
          if Nat.ltb ini_duo_sd div_sd then
            Val (zip_update (fun duo_d _ => d_unset_all duo_d) duo div,
                 zip_update (fun _ duo_d => duo_d) div duo, true)
          else
            match Nat.eqb ini_duo_sd 0, Nat.eqb div_sd 0 with
            | false, false =>
                if Nat.eqb ini_duo_sd 1 then
                  let! u0 := idx duo 0 in
                  let! u1 := idx duo 1 in
                  let! v0 := idx div 0 in
                  let! v1 := idx div 1 in
                  let! (q, r) := dd_wdivrem (dd_from_lo_hi u0 u1) (dd_from_lo_hi v0 v1) in
                  let! duo := upd duo 0 (dd_lo q) in
                  let! duo := upd duo 1 (dd_hi q) in
                  let! div := upd div 0 (dd_lo r) in
                  let! div := upd div 1 (dd_hi r) in
                  Val (duo, div, true)
                else
                  let! (duo, div) := large_div_by_large_within rounds (length duo) duo ini_duo_sd div div_sd in
                  Val (duo, div, true)
            | true, false => Panic
            | false, true =>
                let! v := idx div 0 in
                if 32 <=? d_leading_zeros v then
                  let! (duo, div) := large_div_by_u32 duo ini_duo_sd div in
                  Val (duo, div, true)
                else
                  let! (duo, div) := large_div_by_small duo ini_duo_sd div in
                  Val (duo, div, true)
            | true, true =>
                let! u := idx duo 0 in
                let! v := idx div 0 in
                let! (q, r) := d_wrapping_divrem u v in
                let! duo := upd duo 0 q in
                let! div := upd div 0 r in
                Val (duo, div, true)
            end
      end
  | None => Val (duo, div, false)
  end.

(** [aarons_algorithm_remdiv] cut off after [rounds] rounds.  src/apint/arithmetic.rs 1507-1522. *)
Definition aarons_remdiv_within (rounds : nat) (duo div : list Z) : outcome (list Z * list Z * bool) :=
  let! (st, ok) := aarons_divrem_within rounds duo div in
  let '(duo, div) := st in
  if ok then
    let! (duo, div) := for_range (length duo) 0 swap_step (duo, div) in
    Val (duo, div, true)
  else Val (duo, div, false).

(** [wrapping_udivrem_assign] cut off after [rounds] rounds.  src/apint/arithmetic.rs 1532-1557. *)
Definition wrapping_udivrem_within (rounds : nat) (lhs rhs : apint) : mut2_result :=
  let! z := zip_access_data lhs rhs in
  match z with
  | Err e => Val (lhs, rhs, Err e)
  | Ok (ZInl duo div) =>
      if negb (d_is_zero div) then
        let! (q, r) := d_wrapping_divrem duo div in
        Val (write_inl lhs q, write_inl rhs r, Ok tt)
      else let! e := division_by_zero UnsignedDivRem lhs in Val (lhs, rhs, Err e)
  | Ok (ZExt duo div) =>
      let! (st, ok) := aarons_divrem_within rounds duo div in
      let '(duo, div) := st in
      let lhs := write_ext lhs duo in
      let rhs := write_ext rhs div in
      if ok : bool then Val (lhs, rhs, Ok tt)
      else let! e := division_by_zero UnsignedDivRem lhs in Val (lhs, rhs, Err e)
  end.

(** [wrapping_uremdiv_assign] cut off after [rounds] rounds.  src/apint/arithmetic.rs 1567-1587. *)
Definition wrapping_uremdiv_within (rounds : nat) (lhs rhs : apint) : mut2_result :=
  let! z := zip_access_data lhs rhs in
  match z with
  | Err e => Val (lhs, rhs, Err e)
  | Ok (ZInl duo div) =>
      if negb (d_is_zero div) then
        let! (q, r) := d_wrapping_divrem duo div in
        Val (write_inl lhs r, write_inl rhs q, Ok tt)
      else let! e := division_by_zero UnsignedRemDiv lhs in Val (lhs, rhs, Err e)
  | Ok (ZExt duo div) =>
      let! (st, ok) := aarons_remdiv_within rounds duo div in
      let '(duo, div) := st in
      let lhs := write_ext lhs duo in
      let rhs := write_ext rhs div in
      if ok : bool then Val (lhs, rhs, Ok tt)
      else let! e := division_by_zero UnsignedRemDiv lhs in Val (lhs, rhs, Err e)
  end.

(** [wrapping_udiv_assign] cut off after [rounds] rounds.  src/apint/arithmetic.rs 1596-1611. *)
Definition wrapping_udiv_within (rounds : nat) (a rhs : apint) : mut_result :=
  let! z := zip_access_data a rhs in
  match z with
  | Err e => Val (a, Err e)
  | Ok (ZInl duo div) =>
      if negb (d_is_zero div) then
        let! q := d_wrapping_div duo div in
        Val (write_inl a q, Ok tt)
      else let! e := division_by_zero UnsignedDiv a in Val (a, Err e)
  | Ok (ZExt duo div) =>
      let! (st, ok) := aarons_divrem_within rounds duo div in
      let '(duo, _) := st in
      let a := write_ext a duo in
      if ok : bool then Val (a, Ok tt)
      else let! e := division_by_zero UnsignedDiv a in Val (a, Err e)
  end.

(** [wrapping_urem_assign] cut off after [rounds] rounds.  src/apint/arithmetic.rs 1631-1646. *)
Definition wrapping_urem_within (rounds : nat) (a rhs : apint) : mut_result :=
  let! z := zip_access_data a rhs in
  match z with
  | Err e => Val (a, Err e)
  | Ok (ZInl duo div) =>
      if negb (d_is_zero div) then
        let! r := d_wrapping_rem duo div in
        Val (write_inl a r, Ok tt)
      else let! e := division_by_zero UnsignedRem a in Val (a, Err e)
  | Ok (ZExt duo div) =>
      let! (st, ok) := aarons_remdiv_within rounds duo div in
      let '(duo, _) := st in
      let a := write_ext a duo in
      if ok : bool then Val (a, Ok tt)
      else let! e := division_by_zero UnsignedRem a in Val (a, Err e)
  end.

(** [wrapping_sdivrem_assign] cut off after [rounds] rounds.  src/apint/arithmetic.rs 1667-1702. *)
Definition wrapping_sdivrem_within (rounds : nat) (lhs rhs : apint) : mut2_result :=
  let! z := is_zero rhs in
  if z : bool then let! e := division_by_zero SignedDivRem lhs in Val (lhs, rhs, Err e)
  else
    let! ml := msb lhs in
    let! mr := msb rhs in
    let '(negate_lhs, negate_rhs) :=
      match ml, mr with
      | false, false => (false, false)
      | true, false => (true, true)
      | false, true => (true, false)
      | true, true => (false, true)
      end in
    let! lhs := neg_if ml lhs in
    let! rhs := neg_if mr rhs in
    let! (lhs, rhs) := unwrap_mut2 (wrapping_udivrem_within rounds lhs rhs) in
    let! lhs := neg_if negate_lhs lhs in
    let! rhs := neg_if negate_rhs rhs in
    Val (lhs, rhs, Ok tt).

(** [wrapping_sremdiv_assign] cut off after [rounds] rounds.  src/apint/arithmetic.rs 1712-1747. *)
Definition wrapping_sremdiv_within (rounds : nat) (lhs rhs : apint) : mut2_result :=
  let! z := is_zero rhs in
  if z : bool then let! e := division_by_zero SignedRemDiv lhs in Val (lhs, rhs, Err e)
  else
    let! ml := msb lhs in
    let! mr := msb rhs in
    let '(negate_lhs, negate_rhs) :=
      match ml, mr with
      | false, false => (false, false)
      | true, false => (true, true)
      | false, true => (false, true)
      | true, true => (true, false)
      end in
    let! lhs := neg_if ml lhs in
    let! rhs := neg_if mr rhs in
    let! (lhs, rhs) := unwrap_mut2 (wrapping_uremdiv_within rounds lhs rhs) in
    let! lhs := neg_if negate_lhs lhs in
    let! rhs := neg_if negate_rhs rhs in
    Val (lhs, rhs, Ok tt).

(** [wrapping_sdiv_assign] cut off after [rounds] rounds.  src/apint/arithmetic.rs 1756-1783. *)
Definition wrapping_sdiv_within (rounds : nat) (a rhs : apint) : mut_result :=
  let! z := is_zero rhs in
  if z : bool then let! e := division_by_zero SignedDiv a in Val (a, Err e)
  else
    let! rhs_clone := clone rhs in
    let! ml := msb a in
    let! mr := msb rhs_clone in
    let negate_lhs :=
      match ml, mr with
      | false, false => false
      | true, false => true
      | false, true => true
      | true, true => false
      end in
    let! a := neg_if ml a in
    let! rhs_clone := neg_if mr rhs_clone in
    let! (a, _) := unwrap_mut2 (wrapping_udivrem_within rounds a rhs_clone) in
    let! a := neg_if negate_lhs a in
    Val (a, Ok tt).

(** [wrapping_srem_assign] cut off after [rounds] rounds.  src/apint/arithmetic.rs 1803-1830. *)
Definition wrapping_srem_within (rounds : nat) (a rhs : apint) : mut_result :=
  let! z := is_zero rhs in
  if z : bool then let! e := division_by_zero SignedRem a in Val (a, Err e)
  else
    let! rhs_clone := clone rhs in
    let! ml := msb a in
    let! mr := msb rhs_clone in
    let negate_lhs :=
      match ml, mr with
      | false, false => false
      | true, false => true
      | false, true => false
      | true, true => true
      end in
    let! a := neg_if ml a in
    let! rhs_clone := neg_if mr rhs_clone in
    let! (a, _) := unwrap_mut2 (wrapping_uremdiv_within rounds a rhs_clone) in
    let! a := neg_if negate_lhs a in
    Val (a, Ok tt).

