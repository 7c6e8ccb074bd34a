(** Signed division on a machine whose [usize] has [M] values.  The functions are those of MDiv.v
    with the unsigned divisions of MUsize.v in place of theirs.  [clone], [msb], [is_zero] and
    [wrapping_neg] compute no size above the width or the number of digits of their integer
    (src/bitwidth.rs 163-165, src/apint/utils.rs 102-104), so they are the same on every machine. *)
From Verif Require Export MUsize.

(** src/apint/arithmetic.rs 1667-1702. *)
Definition z_wrapping_sdivrem_assign (M : Z) (checks : bool) (lhs rhs : apint) : mut2_result :=
  let! z := is_zero rhs in
  if z : bool then let! e := division_by_zero SignedDivRem lhs in Val (lhs, rhs, Err e)
  else
    let! ml := msb lhs in
    let! mr := msb rhs in
    let '(negate_lhs, negate_rhs) :=
      match ml, mr with
      | false, false => (false, false)
      | true, false => (true, true)
      | false, true => (true, false)
      | true, true => (false, true)
      end in
    let! lhs := neg_if ml lhs in
    let! rhs := neg_if mr rhs in
    let! (lhs, rhs) := unwrap_mut2 (z_wrapping_udivrem_assign M checks lhs rhs) in
    let! lhs := neg_if negate_lhs lhs in
    let! rhs := neg_if negate_rhs rhs in
    Val (lhs, rhs, Ok tt).
(** src/apint/arithmetic.rs 1712-1747. *)
Definition z_wrapping_sremdiv_assign (M : Z) (checks : bool) (lhs rhs : apint) : mut2_result :=
  let! z := is_zero rhs in
  if z : bool then let! e := division_by_zero SignedRemDiv lhs in Val (lhs, rhs, Err e)
  else
    let! ml := msb lhs in
    let! mr := msb rhs in
    let '(negate_lhs, negate_rhs) :=
      match ml, mr with
      | false, false => (false, false)
      | true, false => (true, true)
      | false, true => (false, true)
      | true, true => (true, false)
      end in
    let! lhs := neg_if ml lhs in
    let! rhs := neg_if mr rhs in
    let! (lhs, rhs) := unwrap_mut2 (z_wrapping_uremdiv_assign M checks lhs rhs) in
    let! lhs := neg_if negate_lhs lhs in
    let! rhs := neg_if negate_rhs rhs in
    Val (lhs, rhs, Ok tt).
(** src/apint/arithmetic.rs 1756-1783. *)
Definition z_wrapping_sdiv_assign (M : Z) (checks : bool) (a rhs : apint) : mut_result :=
  let! z := is_zero rhs in
  if z : bool then let! e := division_by_zero SignedDiv a in Val (a, Err e)
  else
    let! rhs_clone := clone rhs in
    let! ml := msb a in
    let! mr := msb rhs_clone in
    let negate_lhs :=
      match ml, mr with
      | false, false => false
      | true, false => true
      | false, true => true
      | true, true => false
      end in
    let! a := neg_if ml a in
    let! rhs_clone := neg_if mr rhs_clone in
    let! (a, _) := unwrap_mut2 (z_wrapping_udivrem_assign M checks a rhs_clone) in
    let! a := neg_if negate_lhs a in
    Val (a, Ok tt).
(** src/apint/arithmetic.rs 1803-1830. *)
Definition z_wrapping_srem_assign (M : Z) (checks : bool) (a rhs : apint) : mut_result :=
  let! z := is_zero rhs in
  if z : bool then let! e := division_by_zero SignedRem a in Val (a, Err e)
  else
    let! rhs_clone := clone rhs in
    let! ml := msb a in
    let! mr := msb rhs_clone in
    let negate_lhs :=
      match ml, mr with
      | false, false => false
      | true, false => true
      | false, true => false
      | true, true => true
      end in
    let! a := neg_if ml a in
    let! rhs_clone := neg_if mr rhs_clone in
    let! (a, _) := unwrap_mut2 (z_wrapping_uremdiv_assign M checks a rhs_clone) in
    let! a := neg_if negate_lhs a in
    Val (a, Ok tt).
