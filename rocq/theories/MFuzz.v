(** Model of the crate's own fuzz test, [mod megafuzz] of
    src/apint/arithmetic.rs 2578-2999 (feature [dev-fuzz]): a program that
    calls the library and asserts that what it returns fits together.  The
    numbers the generator draws are arguments, in the order of the draws.
    [x.clone()] is written [x]: an integer is a value here, and what [clone]
    does is modelled in MCasting.v.  The text printed on a failure is not
    modelled. *)
From Verif Require Export MArith MDiv MOps MShift MBitwise MRelational MConstructors MCasting.

(** [assert_eq!(a, b)]: e.g. src/apint/arithmetic.rs 2637-2645. *)
Definition assert_eq (a b : apint) : outcome unit := if apint_eqb a b then Val tt else Panic.

(** [ApInt::unsigned_max_value(BitWidth::w1()).into_zero_resize(width)]:
    src/apint/arithmetic.rs 2641-2642. *)
Definition fuzz_one (width : Z) : outcome apint :=
  let! m := unsigned_max_value 1 in into_zero_resize m width.

(** Basic addition and subtraction tests: src/apint/arithmetic.rs 2636-2672. *)
Definition fuzz_inc_dec (width : Z) (lhs : apint) : outcome unit :=
  let! temp := into_wrapping_inc lhs in
  let! k := fuzz_one width in
  let! s := op_unwrap (into_wrapping_add lhs k) in
  let! _ := assert_eq temp s in
  let! k := all_set width in
  let! s := op_unwrap (into_wrapping_sub lhs k) in
  let! _ := assert_eq temp s in
  let! temp := wrapping_dec temp in
  let! _ := assert_eq temp lhs in
  let! temp := wrapping_dec temp in
  let! k := fuzz_one width in
  let! s := op_unwrap (into_wrapping_sub lhs k) in
  let! _ := assert_eq temp s in
  let! k := all_set width in
  let! s := op_unwrap (into_wrapping_add lhs k) in
  let! _ := assert_eq temp s in
  let! temp := wrapping_inc temp in
  assert_eq temp lhs.

(** Power of two multiplication and division: src/apint/arithmetic.rs
    2674-2720. *)
Definition fuzz_shifts (size width : Z) (lhs : apint) (shift : Z) : outcome unit :=
  let! k := fuzz_one width in
  let! tmp1 := op_unwrap (into_wrapping_shl k shift) in
  let! l := op_unwrap (into_wrapping_shl lhs shift) in
  let! r := op_unwrap (into_wrapping_mul lhs tmp1) in
  let! _ := assert_eq l r in
  let! n := into_wrapping_neg lhs in
  let! l := op_unwrap (into_wrapping_shl n shift) in
  let! m := unsigned_max_value width in
  let! m := op_unwrap (into_wrapping_shl m shift) in
  let! r := op_unwrap (into_wrapping_mul lhs m) in
  let! _ := assert_eq l r in
  let! l := op_unwrap (into_wrapping_lshr lhs shift) in
  let! r := op_unwrap (into_wrapping_udiv lhs tmp1) in
  let! _ := assert_eq l r in
  let! last := usize_sub size 1 in
  if (shift =? last) && apint_eqb lhs tmp1 then
    let! q := op_unwrap (into_wrapping_sdiv lhs tmp1) in
    let! k := fuzz_one width in
    assert_eq q k
  else
    let! (tmp0, tmp1) := unwrap_mut2 (wrapping_sdivrem_assign lhs tmp1) in
    let! m := msb lhs in
    let! floor :=
      (if m : bool then let! z := is_zero tmp1 in Val (negb z) else Val false) in
    let! tmp0 := (if floor : bool then wrapping_dec tmp0 else Val tmp0) in
    let! s := op_unwrap (into_wrapping_ashr lhs shift) in
    assert_eq tmp0 s.

(** Wrapping multiplication: src/apint/arithmetic.rs 2721-2739.
    [size * 2] is a [usize] product. *)
Definition fuzz_wide_mul (size : Z) (lhs rhs : apint) (draw : Z) : outcome unit :=
  let! rand_width := unwrap (bitwidth_new (draw mod size + 1)) in
  let! twice := (if size * 2 <? 2 ^ 64 then Val (size * 2) else Trap) in
  let! w := unwrap (bitwidth_new twice) in
  let! l := op_unwrap (into_zero_extend lhs w) in
  let! r := op_unwrap (into_zero_extend rhs w) in
  let! p := op_unwrap (into_wrapping_mul l r) in
  let! p := into_zero_resize p rand_width in
  let! q := op_unwrap (into_wrapping_mul lhs rhs) in
  let! q := into_zero_resize q rand_width in
  assert_eq p q.

(** The mask that keeps the product within the width:
    src/apint/arithmetic.rs 2740-2753. *)
Definition fuzz_mask (size width : Z) (lhs rhs : apint) : outcome apint :=
  let! l := leading_zeros lhs in
  let! r := leading_zeros rhs in
  if l + r <? size then
    if r =? 0 then zero width
    else
      let! w := bitwidth_from_usize r in
      let! m := unsigned_max_value w in
      op_unwrap (into_zero_extend m width)
  else unsigned_max_value width.

(** Division of a product plus a remainder: src/apint/arithmetic.rs
    2754-2800.  [a != b] is [!(a == b)]. *)
Definition fuzz_division (size width : Z) (z lhs rhs third : apint) : outcome unit :=
  let! mask := fuzz_mask size width lhs rhs in
  let! masked := ap_op_bitand lhs mask in
  let! mul := op_unwrap (into_wrapping_mul masked rhs) in
  if negb (apint_eqb rhs z) then
    let! rem := op_unwrap (into_wrapping_urem third rhs) in
    let! (temp0, over) := overflowing_uadd_assign mul rem in
    let! over := unwrap over in
    if negb over then
      let! (temp0, temp1) := unwrap_mut2 (wrapping_udivrem_assign temp0 rhs) in
      let! masked := ap_op_bitand lhs mask in
      if negb (apint_eqb temp0 masked) then Panic
      else if negb (apint_eqb temp1 rem) then Panic
      else Val tt
    else Val tt
  else Val tt.

(** src/apint/arithmetic.rs 2627-2801; [draws] are the two [usize] drawn. *)
Definition identities (size width : Z) (z lhs rhs third : apint) (draws : Z * Z) : outcome unit :=
  let shift := fst draws mod size in
  let! _ := fuzz_inc_dec width lhs in
  let! _ := fuzz_shifts size width lhs shift in
  let! _ := fuzz_wide_mul size lhs rhs (snd draws) in
  fuzz_division size width z lhs rhs third.

(** What one round of the fuzzer draws: the two [u32] of the mask, the four
    [bool]s, and two [usize] for each of the seven calls of [identities].
    src/apint/arithmetic.rs 2811-2831, 2634, 2722. *)
Record fuzz_draws := mk_fuzz_draws {
  draw_ones : Z;
  draw_turn : Z;
  draw_case : bool * bool * bool * bool;
  draw_calls : nat -> Z * Z
}.

(** [random::<u32>() % (size as u32)] as a [usize]:
    src/apint/arithmetic.rs 2811 and 2819.  Division by zero panics. *)
Definition fuzz_below (size draw : Z) : outcome Z :=
  if size mod 2 ^ 32 =? 0 then Panic else Val (draw mod (size mod 2 ^ 32)).

(** A run of ones, turned around the width: src/apint/arithmetic.rs
    2811-2829. *)
Definition fuzz_turned_ones (size width : Z) (d : fuzz_draws) : outcome apint :=
  let! r0 := fuzz_below size (draw_ones d) in
  let r0 := if r0 =? 0 then 1 else r0 in
  let! w := unwrap (bitwidth_new r0) in
  let! ones := unsigned_max_value w in
  let! ones := op_unwrap (into_zero_extend ones width) in
  let! r1 := fuzz_below size (draw_turn d) in
  if r1 =? 0 then Val ones
  else
    let! l := op_unwrap (into_wrapping_shl ones r1) in
    let! s := usize_sub size r1 in
    let! r := op_unwrap (into_wrapping_lshr ones s) in
    ap_op_bitor l r.

(** The match on the four booleans: src/apint/arithmetic.rs 2831-2848. *)
Definition fuzz_update (c : bool * bool * bool * bool) (mask lhs rhs third : apint) : outcome (apint * apint * apint) :=
  match c with
  | (false, false, false, false) => let! lhs := ap_op_bitor_assign lhs mask in Val (lhs, rhs, third)
  | (false, false, false, true) => let! lhs := ap_op_bitand_assign lhs mask in Val (lhs, rhs, third)
  | (false, false, true, false) => let! lhs := ap_op_bitxor_assign lhs mask in Val (lhs, rhs, third)
  | (false, false, true, true) => let! lhs := ap_op_bitxor_assign lhs mask in Val (lhs, rhs, third)
  | (false, true, false, false) => let! rhs := ap_op_bitor_assign rhs mask in Val (lhs, rhs, third)
  | (false, true, false, true) => let! rhs := ap_op_bitand_assign rhs mask in Val (lhs, rhs, third)
  | (false, true, true, false) => let! rhs := ap_op_bitxor_assign rhs mask in Val (lhs, rhs, third)
  | (false, true, true, true) => let! rhs := ap_op_bitxor_assign rhs mask in Val (lhs, rhs, third)
  | (true, false, false, false) => let! third := ap_op_bitor_assign third mask in Val (lhs, rhs, third)
  | (true, false, false, true) => let! third := ap_op_bitand_assign third mask in Val (lhs, rhs, third)
  | (true, false, true, false) => let! third := ap_op_bitxor_assign third mask in Val (lhs, rhs, third)
  | (true, false, true, true) => let! third := ap_op_bitxor_assign third mask in Val (lhs, rhs, third)
  | (true, true, false, false) => let! rhs := ap_op_bitor_assign rhs mask in Val (lhs, rhs, third)
  | (true, true, false, true) => let! rhs := ap_op_bitand_assign rhs mask in Val (lhs, rhs, third)
  | (true, true, true, false) => let! rhs := ap_op_bitxor_assign rhs mask in Val (lhs, rhs, third)
  | (true, true, true, true) => let! rhs := ap_op_bitxor_assign rhs mask in Val (lhs, rhs, third)
  end.

(** One round: src/apint/arithmetic.rs 2810-2904. *)
Definition fuzz_round (size width : Z) (z lhs rhs third : apint) (d : fuzz_draws) : outcome (apint * apint * apint) :=
  let! mask := fuzz_turned_ones size width d in
  let! (lr, third) := fuzz_update (draw_case d) mask lhs rhs third in
  let '(lhs, rhs) := lr in
  let! _ := identities size width z lhs lhs rhs (draw_calls d 0%nat) in
  let! _ := identities size width z lhs rhs third (draw_calls d 1%nat) in
  let! _ := identities size width z rhs lhs third (draw_calls d 2%nat) in
  let! _ := identities size width z third lhs rhs (draw_calls d 3%nat) in
  let! _ := identities size width z lhs third rhs (draw_calls d 4%nat) in
  let! _ := identities size width z third rhs lhs (draw_calls d 5%nat) in
  let! _ := identities size width z rhs third lhs (draw_calls d 6%nat) in
  Val (lhs, rhs, third).

(** The loop of src/apint/arithmetic.rs 2810-2904, one round for each entry. *)
Fixpoint fuzz_rounds (size width : Z) (z lhs rhs third : apint) (ds : list fuzz_draws) : outcome unit :=
  match ds with
  | [] => Val tt
  | d :: ds =>
      let! (lr, third) := fuzz_round size width z lhs rhs third d in
      let '(lhs, rhs) := lr in
      fuzz_rounds size width z lhs rhs third ds
  end.

(** src/apint/arithmetic.rs 2804-2905. *)
Definition fuzz_random (size : Z) (ds : list fuzz_draws) : outcome unit :=
  let! width := unwrap (bitwidth_new size) in
  let! b := from_u8 0 in
  let! lhs := into_zero_resize b width in
  let! rhs := into_zero_resize b width in
  let! third := into_zero_resize b width in
  let! z := into_zero_resize b width in
  fuzz_rounds size width z lhs rhs third ds.

(** src/apint/constructors.rs 203-214: the digits most significant first. *)
Definition from_vec_u64 (val : list Z) : outcome (option apint) :=
  match val with
  | [] => Val None
  | _ => let! a := op_unwrap (from_iter (rev val)) in Val (Some a)
  end.

(** One digit of an edge case: src/apint/arithmetic.rs 2913-2919. *)
Definition edge_digit (code : Z) : Z :=
  match Z.land code 3 with
  | 0 => 0
  | 1 => 1
  | 2 => 2 ^ 64 - 1 - 1
  | _ => 2 ^ 64 - 1
  end.

(** The vector of one pass: src/apint/arithmetic.rs 2911-2920. *)
Definition edge_digits (cd : nat) (code : Z) : list Z :=
  map (fun i => edge_digit (Z.shiftr code (Z.of_nat i * 2))) (seq 0 cd).

(** [2usize.pow((cd * 2) as u32)]: src/apint/arithmetic.rs 2910.  Overflow
    stops a build with overflow checks. *)
Definition edge_codes (cd : nat) : outcome Z :=
  let n := 2 ^ ((Z.of_nat cd * 2) mod 2 ^ 32) in
  if n <? 2 ^ 64 then Val n else Trap.

(** [explode!(cd, temp, _, _, inner)]: src/apint/arithmetic.rs 2908-2924. *)
Definition explode (cd : nat) (inner : nat -> list Z -> outcome unit) : outcome unit :=
  let! n := edge_codes cd in
  for_range (Z.to_nat n) 0 (fun i _ => inner i (edge_digits cd (Z.of_nat i))) tt.

(** [ApInt::from_vec_u64(temp).unwrap().into_truncate(size).unwrap()]:
    src/apint/arithmetic.rs 2942-2945. *)
Definition edge_apint (size : Z) (temp : list Z) : outcome apint :=
  let! o := from_vec_u64 temp in
  let! a := unwrap_opt o in
  let! w := bitwidth_from_usize size in
  op_unwrap (into_truncate a w).

(** src/apint/arithmetic.rs 2927-2958; [draws] are the numbers drawn in the
    pass with the given three counters. *)
Definition fuzz_edge (size : Z) (draws : nat -> nat -> nat -> Z * Z) : outcome unit :=
  let! width := unwrap (bitwidth_new size) in
  let! b := from_u8 0 in
  let! z := into_zero_resize b width in
  let cd := Z.to_nat (if size mod 64 =? 0 then size / 64 else size / 64 + 1) in
  explode cd (fun i0 temp0 =>
  explode cd (fun i1 temp1 =>
  explode cd (fun i2 temp2 =>
    let! x := edge_apint size temp0 in
    let! y := edge_apint size temp1 in
    let! t := edge_apint size temp2 in
    identities size width z x y t (draws i0 i1 i2)))).

(** Calls one after the other: src/apint/arithmetic.rs 2967-2991. *)
Fixpoint fuzz_all (tests : list (outcome unit)) : outcome unit :=
  match tests with
  | [] => Val tt
  | t :: tests => let! _ := t in fuzz_all tests
  end.

(** src/apint/arithmetic.rs 2960-2996.  [a] is 10000 there; here each call of
    [fuzz_random] has as many rounds as it is given draws. *)
Definition fuzz_test (draws : Z -> list fuzz_draws) (edges : Z -> nat -> nat -> nat -> Z * Z) : outcome unit :=
  let! o := from_vec_u64 [32; 234; 23] in
  let! l := unwrap_opt o in
  let! r := from_u64_array [32; 234; 23] in
  let! _ := assert_eq l r in
  let! _ := fuzz_all (map (fun size => fuzz_random size (draws size))
    [1; 2; 3; 31; 32; 33; 63; 64; 65; 127; 128; 129; 191; 192; 193; 255; 256]) in
  fuzz_all (map (fun size => fuzz_edge size (edges size))
    [63; 64; 65; 127; 128; 129; 191; 192]).
