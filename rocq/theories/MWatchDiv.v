(** What divisions let an observer see.

    MWatch.v says what is listed.  Each definition repeats the one of MDiv.v of the
    same name.  Dividing one digit, or two digits, by as many is taken to look the
    same whatever the values are, like the other operations on digits.  The dividend
    is the place [Self], the divisor the place [q]: [Other], or [New] where the code
    divides by a copy.  The vectors `quo` and `sub` are the places [Quo] and [Sub];
    a push is a write behind the last digit.  No proofs in this file. *)
From Verif Require Export MWatchMul MDiv.

(** A [for] loop over indices that goes down.  E.g. src/apint/arithmetic.rs 677. *)
Fixpoint w_for_range_rev {S : Type} (n lo : nat) (body : nat -> S -> watched S) (s : S) : watched S :=
  match n with
  | O => wval s
  | Datatypes.S n' => let& s' := body (lo + n')%nat s in w_for_range_rev n' lo body s'
  end.
(** The digits from [lo] on, [n] of them, are copied.  E.g. src/apint/arithmetic.rs 1367. *)
Definition copies_from (p q : place) (lo n : nat) : list event :=
  flat_map (fun i => [Read p i; Write q i]) (seq lo n).

(** * Short divisions *)

(** src/apint/arithmetic.rs 677-685. *)
Definition w_small_step (div_small : Z) (i : nat) (st : list Z * Z) : watched (list Z * Z) :=
  let '(duo, rem) := st in
  let& d := w_idx Self duo i in
  let duo_double := dd_from_lo_hi d rem in
  let& (tq, tr) := wlift (dd_wdivrem duo_double (dd div_small)) in
  let quo := dd_lo tq in
  let rem := dd_lo tr in
  let& duo := w_upd Self duo i quo in
  wval (duo, rem).
(** src/apint/arithmetic.rs 669-687. *)
Definition w_large_div_by_small (q : place) (duo : list Z) (ini_duo_sd : nat) (div : list Z)
    : watched (list Z * list Z) :=
  let& div_small := w_idx q div 0 in
  let& d := w_idx Self duo ini_duo_sd in
  let& (quo, rem) := wlift (d_wrapping_divrem d div_small) in
  let& duo := w_upd Self duo ini_duo_sd quo in
  let& (duo, rem) := w_for_range_rev ini_duo_sd 0 (w_small_step div_small) (duo, rem) in
  let& div := w_upd q div 0 rem in
  wval (duo, div).
(** src/apint/arithmetic.rs 727-737. *)
Definition w_u32_step (div_u32 : Z) (i : nat) (st : list Z * Z) : watched (list Z * Z) :=
  let '(duo, rem_lo) := st in
  let& d := w_idx Self duo i in
  let duo_double_hi := from_lo_hi32 (hi32 d) rem_lo in
  let& (qh, rh) := wlift (d_wrapping_divrem duo_double_hi div_u32) in
  let quo_hi := lo32 qh in
  let rem_hi := lo32 rh in
  let& d := w_idx Self duo i in
  let duo_double_lo := from_lo_hi32 (lo32 d) rem_hi in
  let& (ql, rl) := wlift (d_wrapping_divrem duo_double_lo div_u32) in
  let quo_lo := lo32 ql in
  let rem_lo := lo32 rl in
  let& duo := w_upd Self duo i (from_lo_hi32 quo_lo quo_hi) in
  wval (duo, rem_lo).
(** The top digit is read twice.  src/apint/arithmetic.rs 694-739. *)
Definition w_large_div_by_u32 (q : place) (duo : list Z) (ini_duo_sd : nat) (div : list Z)
    : watched (list Z * list Z) :=
  let& div0 := w_idx q div 0 in
  let div_u32 := lo32 div0 in
  let& d := w_idx Self duo ini_duo_sd in
  let& (quo_hi, rem_hi) := wlift (wrapping_divrem32 (hi32 d) div_u32) in
  let& _ := see [Read Self ini_duo_sd] in
  let duo_double := from_lo_hi32 (lo32 d) rem_hi in
  let& (tq, tr) := wlift (d_wrapping_divrem duo_double div_u32) in
  let quo_lo := lo32 tq in
  let rem_lo := lo32 tr in
  let& duo := w_upd Self duo ini_duo_sd (from_lo_hi32 quo_lo quo_hi) in
  let& (duo, rem_lo) := w_for_range_rev ini_duo_sd 0 (w_u32_step div_u32) (duo, rem_lo) in
  let& div := w_upd q div 0 rem_lo in
  wval (duo, div).

(** * The helper macros *)

(** src/apint/arithmetic.rs 743-761. *)
Fixpoint w_twos_complement_from (p : place) (n i0 : nat) (array : list Z) : watched (list Z) :=
  match n with
  | O => wval array
  | S n' =>
      let& x := w_idx p array i0 in
      let bitnot := d_not x in
      let& _ := see [Branch (snd (d_overflowing_add bitnot ONE)); Write p i0] in
      match d_overflowing_add bitnot ONE with
      | (v, false) =>
          let& array := wlift (upd array i0 v) in
          w_for_range n' (S i0) (fun i1 array =>
            let& y := w_idx p array i1 in w_upd p array i1 (d_not y)) array
      | (v, true) =>
          let& array := wlift (upd array i0 v) in
          w_twos_complement_from p n' (S i0) array
      end
  end.
(** src/apint/arithmetic.rs 743-761. *)
Definition w_twos_complement (p : place) (len : nat) (array : list Z) : watched (list Z) :=
  w_twos_complement_from p len 0 array.
(** src/apint/arithmetic.rs 778-783 and 820-825. *)
Fixpoint w_any_nonzero_rev (p : place) (n lo : nat) (rhs : list Z) : watched bool :=
  match n with
  | O => wval false
  | S n' =>
      let& r := w_idx p rhs (lo + n') in
      let& found := branch (negb (d_is_zero r)) in
      if found : bool then wval true else w_any_nonzero_rev p n' lo rhs
  end.
(** Both digits are read again for the second comparison.  src/apint/arithmetic.rs 786-794. *)
Fixpoint w_uge_b1 (pl pr : place) (n : nat) (lhs rhs : list Z) : watched bool :=
  match n with
  | O => wval false
  | S i =>
      let& l := w_idx pl lhs i in
      let& r := w_idx pr rhs i in
      let& less := branch (l <? r) in
      if less : bool then wval true
      else
        let& _ := see [Read pl i; Read pr i] in
        let& differ := branch (negb (l =? r)) in
        if differ : bool then wval false
        else w_uge_b1 pl pr i lhs rhs
  end.
(** src/apint/arithmetic.rs 767-803. *)
Definition w_uge (pl pr : place) (lhs_len : nat) (lhs : list Z) (rhs_len : nat) (rhs : list Z) : watched bool :=
  let& b0 := w_any_nonzero_rev pr (rhs_len - lhs_len) lhs_len rhs in
  let& b0 := branch b0 in
  if b0 : bool then wval false
  else
    let& b1 := w_uge_b1 pl pr lhs_len lhs rhs in
    let& b1 := branch b1 in
    wval (negb b1).
(** src/apint/arithmetic.rs 828-837. *)
Fixpoint w_ugt_b1 (pl pr : place) (n : nat) (lhs rhs : list Z) : watched bool :=
  match n with
  | O => wval true
  | S i =>
      let& l := w_idx pl lhs i in
      let& r := w_idx pr rhs i in
      let& more := branch (r <? l) in
      if more : bool then wval false
      else
        let& _ := see [Read pl i; Read pr i] in
        let& differ := branch (negb (l =? r)) in
        if differ : bool then wval true
        else w_ugt_b1 pl pr i lhs rhs
  end.
(** src/apint/arithmetic.rs 809-845. *)
Definition w_ugt (pl pr : place) (lhs_len : nat) (lhs : list Z) (rhs_len : nat) (rhs : list Z) : watched bool :=
  let& b0 := w_any_nonzero_rev pr (rhs_len - lhs_len) lhs_len rhs in
  let& b0 := branch b0 in
  if b0 : bool then wval false
  else
    let& b1 := w_ugt_b1 pl pr lhs_len lhs rhs in
    let& b1 := branch b1 in
    wval (negb b1).
(** src/apint/arithmetic.rs 855-864. *)
Definition w_special0_step (q : place) (sub : list Z) (i : nat) (st : list Z * list Z * Z)
    : watched (list Z * list Z * Z) :=
  let '(sum, target, carry) := st in
  let& s := w_idx Self sum i in
  let& b := w_idx Sub sub i in
  let temp := dd_wadd (dd_wadd (dd s) (dd b)) (dd carry) in
  let& target := w_upd q target i (dd_lo temp) in
  let& sum := w_upd Self sum i (d_unset_all s) in
  wval (sum, target, dd_hi temp).
(** src/apint/arithmetic.rs 849-870. *)
Definition w_special0 (q : place) (len : nat) (sum sub target : list Z) (val : Z)
    : watched (list Z * list Z) :=
  let& s := w_idx Self sum 0 in
  let& b := w_idx Sub sub 0 in
  let '(t, carry) := d_carrying_add s b in
  let& target := w_upd q target 0 t in
  let& sum := w_upd Self sum 0 val in
  let& last := wlift (nsub len 1) in
  let& (st, carry) := w_for_range (last - 1) 1 (w_special0_step q sub) (sum, target, carry) in
  let '(sum, target) := st in
  let& s := w_idx Self sum last in
  let& b := w_idx Sub sub last in
  let& target := w_upd q target last (d_wrapping_add (d_wrapping_add s b) carry) in
  let& sum := w_upd Self sum last (d_unset_all s) in
  wval (sum, target).
(** src/apint/arithmetic.rs 855-864 and 965. *)
Definition w_special0_same_step (q : place) (i : nat) (st : list Z * list Z * Z)
    : watched (list Z * list Z * Z) :=
  let '(sum, target, carry) := st in
  let& s := w_idx Self sum i in
  let& b := w_idx q target i in
  let temp := dd_wadd (dd_wadd (dd s) (dd b)) (dd carry) in
  let& target := w_upd q target i (dd_lo temp) in
  let& sum := w_upd Self sum i (d_unset_all s) in
  wval (sum, target, dd_hi temp).
(** src/apint/arithmetic.rs 849-870 and 964. *)
Definition w_special0_same (q : place) (len : nat) (sum target : list Z) (val : Z)
    : watched (list Z * list Z) :=
  let& s := w_idx Self sum 0 in
  let& b := w_idx q target 0 in
  let '(t, carry) := d_carrying_add s b in
  let& target := w_upd q target 0 t in
  let& sum := w_upd Self sum 0 val in
  let& last := wlift (nsub len 1) in
  let& (st, carry) := w_for_range (last - 1) 1 (w_special0_same_step q) (sum, target, carry) in
  let '(sum, target) := st in
  let& s := w_idx Self sum last in
  let& b := w_idx q target last in
  let& target := w_upd q target last (d_wrapping_add (d_wrapping_add s b) carry) in
  let& sum := w_upd Self sum last (d_unset_all s) in
  wval (sum, target).
(** src/apint/arithmetic.rs 879-886. *)
Definition w_special1_step1 (q : place) (sum sub : list Z) (i : nat) (st : list Z * Z) : watched (list Z * Z) :=
  let '(targ, carry) := st in
  let& s := w_idx Self sum i in
  let& b := w_idx Sub sub i in
  let temp := dd_wadd (dd_wadd (dd s) (dd b)) (dd carry) in
  let& targ := w_upd q targ i (dd_lo temp) in
  wval (targ, dd_hi temp).
(** src/apint/arithmetic.rs 892-902. *)
Definition w_special1_step2 (add : list Z) (i0 : nat) (st : list Z * Z) : watched (list Z * Z) :=
  let '(sum, carry) := st in
  let& zero := branch (d_is_zero carry) in
  let& sum :=
    if zero : bool
    then let& a := w_idx Quo add i0 in w_upd Self sum i0 a
    else wval sum in
  let& a := w_idx Quo add i0 in
  let '(t, c) := d_carrying_add a carry in
  let& sum := w_upd Self sum i0 t in
  wval (sum, c).
(** src/apint/arithmetic.rs 873-902. *)
Definition w_special1 (q : place) (len : nat) (sum sub targ : list Z) (val : Z) (add : list Z)
    : watched (list Z * list Z) :=
  let& s := w_idx Self sum 0 in
  let& b := w_idx Sub sub 0 in
  let '(t, carry) := d_carrying_add s b in
  let& targ := w_upd q targ 0 t in
  let& last := wlift (nsub len 1) in
  let& (targ, carry) := w_for_range (last - 1) 1 (w_special1_step1 q sum sub) (targ, carry) in
  let& s := w_idx Self sum last in
  let& b := w_idx Sub sub last in
  let& targ := w_upd q targ last (d_wrapping_add (d_wrapping_add s b) carry) in
  let& a := w_idx Quo add 0 in
  let '(t, carry) := d_carrying_add a val in
  let& sum := w_upd Self sum 0 t in
  let& (sum, _) := w_for_range (len - 1) 1 (w_special1_step2 add) (sum, carry) in
  wval (sum, targ).
(** src/apint/arithmetic.rs 913-920. *)
Definition w_add_macro_step (p r : place) (add : list Z) (i : nat) (st : list Z * Z) : watched (list Z * Z) :=
  let '(sum, carry) := st in
  let& s := w_idx p sum i in
  let& a := w_idx r add i in
  let temp := dd_wadd (dd_wadd (dd s) (dd a)) (dd carry) in
  let& sum := w_upd p sum i (dd_lo temp) in
  wval (sum, dd_hi temp).
(** src/apint/arithmetic.rs 906-922. *)
Definition w_add_macro (p r : place) (len : nat) (sum add : list Z) : watched (list Z) :=
  let& s := w_idx p sum 0 in
  let& a := w_idx r add 0 in
  let '(t, carry) := d_carrying_add s a in
  let& sum := w_upd p sum 0 t in
  let& last := wlift (nsub len 1) in
  let& (sum, carry) := w_for_range (last - 1) 1 (w_add_macro_step p r add) (sum, carry) in
  let& s := w_idx p sum last in
  let& a := w_idx r add last in
  w_upd p sum last (d_wrapping_add (d_wrapping_add s a) carry).

(** * Slices *)

(** src/apint/arithmetic.rs 1367, 1381-1382, 1390-1391, 1415. *)
Definition w_copy_range (p r : place) (lo hi : nat) (dst src : list Z) : watched (list Z) :=
  let& dst := wlift (copy_range lo hi dst src) in
  let& _ := see (copies_from r p lo (hi - lo)) in
  wval dst.
(** src/apint/arithmetic.rs 944-947 and 969-972. *)
Definition w_move_step (q : place) (i : nat) (st : list Z * list Z) : watched (list Z * list Z) :=
  let '(duo, div) := st in
  let& d := w_idx Self duo i in
  let& div := w_upd q div i d in
  let& duo := w_upd Self duo i (d_unset_all d) in
  wval (duo, div).
(** src/apint/arithmetic.rs 944-952, 968-974. *)
Definition w_move (q : place) (sd div_sd : nat) (duo div : list Z) : watched (list Z * list Z) :=
  let& (duo, div) := w_for_range (sd + 1) 0 (w_move_step q) (duo, div) in
  let& _ := see (writes q (sd + 1) (div_sd - sd)) in
  wval (duo, unset_take_skip (div_sd + 1) (sd + 1) div).

(** * Long division *)

(** src/apint/arithmetic.rs 984-1005, 1128-1134 and 1270-1277. *)
Definition w_sig_dd (p : place) (xs : list Z) (sd : nat) (lz : Z) : watched Z :=
  if lz =? 0 then
    let& i1 := wlift (nsub sd 1) in
    let& lo := w_idx p xs i1 in
    let& hi := w_idx p xs sd in
    wval (dd_from_lo_hi lo hi)
  else
    let& i1 := wlift (nsub sd 1) in
    let& i2 := wlift (nsub sd 2) in
    let& x := w_idx p xs sd in
    let& y := w_idx p xs i1 in
    let& z := w_idx p xs i2 in
    let& k := wlift (usize_sub 64 lz) in
    let& a := wlift (dd_shl (dd x) (lz + 64)) in
    let& b := wlift (dd_shl (dd y) lz) in
    let& c := wlift (dd_shr (dd z) k) in
    wval (dd_or (dd_or a b) c).
(** [xs] are the digits of [div] from [i] on; `sub` has [i] digits so far.
    src/apint/arithmetic.rs 1018-1022 and 1290-1294. *)
Fixpoint w_sub_row (q : place) (i : nat) (mul : Z) (xs : list Z) (carry : Z) : watched (list Z * Z) :=
  match xs with
  | [] => wval ([], carry)
  | x :: r =>
      let& _ := see [Read q i; Write Sub i] in
      let '(t, c) := d_carrying_mul_add mul x carry in
      let& (s, c') := w_sub_row q (S i) mul r c in
      wval (t :: s, c')
  end.
(** src/apint/arithmetic.rs 1033-1042, 1052-1061 and 1083-1092. *)
Definition w_finish_mul_sub1 (q : place) (len : nat) (duo div sub : list Z) (mul : Z)
    : watched (list Z * list Z) :=
  let& sub := w_twos_complement Sub len sub in
  let& sub := w_add_macro Sub q len sub div in
  w_special0 q len duo sub div (d_wrapping_sub mul ONE).
(** src/apint/arithmetic.rs 1063-1069 and 1094-1100. *)
Definition w_finish_mul (q : place) (len : nat) (duo div sub : list Z) (mul : Z)
    : watched (list Z * list Z) :=
  let& sub := w_twos_complement Sub len sub in
  w_special0 q len duo sub div mul.
(** src/apint/arithmetic.rs 981-1103. *)
Definition w_mul_or_mul_sub1 (q : place) (len : nat) (duo : list Z) (ini_duo_sd : nat) (ini_duo_lz : Z)
    (div : list Z) (div_sd : nat) : watched (list Z * list Z) :=
  let& _ := see [Branch (ini_duo_lz =? 0)] in
  let& duo_sig_dd := w_sig_dd Self duo ini_duo_sd ini_duo_lz in
  let& div_sig_dd := w_sig_dd q div ini_duo_sd ini_duo_lz in
  let& m := wlift (dd_wdiv duo_sig_dd div_sig_dd) in
  let mul := dd_lo m in
  let& _ := see [Allocate len] in
  let& div0 := w_idx q div 0 in
  let& _ := see [Write Sub 0] in
  let '(t0, carry) := d_carrying_mul mul div0 in
  let& (row, carry) := w_sub_row q 1 mul (skipn 1 (firstn div_sd div)) carry in
  let sub := t0 :: row in
  let& _ := see [Branch (Nat.eqb div_sd (len - 1))] in
  let& dtop := w_idx q div div_sd in
  let& last := wlift (nsub len 1) in
  if Nat.eqb div_sd last then
    let '(t, c) := d_carrying_mul_add mul dtop carry in
    let& _ := see [Write Sub (length sub)] in
    let sub := sub ++ [t] in
    let& over := branch (negb (d_is_zero c)) in
    if over : bool then w_finish_mul_sub1 q len duo div sub mul
    else
      let& gt := w_ugt Sub Self len sub len duo in
      if gt : bool then w_finish_mul_sub1 q len duo div sub mul
      else w_finish_mul q len duo div sub mul
  else
    let '(t, c) := d_carrying_mul_add mul dtop carry in
    let& _ := see (writes Sub (length sub) (len - length sub)) in
    let sub := sub ++ [t; c] in
    let sub := sub ++ repeat ZERO (len - length sub) in
    let& gt := w_ugt Sub Self len sub len duo in
    if gt : bool then w_finish_mul_sub1 q len duo div sub mul
    else w_finish_mul q len duo div sub mul.
(** [ds] are the digits of `quo` from [i] on.  src/apint/arithmetic.rs 1165-1172. *)
Fixpoint w_carry_into (i : nat) (ds : list Z) (carry : Z) : watched (list Z) :=
  match ds with
  | [] => wval []
  | d :: r =>
      let& zero := branch (d_is_zero carry) in
      if zero : bool then wval (d :: r)
      else
        let& _ := see [Read Quo i; Write Quo i] in
        let '(t, c) := d_carrying_add d carry in
        let& r := w_carry_into (S i) r c in
        wval (t :: r)
  end.
(** src/apint/arithmetic.rs 1152-1172. *)
Definition w_add_to_quo (quo : list Z) (digits : nat) (bits_ll mul : Z) : watched (list Z) :=
  let& split_mul := wlift (dd_shl mul bits_ll) in
  let& q0 := w_idx Quo quo digits in
  let '(t, carry) := d_carrying_add (dd_lo split_mul) q0 in
  let& quo := w_upd Quo quo digits t in
  let& q1 := w_idx Quo quo (digits + 1) in
  let temp := dd_wadd (dd_wadd (dd (dd_hi split_mul)) (dd q1)) (dd carry) in
  let& quo := w_upd Quo quo (digits + 1) (dd_lo temp) in
  let carry := dd_hi temp in
  let& r := w_carry_into (digits + 2) (skipn (digits + 2) quo) carry in
  wval (firstn (digits + 2) quo ++ r).
(** src/apint/arithmetic.rs 1194-1213. *)
Definition w_sub_lo_step (q : place) (div : list Z) (digits : nat) (bits_ll mul : Z) (i : nat)
    (st : list Z * Z * Z * Z) : watched (list Z * Z * Z * Z) :=
  let '(duo, wrap_carry, mul_carry, add_carry) := st in
  let& j := wlift (nsub i digits) in
  let& x := w_idx q div j in
  let& sh := wlift (dd_shl (dd x) bits_ll) in
  let temp0 := dd_or sh (dd wrap_carry) in
  let temp1 := dd_wadd (dd_wmul (dd mul) (dd (dd_lo temp0))) (dd mul_carry) in
  let& d := w_idx Self duo i in
  let temp2 := dd_wadd (dd_wadd (dd (d_not (dd_lo temp1))) (dd d)) (dd add_carry) in
  let& duo := w_upd Self duo i (dd_lo temp2) in
  wval (duo, dd_hi temp0, dd_hi temp1, dd_hi temp2).
(** src/apint/arithmetic.rs 1179-1213. *)
Definition w_sub_lo (q : place) (duo div : list Z) (duo_sd digits : nat) (bits_ll mul : Z) : watched (list Z) :=
  let mul := dd_lo mul in
  let& x := w_idx q div 0 in
  let& sh := wlift (dd_shl (dd x) bits_ll) in
  let temp0 := dd_lo sh in
  let wrap_carry := dd_hi sh in
  let t1 := dd_wmul (dd mul) (dd temp0) in
  let temp1 := dd_lo t1 in
  let mul_carry := dd_hi t1 in
  let& d := w_idx Self duo digits in
  let t2 := dd_wadd (dd_wadd (dd (d_not temp1)) (dd d)) (dd ONE) in
  let& duo := w_upd Self duo digits (dd_lo t2) in
  let& st := w_for_range (duo_sd - digits) (digits + 1) (w_sub_lo_step q div digits bits_ll mul)
               (duo, wrap_carry, mul_carry, dd_hi t2) in
  let '(duo, _, _, _) := st in
  wval duo.
(** src/apint/arithmetic.rs 1243-1266. *)
Definition w_sub_hi_step (q : place) (div : list Z) (digits : nat) (bits_ll mul : Z) (i : nat)
    (st : list Z * Z * Z * Z * Z) : watched (list Z * Z * Z * Z * Z) :=
  let '(duo, mul_carry, add0_carry, wrap_carry, add1_carry) := st in
  let& j := wlift (nsub i digits) in
  let& x := w_idx q div j in
  let temp0 := dd_wadd (dd_wmul (dd mul) (dd x)) (dd mul_carry) in
  let& j1 := wlift (nsub j 1) in
  let& y := w_idx q div j1 in
  let temp1 := dd_wadd (dd_wadd (dd (dd_lo temp0)) (dd y)) (dd add0_carry) in
  let& sh := wlift (dd_shl (dd (d_not (dd_lo temp1))) bits_ll) in
  let temp2 := dd_wadd sh (dd wrap_carry) in
  let& d := w_idx Self duo i in
  let temp3 := dd_wadd (dd_wadd (dd (dd_lo temp2)) (dd d)) (dd add1_carry) in
  let& duo := w_upd Self duo i (dd_lo temp3) in
  wval (duo, dd_hi temp0, dd_hi temp1, dd_hi temp2, dd_hi temp3).
(** src/apint/arithmetic.rs 1214-1267. *)
Definition w_sub_hi (q : place) (duo div : list Z) (duo_sd digits : nat) (bits_ll mul : Z) : watched (list Z) :=
  let mul := dd_lo mul in
  let& x := w_idx q div 0 in
  let '(temp0, mul_carry) := d_carrying_mul mul x in
  let temp1 := temp0 in
  let add0_carry := ZERO in
  let& t2 := wlift (dd_shl (dd_wadd (dd (d_not temp1)) (dd ONE)) bits_ll) in
  let temp2 := dd_lo t2 in
  let wrap_carry := dd_hi t2 in
  let& d := w_idx Self duo digits in
  let '(temp3, add1_carry) := d_carrying_add temp2 d in
  let& duo := w_upd Self duo digits temp3 in
  let& st := w_for_range (duo_sd - digits) (digits + 1) (w_sub_hi_step q div digits bits_ll mul)
               (duo, mul_carry, add0_carry, wrap_carry, add1_carry) in
  let '(duo, _, _, _, _) := st in
  wval duo.
(** src/apint/arithmetic.rs 1268-1332. *)
Definition w_mul_or_mul_sub1_quo (q : place) (len : nat) (duo : list Z) (duo_sd : nat) (duo_lz duo_sig_dd : Z)
    (div : list Z) (div_sd : nat) (quo : list Z) : watched (list Z * list Z) :=
  let& _ := see [Branch (duo_lz =? 0)] in
  let& div_sig_dd := w_sig_dd q div duo_sd duo_lz in
  let& m := wlift (dd_wdiv duo_sig_dd div_sig_dd) in
  let mul := dd_lo m in
  let& _ := see [Allocate len] in
  let& div0 := w_idx q div 0 in
  let t0 := dd_wmul (dd mul) (dd div0) in
  let& _ := see [Write Sub 0] in
  let& (row, mul_carry) := w_sub_row q 1 mul (skipn 1 (firstn div_sd div)) (dd_hi t0) in
  let& dtop := w_idx q div div_sd in
  let '(t, c) := d_carrying_mul_add mul dtop mul_carry in
  let& _ := see (writes Sub (S (length row)) (2 + (len - (div_sd + 2)))) in
  let sub := (dd_lo t0 :: row) ++ [t; c] in
  let sub := sub ++ repeat ZERO (len - (div_sd + 2)) in
  let sub_len := length sub in
  let& gt := w_ugt Sub Self sub_len sub len duo in
  if gt : bool then
    let& sub := w_twos_complement Sub sub_len sub in
    let& sub := w_add_macro Sub q sub_len sub div in
    w_special1 q sub_len duo sub div (d_wrapping_sub mul ONE) quo
  else
    let& sub := w_twos_complement Sub sub_len sub in
    w_special1 q sub_len duo sub div mul quo.
(** The test of the index comes after that of the digit.  src/apint/arithmetic.rs 1335-1348. *)
Fixpoint w_find_sd (n : nat) (duo : list Z) : watched (option nat) :=
  match n with
  | O => wval None
  | S i =>
      let& d := w_idx Self duo i in
      let& found := branch (negb (d_is_zero d)) in
      if found : bool then wval (Some i)
      else
        let& _ := see [Branch (Nat.eqb i 0)] in
        w_find_sd i duo
  end.
(** src/apint/arithmetic.rs 1364-1378. *)
Fixpoint w_quo_add1_from (n i0 len : nat) (duo quo : list Z) : watched (list Z) :=
  match n with
  | O => wval duo
  | S n' =>
      let& d := w_idx Quo quo i0 in
      let& _ := see [Branch (snd (d_overflowing_add d ONE)); Write Self i0] in
      match d_overflowing_add d ONE with
      | (v, false) =>
          let& duo := wlift (upd duo i0 v) in
          w_copy_range Self Quo (S i0) len duo quo
      | (v, true) =>
          let& duo := wlift (upd duo i0 v) in
          w_quo_add1_from n' (S i0) len duo quo
      end
  end.
(** src/apint/arithmetic.rs 1415-1423. *)
Fixpoint w_quo_add_carry_from (n i0 len : nat) (duo quo : list Z) (carry : Z) : watched (list Z) :=
  match n with
  | O => wval duo
  | S n' =>
      let& zero := branch (d_is_zero carry) in
      if zero : bool then w_copy_range Self Quo i0 len duo quo
      else
        let& d := w_idx Quo quo i0 in
        let '(t, c) := d_carrying_add d carry in
        let& duo := w_upd Self duo i0 t in
        w_quo_add_carry_from n' (S i0) len duo quo c
  end.
(** src/apint/arithmetic.rs 1399-1424. *)
Definition w_small_tail (q : place) (len : nat) (duo div quo : list Z) : watched (list Z * list Z) :=
  let& u0 := w_idx Self duo 0 in
  let& u1 := w_idx Self duo 1 in
  let& v0 := w_idx q div 0 in
  let& v1 := w_idx q div 1 in
  let& (mul, rem) := wlift (dd_wdivrem (dd_from_lo_hi u0 u1) (dd_from_lo_hi v0 v1)) in
  let& div := w_upd q div 0 (dd_lo rem) in
  let& div := w_upd q div 1 (dd_hi rem) in
  let& q0 := w_idx Quo quo 0 in
  let '(t, carry) := d_carrying_add q0 (dd_lo mul) in
  let& duo := w_upd Self duo 0 t in
  let& q1 := w_idx Quo quo 1 in
  let temp := dd_wadd (dd_wadd (dd q1) (dd (dd_hi mul))) (dd carry) in
  let& duo := w_upd Self duo 1 (dd_lo temp) in
  let& duo := w_quo_add_carry_from (len - 2) 2 len duo quo (dd_hi temp) in
  wval (duo, div).
(** src/apint/arithmetic.rs 1125-1424. *)
Fixpoint w_div_loop (q : place) (fuel len : nat) (duo div quo : list Z) (duo_sd : nat) (duo_lz : Z)
    (div_sd : nat) (div_sb div_lesser_bits div_sig_d_add1 : Z) : watched (list Z * list Z) :=
  match fuel with
  | O => wlift OutOfFuel
  | S fuel' =>
      let& d2 := wlift (nsub duo_sd 2) in
      let& dl := wlift (usize_sub 64 duo_lz) in
      let duo_lesser_bits := dl + 64 * Z.of_nat d2 in
      let& _ := see [Branch (duo_lz =? 0)] in
      let& duo_sig_dd := w_sig_dd Self duo duo_sd duo_lz in
      let& more := branch (div_lesser_bits <=? duo_lesser_bits) in
      if more : bool then
        let bits := duo_lesser_bits - div_lesser_bits in
        let digits := Z.to_nat (bits / 64) in
        let bits_ll := bits mod 64 in
        let& mul := wlift (dd_wdiv duo_sig_dd div_sig_d_add1) in
        let& quo := w_add_to_quo quo digits bits_ll mul in
        let& low := branch (d_is_zero (dd_hi mul)) in
        let& duo :=
          if low : bool
          then w_sub_lo q duo div duo_sd digits bits_ll mul
          else w_sub_hi q duo div duo_sd digits bits_ll mul in
        let& o := w_find_sd (duo_sd + 1) duo in
        match o with
        | None =>
            let& _ := see (flat_map (fun i => [Write q i; Read Quo i; Write Self i]) (seq 0 len)) in
            let& div := wlift (for_range len 0 (fun i div => upd div i ZERO) div) in
            let& duo := wlift (for_range len 0 (fun i duo => let! x := idx quo i in upd duo i x) duo) in
            wval (duo, div)
        | Some duo_sd =>
            let& d := w_idx Self duo duo_sd in
            let duo_lz := d_leading_zeros d in
            let& k := wlift (usize_sub 64 duo_lz) in
            let duo_sb := Z.of_nat duo_sd * 64 + k in
            let& equal := branch (duo_sb =? div_sb) in
            if equal : bool then
              let& ge := w_uge Self q len duo len div in
              if ge : bool then
                let& div := w_twos_complement q len div in
                let& div := w_add_macro q Self len div duo in
                let& duo := w_quo_add1_from len 0 len duo quo in
                wval (duo, div)
              else
                let& div := w_copy_range q Self 0 len div duo in
                let& duo := w_copy_range Self Quo 0 len duo quo in
                wval (duo, div)
            else
              let& less := branch (duo_sb <? div_sb) in
              if less : bool then
                let& div := w_copy_range q Self 0 len div duo in
                let& duo := w_copy_range Self Quo 0 len duo quo in
                wval (duo, div)
              else
                let& short := branch (Nat.ltb duo_sd 2) in
                if short : bool then w_small_tail q len duo div quo
                else w_div_loop q fuel' len duo div quo duo_sd duo_lz div_sd div_sb
                       div_lesser_bits div_sig_d_add1
        end
      else w_mul_or_mul_sub1_quo q len duo duo_sd duo_lz duo_sig_dd div div_sd quo
  end.
(** src/apint/arithmetic.rs 928-1425. *)
Definition w_large_div_by_large (q : place) (len : nat) (duo : list Z) (ini_duo_sd : nat)
    (div : list Z) (div_sd : nat) : watched (list Z * list Z) :=
  let& dtop := w_idx Self duo ini_duo_sd in
  let ini_duo_lz := d_leading_zeros dtop in
  let& vtop := w_idx q div div_sd in
  let div_lz := d_leading_zeros vtop in
  let& a := wlift (usize_sub 64 ini_duo_lz) in
  let ini_duo_sb := Z.of_nat ini_duo_sd * 64 + a in
  let& b := wlift (usize_sub 64 div_lz) in
  let div_sb := Z.of_nat div_sd * 64 + b in
  let& less := branch (ini_duo_sb <? div_sb) in
  if less : bool then w_move q ini_duo_sd div_sd duo div
  else
    let& equal := branch (ini_duo_sb =? div_sb) in
    if equal : bool then
      let place := (ini_duo_sd + 1)%nat in
      let& ge := w_uge Self q place duo place div in
      if ge : bool then
        let& div := w_twos_complement q place div in
        w_special0_same q place duo div ONE
      else w_move q ini_duo_sd div_sd duo div
    else
      let ini_bits := ini_duo_sb - div_sb in
      let& close := branch (ini_bits <? 64) in
      if close : bool then w_mul_or_mul_sub1 q len duo ini_duo_sd ini_duo_lz div div_sd
      else
        let& dm := wlift (nsub div_sd 1) in
        let div_lesser_bits := b + 64 * Z.of_nat dm in
        let& full := branch (div_lz =? 0) in
        let& _ := see [Read q div_sd] in
        let& div_sig_d :=
          if full : bool then wval vtop
          else
            let& y := w_idx q div dm in
            let& k := wlift (usize_sub 64 div_lz) in
            wval (d_or (d_shl vtop div_lz) (d_shr y k)) in
        let div_sig_d_add1 := dd_wadd (dd div_sig_d) (dd ONE) in
        let& _ := see (Allocate len :: writes Quo 0 len) in
        let quo := repeat ZERO len in
        w_div_loop q (64 * len + 1) len duo div quo ini_duo_sd ini_duo_lz div_sd div_sb
          div_lesser_bits div_sig_d_add1.

(** The cases in which one digit is enough for one of the two, or two digits for both, and the call for
    the others.  src/apint/arithmetic.rs 1452-1493. *)
Definition w_divrem_cases (q : place) (duo div : list Z) (ini_duo_sd div_sd : nat) : watched (list Z * list Z) :=
  let& short_duo := branch (Nat.eqb ini_duo_sd 0) in
  let& short_div := branch (Nat.eqb div_sd 0) in
  match short_duo, short_div with
  | false, false =>
      let& two := branch (Nat.eqb ini_duo_sd 1) in
      if two : bool then
        let& u0 := w_idx Self duo 0 in
        let& u1 := w_idx Self duo 1 in
        let& v0 := w_idx q div 0 in
        let& v1 := w_idx q div 1 in
        let& (x, r) := wlift (dd_wdivrem (dd_from_lo_hi u0 u1) (dd_from_lo_hi v0 v1)) in
        let& duo := w_upd Self duo 0 (dd_lo x) in
        let& duo := w_upd Self duo 1 (dd_hi x) in
        let& div := w_upd q div 0 (dd_lo r) in
        let& div := w_upd q div 1 (dd_hi r) in
        wval (duo, div)
      else w_large_div_by_large q (length duo) duo ini_duo_sd div div_sd
  | true, false => wlift Panic
  | false, true =>
      let& v := w_idx q div 0 in
      let& half := branch (32 <=? d_leading_zeros v) in
      if half : bool then w_large_div_by_u32 q duo ini_duo_sd div
      else w_large_div_by_small q duo ini_duo_sd div
  | true, true =>
      let& u := w_idx Self duo 0 in
      let& v := w_idx q div 0 in
      let& (x, r) := wlift (d_wrapping_divrem u v) in
      let& duo := w_upd Self duo 0 x in
      let& div := w_upd q div 0 r in
      wval (duo, div)
  end.
(** src/apint/arithmetic.rs 651-1498. *)
Definition w_aarons_algorithm_divrem (q : place) (duo div : list Z) : watched (list Z * list Z * bool) :=
  let& o := w_rposition q div (length div) in
  match o with
  | Some div_sd =>
      let& o := w_rposition Self duo (length duo) in
      match o with
      | None =>
          let& _ := see (writes q 0 (length div)) in
          wval (duo, map d_unset_all div, true)
      | Some ini_duo_sd =>
          let& less := branch (Nat.ltb ini_duo_sd div_sd) in
          if less : bool then
            let& _ := see (flat_map (fun i => [Read Self i; Write q i; Write Self i])
                             (seq 0 (Nat.min (length duo) (length div)))) in
            wval (zip_update (fun duo_d _ => d_unset_all duo_d) duo div,
                  zip_update (fun _ duo_d => duo_d) div duo, true)
          else
            let& (duo, div) := w_divrem_cases q duo div ini_duo_sd div_sd in
            wval (duo, div, true)
      end
  | None => wval (duo, div, false)
  end.
(** src/apint/arithmetic.rs 1513-1517. *)
Definition w_swap_step (q : place) (i : nat) (st : list Z * list Z) : watched (list Z * list Z) :=
  let '(duo, div) := st in
  let& temp := w_idx Self duo i in
  let& v := w_idx q div i in
  let& duo := w_upd Self duo i v in
  let& div := w_upd q div i temp in
  wval (duo, div).
(** src/apint/arithmetic.rs 1507-1522. *)
Definition w_aarons_algorithm_remdiv (q : place) (duo div : list Z) : watched (list Z * list Z * bool) :=
  let& (st, ok) := w_aarons_algorithm_divrem q duo div in
  let '(duo, div) := st in
  let& ok := branch ok in
  if ok : bool then
    let& (duo, div) := w_for_range (length duo) 0 (w_swap_step q) (duo, div) in
    wval (duo, div, true)
  else wval (duo, div, false).

(** * Unsigned division *)

(** The dividend is cloned for the error.  src/apint/arithmetic.rs 1556, 1586, 1610, 1645, 1674, 1719, 1758, 1805. *)
Definition w_division_by_zero (op : div_op) (x : apint) : watched error_kind :=
  let& c := w_clone Self x in wval (DivisionByZero op c).
(** src/apint/arithmetic.rs 1532-1557. *)
Definition w_wrapping_udivrem_assign (lhs rhs : apint) : watched (apint * apint * result unit) :=
  let& z := w_zip_access_data lhs rhs in
  match z with
  | Err e => wval (lhs, rhs, Err e)
  | Ok (ZInl duo div) =>
      let& ok := branch (negb (d_is_zero div)) in
      if ok : bool then
        let& (q, r) := wlift (d_wrapping_divrem duo div) in
        let& _ := see [Write Self 0; Write Other 0] in
        wval (write_inl lhs q, write_inl rhs r, Ok tt)
      else let& e := w_division_by_zero UnsignedDivRem lhs in wval (lhs, rhs, Err e)
  | Ok (ZExt duo div) =>
      let& (st, ok) := w_aarons_algorithm_divrem Other duo div in
      let '(duo, div) := st in
      let lhs := write_ext lhs duo in
      let rhs := write_ext rhs div in
      let& ok := branch ok in
      if ok : bool then wval (lhs, rhs, Ok tt)
      else let& e := w_division_by_zero UnsignedDivRem lhs in wval (lhs, rhs, Err e)
  end.
(** src/apint/arithmetic.rs 1567-1587. *)
Definition w_wrapping_uremdiv_assign (lhs rhs : apint) : watched (apint * apint * result unit) :=
  let& z := w_zip_access_data lhs rhs in
  match z with
  | Err e => wval (lhs, rhs, Err e)
  | Ok (ZInl duo div) =>
      let& ok := branch (negb (d_is_zero div)) in
      if ok : bool then
        let& (q, r) := wlift (d_wrapping_divrem duo div) in
        let& _ := see [Write Self 0; Write Other 0] in
        wval (write_inl lhs r, write_inl rhs q, Ok tt)
      else let& e := w_division_by_zero UnsignedRemDiv lhs in wval (lhs, rhs, Err e)
  | Ok (ZExt duo div) =>
      let& (st, ok) := w_aarons_algorithm_remdiv Other duo div in
      let '(duo, div) := st in
      let lhs := write_ext lhs duo in
      let rhs := write_ext rhs div in
      let& ok := branch ok in
      if ok : bool then wval (lhs, rhs, Ok tt)
      else let& e := w_division_by_zero UnsignedRemDiv lhs in wval (lhs, rhs, Err e)
  end.
(** The divisor is copied first: [div.to_vec()].  src/apint/arithmetic.rs 1596-1611. *)
Definition w_wrapping_udiv_assign (a rhs : apint) : watched (apint * result unit) :=
  let& z := w_zip_access_data a rhs in
  match z with
  | Err e => wval (a, Err e)
  | Ok (ZInl duo div) =>
      let& ok := branch (negb (d_is_zero div)) in
      if ok : bool then
        let& q := wlift (d_wrapping_div duo div) in
        let& _ := see [Write Self 0] in
        wval (write_inl a q, Ok tt)
      else let& e := w_division_by_zero UnsignedDiv a in wval (a, Err e)
  | Ok (ZExt duo div) =>
      let& _ := see (Allocate (length div) :: copies Other New (length div)) in
      let& (st, ok) := w_aarons_algorithm_divrem New duo div in
      let '(duo, _) := st in
      let a := write_ext a duo in
      let& ok := branch ok in
      if ok : bool then wval (a, Ok tt)
      else let& e := w_division_by_zero UnsignedDiv a in wval (a, Err e)
  end.
(** The divisor is copied first: [div.to_vec()].  src/apint/arithmetic.rs 1631-1646. *)
Definition w_wrapping_urem_assign (a rhs : apint) : watched (apint * result unit) :=
  let& z := w_zip_access_data a rhs in
  match z with
  | Err e => wval (a, Err e)
  | Ok (ZInl duo div) =>
      let& ok := branch (negb (d_is_zero div)) in
      if ok : bool then
        let& r := wlift (d_wrapping_rem duo div) in
        let& _ := see [Write Self 0] in
        wval (write_inl a r, Ok tt)
      else let& e := w_division_by_zero UnsignedRem a in wval (a, Err e)
  | Ok (ZExt duo div) =>
      let& _ := see (Allocate (length div) :: copies Other New (length div)) in
      let& (st, ok) := w_aarons_algorithm_remdiv New duo div in
      let '(duo, _) := st in
      let a := write_ext a duo in
      let& ok := branch ok in
      if ok : bool then wval (a, Ok tt)
      else let& e := w_division_by_zero UnsignedRem a in wval (a, Err e)
  end.

(** * Signed division *)

(** The same accesses at another place: a function that is called with another operand than [self] and [rhs].
    src/apint/arithmetic.rs 1671-1700. *)
Definition elsewhere (f : place -> place) {A : Type} (m : watched A) : watched A :=
  (map (fun e => match e with
                 | Read p i => Read (f p) i
                 | Write p i => Write (f p) i
                 | e => e
                 end) (fst m), snd m).
(** [rhs] is the operand.  src/apint/arithmetic.rs 1671-1700. *)
Definition on_rhs (p : place) : place := match p with Self => Other | p => p end.
(** The clone of [rhs] is the operand.  src/apint/arithmetic.rs 1764-1775. *)
Definition on_clone (p : place) : place := match p with Self => New | p => p end.
(** The clone of [rhs] is the second operand.  src/apint/arithmetic.rs 1776. *)
Definition by_clone (p : place) : place := match p with Other => New | p => p end.
(** src/apint/arithmetic.rs 1693, 1738. *)
Definition w_unwrap_mut2 (m : watched (apint * apint * result unit)) : watched (apint * apint) :=
  let& (st, r) := m in
  let& _ := wlift (unwrap r) in
  wval st.
(** src/apint/arithmetic.rs 1694-1699, 1739-1744. *)
Definition w_neg_if (f : place -> place) (flag : bool) (x : apint) : watched apint :=
  if flag then elsewhere f (w_wrapping_neg x) else wval x.
(** The match on two signs branches on the first and then on the second.  src/apint/arithmetic.rs 1667-1702. *)
Definition w_wrapping_sdivrem_assign (lhs rhs : apint) : watched (apint * apint * result unit) :=
  let& z := elsewhere on_rhs (w_is_zero rhs) in
  let& z := branch z in
  if z : bool then let& e := w_division_by_zero SignedDivRem lhs in wval (lhs, rhs, Err e)
  else
    let& ml := w_msb lhs in
    let& mr := elsewhere on_rhs (w_msb rhs) in
    let& ml := branch ml in
    let& mr := branch mr in
    let '(negate_lhs, negate_rhs) :=
      match ml, mr with
      | false, false => (false, false)
      | true, false => (true, true)
      | false, true => (true, false)
      | true, true => (false, true)
      end in
    let& lhs := w_neg_if (fun p => p) ml lhs in
    let& rhs := w_neg_if on_rhs mr rhs in
    let& (lhs, rhs) := w_unwrap_mut2 (w_wrapping_udivrem_assign lhs rhs) in
    let& nl := branch negate_lhs in
    let& lhs := w_neg_if (fun p => p) nl lhs in
    let& nr := branch negate_rhs in
    let& rhs := w_neg_if on_rhs nr rhs in
    wval (lhs, rhs, Ok tt).
(** src/apint/arithmetic.rs 1712-1747. *)
Definition w_wrapping_sremdiv_assign (lhs rhs : apint) : watched (apint * apint * result unit) :=
  let& z := elsewhere on_rhs (w_is_zero rhs) in
  let& z := branch z in
  if z : bool then let& e := w_division_by_zero SignedRemDiv lhs in wval (lhs, rhs, Err e)
  else
    let& ml := w_msb lhs in
    let& mr := elsewhere on_rhs (w_msb rhs) in
    let& ml := branch ml in
    let& mr := branch mr in
    let '(negate_lhs, negate_rhs) :=
      match ml, mr with
      | false, false => (false, false)
      | true, false => (true, true)
      | false, true => (false, true)
      | true, true => (true, false)
      end in
    let& lhs := w_neg_if (fun p => p) ml lhs in
    let& rhs := w_neg_if on_rhs mr rhs in
    let& (lhs, rhs) := w_unwrap_mut2 (w_wrapping_uremdiv_assign lhs rhs) in
    let& nl := branch negate_lhs in
    let& lhs := w_neg_if (fun p => p) nl lhs in
    let& nr := branch negate_rhs in
    let& rhs := w_neg_if on_rhs nr rhs in
    wval (lhs, rhs, Ok tt).
(** src/apint/arithmetic.rs 1756-1783. *)
Definition w_wrapping_sdiv_assign (a rhs : apint) : watched (apint * result unit) :=
  let& z := elsewhere on_rhs (w_is_zero rhs) in
  let& z := branch z in
  if z : bool then let& e := w_division_by_zero SignedDiv a in wval (a, Err e)
  else
    let& rhs_clone := w_clone Other rhs in
    let& ml := w_msb a in
    let& mr := elsewhere on_clone (w_msb rhs_clone) in
    let& ml := branch ml in
    let& mr := branch mr in
    let negate_lhs :=
      match ml, mr with
      | false, false => false
      | true, false => true
      | false, true => true
      | true, true => false
      end in
    let& a := w_neg_if (fun p => p) ml a in
    let& rhs_clone := w_neg_if on_clone mr rhs_clone in
    let& (a, _) := w_unwrap_mut2 (elsewhere by_clone (w_wrapping_udivrem_assign a rhs_clone)) in
    let& n := branch negate_lhs in
    let& a := w_neg_if (fun p => p) n a in
    wval (a, Ok tt).
(** src/apint/arithmetic.rs 1803-1830. *)
Definition w_wrapping_srem_assign (a rhs : apint) : watched (apint * result unit) :=
  let& z := elsewhere on_rhs (w_is_zero rhs) in
  let& z := branch z in
  if z : bool then let& e := w_division_by_zero SignedRem a in wval (a, Err e)
  else
    let& rhs_clone := w_clone Other rhs in
    let& ml := w_msb a in
    let& mr := elsewhere on_clone (w_msb rhs_clone) in
    let& ml := branch ml in
    let& mr := branch mr in
    let negate_lhs :=
      match ml, mr with
      | false, false => false
      | true, false => true
      | false, true => false
      | true, true => true
      end in
    let& a := w_neg_if (fun p => p) ml a in
    let& rhs_clone := w_neg_if on_clone mr rhs_clone in
    let& (a, _) := w_unwrap_mut2 (elsewhere by_clone (w_wrapping_uremdiv_assign a rhs_clone)) in
    let& n := branch negate_lhs in
    let& a := w_neg_if (fun p => p) n a in
    wval (a, Ok tt).
