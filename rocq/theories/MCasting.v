(** Model of the raw constructors of src/apint/constructors.rs and of
    src/apint/casting.rs.  No proofs in this file. *)
From Verif Require Export MUtils.

(** * src/apint/constructors.rs: raw constructors *)

(** src/apint/constructors.rs 52-58. *)
Definition new_inl (w d : Z) : outcome apint :=
  match storage w with
  | SInl => Val (mk_apint w [d])
  | SExt => Panic
  end.

(** src/apint/constructors.rs 71-82; the buffer behind the pointer is the list. *)
Definition new_ext (w : Z) (ds : list Z) : outcome apint :=
  match storage w with
  | SInl => Panic
  | SExt => Val (mk_apint w ds)
  end.

(** src/apint/constructors.rs 170-200.  The first [assert_eq!] (193) on the
    capacity is about the allocator and holds after [shrink_to_fit]; the
    second (194) is modelled. *)
Definition from_iter (ds : list Z) : outcome (result apint) :=
  match length ds with
  | O => Val (Err ExpectedNonEmptyDigits)
  | S O =>
      let! first_and_only := idx ds 0 in
      let! a := new_inl 64 first_and_only in Val (Ok a)
  | n =>
      let! bitwidth := unwrap (bitwidth_new (Z.of_nat n * 64)) in
      let req_digits := required_digits bitwidth in
      if Nat.eqb n req_digits
      then let! a := new_ext bitwidth ds in Val (Ok a)
      else Panic
  end.

(** * src/apint/casting.rs *)

(** src/apint/casting.rs 13-29. *)
Definition clone (a : apint) : outcome apint :=
  match storage (len a) with
  | SInl => let! d := read_inl a in new_inl (len a) d
  | SExt =>
      let buffer := as_digit_slice a in
      if Nat.eqb (length buffer) (len_digits a) then new_ext (len a) buffer else Panic
  end.

(** [copy_from_slice] of Rust std panics on unequal lengths.
    src/apint/casting.rs 49-51. *)
Definition copy_from_slice (dst src : list Z) : outcome (list Z) :=
  if Nat.eqb (length dst) (length src) then Val src else Panic.

(** src/apint/casting.rs 39-77. *)
Definition assign (a rhs : apint) : outcome apint :=
  if Nat.eqb (len_digits a) (len_digits rhs) then
    let! ds := copy_from_slice (as_digit_slice a) (as_digit_slice rhs) in
    Val (mk_apint (len rhs) ds)
  else
    match storage (len rhs) with
    | SInl => let! d := read_inl rhs in Val (mk_apint (len rhs) [d])
    | SExt => let! cloned := clone rhs in Val (mk_apint (len rhs) (digits cloned))
    end.

(** src/apint/casting.rs 90-102. *)
Definition strict_assign (a rhs : apint) : mut_result :=
  if negb (width a =? width rhs)
  then Val (a, Err (UnmatchingBitwidth (width a) (width rhs)))
  else
    let! ds := copy_from_slice (as_digit_slice a) (as_digit_slice rhs) in
    Val (mk_apint (len a) ds, Ok tt).

(** src/apint/casting.rs 137-206.  The function calls itself once (201); the
    model recurses on fuel. *)
Fixpoint truncate_fuel (fuel : nat) (a : apint) (target_width : Z) : mut_result :=
  match fuel with
  | O => OutOfFuel
  | S fuel' =>
      let actual_width := width a in
      if target_width =? actual_width then Val (a, Ok tt)
      else if width a <? target_width then
        Val (a, Err (TruncationBitWidthTooLarge target_width actual_width))
      else
        let actual_req_digits := required_digits actual_width in
        let target_req_digits := required_digits target_width in
        if Nat.eqb actual_req_digits target_req_digits then
          let! excess_width := unwrap_opt (excess_bits target_width) in
          let! a' := modify_most_significant_digit
                       (fun d => let! r := d_truncate_to d excess_width in unwrap r) a in
          Val (mk_apint target_width (digits a'), Ok tt)
        else
          let req_digits := firstn target_req_digits (as_digit_slice a) in
          let! r := from_iter req_digits in
          let! truncated_copy := unwrap r in
          if negb (width truncated_copy =? target_width) then
            let! (truncated_copy', r) := truncate_fuel fuel' truncated_copy target_width in
            match r with
            | Err e => Val (a, Err e)
            | Ok _ => Val (truncated_copy', Ok tt)
            end
          else Val (truncated_copy, Ok tt)
  end.

(** src/apint/casting.rs 137-206. *)
Definition truncate (a : apint) (target_width : Z) : mut_result :=
  truncate_fuel 2 a target_width.

(** src/apint/casting.rs 119-124. *)
Definition into_truncate (a : apint) (target_width : Z) : outcome (result apint) :=
  try_forward_bin_mut_impl truncate a target_width.

(** src/apint/casting.rs 240-291. *)
Definition zero_extend (a : apint) (target_width : Z) : mut_result :=
  let actual_width := width a in
  if target_width =? actual_width then Val (a, Ok tt)
  else if target_width <? actual_width then
    Val (a, Err (ExtensionBitWidthTooSmall target_width actual_width))
  else
    let actual_req_digits := required_digits actual_width in
    let target_req_digits := required_digits target_width in
    if Nat.eqb actual_req_digits target_req_digits then
      Val (mk_apint target_width (digits a), Ok tt)
    else if negb (Nat.ltb actual_req_digits target_req_digits) then Panic
    else
      let additional_digits := (target_req_digits - actual_req_digits)%nat in
      let! r := (let? apint := from_iter (as_digit_slice a ++ repeat ZERO additional_digits) in
                 into_truncate apint target_width) in
      match r with
      | Err e => Val (a, Err e)
      | Ok extended_clone => Val (extended_clone, Ok tt)
      end.

(** src/apint/casting.rs 222-227. *)
Definition into_zero_extend (a : apint) (target_width : Z) : outcome (result apint) :=
  try_forward_bin_mut_impl zero_extend a target_width.

(** [self.most_significant_digit_mut().sign_extend_from(w)] under
    [if let Some(w) = actual_width.excess_width()], src/apint/casting.rs
    368-371 and 384-387. *)
Definition fill_most_significant_digit (a : apint) (actual_width : Z) : mut_result :=
  match excess_width actual_width with
  | Some ew =>
      let! d := most_significant_digit a in
      let! r := d_sign_extend_from d ew in
      match r with
      | Err e => Val (a, Err e)
      | Ok d' => let! a' := modify_most_significant_digit (fun _ => Val d') a in Val (a', Ok tt)
      end
  | None => Val (a, Ok tt)
  end.

(** src/apint/casting.rs 325-400. *)
Definition sign_extend (a : apint) (target_width : Z) : mut_result :=
  let actual_width := width a in
  if target_width =? actual_width then Val (a, Ok tt)
  else if target_width <? actual_width then
    Val (a, Err (ExtensionBitWidthTooSmall target_width actual_width))
  else
    let! m := msb a in
    if negb m then zero_extend a target_width
    else
      let actual_req_digits := required_digits actual_width in
      let target_req_digits := required_digits target_width in
      if Nat.eqb actual_req_digits target_req_digits then
        let a1 := mk_apint target_width (digits a) in
        let! (a2, r) := fill_most_significant_digit a1 actual_width in
        match r with
        | Err e => Val (a2, Err e)
        | Ok _ => let! a3 := clear_unused_bits a2 in Val (a3, Ok tt)
        end
      else if negb (Nat.ltb actual_req_digits target_req_digits) then Panic
      else
        let additional_digits := (target_req_digits - actual_req_digits)%nat in
        let! (a1, r) := fill_most_significant_digit a actual_width in
        match r with
        | Err e => Val (a1, Err e)
        | Ok _ =>
            let! r := (let? apint := from_iter (as_digit_slice a1 ++ repeat ONES additional_digits) in
                       into_truncate apint target_width) in
            match r with
            | Err e => Val (a1, Err e)
            | Ok extended_copy =>
                let! _ := clear_unused_bits a1 in
                Val (extended_copy, Ok tt)
            end
        end.

(** src/apint/casting.rs 307-312. *)
Definition into_sign_extend (a : apint) (target_width : Z) : outcome (result apint) :=
  try_forward_bin_mut_impl sign_extend a target_width.

(** [.expect(..)] on the result of a method on [&mut self].
    src/apint/casting.rs 451-459, 480-488. *)
Definition expect_mut (m : mut_result) : outcome apint :=
  let! (a, r) := m in let! _ := unwrap r in Val a.

(** src/apint/casting.rs 443-461. *)
Definition zero_resize (a : apint) (target_width : Z) : outcome apint :=
  if target_width <=? width a
  then expect_mut (truncate a target_width)
  else expect_mut (zero_extend a target_width).

(** src/apint/casting.rs 472-490. *)
Definition sign_resize (a : apint) (target_width : Z) : outcome apint :=
  if target_width <=? width a
  then expect_mut (truncate a target_width)
  else expect_mut (sign_extend a target_width).

(** src/apint/casting.rs 412-417 and 427-432. *)
Definition into_zero_resize (a : apint) (target_width : Z) : outcome apint :=
  zero_resize a target_width.
(** src/apint/casting.rs 427-432. *)
Definition into_sign_resize (a : apint) (target_width : Z) : outcome apint :=
  sign_resize a target_width.
