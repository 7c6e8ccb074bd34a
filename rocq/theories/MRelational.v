(** Model of src/apint/relational.rs.  No proofs in this file. *)
From Verif Require Export MCasting.

(** Equality of digit slices.  src/apint/relational.rs 13-21. *)
Fixpoint digits_eqb (xs ys : list Z) : bool :=
  match xs, ys with
  | [], [] => true
  | x :: xs, y :: ys => (x =? y) && digits_eqb xs ys
  | _, _ => false
  end.

(** src/apint/relational.rs 12-19. *)
Definition apint_eqb (a b : apint) : bool :=
  if negb (len_bits a =? len_bits b) then false
  else digits_eqb (as_digit_slice a) (as_digit_slice b).

(** The loop of src/apint/relational.rs 46-53 over reversed slices. *)
Fixpoint ult_loop (ls rs : list Z) : bool :=
  match ls, rs with
  | l :: ls, r :: rs =>
      match l ?= r with
      | Lt => true
      | Gt => false
      | Eq => ult_loop ls rs
      end
  | _, _ => false
  end.

(** src/apint/relational.rs 36-56. *)
Definition checked_ult (a rhs : apint) : outcome (result bool) :=
  let? z := zip_access_data a rhs in
  match z with
  | ZInl l r => Val (Ok (l <? r))
  | ZExt ls rs => Val (Ok (ult_loop (rev ls) (rev rs)))
  end.

(** src/apint/relational.rs 70-78. *)
Definition checked_ule (a rhs : apint) : outcome (result bool) :=
  let! r := checked_ult rhs a in Val (map_result negb r).
(** src/apint/relational.rs 92-100. *)
Definition checked_ugt (a rhs : apint) : outcome (result bool) := checked_ult rhs a.
(** src/apint/relational.rs 114-122. *)
Definition checked_uge (a rhs : apint) : outcome (result bool) :=
  let! r := checked_ult a rhs in Val (map_result negb r).

(** src/apint/relational.rs 135-163. *)
Definition checked_slt (lhs rhs : apint) : outcome (result bool) :=
  let? z := zip_access_data lhs rhs in
  match z with
  | ZInl l r =>
      let! infate_abs := usize_sub 64 (width lhs) in
      let! l := u64_shl l infate_abs in
      let! r := u64_shl r infate_abs in
      Val (Ok (u64_as_i64 l <? u64_as_i64 r))
  | ZExt _ _ =>
      let! lm := msb lhs in
      let! rm := msb rhs in
      match lm, rm with
      | false, false => checked_ult lhs rhs
      | false, true => Val (Ok false)
      | true, false => Val (Ok true)
      | true, true => checked_ugt rhs lhs
      end
  end.

(** src/apint/relational.rs 177-185. *)
Definition checked_sle (a rhs : apint) : outcome (result bool) :=
  let! r := checked_slt rhs a in Val (map_result negb r).
(** src/apint/relational.rs 199-207. *)
Definition checked_sgt (a rhs : apint) : outcome (result bool) := checked_slt rhs a.
(** src/apint/relational.rs 221-229. *)
Definition checked_sge (a rhs : apint) : outcome (result bool) :=
  let! r := checked_slt a rhs in Val (map_result negb r).
