(** How long calls that fail take, and conversions to machine integers.

    Each definition repeats the one of MText.v, MCasting.v or MPrim.v of the same
    name and counts its steps as MTimeLinear.v does: one for each digit that is
    read, written or passed over, and one for each character of a text that is
    written.  That the results are those of the definitions repeated is part of
    C99.  No proofs in this file. *)
From Coq Require Import Ascii String.
From Verif Require Export MTimeLinear MText MPrim.
Open Scope list_scope.
Open Scope Z_scope.

(** An error is made: its message is written.  src/errors.rs 173-380. *)
Definition c_error_of (k : error_kind) : clocked error :=
  let~ _ := cpay (List.length (message_of k)) in cval (error_of k).
(** The annotation is written.  src/errors.rs 159-166. *)
Definition c_with_annotation (e : error) (t : list Z) : clocked error :=
  let~ _ := cpay (List.length t) in cval (with_annotation e t).
(** E.g. src/apint/to_primitive.rs 310-318. *)
Definition c_plain {A : Type} (m : clocked (result A)) : clocked (eresult A) :=
  let~ r := m in
  match r with
  | Ok a => cval (EOk a)
  | Err k => let~ e := c_error_of k in cval (EErr e)
  end.
(** A method on [&mut self], or on two integers, whose errors carry no
    annotation: the state afterwards and the whole error.
    E.g. src/apint/arithmetic.rs 1596-1611. *)
Definition plain_mut {S : Type} (m : outcome (S * result unit)) : outcome (S * eresult unit) :=
  let! (s, r) := m in Val (s, match r with Ok u => EOk u | Err k => EErr (error_of k) end).
(** E.g. src/apint/arithmetic.rs 1596-1611. *)
Definition c_plain_mut {S : Type} (m : clocked (S * result unit)) : clocked (S * eresult unit) :=
  let~ (s, r) := m in
  match r with
  | Ok u => cval (s, EOk u)
  | Err k => let~ e := c_error_of k in cval (s, EErr e)
  end.
(** [.map_err(|err| err.with_annotation(..))].  src/apint/relational.rs 71-77. *)
Definition c_annotated {A : Type} (t : list Z) (m : clocked (eresult A)) : clocked (eresult A) :=
  let~ r := m in
  match r with
  | EOk a => cval (EOk a)
  | EErr e => let~ e := c_with_annotation e t in cval (EErr e)
  end.
(** [.map(Not::not)].  src/apint/relational.rs 71. *)
Definition c_not_result (m : clocked (eresult bool)) : clocked (eresult bool) :=
  let~ r := m in cval (match r with EOk b => EOk (negb b) | EErr e => EErr e end).

(** * Comparisons *)

(** src/apint/relational.rs 36-60. *)
Definition c_explained_ult (a rhs : apint) : clocked (eresult bool) :=
  c_annotated (lit "Error occured on unsigned less-than (slt) comparison with `lhs < rhs` where " ++
               operand_lines a rhs)
    (c_plain (c_checked_ult a rhs)).
(** src/apint/relational.rs 70-78. *)
Definition c_explained_ule (a rhs : apint) : clocked (eresult bool) :=
  c_annotated (lit "Error occured on unsigned less-than or equals (ule) comparison with `lhs <= rhs` where " ++
               operand_lines a rhs)
    (c_not_result (c_explained_ult rhs a)).
(** src/apint/relational.rs 92-100. *)
Definition c_explained_ugt (a rhs : apint) : clocked (eresult bool) :=
  c_annotated (lit "Error occured on unsigned greater-than (ugt) comparison with `lhs > rhs` where " ++
               operand_lines a rhs)
    (c_explained_ult rhs a).
(** src/apint/relational.rs 114-122. *)
Definition c_explained_uge (a rhs : apint) : clocked (eresult bool) :=
  c_annotated (lit "Error occured on unsigned greater-than or equals (ule) comparison with `lhs >= rhs` where " ++
               operand_lines a rhs)
    (c_not_result (c_explained_ult a rhs)).
(** src/apint/relational.rs 135-163. *)
Definition c_explained_slt (a rhs : apint) : clocked (eresult bool) :=
  c_annotated (lit "Error occured on signed less-than (slt) comparison with `lhs < rhs` where " ++
               operand_lines a rhs)
    (c_plain (c_checked_slt a rhs)).
(** src/apint/relational.rs 177-185. *)
Definition c_explained_sle (a rhs : apint) : clocked (eresult bool) :=
  c_annotated (lit "Error occured on signed less-than or equals (ule) comparison with `lhs <= rhs` where " ++
               operand_lines a rhs)
    (c_not_result (c_explained_slt rhs a)).
(** src/apint/relational.rs 199-207. *)
Definition c_explained_sgt (a rhs : apint) : clocked (eresult bool) :=
  c_annotated (lit "Error occured on signed greater-than (ugt) comparison with `lhs > rhs` where " ++
               operand_lines a rhs)
    (c_explained_slt rhs a).
(** src/apint/relational.rs 221-229. *)
Definition c_explained_sge (a rhs : apint) : clocked (eresult bool) :=
  c_annotated (lit "Error occured on signed greater-than or equals (ule) comparison with `lhs >= rhs` where " ++
               operand_lines a rhs)
    (c_not_result (c_explained_slt a rhs)).

(** * Assigning and resizing *)

(** src/apint/casting.rs 90-102, 137-158, 240-259, 325-344. *)
Definition c_explained_mut (t : list Z) (m : clocked (apint * result unit)) : clocked (apint * eresult unit) :=
  let~ (a, r) := m in
  match r with
  | Ok u => cval (a, EOk u)
  | Err k =>
      let~ e := c_error_of k in
      let~ e := c_with_annotation e t in
      cval (a, EErr e)
  end.
(** src/apint/casting.rs 90-102: [copy_from_slice] passes over the digits. *)
Definition c_strict_assign (a rhs : apint) : clocked (apint * result unit) :=
  if negb (width a =? width rhs)
  then cval (a, Err (UnmatchingBitwidth (width a) (width rhs)))
  else
    let~ _ := cpay (List.length (as_digit_slice rhs)) in
    let~ ds := clift (copy_from_slice (as_digit_slice a) (as_digit_slice rhs)) in
    cval (mk_apint (len a) ds, Ok tt).
(** src/apint/casting.rs 90-102. *)
Definition c_explained_strict_assign (a rhs : apint) : clocked (apint * eresult unit) :=
  c_explained_mut (lit "Occured while trying to `strict_assign` " ++ render (dbg_apint a) ++
                   lit " to " ++ render (dbg_apint rhs) ++ lit ".")
    (c_strict_assign a rhs).
(** src/apint/casting.rs 137-206. *)
Definition c_explained_truncate (a : apint) (target : Z) : clocked (apint * eresult unit) :=
  c_explained_mut (lit "Cannot truncate `ApInt` with a width of " ++ dec_text (width a) ++ [10] ++
                   lit "                         to an `ApInt` with a width of " ++ dec_text target ++
                   lit " bits. Do you mean to extend the instance instead?")
    (c_truncate a target).
(** src/apint/casting.rs 240-291. *)
Definition c_explained_zero_extend (a : apint) (target : Z) : clocked (apint * eresult unit) :=
  c_explained_mut (lit "Cannot zero-extend bit-width of " ++ render (dbg_width (width a)) ++ lit " to " ++
                   render (dbg_width target) ++
                   lit " bits. Do you mean to truncate the instance instead?")
    (c_zero_extend a target).
(** src/apint/casting.rs 325-397. *)
Definition c_explained_sign_extend (a : apint) (target : Z) : clocked (apint * eresult unit) :=
  c_explained_mut (lit "Cannot sign-extend bit-width of " ++ render (dbg_width (width a)) ++ lit " to " ++
                   render (dbg_width target) ++
                   lit " bits. Do you mean to truncate the instance instead?")
    (c_sign_extend a target).

(** * Conversions to machine integers *)

(** [rest.iter().any(|d| d.repr() != 0)]: stops at the first.  src/apint/to_primitive.rs 313. *)
Fixpoint c_any_nonzero (rest : list Z) : clocked bool :=
  match rest with
  | [] => cval false
  | d :: r => let~ _ := cpay 1 in if negb (d =? 0) then cval true else c_any_nonzero r
  end.
(** src/apint/to_primitive.rs 310-318: the copy inside the error. *)
Definition c_unrepresentable {A : Type} (a : apint) (ty : prim_ty) : clocked (result A) :=
  let~ c := c_clone a in cval (Err (ValueUnrepresentable c ty)).
(** src/apint/to_primitive.rs 308-339. *)
Definition c_try_cast_to_primitive_ty (a : apint) (ty : prim_ty) : clocked (result Z) :=
  if is_128 ty then clift Trap else
  let~ _ := cpay 1 in
  let~ (lsd, rest) := clift (split_least_significant_digit a) in
  let~ any := (if negb (is_valid_repr ty lsd) then cval true else c_any_nonzero rest) in
  if any : bool then c_unrepresentable a ty
  else if is_signed ty then
    let actual_width := width a in
    let target_width := associated_width ty in
    if actual_width <? target_width then
      let~ r := clift (d_sign_extend_from lsd actual_width) in
      let~ lsd := clift (unwrap r) in
      if target_width <? 64
      then let~ r := clift (d_truncate_to lsd target_width) in let~ d := clift (unwrap r) in cval (Ok d)
      else cval (Ok lsd)
    else cval (Ok lsd)
  else cval (Ok lsd).
(** src/apint/to_primitive.rs 353-359. *)
Definition c_try_to_bool (a : apint) : clocked (result bool) :=
  let~ r := c_try_cast_to_primitive_ty a PBool in
  match r with
  | Err e => cval (Err e)
  | Ok d => if d =? 0 then cval (Ok false) else if d =? 1 then cval (Ok true) else clift Panic
  end.
(** src/apint/to_primitive.rs 375-499. *)
Definition c_try_cast_map (a : apint) (ty : prim_ty) (f : Z -> Z) : clocked (result Z) :=
  let~ r := c_try_cast_to_primitive_ty a ty in cval (map_result f r).
(** src/apint/to_primitive.rs 375-378. *)
Definition c_try_to_i8 (a : apint) : clocked (result Z) := c_try_cast_map a PI8 (as_int 8).
(** src/apint/to_primitive.rs 391-394. *)
Definition c_try_to_u8 (a : apint) : clocked (result Z) := c_try_cast_map a PU8 (as_uint 8).
(** src/apint/to_primitive.rs 410-413. *)
Definition c_try_to_i16 (a : apint) : clocked (result Z) := c_try_cast_map a PI16 (as_int 16).
(** src/apint/to_primitive.rs 426-429. *)
Definition c_try_to_u16 (a : apint) : clocked (result Z) := c_try_cast_map a PU16 (as_uint 16).
(** src/apint/to_primitive.rs 445-448. *)
Definition c_try_to_i32 (a : apint) : clocked (result Z) := c_try_cast_map a PI32 (as_int 32).
(** src/apint/to_primitive.rs 461-464. *)
Definition c_try_to_u32 (a : apint) : clocked (result Z) := c_try_cast_map a PU32 (as_uint 32).
(** src/apint/to_primitive.rs 480-483. *)
Definition c_try_to_i64 (a : apint) : clocked (result Z) := c_try_cast_map a PI64 (as_int 64).
(** src/apint/to_primitive.rs 496-499. *)
Definition c_try_to_u64 (a : apint) : clocked (result Z) := c_try_cast_map a PU64 (as_uint 64).
(** src/apint/to_primitive.rs 515-543. *)
Definition c_try_to_i128 (a : apint) : clocked (result Z) :=
  let~ _ := cpay 2 in
  let~ (lsd_0, rest) := clift (split_least_significant_digit a) in
  let '(lsd_1, rest) := split_first_or_zero rest in
  let~ any := c_any_nonzero rest in
  if any : bool then c_unrepresentable a PI128
  else
    let~ hi := clift (i128_shl lsd_1 64) in
    let~ result := clift (i128_add hi lsd_0) in
    let actual_width := width a in
    let target_width := 128 in
    if actual_width <? target_width then
      let b := actual_width in
      let~ b1 := clift (usize_sub b 1) in
      let~ m := clift (i128_shl 1 b1) in
      cval (Ok (as_int 128 (Z.lxor result m - m)))
    else cval (Ok result).
(** src/apint/to_primitive.rs 560-573. *)
Definition c_try_to_u128 (a : apint) : clocked (result Z) :=
  let~ _ := cpay 2 in
  let~ (lsd_0, rest) := clift (split_least_significant_digit a) in
  let '(lsd_1, rest) := split_first_or_zero rest in
  let~ any := c_any_nonzero rest in
  if any : bool then c_unrepresentable a PU128
  else
    let~ hi := clift (u128_shl lsd_1 64) in
    let~ result := clift (u128_add hi lsd_0) in
    cval (Ok result).
