(** How long comparing, bit operations, resizing, parsing and printing take.

    As in MTime.v, each definition below repeats the one of MRelational.v,
    MBitwise.v, MCasting.v, MConstructors.v or MSerial.v of the same name and
    counts, besides, its steps: one for each digit that is read, written or
    passed over, and one for each byte of text that is read, copied or written.
    Loops that may stop early are counted as far as they go.  Checks that only a debug build
    makes are counted.  That the results are those of the definitions repeated
    is part of C97.  No proofs in this file. *)
From Verif Require Export MTime MRelational MBitwise MConstructors MSerial.

(** * Comparing *)

(** Stops at the first difference.  src/apint/relational.rs 13-21. *)
Fixpoint c_digits_eqb (xs ys : list Z) : clocked bool :=
  match xs, ys with
  | [], [] => cval true
  | x :: xs, y :: ys => let~ _ := cpay 1 in if x =? y then c_digits_eqb xs ys else cval false
  | _, _ => cval false
  end.
(** src/apint/relational.rs 12-19. *)
Definition c_apint_eqb (a b : apint) : clocked bool :=
  if negb (len_bits a =? len_bits b) then cval false
  else c_digits_eqb (as_digit_slice a) (as_digit_slice b).
(** src/apint/relational.rs 46-53. *)
Fixpoint c_ult_loop (ls rs : list Z) : clocked bool :=
  match ls, rs with
  | l :: ls, r :: rs =>
      let~ _ := cpay 1 in
      match l ?= r with
      | Lt => cval true
      | Gt => cval false
      | Eq => c_ult_loop ls rs
      end
  | _, _ => cval false
  end.
(** src/apint/relational.rs 36-56. *)
Definition c_checked_ult (a rhs : apint) : clocked (result bool) :=
  let~ z := clift (zip_access_data a rhs) in
  match z with
  | Err e => cval (Err e)
  | Ok (ZInl l r) => cval (Ok (l <? r))
  | Ok (ZExt ls rs) => let~ b := c_ult_loop (rev ls) (rev rs) in cval (Ok b)
  end.
(** src/apint/relational.rs 70-78. *)
Definition c_checked_ule (a rhs : apint) : clocked (result bool) :=
  let~ r := c_checked_ult rhs a in cval (map_result negb r).
(** src/apint/relational.rs 92-100. *)
Definition c_checked_ugt (a rhs : apint) : clocked (result bool) := c_checked_ult rhs a.
(** src/apint/relational.rs 114-122. *)
Definition c_checked_uge (a rhs : apint) : clocked (result bool) :=
  let~ r := c_checked_ult a rhs in cval (map_result negb r).
(** src/apint/relational.rs 135-163. *)
Definition c_checked_slt (lhs rhs : apint) : clocked (result bool) :=
  let~ z := clift (zip_access_data lhs rhs) in
  match z with
  | Err e => cval (Err e)
  | Ok (ZInl l r) =>
      let~ infate_abs := clift (usize_sub 64 (width lhs)) in
      let~ l := clift (u64_shl l infate_abs) in
      let~ r := clift (u64_shl r infate_abs) in
      cval (Ok (u64_as_i64 l <? u64_as_i64 r))
  | Ok (ZExt _ _) =>
      let~ lm := c_msb lhs in
      let~ rm := c_msb rhs in
      match lm, rm with
      | false, false => c_checked_ult lhs rhs
      | false, true => cval (Ok false)
      | true, false => cval (Ok true)
      | true, true => c_checked_ugt rhs lhs
      end
  end.
(** src/apint/relational.rs 177-185. *)
Definition c_checked_sle (a rhs : apint) : clocked (result bool) :=
  let~ r := c_checked_slt rhs a in cval (map_result negb r).
(** src/apint/relational.rs 199-207. *)
Definition c_checked_sgt (a rhs : apint) : clocked (result bool) := c_checked_slt rhs a.
(** src/apint/relational.rs 221-229. *)
Definition c_checked_sge (a rhs : apint) : clocked (result bool) :=
  let~ r := c_checked_slt a rhs in cval (map_result negb r).

(** * Bit operations *)

(** [for digit in self.as_digit_slice_mut()].  src/apint/utils.rs 233-247. *)
Definition c_modify_digits (f : Z -> Z) (a : apint) : clocked apint :=
  let~ acc := clift (access_data a) in
  match acc with
  | DInl d => let~ _ := cpay 1 in cval (write_inl a (f d))
  | DExt ds => let~ _ := cpay (length ds) in cval (write_ext a (map f ds))
  end.
(** src/apint/utils.rs 256-274. *)
Definition c_modify_zipped_digits (f : Z -> Z -> Z) (a rhs : apint) : clocked (apint * result unit) :=
  let~ z := clift (zip_access_data a rhs) in
  match z with
  | Err e => cval (a, Err e)
  | Ok (ZInl l r) => let~ _ := cpay 1 in cval (write_inl a (f l r), Ok tt)
  | Ok (ZExt ls rs) => let~ _ := cpay (length ls) in cval (write_ext a (zip_update f ls rs), Ok tt)
  end.
(** src/apint/bitwise.rs 42-44. *)
Definition c_bitand_assign (a rhs : apint) : clocked (apint * result unit) := c_modify_zipped_digits d_and a rhs.
(** src/apint/bitwise.rs 63-65. *)
Definition c_bitor_assign (a rhs : apint) : clocked (apint * result unit) := c_modify_zipped_digits d_or a rhs.
(** src/apint/bitwise.rs 84-86. *)
Definition c_bitxor_assign (a rhs : apint) : clocked (apint * result unit) := c_modify_zipped_digits d_xor a rhs.
(** src/apint/bitwise.rs 96-109. *)
Definition c_get_bit_at (a : apint) (pos : Z) : clocked (result bool) :=
  match verify_bit_access (width a) pos with
  | Err e => cval (Err e)
  | Ok _ =>
      let~ acc := clift (access_data a) in
      match acc with
      | DInl d => clift (d_get d pos)
      | DExt ds =>
          let (digit_pos, bit_pos) := to_digit_and_bit_pos pos in
          let~ d := c_idx ds digit_pos in clift (d_get d bit_pos)
      end
  end.
(** src/apint/bitwise.rs 116-174. *)
Definition c_modify_bit_at (f : Z -> Z -> outcome (result Z)) (a : apint) (pos : Z) : clocked (apint * result unit) :=
  match verify_bit_access (width a) pos with
  | Err e => cval (a, Err e)
  | Ok _ =>
      let~ acc := clift (access_data a) in
      match acc with
      | DInl d =>
          let~ r := clift (f d pos) in
          match r with
          | Err e => cval (a, Err e)
          | Ok d' => cval (write_inl a d', Ok tt)
          end
      | DExt ds =>
          let (digit_pos, bit_pos) := to_digit_and_bit_pos pos in
          let~ d := c_idx ds digit_pos in
          let~ r := clift (f d bit_pos) in
          match r with
          | Err e => cval (a, Err e)
          | Ok d' => let~ ds' := c_upd ds digit_pos d' in cval (write_ext a ds', Ok tt)
          end
      end
  end.
(** src/apint/bitwise.rs 116-129. *)
Definition c_set_bit_at (a : apint) (pos : Z) : clocked (apint * result unit) := c_modify_bit_at d_set a pos.
(** src/apint/bitwise.rs 136-149. *)
Definition c_unset_bit_at (a : apint) (pos : Z) : clocked (apint * result unit) := c_modify_bit_at d_unset a pos.
(** src/apint/bitwise.rs 161-174. *)
Definition c_flip_bit_at (a : apint) (pos : Z) : clocked (apint * result unit) := c_modify_bit_at d_flip a pos.
(** src/apint/bitwise.rs 177-180. *)
Definition c_set_all (a : apint) : clocked apint :=
  let~ a := c_modify_digits d_set_all a in c_clear_unused_bits a.
(** src/apint/bitwise.rs 194-196. *)
Definition c_unset_all (a : apint) : clocked apint := c_modify_digits d_unset_all a.
(** src/apint/bitwise.rs 204-208. *)
Definition c_flip_all (a : apint) : clocked apint :=
  let~ a := c_modify_digits d_flip_all a in c_clear_unused_bits a.
(** src/apint/bitwise.rs 248-253. *)
Definition c_count_ones (a : apint) : clocked Z :=
  let~ _ := cpay (length (as_digit_slice a)) in
  cval (sum_digits u64_count_ones (as_digit_slice a)).
(** src/apint/bitwise.rs 257-268. *)
Definition c_count_zeros (a : apint) : clocked Z :=
  let~ _ := cpay (length (as_digit_slice a)) in
  let zeros := sum_digits u64_count_zeros (as_digit_slice a) in
  let~ u := clift (unused_bits (width a)) in clift (usize_sub zeros u).
(** src/apint/bitwise.rs 273-280, 288-295. *)
Fixpoint c_count_run (f : Z -> Z) (ds : list Z) (zeros : Z) : clocked Z :=
  match ds with
  | [] => cval zeros
  | d :: r =>
      let~ _ := cpay 1 in
      let n := f d in
      let zeros := zeros + n in
      if negb (n =? 64) then cval zeros else c_count_run f r zeros
  end.
(** src/apint/bitwise.rs 272-283. *)
Definition c_leading_zeros (a : apint) : clocked Z :=
  let~ zeros := c_count_run u64_leading_zeros (rev (as_digit_slice a)) 0 in
  let~ u := clift (unused_bits (width a)) in clift (usize_sub zeros u).
(** src/apint/bitwise.rs 287-301. *)
Definition c_trailing_zeros (a : apint) : clocked Z :=
  let~ zeros := c_count_run u64_trailing_zeros (as_digit_slice a) 0 in
  if width a <=? zeros
  then let~ u := clift (unused_bits (width a)) in clift (usize_sub zeros u)
  else cval zeros.

(** * Resizing *)

(** Collecting a vector that grows by doubling writes each digit once and copies at most two for each; fitting it
    to its length copies each once more.  src/apint/constructors.rs 170-200. *)
Definition c_from_iter (ds : list Z) : clocked (result apint) :=
  let~ _ := cpay (4 * length ds) in clift (from_iter ds).
(** Reads and writes one digit.  src/apint/utils.rs 319-326. *)
Definition c_modify_most_significant_digit (f : Z -> outcome Z) (a : apint) : clocked apint :=
  (2, modify_most_significant_digit f a).
(** src/apint/casting.rs 137-206. *)
Fixpoint c_truncate_fuel (fuel : nat) (a : apint) (target_width : Z) : clocked (apint * result unit) :=
  match fuel with
  | O => clift OutOfFuel
  | S fuel' =>
      let actual_width := width a in
      if target_width =? actual_width then cval (a, Ok tt)
      else if width a <? target_width then
        cval (a, Err (TruncationBitWidthTooLarge target_width actual_width))
      else
        let actual_req_digits := required_digits actual_width in
        let target_req_digits := required_digits target_width in
        if Nat.eqb actual_req_digits target_req_digits then
          let~ excess_width := clift (unwrap_opt (excess_bits target_width)) in
          let~ a' := c_modify_most_significant_digit
                       (fun d => let! r := d_truncate_to d excess_width in unwrap r) a in
          cval (mk_apint target_width (digits a'), Ok tt)
        else
          let req_digits := firstn target_req_digits (as_digit_slice a) in
          let~ r := c_from_iter req_digits in
          let~ truncated_copy := clift (unwrap r) in
          if negb (width truncated_copy =? target_width) then
            let~ (truncated_copy', r) := c_truncate_fuel fuel' truncated_copy target_width in
            match r with
            | Err e => cval (a, Err e)
            | Ok _ => cval (truncated_copy', Ok tt)
            end
          else cval (truncated_copy, Ok tt)
  end.
(** src/apint/casting.rs 137-206. *)
Definition c_truncate (a : apint) (target_width : Z) : clocked (apint * result unit) :=
  c_truncate_fuel 2 a target_width.
(** src/apint/casting.rs 119-124. *)
Definition c_into_truncate (a : apint) (target_width : Z) : clocked (result apint) :=
  let~ (this, r) := c_truncate a target_width in
  match r with Ok _ => cval (Ok this) | Err e => cval (Err e) end.
(** [from_iter(..).and_then(|apint| apint.into_truncate(target_width))].  src/apint/casting.rs 283-287, 389-393. *)
Definition c_from_iter_truncated (ds : list Z) (target_width : Z) : clocked (result apint) :=
  let~ r := c_from_iter ds in
  match r with
  | Err e => cval (Err e)
  | Ok apint => c_into_truncate apint target_width
  end.
(** src/apint/casting.rs 240-291. *)
Definition c_zero_extend (a : apint) (target_width : Z) : clocked (apint * result unit) :=
  let actual_width := width a in
  if target_width =? actual_width then cval (a, Ok tt)
  else if target_width <? actual_width then
    cval (a, Err (ExtensionBitWidthTooSmall target_width actual_width))
  else
    let actual_req_digits := required_digits actual_width in
    let target_req_digits := required_digits target_width in
    if Nat.eqb actual_req_digits target_req_digits then
      cval (mk_apint target_width (digits a), Ok tt)
    else if negb (Nat.ltb actual_req_digits target_req_digits) then clift Panic
    else
      let additional_digits := (target_req_digits - actual_req_digits)%nat in
      let~ r := c_from_iter_truncated (as_digit_slice a ++ repeat ZERO additional_digits) target_width in
      match r with
      | Err e => cval (a, Err e)
      | Ok extended_clone => cval (extended_clone, Ok tt)
      end.
(** src/apint/casting.rs 368-371, 384-387. *)
Definition c_fill_most_significant_digit (a : apint) (actual_width : Z) : clocked (apint * result unit) :=
  (2, fill_most_significant_digit a actual_width).
(** src/apint/casting.rs 325-400. *)
Definition c_sign_extend (a : apint) (target_width : Z) : clocked (apint * result unit) :=
  let actual_width := width a in
  if target_width =? actual_width then cval (a, Ok tt)
  else if target_width <? actual_width then
    cval (a, Err (ExtensionBitWidthTooSmall target_width actual_width))
  else
    let~ m := c_msb a in
    if negb m then c_zero_extend a target_width
    else
      let actual_req_digits := required_digits actual_width in
      let target_req_digits := required_digits target_width in
      if Nat.eqb actual_req_digits target_req_digits then
        let a1 := mk_apint target_width (digits a) in
        let~ (a2, r) := c_fill_most_significant_digit a1 actual_width in
        match r with
        | Err e => cval (a2, Err e)
        | Ok _ => let~ a3 := c_clear_unused_bits a2 in cval (a3, Ok tt)
        end
      else if negb (Nat.ltb actual_req_digits target_req_digits) then clift Panic
      else
        let additional_digits := (target_req_digits - actual_req_digits)%nat in
        let~ (a1, r) := c_fill_most_significant_digit a actual_width in
        match r with
        | Err e => cval (a1, Err e)
        | Ok _ =>
            let~ r := c_from_iter_truncated (as_digit_slice a1 ++ repeat ONES additional_digits) target_width in
            match r with
            | Err e => cval (a1, Err e)
            | Ok extended_copy =>
                let~ _ := c_clear_unused_bits a1 in
                cval (extended_copy, Ok tt)
            end
        end.
(** src/apint/casting.rs 451-459, 480-488. *)
Definition c_expect_mut (m : clocked (apint * result unit)) : clocked apint :=
  let~ (a, r) := m in let~ _ := clift (unwrap r) in cval a.
(** src/apint/casting.rs 443-461. *)
Definition c_zero_resize (a : apint) (target_width : Z) : clocked apint :=
  if target_width <=? width a
  then c_expect_mut (c_truncate a target_width)
  else c_expect_mut (c_zero_extend a target_width).
(** src/apint/casting.rs 472-490. *)
Definition c_sign_resize (a : apint) (target_width : Z) : clocked apint :=
  if target_width <=? width a
  then c_expect_mut (c_truncate a target_width)
  else c_expect_mut (c_sign_extend a target_width).
(** src/apint/constructors.rs 220-243. *)
Definition c_repeat_digit (target_width digit : Z) : clocked apint :=
  let req_digits := required_digits target_width in
  let~ r := c_from_iter (repeat digit req_digits) in
  let~ a := clift (unwrap r) in
  let~ r := c_into_truncate a target_width in
  clift (unwrap r).

(** * Parsing *)

(** [v.iter().fold(init, f)].  src/apint/serialization.rs 224. *)
Fixpoint c_fold_o {A S : Type} (f : S -> A -> clocked S) (v : list A) (s : S) : clocked S :=
  match v with
  | [] => cval s
  | x :: r => let~ _ := cpay 1 in let~ s' := f s x in c_fold_o f r s'
  end.
(** [v.iter().map(f)], collected.  src/apint/serialization.rs 216-227. *)
Fixpoint c_map_o {A C : Type} (f : A -> clocked C) (v : list A) : clocked (list C) :=
  match v with
  | [] => cval []
  | x :: r => let~ _ := cpay 1 in let~ y := f x in let~ ys := c_map_o f r in cval (y :: ys)
  end.
(** [v.iter().all(f)], which stops at the first that is not.  src/apint/serialization.rs 214, 241, 283. *)
Fixpoint c_all {A : Type} (f : A -> bool) (v : list A) : clocked bool :=
  match v with
  | [] => cval true
  | x :: r => let~ _ := cpay 1 in if f x then c_all f r else cval false
  end.
(** src/apint/serialization.rs 210-230. *)
Definition c_from_bitwise_digits (v : list Z) (bits : Z) : clocked apint :=
  if negb (negb (Nat.eqb (length v) 0) && (bits <=? 8) && (64 mod bits =? 0)) then clift Trap
  else
    let~ valid := c_all (fun c => c <? Z.shiftl 1 bits) v in
    if negb valid then clift Trap
    else
      let radix_digits_per_digit := 64 / bits in
      let~ cs := clift (chunks (Z.to_nat radix_digits_per_digit) v) in
      let~ data := c_map_o (fun chunk =>
        c_fold_o (fun acc c => let~ s := clift (u64_shl acc bits) in cval (Z.lor s c)) (rev chunk) 0) cs in
      let~ r := c_from_iter data in clift (unwrap r).
(** src/apint/serialization.rs 237-271.  Pushing does not move the vector: it has its capacity from the start. *)
Definition c_from_inexact_bitwise_digits (v : list Z) (bits : Z) : clocked apint :=
  if negb (negb (Nat.eqb (length v) 0) && (bits <=? 8) && negb (64 mod bits =? 0)) then clift Trap
  else
    let~ valid := c_all (fun c => c <? Z.shiftl 1 bits) v in
    if negb valid then clift Trap
    else
      let~ (st, dbits) := c_fold_o (fun st c => let~ _ := cpay 1 in clift (inexact_step bits st c)) v ([], 0, 0) in
      let '(data, d) := st in
      let~ data :=
        if 0 <? dbits then (if dbits <? 64 then let~ _ := cpay 1 in cval (data ++ [d]) else clift Trap) else cval data in
      let~ r := c_from_iter data in clift (unwrap r).
(** src/apint/serialization.rs 301-303, 326-328. *)
Definition c_fold_radix (radix : Z) (v : list Z) : clocked Z :=
  c_fold_o (fun acc d => let~ m := clift (u64_mul acc radix) in clift (u64_add m d)) v 0.
(** The inner loop passes over [data].  src/apint/serialization.rs 307-330. *)
Definition c_radix_chunk_step (radix : Z) (data chunk : list Z) : clocked (list Z) :=
  let~ _ := cpay 1 in
  let data := if last_is_not_zero data then data ++ [0] else data in
  let~ _ := cpay (length data) in
  let~ _ := c_fold_radix radix chunk in
  cval data.
(** src/apint/serialization.rs 279-333. *)
Definition c_from_radix_digits (v : list Z) (radix : Z) : clocked apint :=
  if negb (negb (Nat.eqb (length v) 0) && negb (radix_is_power_of_two radix)) then clift Trap
  else
    let~ valid := c_all (is_valid_byte radix) v in
    if negb valid then clift Trap
    else
      let~ (_, power) := clift (get_radix_base radix) in
      if power =? 0 then clift Panic else
      let r := Z.of_nat (length v) mod power in
      let i := if r =? 0 then power else r in
      if Z.of_nat (length v) <? i then clift Panic else
      let head := firstn (Z.to_nat i) v in
      let tail := skipn (Z.to_nat i) v in
      let~ first := c_fold_radix radix head in
      let~ _ := cpay 1 in
      if negb (Z.of_nat (length tail) mod power =? 0) then clift Trap else
      let~ cs := clift (chunks (Z.to_nat power) tail) in
      let~ data := c_fold_o (c_radix_chunk_step radix) cs [first] in
      let~ r := c_from_iter data in clift (unwrap r).
(** Reads each byte and, unless it is an underscore, writes its value.  An error copies the whole input
    (src/errors.rs 204-227).  src/apint/serialization.rs 170-187. *)
Fixpoint c_normalize (radix : Z) (input bytes : list Z) : clocked (result (list Z)) :=
  match bytes with
  | [] => cval (Ok [])
  | b :: r =>
      let~ _ := cpay 1 in
      match normalize_byte b with
      | None => c_normalize radix input r
      | Some d =>
          if negb (is_valid_byte radix d)
          then let~ _ := cpay (length input) in cval (Err (InvalidStringRepr input radix None))
          else
            let~ _ := cpay 1 in
            let~ v := c_normalize radix input r in
            match v with
            | Ok v => cval (Ok (d :: v))
            | Err e => cval (Err e)
            end
      end
  end.
(** src/apint/serialization.rs 143-202. *)
Definition c_from_str_radix (radix : Z) (input : list Z) : clocked (result apint) :=
  match input with
  | [] => cval (Err (InvalidStringRepr input radix None))
  | first :: _ =>
      if first =? 95 then let~ _ := cpay (length input) in cval (Err (InvalidStringRepr input radix None))
      else if last input 0 =? 95 then let~ _ := cpay (length input) in cval (Err (InvalidStringRepr input radix None))
      else
        let~ v := c_normalize radix input input in
        match v with
        | Err e => cval (Err e)
        | Ok v =>
            let~ b := clift (exact_bits_per_digit radix) in
            let~ result :=
              match b with
              | Some bits =>
                  let~ _ := cpay (length v) in
                  let v := rev v in
                  if 64 mod bits =? 0 then c_from_bitwise_digits v bits
                  else c_from_inexact_bitwise_digits v bits
              | None => c_from_radix_digits v radix
              end in
            cval (Ok result)
        end
  end.

(** * Printing *)

(** Passes over each digit and writes its characters.  src/apint/serialization.rs 36-45, 66-75, 86-95. *)
Fixpoint c_fmt_rest (width : nat) (base alpha : Z) (ds : list Z) : clocked (list Z) :=
  match ds with
  | [] => cval []
  | d :: r =>
      let s := u64_fmt_padded width base alpha d in
      let~ _ := cpay (1 + length s) in
      let~ t := c_fmt_rest width base alpha r in
      cval (s ++ t)
  end.
(** src/apint/serialization.rs 36-45, 66-75, 86-95. *)
Fixpoint c_fmt_digits (width : nat) (base alpha : Z) (ds : list Z) : clocked (list Z) :=
  match ds with
  | [] => cval []
  | d :: r =>
      let~ _ := cpay 1 in
      if d_is_zero d then c_fmt_digits width base alpha r
      else
        let s := u64_fmt base alpha d in
        let~ _ := cpay (length s) in
        let~ t := c_fmt_rest width base alpha r in
        cval (s ++ t)
  end.
(** src/apint/serialization.rs 31-47. *)
Definition c_fmt_radix (width : nat) (base alpha : Z) (a : apint) : clocked (list Z) :=
  let~ z := c_is_zero a in
  if z : bool then let~ _ := cpay 1 in cval [48]
  else c_fmt_digits width base alpha (rev (as_digit_slice a)).
(** src/apint/serialization.rs 30-48. *)
Definition c_fmt_binary (a : apint) : clocked (list Z) := c_fmt_radix 64 2 97 a.
(** src/apint/serialization.rs 60-78. *)
Definition c_fmt_lower_hex (a : apint) : clocked (list Z) := c_fmt_radix 16 16 97 a.
(** src/apint/serialization.rs 80-98. *)
Definition c_fmt_upper_hex (a : apint) : clocked (list Z) := c_fmt_radix 16 16 65 a.
