(** Model of src/apint/bitwise.rs.  No proofs in this file. *)
From Verif Require Export MCasting.

(** src/apint/bitwise.rs 20-23, 15-17. *)
Definition bitnot (a : apint) : outcome apint :=
  let! a := modify_digits d_not a in clear_unused_bits a.
(** src/apint/bitwise.rs 15-17. *)
Definition into_bitnot (a : apint) : outcome apint := forward_mut_impl bitnot a.

(** src/apint/bitwise.rs 42-44, 63-65, 84-86. *)
Definition bitand_assign (a rhs : apint) : mut_result := modify_zipped_digits d_and a rhs.
(** src/apint/bitwise.rs 63-65. *)
Definition bitor_assign (a rhs : apint) : mut_result := modify_zipped_digits d_or a rhs.
(** src/apint/bitwise.rs 84-86. *)
Definition bitxor_assign (a rhs : apint) : mut_result := modify_zipped_digits d_xor a rhs.

(** src/apint/bitwise.rs 31-33, 52-54, 73-75. *)
Definition into_bitand (a rhs : apint) : outcome (result apint) :=
  try_forward_bin_mut_impl bitand_assign a rhs.
(** src/apint/bitwise.rs 52-54. *)
Definition into_bitor (a rhs : apint) : outcome (result apint) :=
  try_forward_bin_mut_impl bitor_assign a rhs.
(** src/apint/bitwise.rs 73-75. *)
Definition into_bitxor (a rhs : apint) : outcome (result apint) :=
  try_forward_bin_mut_impl bitxor_assign a rhs.

(** src/apint/bitwise.rs 96-109. *)
Definition get_bit_at (a : apint) (pos : Z) : outcome (result bool) :=
  match verify_bit_access (width a) pos with
  | Err e => Val (Err e)
  | Ok _ =>
      let! acc := access_data a in
      match acc with
      | DInl d => d_get d pos
      | DExt ds =>
          let (digit_pos, bit_pos) := to_digit_and_bit_pos pos in
          let! d := idx ds digit_pos in d_get d bit_pos
      end
  end.

(** The common shape of the three methods below; [f] is the digit operation.
    src/apint/bitwise.rs 116-174. *)
Definition modify_bit_at (f : Z -> Z -> outcome (result Z)) (a : apint) (pos : Z) : mut_result :=
  match verify_bit_access (width a) pos with
  | Err e => Val (a, Err e)
  | Ok _ =>
      let! acc := access_data a in
      match acc with
      | DInl d =>
          let! r := f d pos in
          match r with
          | Err e => Val (a, Err e)
          | Ok d' => Val (write_inl a d', Ok tt)
          end
      | DExt ds =>
          let (digit_pos, bit_pos) := to_digit_and_bit_pos pos in
          let! d := idx ds digit_pos in
          let! r := f d bit_pos in
          match r with
          | Err e => Val (a, Err e)
          | Ok d' => let! ds' := upd ds digit_pos d' in Val (write_ext a ds', Ok tt)
          end
      end
  end.

(** src/apint/bitwise.rs 116-129, 136-149, 161-174. *)
Definition set_bit_at (a : apint) (pos : Z) : mut_result := modify_bit_at d_set a pos.
(** src/apint/bitwise.rs 136-149. *)
Definition unset_bit_at (a : apint) (pos : Z) : mut_result := modify_bit_at d_unset a pos.
(** src/apint/bitwise.rs 161-174. *)
Definition flip_bit_at (a : apint) (pos : Z) : mut_result := modify_bit_at d_flip a pos.

(** src/apint/bitwise.rs 177-180. *)
Definition set_all (a : apint) : outcome apint :=
  let! a := modify_digits d_set_all a in clear_unused_bits a.

(** src/apint/bitwise.rs 183-191. *)
Definition is_all_set (a : apint) : outcome bool :=
  let! (msd, rest) := split_most_significant_digit a in
  let tail := forallb (fun d => d =? ONES) rest in
  match excess_bits (width a) with
  | Some excess => if negb (u64_count_ones msd =? excess) then Val false else Val tail
  | None => Val tail
  end.

(** src/apint/bitwise.rs 194-196. *)
Definition unset_all (a : apint) : outcome apint := modify_digits d_unset_all a.
(** src/apint/bitwise.rs 199-201. *)
Definition is_all_unset (a : apint) : outcome bool := is_zero a.
(** src/apint/bitwise.rs 204-208. *)
Definition flip_all (a : apint) : outcome apint :=
  let! a := modify_digits d_flip_all a in clear_unused_bits a.

(** src/apint/bitwise.rs 211-217, 220-226, 236-242. *)
Definition set_msb (a : apint) : outcome apint := expect_mut (set_bit_at a (msb_pos (width a))).
(** src/apint/bitwise.rs 220-226. *)
Definition unset_msb (a : apint) : outcome apint := expect_mut (unset_bit_at a (msb_pos (width a))).
(** src/apint/bitwise.rs 236-242. *)
Definition flip_msb (a : apint) : outcome apint := expect_mut (flip_bit_at a (msb_pos (width a))).

(** [.sum::<usize>()] over mapped digits.  src/apint/bitwise.rs 252, 262. *)
Definition sum_digits (f : Z -> Z) (ds : list Z) : Z :=
  fold_left (fun acc d => acc + f d) ds 0.

(** [Digit::BITS - self.width().excess_bits().unwrap_or(Digit::BITS)].
    src/apint/bitwise.rs 267, 282, 298. *)
Definition unused_bits (w : Z) : outcome Z :=
  usize_sub 64 (match excess_bits w with Some n => n | None => 64 end).

(** src/apint/bitwise.rs 248-253. *)
Definition count_ones (a : apint) : outcome Z :=
  Val (sum_digits u64_count_ones (as_digit_slice a)).

(** src/apint/bitwise.rs 257-268. *)
Definition count_zeros (a : apint) : outcome Z :=
  let zeros := sum_digits u64_count_zeros (as_digit_slice a) in
  let! u := unused_bits (width a) in usize_sub zeros u.

(** The loop of 273-280 / 288-295: accumulate [f d], stop after the first digit
    where it is not 64.  src/apint/bitwise.rs 273-280, 288-295. *)
Fixpoint count_run (f : Z -> Z) (ds : list Z) (zeros : Z) : Z :=
  match ds with
  | [] => zeros
  | d :: r =>
      let n := f d in
      let zeros := zeros + n in
      if negb (n =? 64) then zeros else count_run f r zeros
  end.

(** src/apint/bitwise.rs 272-283. *)
Definition leading_zeros (a : apint) : outcome Z :=
  let zeros := count_run u64_leading_zeros (rev (as_digit_slice a)) 0 in
  let! u := unused_bits (width a) in usize_sub zeros u.

(** src/apint/bitwise.rs 287-301. *)
Definition trailing_zeros (a : apint) : outcome Z :=
  let zeros := count_run u64_trailing_zeros (as_digit_slice a) 0 in
  if width a <=? zeros
  then let! u := unused_bits (width a) in usize_sub zeros u
  else Val zeros.
