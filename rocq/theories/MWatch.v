(** What a call lets an observer see who watches the memory and the branches.

    Each definition below repeats the one of MUtils.v, MArith.v, MBitwise.v,
    MShift.v, MCasting.v, MRelational.v or MPrim.v of the same name and lists,
    besides, what can be watched from outside, in order: which digit of which
    operand is read or written, which way each branch goes that the code takes on
    widths, positions or values, and how many digits are allocated.  What is done
    with one digit once it is read (adding, shifting, masking, counting its bits,
    comparing two) is taken to look the same whatever its value.  Freeing memory
    and writing the text of an error are not listed.  That the results are those of
    the definitions repeated is part of C102.  No proofs in this file. *)
From Verif Require Export MArith MBitwise MShift MCasting MRelational MPrim MConstructors.

(** The operand [self], the operand [rhs], an integer under construction and, in long divisions, the quotient and the
    multiple of the divisor under construction.  src/apint/casting.rs 39-77, src/apint/arithmetic.rs 1012, 1124, 1283. *)
Inductive place := Self | Other | New | Quo | Sub.
(** src/apint/arithmetic.rs 105-125. *)
Inductive event :=
  | Read (p : place) (i : nat)
  | Write (p : place) (i : nat)
  | Branch (b : bool)
  | Allocate (n : nat).

(** A computation and what is seen of it.  src/apint/arithmetic.rs 29-260. *)
Definition watched (A : Type) : Type := list event * outcome A.
(** Nothing is seen.  src/apint/arithmetic.rs 29-260. *)
Definition wlift {A : Type} (o : outcome A) : watched A := ([], o).
(** src/apint/arithmetic.rs 29-260. *)
Definition wval {A : Type} (a : A) : watched A := ([], Val a).
(** These events.  src/apint/arithmetic.rs 29-260. *)
Definition see (es : list event) : watched unit := (es, Val tt).
(** [if b].  src/apint/arithmetic.rs 29-260. *)
Definition branch (b : bool) : watched bool := ([Branch b], Val b).
(** One thing after the other.  src/apint/arithmetic.rs 29-260. *)
Definition wbind {A C : Type} (m : watched A) (k : A -> watched C) : watched C :=
  match snd m with
  | Val a => let r := k a in (fst m ++ fst r, snd r)
  | Stop b => (fst m, Stop b)
  | OutOfFuel => (fst m, OutOfFuel)
  end.
Notation "'let&' x ':=' m 'in' k" :=
  (wbind m (fun x => k))
  (at level 200, x pattern, m at level 100, k at level 200, right associativity).

(** [ds[i]].  E.g. src/apint/arithmetic.rs 111. *)
Definition w_idx (p : place) (ds : list Z) (i : nat) : watched Z := ([Read p i], idx ds i).
(** [ds[i] = v].  E.g. src/apint/arithmetic.rs 112. *)
Definition w_upd (p : place) (ds : list Z) (i : nat) (v : Z) : watched (list Z) := ([Write p i], upd ds i v).
(** A [for] loop over indices.  E.g. src/apint/arithmetic.rs 113. *)
Fixpoint w_for_range {S : Type} (n lo : nat) (body : nat -> S -> watched S) (s : S) : watched S :=
  match n with
  | O => wval s
  | Datatypes.S n' => let& s' := body lo s in w_for_range n' (Datatypes.S lo) body s'
  end.
(** The digits from [lo] on, [n] of them, are read.  E.g. src/apint/bitwise.rs 249-252. *)
Definition reads (p : place) (lo n : nat) : list event := map (Read p) (seq lo n).
(** The digits from [lo] on, [n] of them, are written.  E.g. src/apint/shift.rs 103-106. *)
Definition writes (p : place) (lo n : nat) : list event := map (Write p) (seq lo n).
(** [n] digits are copied.  E.g. src/apint/casting.rs 48-49. *)
Definition copies (p q : place) (n : nat) : list event := flat_map (fun i => [Read p i; Write q i]) (seq 0 n).

(** * src/apint/utils.rs *)

(** src/apint/utils.rs 117-132. *)
Definition w_access_data (p : place) (a : apint) : watched data_access :=
  match storage (len a) with
  | SInl => let& _ := see [Branch true; Read p 0] in wlift (access_data a)
  | SExt => let& _ := see [Branch false] in wlift (access_data a)
  end.
(** src/apint/utils.rs 141-193. *)
Definition w_zip_access_data (a b : apint) : watched (result zip_data_access) :=
  let& e := branch (width a =? width b) in
  if negb e then wlift (zip_access_data a b)
  else
    match storage (len a) with
    | SInl => let& _ := see [Branch true; Read Self 0; Read Other 0] in wlift (zip_access_data a b)
    | SExt => let& _ := see [Branch false] in wlift (zip_access_data a b)
    end.
(** A loop over all digits that replaces each.  src/apint/utils.rs 240-245. *)
Fixpoint w_map (f : Z -> Z) (i : nat) (ds : list Z) : watched (list Z) :=
  match ds with
  | [] => wval []
  | d :: r =>
      let& _ := see [Read Self i; Write Self i] in
      let& r' := w_map f (S i) r in
      wval (f d :: r')
  end.
(** src/apint/utils.rs 233-247. *)
Definition w_modify_digits (f : Z -> Z) (a : apint) : watched apint :=
  let& acc := w_access_data Self a in
  match acc with
  | DInl d => let& _ := see [Write Self 0] in wval (write_inl a (f d))
  | DExt ds => let& ds' := w_map f 0 ds in wval (write_ext a ds')
  end.
(** src/apint/utils.rs 268-270. *)
Fixpoint w_zip_update (f : Z -> Z -> Z) (i : nat) (lhs rhs : list Z) : watched (list Z) :=
  match lhs, rhs with
  | l :: ls, r :: rs =>
      let& _ := see [Read Self i; Read Other i; Write Self i] in
      let& t := w_zip_update f (S i) ls rs in
      wval (f l r :: t)
  | ls, _ => wval ls
  end.
(** src/apint/utils.rs 256-274. *)
Definition w_modify_zipped_digits (f : Z -> Z -> Z) (a rhs : apint) : watched (apint * result unit) :=
  let& z := w_zip_access_data a rhs in
  match z with
  | Err e => wval (a, Err e)
  | Ok (ZInl l r) => let& _ := see [Write Self 0] in wval (write_inl a (f l r), Ok tt)
  | Ok (ZExt ls rs) => let& ds := w_zip_update f 0 ls rs in wval (write_ext a ds, Ok tt)
  end.
(** src/apint/utils.rs 309-314. *)
Definition w_most_significant_digit (a : apint) : watched Z :=
  let& acc := w_access_data Self a in
  match acc with
  | DInl d => wval d
  | DExt ds => let& _ := see [Read Self (length ds - 1)] in wlift (last_digit ds)
  end.
(** src/apint/utils.rs 319-326, followed by the write. *)
Definition w_modify_most_significant_digit (p : place) (f : Z -> outcome Z) (a : apint) : watched apint :=
  let& acc := w_access_data p a in
  match acc with
  | DInl d => let& d' := wlift (f d) in let& _ := see [Write p 0] in wval (write_inl a d')
  | DExt ds =>
      let& _ := see [Read p (length ds - 1)] in
      let& ds' := wlift (modify_last f ds) in
      let& _ := see [Write p (length ds - 1)] in wval (write_ext a ds')
  end.
(** src/apint/utils.rs 330-335. *)
Definition w_least_significant_digit (a : apint) : watched Z :=
  let& acc := w_access_data Self a in
  match acc with DInl d => wval d | DExt ds => w_idx Self ds 0 end.
(** src/apint/utils.rs 339-347. *)
Definition w_msb (a : apint) : watched bool :=
  let& d := w_most_significant_digit a in
  let& r := wlift (d_get d (to_pos_within_digit (msb_pos (width a)))) in
  wlift (unwrap r).
(** src/apint/utils.rs 351-353. *)
Definition w_lsb (a : apint) : watched bool :=
  let& d := w_least_significant_digit a in wval (d_lsb d).
(** src/apint/utils.rs 366-375. *)
Definition w_clear_unused_bits (p : place) (a : apint) : watched apint :=
  match excess_bits (width a) with
  | Some bits =>
      let& _ := see [Branch true] in
      w_modify_most_significant_digit p (fun d => let! r := d_retain_last_n d bits in unwrap r) a
  | None => let& _ := see [Branch false] in wval a
  end.
(** [all] stops at the first that is not zero.  src/apint/utils.rs 389. *)
Fixpoint w_all_zero (i : nat) (ds : list Z) : watched bool :=
  match ds with
  | [] => wval true
  | d :: r =>
      let& _ := see [Read Self i] in
      let& z := branch (d_is_zero d) in
      if z : bool then w_all_zero (S i) r else wval false
  end.
(** src/apint/utils.rs 385-392. *)
Definition w_is_zero (a : apint) : watched bool :=
  let& acc := w_access_data Self a in
  match acc with
  | DInl d => wval (d_is_zero d)
  | DExt ds => w_all_zero 0 ds
  end.
(** src/apint/utils.rs 417-419. *)
Definition w_is_even (a : apint) : watched bool := let& b := w_lsb a in wval (negb b).
(** src/apint/utils.rs 424-426. *)
Definition w_is_odd (a : apint) : watched bool := w_lsb a.
(** src/apint/utils.rs 29-34. *)
Definition w_hash_feed (a : apint) : watched (list hash_item) :=
  let& _ := see (reads Self 0 (length (as_digit_slice a))) in wval (hash_feed a).

(** * src/apint/arithmetic.rs *)

(** The loop stops where nothing is carried.  src/apint/arithmetic.rs 35-47. *)
Fixpoint w_inc_loop (i : nat) (xs : list Z) : watched (list Z) :=
  match xs with
  | [] => wval []
  | x :: r =>
      let& _ := see [Read Self i] in
      let '(v, carried) := d_overflowing_add x ONE in
      let& c := branch carried in
      let& _ := see [Write Self i] in
      if c : bool then let& r' := w_inc_loop (S i) r in wval (v :: r') else wval (v :: r)
  end.
(** src/apint/arithmetic.rs 29-51. *)
Definition w_wrapping_inc (a : apint) : watched apint :=
  let& acc := w_access_data Self a in
  let& a1 :=
    match acc with
    | DInl x => let& _ := see [Write Self 0] in wval (write_inl a (d_wrapping_add x ONE))
    | DExt xs => let& ds := w_inc_loop 0 xs in wval (write_ext a ds)
    end in
  w_clear_unused_bits Self a1.
(** src/apint/arithmetic.rs 65-77. *)
Fixpoint w_dec_loop (i : nat) (xs : list Z) : watched (list Z) :=
  match xs with
  | [] => wval []
  | x :: r =>
      let& _ := see [Read Self i] in
      let '(v, carried) := d_overflowing_sub x ONE in
      let& c := branch carried in
      let& _ := see [Write Self i] in
      if c : bool then let& r' := w_dec_loop (S i) r in wval (v :: r') else wval (v :: r)
  end.
(** src/apint/arithmetic.rs 59-81. *)
Definition w_wrapping_dec (a : apint) : watched apint :=
  let& acc := w_access_data Self a in
  let& a1 :=
    match acc with
    | DInl x => let& _ := see [Write Self 0] in wval (write_inl a (d_wrapping_sub x ONE))
    | DExt xs => let& ds := w_dec_loop 0 xs in wval (write_ext a ds)
    end in
  w_clear_unused_bits Self a1.
(** src/apint/bitwise.rs 20-23. *)
Definition w_bitnot (a : apint) : watched apint :=
  let& a := w_modify_digits d_not a in w_clear_unused_bits Self a.
(** src/apint/arithmetic.rs 89-93. *)
Definition w_wrapping_neg (a : apint) : watched apint :=
  let& a := w_bitnot a in w_wrapping_inc a.
(** src/apint/arithmetic.rs 113-120. *)
Definition w_add_step (rhs : list Z) (i : nat) (st : list Z * Z) : watched (list Z * Z) :=
  let '(lhs, carry) := st in
  let& l := w_idx Self lhs i in
  let& r := w_idx Other rhs i in
  let temp := dd_wadd (dd_wadd (dd l) (dd r)) (dd carry) in
  let& lhs := w_upd Self lhs i (dd_lo temp) in
  wval (lhs, dd_hi temp).
(** src/apint/arithmetic.rs 110-121. *)
Definition w_add_digits (lhs rhs : list Z) : watched (list Z * Z) :=
  let& l := w_idx Self lhs 0 in
  let& r := w_idx Other rhs 0 in
  let '(temp, carry) := d_carrying_add l r in
  let& lhs := w_upd Self lhs 0 temp in
  w_for_range (length lhs - 1) 1 (w_add_step rhs) (lhs, carry).
(** src/apint/arithmetic.rs 105-125. *)
Definition w_wrapping_add_assign (a rhs : apint) : watched (apint * result unit) :=
  let& z := w_zip_access_data a rhs in
  match z with
  | Err e => wval (a, Err e)
  | Ok z =>
      let& a1 :=
        match z with
        | ZInl l r => let& _ := see [Write Self 0] in wval (write_inl a (d_wrapping_add l r))
        | ZExt ls rs => let& (ds, _) := w_add_digits ls rs in wval (write_ext a ds)
        end in
      let& a2 := w_clear_unused_bits Self a1 in
      wval (a2, Ok tt)
  end.
(** src/apint/arithmetic.rs 242-249. *)
Definition w_sub_step (rhs : list Z) (i : nat) (st : list Z * Z) : watched (list Z * Z) :=
  let '(lhs, carry) := st in
  let& l := w_idx Self lhs i in
  let& r := w_idx Other rhs i in
  let temp := dd_wadd (dd_wadd (dd l) (dd (d_not r))) (dd carry) in
  let& lhs := w_upd Self lhs i (dd_lo temp) in
  wval (lhs, dd_hi temp).
(** src/apint/arithmetic.rs 235-250. *)
Definition w_sub_digits (lhs rhs : list Z) : watched (list Z * Z) :=
  let& l := w_idx Self lhs 0 in
  let& r := w_idx Other rhs 0 in
  let t := dd_wadd (dd_wadd (dd l) (dd (d_not r))) (dd ONE) in
  let& lhs := w_upd Self lhs 0 (dd_lo t) in
  w_for_range (length lhs - 1) 1 (w_sub_step rhs) (lhs, dd_hi t).
(** src/apint/arithmetic.rs 230-254. *)
Definition w_wrapping_sub_assign (a rhs : apint) : watched (apint * result unit) :=
  let& z := w_zip_access_data a rhs in
  match z with
  | Err e => wval (a, Err e)
  | Ok z =>
      let& a1 :=
        match z with
        | ZInl l r => let& _ := see [Write Self 0] in wval (write_inl a (d_wrapping_sub l r))
        | ZExt ls rs => let& (ds, _) := w_sub_digits ls rs in wval (write_ext a ds)
        end in
      let& a2 := w_clear_unused_bits Self a1 in
      wval (a2, Ok tt)
  end.

(** * src/apint/bitwise.rs *)

(** src/apint/bitwise.rs 42-44. *)
Definition w_bitand_assign (a rhs : apint) : watched (apint * result unit) := w_modify_zipped_digits d_and a rhs.
(** src/apint/bitwise.rs 63-65. *)
Definition w_bitor_assign (a rhs : apint) : watched (apint * result unit) := w_modify_zipped_digits d_or a rhs.
(** src/apint/bitwise.rs 84-86. *)
Definition w_bitxor_assign (a rhs : apint) : watched (apint * result unit) := w_modify_zipped_digits d_xor a rhs.
(** src/apint/bitwise.rs 96-109. *)
Definition w_get_bit_at (a : apint) (pos : Z) : watched (result bool) :=
  match verify_bit_access (width a) pos with
  | Err e => let& _ := see [Branch false] in wval (Err e)
  | Ok _ =>
      let& _ := see [Branch true] in
      let& acc := w_access_data Self a in
      match acc with
      | DInl d => wlift (d_get d pos)
      | DExt ds =>
          let (digit_pos, bit_pos) := to_digit_and_bit_pos pos in
          let& d := w_idx Self ds digit_pos in wlift (d_get d bit_pos)
      end
  end.
(** src/apint/bitwise.rs 116-174. *)
Definition w_modify_bit_at (f : Z -> Z -> outcome (result Z)) (a : apint) (pos : Z) : watched (apint * result unit) :=
  match verify_bit_access (width a) pos with
  | Err e => let& _ := see [Branch false] in wval (a, Err e)
  | Ok _ =>
      let& _ := see [Branch true] in
      let& acc := w_access_data Self a in
      match acc with
      | DInl d =>
          let& r := wlift (f d pos) in
          match r with
          | Err e => wval (a, Err e)
          | Ok d' => let& _ := see [Write Self 0] in wval (write_inl a d', Ok tt)
          end
      | DExt ds =>
          let (digit_pos, bit_pos) := to_digit_and_bit_pos pos in
          let& d := w_idx Self ds digit_pos in
          let& r := wlift (f d bit_pos) in
          match r with
          | Err e => wval (a, Err e)
          | Ok d' => let& ds' := w_upd Self ds digit_pos d' in wval (write_ext a ds', Ok tt)
          end
      end
  end.
(** src/apint/bitwise.rs 116-129. *)
Definition w_set_bit_at (a : apint) (pos : Z) : watched (apint * result unit) := w_modify_bit_at d_set a pos.
(** src/apint/bitwise.rs 136-149. *)
Definition w_unset_bit_at (a : apint) (pos : Z) : watched (apint * result unit) := w_modify_bit_at d_unset a pos.
(** src/apint/bitwise.rs 161-174. *)
Definition w_flip_bit_at (a : apint) (pos : Z) : watched (apint * result unit) := w_modify_bit_at d_flip a pos.
(** src/apint/bitwise.rs 177-180. *)
Definition w_set_all (a : apint) : watched apint :=
  let& a := w_modify_digits d_set_all a in w_clear_unused_bits Self a.
(** src/apint/bitwise.rs 194-196. *)
Definition w_unset_all (a : apint) : watched apint := w_modify_digits d_unset_all a.
(** src/apint/bitwise.rs 204-208. *)
Definition w_flip_all (a : apint) : watched apint :=
  let& a := w_modify_digits d_flip_all a in w_clear_unused_bits Self a.
(** src/apint/bitwise.rs 248-253. *)
Definition w_count_ones (a : apint) : watched Z :=
  let& _ := see (reads Self 0 (length (as_digit_slice a))) in wlift (count_ones a).
(** src/apint/bitwise.rs 257-268. *)
Definition w_count_zeros (a : apint) : watched Z :=
  let& _ := see (reads Self 0 (length (as_digit_slice a))) in wlift (count_zeros a).
(** [up] tells whether the indices go up.  src/apint/bitwise.rs 273-280, 288-295. *)
Fixpoint w_count_run (up : bool) (f : Z -> Z) (i : nat) (ds : list Z) (zeros : Z) : watched Z :=
  match ds with
  | [] => wval zeros
  | d :: r =>
      let& _ := see [Read Self i] in
      let n := f d in
      let zeros := zeros + n in
      let& stop := branch (negb (n =? 64)) in
      if stop : bool then wval zeros else w_count_run up f (if up then S i else pred i) r zeros
  end.
(** src/apint/bitwise.rs 272-283. *)
Definition w_leading_zeros (a : apint) : watched Z :=
  let& zeros := w_count_run false u64_leading_zeros (length (as_digit_slice a) - 1) (rev (as_digit_slice a)) 0 in
  let& u := wlift (unused_bits (width a)) in wlift (usize_sub zeros u).
(** src/apint/bitwise.rs 287-301. *)
Definition w_trailing_zeros (a : apint) : watched Z :=
  let& zeros := w_count_run true u64_trailing_zeros 0 (as_digit_slice a) 0 in
  let& all := branch (width a <=? zeros) in
  if all : bool
  then let& u := wlift (unused_bits (width a)) in wlift (usize_sub zeros u)
  else wval zeros.

(** * src/apint/shift.rs *)

(** src/apint/shift.rs 88-106. *)
Definition w_shl_digits (steps : nat) (ds : list Z) : watched (list Z) :=
  let& none := branch (Nat.eqb steps 0) in
  if none : bool then wlift (shl_digits steps ds)
  else
    let& r := wlift (shl_digits steps ds) in
    let& _ := see (flat_map (fun i => [Read Self i; Write Self (i + steps)]) (seq 0 (length ds - steps))) in
    let& _ := see (writes Self 0 steps) in
    wval r.
(** src/apint/shift.rs 109-115. *)
Fixpoint w_shl_loop (bits : Z) (i : nat) (carry : Z) (ds : list Z) : watched (list Z) :=
  match ds with
  | [] => wval []
  | repr :: r =>
      let& _ := see [Read Self i; Write Self i] in
      let& n := wlift (usize_sub 64 bits) in
      let& new_carry := wlift (u64_shr repr n) in
      let& lo := wlift (u64_shl repr bits) in
      let& r' := w_shl_loop bits (S i) new_carry r in
      wval (Z.lor lo carry :: r')
  end.
(** src/apint/shift.rs 108-118. *)
Definition w_modify_from (steps : nat) (f : list Z -> watched (list Z)) (ds : list Z) : watched (list Z) :=
  if Nat.leb steps (length ds)
  then let& t := f (skipn steps ds) in wval (firstn steps ds ++ t)
  else wlift Panic.
(** src/apint/shift.rs 76-121. *)
Definition w_wrapping_shl_assign (a : apint) (s : Z) : watched (apint * result unit) :=
  match verify_shift_amount (width a) s with
  | Err e => let& _ := see [Branch false] in wval (a, Err e)
  | Ok _ =>
      let& _ := see [Branch true] in
      let& acc := w_access_data Self a in
      let& a1 :=
        match acc with
        | DInl d => let& d' := wlift (u64_shl d s) in let& _ := see [Write Self 0] in wval (write_inl a d')
        | DExt ds =>
            let steps := digit_steps s in
            let& ds1 := w_shl_digits steps ds in
            let bits := bit_steps s in
            let& some := branch (negb (bits =? 0)) in
            let& ds2 := if some : bool then w_modify_from steps (w_shl_loop bits steps 0) ds1 else wval ds1 in
            wval (write_ext a ds2)
        end in
      let& a2 := w_clear_unused_bits Self a1 in
      wval (a2, Ok tt)
  end.
(** [rotate_left] touches every digit, in an order that depends on the length and the distance only.
    src/apint/shift.rs 159-166. *)
Definition w_lshr_digits (steps : nat) (ds : list Z) : watched (list Z) :=
  let& none := branch (Nat.eqb steps 0) in
  if none : bool then wlift (lshr_digits steps ds)
  else
    let& r := wlift (lshr_digits steps ds) in
    let& _ := see (reads Self 0 (length ds) ++ writes Self 0 (length ds)) in
    let& _ := see (rev (writes Self (length ds - steps) steps)) in
    wval r.
(** The index goes down.  src/apint/shift.rs 169-175. *)
Fixpoint w_lshr_loop (bits : Z) (i : nat) (borrow : Z) (rds : list Z) : watched (list Z) :=
  match rds with
  | [] => wval []
  | repr :: r =>
      let& _ := see [Read Self i; Write Self i] in
      let& n := wlift (usize_sub 64 bits) in
      let& new_borrow := wlift (u64_shl repr n) in
      let& hi := wlift (u64_shr repr bits) in
      let& r' := w_lshr_loop bits (pred i) new_borrow r in
      wval (Z.lor hi borrow :: r')
  end.
(** src/apint/shift.rs 147-180. *)
Definition w_wrapping_lshr_assign (a : apint) (s : Z) : watched (apint * result unit) :=
  match verify_shift_amount (width a) s with
  | Err e => let& _ := see [Branch false] in wval (a, Err e)
  | Ok _ =>
      let& _ := see [Branch true] in
      let& acc := w_access_data Self a in
      match acc with
      | DInl d => let& d' := wlift (u64_shr d s) in let& _ := see [Write Self 0] in wval (write_inl a d', Ok tt)
      | DExt ds =>
          let steps := digit_steps s in
          let& ds1 := w_lshr_digits steps ds in
          let bits := bit_steps s in
          let& some := branch (0 <? bits) in
          let& ds2 := if some : bool
                      then let& r := w_lshr_loop bits (length ds1 - 1) 0 (rev ds1) in wval (rev r)
                      else wval ds1 in
          wval (write_ext a ds2, Ok tt)
      end
  end.
(** src/apint/shift.rs 246-250. *)
Definition w_ashr_subdigit (bits uns : Z) (x : list Z) : watched (list Z) :=
  let& last := wlift (nsub (length x) 1) in
  let& x := w_for_range last 0 (fun i x =>
      let& xi := w_idx Self x i in
      let& xi1 := w_idx Self x (i + 1) in
      w_upd Self x i (d_or (d_shr xi bits) (d_shl xi1 uns))) x in
  let& xl := w_idx Self x last in
  w_upd Self x last (d_or (d_shr xl bits) (d_shl ONES uns)).
(** src/apint/shift.rs 256-258 and 266-268. *)
Definition w_ashr_fill (digits diff : nat) (x : list Z) : watched (list Z) :=
  w_for_range digits 0 (fun i x =>
      let& v := w_idx Self x (i + diff) in
      w_upd Self x (i + diff) (d_set_all v)) x.
(** src/apint/shift.rs 253-258. *)
Definition w_ashr_digit (digits diff : nat) (x : list Z) : watched (list Z) :=
  let& x := w_for_range (length x - digits) digits (fun i x =>
      let& v := w_idx Self x i in
      let& j := wlift (nsub i digits) in
      w_upd Self x j v) x in
  w_ashr_fill digits diff x.
(** src/apint/shift.rs 261-268. *)
Definition w_ashr_both (digits diff : nat) (bits uns : Z) (x : list Z) : watched (list Z) :=
  let& last := wlift (nsub (length x) 1) in
  let& x := w_for_range (last - digits) digits (fun i x =>
      let& xi := w_idx Self x i in
      let& xi1 := w_idx Self x (i + 1) in
      let& j := wlift (nsub i digits) in
      w_upd Self x j (d_or (d_shr xi bits) (d_shl xi1 uns))) x in
  let& j := wlift (nsub diff 1) in
  let& xl := w_idx Self x last in
  let& x := w_upd Self x j (d_or (d_shr xl bits) (d_shl ONES uns)) in
  w_ashr_fill digits diff x.
(** src/apint/shift.rs 216-274. *)
Definition w_wrapping_ashr_assign (a : apint) (s : Z) : watched (apint * result unit) :=
  let& m := w_msb a in
  let& m := branch m in
  if negb m then w_wrapping_lshr_assign a s
  else
    match verify_shift_amount (width a) s with
    | Err e => let& _ := see [Branch false] in wval (a, Err e)
    | Ok _ =>
        let& _ := see [Branch true] in
        let& none := branch (s =? 0) in
        if none : bool then wval (a, Ok tt)
        else
          let width := width a in
          let width_bits := width mod 64 in
          let digits := Z.to_nat (s / 64) in
          let bits := s mod 64 in
          let& uns := wlift (usize_sub 64 bits) in
          let& acc := w_access_data Self a in
          let& a1 :=
            match acc with
            | DInl x =>
                let& k := wlift (usize_sub width bits) in
                let& _ := see [Write Self 0] in
                wval (write_inl a (d_or (d_shr x bits) (d_shl ONES k)))
            | DExt x =>
                let& some := branch (negb (width_bits =? 0)) in
                let& x :=
                  if some : bool then
                    let& last := wlift (nsub (length x) 1) in
                    let& v := w_idx Self x last in
                    let& r := wlift (d_sign_extend_from v width_bits) in
                    let& v' := wlift (unwrap r) in
                    w_upd Self x last v'
                  else wval x in
                let& diff := wlift (nsub (length x) digits) in
                let& sub := branch (Nat.eqb digits 0) in
                let& x :=
                  if sub : bool then w_ashr_subdigit bits uns x
                  else
                    let& whole := branch (bits =? 0) in
                    if whole : bool then w_ashr_digit digits diff x
                    else w_ashr_both digits diff bits uns x in
                wval (write_ext a x)
            end in
          let& a2 := w_clear_unused_bits Self a1 in
          wval (a2, Ok tt)
    end.

(** * src/apint/relational.rs *)

(** Comparing two slices stops at the first difference.  src/apint/relational.rs 17. *)
Fixpoint w_digits_eqb (i : nat) (xs ys : list Z) : watched bool :=
  match xs, ys with
  | [], [] => wval true
  | x :: xs, y :: ys =>
      let& _ := see [Read Self i; Read Other i] in
      let& e := branch (x =? y) in
      if e : bool then w_digits_eqb (S i) xs ys else wval false
  | _, _ => wval false
  end.
(** src/apint/relational.rs 12-19. *)
Definition w_apint_eqb (a b : apint) : watched bool :=
  let& differ := branch (negb (len_bits a =? len_bits b)) in
  if differ : bool then wval false
  else w_digits_eqb 0 (as_digit_slice a) (as_digit_slice b).
(** The index goes down; a three-way match is two branches.  src/apint/relational.rs 46-53. *)
Fixpoint w_ult_loop (i : nat) (ls rs : list Z) : watched bool :=
  match ls, rs with
  | l :: ls, r :: rs =>
      let& _ := see [Read Self i; Read Other i] in
      match l ?= r with
      | Lt => let& _ := see [Branch true] in wval true
      | Gt => let& _ := see [Branch false; Branch true] in wval false
      | Eq => let& _ := see [Branch false; Branch false] in w_ult_loop (pred i) ls rs
      end
  | _, _ => wval false
  end.
(** src/apint/relational.rs 36-56. *)
Definition w_checked_ult (a rhs : apint) : watched (result bool) :=
  let& z := w_zip_access_data a rhs in
  match z with
  | Err e => wval (Err e)
  | Ok (ZInl l r) => wval (Ok (l <? r))
  | Ok (ZExt ls rs) => let& b := w_ult_loop (length ls - 1) (rev ls) (rev rs) in wval (Ok b)
  end.

(** * src/apint/casting.rs *)

(** The integer that is read is [p].  src/apint/casting.rs 13-29. *)
Definition w_clone (p : place) (a : apint) : watched apint :=
  match storage (len a) with
  | SInl => let& _ := see [Branch true; Read p 0; Write New 0] in wlift (clone a)
  | SExt =>
      let n := length (as_digit_slice a) in
      let& _ := see (Branch false :: Allocate n :: copies p New n) in wlift (clone a)
  end.
(** src/apint/casting.rs 39-77. *)
Definition w_assign (a rhs : apint) : watched apint :=
  let& e := branch (Nat.eqb (len_digits a) (len_digits rhs)) in
  if e : bool then
    let& ds := wlift (copy_from_slice (as_digit_slice a) (as_digit_slice rhs)) in
    let& _ := see (copies Other Self (length (as_digit_slice rhs))) in
    wval (mk_apint (len rhs) ds)
  else
    match storage (len rhs) with
    | SInl =>
        let& d := wlift (read_inl rhs) in
        let& _ := see [Branch true; Read Other 0; Write Self 0] in wval (mk_apint (len rhs) [d])
    | SExt =>
        let& _ := see [Branch false] in
        let& cloned := w_clone Other rhs in wval (mk_apint (len rhs) (digits cloned))
    end.
(** src/apint/casting.rs 90-102. *)
Definition w_strict_assign (a rhs : apint) : watched (apint * result unit) :=
  let& differ := branch (negb (width a =? width rhs)) in
  if differ : bool then wval (a, Err (UnmatchingBitwidth (width a) (width rhs)))
  else
    let& ds := wlift (copy_from_slice (as_digit_slice a) (as_digit_slice rhs)) in
    let& _ := see (copies Other Self (length (as_digit_slice rhs))) in
    wval (mk_apint (len a) ds, Ok tt).
(** The first [n] digits come from [p], the others are made up.  src/apint/constructors.rs 170-200. *)
Definition w_from_iter (p : place) (n : nat) (ds : list Z) : watched (result apint) :=
  let& _ := see (Branch (Nat.eqb (length ds) 1) :: (if Nat.leb (length ds) 1 then [] else [Allocate (length ds)])
                 ++ copies p New n ++ writes New n (length ds - n)) in
  wlift (from_iter ds).
(** The integer truncated is [p].  src/apint/casting.rs 137-206. *)
Fixpoint w_truncate_fuel (fuel : nat) (p : place) (a : apint) (target_width : Z) : watched (apint * result unit) :=
  match fuel with
  | O => wlift OutOfFuel
  | S fuel' =>
      let actual_width := width a in
      let& same := branch (target_width =? actual_width) in
      if same : bool then wval (a, Ok tt)
      else
        let& more := branch (width a <? target_width) in
        if more : bool then wval (a, Err (TruncationBitWidthTooLarge target_width actual_width))
        else
          let actual_req_digits := required_digits actual_width in
          let target_req_digits := required_digits target_width in
          let& same := branch (Nat.eqb actual_req_digits target_req_digits) in
          if same : bool then
            let& excess_width := wlift (unwrap_opt (excess_bits target_width)) in
            let& a' := w_modify_most_significant_digit p
                         (fun d => let! r := d_truncate_to d excess_width in unwrap r) a in
            wval (mk_apint target_width (digits a'), Ok tt)
          else
            let req_digits := firstn target_req_digits (as_digit_slice a) in
            let& r := w_from_iter p (length req_digits) req_digits in
            let& truncated_copy := wlift (unwrap r) in
            let& more := branch (negb (width truncated_copy =? target_width)) in
            if more : bool then
              let& (truncated_copy', r) := w_truncate_fuel fuel' New truncated_copy target_width in
              match r with
              | Err e => wval (a, Err e)
              | Ok _ => wval (truncated_copy', Ok tt)
              end
            else wval (truncated_copy, Ok tt)
  end.
(** src/apint/casting.rs 137-206. *)
Definition w_truncate (p : place) (a : apint) (target_width : Z) : watched (apint * result unit) :=
  w_truncate_fuel 2 p a target_width.
(** src/apint/casting.rs 283-287, 389-393. *)
Definition w_from_iter_truncated (n : nat) (ds : list Z) (target_width : Z) : watched (result apint) :=
  let& r := w_from_iter Self n ds in
  match r with
  | Err e => wval (Err e)
  | Ok apint =>
      let& (this, r) := w_truncate New apint target_width in
      match r with Ok _ => wval (Ok this) | Err e => wval (Err e) end
  end.
(** src/apint/casting.rs 240-291. *)
Definition w_zero_extend (a : apint) (target_width : Z) : watched (apint * result unit) :=
  let actual_width := width a in
  let& same := branch (target_width =? actual_width) in
  if same : bool then wval (a, Ok tt)
  else
    let& less := branch (target_width <? actual_width) in
    if less : bool then wval (a, Err (ExtensionBitWidthTooSmall target_width actual_width))
    else
      let actual_req_digits := required_digits actual_width in
      let target_req_digits := required_digits target_width in
      let& same := branch (Nat.eqb actual_req_digits target_req_digits) in
      if same : bool then wval (mk_apint target_width (digits a), Ok tt)
      else if negb (Nat.ltb actual_req_digits target_req_digits) then wlift Panic
      else
        let additional_digits := (target_req_digits - actual_req_digits)%nat in
        let& r := w_from_iter_truncated (length (as_digit_slice a))
                    (as_digit_slice a ++ repeat ZERO additional_digits) target_width in
        match r with
        | Err e => wval (a, Err e)
        | Ok extended_clone => wval (extended_clone, Ok tt)
        end.
(** src/apint/casting.rs 368-371, 384-387. *)
Definition w_fill_most_significant_digit (a : apint) (actual_width : Z) : watched (apint * result unit) :=
  match excess_width actual_width with
  | Some ew =>
      let& _ := see [Branch true] in
      let& d := w_most_significant_digit a in
      let& r := wlift (d_sign_extend_from d ew) in
      match r with
      | Err e => wval (a, Err e)
      | Ok d' => let& a' := w_modify_most_significant_digit Self (fun _ => Val d') a in wval (a', Ok tt)
      end
  | None => let& _ := see [Branch false] in wval (a, Ok tt)
  end.
(** src/apint/casting.rs 325-400. *)
Definition w_sign_extend (a : apint) (target_width : Z) : watched (apint * result unit) :=
  let actual_width := width a in
  let& same := branch (target_width =? actual_width) in
  if same : bool then wval (a, Ok tt)
  else
    let& less := branch (target_width <? actual_width) in
    if less : bool then wval (a, Err (ExtensionBitWidthTooSmall target_width actual_width))
    else
      let& m := w_msb a in
      let& m := branch m in
      if negb m then w_zero_extend a target_width
      else
        let actual_req_digits := required_digits actual_width in
        let target_req_digits := required_digits target_width in
        let& same := branch (Nat.eqb actual_req_digits target_req_digits) in
        if same : bool then
          let a1 := mk_apint target_width (digits a) in
          let& (a2, r) := w_fill_most_significant_digit a1 actual_width in
          match r with
          | Err e => wval (a2, Err e)
          | Ok _ => let& a3 := w_clear_unused_bits Self a2 in wval (a3, Ok tt)
          end
        else if negb (Nat.ltb actual_req_digits target_req_digits) then wlift Panic
        else
          let additional_digits := (target_req_digits - actual_req_digits)%nat in
          let& (a1, r) := w_fill_most_significant_digit a actual_width in
          match r with
          | Err e => wval (a1, Err e)
          | Ok _ =>
              let& r := w_from_iter_truncated (length (as_digit_slice a1))
                          (as_digit_slice a1 ++ repeat ONES additional_digits) target_width in
              match r with
              | Err e => wval (a1, Err e)
              | Ok extended_copy =>
                  let& _ := w_clear_unused_bits Self a1 in
                  wval (extended_copy, Ok tt)
              end
          end.
(** src/apint/casting.rs 451-459, 480-488. *)
Definition w_expect_mut (m : watched (apint * result unit)) : watched apint :=
  let& (a, r) := m in let& _ := wlift (unwrap r) in wval a.
(** src/apint/casting.rs 443-461. *)
Definition w_zero_resize (a : apint) (target_width : Z) : watched apint :=
  let& less := branch (target_width <=? width a) in
  if less : bool
  then w_expect_mut (w_truncate Self a target_width)
  else w_expect_mut (w_zero_extend a target_width).
(** src/apint/casting.rs 472-490. *)
Definition w_sign_resize (a : apint) (target_width : Z) : watched apint :=
  let& less := branch (target_width <=? width a) in
  if less : bool
  then w_expect_mut (w_truncate Self a target_width)
  else w_expect_mut (w_sign_extend a target_width).

(** * src/apint/to_primitive.rs *)

(** What depends on the target type alone is not listed.  src/apint/to_primitive.rs 117-137. *)
Definition w_resize_to_primitive_ty (a : apint) (ty : prim_ty) : watched Z :=
  if is_128 ty then wlift Trap else
  let& lsd := w_least_significant_digit a in
  let actual_width := width a in
  let target_width := associated_width ty in
  let& extend := branch (is_signed ty && (actual_width <? target_width)) in
  let& lsd :=
    if extend : bool
    then let& r := wlift (d_sign_extend_from lsd actual_width) in wlift (unwrap r)
    else wval lsd in
  if target_width <? 64
  then let& r := wlift (d_truncate_to lsd target_width) in wlift (unwrap r)
  else wval lsd.
(** src/apint/to_primitive.rs 148-150. *)
Definition w_resize_to_bool (a : apint) : watched bool := w_lsb a.
(** The two lowest digits are read, or the only one; then the width is compared with 128.
    src/apint/to_primitive.rs 253-274. *)
Definition w_resize_to_i128 (a : apint) : watched Z :=
  let& _ := see (Branch (match storage (len a) with SInl => true | SExt => false end)
                 :: reads Self 0 (Nat.min 2 (length (as_digit_slice a))) ++ [Branch (width a <? 128)]) in
  wlift (resize_to_i128 a).
(** src/apint/to_primitive.rs 282-288. *)
Definition w_resize_to_u128 (a : apint) : watched Z :=
  let& _ := see (Branch (match storage (len a) with SInl => true | SExt => false end)
                 :: reads Self 0 (Nat.min 2 (length (as_digit_slice a)))) in
  wlift (resize_to_u128 a).

(** * Programs *)

(** Calls on one integer that changes.  src/apint/bitwise.rs, shift.rs, casting.rs. *)
Inductive still_mut :=
  | SNot | SSetAll | SUnsetAll | SFlipAll
  | SSetBit (p : Z) | SUnsetBit (p : Z) | SFlipBit (p : Z)
  | SShl (s : Z) | SLshr (s : Z)
  | STruncate (t : Z) | SZeroExtend (t : Z) | SZeroResize (t : Z).
(** Calls on an integer that changes and another one.  src/apint/arithmetic.rs 105-125, 230-254, bitwise.rs, casting.rs 90-102. *)
Inductive still_bin := SAdd | SSub | SAnd | SOr | SXor | SStrictAssign.
(** Questions about an integer.  src/apint/bitwise.rs, utils.rs, to_primitive.rs. *)
Inductive still_ask := SGetBit (p : Z) | SMsb | SIsEven | SIsOdd | SCountOnes | SCountZeros | SResizeTo (ty : prim_ty) | SHash.
(** A call; integers are named by their number.  src/apint/casting.rs 13-77. *)
Inductive still_call :=
  | SMut (m : still_mut) (i : nat)
  | SBin (b : still_bin) (i j : nat)
  | SAsk (q : still_ask) (i : nat)
  | SClone (i : nat)
  | SAssign (i j : nat).

(** The new value; an error leaves the old one.  src/apint/bitwise.rs, shift.rs, casting.rs. *)
Definition w_mut (m : still_mut) (a : apint) : watched apint :=
  let after (r : watched (apint * result unit)) := let& (a, _) := r in wval a in
  match m with
  | SNot => w_bitnot a
  | SSetAll => w_set_all a
  | SUnsetAll => w_unset_all a
  | SFlipAll => w_flip_all a
  | SSetBit p => after (w_set_bit_at a p)
  | SUnsetBit p => after (w_unset_bit_at a p)
  | SFlipBit p => after (w_flip_bit_at a p)
  | SShl s => after (w_wrapping_shl_assign a s)
  | SLshr s => after (w_wrapping_lshr_assign a s)
  | STruncate t => after (w_truncate Self a t)
  | SZeroExtend t => after (w_zero_extend a t)
  | SZeroResize t => w_zero_resize a t
  end.
(** src/apint/arithmetic.rs 105-125, 230-254, bitwise.rs, casting.rs 90-102. *)
Definition w_bin (m : still_bin) (a b : apint) : watched apint :=
  let& (a, _) :=
    match m with
    | SAdd => w_wrapping_add_assign a b
    | SSub => w_wrapping_sub_assign a b
    | SAnd => w_bitand_assign a b
    | SOr => w_bitor_assign a b
    | SXor => w_bitxor_assign a b
    | SStrictAssign => w_strict_assign a b
    end in
  wval a.
(** Only what is seen of it matters here.  src/apint/bitwise.rs, utils.rs, to_primitive.rs. *)
Definition w_ask (q : still_ask) (a : apint) : watched unit :=
  match q with
  | SGetBit p => let& _ := w_get_bit_at a p in wval tt
  | SMsb => let& _ := w_msb a in wval tt
  | SIsEven => let& _ := w_is_even a in wval tt
  | SIsOdd => let& _ := w_is_odd a in wval tt
  | SCountOnes => let& _ := w_count_ones a in wval tt
  | SCountZeros => let& _ := w_count_zeros a in wval tt
  | SResizeTo PBool => let& _ := w_resize_to_bool a in wval tt
  | SResizeTo PI128 => let& _ := w_resize_to_i128 a in wval tt
  | SResizeTo PU128 => let& _ := w_resize_to_u128 a in wval tt
  | SResizeTo ty => let& _ := w_resize_to_primitive_ty a ty in wval tt
  | SHash => let& _ := w_hash_feed a in wval tt
  end.
(** The integer with this number.  A program that names none stops.  src/apint/mod.rs. *)
Definition var (vs : list apint) (i : nat) : watched apint := wlift (unwrap_opt (nth_error vs i)).
(** src/apint/mod.rs. *)
Definition set_var (vs : list apint) (i : nat) (a : apint) : list apint := firstn i vs ++ a :: skipn (S i) vs.
(** src/apint/mod.rs. *)
Definition w_call (vs : list apint) (c : still_call) : watched (list apint) :=
  match c with
  | SMut m i => let& a := var vs i in let& a' := w_mut m a in wval (set_var vs i a')
  | SBin m i j => let& a := var vs i in let& b := var vs j in let& a' := w_bin m a b in wval (set_var vs i a')
  | SAsk q i => let& a := var vs i in let& _ := w_ask q a in wval vs
  | SClone i => let& a := var vs i in let& a' := w_clone Self a in wval (vs ++ [a'])
  | SAssign i j => let& a := var vs i in let& b := var vs j in let& a' := w_assign a b in wval (set_var vs i a')
  end.
(** src/apint/mod.rs. *)
Fixpoint w_run (vs : list apint) (p : list still_call) : watched (list apint) :=
  match p with
  | [] => wval vs
  | c :: p => let& vs := w_call vs c in w_run vs p
  end.
