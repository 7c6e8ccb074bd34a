(** Model of src/bitwidth.rs, src/storage.rs, src/bitpos.rs, src/utils.rs and
    src/apint/utils.rs.  No proofs in this file. *)
From Verif Require Export MDigit.

(** * src/bitwidth.rs.  A [BitWidth] is a positive [Z]. *)

(** src/bitwidth.rs 72-77. *)
Definition bitwidth_new (width : Z) : result Z :=
  if width =? 0 then Err (InvalidBitWidth 0) else Ok width.
(** src/bitwidth.rs 105-109. *)
Definition bitwidth_from_usize (width : Z) : outcome Z := unwrap (bitwidth_new width).
(** src/bitwidth.rs 100-102. *)
Definition msb_pos (w : Z) : Z := w - 1.
(** src/bitwidth.rs 131-136. *)
Definition excess_bits (w : Z) : option Z :=
  let n := w mod 64 in if n =? 0 then None else Some n.
(** src/bitwidth.rs 143-145. *)
Definition excess_width (w : Z) : option Z :=
  let n := w mod 64 in if n =? 0 then None else Some n.
(** src/bitwidth.rs 163-165. *)
Definition required_digits (w : Z) : nat := Z.to_nat ((w - 1) / 64 + 1).

(** * src/storage.rs 4-36. *)
Inductive storage_class := SInl | SExt.
(** src/storage.rs 14-21, 32-34. *)
Definition storage (w : Z) : storage_class := if w <=? 64 then SInl else SExt.

(** * src/bitpos.rs 36-38 and 44-48. *)
Definition to_pos_within_digit (pos : Z) : Z := pos mod 64.
(** src/bitpos.rs 44-48. *)
Definition to_digit_and_bit_pos (pos : Z) : nat * Z := (Z.to_nat (pos / 64), pos mod 64).

(** * src/utils.rs *)

(** src/utils.rs 6-13 and 18-28: the consuming form of an operation that
    cannot return an error. *)
Definition forward_mut_impl {T : Type} (op : T -> outcome T) (entity : T) : outcome T :=
  op entity.
(** src/utils.rs 18-28. *)
Definition forward_bin_mut_impl {T R : Type} (op : T -> R -> outcome T) (entity : T) (rhs : R) : outcome T :=
  op entity rhs.
(** src/utils.rs 30-37: the consuming form drops the state on an error. *)
Definition try_forward_bin_mut_impl {T R : Type} (op : T -> R -> outcome (T * result unit))
    (entity : T) (rhs : R) : outcome (result T) :=
  let! (this, r) := op entity rhs in
  match r with Ok _ => Val (Ok this) | Err e => Val (Err e) end.

(** * src/apint/utils.rs *)

(** src/apint/utils.rs 83-89: [BitWidth::new(len).unwrap()]; a [BitWidth] is
    never zero, so this is the field.  95-97 [len_bits], 103-105
    [len_digits] likewise. *)
Definition width (a : apint) : Z := len a.
(** src/apint/utils.rs 95-97. *)
Definition len_bits (a : apint) : Z := len a.
(** src/apint/utils.rs 102-105. *)
Definition len_digits (a : apint) : nat := required_digits (len a).

(** src/apint/utils.rs 52-79. *)
Inductive data_access := DInl (d : Z) | DExt (ds : list Z).
(** src/apint/utils.rs 60-66. *)
Inductive zip_data_access := ZInl (l r : Z) | ZExt (l r : list Z).

(** Reading the union as an inline digit.  The code would read garbage if the
    union held a pointer; the model has [Panic] there.
    src/apint/utils.rs 119, 129, 151. *)
Definition read_inl (a : apint) : outcome Z :=
  match digits a with [d] => Val d | _ => Panic end.

(** src/apint/utils.rs 279-287 (and 292-305, mutable): the slice of all digits. *)
Definition as_digit_slice (a : apint) : list Z := digits a.

(** src/apint/utils.rs 117-122 (and 127-132, mutable). *)
Definition access_data (a : apint) : outcome data_access :=
  match storage (len a) with
  | SInl => let! d := read_inl a in Val (DInl d)
  | SExt => Val (DExt (as_digit_slice a))
  end.

(** The value of [self] after a write through the mutable access.
    src/apint/utils.rs 124-136. *)
Definition write_inl (a : apint) (d : Z) : apint := mk_apint (len a) [d].
(** src/apint/utils.rs 124-136. *)
Definition write_ext (a : apint) (ds : list Z) : apint := mk_apint (len a) ds.

(** src/apint/utils.rs 141-162; 171-193 and 202-223 (mutable variants). *)
Definition zip_access_data (a b : apint) : outcome (result zip_data_access) :=
  if negb (width a =? width b) then Val (Err (UnmatchingBitwidth (width a) (width b)))
  else
    match storage (len a) with
    | SInl => let! l := read_inl a in let! r := read_inl b in Val (Ok (ZInl l r))
    | SExt => Val (Ok (ZExt (as_digit_slice a) (as_digit_slice b)))
    end.

(** src/apint/utils.rs 233-246. *)
Definition modify_digits (f : Z -> Z) (a : apint) : outcome apint :=
  let! acc := access_data a in
  match acc with
  | DInl d => Val (write_inl a (f d))
  | DExt ds => Val (write_ext a (map f ds))
  end.

(** src/apint/utils.rs 256-274. *)
Definition modify_zipped_digits (f : Z -> Z -> Z) (a rhs : apint) : mut_result :=
  let! z := zip_access_data a rhs in
  match z with
  | Err e => Val (a, Err e)
  | Ok (ZInl l r) => Val (write_inl a (f l r), Ok tt)
  | Ok (ZExt ls rs) => Val (write_ext a (zip_update f ls rs), Ok tt)
  end.

(** src/apint/utils.rs 309-314. *)
Definition most_significant_digit (a : apint) : outcome Z :=
  let! acc := access_data a in
  match acc with DInl d => Val d | DExt ds => last_digit ds end.

(** src/apint/utils.rs 319-326, followed by the write [f]. *)
Definition modify_most_significant_digit (f : Z -> outcome Z) (a : apint) : outcome apint :=
  let! acc := access_data a in
  match acc with
  | DInl d => let! d' := f d in Val (write_inl a d')
  | DExt ds => let! ds' := modify_last f ds in Val (write_ext a ds')
  end.

(** src/apint/utils.rs 330-335. *)
Definition least_significant_digit (a : apint) : outcome Z :=
  let! acc := access_data a in
  match acc with DInl d => Val d | DExt ds => idx ds 0 end.

(** src/apint/utils.rs 339-347. *)
Definition msb (a : apint) : outcome bool :=
  let! d := most_significant_digit a in
  let! r := d_get d (to_pos_within_digit (msb_pos (width a))) in
  unwrap r.

(** src/apint/utils.rs 351-353. *)
Definition lsb (a : apint) : outcome bool :=
  let! d := least_significant_digit a in Val (d_lsb d).

(** src/apint/utils.rs 366-375. *)
Definition clear_unused_bits (a : apint) : outcome apint :=
  match excess_bits (width a) with
  | Some bits =>
      modify_most_significant_digit
        (fun d => let! r := d_retain_last_n d bits in unwrap r) a
  | None => Val a
  end.

(** src/apint/utils.rs 385-392. *)
Definition is_zero (a : apint) : outcome bool :=
  let! acc := access_data a in
  match acc with
  | DInl d => Val (d_is_zero d)
  | DExt ds => Val (forallb d_is_zero ds)
  end.

(** src/apint/utils.rs 402-412; [split_last] gives the most significant digit
    and the rest. *)
Definition is_one (a : apint) : outcome bool :=
  let! acc := access_data a in
  match acc with
  | DInl d => Val (d =? ONE)
  | DExt ds =>
      let! last := last_digit ds in
      Val ((last =? ONE) && forallb d_is_zero (removelast ds))
  end.

(** src/apint/utils.rs 417-426. *)
Definition is_even (a : apint) : outcome bool := let! b := lsb a in Val (negb b).
(** src/apint/utils.rs 424-426. *)
Definition is_odd (a : apint) : outcome bool := lsb a.

(** src/apint/utils.rs 431-444. *)
Definition split_least_significant_digit (a : apint) : outcome (Z * list Z) :=
  let! acc := access_data a in
  match acc with
  | DInl d => Val (d, [])
  | DExt [] => Panic
  | DExt (d :: rest) => Val (d, rest)
  end.

(** src/apint/utils.rs 449-462. *)
Definition split_most_significant_digit (a : apint) : outcome (Z * list Z) :=
  let! acc := access_data a in
  match acc with
  | DInl d => Val (d, [])
  | DExt ds => let! last := last_digit ds in Val (last, removelast ds)
  end.

(** src/apint/utils.rs 29-34: what is fed to the hasher, in order: the width
    as a [usize], then the digit slice (its length, then its elements). *)
Inductive hash_item := HashUsize (n : Z) | HashU64 (d : Z).
(** src/apint/utils.rs 29-34. *)
Definition hash_feed (a : apint) : list hash_item :=
  HashUsize (len a)
    :: HashUsize (Z.of_nat (length (as_digit_slice a)))
    :: map HashU64 (as_digit_slice a).
