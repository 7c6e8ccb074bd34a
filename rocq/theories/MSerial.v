(** Model of src/radix.rs and src/apint/serialization.rs.  Strings are lists
    of bytes.  No proofs in this file. *)
From Verif Require Export MCasting MBitwise.

(** * src/radix.rs.  A [Radix] is a [Z]. *)

(** radix.rs 38-43, constants 26 and 29. *)
Definition radix_new (radix : Z) : result Z :=
  if negb ((2 <=? radix) && (radix <=? 36)) then Err (InvalidRadix radix) else Ok radix.
(** radix.rs 175-180: [From<u8>]. *)
Definition radix_from (radix : Z) : outcome Z := unwrap (radix_new radix).
(** radix.rs 54-56. *)
Definition is_valid_byte (radix byte : Z) : bool := byte <? radix.
(** radix.rs 61-63; [u8::is_power_of_two] is "exactly one bit set" (Rust std). *)
Definition radix_is_power_of_two (radix : Z) : bool := u64_count_ones radix =? 1.
(** [u8::leading_zeros] (Rust std).  src/radix.rs 83. *)
Definition u8_leading_zeros (x : Z) : Z := if x =? 0 then 8 else 7 - Z.log2 x.
(** radix.rs 80-86. *)
Definition bits_per_digit (radix : Z) : outcome Z :=
  if radix_is_power_of_two radix then
    let! b := usize_sub 8 (u8_leading_zeros radix) in
    usize_sub b 1
  else Panic.
(** radix.rs 102-108. *)
Definition exact_bits_per_digit (radix : Z) : outcome (option Z) :=
  if radix_is_power_of_two radix
  then let! b := bits_per_digit radix in Val (Some b)
  else Val None.
(** radix.rs 130-168 ([BASES]). *)
Definition radix_bases : list (Z * Z) :=
  [(0, 0); (0, 0); (9223372036854775808, 63); (12157665459056928801, 40);
   (4611686018427387904, 31); (7450580596923828125, 27); (4738381338321616896, 24);
   (3909821048582988049, 22); (9223372036854775808, 21); (12157665459056928801, 20);
   (10000000000000000000, 19); (5559917313492231481, 18); (2218611106740436992, 17);
   (8650415919381337933, 17); (2177953337809371136, 16); (6568408355712890625, 16);
   (1152921504606846976, 15); (2862423051509815793, 15); (6746640616477458432, 15);
   (15181127029874798299, 15); (1638400000000000000, 14); (3243919932521508681, 14);
   (6221821273427820544, 14); (11592836324538749809, 14); (876488338465357824, 13);
   (1490116119384765625, 13); (2481152873203736576, 13); (4052555153018976267, 13);
   (6502111422497947648, 13); (10260628712958602189, 13); (15943230000000000000, 13);
   (787662783788549761, 12); (1152921504606846976, 12); (1667889514952984961, 12);
   (2386420683693101056, 12); (3379220508056640625, 12); (4738381338321616896, 12)].
(** radix.rs 115-172. *)
Definition get_radix_base (radix : Z) : outcome (Z * Z) :=
  if radix_is_power_of_two radix then Panic
  else idx radix_bases (Z.to_nat radix).

(** * Helpers of the Rust standard library *)

(** [a * b], [a + b] of [u64]: overflow checks of a debug build.
    src/apint/serialization.rs 303, 328. *)
Definition u64_mul (x y : Z) : outcome Z := if x * y <? B then Val (x * y) else Trap.
(** src/apint/serialization.rs 303, 328. *)
Definition u64_add (x y : Z) : outcome Z := if x + y <? B then Val (x + y) else Trap.
(** [v.chunks(n)]: consecutive pieces of [n] elements, the last one possibly
    shorter; panics for [n = 0].  [fuel] is the length of the slice.
    src/apint/serialization.rs 219, 307. *)
Fixpoint chunks_fuel (fuel : nat) (n : nat) (v : list Z) : list (list Z) :=
  match fuel, v with
  | _, [] => []
  | O, _ => []
  | S fuel', _ => firstn n v :: chunks_fuel fuel' n (skipn n v)
  end.
(** src/apint/serialization.rs 219, 307. *)
Definition chunks (n : nat) (v : list Z) : outcome (list (list Z)) :=
  if Nat.eqb n 0 then Panic else Val (chunks_fuel (length v) n v).
(** [v.iter().fold(init, f)] with a panicking [f].  src/apint/serialization.rs 224. *)
Fixpoint fold_o {A S : Type} (f : S -> A -> outcome S) (v : list A) (s : S) : outcome S :=
  match v with
  | [] => Val s
  | x :: r => let! s' := f s x in fold_o f r s'
  end.
(** [v.iter().map(f)], collected.  src/apint/serialization.rs 216-227. *)
Fixpoint map_o {A C : Type} (f : A -> outcome C) (v : list A) : outcome (list C) :=
  match v with
  | [] => Val []
  | x :: r => let! y := f x in let! ys := map_o f r in Val (y :: ys)
  end.

(** * Parsing *)

(** serialization.rs 210-230. *)
Definition from_bitwise_digits (v : list Z) (bits : Z) : outcome apint :=
  if negb (negb (Nat.eqb (length v) 0) && (bits <=? 8) && (64 mod bits =? 0)) then Trap
  else if negb (forallb (fun c => c <? Z.shiftl 1 bits) v) then Trap
  else
    let radix_digits_per_digit := 64 / bits in
    let! cs := chunks (Z.to_nat radix_digits_per_digit) v in
    let! data := map_o (fun chunk =>
      fold_o (fun acc c => let! s := u64_shl acc bits in Val (Z.lor s c)) (rev chunk) 0) cs in
    let! r := from_iter data in unwrap r.

(** The loop body 251-263: state ([data], [d], [dbits]).
    src/apint/serialization.rs 251-263. *)
Definition inexact_step (bits : Z) (st : list Z * Z * Z) (c : Z) : outcome (list Z * Z * Z) :=
  let '(data, d, dbits) := st in
  let! s := u64_shl c dbits in
  let d := Z.lor d s in
  let dbits := dbits + bits in
  if 64 <=? dbits then
    let data := data ++ [d] in
    let! dbits := usize_sub dbits 64 in
    let! sh := usize_sub bits dbits in
    let! d := u64_shr c sh in
    Val (data, d, dbits)
  else Val (data, d, dbits).

(** serialization.rs 237-271.  [Vec::with_capacity] only reserves. *)
Definition from_inexact_bitwise_digits (v : list Z) (bits : Z) : outcome apint :=
  if negb (negb (Nat.eqb (length v) 0) && (bits <=? 8) && negb (64 mod bits =? 0)) then Trap
  else if negb (forallb (fun c => c <? Z.shiftl 1 bits) v) then Trap
  else
    let! (st, dbits) := fold_o (inexact_step bits) v ([], 0, 0) in
    let '(data, d) := st in
    let! data :=
      if 0 <? dbits then (if dbits <? 64 then Val (data ++ [d]) else Trap) else Val data in
    let! r := from_iter data in unwrap r.

(** [fold(0, |acc, &d| acc * radix + DigitRepr::from(d))], 301-303, 326-328.
    src/apint/serialization.rs 301-303, 326-328. *)
Definition fold_radix (radix : Z) (v : list Z) : outcome Z :=
  fold_o (fun acc d => let! m := u64_mul acc radix in u64_add m d) v 0.

(** [data.last() != Some(&0)].  src/apint/serialization.rs 308. *)
Definition last_is_not_zero (data : list Z) : bool :=
  match rev data with [] => true | d :: _ => negb (d =? 0) end.

(** The loop body 307-330.  The inner loop over [data] does nothing (its body
    is commented out in the code), and the sum [_n] is computed and dropped.
    src/apint/serialization.rs 307-330. *)
Definition radix_chunk_step (radix : Z) (data chunk : list Z) : outcome (list Z) :=
  let data := if last_is_not_zero data then data ++ [0] else data in
  let! _ := fold_radix radix chunk in
  Val data.

(** serialization.rs 279-333.  Simplification: the size estimate 287-293 only
    feeds [Vec::with_capacity] and is left out here (MParse.v has it); it cannot
    fail for a slice that fits in memory. *)
Definition from_radix_digits (v : list Z) (radix : Z) : outcome apint :=
  if negb (negb (Nat.eqb (length v) 0) && negb (radix_is_power_of_two radix)) then Trap
  else if negb (forallb (is_valid_byte radix) v) then Trap
  else
    let! (_, power) := get_radix_base radix in
    if power =? 0 then Panic else
    let r := Z.of_nat (length v) mod power in
    let i := if r =? 0 then power else r in
    if Z.of_nat (length v) <? i then Panic else
    let head := firstn (Z.to_nat i) v in
    let tail := skipn (Z.to_nat i) v in
    let! first := fold_radix radix head in
    if negb (Z.of_nat (length tail) mod power =? 0) then Trap else
    let! cs := chunks (Z.to_nat power) tail in
    let! data := fold_o (radix_chunk_step radix) cs [first] in
    let! r := from_iter data in unwrap r.

(** The match 171-177; [None] is [continue].  src/apint/serialization.rs 171-177. *)
Definition normalize_byte (b : Z) : option Z :=
  if (48 <=? b) && (b <=? 57) then Some (b - 48)
  else if (97 <=? b) && (b <=? 122) then Some (b - 97 + 10)
  else if (65 <=? b) && (b <=? 90) then Some (b - 65 + 10)
  else if b =? 95 then None
  else Some 255.

(** The loop 170-187.  The position and the character only enter the message
    of the error ([invalid_char_in_string_repr], src/errors.rs 204-227). *)
Fixpoint normalize (radix : Z) (input bytes : list Z) : result (list Z) :=
  match bytes with
  | [] => Ok []
  | b :: r =>
      match normalize_byte b with
      | None => normalize radix input r
      | Some d =>
          if negb (is_valid_byte radix d) then Err (InvalidStringRepr input radix None)
          else match normalize radix input r with
               | Ok v => Ok (d :: v)
               | Err e => Err e
               end
      end
  end.

(** serialization.rs 143-202.  [starts_with('_')] and [ends_with('_')] look
    at the first and last byte: ['_'] is 95, a single byte in UTF-8. *)
Definition from_str_radix (radix : Z) (input : list Z) : outcome (result apint) :=
  match input with
  | [] => Val (Err (InvalidStringRepr input radix None))
  | first :: _ =>
      if first =? 95 then Val (Err (InvalidStringRepr input radix None))
      else if last input 0 =? 95 then Val (Err (InvalidStringRepr input radix None))
      else
        match normalize radix input input with
        | Err e => Val (Err e)
        | Ok v =>
            let! b := exact_bits_per_digit radix in
            let! result :=
              match b with
              | Some bits =>
                  let v := rev v in
                  if 64 mod bits =? 0 then from_bitwise_digits v bits
                  else from_inexact_bitwise_digits v bits
              | None => from_radix_digits v radix
              end in
            Val (Ok result)
        end
  end.

(** [from_str_radix] called with a [u8] as radix.  src/apint/serialization.rs 143-202. *)
Definition from_str_radix_u8 (radix : Z) (input : list Z) : outcome (result apint) :=
  let! r := radix_from radix in from_str_radix r input.

(** * Formatting *)

(** Formatting of [u64] in a given base (Rust std): digits from the least
    significant one, most significant one first; 64 digits suffice.
    src/apint/serialization.rs 40, 70, 90. *)
Fixpoint u64_digits (fuel : nat) (base x : Z) (acc : list Z) : list Z :=
  match fuel with
  | O => acc
  | S fuel' =>
      let acc := (x mod base) :: acc in
      if x <? base then acc else u64_digits fuel' base (x / base) acc
  end.
(** The character of a digit; [alpha] is the byte of 'a' or 'A'.
    src/apint/serialization.rs 40, 70, 90. *)
Definition digit_char (alpha d : Z) : Z := if d <? 10 then 48 + d else alpha + d - 10.
(** ["{:b}"], ["{:x}"], ["{:X}"] of [u64] (Digit forwards to it,
    src/digit.rs 53-75). *)
Definition u64_fmt (base alpha x : Z) : list Z :=
  map (digit_char alpha) (u64_digits 64 base x []).
(** The same with [0<width>]: padded with '0' on the left.
    src/apint/serialization.rs 44, 74, 94. *)
Definition u64_fmt_padded (width : nat) (base alpha x : Z) : list Z :=
  let s := u64_fmt base alpha x in repeat 48 (width - length s) ++ s.

(** serialization.rs 36-45, 66-75, 86-95: [ds] are the digits from the most
    significant one; leading zero digits are skipped. *)
Fixpoint fmt_digits (width : nat) (base alpha : Z) (ds : list Z) : list Z :=
  match ds with
  | [] => []
  | d :: r =>
      if d_is_zero d then fmt_digits width base alpha r
      else u64_fmt base alpha d ++ concat (map (u64_fmt_padded width base alpha) r)
  end.

(** The bytes written to the sink (which is assumed to accept them).
    src/apint/serialization.rs 31-47. *)
Definition fmt_radix (width : nat) (base alpha : Z) (a : apint) : outcome (list Z) :=
  let! z := is_zero a in
  if z : bool then Val [48]
  else Val (fmt_digits width base alpha (rev (as_digit_slice a))).

(** serialization.rs 30-48, 60-78 and 80-98. *)
Definition fmt_binary (a : apint) : outcome (list Z) := fmt_radix 64 2 97 a.
(** src/apint/serialization.rs 60-78. *)
Definition fmt_lower_hex (a : apint) : outcome (list Z) := fmt_radix 16 16 97 a.
(** src/apint/serialization.rs 80-98. *)
Definition fmt_upper_hex (a : apint) : outcome (list Z) := fmt_radix 16 16 65 a.
(** serialization.rs 50-58: [unimplemented!()]. *)
Definition fmt_octal (a : apint) : outcome (list Z) :=
  let! z := is_zero a in
  if z : bool then Val [48] else Panic.
(** serialization.rs 342-350. *)
Definition to_string_radix (a : apint) (radix : Z) : outcome (list Z) := Panic.
