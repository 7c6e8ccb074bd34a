(** Model of the vectors that parsing allocates while it works.  [from_str_radix] of
    MSerial.v gives the digits only; here the vectors have a capacity and every
    buffer that is asked from the allocator is written down, in bytes.  The integer
    that is returned and the texts of errors are not counted.  No proofs in this file. *)
From Verif Require Export MTemp MSerial.

(** * [Vec<u8>] and [Vec<u64>] (Rust std)
    A record [vec] as in MTemp.v; [size] is the size of an element in bytes. *)
(** [Vec::with_capacity(n)], src/apint/serialization.rs 169, 244, 292. *)
Definition sized_with_capacity (size n : nat) : counted vec := Val (mk_vec n [], request (size * n)).
(** [Vec::push] moves to a buffer of at least twice the size when there is no room
    left, of at least 8 elements if they are bytes, else 4.
    src/apint/serialization.rs 186, 256, 267, 304, 309. *)
Definition sized_push (size : nat) (v : vec) (x : Z) : counted vec :=
  if Nat.ltb (length (items v)) (capacity v)
  then Val (mk_vec (capacity v) (items v ++ [x]), [])
  else
    let cap := Nat.max (if Nat.eqb size 1 then 8 else 4) (2 * capacity v) in
    Val (mk_vec cap (items v ++ [x]), request (size * cap)).
(** [for x in v], as [fold_o] of MSerial.v.  src/apint/serialization.rs 251-263, 307-330. *)
Fixpoint t_fold {A S : Type} (f : S -> A -> counted S) (v : list A) (s : S) : counted S :=
  match v with
  | [] => tlift (Val s)
  | x :: r => let^ s' := f s x in t_fold f r s'
  end.

(** * The size estimate *)
(** [LB_2_36_I3F13], src/apint/serialization.rs 23-28. *)
Definition lb_2_36_i3f13 : list Z :=
  [8192; 12985; 16384; 19022; 21177; 22998; 24576; 25969; 27214; 28340; 29369;
   30315; 31190; 32006; 32768; 33485; 34161; 34800; 35406; 35982; 36532;
   37058; 37561; 38043; 38507; 38953; 39382; 39797; 40198; 40585; 40960;
   41324; 41677; 42020; 42353].
(** [big_digits] for [n] digits in the radix.  src/apint/serialization.rs 287-291. *)
Definition radix_estimate (radix n : Z) : outcome Z :=
  let! i := usize_sub radix 2 in
  let! lb := idx lb_2_36_i3f13 (Z.to_nat i) in
  if lb * (n + 1) <? B then Val (Z.shiftr (lb * (n + 1)) 13 / 64 + 1) else Panic.

(** * Parsing *)
(** The loop body 251-263.  src/apint/serialization.rs 251-263. *)
Definition t_inexact_step (bits : Z) (st : vec * Z * Z) (c : Z) : counted (vec * Z * Z) :=
  let '(data, d, dbits) := st in
  let^ s := tlift (u64_shl c dbits) in
  let d := Z.lor d s in
  let dbits := dbits + bits in
  if 64 <=? dbits then
    let^ data := sized_push 8 data d in
    let^ dbits := tlift (usize_sub dbits 64) in
    let^ sh := tlift (usize_sub bits dbits) in
    let^ d := tlift (u64_shr c sh) in
    tlift (Val (data, d, dbits))
  else tlift (Val (data, d, dbits)).
(** src/apint/serialization.rs 237-271. *)
Definition t_from_inexact_bitwise_digits (v : list Z) (bits : Z) : counted apint :=
  if negb (negb (Nat.eqb (length v) 0) && (bits <=? 8) && negb (64 mod bits =? 0)) then tlift Trap
  else if negb (forallb (fun c => c <? Z.shiftl 1 bits) v) then tlift Trap
  else
    let^ data := sized_with_capacity 8 (Z.to_nat ((Z.of_nat (length v) * bits + 64 - 1) / 64)) in
    let^ (st, dbits) := t_fold (t_inexact_step bits) v (data, 0, 0) in
    let '(data, d) := st in
    let^ data :=
      if 0 <? dbits then (if dbits <? 64 then sized_push 8 data d else tlift Trap) else tlift (Val data) in
    tlift (let! r := from_iter (items data) in unwrap r).
(** The loop body 307-330; see [radix_chunk_step] of MSerial.v.
    src/apint/serialization.rs 307-330. *)
Definition t_radix_chunk_step (radix : Z) (data : vec) (chunk : list Z) : counted vec :=
  let^ data := if last_is_not_zero (items data) then sized_push 8 data 0 else tlift (Val data) in
  let^ _ := tlift (fold_radix radix chunk) in
  tlift (Val data).
(** src/apint/serialization.rs 279-333, with the size estimate 287-292. *)
Definition t_from_radix_digits (v : list Z) (radix : Z) : counted apint :=
  if negb (negb (Nat.eqb (length v) 0) && negb (radix_is_power_of_two radix)) then tlift Trap
  else if negb (forallb (is_valid_byte radix) v) then tlift Trap
  else
    let^ big_digits := tlift (radix_estimate radix (Z.of_nat (length v))) in
    let^ data := sized_with_capacity 8 (Z.to_nat big_digits) in
    let^ (_, power) := tlift (get_radix_base radix) in
    if power =? 0 then tlift Panic else
    let r := Z.of_nat (length v) mod power in
    let i := if r =? 0 then power else r in
    if Z.of_nat (length v) <? i then tlift Panic else
    let head := firstn (Z.to_nat i) v in
    let tail := skipn (Z.to_nat i) v in
    let^ first := tlift (fold_radix radix head) in
    let^ data := sized_push 8 data first in
    if negb (Z.of_nat (length tail) mod power =? 0) then tlift Trap else
    let^ cs := tlift (chunks (Z.to_nat power) tail) in
    let^ data := t_fold (t_radix_chunk_step radix) cs data in
    tlift (let! r := from_iter (items data) in unwrap r).
(** The loop 170-187 pushes each digit on [v].  src/apint/serialization.rs 170-187. *)
Fixpoint t_normalize (radix : Z) (input bytes : list Z) (v : vec) : counted (result vec) :=
  match bytes with
  | [] => tlift (Val (Ok v))
  | b :: r =>
      match normalize_byte b with
      | None => t_normalize radix input r v
      | Some d =>
          if negb (is_valid_byte radix d) then tlift (Val (Err (InvalidStringRepr input radix None)))
          else let^ v := sized_push 1 v d in t_normalize radix input r v
      end
  end.
(** src/apint/serialization.rs 143-202.  [from_bitwise_digits] (210-230) hands an
    iterator to [from_iter] and has no vector of its own. *)
Definition t_from_str_radix (radix : Z) (input : list Z) : counted (result apint) :=
  match input with
  | [] => tlift (Val (Err (InvalidStringRepr input radix None)))
  | first :: _ =>
      if first =? 95 then tlift (Val (Err (InvalidStringRepr input radix None)))
      else if last input 0 =? 95 then tlift (Val (Err (InvalidStringRepr input radix None)))
      else
        let^ v := sized_with_capacity 1 (length input) in
        let^ r := t_normalize radix input input v in
        match r with
        | Err e => tlift (Val (Err e))
        | Ok v =>
            let^ b := tlift (exact_bits_per_digit radix) in
            let^ result :=
              match b with
              | Some bits =>
                  let v := rev (items v) in
                  if 64 mod bits =? 0 then tlift (from_bitwise_digits v bits)
                  else t_from_inexact_bitwise_digits v bits
              | None => t_from_radix_digits (items v) radix
              end in
            tlift (Val (Ok result))
        end
  end.
