(** Model of src/apint/rand_impl.rs.  No proofs in this file.

    A random number generator is a type of states and a function [next] from a
    state to the next [u64] and state ([rng.next_u64()], line 13).  The
    parameters are explicit in every definition.  [random_with_width] (18-23)
    and [randomize] (54-56) are these functions with a generator seeded from
    the entropy of the system, so they are instances for an unknown state. *)
From Verif Require Export MCasting.

(** Drawing [n] digits: [Standard.sample_iter(rng).take(n)] (src/apint/rand_impl.rs 35-36, with
    the [sample] of lines 4-15). *)
Fixpoint draw {S : Type} (next : S -> Z * S) (n : nat) (s : S) : list Z * S :=
  match n with
  | O => ([], s)
  | Datatypes.S n =>
      let '(d, s) := next s in
      let '(ds, s) := draw next n s in
      (d :: ds, s)
  end.

(** src/apint/rand_impl.rs 29-49. *)
Definition random_with_width_using {S : Type} (next : S -> Z * S) (width : Z) (s : S) : outcome (apint * S) :=
  let n := required_digits width in
  if Nat.leb 1 n then
    let '(random_digits, s) := draw next n s in
    let! r := from_iter random_digits in
    let! a := unwrap r in
    let! r := into_truncate a width in
    let! c := unwrap r in
    Val (c, s)
  else Panic.

(** src/apint/rand_impl.rs 68: the digits of the integer zipped with the samples; zipping stops
    without a further sample after the last digit. *)
Fixpoint overwrite {S : Type} (next : S -> Z * S) (ds : list Z) (s : S) : list Z * S :=
  match ds with
  | [] => ([], s)
  | _ :: rest =>
      let '(r, s) := next s in
      let '(rs, s) := overwrite next rest s in
      (r :: rs, s)
  end.

(** src/apint/rand_impl.rs 62-70. *)
Definition randomize_using {S : Type} (next : S -> Z * S) (a : apint) (s : S) : outcome (apint * S) :=
  let '(ds, s) := overwrite next (as_digit_slice a) s in
  let! c := clear_unused_bits (mk_apint (len a) ds) in
  Val (c, s).
