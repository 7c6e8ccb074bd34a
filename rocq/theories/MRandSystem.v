(** Model of random generation from the entropy of the system.  No proofs in this file.

    [rand::rngs::SmallRng::from_entropy()] is a function [seeded] from what the system gives
    ([E], unknown) to a state of the generator; the generator is dropped at the end of the
    call. *)
From Verif Require Export MInt.

(** src/apint/rand_impl.rs 18-23. *)
Definition random_with_width {E S : Type} (seeded : E -> S) (next : S -> Z * S) (w : Z) (e : E) : outcome apint :=
  let! (a, _) := random_with_width_using next w (seeded e) in Val a.
(** src/apint/rand_impl.rs 54-56. *)
Definition randomize {E S : Type} (seeded : E -> S) (next : S -> Z * S) (a : apint) (e : E) : outcome apint :=
  let! (a, _) := randomize_using next a (seeded e) in Val a.
(** src/uint.rs 555-557. *)
Definition uint_random_with_width {E S : Type} (seeded : E -> S) (next : S -> Z * S) (w : Z) (e : E) : outcome uint :=
  let! a := random_with_width seeded next w e in Val (mk_uint a).
(** src/uint.rs 573-575. *)
Definition uint_randomize {E S : Type} (seeded : E -> S) (next : S -> Z * S) (x : uint) (e : E) : outcome uint :=
  let! a := randomize seeded next (uapint x) e in Val (mk_uint a).
(** src/int.rs 613-615. *)
Definition int_random_with_width {E S : Type} (seeded : E -> S) (next : S -> Z * S) (w : Z) (e : E) : outcome int :=
  let! a := random_with_width seeded next w e in Val (mk_int a).
(** src/int.rs 631-633. *)
Definition int_randomize {E S : Type} (seeded : E -> S) (next : S -> Z * S) (x : int) (e : E) : outcome int :=
  let! a := randomize seeded next (iapint x) e in Val (mk_int a).
