(** How much memory multiplication and division may ask for.  Used in the
    statements of C71 and C72.  Sizes are in digits of 64 bits. *)
From Coq Require Import ZArith List Bool.
Import ListNotations.
Open Scope Z_scope.

(** The number of significant bits of [u]. *)
Definition bits_of (u : Z) : Z := if u =? 0 then 0 else Z.log2 u + 1.
(** The number of digits that hold [bits] bits. *)
Definition digits_for (bits : Z) : nat := Z.to_nat ((bits + 63) / 64).
(** A copy of an integer of width [w]: one buffer above 64 bits, else none. *)
Definition copy_of (w : Z) : list nat := if w <=? 64 then [] else [digits_for w].

(** The buffers for the product of [u] and [v] at width [w]: none if the integers
    are stored in one digit or one of the factors fits one; else one. *)
Definition mul_buffers (w u v : Z) : list nat :=
  if (w <=? 64) || (bits_of u <=? 64) || (bits_of v <=? 64) then []
  else if bits_of u + bits_of v <=? 64 * Z.of_nat (digits_for w)
  then [(digits_for (bits_of u) + digits_for (bits_of v))%nat]
  else [digits_for w].

(** The buffers for quotient and remainder of [u] and [v] at width [w]: none if the
    integers are stored in one digit, the dividend fits two or the divisor one, or the divisor has
    as many bits as the dividend; one if their numbers of bits are less than 64
    apart; else one or two. *)
Definition div_buffers (w u v : Z) (l : list nat) : Prop :=
  if (w <=? 64) || (bits_of u <=? 128) || (bits_of v <=? 64) || (bits_of u <=? bits_of v) then l = []
  else if bits_of u - bits_of v <? 64 then l = [digits_for w]
  else l = [digits_for w] \/ l = [digits_for w; digits_for w].
