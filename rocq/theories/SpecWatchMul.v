(** Words for C103: what is seen of a product. *)
From Verif Require Export SpecWatch MWatchMul.

(** [a] and [b] are multiplied, or [a'] and [b'], each with [n] digits of 64 bits.  The numbers of
    digits that are needed for [b] and for [b'] agree.  If they are not zero, the numbers of
    digits that are needed for [a] and for [a'] agree, too.  If more than one digit is needed for
    each factor, the sum of the numbers of their bits is at most the number of bits of all digits
    either for both pairs or for none. *)
Definition products_agree (n a b a' b' : Z) : Prop :=
  (forall i, 0 <= i -> (b / 2 ^ (64 * i) = 0 <-> b' / 2 ^ (64 * i) = 0)) /\
  (b <> 0 ->
   (forall i, 0 <= i -> (a / 2 ^ (64 * i) = 0 <-> a' / 2 ^ (64 * i) = 0)) /\
   (2 ^ 64 <= a -> 2 ^ 64 <= b -> (Z.log2 a + Z.log2 b + 2 <= 64 * n <-> Z.log2 a' + Z.log2 b' + 2 <= 64 * n))).
