(** Words for C105: what is seen of a division. *)
From Verif Require Export SpecWatch MWatchDiv.

(** [a] is divided by [b], or [a'] by [b'].  The numbers of digits of 64 bits that are needed for [b]
    and for [b'] agree.  If [b] is not zero, the numbers of digits that are needed for [a] and for [a']
    agree, too.  If, besides, one digit is enough for [b] but not for [a], the divisors [b] and [b'] are
    both below [2 ^ 32] or both not. *)
Definition divisions_agree (a b a' b' : Z) : Prop :=
  (forall i, 0 <= i -> (b / 2 ^ (64 * i) = 0 <-> b' / 2 ^ (64 * i) = 0)) /\
  (b <> 0 ->
   (forall i, 0 <= i -> (a / 2 ^ (64 * i) = 0 <-> a' / 2 ^ (64 * i) = 0)) /\
   (2 ^ 64 <= a -> b < 2 ^ 64 -> (b < 2 ^ 32 <-> b' < 2 ^ 32))).
(** One digit is enough for [b], or two are for [a], or [a] needs fewer digits than [b]. *)
Definition short_division (a b : Z) : Prop :=
  b < 2 ^ 64 \/ a < 2 ^ 128 \/ exists i, 0 <= i /\ a < 2 ^ (64 * i) <= b.
(** What a division tells exactly, if it is short: nothing, if the widths differ; whether the divisor is
    zero, if one digit holds each integer; what [divisions_agree] says otherwise. *)
Definition divisions_told (a b a' b' : apint) : Prop :=
  len a <> len b \/
  len a <= 64 /\ (unsigned b = 0 <-> unsigned b' = 0) \/
  64 < len a /\ divisions_agree (unsigned a) (unsigned b) (unsigned a') (unsigned b').
(** The divisors are both zero; or neither is, the signs of the dividends agree and so do those of the divisors. *)
Definition signs_agree (a b a' b' : apint) : Prop :=
  (unsigned b = 0 <-> unsigned b' = 0) /\
  (unsigned b <> 0 -> (signed a < 0 <-> signed a' < 0) /\ (signed b < 0 <-> signed b' < 0)).
