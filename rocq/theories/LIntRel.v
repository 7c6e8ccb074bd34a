(** Comparisons of [UInt] and [Int] of differing widths. *)
From Verif Require Export LInt4 LFacts.

Lemma uint_comparison_mismatch x y : uint_width x <> uint_width y ->
  let err := UnmatchingBitwidth (uint_width x) (uint_width y) in
  let swapped := UnmatchingBitwidth (uint_width y) (uint_width x) in
  uint_checked_lt x y = Val (Err err) /\ uint_checked_ge x y = Val (Err err) /\
  uint_checked_le x y = Val (Err swapped) /\ uint_checked_gt x y = Val (Err swapped).
Proof. intros H. destruct (comparison_mismatch (uapint x) (uapint y) H) as (A & B & _ & _ & C & D & _). exact (conj A (conj B (conj C D))). Qed.
Lemma int_comparison_mismatch x y : int_width x <> int_width y ->
  let err := UnmatchingBitwidth (int_width x) (int_width y) in
  let swapped := UnmatchingBitwidth (int_width y) (int_width x) in
  int_checked_lt x y = Val (Err err) /\ int_checked_ge x y = Val (Err err) /\
  int_checked_le x y = Val (Err swapped) /\ int_checked_gt x y = Val (Err swapped).
Proof. intros H. destruct (comparison_mismatch (iapint x) (iapint y) H) as (_ & _ & A & B & _ & _ & C & D). exact (conj A (conj B (conj C D))). Qed.
