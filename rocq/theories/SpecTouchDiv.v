(** Words for C106: calls that change both of their operands. *)
From Verif Require Export SpecTouch MWatchDiv.

(** Only digits that exist are accessed. *)
Definition both_in_bounds (es : list event) (a b : apint) : Prop :=
  forall i,
    (In (Read Self i) es -> (i < length (digits a))%nat) /\
    (In (Write Self i) es -> (i < length (digits a))%nat) /\
    (In (Read Other i) es -> (i < length (digits b))%nat) /\
    (In (Write Other i) es -> (i < length (digits b))%nat).
(** The digits of [c] and [c'] are the same, or they are still those of [a] and [a'], the operands at [p], and were not read. *)
Definition same_but_unread_at (p : place) (es : list event) (a a' c c' : apint) : Prop :=
  len c = len c' /\ length (digits c) = length (digits c') /\
  forall i, nth_error (digits c) i = nth_error (digits c') i \/
            (~ In (Read p i) es /\ nth_error (digits c) i = nth_error (digits a) i /\ nth_error (digits c') i = nth_error (digits a') i).
(** A digit of [c] that was not written in the operand [a] at [p] is still that of [a]. *)
Definition kept_if_unwritten_at (p : place) (es : list event) (a c : apint) : Prop :=
  forall i, ~ In (Write p i) es -> nth_error (digits c) i = nth_error (digits a) i.
(** A call that changes both operands, [a] into [c] and [b] into [d], and says [r]. *)
Definition changes_both (f : apint -> apint -> watched (apint * apint * result unit)) : Prop :=
  forall a b a' b' c d r, twins a a' -> twins b b' -> snd (f a b) = Val (c, d, r) ->
    let es := fst (f a b) in
    both_in_bounds es a b /\ kept_if_unwritten_at Self es a c /\ kept_if_unwritten_at Other es b d /\
    (agree es Self a a' -> agree es Other b b' ->
     fst (f a' b') = es /\
     exists c' d', snd (f a' b') = Val (c', d', r) /\
       same_but_unread_at Self es a a' c c' /\ same_but_unread_at Other es b b' d d').
