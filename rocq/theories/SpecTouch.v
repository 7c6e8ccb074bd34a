(** Words for C106: what is listed of a call is all that it depends on and all that it changes. *)
From Verif Require Export SpecWatch MWatchMul.

(** The two operands [a] and [a'] at the place [p] agree in each digit that is read. *)
Definition agree (es : list event) (p : place) (a a' : apint) : Prop :=
  forall i, In (Read p i) es -> nth_error (digits a) i = nth_error (digits a') i.
(** Only digits that exist are accessed, and the second operand is not written. *)
Definition in_bounds (es : list event) (a b : apint) : Prop :=
  forall i,
    (In (Read Self i) es -> (i < length (digits a))%nat) /\
    (In (Write Self i) es -> (i < length (digits a))%nat) /\
    (In (Read Other i) es -> (i < length (digits b))%nat) /\
    ~ In (Write Other i) es.
(** The digits of [c] and [c'] are the same, or they are still those of [a] and [a'] and were not read. *)
Definition same_but_unread (es : list event) (a a' c c' : apint) : Prop :=
  len c = len c' /\ length (digits c) = length (digits c') /\
  forall i, nth_error (digits c) i = nth_error (digits c') i \/
            (~ In (Read Self i) es /\ nth_error (digits c) i = nth_error (digits a) i /\ nth_error (digits c') i = nth_error (digits a') i).
(** A digit of [c] that was written neither in the operand nor in an integer under construction is still that of [a]. *)
Definition kept_if_unwritten (es : list event) (a c : apint) : Prop :=
  forall i, (i < length (digits c))%nat -> ~ In (Write Self i) es -> ~ In (Write New i) es -> nth_error (digits c) i = nth_error (digits a) i.
(** A call that changes its first operand, whose new value is [now v], and says [said v], where [v] is what it ends with. *)
Definition touches_only {V R : Type} (now : V -> apint) (said : V -> R) (f : apint -> apint -> watched V) : Prop :=
  forall a b a' b' v, twins a a' -> twins b b' -> snd (f a b) = Val v ->
    let es := fst (f a b) in
    in_bounds es a b /\ kept_if_unwritten es a (now v) /\
    (agree es Self a a' -> agree es Other b b' ->
     fst (f a' b') = es /\
     exists v', snd (f a' b') = Val v' /\ said v' = said v /\ same_but_unread es a a' (now v) (now v')).
(** A call that changes none of its operands and ends with [v]. *)
Definition reads_only {V : Type} (f : apint -> apint -> watched V) : Prop :=
  forall a b a' b' v, twins a a' -> twins b b' -> snd (f a b) = Val v ->
    let es := fst (f a b) in
    in_bounds es a b /\ (forall i, ~ In (Write Self i) es) /\
    (agree es Self a a' -> agree es Other b b' -> fst (f a' b') = es /\ snd (f a' b') = Val v).
(** A call that has no second operand, and one that only says how its first operand is now. *)
Definition alone {V : Type} (f : apint -> watched V) : apint -> apint -> watched V := fun a _ => f a.
Definition changes (f : apint -> apint -> watched (apint * result unit)) : Prop := touches_only fst snd f.
Definition turns (f : apint -> apint -> watched apint) : Prop := touches_only (fun c => c) (fun _ => tt) f.
