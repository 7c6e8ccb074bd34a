(** Words for C104: how many digits a call reads, writes and allocates. *)
From Verif Require Export SpecWatch MWatchMul.

(** How often a digit is read: an access to the same digit counts again. *)
Fixpoint digits_read (es : list event) : Z :=
  match es with
  | [] => 0
  | Read _ _ :: es => 1 + digits_read es
  | _ :: es => digits_read es
  end.
(** How often a digit is written. *)
Fixpoint digits_written (es : list event) : Z :=
  match es with
  | [] => 0
  | Write _ _ :: es => 1 + digits_written es
  | _ :: es => digits_written es
  end.
(** How many digits are allocated, over all allocations. *)
Fixpoint digits_allocated (es : list event) : Z :=
  match es with
  | [] => 0
  | Allocate n :: es => Z.of_nat n + digits_allocated es
  | _ :: es => digits_allocated es
  end.
(** All three. *)
Definition work (es : list event) (read written allocated : Z) : Prop :=
  digits_read es = read /\ digits_written es = written /\ digits_allocated es = allocated.

(** How many digits an integer of this width has. *)
Definition digit_count (w : Z) : Z := (w + 63) / 64.
(** One if the top digit has unused bits, which are cleared in a further step, else zero. *)
Definition partly_used (w : Z) : Z := if w mod 64 =? 0 then 0 else 1.
(** How many of the numbers from zero up to [n], without [n], have the property [p]. *)
Definition how_many (n : Z) (p : Z -> bool) : Z :=
  Z.of_nat (List.length (List.filter p (List.map Z.of_nat (List.seq 0 (Z.to_nat n))))).
(** How many digits of 64 bits the number needs. *)
Definition digits_needed (u : Z) : Z := if u =? 0 then 0 else Z.log2 u / 64 + 1.
