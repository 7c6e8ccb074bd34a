(** Model of threads on [UInt] and [Int], in which calls may panic: both are
    structs around [ApInt] (src/uint.rs 28-30, src/int.rs 28-30), and so are [Send]
    and [Sync] because it is (src/apint/mod.rs 40-46).  No proofs in this file. *)
From Verif Require Export MThreadsUnwind MUnwindTyped.

(** A thread that dies of a panic drops the variables it owns, the last one first.
    Neither type has a [Drop] of its own: dropping the struct drops its [ApInt],
    src/apint/constructors.rs 28-40. *)
Fixpoint ht_unwind (owns : nat -> bool) (k : nat) (s : htvars) : HM htvars :=
  match s with
  | [] => hret []
  | v :: s =>
      let* s := ht_unwind owns (S k) s in
      match v with
      | Some a => if owns k then let* _ := h_drop_digits (hval a) in hret (None :: s) else hret (Some a :: s)
      | None => hret (None :: s)
      end
  end.

(** A client of src/lib.rs: the calls of one thread, each with [true] if it is made
    inside [catch_unwind].  A panic that is not caught ends the thread; [true] in the
    result says that. *)
Fixpoint htthread (owns : nat -> bool) (s : htvars) (p : list (bool * tcmd)) : HM (htvars * (list (option tobs) * bool)) :=
  match p with
  | [] => hret (s, ([], false))
  | (caught, c) :: p =>
      let* (s, o) := htcatch s c in
      match o, caught with
      | None, false => let* s := ht_unwind owns 0 s in hret (s, ([None], true))
      | _, _ => let* (s, r) := htthread owns s p in hret (s, (o :: fst r, snd r))
      end
  end.
