(** Model of threads in which calls panic: [unsafe impl Send for ApInt] and
    [unsafe impl Sync for ApInt], src/apint/mod.rs 40-46, together with the calls
    that unwind (MUnwind.v).  No proofs in this file. *)
From Verif Require Export MThreads MUnwind.

(** A thread that dies of a panic drops the variables it owns, the last one first,
    each with [impl Drop for ApInt], src/apint/constructors.rs 28-40.  What is lent
    to it ([owns] says no) it does not drop. *)
Fixpoint h_unwind (owns : nat -> bool) (k : nat) (s : hvars) : HM hvars :=
  match s with
  | [] => hret []
  | v :: s =>
      let* s := h_unwind owns (S k) s in
      match v with
      | Some a => if owns k then let* _ := h_drop_digits a in hret (None :: s) else hret (Some a :: s)
      | None => hret (None :: s)
      end
  end.

(** A client of src/lib.rs: the calls of one thread, each with [true] if it is made
    inside [catch_unwind].  A panic that is not caught ends the thread; [true] in the
    result says that. *)
Fixpoint hthread (owns : nat -> bool) (s : hvars) (p : list (bool * cmd)) : HM (hvars * (list (option obs) * bool)) :=
  match p with
  | [] => hret (s, ([], false))
  | (caught, c) :: p =>
      let* (s, o) := hcatch s c in
      match o, caught with
      | None, false => let* s := h_unwind owns 0 s in hret (s, ([None], true))
      | _, _ => let* (s, r) := hthread owns s p in hret (s, (o :: fst r, snd r))
      end
  end.
