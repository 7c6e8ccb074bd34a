(** Model of threads: [unsafe impl Send for ApInt] and [unsafe impl Sync for
    ApInt], src/apint/mod.rs 40-46, let integers be moved to other threads and
    be borrowed by several at once.  No proofs in this file. *)
From Verif Require Export MHeap.

(** * One access after the other, src/apint/mod.rs 40-46 *)
(** What a thread does next, and what is left of it afterwards.  A thread that
    has ended, or is about to do something undefined, stays as it is.
    src/apint/mod.rs 40-46. *)
Definition tick {A : Type} (h : HM A) (m : mem) : HM A * mem :=
  match h with
  | HRet _ | HPanic | HFuel | HUndef => (h, m)
  | HMalloc ds k => let (p, m) := mem_malloc ds m in (k p, m)
  | HFree p n k => match mem_free p n m with Some m => (k, m) | None => (HUndef, m) end
  | HLoad p n k => match mem_load p n m with Some ds => (k ds, m) | None => (HUndef, m) end
  | HStore p new k => match mem_store p new m with Some m => (k, m) | None => (HUndef, m) end
  | HSlack n k => (k (slack m n), m)
  end.

(** The threads share the memory; [R] is what they return.  src/apint/mod.rs 40-46. *)
Definition pool (R : Type) : Type := mem * list (HM R).
(** One access of thread [i] (src/apint/mod.rs 40-46). *)
Definition turn {R : Type} (i : nat) (s : pool R) : pool R :=
  match nth_error (snd s) i with
  | Some h => let (h, m) := tick h (fst s) in (m, update i h (snd s))
  | None => s
  end.
(** A schedule says whose turn it is.  src/apint/mod.rs 40-46. *)
Fixpoint interleave {R : Type} (schedule : list nat) (s : pool R) : pool R :=
  match schedule with
  | [] => s
  | i :: schedule => interleave schedule (turn i s)
  end.
