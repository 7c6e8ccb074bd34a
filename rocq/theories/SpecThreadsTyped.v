(** What threads on [UInt] and [Int] show in which calls panic.  Used in the statements of C77. *)
From Coq Require Import List.
From Verif Require Import SpecTyped SpecUnwindTyped SpecHeap SpecHeapTyped MThreadsTyped SpecThreads SpecThreadsUnwind.
Import ListNotations.

(** A thread must not change, move or drop what is lent to it: the compiler sees to that. *)
Definition trespects (give : sharing) (p : list tcmd) : Prop :=
  Forall (fun c => forall x, In x (twrites c) -> ~ borrowed give x) p.

(** A call with [true] is made inside [catch_unwind].  A thread ends after its last call, or
    with the first panic that it does not catch. *)
Fixpoint tathread (owns : nat -> bool) (s : tstore) (p : list (bool * tcmd)) : tstore * (list (option tobs) * bool) :=
  match p with
  | [] => (s, ([], false))
  | (caught, c) :: p =>
      let (s, o) := tacatch s c in
      match o, caught with
      | None, false => (abandon owns 0 s, ([None], true))
      | _, _ => let (s, r) := tathread owns s p in (s, (o :: fst r, snd r))
      end
  end.

(** Thread [k + i] runs the [i]-th program. *)
Fixpoint tspawn (k : nat) (give : sharing) (vs : htvars) (programs : list (list (bool * tcmd)))
    : list (HM (htvars * (list (option tobs) * bool))) :=
  match programs with
  | [] => []
  | p :: programs => htthread (keeper give) (hand k give vs) p :: tspawn (S k) give vs programs
  end.
(** What the theorems assume: the main thread has run [setup], catching all panics, and hands
    out its variables to threads that respect that. *)
Definition tforked (setup : list tcmd) (slack : nat -> nat) (give : sharing) (programs : list (list (bool * tcmd)))
    (vs : htvars) (m : mem) : Prop :=
  Forall tcmd_ok setup /\ (exists os, exec (htcatches [] setup) (empty_memory slack) = MVal (vs, os) m) /\
  length give = length vs /\ (forall x i, nth_error give x = Some (Some i) -> (i < length programs)%nat) /\
  Forall (fun p => Forall tcmd_ok (map snd p) /\ trespects give (map snd p)) programs.

(** Who owns buffer [p] in the end: the main thread, as its variable [x] that it had lent,
    or thread [i], as its variable [x]. *)
Definition towner {R : Type} (give : sharing) (vs : htvars) (ts : list (HM (htvars * R))) (o : option nat * nat) (p : nat) : Prop :=
  match o with
  | (None, x) => borrowed give x /\ points_to (inside vs) x p
  | (Some i, x) => ~ borrowed give x /\ exists vs' os', nth_error ts i = Some (HRet (vs', os')) /\ points_to (inside vs') x p
  end.
