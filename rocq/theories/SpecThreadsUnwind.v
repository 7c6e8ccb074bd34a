(** What threads show in which calls panic.  Used in the statements of C76. *)
From Coq Require Import List.
From Verif Require Import SpecMachine SpecUnwind MThreadsUnwind SpecHeap SpecThreads.
Import ListNotations.

(** What a thread that died of a panic has left: what was only lent to it. *)
Fixpoint abandon {A : Type} (owns : nat -> bool) (k : nat) (s : list (option A)) : list (option A) :=
  match s with
  | [] => []
  | v :: s => (if owns k then None else v) :: abandon owns (S k) s
  end.
(** A call with [true] is made inside [catch_unwind].  A thread ends after its last call, or
    with the first panic that it does not catch. *)
Fixpoint athread (owns : nat -> bool) (s : store) (p : list (bool * cmd)) : store * (list (option obs) * bool) :=
  match p with
  | [] => (s, ([], false))
  | (caught, c) :: p =>
      let (s, o) := acatch s c in
      match o, caught with
      | None, false => (abandon owns 0 s, ([None], true))
      | _, _ => let (s, r) := athread owns s p in (s, (o :: fst r, snd r))
      end
  end.

(** Thread [k + i] runs the [i]-th program. *)
Fixpoint spawn_catching (k : nat) (give : sharing) (vs : hvars) (programs : list (list (bool * cmd)))
    : list (HM (hvars * (list (option obs) * bool))) :=
  match programs with
  | [] => []
  | p :: programs => hthread (keeper give) (hand k give vs) p :: spawn_catching (S k) give vs programs
  end.
(** What the theorems assume: the main thread has run [setup], catching all panics, and hands
    out its variables to threads that respect that. *)
Definition forked_catching (setup : list cmd) (slack : nat -> nat) (give : sharing) (programs : list (list (bool * cmd)))
    (vs : hvars) (m : mem) : Prop :=
  Forall cmd_ok setup /\ (exists os, exec (hcatches [] setup) (empty_memory slack) = MVal (vs, os) m) /\
  length give = length vs /\ (forall x i, nth_error give x = Some (Some i) -> (i < length programs)%nat) /\
  Forall (fun p => Forall cmd_ok (map snd p) /\ respects give (map snd p)) programs.
