(** Schedules that go on forever and neglect no thread.  Used in the statements of C87. *)
From Coq Require Import List.
From Verif Require Import MThreadsBuffers.
Import ListNotations.

(** The first [n] entries of a schedule that goes on forever. *)
Definition first {A : Type} (n : nat) (f : nat -> A) : list A := map f (seq 0 n).
(** [x] comes up again and again. *)
Definition recurs {A : Type} (f : nat -> A) (x : A) : Prop := forall n, exists m, (n <= m)%nat /\ f m = x.
(** Every one of [n] threads gets turns again and again. *)
Definition fair (n : nat) (f : nat -> nat) : Prop := forall i, (i < n)%nat -> recurs f i.
(** And, on a machine that delays writes, its oldest write reaches the memory again and again. *)
Definition fair_delays (n : nat) (f : nat -> happening) : Prop := forall i, (i < n)%nat -> recurs f (Turn i) /\ recurs f (Reach i 0).
