(** What a data race is when memory is flat, and what threads on flat memory start
    with.  Used in the statements of C93. *)
From Coq Require Import List.
From Verif Require Import SpecMachine SpecUnwind SpecThreads SpecThreadsUnwind SpecTyped SpecUnwindTyped SpecHeap SpecHeapTyped SpecThreadsTyped.
From Verif Require Import MThreadsFlat MThreadsUnwind MThreadsTyped SpecFlat.
Import ListNotations.

(** A thread is about to read, write or free the word at address [a]. *)
Definition fuses {A : Type} (h : HM A) (a : nat) : Prop :=
  match h with
  | HFree q n _ | HLoad q n _ => within a (q, n)
  | HStore q new _ => within a (q, length new)
  | _ => False
  end.
(** A thread is about to write or free the word at address [a]. *)
Definition fchanges {A : Type} (h : HM A) (a : nat) : Prop :=
  match h with
  | HFree q n _ => within a (q, n)
  | HStore q new _ => within a (q, length new)
  | _ => False
  end.
(** Two threads are about to use the same word, and one of them to write or to free it. *)
Definition fdata_race {A : Type} (ts : list (HM A)) : Prop :=
  exists i j f g a, i <> j /\ nth_error ts i = Some f /\ nth_error ts j = Some g /\ fchanges f a /\ fuses g a.

(** What the theorems assume: in memory [m0], with an honest allocator, the main thread has
    run [setup], catching all panics, and hands out its variables to threads that respect
    that ([forked_catching] of SpecThreadsUnwind.v on flat memory). *)
Definition forked_flat (w : world) (m0 : flat) (setup : list cmd) (give : sharing) (programs : list (list (bool * cmd)))
    (vs : hvars) (m : flat) : Prop :=
  honest w /\ apart (taken m0) /\
  Forall cmd_ok setup /\ (exists os, fexec w 0 (hcatches [] setup) m0 = FVal (vs, os) m) /\
  length give = length vs /\ (forall x i, nth_error give x = Some (Some i) -> (i < length programs)%nat) /\
  Forall (fun p => Forall cmd_ok (map snd p) /\ respects give (map snd p)) programs.
(** The same for [UInt] and [Int] ([tforked] of SpecThreadsTyped.v on flat memory). *)
Definition tforked_flat (w : world) (m0 : flat) (setup : list tcmd) (give : sharing) (programs : list (list (bool * tcmd)))
    (vs : htvars) (m : flat) : Prop :=
  honest w /\ apart (taken m0) /\
  Forall tcmd_ok setup /\ (exists os, fexec w 0 (htcatches [] setup) m0 = FVal (vs, os) m) /\
  length give = length vs /\ (forall x i, nth_error give x = Some (Some i) -> (i < length programs)%nat) /\
  Forall (fun p => Forall tcmd_ok (map snd p) /\ trespects give (map snd p)) programs.
