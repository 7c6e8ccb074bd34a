(** Model of threads (src/apint/mod.rs 40-46, as MThreads.v) on the flat memory of
    MFlat.v, with an allocator of which only the contract is known.  No proofs in this file. *)
From Coq Require Import ZArith List Bool.
From Verif Require Export MFlat MThreads.
Import ListNotations.
Open Scope Z_scope.

(** What a thread does next at time [t], and what is left of it afterwards, as [tick] of
    MThreads.v and [fexec] of MFlat.v.  [None]: the whole process is aborted, because there
    was no memory or because it was killed.
    src/apint/mod.rs 40-46, src/apint/utils.rs 279-305, src/apint/constructors.rs 28-33, 170-200. *)
Definition ftick {A : Type} (w : world) (t : nat) (h : HM A) (m : flat) : option (HM A * flat) :=
  let m := disturbed w t m in
  if killed w t then None
  else
    match h with
    | HRet _ | HPanic | HFuel | HUndef => Some (h, m)
    | HMalloc [] _ => Some (HUndef, m)
    | HMalloc ds k =>
        match place w t m (length ds) with
        | None => None
        | Some p => Some (k p, mk_flat (overwrite p ds (words m)) ((p, length ds) :: taken m))
        end
    | HFree p n k =>
        match give_back p n (taken m) with
        | Some l => Some (k, mk_flat (words m) l)
        | None => Some (HUndef, m)
        end
    | HLoad p n k => if covers m p n then Some (k (words_at m p n), m) else Some (HUndef, m)
    | HStore p new k =>
        if covers m p (length new)
        then Some (k, mk_flat (overwrite p new (words m)) (taken m))
        else Some (HUndef, m)
    | HSlack n k => Some (k (room w t n), m)
    end.

(** The threads share the memory; [R] is what they return.  src/apint/mod.rs 40-46. *)
Definition fpool (R : Type) : Type := flat * list (HM R).
(** One access of thread [i] (src/apint/mod.rs 40-46). *)
Definition fturn {R : Type} (w : world) (t i : nat) (s : fpool R) : option (fpool R) :=
  match nth_error (snd s) i with
  | Some h => match ftick w t h (fst s) with Some (h, m) => Some (m, update i h (snd s)) | None => None end
  | None => Some s
  end.
(** A schedule says whose turn it is.  src/apint/mod.rs 40-46. *)
Fixpoint finterleave {R : Type} (w : world) (t : nat) (schedule : list nat) (s : fpool R) : option (fpool R) :=
  match schedule with
  | [] => Some s
  | i :: schedule => match fturn w t i s with Some s => finterleave w (S t) schedule s | None => None end
  end.
