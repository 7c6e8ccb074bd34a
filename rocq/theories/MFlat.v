(** The heap programs of MHeap.v on a flat memory with an allocator of which only
    the contract is known: it may use addresses again, it may refuse, and memory
    that is not allocated may change at any time.  No proofs in this file. *)
From Coq Require Import ZArith List Bool.
From Verif Require Export MHeap.
Import ListNotations.
Open Scope Z_scope.

(** * Memory *)
(** The memory of the process: the word of 64 bits at every address (addresses count
    words), and the allocated regions, each with its address and its size in words.
    src/apint/mod.rs 33-38, src/apint/constructors.rs 170-200. *)
Record flat := mk_flat { words : nat -> Z; taken : list (nat * nat) }.

(** Everything that is not decided by src/apint: where the allocator places a region of [n]
    words ([None]: there is no memory left), what others write to memory that is
    not allocated, how much more than [n] digits [SmallVec] reserves, and whether
    the process is killed, all of this at any time, counted in accesses.
    src/apint/constructors.rs 170-200. *)
Record world := mk_world {
  place : nat -> flat -> nat -> option nat;
  others : nat -> flat -> nat -> Z;
  room : nat -> nat -> nat;
  killed : nat -> bool
}.

(** Memory as src/apint/utils.rs 279-305 sees it: whether an address is allocated. *)
Definition is_taken (m : flat) (a : nat) : bool :=
  existsb (fun r => Nat.leb (fst r) a && Nat.ltb a (fst r + snd r)) (taken m).
(** Memory as src/apint/utils.rs 279-305 sees it: others write where nothing is allocated. *)
Definition disturbed (w : world) (t : nat) (m : flat) : flat :=
  mk_flat (fun a => if is_taken m a then words m a else others w t m a) (taken m).
(** [slice::from_raw_parts(p, n)] needs [n] words of one allocated region.
    src/apint/utils.rs 279-287. *)
Definition covers (m : flat) (p n : nat) : bool :=
  existsb (fun r => Nat.leb (fst r) p && Nat.leb (p + n) (fst r + snd r)) (taken m).
(** Reading a slice.  src/apint/utils.rs 279-287. *)
Definition words_at (m : flat) (p n : nat) : list Z := map (words m) (seq p n).
(** Writing a slice.  src/apint/utils.rs 292-305. *)
Definition overwrite (p : nat) (ds : list Z) (f : nat -> Z) (a : nat) : Z :=
  if Nat.leb p a && Nat.ltb a (p + length ds) then nth (a - p) ds 0 else f a.
(** Freeing takes the address and the size of an allocated region; [None] is
    undefined behaviour.  src/apint/constructors.rs 28-33. *)
Fixpoint give_back (p n : nat) (l : list (nat * nat)) : option (list (nat * nat)) :=
  match l with
  | [] => None
  | (q, k) :: l =>
      if Nat.eqb q p && Nat.eqb k n then Some l
      else match give_back p n l with Some l => Some ((q, k) :: l) | None => None end
  end.

(** * Running *)
(** How a program ends.  [FAborted]: there was no memory ([handle_alloc_error] of
    Rust std aborts the process, nothing unwinds) or the process was killed.
    src/apint/constructors.rs 170-200, src/apint/casting.rs 21. *)
Inductive fres (A : Type) : Type :=
| FVal (a : A) (m : flat)
| FPanic
| FFuel
| FUndefined
| FAborted.
Arguments FVal {A} a m.
Arguments FPanic {A}.
Arguments FFuel {A}.
Arguments FUndefined {A}.
Arguments FAborted {A}.

(** Running a program from time [t] on, as [exec] of MHeap.v.  Asking the allocator for
    nothing is undefined behaviour ([GlobalAlloc::alloc] of Rust std).
    src/apint/utils.rs 279-305, src/apint/constructors.rs 28-33, 170-200. *)
Fixpoint fexec {A : Type} (w : world) (t : nat) (h : HM A) (m : flat) : fres A :=
  let m := disturbed w t m in
  if killed w t then FAborted
  else
    match h with
    | HRet a => FVal a m
    | HPanic => FPanic
    | HFuel => FFuel
    | HUndef => FUndefined
    | HMalloc [] _ => FUndefined
    | HMalloc ds k =>
        match place w t m (length ds) with
        | None => FAborted
        | Some p => fexec w (S t) (k p) (mk_flat (overwrite p ds (words m)) ((p, length ds) :: taken m))
        end
    | HFree p n k =>
        match give_back p n (taken m) with
        | Some l => fexec w (S t) k (mk_flat (words m) l)
        | None => FUndefined
        end
    | HLoad p n k => if covers m p n then fexec w (S t) (k (words_at m p n)) m else FUndefined
    | HStore p new k =>
        if covers m p (length new)
        then fexec w (S t) k (mk_flat (overwrite p new (words m)) (taken m))
        else FUndefined
    | HSlack n k => fexec w (S t) (k (room w t n)) m
    end.
