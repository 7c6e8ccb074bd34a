(** Model of threads that take turns before every access to a digit, not only
    before every access to a buffer as in MThreads.v.  The digits of a buffer are
    read and written one by one, the lowest first; a new buffer holds anything
    until its digits are written.  No proofs in this file.  Two simplifications
    remain: what a call reads, computes and writes is not interleaved within
    itself (it reads a buffer as a whole before it writes), and the allocator's
    own work is one step. *)
From Verif Require Export MThreads.

(** A thread between two accesses, or amid one: [DLoad p n got k] has read [got] of
    the [n] digits of buffer [p] it wants, [DStore p new j k] has written [j] of the
    digits [new].  src/apint/mod.rs 40-46, src/apint/utils.rs 279-305. *)
Inductive dthread (A : Type) : Type :=
| DAt (h : HM A)
| DLoad (p n : nat) (got : list Z) (k : list Z -> HM A)
| DStore (p : nat) (new : list Z) (j : nat) (k : HM A).
Arguments DAt {A} h.
Arguments DLoad {A} p n got k.
Arguments DStore {A} p new j k.

(** One digit of [slice::from_raw_parts(p, n)]; [None] if it is not allocated.
    src/apint/utils.rs 279-287. *)
Definition digit_load (p i : nat) (m : mem) : option Z :=
  match nth_error (blocks m) p with
  | Some (Some ds) => nth_error ds i
  | _ => None
  end.
(** One digit of [slice::from_raw_parts_mut(p, n)].  src/apint/utils.rs 292-305. *)
Definition digit_store (p i : nat) (d : Z) (m : mem) : option mem :=
  match nth_error (blocks m) p with
  | Some (Some ds) =>
      if Nat.ltb i (length ds) then Some (mk_mem (slack m) (update p (Some (update i d ds)) (blocks m))) else None
  | _ => None
  end.
(** What a new buffer of [n] digits holds before they are written; [junk] is anything.
    src/apint/constructors.rs 174, src/apint/casting.rs 21. *)
Definition uninit (junk : nat -> nat -> Z) (p n : nat) : list Z := map (junk p) (seq 0 n).

(** Going on with reading, src/apint/utils.rs 279-287: the digits from [length got] on. *)
Definition go_load {A : Type} (p n : nat) (got : list Z) (k : list Z -> HM A) (m : mem) : dthread A * mem :=
  match digit_load p (length got) m with
  | Some d =>
      let got := got ++ [d] in
      ((if Nat.ltb (length got) n then DLoad p n got k else DAt (k got)), m)
  | None => (DAt HUndef, m)
  end.
(** Going on with writing, src/apint/utils.rs 292-305: the digits from [j] on. *)
Definition go_store {A : Type} (p : nat) (new : list Z) (j : nat) (k : HM A) (m : mem) : dthread A * mem :=
  match nth_error new j with
  | Some d =>
      match digit_store p j d m with
      | Some m => ((if Nat.ltb (S j) (length new) then DStore p new (S j) k else DAt k), m)
      | None => (DAt HUndef, m)
      end
  | None => (DAt k, m)
  end.
(** What a thread does next (src/apint/mod.rs 40-46): at most one digit. *)
Definition dtick {A : Type} (junk : nat -> nat -> Z) (t : dthread A) (m : mem) : dthread A * mem :=
  match t with
  | DAt (HMalloc ds k) =>
      let (p, m) := mem_malloc (uninit junk (length (blocks m)) (length ds)) m in
      ((if Nat.ltb 0 (length ds) then DStore p ds 0 (k p) else DAt (k p)), m)
  | DAt (HLoad p n k) => if Nat.ltb 0 n then go_load p n [] k m else (DAt (k []), m)
  | DAt (HStore p new k) => go_store p new 0 k m
  | DAt h => let (h, m) := tick h m in (DAt h, m)
  | DLoad p n got k => go_load p n got k m
  | DStore p new j k => go_store p new j k m
  end.

(** The threads share the memory.  src/apint/mod.rs 40-46. *)
Definition dpool (R : Type) : Type := mem * list (dthread R).
(** One turn of thread [i] (src/apint/mod.rs 40-46). *)
Definition dturn {R : Type} (junk : nat -> nat -> Z) (i : nat) (s : dpool R) : dpool R :=
  match nth_error (snd s) i with
  | Some t => let (t, m) := dtick junk t (fst s) in (m, update i t (snd s))
  | None => s
  end.
(** A schedule says whose turn it is.  src/apint/mod.rs 40-46. *)
Fixpoint dinterleave {R : Type} (junk : nat -> nat -> Z) (schedule : list nat) (s : dpool R) : dpool R :=
  match schedule with
  | [] => s
  | i :: schedule => dinterleave junk schedule (dturn junk i s)
  end.
