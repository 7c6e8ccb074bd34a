(** What it means that the heap is in order.  Used in the statements of C46. *)
From Coq Require Import ZArith List.
From Verif Require Import MHeap.
Import ListNotations.
Open Scope Z_scope.

(** Variable [v] in memory [m] holds the integer [c]: inline up to 64 bits, and
    above that in an allocated buffer with exactly its ceil(w/64) digits. *)
Definition stored (m : mem) (v : option hapint) (c : option apint) : Prop :=
  match v, c with
  | None, None => True
  | Some a, Some x =>
      hlen a = len x /\ Z.of_nat (length (digits x)) = (len x + 63) / 64 /\
      (len x <= 64 -> exists d, hdata a = UInl d /\ digits x = [d]) /\
      (64 < len x -> exists p, hdata a = UExt p /\ nth_error (blocks m) p = Some (Some (digits x)))
  | _, _ => False
  end.

(** Variable number [i] has the address [p]. *)
Definition points_to (vs : hvars) (i p : nat) : Prop := exists a, nth_error vs i = Some (Some a) /\ hdata a = UExt p.

(** Every allocated buffer is owned by exactly one variable. *)
Definition owned_once (m : mem) (vs : hvars) : Prop :=
  forall p ds, nth_error (blocks m) p = Some (Some ds) -> exists! i, points_to vs i p.

(** Nothing is allocated. *)
Definition all_freed (m : mem) : Prop := forall p ds, nth_error (blocks m) p <> Some (Some ds).

Definition empty_memory (slack : nat -> nat) : mem := mk_mem slack [].
