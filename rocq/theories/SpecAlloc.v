(** When memory is needed.  Used in the statements of C52 and C53. *)
From Coq Require Import ZArith List.
From Verif Require Import MHeap SpecHeap.
Import ListNotations.
Open Scope Z_scope.

(** A variable of the abstract machine (SpecMachine.v) of at most 64 bits. *)
Definition narrow (v : option aval) : Prop :=
  match v with Some (w, _) => w <= 64 | None => True end.

(** Run on its own, program [p] never has a wider variable, at any time. *)
Definition narrow_program (p : list cmd) : Prop :=
  forall q r s os, p = q ++ r -> arun [] q = Some (s, os) -> Forall narrow s.

(** How many buffers were ever allocated.  (Buffers are numbered and numbers are
    never reused.) *)
Definition allocations (m : mem) : nat := length (blocks m).

(** Where a variable keeps its digits, if it is in memory. *)
Definition address (v : option hapint) : option nat :=
  match v with Some (mk_hapint _ (UExt p)) => Some p | _ => None end.

(** The calls that the documentation calls in place, on one or two operands. *)
Definition in_place (c : cmd) : Prop :=
  match c with
  | Mut (MNot | MNeg | MInc | MDec | MShl _ | MLshr _ | MAshr _) _ => True
  | Put _ _ => True
  | Bin (BAdd | BSub | BAnd | BOr | BXor) _ _ => True
  | _ => False
  end.
