(** What a program shows that catches every panic and goes on.  Used in the
    statements of C58. *)
From Coq Require Import ZArith List.
From Verif Require Import Spec SpecMachine.
Import ListNotations.
Open Scope Z_scope.

(** The absolute value of a signed integer, as a number of its width. *)
Definition magnitude (x : aval) : aval := (fst x, Z.abs (asigned x)).
Definition disturb (s : store) (x : nat) : store :=
  match nth_error s x with Some (Some a) => update x (Some (magnitude a)) s | _ => s end.
(** What is left after a call that panics: an operand that was consumed is gone,
    an operand behind [&mut] has lost its sign, and all else is as before. *)
Definition after_panic (s : store) (c : cmd) : store :=
  match c with
  | Bin _ x _ => disturb s x
  | IntoBin _ x _ => update x None s
  | Pair _ x y => disturb (disturb s x) y
  | _ => s
  end.

(** [None]: the call panicked. *)
Definition acatch (s : store) (c : cmd) : store * option obs :=
  match astep s c with Some (s, o) => (s, Some o) | None => (after_panic s c, None) end.
Fixpoint acatches (s : store) (p : list cmd) : store * list (option obs) :=
  match p with
  | [] => (s, [])
  | c :: p => let (s, o) := acatch s c in let (s, os) := acatches s p in (s, o :: os)
  end.
