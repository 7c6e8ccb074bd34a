(** What a program on [UInt] and [Int] shows that catches every panic and goes on.
    Used in the statements of C69 and C70. *)
From Coq Require Import ZArith List.
From Verif Require Import Spec SpecMachine SpecTyped.
Import ListNotations.
Open Scope Z_scope.

(** The absolute value, as far as the width can hold it. *)
Definition without_sign (x : tval) : tval := mk_tval (tkind x) (twidth x) (norm (tkind x) (twidth x) (Z.abs (tvalue x))).

(** What is left after a call that panics.  What was consumed is gone.  The
    operand behind [&mut] of a division that panics by itself, not by the
    [unwrap] of its operator, has lost its sign.  All else is as before. *)
Definition after_tpanic (s : tstore) (c : tcmd) : tstore :=
  match c with
  | TInto _ _ x | TIntoBin _ _ x _ => update x None s
  | TBin _ o x y =>
      match nth_error s x, nth_error s y with
      | Some (Some a), Some (Some b) => match tabin o a b with None => update x (Some (without_sign a)) s | Some _ => s end
      | _, _ => s
      end
  | _ => s
  end.

(** [None]: the call panicked. *)
Definition tacatch (s : tstore) (c : tcmd) : tstore * option tobs :=
  match tastep s c with Some (s, o) => (s, Some o) | None => (after_tpanic s c, None) end.
Fixpoint tacatches (s : tstore) (p : list tcmd) : tstore * list (option tobs) :=
  match p with
  | [] => (s, [])
  | c :: p => let (s, o) := tacatch s c in let (s, os) := tacatches s p in (s, o :: os)
  end.

(** An integer that its type can hold. *)
Definition in_type (x : tval) : Prop := 0 < twidth x /\ least (tkind x) (twidth x) <= tvalue x <= greatest (tkind x) (twidth x).
