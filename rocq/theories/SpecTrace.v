(** All that threads do with buffers in the course of an execution.  Used in the statements
    of C88. *)
From Coq Require Import List ZArith.
From Verif Require Import MThreadsDigits.
Import ListNotations.

(** One access to a buffer: reading or writing one of its digits, or giving it back. *)
Inductive access := Reads (p k : nat) | Writes (p k : nat) | Frees (p : nat).
Definition buffer (a : access) : nat := match a with Reads p _ | Writes p _ | Frees p => p end.
Definition harmless (a : access) : Prop := match a with Reads _ _ => True | _ => False end.

(** The access that a thread makes in its next turn. *)
Definition next_access {A : Type} (t : dthread A) : option access :=
  match t with
  | DAt (HLoad p n _) => match n with 0 => None | _ => Some (Reads p 0) end
  | DAt (HStore p new _) => match new with [] => None | _ => Some (Writes p 0) end
  | DAt (HFree p _ _) => Some (Frees p)
  | DAt _ => None
  | DLoad p _ got _ => Some (Reads p (length got))
  | DStore p _ j _ => Some (Writes p j)
  end%nat.
(** Everything that happens under a schedule, in order, and who does it. *)
Fixpoint accesses {R : Type} (junk : nat -> nat -> Z) (schedule : list nat) (s : dpool R) : list (nat * access) :=
  match schedule with
  | [] => []
  | i :: schedule =>
      match nth_error (snd s) i with
      | Some t => match next_access t with Some a => [(i, a)] | None => [] end
      | None => []
      end ++ accesses junk schedule (dturn junk i s)
  end.

(** Two memories with the same buffers allocated, whatever their digits. *)
Definition same_buffers (m1 m2 : mem) : Prop :=
  slack m1 = slack m2 /\ map (option_map (@length Z)) (blocks m1) = map (option_map (@length Z)) (blocks m2).
