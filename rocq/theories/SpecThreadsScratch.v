(** All accesses of threads that use buffers as scratch space.  Used in the statements of C90. *)
From Coq Require Import List ZArith.
From Verif Require Import MThreadsScratch SpecTrace.
Import ListNotations.

(** What a deed does with buffers, and who does it. *)
Definition access_of {R : Type} (e : deed) (s : dpool R) : list (nat * access) :=
  match e with
  | Goes i =>
      match nth_error (snd s) i with
      | Some t => match next_access t with Some a => [(i, a)] | None => [] end
      | None => []
      end
  | Scribbles i p l _ =>
      match nth_error (snd s) i with
      | Some t => if scratch p l t (fst s) then [(i, Writes p l)] else []
      | None => []
      end
  end.
(** Everything that happens in a history, in order. *)
Fixpoint accesses_of {R : Type} (junk : nat -> nat -> Z) (history : list deed) (s : dpool R) : list (nat * access) :=
  match history with
  | [] => []
  | e :: history => access_of e s ++ accesses_of junk history (done junk e s)
  end.
