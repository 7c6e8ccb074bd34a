(** Words for C107: how often divisions read and write digits, and how many they allocate.  Reading, writing and allocating are
    counted as in SpecWork.v. *)
From Verif Require Export SpecWork MWatchDiv MTime.

(** The call returns, its result is this, it reads and writes digits at most so often, and allocates at most so many. *)
Definition within {A : Type} (m : watched A) (result : outcome A) (accesses allocated : Z) : Prop :=
  snd m = result /\ (exists v, result = Val v) /\
  digits_read (fst m) + digits_written (fst m) <= accesses /\ digits_allocated (fst m) <= allocated.
(** If the call returns, then each step that is counted pays for two accesses, and [k] accesses more are for free. *)
Definition counted {A : Type} (m : watched A) (c : clocked A) (k : Z) : Prop :=
  snd m = snd c /\ forall v, snd m = Val v -> digits_read (fst m) + digits_written (fst m) <= 2 * fst c + k.
