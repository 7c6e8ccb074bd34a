(** What the time of a call means.  MTime.v counts steps: one for each digit
    that is read or written, or passed over. *)
From Verif Require Export Spec MTime.

(** How many digits a value of this width has. *)
Definition words (w : Z) : Z := (w + 63) / 64.
(** The call has this result, and takes at most [n] steps. *)
Definition takes {A : Type} (m : clocked A) (result : outcome A) (n : Z) : Prop :=
  snd m = result /\ fst m <= n.
