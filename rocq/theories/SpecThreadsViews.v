(** What the memory of a machine with old values holds now, and how threads start on it.
    Used in the statements of C89. *)
From Coq Require Import List ZArith.
From Verif Require Import MThreadsViews.
Import ListNotations.

(** The message with the latest time. *)
Fixpoint latest (xs : list message) : option message :=
  match xs with
  | [] => None
  | x :: xs =>
      match latest xs with
      | Some y => if Nat.leb (stamp x) (stamp y) then Some y else Some x
      | None => Some x
      end
  end.
Definition latest_value (xs : list message) : Z := match latest xs with Some x => value x | None => 0%Z end.
(** The memory that has of all values the latest. *)
Definition current (m : vmem) : mem := mk_mem (vslack m) (map (option_map (map latest_value)) (vblocks m)).
(** The memory that the main thread leaves: each digit has one value. *)
Definition settled_memory (m : mem) : vmem := mk_vmem (slack m) (map (option_map (map (fun d => [mk_message 0 d]))) (blocks m)).
(** Threads about to start, with the view of the main thread. *)
Definition viewing {A : Type} (ts : list (HM A)) : list (vthread A) := map (fun h => (DAt h, fun _ _ => 0%nat)) ts.
(** What the main thread has seen when it has joined the threads: all that any of them has. *)
Definition joined {A : Type} (ts : list (vthread A)) : horizon := fun p k => fold_right Nat.max 0%nat (map (fun x : vthread A => snd x p k) ts).
