(** What a data race is when writes are delayed, and how threads start.  Used in the
    statements of C86. *)
From Coq Require Import List.
From Verif Require Import MThreadsBuffers SpecThreads SpecThreadsDigits.
Import ListNotations.

(** Threads about to start, with no writes under way. *)
Definition started {A : Type} (ts : list (HM A)) : list (bthread A) := map (fun h => (DAt h, [])) ts.
(** All writes have reached the memory. *)
Definition settled {A : Type} (ts : list (bthread A)) : Prop := Forall (fun t => snd t = []) ts.
(** A thread has a write under way to a buffer that another thread is using, or about to
    use, or has a write under way to. *)
Definition delayed_race {A : Type} (ts : list (bthread A)) : Prop :=
  exists i j a b w, i <> j /\ nth_error ts i = Some a /\ nth_error ts j = Some b /\ In w (snd a) /\
    (touches (pending (fst b)) (wblock w) \/ exists v, In v (snd b) /\ wblock v = wblock w).
